(** C75: reader() and a for loop give the blocks of the scan. *)
From Coq Require Import String Ascii ZArith List Bool Lia Sorting.
From Coq Require Import Permutation Sorted.
From Verif Require Import Base BaseFacts BlockModel StreamModel StreamSpec StreamProofs StreamProps SectorModel
  SectorSpec SectorProofs SectorProps PyModel PySpec PyProps StemPyModel StemPySpec StemPyProofs StemPyProps
  ScanPathModel ScanPathProofs NameModel NameSpec NameProps LoopModel LoopSpec.
Import ListNotations.
Open Scope Z_scope.

(** ** Lemmas *)

(** [n] calls of the method read of the base class. *)
Fixpoint obj_reads (g : geom) (n : nat) (r : reader_obj) : list (outcome block) * reader_obj :=
  match n with
  | O => ([], r)
  | S m => let '(b, r1) := base_read g r in
           let '(bs, r2) := obj_reads g m r1 in (b :: bs, r2)
  end.

Lemma obj_reads_stream g n : forall s,
  obj_reads g n (RStream s) = (fst (reads n s), RStream (snd (reads n s))).
Proof.
  induction n as [|n IH]; intros s; [reflexivity|]. cbn [obj_reads reads base_read].
  destruct (read_block s) as [b s1]. rewrite IH. now destruct (reads n s1).
Qed.

Lemma obj_reads_sector g n : forall s,
  obj_reads g n (RSector s) = (fst (sector_reads g n s), RSector (snd (sector_reads g n s))).
Proof.
  induction n as [|n IH]; intros s; [reflexivity|]. cbn [obj_reads sector_reads base_read].
  destruct (sector_read g s) as [b s1]. rewrite IH. now destruct (sector_reads g n s1).
Qed.

(** If read() gives the blocks [bs] and then what it gives at the end of the
    data or at a block without a version, the loop sees [bs]. *)
Lemma loop_sees g bs last : forall r,
  Forall (fun b => version (hdr b) <> 0) bs -> version (hdr last) = 0 ->
  fst (obj_reads g (S (List.length bs)) r) = map Ok bs ++ [Ok last] ->
  forall fuel, (List.length bs < fuel)%nat ->
  py_for g fuel r = (bs, Ok tt, snd (obj_reads g (S (List.length bs)) r)).
Proof.
  induction bs as [|b bs IH]; intros r M L H fuel F; destruct fuel as [|fuel]; try (cbn in F; lia).
  - cbn [List.length map app obj_reads] in *. cbn [py_for]. unfold mixin_read.
    destruct (base_read g r) as [o r1]. cbn [fst] in H. injection H as ->. rewrite L. reflexivity.
  - inversion M as [|? ? Mb Mt]; subst.
    change (List.length (b :: bs)) with (S (List.length bs)) in *.
    remember (S (List.length bs)) as n eqn:En.
    cbn [obj_reads map app] in *. cbn [py_for]. unfold mixin_read.
    destruct (base_read g r) as [o r1].
    specialize (IH r1 Mt L). destruct (obj_reads g n r1) as [os r2] eqn:E. cbn [fst snd] in *.
    injection H as -> H. rewrite (proj2 (Z.eqb_neq _ _) Mb).
    rewrite (IH H fuel); [reflexivity|lia].
Qed.

Lemma loop_throws g bs m : forall r,
  Forall (fun b => version (hdr b) <> 0) bs ->
  fst (obj_reads g (S (List.length bs)) r) = map Ok bs ++ [Throw m] ->
  forall fuel, (List.length bs < fuel)%nat ->
  py_for g fuel r = (bs, Throw m, snd (obj_reads g (S (List.length bs)) r)).
Proof.
  induction bs as [|b bs IH]; intros r M H fuel F; destruct fuel as [|fuel]; try (cbn in F; lia).
  - cbn [List.length map app obj_reads] in *. cbn [py_for]. unfold mixin_read.
    destruct (base_read g r) as [o r1]. cbn [fst] in H. injection H as ->. reflexivity.
  - inversion M as [|? ? Mb Mt]; subst.
    change (List.length (b :: bs)) with (S (List.length bs)) in *.
    remember (S (List.length bs)) as n eqn:En.
    cbn [obj_reads map app] in *. cbn [py_for]. unfold mixin_read.
    destruct (base_read g r) as [o r1].
    specialize (IH r1 Mt). destruct (obj_reads g n r1) as [os r2] eqn:E. cbn [fst snd] in *.
    injection H as -> H. rewrite (proj2 (Z.eqb_neq _ _) Mb).
    rewrite (IH H fuel); [reflexivity|lia].
Qed.

Lemma obj_reads_snoc g n : forall r,
  fst (obj_reads g (S n) r) = fst (obj_reads g n r) ++ [fst (base_read g (snd (obj_reads g n r)))].
Proof.
  induction n as [|n IH]; intros r.
  - cbn [obj_reads fst snd app]. now destruct (base_read g r).
  - remember (S n) as k eqn:Ek. cbn [obj_reads]. subst k.
    destruct (base_read g r) as [o r1] eqn:Er. specialize (IH r1).
    destruct (obj_reads g (S n) r1) as [l r2]. cbn [fst] in *. cbn [obj_reads]. rewrite Er.
    destruct (obj_reads g n r1) as [l' r2']. cbn [fst snd] in *. now rewrite IH.
Qed.

(** A loop over a reader at its end sees nothing. *)
Lemma loop_nothing g fuel r : fst (base_read g r) = Ok empty_block -> (0 < fuel)%nat ->
  fst (py_for g fuel r) = ([], Ok tt).
Proof.
  intros E F. destruct fuel as [|fuel]; [lia|]. cbn [py_for]. unfold mixin_read.
  destruct (base_read g r) as [o r1]. cbn [fst] in E. subst o. reflexivity.
Qed.

Lemma use_stream g calls : forall s, py_use g calls (RStream s) = RStream (sr_run calls s).
Proof.
  induction calls as [|[] calls IH]; intros s; cbn [py_use sr_run]; [reflexivity| |].
  - unfold mixin_read, base_read. destruct (read_block s) as [o s']. cbn [snd].
    destruct o; apply IH.
  - cbn [base_reset]. apply IH.
Qed.

Lemma marked_version r : marked r <-> version (hdr (block_of r)) <> 0.
Proof. destruct r; cbn; split; intros; auto; try lia; discriminate. Qed.

(** The first reads of a stream reader over records up to an unmarked one. *)
Lemma reads_until recs shown s :
  until_unmarked recs shown ->
  (forall n, fst (reads n s) = firstn n (map (fun r => Ok (block_of r)) recs ++ repeat (Ok empty_block) n)) ->
  exists last, version (hdr last) = 0 /\
    fst (reads (S (List.length shown)) s) = map Ok (map block_of shown) ++ [Ok last].
Proof.
  intros (rest & -> & M & U) H.
  assert (Hn : forall x tl, fst (reads (S (List.length shown)) s) =
     firstn (S (List.length shown)) ((map (fun r => Ok (block_of r)) shown) ++ x :: tl) ->
     fst (reads (S (List.length shown)) s) = map Ok (map block_of shown) ++ [x]).
  { intros x tl ->. rewrite map_map.
    replace (S (List.length shown)) with (List.length (map (fun r => @Ok block (block_of r)) shown) + 1)%nat
      by (rewrite map_length; lia).
    now rewrite firstn_app_2. }
  specialize (H (S (List.length shown))). rewrite map_app, <- app_assoc in H.
  destruct rest as [|r rest].
  - exists empty_block. split; [reflexivity|]. cbn [map app repeat] in H. exact (Hn _ _ H).
  - exists (block_of r). split; [|cbn [map app] in H; exact (Hn _ _ H)].
    destruct (Z.eq_dec (version (hdr (block_of r))) 0) as [E|E]; [exact E|].
    now apply marked_version in E.
Qed.

Lemma reader_stream fs path names v backend options :
  names <> [] -> names_of path names ->
  v = 1 \/ v = 2 \/ v = 3 ->
  py_reader fs path v backend options = (let* s := stream_reader (map fs names) v in Ok (RStream s)).
Proof.
  intros Ne P Hv. unfold py_reader.
  assert (E : path_names path = names) by (destruct P as [->|(n & -> & ->)]; reflexivity).
  rewrite E. destruct P as [->|(n & -> & _)]; destruct Hv as [->|[->| ->]]; reflexivity.
Qed.

(** ** The theorems *)

(** C75.  A stream of version 1, 2 or 3, in one file or several: reader() opens
    it, whatever the backend and the options; a for loop sees the blocks of the
    records up to the first whose header gives version 0, and ends; if there is no
    such record, a second loop sees nothing; a loop after any reads and resets
    followed by a reset sees the same blocks as the first. *)
Theorem C75_stream g fs path names v recs shown backend options :
  names_of path names -> v = 1 \/ v = 2 \/ v = 3 ->
  stream_scan fs names v recs -> until_unmarked recs shown ->
  exists r, py_reader fs path v backend options = Ok r /\
    (forall fuel, (List.length shown < fuel)%nat ->
       fst (py_for g fuel r) = (map block_of shown, Ok tt)) /\
    (shown = recs -> forall fuel fuel', (List.length recs < fuel)%nat -> (0 < fuel')%nat ->
       fst (py_for g fuel' (snd (py_for g fuel r))) = ([], Ok tt)) /\
    ((forall n b, fs n = Some b -> Forall is_byte b) ->
     forall calls, exists r', base_reset (py_use g calls r) = Ok r' /\
       forall fuel, (List.length shown < fuel)%nat ->
         fst (py_for g fuel r') = (map block_of shown, Ok tt)).
Proof.
  intros P Hv (Ne & Wf & Ver & files & Hold & Hfs) U.
  assert (Nf : files <> []).
  { intros ->. destruct names; [congruence|discriminate]. }
  destruct (stream_decodes files recs v Nf Wf Ver Hold) as (s & E & R).
  assert (Ms : Forall (fun b => version (hdr b) <> 0) (map block_of shown)).
  { destruct U as (rest & _ & M & _). apply Forall_forall. intros b Hb.
    apply in_map_iff in Hb as (r & <- & Hr). apply marked_version. revert Hr. now apply Forall_forall. }
  exists (RStream s). split; [|split; [|split]].
  - rewrite (reader_stream fs path names v backend options Ne P Hv), Hfs, E. reflexivity.
  - intros fuel F. destruct (reads_until recs shown s U R) as (last & L & H).
    rewrite (loop_sees g (map block_of shown) last (RStream s) Ms L).
    + reflexivity.
    + rewrite obj_reads_stream, map_length. exact H.
    + now rewrite map_length.
  - intros -> fuel fuel' F F'. destruct (reads_until recs recs s U R) as (last & L & H).
    rewrite (loop_sees g (map block_of recs) last (RStream s) Ms L).
    2:{ rewrite obj_reads_stream, map_length. exact H. }
    2:{ now rewrite map_length. }
    rewrite map_length. cbn [snd]. apply loop_nothing; [|exact F'].
    pose proof (obj_reads_snoc g (S (List.length recs)) (RStream s)) as Q.
    rewrite (obj_reads_stream g (S (S (List.length recs)))) in Q. cbn [fst] in Q. rewrite R in Q.
    rewrite (obj_reads_stream g (S (List.length recs))) in Q. cbn [fst] in Q. rewrite R in Q.
    rewrite (obj_reads_stream g (S (List.length recs))).
    replace (S (S (List.length recs))) with (List.length (map (fun r => @Ok block (block_of r)) recs) + 2)%nat
      in Q at 1 by (rewrite map_length; lia).
    replace (S (List.length recs)) with (List.length (map (fun r => @Ok block (block_of r)) recs) + 1)%nat
      in Q at 2 by (rewrite map_length; lia).
    rewrite !firstn_app_2 in Q. cbn [repeat firstn] in Q. rewrite <- app_assoc in Q.
    apply app_inv_head in Q. cbn [app] in Q. injection Q as Q. symmetry. exact Q.
  - intros HB calls. rewrite use_stream. cbn [base_reset].
    exists (RStream (reset (sr_run calls s))). split; [reflexivity|]. intros fuel F.
    assert (HB' : byte_files (map (fun f => Some (concat f)) files)).
    { rewrite <- Hfs. intros b Hb. apply in_map_iff in Hb as (n & Hn & _). now apply (HB n). }
    assert (R' : forall n, fst (reads n (reset (sr_run calls s))) =
        firstn n (map (fun r => Ok (block_of r)) recs ++ repeat (Ok empty_block) n)).
    { intros n. rewrite (stream_reset_restarts _ v s HB' E calls n). apply R. }
    destruct (reads_until recs shown _ U R') as (last & L & H).
    rewrite (loop_sees g (map block_of shown) last _ Ms L).
    + reflexivity.
    + rewrite obj_reads_stream, map_length. exact H.
    + now rewrite map_length.
Qed.

(** C75.  If the last file breaks off within a record, the loop sees the blocks
    before it and then an exception. *)
Theorem C75_truncated g fs path names v recs recs' r k files backend options :
  names_of path names -> v = 1 \/ v = 2 \/ v = 3 ->
  Forall wf_record recs -> Forall wf_record recs' -> wf_record r ->
  Forall (fun r => rec_version r = v) (recs ++ recs' ++ [r]) -> Forall marked (recs ++ recs') ->
  files_hold files recs -> (0 < k < List.length (encode r))%nat ->
  map fs names = map (fun f => Some (concat f)) files ++
                 [Some (flat_map encode recs' ++ firstn k (encode r))] ->
  exists o, py_reader fs path v backend options = Ok o /\
    forall fuel, (List.length recs + List.length recs' < fuel)%nat ->
      fst (py_for g fuel o) =
      (map block_of (recs ++ recs'), Throw "Unexpected EOF while processing stream.").
Proof.
  intros P Hv W W' Wr Ver M Hold Hk Hfs.
  destruct (stream_truncated_reported files recs recs' r k 0 v W W' Wr Ver Hold Hk) as (s & E & R).
  cbn [repeat] in E. rewrite app_nil_r in E.
  assert (Ne : names <> []).
  { intros ->. cbn in Hfs. destruct files; discriminate. }
  exists (RStream s). split.
  - rewrite (reader_stream fs path names v backend options Ne P Hv).
    assert (E' : stream_reader (map fs names) v = Ok s)
      by exact (eq_trans (f_equal (fun l => stream_reader l v) Hfs) E).
    exact (f_equal (fun o => let* s0 := o in Ok (RStream s0)) E').
  - intros fuel F.
    rewrite (loop_throws g (map block_of (recs ++ recs'))
               "Unexpected EOF while processing stream." (RStream s)).
    + reflexivity.
    + apply Forall_forall. intros b Hb. apply in_map_iff in Hb as (x & <- & Hx).
      apply marked_version. revert Hx. now apply Forall_forall.
    + rewrite obj_reads_stream, map_length, app_length.
      replace (S (List.length recs + List.length recs')) with
        (List.length recs + List.length recs' + 1)%nat by lia.
      cbn [fst]. rewrite (R 0%nat). cbn [repeat]. now rewrite map_map.
    + rewrite map_length, app_length. lia.
Qed.

Lemma open_files_ok fs : forall names sfs,
  Forall2 (fun name f => single_line name /\ last_number name (fst f) /\ 0 <= fst f < 4 /\
             fs name = Some (flat_map encode_srec (snd f))) names sfs ->
  open_files fs names = Ok (map encode_sfile sfs).
Proof.
  induction 1 as [|name f names sfs (S & N & B & E) _ IH]; [reflexivity|].
  cbn [open_files map]. rewrite E.
  assert (X : extract_sector name = Ok (fst f)).
  { apply (proj1 (C74_sector name S)). left. split; [exact N|lia]. }
  rewrite X. cbn [bind]. rewrite IH. reflexivity.
Qed.

(** C75.  Sector files of version 4 or 5, whose names tell the sectors, in any
    order: a loop sees one block per scan position, first those whose four sectors
    are there, then the others in the order of their positions, each with the
    pixels of the sectors that are there; after that and a reset, a loop sees the
    same again. *)
Theorem C75_sector g fs path names v sfs options :
  wf_geom g -> names_of path names -> v = 4 \/ v = 5 -> sector_scan g fs names sfs ->
  exists r full part,
    py_reader fs path v None options = Ok r /\
    NoDup (full ++ part) /\ StronglySorted Z.lt part /\
    (forall p, In p (full ++ part) <-> exists e, In e (all_records sfs) /\ s_pos (snd e) = p) /\
    (forall p, In p full <-> List.length (records_at p (all_records sfs)) = 4%nat) /\
    let blocks := map (fun p => frame_block g v p (records_at p (all_records sfs))) (full ++ part) in
    forall fuel, (List.length blocks < fuel)%nat ->
      fst (py_for g fuel r) = (blocks, Ok tt) /\
      exists r', base_reset (snd (py_for g fuel r)) = Ok r' /\
        forall fuel', (List.length blocks < fuel')%nat -> fst (py_for g fuel' r') = (blocks, Ok tt).
Proof.
  intros Hg P Hv (Ne & Wf & Ss & F2).
  assert (Nf : sfs <> []).
  { intros ->. inversion F2; subst. congruence. }
  destruct (sector_reader_exactly_once g v sfs Hg Hv Nf Wf Ss)
    as (s & full & part & E & Nd & So & Hin & Hfull & R).
  exists (RSector s), full, part.
  assert (Ep : path_names path = names) by (destruct P as [->|(n & -> & ->)]; reflexivity).
  split; [|do 4 (split; [assumption|])].
  - unfold py_reader. rewrite Ep. unfold new_sector_reader.
    replace ((v =? 4) || (v =? 5)) with true by (destruct Hv as [->| ->]; reflexivity).
    destruct names as [|n0 names]; [congruence|]. cbn [negb].
    rewrite (open_files_ok fs _ _ F2). cbn [bind]. rewrite E.
    destruct P as [->|(n & -> & _)]; reflexivity.
  - intros blocks fuel F.
    assert (Mb : Forall (fun b => version (hdr b) <> 0) blocks).
    { apply Forall_forall. intros b Hb. apply in_map_iff in Hb as (p & <- & _). cbn.
      destruct Hv as [->| ->]; discriminate. }
    assert (Lb : List.length blocks = List.length (full ++ part)) by (unfold blocks; apply map_length).
    assert (R1 : forall s', (forall n, fst (sector_reads g n s') = fst (sector_reads g n s)) ->
      fst (obj_reads g (S (List.length blocks)) (RSector s')) = map Ok blocks ++ [Ok empty_block]).
    { intros s' Hs. rewrite obj_reads_sector. cbn [fst]. rewrite Hs, R.
      unfold blocks. rewrite map_map, map_length.
      replace (S (List.length (full ++ part))) with
        (List.length (map (fun p => @Ok block (frame_block g v p (records_at p (all_records sfs)))) (full ++ part)) + 1)%nat
        by (rewrite map_length; lia).
      rewrite firstn_app_2. f_equal. rewrite map_length, Nat.add_1_r. reflexivity. }
    rewrite (loop_sees g blocks empty_block (RSector s) Mb eq_refl (R1 s (fun n => eq_refl)) fuel F).
    split; [reflexivity|]. cbn [snd]. rewrite obj_reads_sector. cbn [snd base_reset].
    eexists. split; [reflexivity|]. intros fuel' F'.
    rewrite (loop_sees g blocks empty_block _ Mb eq_refl) with (fuel := fuel'); [reflexivity| |exact F'].
    apply R1. intros n.
    apply (sector_reset_restarts g v sfs s (S (List.length blocks)) n Hg Hv Wf E).
    pose proof (R1 s (fun n => eq_refl)) as Q. rewrite obj_reads_sector in Q. cbn [fst] in Q.
    rewrite Q. apply last_last.
Qed.

(** The loop over a PyReader and the one in C++ see the same. *)
Lemma py_loop g fuel : forall p bs p',
  py_iterate fuel p = Ok (bs, p') -> py_for g fuel (RPy p) = (bs, Ok tt, RPy p').
Proof.
  induction fuel as [|fuel IH]; intros p bs p' H; [discriminate|].
  cbn [py_iterate] in H. cbn [py_for]. unfold mixin_read. cbn [base_read].
  unfold py_read in *. destruct (py_total p <=? py_cur p) eqn:T.
  - cbn [bind data empty_block] in H. injection H as <- <-. reflexivity.
  - destruct (py_image_numbers _ _ _) as [nums| | |]; try discriminate.
    cbn [bind data hdr version] in *.
    destruct (py_iterate fuel _) as [[bs1 p1]| | |] eqn:I; try discriminate.
    cbn [bind] in H. injection H as <- <-. rewrite (IH _ _ _ I). reflexivity.
Qed.

(** Reads and resets of a PyReader move only its place in the data. *)
Lemma use_py g calls : forall p, exists q, py_use g calls (RPy p) = RPy q /\ py_reset q = py_reset p.
Proof.
  induction calls as [|[] calls IH]; intros p; cbn [py_use]; [eauto| |].
  - unfold mixin_read, base_read.
    assert (X : forall b q, py_read p = Ok (b, q) -> py_reset q = py_reset p).
    { intros b q. unfold py_read. destruct (_ <=? _); [intros [= _ <-]; reflexivity|].
      destruct (py_image_numbers _ _ _); try discriminate. intros [= _ <-]. reflexivity. }
    destruct (py_read p) as [[b q]| | |] eqn:E; cbn [snd]; [|apply IH..].
    destruct (IH q) as (q' & -> & Q). exists q'. split; [reflexivity|]. rewrite Q. now apply (X b).
  - cbn [base_reset]. destruct (IH (py_reset p)) as (q & -> & Q). exists q. split; [reflexivity|exact Q].
Qed.

(** C75.  Raw data saved with save_raw_data: whatever version, backend and options
    are given, a loop over the file's reader sees the frames in their order, in
    blocks of 32 (the last may be smaller), with their positions and the scan; a
    loop after any reads and resets followed by a reset sees the same. *)
Theorem C75_raw_file g fs f a dims positions scan version backend options :
  no_raw f -> array_ok a -> 0 <= nd_count a <= 2 ^ 32 - 32 ->
  recorded_scan dims (h5_stem f) scan -> is_u32 (fst scan) -> is_u32 (snd scan) ->
  match positions with Some l => Zlen l = nd_count a /\ Forall is_u32 l | None => True end ->
  exists r blocks fuel0,
    py_reader fs (RawFile (fst (save_raw_data f a dims positions))) version backend options = Ok r /\
    (forall fuel, (fuel0 <= fuel)%nat -> fst (py_for g fuel r) = (blocks, Ok tt)) /\
    (forall calls, exists r', base_reset (py_use g calls r) = Ok r' /\
       forall fuel, (fuel0 <= fuel)%nat -> fst (py_for g fuel r') = (blocks, Ok tt)) /\
    (Zlen blocks - 1) * 32 < nd_count a <= Zlen blocks * 32 /\
    forall k b, nth_error blocks k = Some b ->
      let lo := Z.of_nat k * 32 in
      let n := Z.min 32 (nd_count a - lo) in
      0 < n /\ images_in_block (hdr b) = n /\ scan_dims (hdr b) = scan /\
      frame_dims (hdr b) = (nd_cols a, nd_rows a) /\
      image_numbers (hdr b) = map (fun i => position positions (lo + i)) (zseq n) /\
      forall i y x, 0 <= i < n -> 0 <= y < nd_rows a -> 0 <= x < nd_cols a ->
        block_pixel b i y x = Some (nd_pixel a (lo + i) y x).
Proof.
  intros Nr Aok Cn Rc U1 U2 Hp.
  destruct (save_raw_data_stores f a dims positions Nr Aok)
    as (f' & c & E & Ef & (Esh & Epx) & Cc & Ed & Ep & Es).
  rewrite E. cbn [fst].
  set (numbers := match positions with Some l => l | None => zseq (nd_count a) end).
  assert (Cnt : nd_count c = nd_count a /\ nd_rows c = nd_rows a /\ nd_cols c = nd_cols a).
  { unfold nd_count, nd_rows, nd_cols. now rewrite Esh. }
  destruct Cnt as (Cc1 & Cr & Ccol).
  assert (Ln : Zlen numbers = nd_count a).
  { unfold numbers. destruct positions; [apply Hp|]. rewrite Zlen_zseq; lia. }
  assert (Hu : Forall is_u32 numbers).
  { unfold numbers. destruct positions; [apply Hp|]. apply Forall_forall. intros z Hz.
    apply in_zseq in Hz. unfold is_u32. lia. }
  assert (G : get_hdf5_reader f' = Ok (py_new c numbers scan 32 (nd_count a))).
  { unfold get_hdf5_reader. rewrite Ef, Ed, Ep, Es, Cc1.
    assert (X : new_pyreader c numbers scan 32 (nd_count a) = Ok (py_new c numbers scan 32 (nd_count a))).
    { unfold new_pyreader. rewrite forallb_u32 by exact Hu. rewrite !is_u32b_true; auto.
      unfold is_u32. lia. }
    fold numbers.
    destruct Rc as [-> | (-> & m & Hm)]; cbn [bind]; [exact X|].
    rewrite Hm. cbn [bind]. destruct scan; exact X. }
  assert (Gp : good_py c numbers 32 (nd_count a)).
  { split; [exact Cc|]. rewrite Ln, Cc1. lia. }
  destruct (py_reader_iteration c numbers scan 32 (nd_count a) Gp)
    as (fuel0 & bs & p & It & Nums & Sz & Bl).
  exists (RPy (py_new c numbers scan 32 (nd_count a))), bs, fuel0.
  assert (Lp : forall fuel, (fuel0 <= fuel)%nat ->
    fst (py_for g fuel (RPy (py_new c numbers scan 32 (nd_count a)))) = (bs, Ok tt)).
  { intros fuel F. assert (It' : py_iterate fuel (py_new c numbers scan 32 (nd_count a)) = Ok (bs, p)).
    { clear -It F. revert fuel bs p F It. generalize (py_new c numbers scan 32 (nd_count a)).
      induction fuel0 as [|k IH]; intros q fuel bs p F It; [discriminate|].
      destruct fuel as [|fuel]; [lia|]. cbn [py_iterate] in *.
      destruct (py_read q) as [[b q']| | |]; try discriminate. cbn [bind] in *.
      destruct (data b); [|exact It].
      destruct (py_iterate k q') as [[bs' p']| | |] eqn:I; try discriminate.
      rewrite (IH q' fuel bs' p' ltac:(lia) I). exact It. }
    rewrite (py_loop g fuel _ _ _ It'). reflexivity. }
  split; [unfold py_reader; rewrite G; reflexivity|]. split; [exact Lp|]. split; [|split; [exact Sz|]].
  - intros calls. destruct (use_py g calls (py_new c numbers scan 32 (nd_count a))) as (q & -> & Q).
    cbn [base_reset]. rewrite Q. eexists. split; [reflexivity|exact Lp].
  - intros k b Hb. set (lo := Z.of_nat k * 32). set (n := Z.min 32 (nd_count a - lo)).
    destruct (Bl k b Hb) as ((B1 & B2 & B3 & B4 & B5 & B6) & Hlt).
    replace (Z.min ((Z.of_nat k + 1) * 32) (nd_count a) - Z.of_nat k * 32) with n in *
      by (unfold n, lo; lia).
    fold lo in B2, B6, Hlt. split; [unfold n; lia|]. split; [exact B1|]. split; [exact B4|].
    split; [rewrite B3; congruence|]. split.
    + rewrite B2. apply map_ext_in. intros i Hi. apply in_zseq in Hi. unfold numbers, position.
      destruct positions as [l|]; [reflexivity|]. rewrite <- (map_id (zseq (nd_count a))), zat_map_zseq; unfold n, lo in *; lia.
    + intros i y x Hi Hy Hx. rewrite B6 by lia. rewrite Epx by (unfold n, lo in *; lia). reflexivity.
Qed.

(** C75.  reader() returns a reader or raises; it is never undefined. *)
Theorem C75_defined fs path version backend options :
  (exists r, py_reader fs path version backend options = Ok r) \/
  (exists m, py_reader fs path version backend options = Throw m).
Proof.
  assert (X : forall n, (exists k, extract_sector n = Ok k) \/ exists m, extract_sector n = Throw m).
  { intros n. unfold extract_sector, stoi. destruct (search_name n); [|eauto].
    destruct (unsigned t); [|eauto]. destruct (_ <? _); eauto. }
  assert (O : forall l, (exists r, open_files fs l = Ok r) \/ exists m, open_files fs l = Throw m).
  { induction l as [|n l IH]; cbn [open_files]; [eauto|]. destruct (fs n); [|eauto].
    destruct (X n) as [(k & ->)|(m & ->)]; cbn [bind]; [|eauto].
    destruct IH as [(k' & ->)|(m & ->)]; cbn [bind]; eauto. }
  assert (N : forall l v, (exists r, new_sector_reader fs l v = Ok r) \/
                          exists m, new_sector_reader fs l v = Throw m).
  { intros l v. unfold new_sector_reader. destruct (negb _) eqn:V; [eauto|]. destruct l as [|n l]; [eauto|].
    destruct (O (n :: l)) as [(k & ->)|(m & ->)]; cbn [bind]; [|eauto].
    unfold sector_reader. rewrite V. destruct k; eauto. }
  assert (T : (exists n, threads_option options = Ok n) \/ exists m, threads_option options = Throw m).
  { induction options as [|[k n] t IH]; cbn [threads_option]; [eauto|].
    destruct (_ && _); [|eauto]. destruct IH as [(k' & ->)|(m & ->)]; cbn [bind]; eauto. }
  assert (S : forall l v, (exists r, stream_reader l v = Ok r) \/ exists m, stream_reader l v = Throw m).
  { intros l v. unfold stream_reader, open_next. destruct l as [|x l]; [eauto|].
    destruct (at_end _); [eauto|]. destruct (nth_error _ _) as [[b|]|]; eauto. }
  assert (H : forall f, (exists r, get_hdf5_reader f = Ok r) \/ exists m, get_hdf5_reader f = Throw m).
  { intros f. unfold get_hdf5_reader. destruct (h5_frames f); [|eauto].
    destruct (h5_dims f); [|destruct (h5_stem f) as [[[? ?] ?]|]; [|cbn; eauto]]; cbn [bind];
      unfold new_pyreader; destruct (_ && _); eauto. }
  unfold py_reader. destruct path as [n|l|f].
  1,2: destruct ((version =? 4) || (version =? 5));
    [destruct backend as [b|];
      [destruct (text_eqb b (lit "thread"));
        [destruct T as [(k & ->)|(m & ->)]; cbn [bind]; [|eauto];
         match goal with |- context [new_sector_reader _ ?a ?b] => destruct (N a b) as [(s & ->)|(m & ->)] end; cbn [bind]; eauto
        |destruct (text_eqb b (lit "multi-pass")); [|eauto];
         destruct (negb (version =? 5)); [eauto|];
         destruct T as [(k & ->)|(m & ->)]; cbn [bind]; [|eauto];
         match goal with |- context [new_sector_reader _ ?a ?b] => destruct (N a b) as [(s & ->)|(m & ->)] end; cbn [bind]; eauto]
      |match goal with |- context [new_sector_reader _ ?a ?b] => destruct (N a b) as [(s & ->)|(m & ->)] end; cbn [bind]; eauto]
    |destruct (is_u8b version); [|eauto];
     match goal with |- context [stream_reader ?a ?b] => destruct (S a b) as [(s & ->)|(m & ->)] end; cbn [bind]; eauto].
  destruct (H f) as [(r & ->)|(m & ->)]; cbn [bind]; eauto.
Qed.

(** C75.  What reader() refuses for the files of a scan: a backend it does not
    know, the multi-pass reader for version 4, an option the threaded readers do not
    have, no files, a sector file that cannot be opened, wherever it is in the list,
    and a first stream file that cannot be opened. *)
Theorem C75_refused fs path names v backend options :
  names_of path names ->
  let result := py_reader fs path v backend options in
  (v = 4 \/ v = 5 -> forall b, backend = Some b -> b <> lit "thread" -> b <> lit "multi-pass" ->
     exists m, result = Throw m) /\
  (v = 4 -> backend = Some (lit "multi-pass") -> exists m, result = Throw m) /\
  (v = 4 \/ v = 5 -> backend <> None -> forall k n, In (k, n) options -> k <> lit "threads" ->
     exists m, result = Throw m) /\
  (names = [] -> exists m, result = Throw m) /\
  (v = 4 \/ v = 5 -> forall n, In n names -> fs n = None -> exists m, result = Throw m) /\
  (v <> 4 -> v <> 5 -> forall n, hd_error names = Some n -> fs n = None -> exists m, result = Throw m).
Proof.
  intros P result.
  assert (D : forall r, result = Ok r -> py_reader fs path v backend options = Ok r) by auto.
  assert (Q : (forall r, result <> Ok r) -> exists m, result = Throw m).
  { intros H. destruct (C75_defined fs path v backend options) as [(r & E)|X]; [|exact X].
    destruct (H r E). }
  assert (Ep : path_names path = names) by (destruct P as [->|(n & -> & ->)]; reflexivity).
  assert (F : py_reader fs path v backend options = py_reader fs (ManyFiles names) v backend options).
  { destruct P as [->|(n & -> & ->)]; reflexivity. }
  unfold result in *. rewrite F in *. clear F Ep P path result. unfold py_reader in *. cbn [path_names] in *.
  assert (Eq : forall b c, text_eqb b c = true <-> b = c).
  { intros b c. unfold text_eqb. destruct (list_eq_dec ascii_dec b c); split; congruence. }
  assert (V : v = 4 \/ v = 5 -> (v =? 4) || (v =? 5) = true)
    by (intros [->| ->]; reflexivity).
  assert (Th : forall k n, In (k, n) options -> k <> lit "threads" -> forall t, threads_option options <> Ok t).
  { clear. induction options as [|[k' n'] l IH]; intros k n Hin Hk t; [destruct Hin|].
    cbn [threads_option]. destruct Hin as [E|Hin].
    - injection E as -> ->. unfold text_eqb. destruct (list_eq_dec _ _ _); [congruence|]. discriminate.
    - destruct (_ && _); [|discriminate]. specialize (IH k n Hin Hk).
      destruct (threads_option l) as [z| | |]; cbn [bind]; try discriminate. now destruct (IH z). }
  assert (Op : forall n, In n names -> fs n = None -> forall r, open_files fs names <> Ok r).
  { clear. induction names as [|n' l IH]; intros n Hin Hn r; [destruct Hin|].
    cbn [open_files]. destruct Hin as [->|Hin]; [rewrite Hn; discriminate|].
    destruct (fs n'); [|discriminate]. destruct (extract_sector n'); cbn [bind]; try discriminate.
    specialize (IH n Hin Hn). destruct (open_files fs l) as [z| | |]; cbn [bind]; try discriminate.
    now destruct (IH z). }
  assert (Ns : forall w, ((forall r, open_files fs names <> Ok r) \/ names = []) ->
     forall r, new_sector_reader fs names w <> Ok r).
  { intros w H r. unfold new_sector_reader. destruct ((w =? 4) || (w =? 5)); cbn [negb]; [|discriminate].
    destruct names as [|n l]; [discriminate|]. destruct H as [H|H]; [|discriminate].
    destruct (open_files fs (n :: l)) as [z| | |]; cbn [bind]; try discriminate. now destruct (H z). }
  assert (X : ((forall r, open_files fs names <> Ok r) \/ names = []) -> forall r,
    match backend with
    | Some b =>
        if text_eqb b (lit "thread") then
          let* n := threads_option options in
          let* s := new_sector_reader fs names v in Ok (RThreaded s n)
        else if text_eqb b (lit "multi-pass") then
          if negb (v =? 5) then Throw "The multi pass threaded reader only support file verison 5"
          else let* n := threads_option options in
               let* s := new_sector_reader fs names 5 in Ok (RMultiPass s n)
        else Throw "ValueError: Unrecongnized backend"
    | None => let* s := new_sector_reader fs names v in Ok (RSector s)
    end <> Ok r).
  { intros H r. pose proof (fun w => Ns w H) as N0.
    assert (Y : forall w (f : ssr -> outcome reader_obj),
              (let* s := new_sector_reader fs names w in f s) <> Ok r).
    { intros w f. destruct (new_sector_reader fs names w) as [z| | |] eqn:E; try discriminate.
      now destruct (N0 w z). }
    destruct backend as [b|]; [|apply Y].
    destruct (text_eqb b (lit "thread")); [destruct (threads_option options); try discriminate; apply Y|].
    destruct (text_eqb b (lit "multi-pass")); [|discriminate].
    destruct (negb (v =? 5)); [discriminate|]. destruct (threads_option options); try discriminate; apply Y. }
  split; [|split; [|split; [|split; [|split]]]].
  - intros Hv b -> H1 H2. apply Q. intros r. rewrite (V Hv).
    destruct (text_eqb b (lit "thread")) eqn:E1; [apply Eq in E1; congruence|].
    destruct (text_eqb b (lit "multi-pass")) eqn:E2; [apply Eq in E2; congruence|]. discriminate.
  - intros -> ->. eexists. reflexivity.
  - intros Hv Hb k n Hin Hk. apply Q. intros r. rewrite (V Hv).
    destruct backend as [b|]; [|congruence]. specialize (Th k n Hin Hk).
    destruct (threads_option options) as [z| | |]; [now destruct (Th z)| | |];
      (destruct (text_eqb b (lit "thread")); [discriminate|];
       destruct (text_eqb b (lit "multi-pass")); [|discriminate];
       destruct (negb (v =? 5)); discriminate).
  - intros Hn. apply Q. intros r. destruct ((v =? 4) || (v =? 5)) eqn:Ev.
    + apply X. now right.
    + subst names. destruct (is_u8b v); discriminate.
  - intros Hv n Hin Hn. apply Q. intros r. rewrite (V Hv). apply X. left. now apply (Op n).
  - intros H4 H5 n Hn Hf. apply Q. intros r.
    rewrite (proj2 (Z.eqb_neq v 4) H4), (proj2 (Z.eqb_neq v 5) H5). cbn [orb].
    destruct (is_u8b v); [|discriminate]. destruct names as [|n' l]; [discriminate|].
    injection Hn as ->. cbn [map]. unfold stream_reader, open_next, at_end, close_cur. cbn.
    rewrite Hf. discriminate.
Qed.

(** C75.  The threaded readers read the files that the plain sector reader would
    read, with the number of threads that was asked for, or the default 0. *)
Theorem C75_threads fs path names v s :
  names_of path names -> v = 4 \/ v = 5 ->
  py_reader fs path v None [] = Ok (RSector s) ->
  (forall n, is_i32b n = true ->
     py_reader fs path v (Some (lit "thread")) [(lit "threads", n)] = Ok (RThreaded s n) /\
     (v = 5 -> py_reader fs path v (Some (lit "multi-pass")) [(lit "threads", n)] = Ok (RMultiPass s n))) /\
  py_reader fs path v (Some (lit "thread")) [] = Ok (RThreaded s 0) /\
  (v = 5 -> py_reader fs path v (Some (lit "multi-pass")) [] = Ok (RMultiPass s 0)).
Proof.
  intros P Hv E.
  assert (F : forall b o, py_reader fs path v b o = py_reader fs (ManyFiles names) v b o).
  { intros b o. destruct P as [->|(n & -> & ->)]; reflexivity. }
  assert (V : (v =? 4) || (v =? 5) = true) by (destruct Hv as [->| ->]; reflexivity).
  assert (N : new_sector_reader fs names v = Ok s).
  { rewrite F in E. unfold py_reader in E. rewrite V in E. cbn [path_names] in E.
    destruct (new_sector_reader fs names v) as [s'| | |]; try discriminate.
    cbn [bind] in E. now injection E as ->. }
  clear E. split; [|split].
  - intros n Hn. rewrite !F. unfold py_reader. rewrite V. cbn [path_names].
    cbn [threads_option]. rewrite Hn. split; [cbn -[new_sector_reader]; rewrite N; reflexivity|].
    intros ->. cbn -[new_sector_reader]. rewrite N. reflexivity.
  - rewrite F. unfold py_reader. rewrite V. cbn -[new_sector_reader]. rewrite N. reflexivity.
  - intros ->. rewrite F. unfold py_reader. cbn -[new_sector_reader]. rewrite N. reflexivity.
Qed.

(** ** Findings *)

(** The threaded and the multi-pass reader cannot be iterated over: the loop
    raises AttributeError at once, and so does reset. *)
Theorem C75_threaded_refuted g fs path names v b options r :
  names_of path names -> v = 4 \/ v = 5 ->
  py_reader fs path v (Some b) options = Ok r ->
  (forall fuel, (0 < fuel)%nat -> py_for g fuel r = ([], Throw no_attribute, r)) /\
  exists m, base_reset r = Throw m.
Proof.
  intros P Hv E.
  assert (K : (exists s n, r = RThreaded s n) \/ (exists s n, r = RMultiPass s n)).
  { unfold py_reader in E.
    replace ((v =? 4) || (v =? 5)) with true in E by (destruct Hv as [->| ->]; reflexivity).
    destruct P as [->|(n0 & -> & _)];
      (destruct (text_eqb b (lit "thread"));
       [destruct (threads_option options) as [n| | |]; try discriminate; cbn [bind] in E;
        destruct (new_sector_reader _ _ _); try discriminate; injection E as <-; eauto
       |destruct (text_eqb b (lit "multi-pass")); [|discriminate];
        destruct (negb (v =? 5)); [discriminate|];
        destruct (threads_option options) as [n| | |]; try discriminate; cbn [bind] in E;
        destruct (new_sector_reader _ _ _); try discriminate; injection E as <-; eauto]). }
  destruct K as [(s & n & ->)|(s & n & ->)];
    (split; [intros [|fuel] F; [lia|reflexivity]|eexists; reflexivity]).
Qed.

(** For versions 1 to 3 a backend and options are dropped without a word, even if
    there is no such backend; so are the options if no backend is given. *)
Theorem C75_ignored_refuted fs path names v backend options :
  names_of path names ->
  (v <> 4 -> v <> 5 -> py_reader fs path v backend options = py_reader fs path v None []) /\
  py_reader fs path v None options = py_reader fs path v None [].
Proof.
  intros P. split.
  - intros H4 H5. unfold py_reader.
    rewrite (proj2 (Z.eqb_neq v 4) H4), (proj2 (Z.eqb_neq v 5) H5). cbn [orb].
    destruct P as [->|(n & -> & _)]; reflexivity.
  - destruct P as [->|(n & -> & _)]; reflexivity.
Qed.

(** A version 1 record whose header gives version 0 ends the loop in Python as if
    the data ended there; the iteration in C++ sees all records. *)
Definition zero_record (ver k px : Z) : record :=
  Rec1 1 1 ver 0 (repeat 0 5) [k] (repeat 0 1013) [px].

Lemma zero_record_wf ver k px : 0 <= ver < 2 ^ 32 -> 1 <= k < 2 ^ 32 -> is_u16 px ->
  wf_record (zero_record ver k px).
Proof.
  intros Hv Hk Hp. cbn [zero_record wf_record]. unfold is_u32.
  split; [lia|]. split; [lia|]. split; [unfold Zlen; cbn; lia|]. split; [unfold Zlen; cbn; lia|].
  do 4 (split; [lia|]). split; [reflexivity|].
  split; [unfold Zlen; rewrite repeat_length; cbn; lia|].
  assert (Z0 : forall n, Forall (fun v => 0 <= v < 2 ^ 32) (repeat 0 n)).
  { intros n. apply Forall_forall. intros z Hz. apply repeat_spec in Hz. lia. }
  split; [apply Z0|]. split; [constructor; [lia|constructor]|]. split; [apply Z0|].
  split; [reflexivity|]. constructor; [exact Hp|constructor].
Qed.

Theorem C75_version_zero_refuted g : exists fs names recs r s s',
  stream_scan fs names 1 recs /\ List.length recs = 3%nat /\
  py_reader fs (ManyFiles names) 1 None [] = Ok r /\ stream_reader (map fs names) 1 = Ok s /\
  (forall fuel, (1 < fuel)%nat -> fst (py_for g fuel r) = (map block_of (firstn 1 recs), Ok tt)) /\
  (forall fuel, (3 < fuel)%nat -> iterate fuel s = (Ok (map block_of recs), s')).
Proof.
  set (recs := [zero_record 1 1 5; zero_record 0 2 6; zero_record 1 3 7]).
  assert (Wf : Forall wf_record recs).
  { apply Forall_forall. intros r Hr. cbn [recs In] in Hr.
    repeat destruct Hr as [<-|Hr]; try contradiction; apply zero_record_wf; unfold is_u16; lia. }
  assert (Ver : Forall (fun r => rec_version r = 1) recs) by repeat constructor.
  assert (Hold : files_hold [flat_map pieces recs] recs).
  { unfold files_hold. cbn [concat]. apply app_nil_r. }
  set (fs := fun _ : text => Some (concat (flat_map pieces recs))).
  assert (Sc : stream_scan fs [lit "a"] 1 recs).
  { split; [discriminate|]. split; [exact Wf|]. split; [exact Ver|].
    exists [flat_map pieces recs]. split; [exact Hold|reflexivity]. }
  assert (U : until_unmarked recs (firstn 1 recs)).
  { exists (skipn 1 recs). split; [reflexivity|]. split; [constructor; [discriminate|constructor]|].
    cbn. tauto. }
  destruct (C75_stream g fs _ [lit "a"] 1 recs (firstn 1 recs) None [] (or_introl eq_refl)
              (or_introl eq_refl) Sc U) as (r & E & L & _).
  destruct (stream_iteration [flat_map pieces recs] recs 1 ltac:(discriminate) Wf Ver Hold)
    as (s & s' & E' & L' & _).
  exists fs, [lit "a"], recs, r, s, s'. split; [exact Sc|]. split; [reflexivity|]. split; [exact E|].
  split; [exact E'|]. split; [exact L|exact L'].
Qed.

(** A sector file whose name has no number is opened, as sector -1; reading its
    first record writes outside the frame. *)
Theorem C75_unnumbered_undefined g fs path name v rec rest :
  wf_geom g -> names_of path [name] -> v = 4 \/ v = 5 ->
  single_line name -> no_number name -> wf_srec g rec ->
  fs name = Some (encode_srec rec ++ rest) ->
  exists r, py_reader fs path v None [] = Ok r /\
    forall fuel, (0 < fuel)%nat -> fst (py_for g fuel r) = ([], UB "write out of bounds").
Proof.
  intros Hg P Hv S Nn Wf E.
  assert (X : extract_sector name = Ok (-1)).
  { apply (proj1 (C74_sector name S)). right. auto. }
  eexists. split.
  - assert (F : py_reader fs path v None [] = py_reader fs (ManyFiles [name]) v None []).
    { destruct P as [->|(n & -> & Q)]; [reflexivity|]. injection Q as ->. reflexivity. }
    rewrite F. unfold py_reader, new_sector_reader. cbn [path_names open_files].
    rewrite E, X.
    replace ((v =? 4) || (v =? 5)) with true by (destruct Hv as [->| ->]; reflexivity).
    cbn [bind negb]. unfold sector_reader.
    replace ((v =? 4) || (v =? 5)) with true by (destruct Hv as [->| ->]; reflexivity).
    reflexivity.
  - intros [|fuel] F; [lia|]. cbn [py_for]. unfold mixin_read, base_read.
    assert (A : absorb g v (-1) (encode_srec rec ++ rest) [] = UB "write out of bounds").
    { unfold absorb. rewrite (sector_header_ok g rec rest Wf). cbn [bind map_get].
      unfold new_frame at 1. cbn [f_block block_data data bind].
      set (d := repeat 0 _).
      assert (Hd : Zlen d = g_w g * g_h g).
      { unfold d, Zlen. rewrite repeat_length. destruct Hg as (G1 & G2 & _ & _ & G5).
        rewrite u32_id by (unfold is_u32; nia). rewrite Z2Nat.id; nia. }
      unfold read_sector_data.
      destruct Wf as (_ & _ & _ & _ & _ & _ & Hlen & Hu).
      rewrite sector_size_eq by auto.
      assert (En : npix_sector g = Zlen (s_px rec)) by (pose proof (npix_sector_4 g Hg); lia).
      rewrite En.
      assert (EL : List.length (flat_map (le_bytes 2) (s_px rec)) = Z.to_nat (Zlen (s_px rec) * 2)).
      { rewrite flat_le_length. unfold Zlen. lia. }
      replace (Zlen (s_px rec) * 2 <=? _) with true.
      2:{ symmetry; apply Z.leb_le. unfold Zlen at 2. rewrite app_length, EL. lia. }
      replace (Z.to_nat (Zlen (s_px rec))) with (List.length (s_px rec)) by (unfold Zlen; lia).
      rewrite words_flat by (now apply forall_u16_256).
      rewrite (proj1 (sector_outside_frame_undefined g v (s_px rec) d Hg Hv Hlen Hd)). reflexivity. }
    unfold sector_read, sector_fuel. cbn [ss_streams List.length].
    match goal with |- context [sector_read_f g ?n _] => destruct n eqn:En; [lia|] end.
    cbn [sector_read_f ss_streams ss_it nth_error].
    assert (Ne : exists c l, encode_srec rec ++ rest = c :: l).
    { unfold encode_srec. cbn [flat_map le_bytes app]. eauto. }
    destruct Ne as (c & l & El). rewrite El in *. cbn [ss_version ss_cache]. rewrite A. reflexivity.
Qed.

(** ** Examples *)

(** Four sector files in any order, in a directory. *)
Definition ex_names : list text :=
  map (fun k => lit "/scan/data_module" ++ py_str k ++ lit "_42.data")%list [2; 0; 3; 1].

Definition ex_disk : file_system := fun name =>
  match find (fun e => text_eqb (fst e) name) (combine ex_names files44) with
  | Some e => Some (flat_map encode_srec (snd (snd e)))
  | None => None
  end.

Lemma ex_name_number k : 0 <= k < 4 ->
  let name := (lit "/scan/data_module" ++ py_str k ++ lit "_42.data")%list in
  single_line name /\ last_number name k.
Proof.
  intros Hk name.
  assert (S : single_line name).
  { intros c Hc. assert (line_end c = false).
    { assert (C : k = 0 \/ k = 1 \/ k = 2 \/ k = 3) by lia.
      assert (X : forallb (fun c => negb (line_end c)) name = true)
        by (unfold name; destruct C as [->|[->|[->| ->]]]; reflexivity).
      rewrite forallb_forall in X. specialize (X c Hc). now destruct (line_end c). }
    split; intros ->; discriminate. }
  split; [exact S|]. destruct (C74_sector name S) as (H & _ & _).
  assert (E : extract_sector name = Ok k).
  { assert (C : k = 0 \/ k = 1 \/ k = 2 \/ k = 3) by lia.
    unfold name; destruct C as [->|[->|[->| ->]]]; reflexivity. }
  apply H in E. destruct E as [[E _]|[_ E]]; [exact E|lia].
Qed.

Example ex_sector :
  sector_scan g44 ex_disk ex_names files44 /\
  match py_reader ex_disk (ManyFiles ex_names) 5 None [] with
  | Ok r => let '(bs, e, _) := py_for g44 5 r in
            (map (fun b => (image_numbers (hdr b), data b)) bs, e) =
            ([([0], Some [0; 1; 2; 3; 10; 11; 12; 13; 20; 21; 22; 23; 30; 31; 32; 33]);
              ([1], Some [40; 41; 42; 43; 50; 51; 52; 53; 60; 61; 62; 63; 80; 81; 82; 83]);
              ([2], Some [70; 71; 72; 73; 0; 0; 0; 0; 0; 0; 0; 0; 0; 0; 0; 0])], Ok tt)
  | _ => False
  end.
Proof.
  split; [|vm_compute; reflexivity].
  split; [discriminate|]. split; [apply files44_ok|]. split; [apply files44_ok|].
  unfold ex_names, files44. cbn [map].
  assert (One : forall k l, 0 <= k < 4 ->
    ex_disk (lit "/scan/data_module" ++ py_str k ++ lit "_42.data")%list = Some (flat_map encode_srec l) ->
    let name := (lit "/scan/data_module" ++ py_str k ++ lit "_42.data")%list in
    single_line name /\ last_number name (fst (k, l)) /\ 0 <= fst (k, l) < 4 /\
    ex_disk name = Some (flat_map encode_srec (snd (k, l)))).
  { intros k l Hk E name. destruct (ex_name_number k Hk) as [X Y]. auto. }
  apply Forall2_cons; [apply (One 2); [lia|vm_compute; reflexivity]|].
  apply Forall2_cons; [apply (One 0); [lia|vm_compute; reflexivity]|].
  apply Forall2_cons; [apply (One 3); [lia|vm_compute; reflexivity]|].
  apply Forall2_cons; [apply (One 1); [lia|vm_compute; reflexivity]|].
  constructor.
Qed.

(** A saved array of 33 frames: two blocks. *)
Example ex_raw :
  let a := mkNd (map (fun k => k * 3) (zseq 66)) 0 (33, 1, 2) (2, 2, 1) in
  let f := mkH5 None None None None in
  no_raw f /\ array_ok a /\ 0 <= nd_count a <= 2 ^ 32 - 32 /\
  recorded_scan (Some (33, 1)) (h5_stem f) (33, 1) /\
  match py_reader (fun _ => None) (RawFile (fst (save_raw_data f a (Some (33, 1)) None))) 1 None [] with
  | Ok r => let '(bs, e, _) := py_for g44 5 r in
            (map (fun b => (images_in_block (hdr b), block_pixel b 0 0 1)) bs, e) =
            ([(32, Some 3); (1, Some 195)], Ok tt)
  | _ => False
  end.
Proof.
  cbv zeta. split; [split; reflexivity|]. split.
  - split; [cbn; lia|]. split; [cbn; lia|]. split; [cbn; lia|]. split.
    + apply Forall_forall. intros z Hz. cbn [nd_buf] in Hz. apply in_map_iff in Hz as (k & <- & Hk).
      apply in_zseq in Hk. unfold is_u16. lia.
    + split; [reflexivity|]. cbn [nd_strides]. intros i y x Hi Hy Hx. unfold nd_count, nd_rows, nd_cols in *.
      cbn [nd_shape fst snd] in *. cbn [nd_off nd_buf].
      replace (Zlen (map (fun k => k * 3) (zseq 66))) with 66 by reflexivity. lia.
  - split; [cbn; lia|]. split; [left; reflexivity|]. vm_compute. reflexivity.
Qed.

(** A threaded reader that is opened and cannot be looped over. *)
Example ex_threaded :
  match py_reader ex_disk (ManyFiles ex_names) 5 (Some (lit "thread")) [(lit "threads", 8)] with
  | Ok r => py_for g44 5 r = ([], Throw no_attribute, r)
  | _ => False
  end.
Proof. vm_compute. reflexivity. Qed.

(** A file whose name has no number. *)
Example ex_unnumbered :
  single_line (lit "scan.data") /\ no_number (lit "scan.data") /\ wf_srec g44 (rec44 0 0 20).
Proof.
  assert (S : single_line (lit "scan.data")).
  { intros c Hc. cbn in Hc. repeat destruct Hc as [<-|Hc]; try contradiction; split; discriminate. }
  split; [exact S|]. split.
  - destruct (C74_sector _ S) as (H & _ & _).
    destruct (proj1 (H (-1)) eq_refl) as [[L _]|[N _]]; [|exact N].
    intros pre ds post (E & _). assert (In "m"%char (lit "scan.data")).
    { rewrite E. apply in_app_iff. right. now left. }
    cbn in H0. intuition discriminate.
  - exact (proj1 (proj1 (proj1 files44_ok) (2, rec44 0 0 20) (or_introl eq_refl))).
Qed.

Print Assumptions C75_stream.
Print Assumptions C75_truncated.
Print Assumptions C75_sector.
Print Assumptions C75_raw_file.
Print Assumptions C75_defined.
Print Assumptions C75_refused.
Print Assumptions C75_threads.
Print Assumptions C75_threaded_refuted.
Print Assumptions C75_ignored_refuted.
Print Assumptions C75_version_zero_refuted.
Print Assumptions C75_unnumbered_undefined.
