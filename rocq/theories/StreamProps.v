(** StreamReader: C12 (decoding), C13 (reset), C44 (truncated input). *)
From Coq Require Import String ZArith List Lia Bool.
From Verif Require Import Base BaseFacts BlockModel StreamModel StreamSpec StreamProofs.
Import ListNotations.
Open Scope Z_scope.
Local Arguments skipn : simpl never.
Local Arguments firstn : simpl never.

(** C12.  Files that together hold well-formed records of one version: the
    [n]-th read gives the block of the [n]-th record, and every read after the
    last one gives the empty block (end of data). *)
Theorem stream_decodes fs recs v :
  fs <> [] ->
  Forall wf_record recs -> Forall (fun r => rec_version r = v) recs ->
  files_hold fs recs ->
  exists s, stream_reader (map (fun f => Some (concat f)) fs) v = Ok s /\
    forall n, fst (reads n s) =
      firstn n (map (fun r => Ok (block_of r)) recs ++ repeat (Ok empty_block) n).
Proof.
  intros Hne Hwf Hv Hh.
  destruct (stream_reader_good fs v Hne) as (s & E & G & Vs & _).
  { rewrite Hh. now apply flat_pieces_ne. }
  exists s. split; [exact E|]. intros n.
  rewrite Hh, <- (app_nil_r (flat_map pieces recs)) in G.
  destruct (reads_records recs s [] Hwf) as (s1 & E1 & R1 & _).
  { eapply Forall_impl; [|exact Hv]. intros a <-; now rewrite Vs. }
  { left; exact G. }
  assert (EN : firstn n (fst (reads (List.length recs + n) s)) = fst (reads n s)).
  { replace (List.length recs + n)%nat with (n + List.length recs)%nat by lia.
    rewrite reads_app. cbn [fst]. rewrite firstn_app.
    assert (L : forall k t, List.length (fst (reads k t)) = k).
    { induction k; intros t; cbn [reads]; auto.
      destruct (read_block t) as [r t1]. specialize (IHk t1).
      destruct (reads k t1). cbn in *. now rewrite IHk. }
    rewrite L, Nat.sub_diag, firstn_all2 by (rewrite L; lia).
    change (firstn 0 (fst (reads (List.length recs) (snd (reads n s)))))
      with (@nil (outcome block)). apply app_nil_r. }
  rewrite <- EN, reads_app, E1. cbn [fst snd].
  destruct (reads_done n s1 R1) as (s2 & E2 & _). rewrite E2. reflexivity.
Qed.

(** C12, for the iterator loop: it visits the blocks of all records in order
    and stops; a second loop visits nothing. *)
Theorem stream_iteration fs recs v :
  fs <> [] ->
  Forall wf_record recs -> Forall (fun r => rec_version r = v) recs ->
  files_hold fs recs ->
  exists s s', stream_reader (map (fun f => Some (concat f)) fs) v = Ok s /\
    (forall fuel, (List.length recs < fuel)%nat ->
       iterate fuel s = (Ok (map block_of recs), s')) /\
    fst (iterate 1 s') = Ok [].
Proof.
  intros Hne Hwf Hv Hh.
  destruct (stream_reader_good fs v Hne) as (s & E & G & Vs & _).
  { rewrite Hh. now apply flat_pieces_ne. }
  rewrite Hh in G.
  assert (Hv' : Forall (fun r => rec_version r = sr_version s) recs).
  { eapply Forall_impl; [|exact Hv]. intros a <-; now rewrite Vs. }
  destruct (iterate_records recs s (S (List.length recs)) Hwf Hv') as (s' & E1 & R1).
  { left; exact G. }
  { lia. }
  exists s, s'. split; [exact E|]. split.
  - (* more fuel gives the same run *)
    assert (Hm : forall f t bs t', iterate f t = (Ok bs, t') ->
               forall g, (f <= g)%nat -> iterate g t = (Ok bs, t')).
    { induction f; intros t bs t' Hi g Hg; [discriminate|].
      destruct g; [lia|]. cbn [iterate] in *.
      destruct (read_block t) as [[b| | |] t1]; cbn [sbind] in *; try discriminate.
      destruct (data b); auto.
      destruct (iterate f t1) as [[bs1| | |] t2] eqn:Ei; cbn [sbind] in *; try discriminate.
      rewrite (IHf _ _ _ Ei g) by lia. exact Hi. }
    intros fuel Hf. eapply Hm; [exact E1|lia].
  - destruct (read_block_done s' R1) as (s2 & E2 & _). cbn [iterate].
    rewrite E2. reflexivity.
Qed.

(** C13.  For every list of files (of any content: missing, empty or cut
    ones included) and every history of reads and resets, a reset reader
    gives the same results from then on as a newly constructed one. *)
Theorem stream_reset_restarts files v s0 :
  byte_files files ->
  stream_reader files v = Ok s0 ->
  forall ops n, fst (reads n (reset (sr_run ops s0))) = fst (reads n s0).
Proof.
  intros HB E ops n.
  destruct (inv_new files v s0 HB E) as (I & F & V & b & Hb & Hs0).
  destruct (inv_ops ops s0 I) as [I' [S1 S2]].
  destruct n; [reflexivity|]. cbn [reads].
  assert (Hr : read_block (reset (sr_run ops s0)) = read_block s0).
  { rewrite (read_block_reset _ I' b).
    - rewrite S1, S2, F, V. rewrite Hs0; reflexivity.
    - now rewrite S1, F. }
  rewrite Hr. reflexivity.
Qed.

(** C13, for well-formed files: after any history, reset and the iterator loop
    visit all blocks again. *)
Theorem stream_reset_iteration fs recs v :
  fs <> [] ->
  Forall wf_record recs -> Forall (fun r => rec_version r = v) recs ->
  files_hold fs recs ->
  byte_files (map (fun f => Some (concat f)) fs) ->
  exists s, stream_reader (map (fun f => Some (concat f)) fs) v = Ok s /\
    forall ops fuel, (List.length recs < fuel)%nat ->
      fst (iterate fuel (reset (sr_run ops s))) = Ok (map block_of recs).
Proof.
  intros Hne Hwf Hv Hh HB.
  destruct (stream_iteration fs recs v Hne Hwf Hv Hh) as (s & s' & E & Hit & _).
  exists s. split; [exact E|]. intros ops fuel Hf.
  destruct (inv_new _ v s HB E) as (I & F & V & b & Hb & Hs0).
  destruct (inv_ops ops s I) as [I' [S1 S2]].
  assert (Hr : read_block (reset (sr_run ops s)) = read_block s).
  { rewrite (read_block_reset _ I' b).
    - rewrite S1, S2, F, V. rewrite Hs0; reflexivity.
    - now rewrite S1, F. }
  specialize (Hit fuel Hf). destruct fuel; [lia|].
  cbn [iterate] in *. rewrite Hr, Hit. reflexivity.
Qed.

(** C44.  The last file stops in the middle of a record (anywhere: inside the
    header, between header and pixels, inside the pixels; empty files may
    follow): all whole records are delivered, then an error is raised, then
    the reader is at end of data. *)
Theorem stream_truncated_reported fs recs recs' r k m v :
  Forall wf_record recs -> Forall wf_record recs' -> wf_record r ->
  Forall (fun r => rec_version r = v) (recs ++ recs' ++ [r]) ->
  files_hold fs recs ->
  (0 < k < List.length (encode r))%nat ->
  exists s,
    stream_reader (map (fun f => Some (concat f)) fs ++
                   [Some (flat_map encode recs' ++ firstn k (encode r))] ++
                   repeat (Some []) m) v = Ok s /\
    forall n, fst (reads (List.length recs + List.length recs' + S n) s) =
      map (fun r => Ok (block_of r)) (recs ++ recs') ++
      Throw "Unexpected EOF while processing stream." :: repeat (Ok empty_block) n.
Proof.
  intros Hwf Hwf' Hr Hv Hh Hk.
  destruct (prefix_pieces (pieces r) k) as (hs & next & more & tail & P1 & P2 & P3 & P4).
  { now apply pieces_ne. }
  { apply Hk. }
  set (cut := hs ++ tail).
  set (fs' := fs ++ [flat_map pieces recs' ++ cut] ++ repeat [] m).
  assert (Efiles : map (fun f => Some (concat f)) fs ++
                   [Some (flat_map encode recs' ++ firstn k (encode r))] ++
                   repeat (Some []) m = as_files fs').
  { unfold as_files, fs'. rewrite !map_app. cbn [map].
    f_equal. f_equal.
    - f_equal. f_equal. rewrite concat_app. f_equal.
      + clear. induction recs'; cbn [flat_map]; auto. rewrite concat_app, IHrecs'. reflexivity.
      + unfold cut. rewrite P2. reflexivity.
    - clear. induction m; cbn [repeat map]; auto. now rewrite IHm. }
  assert (Epieces : concat fs' = flat_map pieces (recs ++ recs') ++ cut).
  { unfold fs'. rewrite !concat_app. cbn [concat]. rewrite Hh, app_nil_r, flat_map_app.
    replace (concat (repeat (@nil (list Z)) m)) with (@nil (list Z))
      by (clear; induction m; cbn; auto).
    rewrite app_nil_r, app_assoc. reflexivity. }
  assert (Hcut : cut <> []).
  { unfold cut. intros E0. apply app_eq_nil in E0. destruct E0 as [-> ->].
    cbn in P2. assert (L : List.length (firstn k (encode r)) = 0%nat)
      by (unfold encode; now rewrite <- P2).
    rewrite firstn_length in L. lia. }
  assert (Hne : Forall (fun p => p <> []) (concat fs')).
  { rewrite Epieces. apply Forall_app; split.
    - apply flat_pieces_ne. apply Forall_app; auto.
    - unfold cut. apply Forall_app; split; auto.
      pose proof (pieces_ne r Hr) as Hp. rewrite P1 in Hp. now apply Forall_app in Hp. }
  destruct (stream_reader_good fs' v) as (s & E & G & Vs & _); auto.
  { unfold fs'. destruct fs; discriminate. }
  exists s. rewrite Efiles. split; [exact E|]. intros n.
  rewrite Epieces in G.
  rewrite app_assoc in Hv. apply Forall_app in Hv. destruct Hv as [Hv Hvr].
  destruct (reads_records (recs ++ recs') s cut) as (s1 & E1 & R1 & S1).
  { apply Forall_app; auto. }
  { eapply Forall_impl; [|exact Hv]. intros a <-; now rewrite Vs. }
  { left; exact G. }
  rewrite <- app_length, reads_app, E1. cbn [fst snd].
  f_equal. cbn [reads].
  destruct (read_block_cut s1 cut r) as (s2 & E2 & R2 & _); auto.
  { destruct S1 as [_ ->]. rewrite Vs. symmetry. now apply Forall_inv in Hvr. }
  { exists hs, next, more, tail. auto. }
  rewrite E2. destruct (reads_done n s2 R2) as (s3 & E3 & _). rewrite E3. reflexivity.
Qed.

(** C44, for arbitrary files and histories: a read gives end of data, a block
    with exactly as many pixels as its header announces, or an error; it
    neither loops nor gives a partial block.  The behaviour can be undefined
    only in version 1 (see [stream_v1_header_undefined]). *)
Theorem stream_read_any files v s0 :
  byte_files files ->
  stream_reader files v = Ok s0 ->
  forall ops,
    let r := fst (read_block (sr_run ops s0)) in
    r = Ok empty_block \/
    (exists b, r = Ok b /\ full_block b /\ (v = 1 \/ v = 2 \/ v = 3)) \/
    r = Throw "Unexpected EOF while processing stream." \/
    r = Throw "Unable to open file" \/
    (r = Throw "Unexpected version" /\ v <> 1 /\ v <> 2 /\ v <> 3) \/
    (exists why, r = UB why /\ v = 1).
Proof.
  intros HB E ops.
  destruct (inv_new files v s0 HB E) as (I & F & V & _).
  destruct (inv_ops ops s0 I) as [I' [S1 S2]].
  destruct (read_block_any _ I') as (r & s' & Er & _ & _ & Hr).
  rewrite Er. cbn [fst]. rewrite S2, V in Hr. cbv zeta.
  unfold read_result in Hr. intuition.
Qed.

(** C44: a version other than 1, 2, 3 is rejected as soon as there is a byte
    to decode, and no read ever gives a block with data. *)
Theorem stream_unknown_version files v s0 :
  byte_files files -> v <> 1 -> v <> 2 -> v <> 3 ->
  stream_reader files v = Ok s0 ->
  (forall ops b, fst (read_block (sr_run ops s0)) = Ok b -> b = empty_block) /\
  (forall c l rest, files = Some (c :: l) :: rest ->
     forall n, fst (reads n s0) = repeat (Throw "Unexpected version") n).
Proof.
  intros HB H1 H2 H3 E. split.
  - intros ops b Hb. pose proof (stream_read_any files v s0 HB E ops) as H.
    cbv zeta in H. rewrite Hb in H.
    destruct H as [H|[(b' & _ & _ & H)|[H|[H|[H|(w & H & _)]]]]]; try congruence;
      try (destruct H; congruence).
    intuition congruence.
  - intros c l rest -> n.
    destruct (inv_new _ v s0 HB E) as (_ & F & V & b & Hb & ->).
    cbn in Hb. injection Hb as <-.
    induction n; [reflexivity|]. cbn [reads].
    assert (Er : read_block (mkSR (Some (c :: l) :: rest) 0 (Some (c :: l)) v) =
                 (Throw "Unexpected version",
                  mkSR (Some (c :: l) :: rest) 0 (Some (c :: l)) v)).
    { unfold read_block, read_fuel. cbn [read_block_f]. unfold at_end.
      cbn [sr_files sr_idx sr_cur List.length Nat.leb].
      unfold read_record, read_header. cbn [sr_version].
      replace (v =? 1) with false by (symmetry; apply Z.eqb_neq; auto).
      replace (v =? 2) with false by (symmetry; apply Z.eqb_neq; auto).
      replace (v =? 3) with false by (symmetry; apply Z.eqb_neq; auto).
      reflexivity. }
    rewrite Er. destruct (reads n _) as [rs t]. cbn [fst repeat] in *. now rewrite IHn.
Qed.

(** Constructor errors. *)
Theorem stream_constructor_errors v :
  stream_reader [] v = Throw "No files provided to StreamReader!" /\
  forall fs, stream_reader (None :: fs) v = Throw "Unable to open file".
Proof. split; [reflexivity|]. intros fs. reflexivity. Qed.

(** Finding: the guarantee of C44 needs the cut file to be the last one.  If
    another file follows, the bytes of a cut record are silently dropped and
    reading continues at the start of the next file as if the record went on
    there: here the pixel delivered for image 6 is not its own but the image
    count in the next file's header, and no error is raised. *)
Definition small_record (number pixel : Z) : record :=
  Rec1 1 1 1 0 [0; 0; 0; 0; 0] [number] (repeat 0 1013) [pixel].

Lemma small_record_wf n p : 1 <= n < 2 ^ 32 -> is_u16 p -> wf_record (small_record n p).
Proof.
  intros Hn Hp. cbn [small_record wf_record].
  change (Zlen [n]) with 1. change (Zlen [p]) with 1.
  split; [lia|]. split; [lia|]. split; [lia|]. split; [lia|].
  split; [split; lia|]. split; [split; lia|]. split; [split; lia|]. split; [split; lia|].
  split; [reflexivity|].
  split; [rewrite Zlen_repeat; lia|].
  split; [repeat constructor; lia|].
  split; [constructor; [lia|constructor]|].
  split; [apply Forall_forall; intros x Hx; apply repeat_spec in Hx; subst; split; lia|].
  split; [lia|]. constructor; [exact Hp|constructor].
Qed.

Theorem stream_truncated_middle_file_refuted :
  ~ (forall r1 r2 k, wf_record r1 -> wf_record r2 ->
       rec_version r1 = 1 -> rec_version r2 = 1 ->
       (0 < k < List.length (encode r1))%nat ->
       forall s, stream_reader [Some (firstn k (encode r1)); Some (encode r2)] 1 = Ok s ->
       exists m, fst (read_block s) = Throw m).
Proof.
  intros H.
  specialize (H (small_record 7 1000) (small_record 8 2000) 4097%nat).
  assert (L : List.length (encode (small_record 7 1000)) = 4098%nat) by (vm_compute; reflexivity).
  destruct (H (small_record_wf 7 1000 ltac:(lia) ltac:(split; lia)) (small_record_wf 8 2000 ltac:(lia) ltac:(split; lia))
              eq_refl eq_refl ltac:(rewrite L; lia) _ eq_refl) as (m & E).
  vm_compute in E. discriminate E.
Qed.

Example truncated_middle_file_pixel :
  match stream_reader [Some (firstn 4097 (encode (small_record 7 1000)));
                       Some (encode (small_record 8 2000))] 1 with
  | Ok s => match fst (read_block s) with
            | Ok b => image_numbers (hdr b) = [6] /\ data b = Some [1]
            | _ => False
            end
  | _ => False
  end.
Proof. vm_compute. auto. Qed.

(** Finding: a version 1 header that announces more than 1014 images is copied
    from beyond the 1024 words read; the behaviour is undefined, whatever the
    rest of the file. *)
Theorem stream_v1_header_undefined raw more rest :
  Forall is_byte raw -> Zlen raw = 4096 ->
  1014 < zat (words 1024 4 raw) 0 ->
  exists s, stream_reader (Some (raw ++ more) :: rest) 1 = Ok s /\
    fst (read_block s) = UB "index past the end".
Proof.
  intros F L Hn.
  exists (mkSR (Some (raw ++ more) :: rest) 0 (Some (raw ++ more)) 1).
  split; [reflexivity|].
  set (s := mkSR _ _ _ _).
  assert (Eb : exists s1, read_bytes 4096 s = (Ok raw, s1)).
  { unfold read_bytes, read_fuel, s. cbn [read_raw]. unfold at_end.
    cbn [sr_files sr_idx sr_cur List.length Nat.leb].
    rewrite Zlen_app. pose proof (Zlen_nonneg more).
    replace (4096 <=? Zlen raw + Zlen more) with true by (symmetry; apply Z.leb_le; lia).
    eexists. f_equal. f_equal.
    rewrite firstn_app. unfold Zlen in L.
    rewrite firstn_all2 by lia.
    replace (Z.to_nat 4096 - List.length raw)%nat with 0%nat by lia.
    change (firstn 0 more) with (@nil Z). apply app_nil_r. }
  destruct Eb as (s1 & Eb).
  assert (Eh : header_v1 raw = UB "index past the end").
  { unfold header_v1. cbv zeta. rewrite !rd_words by lia. cbn [bind].
    set (w := words 1024 4 raw) in *. unfold for_loop.
    assert (Lw : Zlen w = 1024) by (unfold w, Zlen; now rewrite words_length).
    assert (E1 : forall acc, for_from 1 1014
       (fun i acc => let* x := rd w (10 + i) in Ok (acc ++ [u32 (x - 1)])) acc =
       UB "index past the end").
    { intros acc. cbn [for_from]. unfold rd.
      replace (10 + 1014 <? 0) with false by reflexivity.
      replace (nth_error w (Z.to_nat (10 + 1014))) with (@None Z).
      - reflexivity.
      - symmetry. apply nth_error_None. unfold Zlen in Lw. lia. }
    replace (Z.to_nat (zat w 0)) with
      (Z.to_nat 1014 + (1 + (Z.to_nat (zat w 0) - 1015)))%nat by lia.
    rewrite for_from_add.
    pose proof (header_loop w 1014) as HL. unfold for_loop in HL.
    rewrite HL by lia. cbn [bind].
    rewrite for_from_add. rewrite Z2Nat.id by lia. change (0 + 1014) with 1014.
    rewrite E1. reflexivity. }
  unfold read_block.
  assert (Ef : exists f, read_fuel s = S f) by (unfold read_fuel; eauto).
  destruct Ef as (f & ->). cbn [read_block_f]. unfold at_end, s.
  cbn [sr_files sr_idx sr_cur List.length Nat.leb].
  destruct raw as [|c raw]; [cbn in L; lia|]. cbn [app].
  change (c :: raw ++ more) with ((c :: raw) ++ more). fold s.
  unfold read_record, read_header. change (sr_version s) with 1. cbn [Z.eqb Pos.eqb].
  unfold read_header_v1. rewrite Eb. cbn [sbind]. rewrite Eh. reflexivity.
Qed.

(** ** The hypotheses are met: two version 1 records spread over three files,
    the second split after its header, with an empty file in between. *)

Example stream_decodes_nontrivial :
  let r1 := small_record 7 1000 in
  let r2 := small_record 3 65535 in
  let fs := [pieces r1 ++ firstn 1 (pieces r2); []; skipn 1 (pieces r2)] in
  fs <> [] /\ Forall wf_record [r1; r2] /\
  Forall (fun r => rec_version r = 1) [r1; r2] /\ files_hold fs [r1; r2] /\
  byte_files (map (fun f => Some (concat f)) fs) /\
  block_of r2 = mkBlock (mkHeader (0, 0) (1, 1) 1 1 0 0 0 [2] []) (Some [65535]).
Proof.
  cbv zeta. split; [discriminate|].
  split; [constructor; [|constructor; [|constructor]];
          apply small_record_wf; (lia || (split; lia))|].
  split; [repeat constructor|]. split; [reflexivity|]. split; [|reflexivity].
  intros b Hb.
  assert (H : forallb (fun f => match f with
                                | Some l => forallb (fun c => (0 <=? c) && (c <? 256)) l
                                | None => true end)
     (map (fun f => Some (concat f))
        [pieces (small_record 7 1000) ++ firstn 1 (pieces (small_record 3 65535)); [];
         skipn 1 (pieces (small_record 3 65535))]) = true) by (vm_compute; reflexivity).
  rewrite forallb_forall in H. specialize (H _ Hb). cbv beta iota in H.
  rewrite forallb_forall in H. apply Forall_forall. intros c Hc.
  specialize (H c Hc). apply andb_prop in H. destruct H as [Ha Hb'].
  apply Z.leb_le in Ha. apply Z.ltb_lt in Hb'. split; lia.
Qed.

(** A version 3 record: its position (5, 2) in a scan of width 40 is image 85. *)
Example version3_nontrivial px :
  Zlen px = 576 * 576 -> Forall is_u16 px ->
  wf_record (Rec3 1 12 40 30 5 2 px) /\
  image_numbers (hdr (block_of (Rec3 1 12 40 30 5 2 px))) = [85].
Proof.
  intros L F. split; [|reflexivity]. cbn [wf_record].
  repeat (split; [try (split; lia); auto|]). exact F.
Qed.

Print Assumptions stream_decodes.
Print Assumptions stream_iteration.
Print Assumptions stream_reset_restarts.
Print Assumptions stream_reset_iteration.
Print Assumptions stream_truncated_reported.
Print Assumptions stream_read_any.
Print Assumptions stream_unknown_version.
Print Assumptions stream_constructor_errors.
Print Assumptions stream_truncated_middle_file_refuted.
Print Assumptions stream_v1_header_undefined.
