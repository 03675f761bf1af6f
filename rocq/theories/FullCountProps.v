(** C79: electron_count with a threaded reader, from the 16 bit pixels to the array
    and its metadata. *)
From Coq Require Import String ZArith List Bool Reals Lia Lra Permutation.
From Flocq Require Import Core.
From Verif Require CountProps PyProofs PyProofs StemProofs.
From Verif Require Import Base BaseFacts BlockModel PermFacts StreamModel SectorModel SectorSpec SectorProofs SectorProps
  ThreadedModel ThreadedSpec ThreadedProps MultipassModel MultipassSpec MultipassReader MultipassProps
  SparseModel SparseSpec CountedSpec CountModel CountSpec CountProps JointProofs Double Float32
  ElectronModel MultipassProofs CountedModel CountedProps IeeeModel FloatConv ThresholdModel
  ThresholdSpec ThresholdProps JointModel JointSpec JointMulti JointProps ClassicPyModel ClassicPySpec
  ClassicPyProofs ClassicPyProps FullCountModel FullCountSpec FullCountProofs.
Import ListNotations.
Open Scope string_scope.
Open Scope Z_scope.

Lemma refs_pointers a n dv gv : 2 <= n -> refs_of a n dv gv ->
  to_pointer (ca_dark a) = ca_dark a /\ to_pointer (ca_gain a) = ca_gain a.
Proof.
  intros Hn (Hd & Hg & _).
  assert (P : forall l v, refs_are l n v -> to_pointer (Some l) = Some l).
  { intros l v [L _]. unfold to_pointer. destruct (Z.ltb_spec 1 (Zlen l)); [reflexivity|lia]. }
  split.
  - destruct (ca_dark a), dv; try contradiction; eauto.
  - destruct (ca_gain a), gv; try contradiction; eauto.
Qed.

(** The array and the metadata for a counter that has ended. *)
Lemma returned_ok fit a rnd s r bs b0 t sw sh w h :
  delivery a bs sw sh w h -> c_main s = MDone r -> nth_error (c_samples s) 0 = Some b0 -> In b0 bs ->
  c_thr s = Some t -> threaded_thresholds fit a rnd (c_samples s) = Ok t ->
  counted_once (threaded_count a t) (sw * sh) bs r ->
  exists sa D meta, returned a s = Ok (sa, meta) /\ wf sa /\ to_dense sa = Ok (Dense [sh; sw; w; h] D) /\
    tells meta t /\
    forall dv gv BG XR, ca_row_dark a = false -> refs_of a (w * h) dv gv ->
      dval (th_background t) BG -> dval (th_xray t) XR ->
      forall p x y, 0 <= p < sw * sh -> 0 <= x < w -> 0 <= y < h ->
        how_many (fun f => electron_at dv gv BG XR w h (snd f) x y) (frames_at p bs)
          (zat D (p * (w * h) + (y * w + x))).
Proof.
  intros HD Hm Hb0 Hin Ht Eth HC. destruct (array_ok a t bs sw sh w h r HD HC) as (sa & D & E & W & ED & V).
  exists sa, D, (metadata_dict (metadata_of true t)). split.
  - unfold returned. rewrite Hm, Ht. destruct (c_samples s) as [|b l]; [discriminate|]. injection Hb0 as ->.
    destruct (de_blocks _ _ _ _ _ _ HD b0 Hin) as (_ & Ed & Es). unfold scan_in_effect in Es. rewrite Es, Ed, E. reflexivity.
  - split; [exact W|]. split; [exact ED|]. split; [apply dict_tells|exact V].
Qed.

(** C79: however many worker threads there are, however they are scheduled and
    whichever blocks become the samples, a call that returns gives an array whose
    entry (position, y, x) is the number of frames of the position that show an
    electron there, for the thresholds that calculate_thresholds gives for the
    sampled blocks; the metadata tells these thresholds and statistics. *)
Theorem C79_threaded : forall fit a rnd nw blocks cs s r sw sh w h dv gv,
  delivery a blocks sw sh w h -> refs_of a (w * h) dv gv ->
  count_run (threaded_thresholds fit a rnd) (threaded_count a) (ca_blocks a) (ca_scan a) cs (count_init nw blocks) =
    Some (Ok s) -> c_main s = MDone r ->
  exists samples rest t sa D meta,
    Permutation blocks (samples ++ rest) /\ Zlen samples = u32 (ca_blocks a) /\
    (forall b, In b samples -> is_complete b = true) /\
    calculate_thresholds fit samples (ca_dark a) (ca_gain a) (ca_samples a) (ca_bg_nsigma a) (ca_xray_nsigma a) rnd = Ok t /\
    returned a s = Ok (sa, meta) /\ tells meta t /\ wf sa /\
    to_dense sa = Ok (Dense [sh; sw; w; h] D) /\
    (ca_row_dark a = false -> forall BG XR, dval (th_background t) BG -> dval (th_xray t) XR ->
      forall p x y, 0 <= p < sw * sh -> 0 <= x < w -> 0 <= y < h ->
        how_many (fun f => electron_at dv gv BG XR w h (snd f) x y) (frames_at p blocks)
          (zat D (p * (w * h) + (y * w + x)))).
Proof.
  intros fit a rnd nw blocks cs s r sw sh w h dv gv HD HR Hrun Hm.
  destruct (fun K => CountProps.threaded_count_final _ _ _ _ nw blocks cs s r K Hrun Hm)
    as (rest & t & b0 & P & L & C & Ht & Eth & B & R).
  { intros b Hb. apply (de_blocks _ _ _ _ _ _ HD b Hb). }
  assert (Hin : In b0 blocks).
  { apply (Permutation_in _ (Permutation_sym P)). apply in_or_app. left. eapply nth_error_In, B. }
  destruct (de_scan _ _ _ _ _ _ HD) as (S1 & S2 & S3). destruct (de_frame _ _ _ _ _ _ HD) as (Hw & Hh & Hwh).
  rewrite (proj2 (proj2 (de_blocks _ _ _ _ _ _ HD b0 Hin))) in R. cbn [fst snd] in R.
  rewrite u32_id in R by (unfold is_u32; nia).
  destruct (returned_ok fit a rnd s r blocks b0 t sw sh w h HD Hm B Hin Ht Eth R) as (sa & D & meta & E & W & ED & T & V).
  exists (c_samples s), rest, t, sa, D, meta. destruct (refs_pointers a (w * h) dv gv) as [P1 P2]; [lia|exact HR|].
  unfold threaded_thresholds in Eth. rewrite P1, P2 in Eth.
  do 8 (split; [assumption|]). intros Hrow BG XR Hbg Hxr. now apply V.
Qed.

(** C79: the same from the bytes of the recorded files on, with the multi-pass
    reader, its worker threads and the counter all interleaved: the entries are
    numbers of recorded frames, assembled from their sectors. *)
Theorem C79_multipass : forall fit a rnd g fs r0 threads hw r r1 cs1 r2 cs s ev dv gv,
  good_scan g fs r0 (init_threads threads hw) ->
  multi_reader (map encode_sfile fs) threads hw = Ok r -> loads g r r1 ->
  initialize_scan_map g cs1 r1 = Some (Ok r2) ->
  let w := g_w g in let h := g_h g in
  let sw := fst (scan_used (ca_scan a) r0) in let sh := snd (scan_used (ca_scan a) r0) in
  w < 65536 -> h < 65536 -> w * h < 2 ^ 32 ->
  0 < sw -> 0 < sh -> sw * sh < 2 ^ 32 -> Zlen (all_records fs) < 2 ^ 32 ->
  refs_of a (w * h) dv gv ->
  multi_counting (threaded_thresholds fit a rnd) (threaded_count a) (ca_blocks a) (ca_scan a) g r2 cs = Some (Ok s) ->
  c_main (j_cnt s) = MDone ev ->
  exists ks t sa D meta,
    NoDup ks /\ Zlen ks = u32 (ca_blocks a) /\
    (forall k, In k ks -> Zlen (frame_records fs (fst k) (snd k)) = 4) /\
    calculate_thresholds fit (map (fun k => multi_block g r0 fs (fst k) (snd k)) ks) (ca_dark a) (ca_gain a)
      (ca_samples a) (ca_bg_nsigma a) (ca_xray_nsigma a) rnd = Ok t /\
    returned a (j_cnt s) = Ok (sa, meta) /\ tells meta t /\ wf sa /\
    to_dense sa = Ok (Dense [sh; sw; w; h] D) /\
    (ca_row_dark a = false -> forall BG XR, dval (th_background t) BG -> dval (th_xray t) XR ->
      forall p x y, 0 <= p < sw * sh -> 0 <= x < w -> 0 <= y < h ->
        exists fns, recorded_at fs p fns /\
          how_many (fun fn => electron_at dv gv BG XR w h (assembled g 5 (frame_records fs p fn)) x y) fns
            (zat D (p * (w * h) + (y * w + x)))).
Proof.
  intros fit a rnd g fs r0 threads hw r r1 cs1 r2 cs s ev dv gv HG Hr HL HI w h sw sh
    Hw Hh Hwh Hsw Hsh Hss Hrec HR HC HM.
  assert (Hg : wf_geom g) by apply HG.
  assert (Hwp : 1 <= w /\ 1 <= h /\ 2 <= w * h).
  { destruct Hg as (A & B & C & D & _). fold w h in A, B, C, D.
    assert (4 <= w) by (pose proof (Z.div_mod w 4 ltac:(lia)); lia).
    split; [lia|]. split; [lia|]. nia. }
  destruct (scan_blocks_exist _ _ _ _ HG) as (bs & HB).
  rewrite (multi_reader_init g fs r0 _ HG threads hw r eq_refl Hr) in HL.
  destruct (prepared _ _ _ _ _ _ _ HG HL HI) as [Y H0].
  destruct (counting_final g fs r0 _ HG r2 Y _ _ _ _ H0 cs s ev bs HC HM HB) as (rest & t & p0 & fn0 & HP & HN & HS & Ht & HT & B0 & HQ).
  assert (Es : scan_size (ca_scan a) r0 = sw * sh) by (unfold scan_size, sw, sh, scan_used; destruct (_ || _); reflexivity).
  rewrite Es, u32_id in HQ by (unfold is_u32; nia).
  pose proof (scan_frames g r0 fs bs) as SF.
  assert (HU : forall p fn, Forall is_u16 (assembled g 5 (frame_records fs p fn))).
  { intros p fn. apply Forall_forall. intros v Hv. unfold assembled in Hv. apply in_map_iff in Hv as (i & <- & _).
    destruct (find _ _) as [e|] eqn:Ef; [|unfold is_u16; lia]. apply find_some in Ef as [Ef _].
    apply filter_In in Ef as [Ef _]. destruct HG as (_ & _ & (HW & _) & _). destruct (HW e Ef) as ((_ & _ & _ & _ & _ & _ & _ & HF) & _).
    unfold zat. destruct (_ <? _); [unfold is_u16; lia|].
    set (l := s_px (snd e)) in *. clear - HF. rewrite Forall_forall in HF.
    destruct (nth_in_or_default (Z.to_nat (snd (pixel_source g 5 i))) l 0) as [H| ->]; [auto|unfold is_u16; lia]. }
  pose proof HB as (ks & Hn & Hk & Ebs).
  assert (HD : delivery a bs sw sh w h).
  { constructor.
    - lia.
    - lia.
    - intros b Hb. rewrite Ebs in Hb. apply in_map_iff in Hb as (k & <- & _). split; [now apply multi_block_ok|].
      split; [reflexivity|]. unfold scan_in_effect, sw, sh, scan_used. destruct (_ || _); [reflexivity|now destruct (ca_scan a)].
    - intros f Hf. apply SF in Hf as (fn & _ & ->); auto. cbn [fst snd]. apply HU.
    - apply Z.le_lt_trans with (2 := Hrec).
      assert (E : Zlen (flat_map frames_of bs) = Zlen ks).
      { rewrite Ebs. clear - Hg. induction ks as [|k ks IH]; [reflexivity|]. cbn [map flat_map]. rewrite frames_of_multi by auto.
        cbn [app]. rewrite !Zlen_cons. lia. }
      rewrite E. unfold Zlen. apply inj_le.
      rewrite <- (map_length (fun e => (s_pos (snd e), s_frame (snd e))) (all_records fs)).
      apply NoDup_incl_length; auto. intros k Hin. apply Hk in Hin. unfold has_frame in Hin.
      destruct (frame_records fs (fst k) (snd k)) as [|e l] eqn:E2; [congruence|].
      assert (Hi : In e (frame_records fs (fst k) (snd k))) by (rewrite E2; now left).
      apply filter_In in Hi as [Hi E3]. apply andb_true_iff in E3 as [E3 E4]. apply Z.eqb_eq in E3, E4.
      apply in_map_iff. exists e. split; auto. destruct k; cbn [fst snd] in *; congruence. }
  cbv zeta in HP, HN, HS, HT, B0.
  assert (Hin : In (multi_block g r0 fs p0 fn0) bs).
  { apply (Permutation_in _ (Permutation_sym HP)). apply in_or_app. left. eapply nth_error_In, B0. }
  destruct (returned_ok fit a rnd (j_cnt s) ev bs _ t sw sh w h HD HM B0 Hin Ht HT HQ) as (sa & D & meta & E & W & ED & T & V).
  destruct (refs_pointers a (w * h) dv gv) as [P1 P2]; [lia|exact HR|].
  unfold threaded_thresholds in HT. rewrite P1, P2 in HT.
  rewrite Ebs in HP. destruct (Permutation_map_inv _ _ (Permutation_sym HP)) as (l & El & Hl).
  symmetry in El; apply map_eq_app in El as (k1 & k2 & -> & E1 & E2).
  exists k1, t, sa, D, meta.
  assert (NL : NoDup (k1 ++ k2)) by (eapply Permutation_NoDup; eauto).
  split; [apply StemProofs.NoDup_app_inv in NL; apply NL|].
  split; [rewrite <- HN, <- E1; unfold Zlen; now rewrite map_length|]. split.
  { intros k Hik. assert (In (multi_block g r0 fs (fst k) (snd k)) (c_samples (j_cnt s))) as Hs by (rewrite <- E1; now apply (in_map (fun k => multi_block g r0 fs (fst k) (snd k)))).
    apply HS in Hs. unfold is_complete, multi_block in Hs. cbn [hdr complete] in Hs. now apply Z.eqb_eq in Hs. }
  split; [now rewrite E1|]. do 4 (split; [assumption|]).
  intros Hrow BG XR Hbg Hxr p x y Hp Hx Hy. exists (map snd (filter (fun k => fst k =? p) ks)). split.
  { split.
    - apply NoDup_map_in; [|now apply NoDup_filter]. intros [i b] [i' b'] Ha Hb. cbn [snd]. intros <-.
      apply filter_In in Ha as [_ Ha], Hb as [_ Hb]. apply Z.eqb_eq in Ha, Hb. cbn [fst] in *. congruence.
    - intros fn. rewrite in_map_iff. split.
      + intros ([i b] & <- & Hik). apply filter_In in Hik as [Hik Ea]. apply Z.eqb_eq in Ea. cbn [fst snd] in *. subst i.
        now apply Hk in Hik.
      + intros Hf. exists (p, fn). split; auto. apply filter_In. split; [now apply Hk|cbn; apply Z.eqb_refl]. }
  specialize (V dv gv BG XR Hrow HR Hbg Hxr p x y Hp Hx Hy).
  assert (EF : frames_at p bs = map (fun fn => ((w, h), assembled g 5 (frame_records fs p fn))) (map snd (filter (fun k => fst k =? p) ks))).
  { unfold frames_at. rewrite Ebs. clear - Hg. induction ks as [|k ks IH]; [reflexivity|]. cbn [map flat_map filter].
    rewrite frames_of_multi by auto. cbn [app filter fst]. destruct (Z.eqb_spec (fst k) p) as [<-|]; cbn [map snd]; now rewrite IH. }
  rewrite EF in V. now apply how_many_map in V.
Qed.

(** ** Several processes *)
(** With MPI all ranks count with the thresholds that rank 0 calculated. *)
Theorem C79_mpi_same_thresholds : forall a t0 world rank, 0 <= rank < world ->
  nth_error (rank_counts a t0 world) (Z.to_nat rank) = Some (threaded_count a t0).
Proof.
  intros a t0 world rank Hr. unfold rank_counts, broadcast. rewrite !nth_error_map.
  assert (E : forall A (b : A) l, mpi_bcast (b :: l) = map (fun _ => b) (b :: l)) by reflexivity.
  rewrite (PyProofs.zseq_split 1 world) by lia. change (zseq 1) with [0]. cbn [app map]. rewrite E, nth_error_map.
  destruct (nth_error _ _) as [x|] eqn:Ex.
  - cbn [option_map]. reflexivity.
  - apply nth_error_None in Ex. cbn [List.length] in Ex. rewrite !map_length in Ex.
    pose proof (Zlen_zseq (world - 1) ltac:(lia)) as L. unfold Zlen in L. lia.
Qed.
(** ** What goes wrong *)
(** With a reader that is not threaded the metadata of every result says that
    thresholds were calculated and that they were 0, whatever thresholds were used. *)
Theorem C79_classic_metadata_refuted : forall R (ops : reader_ops R) fit a rnd fuel r sa meta r',
  classic_returned ops fit a rnd fuel r = (Ok (sa, meta), r') ->
  electron_count ops fit a rnd fuel r = (Ok sa, r') /\
  entry meta "threshold_calculated" = Some (VBool true) /\
  entry meta "background_threshold" = Some (VFloat (d_of_Z 0)) /\
  entry meta "x_ray_threshold" = Some (VFloat (d_of_Z 0)) /\
  entry meta "number_of_samples" = Some (VInt 0) /\
  forall t, tells meta t -> th_background t = d_of_Z 0 /\ th_xray t = d_of_Z 0.
Proof.
  intros R ops fit a rnd fuel r sa meta r' H. unfold classic_returned in H.
  destruct (electron_count ops fit a rnd fuel r) as [[sa'| | |] r1]; try discriminate. injection H as <- <- <-.
  split; [reflexivity|]. do 4 (split; [reflexivity|]). intros t (_ & E1 & E2 & _).
  injection E1 as E1. injection E2 as E2. auto.
Qed.

(** ... for instance where the X-ray threshold used was 9.5... and not 0. *)
Example C79_classic_metadata_wrong :
  let a := ex_args None (Some ex_dark) in
  (exists sa meta r', classic_returned py_ops fit_start a (fun k => k) 10 ex_reader = (Ok (sa, meta), r')) /\
  match calculate_thresholds fit_start (firstn 1 (py_blocks ex_arr [2; 0; 1] (3, 1) 2 3)) (ca_dark a) (ca_gain a) 2
      (d_of_Z 0) (d_of_Z 5) (fun k => k) with
  | Ok t => d_le (th_xray t) (d_of_Z 9) = false
  | _ => False
  end.
Proof. split; [do 3 eexists; vm_compute; reflexivity|vm_compute; reflexivity]. Qed.

(** With MPI the metadata on the other ranks says that no thresholds were
    calculated and that the thresholds, with which the rank did count, were 0. *)
Theorem C79_mpi_metadata_refuted : forall t0 rank, rank <> 0 ->
  entry (rank_metadata t0 rank) "threshold_calculated" = Some (VBool false) /\
  entry (rank_metadata t0 rank) "background_threshold" = Some (VFloat (d_of_Z 0)) /\
  entry (rank_metadata t0 rank) "x_ray_threshold" = Some (VFloat (d_of_Z 0)) /\
  tells (rank_metadata t0 0) t0.
Proof.
  intros t0 rank Hr. unfold rank_metadata, rank_thresholds. rewrite (proj2 (Z.eqb_neq rank 0) Hr).
  do 3 (split; [reflexivity|]). apply dict_tells.
Qed.

(** The two kinds of readers do not count alike: without a gain and with a dark level
    that has a fraction, here k + 1/2, the pixels above it have values that differ by
    one. *)
Lemma half_float n : 0 <= n < 2 ^ 17 -> f_rnd (IZR n + / 2) = (IZR n + / 2)%R.
Proof.
  intros Hn. apply f_rnd_id. apply generic_format_FLT. exists (Float radix2 (2 * n + 1) (-1)); cbn [Fnum Fexp].
  - unfold F2R. cbn [Fnum Fexp]. rewrite plus_IZR, mult_IZR. change (bpow radix2 (-1)) with (/ 2)%R. lra.
  - change (Z.pow radix2 24) with (2 ^ 24). lia.
  - lia.
Qed.

Theorem C79_dark_fraction_refuted : forall k v, 0 <= k < v -> v < 65536 ->
  counted_value (Some (IZR k + / 2)%R) None v = IZR (v - k) /\
  classic_value None v (IZR k + / 2)%R = IZR (v - k - 1).
Proof.
  intros k v Hk Hv. split; cbn [counted_value classic_value].
  - assert (Ztrunc (IZR k + / 2) = k) as ->.
    { rewrite Ztrunc_floor.
      - apply Zfloor_imp. rewrite plus_IZR. lra.
      - assert (0 <= IZR k)%R by (apply IZR_le; lia). lra. }
    f_equal. apply Z.mod_small. lia.
  - f_equal. replace (IZR v - (IZR k + / 2))%R with (IZR (v - k - 1) + / 2)%R by (rewrite !minus_IZR; lra).
    rewrite half_float by lia. rewrite Ztrunc_floor.
    + apply Zfloor_imp. rewrite plus_IZR. lra.
    + assert (0 <= IZR (v - k - 1))%R by (apply IZR_le; lia). lra.
Qed.

(** ... so that with the same thresholds only one of them reports an electron. *)
Definition half_dark : list float32 := repeat (f_div (f_of_Z 1) (f_of_Z 2)) 9.
Definition half_args : classic_args := mkClassic (Some half_dark) None 2 (d_of_Z 4) (d_of_Z 10) 1 (3, 1) false true.
Definition half_thresholds : thresholds :=
  mkThresholds (d_of_Z 4) (d_of_Z 50) 1 0 0 d0 d0 d0 0 d0 d0 d0 d0.
Theorem C79_readers_differ_refuted :
  threaded_count half_args half_thresholds (3, 3) [1; 1; 1; 1; 5; 1; 1; 1; 1] = Ok [4] /\
  classic_count half_args half_thresholds (3, 3) [1; 1; 1; 1; 5; 1; 1; 1; 1] = Ok [].
Proof. split; vm_compute; reflexivity. Qed.

(** ** Non-vacuity *)
(** Blocks of 2 x 1 pixels, counted with a dark level of 0: the thresholds are finite. *)
Definition args21 : classic_args :=
  mkClassic (Some (repeat (f_of_Z 0) 2)) None 2 (d_of_Z 0) (d_of_Z 5) 1 (0, 0) false true.
Definition sched21 : list cchoice :=
  [Take 0 0; Work 0; Work 0; Work 0; MainStep; MainStep; MainStep; MainStep; MainStep; MainStep; MainStep;
   Take 0 0; Work 0; Work 0; Work 0; Work 0; Work 0; Take 0 0; Work 0; Work 0; Work 0; Work 0; Work 0; MainStep].
Definition run21 := count_run (threaded_thresholds fit_start args21 (fun k => k)) (threaded_count args21) 1 (0, 0)
  sched21 (count_init 1 CountProps.ex_blocks).

Definition run21_ok (o : option (outcome (@csys thresholds))) : Prop :=
  match o with
    | Some (Ok s) => match c_main s, c_thr s with
        | MDone r, Some t => finite_thresholds (Ok t) = true /\
            (let* (sa, _) := returned args21 s in to_dense sa) = Ok (Dense [1; 3; 2; 1] [1; 0; 1; 0; 1; 0])
        | _, _ => False
        end
    | _ => False
    end.
Lemma run21_values : run21_ok run21.
Proof. vm_compute. split; reflexivity. Qed.

Lemma ones_are n : 0 <= n -> refs_are (repeat (f_of_Z 1) (Z.to_nat n)) n (fun _ => 1%R).
Proof. intros Hn. apply (const_refs _ _ n Hn). apply (fval_exact 1). lia. Qed.

Lemma delivery21 : delivery args21 CountProps.ex_blocks 3 1 2 1.
Proof.
  constructor; try lia.
    - intros b Hb. destruct (C56_example_blocks b Hb) as (A & B & C & _). auto.
    - intros f Hf. vm_compute in Hf. destruct Hf as [<-|[<-|[<-|[]]]]; repeat constructor; unfold is_u16; lia.
    - vm_compute. reflexivity.
Qed.
Lemma refs21 : refs_of args21 2 (Some (fun _ => 0%R)) None.
Proof.
  split; [exact (const_refs _ _ 2 ltac:(lia) (fval_exact 0 ltac:(lia)))|]. split; [exact I|]. intros j _. cbn. lra.
Qed.
Lemma run21_ok_inv o : run21_ok o ->
  exists s r t, o = Some (Ok s) /\ c_main s = MDone r /\ c_thr s = Some t /\ finite_thresholds (Ok t) = true /\
    (let* (sa, _) := returned args21 s in to_dense sa) = Ok (Dense [1; 3; 2; 1] [1; 0; 1; 0; 1; 0]).
Proof.
  intros Q. unfold run21_ok in Q. destruct o as [[s| | |]|]; try contradiction.
  destruct (c_main s) as [| | | | | | | |r] eqn:Em; try contradiction. destruct (c_thr s) as [t|] eqn:Et; try contradiction.
  destruct Q as (Hf & Q). exists s, r, t. repeat split; assumption.
Qed.
Example C79_threaded_meets :
  delivery args21 CountProps.ex_blocks 3 1 2 1 /\ refs_of args21 2 (Some (fun _ => 0%R)) None /\
  exists s r t, run21 = Some (Ok s) /\ c_main s = MDone r /\ c_thr s = Some t /\ finite_thresholds (Ok t) = true /\
    (let* (sa, _) := returned args21 s in to_dense sa) = Ok (Dense [1; 3; 2; 1] [1; 0; 1; 0; 1; 0]).
Proof. exact (conj delivery21 (conj refs21 (run21_ok_inv _ run21_values))). Qed.

(** The recorded files of JointProps.v, with a dark level, with a gain and with neither. *)
Definition args44 (dark gain : option (list float32)) : classic_args :=
  mkClassic dark gain 3 (d_of_Z 0) (d_of_Z 5) 2 (0, 0) false true.
Definition ones44 : option (list float32) := Some (repeat (f_of_Z 1) 16).
Definition array44 (a : classic_args) : option (sliced * bool) :=
  match initialize_scan_map g44 sched44 reader44 with
  | Some (Ok r) =>
      let th := threaded_thresholds fit_start a (fun k => k) in
      let cs := jrobin th (threaded_count a) 2 (0, 0) 600 (turns44 g44 (multipass_env r)) []
                  (joint_init (multipass_source g44 (multipass_env r)) 3 (multipass_start r)) in
      match multi_counting th (threaded_count a) 2 (0, 0) g44 r cs with
      | Some (Ok s) =>
          match c_main (j_cnt s), returned a (j_cnt s) with
          | MDone _, Ok (sa, _) =>
              match to_dense sa with
              | Ok d => Some (d, finite_thresholds (th (c_samples (j_cnt s))))
              | _ => None
              end
          | _, _ => None
          end
      | _ => None
      end
  | _ => None
  end.
Definition one_at (l : list Z) : list Z := map (fun j => if existsb (Z.eqb j) l then 1 else 0) (zseq 48).

Definition zeros44 : option (list float32) := Some (repeat (f_of_Z 0) 16).
Example C79_files44 :
  array44 (args44 zeros44 None) = Some (Dense [1; 3; 4; 4] (one_at [15; 27; 35]), true) /\
  array44 (args44 None ones44) = Some (Dense [1; 3; 4; 4] (one_at [15; 27; 35]), true) /\
  array44 (args44 None None) = Some (Dense [1; 3; 4; 4] (one_at [15; 27; 35]), true).
Proof. split; [|split]; vm_compute; reflexivity. Qed.

Example C79_files44_meets :
  good_scan g44 files44 (rec44 0 0 20) (init_threads 3 8) /\ multi_reader (map encode_sfile files44) 3 8 = Ok reader44 /\
  loads g44 reader44 reader44 /\ (exists r, initialize_scan_map g44 sched44 reader44 = Some (Ok r)) /\
  scan_used (0, 0) (rec44 0 0 20) = (3, 1) /\ Zlen (all_records files44) < 2 ^ 32 /\
  refs_of (args44 zeros44 None) 16 (Some (fun _ => 0%R)) None /\
  refs_of (args44 None ones44) 16 None (Some (fun _ => 1%R)) /\
  refs_of (args44 None None) 16 None None.
Proof.
  assert (O := ones_are 16 ltac:(lia)).
  assert (B : (Rabs 1 <= bpow radix2 40)%R).
  { rewrite Rabs_R1. change 1%R with (bpow radix2 0). apply bpow_le. lia. }
  destruct files44_hypotheses as (_ & _ & _ & H1 & H2 & H3 & _ & H4 & _).
  split; [exact files44_good|]. split; [exact H1|]. split; [exact H2|]. split; [exact H3|]. split; [reflexivity|].
  split; [exact H4|].
  assert (Z0 : refs_are (repeat (f_of_Z 0) 16) 16 (fun _ => 0%R)) by exact (const_refs _ _ 16 ltac:(lia) (fval_exact 0 ltac:(lia))).
  split; [|split]; (split; [first [exact O|exact Z0|exact I]|split; [first [exact O|exact I]|]]); intros j _; cbn; auto; lra.
Qed.

Print Assumptions C79_threaded.
Print Assumptions C79_multipass.
Print Assumptions C79_mpi_same_thresholds.
Print Assumptions C79_classic_metadata_refuted.
Print Assumptions C79_mpi_metadata_refuted.
Print Assumptions C79_dark_fraction_refuted.
Print Assumptions C79_readers_differ_refuted.
