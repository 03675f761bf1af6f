(** C68: dark references given to electron_count with a plain reader. *)
From Coq Require Import String ZArith List Lia Bool Reals Lra Znumtheory Zpow_facts.
From Flocq Require Import Core.
From Verif Require Import Base BaseFacts BlockModel Double Float32 FloatConv ImageModel ImageSpec ImageProofs ImageProps
  ThresholdModel ThresholdSpec SparseModel SparseSpec HelperModel FilterProofs CountSpec
  PyModel PySpec PyProofs ClassicPyModel ClassicPySpec ClassicPyProofs ClassicPyProps
  ReaderImageModel ReaderImageSpec ReaderImageProofs ReaderImageProps StemSpec SparseSlice DarkRefSpec DarkRefProofs.
Import ListNotations.
Open Scope Z_scope.
Local Arguments Z.mul : simpl never.
Local Arguments Z.add : simpl never.
Local Arguments Z.sub : simpl never.
Local Arguments Z.pow : simpl never.

(** What calculate_average returns, pixel by pixel. *)
Lemma average_doubles {R} (ops : reader_ops R) r bs fuel cs w h :
  reader_of ops r bs -> (forall b, In b bs -> real_block b) -> (List.length bs < fuel)%nat ->
  let rest := skipn (since_reset cs) bs in
  frames_input rest w h -> 0 < frame_count rest < 2 ^ 29 -> 0 < w ->
  exists a r', py_calculate_average ops fuel (run_calls ops cs r) = (Ok a, r') /\
    ia_image a = Some (ia_values a) /\ ia_shared a = true /\
    doubles_are (ia_values a) (w * h) (fun j => d_rnd (by_rows w (true_average rest w h) j)).
Proof.
  intros Hrd Rb Hf rest Hin HN Hw.
  destruct (C67_average ops r bs fuel cs w h Hrd Rb Hf Hin) as (a & E & Ed & L & Ei & Es & V); [fold rest; lia..|].
  fold rest in E, V. exists a. eexists. split; [exact E|]. split; [exact Ei|]. split; [exact Es|]. split; [exact L|].
  intros j Hj. pose proof (fi_frame _ _ _ Hin) as (_ & Hh & _).
  assert (Hx : 0 <= j mod w < w) by (apply Z.mod_pos_bound; lia).
  assert (Hy : 0 <= j / w < h) by (split; [apply Z.div_pos; lia|apply Z.div_lt_upper_bound; nia]).
  specialize (V _ _ Hx Hy). replace ((j / w) * w + j mod w) with j in V by (pose proof (Z.div_mod j w ltac:(lia)); lia).
  split; [exact V|]. unfold by_rows, d_rnd. apply abs_round_le_generic; auto with typeclass_instances.
  - apply generic_format_bpow. unfold FLT_exp. lia.
  - pose proof (average_bound rest w h (j mod w) (j / w) Hin ltac:(lia)) as [A B]. rewrite Rabs_pos_eq by exact A.
    apply Rle_trans with (1 := B). apply Rle_trans with (bpow radix2 16); [change (bpow radix2 16) with (IZR 65536); apply IZR_le; lia|].
    apply bpow_le. lia.
Qed.

(** ** The workflow of the documentation *)
(** dark = calculate_average(dark_reader); electron_count(reader, dark): if every
    average is a number of single precision, the electrons are those for exactly
    these dark levels.  Any calls may have been made on both readers before. *)
Theorem C68_average_dark {RD R} (dops : reader_ops RD) rD dark_bs dfuel dcs (ops : reader_ops R)
    fit gain s rnd fuel cs r bs sw sh w h gv :
  reader_of dops rD dark_bs -> (forall b, In b dark_bs -> real_block b) -> (List.length dark_bs < dfuel)%nat ->
  let rest := skipn (since_reset dcs) dark_bs in
  frames_input rest w h -> 0 < frame_count rest < 2 ^ 29 ->
  (forall x y, 0 <= x < w -> 0 <= y < h -> single_precision (true_average rest w h x y)) ->
  let dv := by_rows w (true_average rest w h) in
  reader_of ops r bs -> countable s cs bs fuel sw sh w h dv gv -> gain_given gain w h gv ->
  exists a rD', py_calculate_average dops dfuel (run_calls dops dcs rD) = (Ok a, rD') /\
    counts_with ops fit (ImageDark a) gain s rnd fuel cs r bs sw sh w h dv gv.
Proof.
  intros HrD RbD HfD rest Hin HN HS dv Hrd Hc Hg.
  destruct (ds_frame _ _ _ _ _ _ (cb_data _ _ _ _ _ _ _ _ _ _ Hc)) as (W1 & W2 & W3).
  destruct (average_doubles dops rD dark_bs dfuel dcs w h HrD RbD HfD Hin HN ltac:(lia)) as (a & rD' & E & Ei & Es & Dv).
  exists a, rD'. split; [exact E|]. fold rest in Dv.
  assert (Sv : forall j, 0 <= j < w * h -> single_precision (dv j)).
  { intros j Hj. apply HS; [apply Z.mod_pos_bound; lia|]. split; [apply Z.div_pos; lia|apply Z.div_lt_upper_bound; nia]. }
  assert (Dv' : doubles_are (ia_values a) (w * h) dv).
  { destruct Dv as [L V]. split; [exact L|]. intros j Hj. specialize (V j Hj).
    rewrite d_rnd_id in V by (apply format_single_double, Sv; exact Hj). exact V. }
  destruct (cast_all _ _ _ Dv' Sv) as [Ec Rf].
  refine (counts_core ops fit (ImageDark a) gain s rnd fuel cs r bs sw sh w h dv gv _ Hrd Hc Hg _ Rf).
  cbn [prepare_dark]. rewrite Ec. cbn [bind]. rewrite Ei. reflexivity.
Qed.

(** Otherwise it raises: if a single pixel's average is not a number of single
    precision, every call with this average raises ValueError, before anything
    is read. *)
Theorem C68_average_refused {RD R} (dops : reader_ops RD) rD dark_bs dfuel dcs (ops : reader_ops R)
    fit s rnd fuel r w h x y :
  reader_of dops rD dark_bs -> (forall b, In b dark_bs -> real_block b) -> (List.length dark_bs < dfuel)%nat ->
  let rest := skipn (since_reset dcs) dark_bs in
  frames_input rest w h -> 0 < frame_count rest < 2 ^ 29 ->
  0 <= x < w -> 0 <= y < h -> ~ single_precision (true_average rest w h x y) ->
  exists a rD', py_calculate_average dops dfuel (run_calls dops dcs rD) = (Ok a, rD') /\
    py_electron_count ops fit (ImageDark a) None s rnd fuel r = (Throw "ValueError", r).
Proof.
  intros HrD RbD HfD rest Hin HN Hx Hy Ns.
  destruct (average_doubles dops rD dark_bs dfuel dcs w h HrD RbD HfD Hin HN ltac:(lia)) as (a & rD' & E & Ei & Es & Dv).
  exists a, rD'. split; [exact E|]. fold rest in Dv.
  assert (Hj : 0 <= y * w + x < w * h) by nia.
  assert (Ec : safe_cast (ia_values a) = value_error).
  { apply (cast_refused _ _ _ (y * w + x) Dv Hj). unfold by_rows. destruct (div_mod_unique_row w x y Hx) as [-> ->].
    intros Q. apply Ns. unfold true_average in *. destruct (total_range rest w h x y Hin) as [T1 T2].
    rewrite <- (rounded_single _ _ HN (conj T1 T2) Q). exact Q. }
  unfold py_electron_count. cbn [prepare_gain_arg bind prepare_dark]. rewrite Ec. reflexivity.
Qed.

Lemma odd_not_single S N : 0 < N -> Z.odd N = true -> S mod N <> 0 -> ~ single_precision (IZR S / IZR N).
Proof.
  intros HN Ho Hm G. unfold single_precision in G.
  assert (N0 : (0 < IZR N)%R) by (apply IZR_lt; lia).
  set (q := (IZR S / IZR N)%R) in *. assert (Eq : (q * IZR N = IZR S)%R) by (unfold q; field; lra).
  set (m := Ztrunc (scaled_mantissa radix2 f_exp q)) in *. set (e := cexp radix2 f_exp q) in *.
  assert (Em : q = (IZR m * bpow radix2 e)%R) by exact G.
  apply Hm. apply Z.mod_divide; [lia|].
  destruct (Z.le_gt_cases 0 e) as [He|He].
  - exists (m * 2 ^ e). apply eq_IZR. rewrite !mult_IZR, (IZR_Zpower radix2) by lia. rewrite <- Em. lra.
  - assert (E : S * 2 ^ (- e) = m * N).
    { apply eq_IZR. rewrite !mult_IZR, (IZR_Zpower radix2) by lia. rewrite <- Eq, Em.
      replace (IZR m * bpow radix2 e * IZR N * bpow radix2 (- e))%R with (IZR m * IZR N * (bpow radix2 e * bpow radix2 (- e)))%R by ring.
      rewrite <- bpow_plus. replace (e + - e) with 0 by lia. cbn. ring. }
    assert (Gc : Z.gcd (2 ^ (- e)) N = 1).
    { apply Zgcd_1_rel_prime. apply rel_prime_sym, rel_prime_Zpower_r; [lia|]. apply Zgcd_1_rel_prime.
      rewrite Z.gcd_comm. pose proof (Z.gcd_nonneg 2 N) as G0.
      pose proof (Z.gcd_divide_l 2 N) as (u & D1). pose proof (Z.gcd_divide_r 2 N) as (v & D2).
      assert (Z.gcd 2 N = 1 \/ Z.gcd 2 N = 2) as [H|H]; [|exact H|].
      { pose proof (Z.divide_pos_le (Z.gcd 2 N) 2 ltac:(lia) (Z.gcd_divide_l 2 N)).
        assert (Z.gcd 2 N <> 0) by (intros E0; rewrite E0 in D1; lia). lia. }
      rewrite H in D2. rewrite D2, Z.odd_mul in Ho. cbn in Ho. rewrite andb_false_r in Ho. discriminate. }
    apply Z.gauss with (2 ^ (- e)); [|now rewrite Z.gcd_comm]. exists m. lia.
Qed.

(** With an odd number of dark frames the workflow fails unless every pixel's sum
    is a multiple of that number. *)
Theorem C68_odd_number_refuted {RD R} (dops : reader_ops RD) rD dark_bs dfuel dcs (ops : reader_ops R)
    fit s rnd fuel r w h x y :
  reader_of dops rD dark_bs -> (forall b, In b dark_bs -> real_block b) -> (List.length dark_bs < dfuel)%nat ->
  let rest := skipn (since_reset dcs) dark_bs in
  frames_input rest w h -> 0 < frame_count rest < 2 ^ 29 -> Z.odd (frame_count rest) = true ->
  0 <= x < w -> 0 <= y < h -> pixel_total rest w h x y mod frame_count rest <> 0 ->
  exists a rD', py_calculate_average dops dfuel (run_calls dops dcs rD) = (Ok a, rD') /\
    py_electron_count ops fit (ImageDark a) None s rnd fuel r = (Throw "ValueError", r).
Proof.
  intros HrD RbD HfD rest Hin HN Ho Hx Hy Hm.
  apply (C68_average_refused dops rD dark_bs dfuel dcs ops fit s rnd fuel r w h x y HrD RbD HfD Hin HN Hx Hy).
  exact (odd_not_single _ _ (proj1 HN) Ho Hm).
Qed.

(** With 1, 2, 4, ..., 256 dark frames it always works. *)
Theorem C68_power_of_two_frames {RD R} (dops : reader_ops RD) rD dark_bs dfuel dcs (ops : reader_ops R)
    fit gain s rnd fuel cs r bs sw sh w h gv k :
  reader_of dops rD dark_bs -> (forall b, In b dark_bs -> real_block b) -> (List.length dark_bs < dfuel)%nat ->
  let rest := skipn (since_reset dcs) dark_bs in
  frames_input rest w h -> 0 <= k <= 8 -> frame_count rest = 2 ^ k ->
  let dv := by_rows w (true_average rest w h) in
  reader_of ops r bs -> countable s cs bs fuel sw sh w h dv gv -> gain_given gain w h gv ->
  exists a rD', py_calculate_average dops dfuel (run_calls dops dcs rD) = (Ok a, rD') /\
    counts_with ops fit (ImageDark a) gain s rnd fuel cs r bs sw sh w h dv gv.
Proof.
  intros HrD RbD HfD rest Hin Hk HN dv Hrd Hc Hg.
  assert (P : 1 <= 2 ^ k <= 2 ^ 8) by (split; [pose proof (Z.pow_pos_nonneg 2 k); lia|apply Z.pow_le_mono_r; lia]).
  apply C68_average_dark; auto; fold rest; [lia|]. intros x y Hx Hy.
  destruct (total_range rest w h x y Hin) as [T1 T2]. unfold true_average, single_precision. rewrite HN in *.
  apply generic_format_FLT. exists (Float radix2 (pixel_total rest w h x y) (- k)); cbn [Fnum Fexp]; [|rewrite Z.abs_eq by lia|lia].
  - unfold F2R. cbn [Fnum Fexp]. rewrite bpow_opp, <- (IZR_Zpower radix2) by lia. reflexivity.
  - change (radix2 ^ 24) with (65536 * 2 ^ 8). nia.
Qed.

(** ** Arrays of the user *)
Theorem C68_plain_dark {R} (ops : reader_ops R) fit p gain s rnd fuel cs r bs sw sh w h v gv :
  array_of p w h v -> np_fortran p = false ->
  (forall x y, 0 <= x < w -> 0 <= y < h -> single_precision (v x y) /\ (Rabs (v x y) <= bpow radix2 90)%R) ->
  let dv := by_rows w v in
  reader_of ops r bs -> countable s cs bs fuel sw sh w h dv gv -> gain_given gain w h gv ->
  counts_with ops fit (PlainDark p) gain s rnd fuel cs r bs sw sh w h dv gv.
Proof.
  intros (Ed & L & V) Fo Hv dv Hrd Hc Hg.
  destruct (ds_frame _ _ _ _ _ _ (cb_data _ _ _ _ _ _ _ _ _ _ Hc)) as (W1 & W2 & W3).
  assert (Pos : forall j, 0 <= j < w * h -> 0 <= j mod w < w /\ 0 <= j / w < h /\ (j / w) * w + j mod w = j).
  { intros j Hj. split; [apply Z.mod_pos_bound; lia|]. split; [split; [apply Z.div_pos; lia|apply Z.div_lt_upper_bound; nia]|].
    pose proof (Z.div_mod j w ltac:(lia)). lia. }
  destruct (cast_all (np_values p) (w * h) dv) as [Ec Rf].
  - split; [exact L|]. intros j Hj. destruct (Pos j Hj) as (P1 & P2 & P3). specialize (V _ _ P1 P2). rewrite P3 in V.
    split; [exact V|]. now apply Hv.
  - intros j Hj. destruct (Pos j Hj) as (P1 & P2 & _). now apply Hv.
  - refine (counts_core ops fit (PlainDark p) gain s rnd fuel cs r bs sw sh w h dv gv _ Hrd Hc Hg _ Rf).
    cbn [prepare_dark]. unfold memory_of. rewrite Fo, Ec. reflexivity.
Qed.

(** An average changed in place is used as changed. *)
Theorem C68_in_place {R} (ops : reader_ops R) fit a f gain s rnd fuel cs r bs sw sh w h v gv :
  ia_image a = Some (ia_values a) -> ia_shared a = true ->
  array_of (mkNp (w, h) (map f (ia_values a)) false) w h v ->
  (forall x y, 0 <= x < w -> 0 <= y < h -> single_precision (v x y) /\ (Rabs (v x y) <= bpow radix2 90)%R) ->
  let dv := by_rows w v in
  reader_of ops r bs -> countable s cs bs fuel sw sh w h dv gv -> gain_given gain w h gv ->
  counts_with ops fit (ImageDark (in_place f a)) gain s rnd fuel cs r bs sw sh w h dv gv.
Proof.
  intros Ei Es (Ed & L & V) Hv dv Hrd Hc Hg. cbn [np_values] in *.
  destruct (ds_frame _ _ _ _ _ _ (cb_data _ _ _ _ _ _ _ _ _ _ Hc)) as (W1 & W2 & W3).
  assert (Pos : forall j, 0 <= j < w * h -> 0 <= j mod w < w /\ 0 <= j / w < h /\ (j / w) * w + j mod w = j).
  { intros j Hj. split; [apply Z.mod_pos_bound; lia|]. split; [split; [apply Z.div_pos; lia|apply Z.div_lt_upper_bound; nia]|].
    pose proof (Z.div_mod j w ltac:(lia)). lia. }
  destruct (cast_all (map f (ia_values a)) (w * h) dv) as [Ec Rf].
  - split; [exact L|]. intros j Hj. destruct (Pos j Hj) as (P1 & P2 & P3). specialize (V _ _ P1 P2). rewrite P3 in V.
    split; [exact V|]. now apply Hv.
  - intros j Hj. destruct (Pos j Hj) as (P1 & P2 & _). now apply Hv.
  - refine (counts_core ops fit (ImageDark (in_place f a)) gain s rnd fuel cs r bs sw sh w h dv gv _ Hrd Hc Hg _ Rf).
    cbn [prepare_dark in_place ia_values ia_image]. rewrite Ec, Es, Ei. reflexivity.
Qed.

(** A new array made from an average should be used with its own values.  Its
    values are only looked at to decide about the ValueError; what is subtracted
    is always the original average. *)
Theorem C68_derived_array_ignored {R} (ops : reader_ops R) fit a f gain s rnd fuel r d d' :
  safe_cast (ia_values a) = Ok d -> safe_cast (map f (ia_values a)) = Ok d' ->
  py_electron_count ops fit (ImageDark (elementwise f a)) gain s rnd fuel r =
  py_electron_count ops fit (ImageDark a) gain s rnd fuel r.
Proof.
  intros E E'. unfold py_electron_count. cbn [prepare_dark elementwise ia_values ia_image]. rewrite E, E'. reflexivity.
Qed.

(** An ImageArray made by its constructor is no dark reference at all. *)
Theorem C68_new_image_array_ignored {R} (ops : reader_ops R) fit dims values gain s rnd fuel r d :
  safe_cast values = Ok d ->
  py_electron_count ops fit (ImageDark (new_image_array dims values)) gain s rnd fuel r =
  py_electron_count ops fit NoDark gain s rnd fuel r.
Proof.
  intros E. unfold py_electron_count. cbn [prepare_dark new_image_array ia_values ia_image option_map]. rewrite E. reflexivity.
Qed.

(** An array in Fortran order is subtracted transposed: pixel (x, y) of the frame
    gets the value of the element that has its place in the memory. *)
Theorem C68_fortran_order {R} (ops : reader_ops R) fit p gain s rnd fuel cs r bs sw sh w h v gv :
  array_of p w h v -> np_fortran p = true ->
  (forall x y, 0 <= x < w -> 0 <= y < h -> single_precision (v x y) /\ (Rabs (v x y) <= bpow radix2 90)%R) ->
  let dv := fun j => v (j / h) (j mod h) in
  reader_of ops r bs -> countable s cs bs fuel sw sh w h dv gv -> gain_given gain w h gv ->
  counts_with ops fit (PlainDark p) gain s rnd fuel cs r bs sw sh w h dv gv.
Proof.
  intros (Ed & L & V) Fo Hv dv Hrd Hc Hg.
  destruct (ds_frame _ _ _ _ _ _ (cb_data _ _ _ _ _ _ _ _ _ _ Hc)) as (W1 & W2 & W3).
  assert (Pos : forall j, 0 <= j < w * h -> 0 <= j / h < w /\ 0 <= j mod h < h).
  { intros j Hj. split; [|apply Z.mod_pos_bound; lia]. split; [apply Z.div_pos; lia|apply Z.div_lt_upper_bound; nia]. }
  assert (Dm : doubles_are (memory_of p) (w * h) dv).
  { unfold memory_of. rewrite Fo, Ed. split; [rewrite Zlen_map, Zlen_zseq by lia; reflexivity|]. intros j Hj.
    destruct (Pos j Hj) as (P1 & P2). split; [|now apply Hv]. specialize (V _ _ P1 P2). unfold dat in *.
    set (g := fun k => nth (Z.to_nat (k mod h * w + k / h)) (np_values p) (d_of_Z 0)).
    assert (En : nth_error (map g (zseq (w * h))) (Z.to_nat j) = Some (g j)).
    { apply map_nth_error. unfold zseq. rewrite nth_error_map, (nth_error_nth' _ 0%nat) by (rewrite seq_length; lia).
      rewrite seq_nth by lia. cbn. f_equal. lia. }
    rewrite (nth_error_nth _ _ _ En). exact V. }
  destruct (cast_all _ _ _ Dm) as [Ec Rf].
  { intros j Hj. destruct (Pos j Hj) as (P1 & P2). now apply Hv. }
  refine (counts_core ops fit (PlainDark p) gain s rnd fuel cs r bs sw sh w h dv gv _ Hrd Hc Hg _ Rf).
  cbn [prepare_dark]. rewrite Ec. reflexivity.
Qed.

(** ** Cases that meet the hypotheses, and what goes wrong *)
Definition row_frames (n w : Z) (px : list Z) : ndarray := mkNd px 0 (n, 1, w) (w, w, 1).
Definition row_reader (n w : Z) (px : list Z) := py_new (row_frames n w px) (zseq n) (n, 1) 1 n.
Definition ex_dark_px := [0; 20; 0; 0; 0;  0; 21; 1; 0; 0].
Definition ex_px := [50; 75; 50; 50; 60;  60; 55; 50; 50; 58].
Definition ex_settings := mkSettings 2 (d_of_Z 0) (d_of_Z 5) 1 (0, 0) false true.

Lemma ex_rows_good px : Zlen px = 10 -> good_py (row_frames 2 5 px) (zseq 2) 1 2.
Proof.
  intros L. unfold good_py, contiguous, row_frames. cbn [nd_count nd_rows nd_cols nd_off nd_strides nd_buf nd_shape fst snd].
  rewrite Zlen_zseq by lia. repeat split; cbn; lia.
Qed.

Definition ex_dark_bs := py_blocks (row_frames 2 5 ex_dark_px) (zseq 2) (2, 1) 1 2.
Definition ex_bs2 := py_blocks (row_frames 2 5 ex_px) (zseq 2) (2, 1) 1 2.
Definition ex_count (dark : dark_arg) :=
  ClassicPyProps.dense_of (py_electron_count py_ops fit_start dark None ex_settings (fun k => k) 10 (row_reader 2 5 ex_px)).

Lemma ex_dark_input : frames_input ex_dark_bs 5 1.
Proof.
  constructor; [discriminate| |lia].
  assert (Hu : forall n, Forall is_u16 (skipn n ex_dark_px)).
  { intros n. apply Forall_forall. intros x Hx. apply In_skipn in Hx. revert x Hx. apply Forall_forall.
    repeat constructor; unfold is_u16; lia. }
  repeat constructor; cbn; try lia.
  - exists (skipn 0 ex_dark_px). split; [reflexivity|]. split; [vm_compute; discriminate|]. split; [reflexivity|]. apply (Hu 0%nat).
  - exists (skipn 5 ex_dark_px). split; [reflexivity|]. split; [vm_compute; discriminate|]. split; [reflexivity|]. apply (Hu 5%nat).
Qed.

Lemma ex_countable : countable ex_settings [] ex_bs2 10 2 1 5 1 (by_rows 5 (true_average ex_dark_bs 5 1)) None.
Proof.
  constructor.
  - apply (py_data_set (row_frames 2 5 ex_px) (zseq 2) (2, 1) 1 2); try (cbn; lia); try reflexivity.
    + now apply ex_rows_good.
    + cbn. repeat constructor; unfold is_u16; lia.
    + intros i Hi. assert (i = 0 \/ i = 1) as [->| ->] by lia; (split; [vm_compute; discriminate|reflexivity]).
  - intros f j Hf Hj. cbn [option_map in_range].
    assert (P : 50 <= zat (snd (snd f)) j <= 75).
    { vm_compute in Hf. assert (j = 0 \/ j = 1 \/ j = 2 \/ j = 3 \/ j = 4) as [->|[->|[->|[->| ->]]]] by lia;
        destruct Hf as [<-|[<-|[]]]; (split; vm_compute; discriminate). }
    assert (T : 0 <= pixel_total ex_dark_bs 5 1 (j mod 5) (j / 5) <= 41).
    { assert (j = 0 \/ j = 1 \/ j = 2 \/ j = 3 \/ j = 4) as [->|[->|[->|[->| ->]]]] by lia; (split; vm_compute; discriminate). }
    unfold by_rows, true_average. change (frame_count ex_dark_bs) with 2.
    destruct P as [P1 P2], T as [T1 T2]. apply IZR_le in P1, P2, T1, T2.
    pose proof (f_rnd_between 0 128 (IZR (zat (snd (snd f)) j) - IZR (pixel_total ex_dark_bs 5 1 (j mod 5) (j / 5)) / 2)
      (generic_format_0 _ _) (int_float 128 ltac:(lia)) ltac:(lra)). lra.
  - reflexivity.
  - apply Nat.leb_le. reflexivity.
  - apply Nat.ltb_lt. reflexivity.
Qed.

Example ex_two_dark_frames : exists a rD',
  py_calculate_average py_ops 10 (row_reader 2 5 ex_dark_px) = (Ok a, rD') /\
  counts_with py_ops fit_start (ImageDark a) None ex_settings (fun k => k) 10 [] (row_reader 2 5 ex_px) ex_bs2 2 1 5 1
    (by_rows 5 (true_average ex_dark_bs 5 1)) None.
Proof.
  apply (C68_power_of_two_frames py_ops (row_reader 2 5 ex_dark_px) ex_dark_bs 10 [] py_ops fit_start None ex_settings (fun k => k)
    10 [] (row_reader 2 5 ex_px) ex_bs2 2 1 5 1 None 1).
  - exact (proj1 (py_reader_of (row_frames 2 5 ex_dark_px) (zseq 2) (2, 1) 1 2 (ex_rows_good ex_dark_px eq_refl))).
  - intros b [<-|[<-|[]]]; split; vm_compute; discriminate.
  - apply Nat.ltb_lt. reflexivity.
  - exact ex_dark_input.
  - lia.
  - reflexivity.
  - exact (proj1 (py_reader_of (row_frames 2 5 ex_px) (zseq 2) (2, 1) 1 2 (ex_rows_good ex_px eq_refl))).
  - exact ex_countable.
  - exact I.
Qed.

(** The thresholds of the example exist (the premise inside [counts_with]). *)
Example ex_two_dark_frames_counts :
  match fst (py_calculate_average py_ops 10 (row_reader 2 5 ex_dark_px)) with
  | Ok a => ex_count (ImageDark a)
  | _ => Throw ""
  end = Ok (Dense [1; 2; 5; 1] [0; 1; 0; 0; 1;  1; 0; 0; 0; 1]).
Proof. vm_compute. reflexivity. Qed.

(** Three dark frames with sums 0, 1, ... : refused. *)
Example ex_three_dark_frames :
  match fst (py_calculate_average py_ops 10 (row_reader 3 5 (ex_dark_px ++ [0; 20; 0; 0; 0]))) with
  | Ok a => ex_count (ImageDark a)
  | _ => Throw ""
  end = Throw "ValueError".
Proof. vm_compute. reflexivity. Qed.

(** The user doubles an average (hot pixel 20, now 40) and counts: the array says
    40, a plain array with the same values gives no electron at the hot pixel of
    the first frame; the result is that for 20. *)
Theorem C68_derived_array_refuted : exists a rD' f,
  py_calculate_average py_ops 10 (row_reader 1 5 [0; 20; 0; 0; 0]) = (Ok a, rD') /\
  let dark := elementwise f a in
  ex_count (PlainDark (mkNp (ia_dims dark) (ia_values dark) false)) =
    Ok (Dense [1; 2; 5; 1] [1; 0; 0; 0; 1;  1; 0; 0; 0; 1]) /\
  ex_count (ImageDark dark) = Ok (Dense [1; 2; 5; 1] [0; 1; 0; 0; 1;  1; 0; 0; 0; 1]).
Proof.
  set (f := fun x => d_mul x (d_of_Z 2)).
  set (avg := py_calculate_average py_ops 10 (row_reader 1 5 [0; 20; 0; 0; 0])).
  set (P := fun o : outcome image_array => match o with
    | Ok a => match ex_count (PlainDark (mkNp (ia_dims a) (map f (ia_values a)) false)), ex_count (ImageDark (elementwise f a)) with
              | Ok (Dense s1 D1), Ok (Dense s2 D2) => Some (s1, D1, (s2, D2))
              | _, _ => None
              end
    | _ => None end).
  assert (Q : P (fst avg) = Some ([1; 2; 5; 1], [1; 0; 0; 0; 1;  1; 0; 0; 0; 1], ([1; 2; 5; 1], [0; 1; 0; 0; 1;  1; 0; 0; 0; 1])))
    by (vm_compute; reflexivity).
  destruct avg as [[a|m|m|] rD'] eqn:E; try discriminate. exists a, rD', f. split; [reflexivity|]. cbn [fst P] in Q.
  cbn zeta. change (ia_dims (elementwise f a)) with (ia_dims a). change (ia_values (elementwise f a)) with (map f (ia_values a)).
  destruct (ex_count (PlainDark _)) as [[s1 D1|p1]| | |]; try discriminate.
  destruct (ex_count (ImageDark _)) as [[s2 D2|p2]| | |]; try discriminate.
  injection Q as -> -> -> ->. auto.
Qed.

(** A dark reference in Fortran order: with its values row by row the electron of
    this frame is at pixel 3, the result has one at pixel 1. *)
Theorem C68_fortran_order_refuted : exists values,
  let count fortran := ClassicPyProps.dense_of (py_electron_count py_ops fit_start
     (PlainDark (mkNp (2, 2) values fortran)) None ex_settings (fun k => k) 10
     (py_new (mkNd [50; 75; 50; 60] 0 (1, 2, 2) (4, 2, 1)) [0] (1, 1) 1 1)) in
  count false = Ok (Dense [1; 1; 2; 2] [0; 0; 0; 1]) /\ count true = Ok (Dense [1; 1; 2; 2] [0; 1; 0; 0]).
Proof. exists (map d_of_Z [0; 20; 0; 0]). split; vm_compute; reflexivity. Qed.

Print Assumptions C68_average_dark.
Print Assumptions C68_average_refused.
Print Assumptions C68_odd_number_refuted.
Print Assumptions C68_power_of_two_frames.
Print Assumptions C68_plain_dark.
Print Assumptions C68_in_place.
Print Assumptions C68_derived_array_ignored.
Print Assumptions C68_new_image_array_ignored.
Print Assumptions C68_fortran_order.
Print Assumptions C68_derived_array_refuted.
Print Assumptions C68_fortran_order_refuted.
