(** Proofs about the dark-reference workflow. *)
From Coq Require Import String ZArith List Lia Bool Reals Lra.
From Flocq Require Import Core.
From Verif Require Import Base BaseFacts BlockModel Double Float32 FloatConv ImageModel ImageSpec ImageProofs ImageProps
  ThresholdModel ThresholdSpec SparseModel SparseSpec HelperModel FilterProofs CountSpec
  ClassicPyModel ClassicPySpec ClassicPyProofs ClassicPyProps ReaderImageModel ReaderImageSpec ReaderImageProofs ReaderImageProps
  StemSpec SparseSlice DarkRefSpec.
Import ListNotations.
Open Scope Z_scope.
Local Arguments Z.mul : simpl never.
Local Arguments Z.add : simpl never.
Local Arguments Z.sub : simpl never.
Local Arguments Z.pow : simpl never.

(** A quotient whose double is a single-precision number is that number itself. *)
Lemma rounded_single S N : 0 < N < 2 ^ 29 -> 0 <= S <= 65535 * N ->
  generic_format radix2 f_exp (d_rnd (IZR S / IZR N)) -> d_rnd (IZR S / IZR N) = (IZR S / IZR N)%R.
Proof.
  intros HN HS G. destruct (Z.eq_dec S 0) as [->|S0].
  { unfold Rdiv. rewrite Rmult_0_l. apply d_rnd_0. }
  set (q := (IZR S / IZR N)%R) in *. set (f := d_rnd q) in *.
  assert (N0 : (0 < IZR N)%R) by (apply IZR_lt; lia).
  assert (S1 : (1 <= IZR S)%R) by (apply IZR_le; lia).
  assert (Eq : (q * IZR N = IZR S)%R) by (unfold q; field; lra).
  assert (q0 : (0 < q)%R) by (unfold q; apply Rdiv_lt_0_compat; lra).
  set (M := mag radix2 q : Z).
  assert (HN29 : (IZR N < bpow radix2 29)%R) by (change (bpow radix2 29) with (IZR (2 ^ 29)); apply IZR_lt; lia).
  assert (M1 : -28 <= M).
  { apply (mag_ge_bpow radix2 q (-28)). rewrite Rabs_pos_eq by lra.
    apply Rmult_le_reg_r with (IZR N); [exact N0|]. rewrite Eq. apply Rle_trans with (2 := S1).
    apply Rle_trans with (bpow radix2 (-28 - 1) * bpow radix2 29)%R.
    - apply Rmult_le_compat_l; [apply bpow_ge_0|lra].
    - rewrite <- bpow_plus. change (-28 - 1 + 29) with 0. cbn. lra. }
  assert (M2 : M <= 16).
  { apply mag_le_bpow; [lra|]. rewrite Rabs_pos_eq by lra. change (bpow radix2 16) with (IZR 65536).
    apply Rmult_lt_reg_r with (IZR N); [exact N0|]. rewrite Eq, <- mult_IZR. apply IZR_lt. lia. }
  assert (Err : (Rabs (f - q) <= / 2 * bpow radix2 (M - 53))%R).
  { unfold f, d_rnd. pose proof (error_le_half_ulp radix2 d_exp (fun x => negb (Z.even x)) q) as E.
    rewrite ulp_neq_0 in E by lra. unfold cexp in E. fold M in E.
    replace (d_exp M) with (M - 53) in E by (unfold FLT_exp; lia). exact E. }
  assert (Fl : (bpow radix2 (M - 1) <= f)%R).
  { apply round_ge_generic; auto with typeclass_instances.
    - apply generic_format_bpow. unfold FLT_exp. lia.
    - pose proof (bpow_mag_le radix2 q ltac:(lra)) as B. fold M in B. rewrite Rabs_pos_eq in B by lra. exact B. }
  assert (Mf : M <= mag radix2 f).
  { apply mag_ge_bpow. rewrite Rabs_pos_eq; [exact Fl|]. pose proof (bpow_ge_0 radix2 (M - 1)). lra. }
  assert (Ef : exists m, f = (IZR m * bpow radix2 (M - 24))%R).
  { rewrite G. set (m := Ztrunc _). set (e := cexp _ _ _).
    assert (He : M - 24 <= e) by (unfold e, cexp, FLT_exp; lia).
    rewrite (F2R_change_exp radix2 (M - 24) m e He). eexists. unfold F2R. cbn [Fnum Fexp]. reflexivity. }
  destruct Ef as (m & Ef).
  set (K := N * m - S * 2 ^ (24 - M)).
  assert (EK : (IZR N * (f - q) = IZR K * bpow radix2 (M - 24))%R).
  { unfold K. rewrite minus_IZR, !mult_IZR. rewrite (IZR_Zpower radix2) by lia.
    rewrite Rmult_minus_distr_r, Rmult_minus_distr_l, (Rmult_comm (IZR N) q), Eq, Ef.
    rewrite (Rmult_assoc (IZR S)), <- bpow_plus. replace (24 - M + (M - 24)) with 0 by lia. cbn. ring. }
  destruct (Z.eq_dec K 0) as [K0|K0].
  { rewrite K0, Rmult_0_l in EK. apply Rmult_integral in EK as [E|E]; lra. }
  exfalso. assert (K1 : (1 <= Rabs (IZR K))%R) by (rewrite <- abs_IZR; apply IZR_le; lia).
  assert (B : (bpow radix2 (M - 24) <= IZR N * (/ 2 * bpow radix2 (M - 53)))%R).
  { apply Rle_trans with (Rabs (IZR K * bpow radix2 (M - 24))).
    - rewrite Rabs_mult, (Rabs_pos_eq (bpow _ _)) by apply bpow_ge_0. pose proof (bpow_ge_0 radix2 (M - 24)).
      apply Rle_trans with (1 * bpow radix2 (M - 24))%R; [lra|]. apply Rmult_le_compat_r; lra.
    - rewrite <- EK, Rabs_mult, (Rabs_pos_eq (IZR N)) by lra. apply Rmult_le_compat_l; lra. }
  replace (M - 24) with (29 + (M - 53)) in B by lia. rewrite bpow_plus in B.
  pose proof (bpow_gt_0 radix2 (M - 53)) as P.
  assert (bpow radix2 29 * bpow radix2 (M - 53) <= IZR N * / 2 * bpow radix2 (M - 53))%R by lra.
  apply Rmult_le_reg_r in H; [|exact P]. lra.
Qed.

Lemma format_single_double q : generic_format radix2 f_exp q -> generic_format radix2 d_exp q.
Proof. apply format_f_d. Qed.

(** Sums of the pixels. *)
Lemma total_range bs w h x y : frames_input bs w h ->
  0 <= pixel_total bs w h x y <= 65535 * frame_count bs.
Proof.
  intros Hin. unfold pixel_total, frame_count.
  pose proof (zsum_le (map (pixel_of w h x y) (all_frames bs)) 65535) as B. rewrite Zlen_map in B. apply B.
  intros v Hv. apply in_map_iff in Hv as ([b i] & <- & Hf). unfold all_frames in Hf.
  apply in_flat_map in Hf as (b' & Hb & Hf). apply in_map_iff in Hf as (i' & [= -> ->] & _).
  destruct Hin as [_ F _]. rewrite Forall_forall in F. destruct (F b Hb) as (_ & _ & d & Ed & _ & _ & Hu).
  unfold pixel_of, frame_pixel. cbn [fst snd]. rewrite Ed. now apply zat_u16.
Qed.

Lemma average_bound bs w h x y : frames_input bs w h -> 0 < frame_count bs ->
  (0 <= true_average bs w h x y <= 65535)%R.
Proof.
  intros Hin HN. destruct (total_range bs w h x y Hin) as [A B]. unfold true_average.
  assert (0 < IZR (frame_count bs))%R by (apply IZR_lt; lia). split.
  - apply Rmult_le_pos; [now apply IZR_le|]. left. now apply Rinv_0_lt_compat.
  - apply Rmult_le_reg_r with (IZR (frame_count bs)); [assumption|].
    replace (IZR (pixel_total bs w h x y) / IZR (frame_count bs) * IZR (frame_count bs))%R with (IZR (pixel_total bs w h x y)) by (field; lra).
    rewrite <- mult_IZR. now apply IZR_le.
Qed.

Lemma safe_cast_inv a r : safe_cast a = Ok r -> r = map f_of_d a.
Proof. unfold safe_cast, value_error. destruct (existsb _ _); intros H; [discriminate|now injection H]. Qed.

(** A list of doubles, pixel by pixel. *)
Definition doubles_are (l : list double) (n : Z) (v : Z -> R) : Prop :=
  Zlen l = n /\ forall j, 0 <= j < n -> dval (dat l j) (v j) /\ (Rabs (v j) <= bpow radix2 90)%R.

Lemma cast_all l n v : doubles_are l n v -> (forall j, 0 <= j < n -> single_precision (v j)) ->
  safe_cast l = Ok (map f_of_d l) /\ refs_are (map f_of_d l) n v.
Proof.
  intros [L V] S.
  destruct (FilterProofs.safe_cast_ok l v) as (r & E & Lr & Vr).
  - intros i x Hi Hx. assert (Hn : (Z.to_nat i < List.length l)%nat) by (apply nth_error_Some; congruence).
    assert (Hi' : 0 <= i < n) by (unfold Zlen in L; lia). destruct (V i Hi') as (D & B).
    unfold dat in D. rewrite (nth_error_nth _ _ _ Hx) in D. auto.
  - intros i Hi. apply f_rnd_id, S. lia.
  - pose proof (safe_cast_inv _ _ E) as ->. split; [exact E|]. split; [lia|].
    intros j Hj. destruct (nth_error (map f_of_d l) (Z.to_nat j)) as [x|] eqn:Ex.
    + exists x. split; [exact Ex|]. apply (Vr j x); [lia|exact Ex].
    + apply nth_error_None in Ex. unfold Zlen in Lr, L. lia.
Qed.

Lemma cast_refused l n v j : doubles_are l n v -> 0 <= j < n -> ~ single_precision (v j) -> safe_cast l = value_error.
Proof.
  intros [L V] Hj Ns. destruct (V j Hj) as (D & B). apply (safe_cast_raise l (dat l j)).
  - unfold dat. apply nth_In. unfold Zlen in L. lia.
  - right. exists (v j). split; [exact D|]. split; [exact B|]. intros E. apply Ns. unfold single_precision. rewrite <- E.
    apply generic_format_round; auto with typeclass_instances.
Qed.

Lemma gain_prepared gain w h gv : 0 < w -> 0 <= h -> gain_given gain w h gv ->
  exists g, prepare_gain_arg gain = Ok g /\
    match g, gv with None, None => True | Some g, Some v => refs_are g (w * h) v | _, _ => False end.
Proof.
  intros Hw Hh. destruct gain as [a|], gv as [v|]; cbn [gain_given]; try contradiction.
  - intros (Fo & u & (Ed & L & V) & Hu). cbn [prepare_gain_arg]. unfold memory_of. rewrite Fo. unfold prepare_gain.
    destruct (cast_all (map (fun g => d_div (d_of_Z 1) g) (np_values a)) (w * h) v) as [E Rf].
    + split; [rewrite Zlen_map; exact L|]. intros j Hj.
      assert (Hx : 0 <= j mod w < w) by (apply Z.mod_pos_bound; lia).
      assert (Hy : 0 <= j / w < h) by (split; [apply Z.div_pos; lia|apply Z.div_lt_upper_bound; nia]).
      assert (Ej : (j / w) * w + j mod w = j) by (pose proof (Z.div_mod j w ltac:(lia)); lia).
      destruct (Hu _ _ Hx Hy) as (U0 & UB & US & UV). specialize (V _ _ Hx Hy). rewrite Ej in *.
      assert (D : dval (dat (map (fun g => d_div (d_of_Z 1) g) (np_values a)) j) (v j)).
      { unfold dat in *. rewrite (nth_indep _ _ (d_div (d_of_Z 1) (d_of_Z 0))) by (rewrite map_length; unfold Zlen in L; lia).
        rewrite map_nth. rewrite UV. unfold Rdiv in *. rewrite <- (Rmult_1_l (/ u (j mod w) (j / w))).
        apply (dval_div _ _ 1 (u (j mod w) (j / w))); [exact (dval_of_int 1 ltac:(lia))|exact V|exact U0|].
        unfold Rdiv. rewrite Rmult_1_l. apply Rle_trans with (1 := UB). apply bpow_le. lia. }
      split; [exact D|]. rewrite UV. unfold d_rnd. apply abs_round_le_generic; auto with typeclass_instances.
      apply generic_format_bpow. unfold FLT_exp. lia.
    + intros j Hj.
      assert (Hx : 0 <= j mod w < w) by (apply Z.mod_pos_bound; lia).
      assert (Hy : 0 <= j / w < h) by (split; [apply Z.div_pos; lia|apply Z.div_lt_upper_bound; nia]).
      assert (Ej : (j / w) * w + j mod w = j) by (pose proof (Z.div_mod j w ltac:(lia)); lia).
      destruct (Hu _ _ Hx Hy) as (_ & _ & US & UV). rewrite Ej in UV. rewrite UV. exact US.
    + rewrite E. cbn [bind]. eexists. split; [reflexivity|]. exact Rf.
  - intros _. exists None. auto.
Qed.

Lemma data_set_settings s d g bs sw sh w h :
  data_set (with_references s None None) bs sw sh w h -> data_set (with_references s d g) bs sw sh w h.
Proof. intros [A B C D E F]. constructor; assumption. Qed.

(** Counting with references that have been prepared. *)
Lemma counts_core {R} (ops : reader_ops R) fit dark gain s rnd fuel cs r bs sw sh w h dv gv d :
  reader_of ops r bs -> countable s cs bs fuel sw sh w h dv gv -> gain_given gain w h gv ->
  prepare_dark dark = Ok (Some d) -> refs_are d (w * h) dv ->
  counts_with ops fit dark gain s rnd fuel cs r bs sw sh w h dv gv.
Proof.
  intros Hrd [Cd Cr Crow Cb Cf] Hg Ed Rd. destruct (ds_frame _ _ _ _ _ _ Cd) as (W1 & W2 & W3).
  destruct (gain_prepared gain w h gv ltac:(lia) ltac:(lia) Hg) as (g & Eg & Rg).
  exists d, g. split; [exact Rd|]. split; [exact Rg|]. intros t bg xr Et Hb Hx.
  destruct (C65_electron_count ops r bs fit (with_references s (Some d) g) rnd fuel cs t sw sh w h dv gv bg xr Hrd)
    as (sa & W & H & E); auto.
  - now apply data_set_settings.
  - split; [|exact Cr]. split; [exists d; auto|exact Rg].
  - exists sa. eexists. split; [|split; [exact W|exact H]]. unfold py_electron_count. rewrite Eg. cbn [bind]. rewrite Ed. cbn [bind].
    exact E.
Qed.
