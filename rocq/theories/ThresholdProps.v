(** Properties C57 (samples), C58 (statistics) and C59 (histogram, absence of
    undefined behaviour) of the threshold calculation. *)
From Coq Require Import String ZArith List Bool Reals Lia Lra Psatz.
From Flocq Require Import Core.
From Flocq Require Import IEEE754.BinarySingleNaN IEEE754.Binary IEEE754.Bits.
From Verif Require Import Base BaseFacts BlockModel CountSpec Double Float32 FloatConv ThresholdModel ThresholdSpec
  ThresholdStats ThresholdProofs SparseSlice ElectronModel.
Import ListNotations.
Open Scope Z_scope.

Local Arguments Z.mul : simpl never.
Local Arguments Z.add : simpl never.
Local Arguments Z.pow : simpl never.

(** * C57: samples *)
Lemma Zlen_minus_dark dv n f : 0 <= n -> Zlen (minus_dark dv n f) = n.
Proof. intros. unfold minus_dark. rewrite Zlen_map. now apply Zlen_zseq. Qed.

Lemma zat_minus_dark dv n f j : 0 <= j < n -> zat (minus_dark dv n f) j = (zat f j - dv j) mod 2 ^ 16.
Proof. intros. unfold minus_dark. now rewrite zat_map_zseq. Qed.

Lemma Zlen_flat {A} (g : A -> list Z) N fs : (forall f, Zlen (g f) = N) -> Zlen (flat_map g fs) = N * Zlen fs.
Proof.
  intros H. induction fs as [|f t IH]; cbn [flat_map]; [unfold Zlen; cbn; lia|].
  rewrite Zlen_app, IH, H, Zlen_cons. lia.
Qed.

Lemma zat_flat {A} (g : A -> list Z) N fs d : (forall f, Zlen (g f) = N) -> 0 < N ->
  forall i j, 0 <= i < Zlen fs -> 0 <= j < N -> zat (flat_map g fs) (i * N + j) = zat (g (nth (Z.to_nat i) fs d)) j.
Proof.
  intros H HN. induction fs as [|f t IH]; intros i j Hi Hj; [unfold Zlen in Hi; cbn in Hi; lia|].
  rewrite Zlen_cons in Hi. cbn [flat_map]. rewrite zat_app, H.
  destruct (Z.eq_dec i 0) as [->|Ni].
  - destruct (Z.ltb_spec (0 * N + j) N); [|lia]. reflexivity.
  - destruct (Z.ltb_spec (i * N + j) N); [nia|]. replace (i * N + j - N) with ((i - 1) * N + j) by lia.
    rewrite IH by lia. replace (Z.to_nat i) with (S (Z.to_nat (i - 1))) by lia. reflexivity.
Qed.

Lemma nth_map_zseq {A} (f : Z -> A) n i d : 0 <= i < n -> nth (Z.to_nat i) (map f (zseq n)) d = f i.
Proof.
  intros H. unfold zseq. rewrite map_map. rewrite (nth_indep _ d (f (Z.of_nat 0))) by (rewrite map_length, seq_length; lia).
  rewrite (map_nth (fun x => f (Z.of_nat x))). rewrite seq_nth by lia. f_equal. lia.
Qed.

Section Blocks.
  Variables (blocks : list block) (w h n : Z).
  (** Blocks of w x h frames that can be sampled n times. *)
  Definition samplable : Prop :=
    blocks <> [] /\ 0 < w * h /\ 0 < n /\ w * h * n < 2 ^ 31 /\
    forall b, In b blocks -> block_ok b /\ frame_dims (hdr b) = (w, h) /\ 0 < images_in_block (hdr b) < 2 ^ 31.
  (** The pixels are 16 bit numbers. *)
  Definition u16_data : Prop := forall f, In f (stored_frames blocks) -> Forall is_u16 f.

  Hypothesis Hs : samplable.

  Lemma ne_len : 0 < Zlen blocks.
  Proof. destruct Hs as [H _]. destruct blocks; [congruence|]. rewrite Zlen_cons. pose proof (Zlen_nonneg l). lia. Qed.

  Lemma stored_len f : In f (stored_frames blocks) -> Zlen f = w * h.
  Proof.
    destruct Hs as (_ & Hwh & _ & _ & Hb). intros H. unfold stored_frames in H. apply in_map_iff in H as (x & <- & H).
    apply in_flat_map in H as (b & Hin & H). destruct (Hb b Hin) as (K & Ed & _).
    destruct (bk_data b K) as (d & Edat & Ld & _). unfold frames_of in H. rewrite Edat, Ed in H.
    apply in_map_iff in H as (k & <- & Hk). apply in_zseq in Hk. cbn [fst snd].
    rewrite Ed in Ld. cbn [fst snd] in Ld. unfold image, Zlen in *. rewrite firstn_length, skipn_length. nia.
  Qed.

  Section Values.
    Variables (dark gain : option (list float32)) (val : Z -> Z -> Z).
    Hypothesis Hval : forall f j, In f (stored_frames blocks) -> 0 <= j < w * h ->
      sample_value dark gain (zat f j) j = Ok (val (zat f j) j).
    Definition values f := map (fun j => val (zat f j) j) (zseq (w * h)).

    Lemma values_len f : Zlen (values f) = w * h.
    Proof. unfold values. rewrite Zlen_map. apply Zlen_zseq. destruct Hs. lia. Qed.

    Lemma samples_flat rnd : exists fs, Zlen fs = n /\ (forall f, In f fs -> In f (stored_frames blocks)) /\
      take_samples blocks dark gain n rnd = Ok (flat_map values fs).
    Proof.
      pose proof ne_len as Hne. pose proof Hs as (_ & Hwh & Hn & Hsz & Hb).
      destruct (samples_ok blocks dark gain w h n val Hne Hwh ltac:(lia) Hsz ltac:(nia) Hb Hval rnd) as (s & E & Ls & V).
      set (pick := fun i => frame_at blocks w h (rnd (2 * i) mod Zlen blocks)
        (rnd (2 * i + 1) mod images_at blocks (rnd (2 * i) mod Zlen blocks))).
      exists (map pick (zseq n)). split; [rewrite Zlen_map; apply Zlen_zseq; lia|]. split.
      - intros f Hf. apply in_map_iff in Hf as (i & <- & _).
        pose proof (Z.mod_pos_bound (rnd (2 * i)) (Zlen blocks) Hne) as Bb.
        apply (frame_stored blocks w h Hb); [exact Bb|]. apply Z.mod_pos_bound.
        destruct (Hb _ (block_at blocks _ Bb)) as (_ & _ & Q). unfold images_at. lia.
      - rewrite E. f_equal. apply list_eq_zat.
        + rewrite (Zlen_flat values (w * h)) by apply values_len. rewrite Zlen_map, Zlen_zseq by lia. exact Ls.
        + intros k Hk. rewrite Ls in Hk.
          pose proof (Z.div_mod k (w * h) ltac:(lia)) as DM. pose proof (Z.mod_pos_bound k (w * h) Hwh) as Bj.
          assert (Bi : 0 <= k / (w * h) < n) by (split; [apply Z.div_pos; lia|apply Z.div_lt_upper_bound; lia]).
          set (i := k / (w * h)) in *. set (j := k mod (w * h)) in *.
          replace k with (i * (w * h) + j) by lia.
          rewrite V by assumption.
          rewrite (zat_flat values (w * h) _ []) by (try apply values_len; try lia; rewrite Zlen_map, Zlen_zseq; lia).
          rewrite nth_map_zseq by exact Bi. unfold values. rewrite zat_map_zseq by exact Bj. reflexivity.
    Qed.

    Lemma samples_any fs : Zlen fs = n -> (forall f, In f fs -> In f (stored_frames blocks)) ->
      exists rnd, take_samples blocks dark gain n rnd = Ok (flat_map values fs).
    Proof.
      intros Lf Hf. pose proof ne_len as Hne. pose proof Hs as (_ & Hwh & Hn & Hsz & Hb).
      assert (C : exists ch : list (Z * Z), List.length ch = List.length fs /\
        forall i, (i < List.length fs)%nat ->
          0 <= fst (nth i ch (0, 0)) < Zlen blocks /\
          0 <= snd (nth i ch (0, 0)) < images_at blocks (fst (nth i ch (0, 0))) /\
          nth i fs [] = frame_at blocks w h (fst (nth i ch (0, 0))) (snd (nth i ch (0, 0)))).
      { clear Lf. induction fs as [|f t IH].
        - exists []. split; [reflexivity|]. cbn. intros; lia.
        - destruct (IH (fun x Hx => Hf x (or_intror Hx))) as (ch & Lc & Q).
          destruct (stored_at blocks w h Hb f (Hf f (or_introl eq_refl))) as (bi & k & B1 & B2 & E).
          exists ((bi, k) :: ch). split; [cbn; lia|]. intros [|i] Hi; [cbn; auto|]. cbn [nth]. apply Q. cbn in Hi. lia. }
      destruct C as (ch & Lc & Q).
      set (rnd := fun z => let c := nth (Z.to_nat (z / 2)) ch (0, 0) in if Z.even z then fst c else snd c).
      exists rnd.
      destruct (samples_ok blocks dark gain w h n val Hne Hwh ltac:(lia) Hsz ltac:(nia) Hb Hval rnd) as (s & E & Ls & V).
      rewrite E. f_equal. apply list_eq_zat.
      - rewrite (Zlen_flat values (w * h)) by apply values_len. rewrite Lf. exact Ls.
      - intros k Hk. rewrite Ls in Hk.
        pose proof (Z.div_mod k (w * h) ltac:(lia)) as DM. pose proof (Z.mod_pos_bound k (w * h) Hwh) as Bj.
        assert (Bi : 0 <= k / (w * h) < n) by (split; [apply Z.div_pos; lia|apply Z.div_lt_upper_bound; lia]).
        set (i := k / (w * h)) in *. set (j := k mod (w * h)) in *.
        replace k with (i * (w * h) + j) by lia.
        rewrite V by assumption.
        rewrite (zat_flat values (w * h) _ []) by (try apply values_len; lia).
        assert (R1 : rnd (2 * i) = fst (nth (Z.to_nat i) ch (0, 0))).
        { unfold rnd. replace (2 * i / 2) with i by (rewrite Z.mul_comm, Z.div_mul; lia).
          now rewrite Z.even_mul. }
        assert (R2 : rnd (2 * i + 1) = snd (nth (Z.to_nat i) ch (0, 0))).
        { unfold rnd. replace ((2 * i + 1) / 2) with i by (apply Z.div_unique with 1; lia).
          rewrite Z.even_add, Z.even_mul. reflexivity. }
        destruct (Q (Z.to_nat i)) as (Q1 & Q2 & Q3); [unfold Zlen in Lf; lia|].
        cbv zeta. rewrite R1, R2, (Z.mod_small (fst _)) by exact Q1. rewrite Z.mod_small by exact Q2.
        rewrite <- Q3. unfold values. now rewrite zat_map_zseq.
    Qed.
  End Values.

  Section Dark.
    Variables (dark : option (list float32)) (dv : Z -> Z).
    Hypothesis Hu : u16_data.
    Hypothesis Hd : dark_levels dark (w * h) dv.
    Hypothesis Hr : forall j, 0 <= j < w * h -> - 2 ^ 15 <= dv j < 2 ^ 15.

    Lemma dark_value f j : In f (stored_frames blocks) -> 0 <= j < w * h ->
      sample_value dark None (zat f j) j = Ok ((zat f j - dv j) mod 2 ^ 16).
    Proof.
      intros Hf Hj. specialize (Hd j Hj). specialize (Hr j Hj). unfold sample_value. destruct dark as [d|].
      - destruct Hd as (x & (fl & En & (F & B)) & Ex).
        assert (rd d j = Ok fl) as ->. { unfold rd. destruct (Z.ltb_spec j 0); [lia|]. now rewrite En. }
        cbn [bind]. unfold f_to_i16. rewrite (int_of_ok 24 128 fl x) by (auto; lia). cbn [bind]. now rewrite <- Ex.
      - rewrite Hd, Z.sub_0_r. pose proof (Hu f Hf) as Q. rewrite Forall_forall in Q.
        assert (is_u16 (zat f j)) as X by (apply Q, zat_in; rewrite (stored_len f Hf); exact Hj).
        unfold is_u16 in X. now rewrite Z.mod_small.
    Qed.
  End Dark.
End Blocks.

(** Without gain: whatever the random numbers, the samples are the pixels of n
    frames stored in the given blocks, minus the dark levels (in 16 bits), and
    nothing outside the blocks is read. *)
Theorem C57_samples blocks w h n dark dv rnd :
  samplable blocks w h n -> u16_data blocks ->
  dark_levels dark (w * h) dv -> (forall j, 0 <= j < w * h -> - 2 ^ 15 <= dv j < 2 ^ 15) ->
  exists fs, Zlen fs = n /\ (forall f, In f fs -> In f (stored_frames blocks)) /\
    take_samples blocks dark None n rnd = Ok (flat_map (minus_dark dv (w * h)) fs).
Proof.
  intros Hs Hu Hd Hr.
  exact (samples_flat blocks w h n Hs dark None (fun v j => (v - dv j) mod 2 ^ 16)
    (fun f j => dark_value blocks w h n Hs dark dv Hu Hd Hr f j) rnd).
Qed.

(** Every choice of n stored frames can be sampled. *)
Theorem C57_every_frame_possible blocks w h n dark dv fs :
  samplable blocks w h n -> u16_data blocks ->
  dark_levels dark (w * h) dv -> (forall j, 0 <= j < w * h -> - 2 ^ 15 <= dv j < 2 ^ 15) ->
  Zlen fs = n -> (forall f, In f fs -> In f (stored_frames blocks)) ->
  exists rnd, take_samples blocks dark None n rnd = Ok (flat_map (minus_dark dv (w * h)) fs).
Proof.
  intros Hs Hu Hd Hr.
  exact (samples_any blocks w h n Hs dark None (fun v j => (v - dv j) mod 2 ^ 16)
    (fun f j => dark_value blocks w h n Hs dark dv Hu Hd Hr f j) fs).
Qed.

(** ** With gain *)
Lemma fval_sub x y a b : fval x a -> fval y b -> (Rabs (a - b) <= bpow radix2 100)%R ->
  fval (f_sub x y) (f_rnd (a - b)).
Proof.
  intros (Fx & <-) (Fy & <-) H. unfold f_sub, b32_minus.
  pose proof (Bminus_correct 24 128 eq_refl eq_refl binop_nan_pl32 mode_NE x y Fx Fy) as C.
  change (round radix2 (SpecFloat.fexp 24 128) (round_mode mode_NE)) with f_rnd in C.
  rewrite f_no_overflow in C by auto. destruct C as (C1 & C2 & _). split; auto.
Qed.

Lemma fval_mul x y a b : fval x a -> fval y b -> (Rabs (a * b) <= bpow radix2 100)%R ->
  fval (f_mul x y) (f_rnd (a * b)).
Proof.
  intros (Fx & <-) (Fy & <-) H. unfold f_mul, b32_mult.
  pose proof (Bmult_correct 24 128 eq_refl eq_refl binop_nan_pl32 mode_NE x y) as C.
  change (round radix2 (SpecFloat.fexp 24 128) (round_mode mode_NE)) with f_rnd in C.
  rewrite f_no_overflow in C by auto. destruct C as (C1 & C2 & _). split; auto.
  rewrite Fx, Fy in C2. exact C2.
Qed.

Definition reals_of (r : option (list float32)) (n : Z) (x : Z -> R) : Prop :=
  forall j, 0 <= j < n -> match r with None => x j = 0%R | Some a => ref_is a j (x j) end.

Lemma f_rnd_ge_int a k : Z.abs k <= 2 ^ 24 -> (IZR k <= a)%R -> (IZR k <= f_rnd a)%R.
Proof. intros H H1. rewrite <- (f_rnd_int k H). now apply f_rnd_le. Qed.
Lemma f_rnd_le_int a k : Z.abs k <= 2 ^ 24 -> (a <= IZR k)%R -> (f_rnd a <= IZR k)%R.
Proof. intros H H1. rewrite <- (f_rnd_int k H). now apply f_rnd_le. Qed.

Lemma gain_ok dark g dr gr npix v j :
  is_u16 v -> 0 <= j < npix -> reals_of dark npix dr -> reals_of (Some g) npix gr ->
  (0 <= dr j <= IZR v)%R -> (0 <= gr j)%R -> gain_value v (dr j) (gr j) < 2 ^ 16 ->
  sample_value dark (Some g) v j = Ok (gain_value v (dr j) (gr j)).
Proof.
  intros Hv Hj Hd Hg Bd Bg Hm. specialize (Hd j Hj). specialize (Hg j Hj). unfold is_u16 in Hv.
  assert (Vr : (0 <= IZR v <= 65535)%R) by (split; [apply (IZR_le 0)|apply (IZR_le _ 65535)]; lia).
  unfold gain_value in *. set (v1 := Ztrunc (f_rnd (IZR v - dr j))) in *.
  assert (B1 : 0 <= v1 <= 65535).
  { unfold v1. split.
    - rewrite <- (Ztrunc_IZR 0). apply Ztrunc_le. apply f_rnd_ge_int; [lia|lra].
    - rewrite <- (Ztrunc_IZR 65535). apply Ztrunc_le. apply f_rnd_le_int; [lia|lra]. }
  assert (E1 : match dark with None => Ok v | Some d => let* r := rd d j in f_to_u16 (f_sub (f_of_Z v) r) end = Ok v1).
  { destruct dark as [d|].
    - destruct Hd as (fl & En & Fl).
      assert (rd d j = Ok fl) as ->. { unfold rd. destruct (Z.ltb_spec j 0); [lia|]. now rewrite En. }
      cbn [bind].
      assert (S : fval (f_sub (f_of_Z v) fl) (f_rnd (IZR v - dr j))).
      { apply fval_sub; [apply fval_exact; lia|exact Fl|]. rewrite Rabs_pos_eq by lra.
        apply Rle_trans with (bpow radix2 16); [|apply bpow_le; lia]. rewrite bpow_Z by lia.
        apply Rle_trans with (IZR 65535); [lra|apply IZR_le; lia]. }
      destruct S as [F B]. unfold f_to_u16. apply int_of_ok; [lia|exact F|exact B|fold v1; lia].
    - f_equal. unfold v1. rewrite Hd, Rminus_0_r, f_rnd_int, Ztrunc_IZR by lia. reflexivity. }
  unfold sample_value. rewrite E1. cbn [bind]. destruct Hg as (fl & En & Fl).
  assert (rd g j = Ok fl) as ->. { unfold rd. destruct (Z.ltb_spec j 0); [lia|]. now rewrite En. }
  cbn [bind].
  assert (V1 : (0 <= IZR v1)%R) by (apply (IZR_le 0); lia).
  assert (Pr : (0 <= IZR v1 * gr j)%R) by (apply Rmult_le_pos; assumption).
  assert (Up : (IZR v1 * gr j <= IZR 131072)%R).
  { destruct (Rle_or_lt (IZR v1 * gr j) (IZR 131072)) as [C|C]; [exact C|exfalso].
    assert (131072 <= Ztrunc (f_rnd (IZR v1 * gr j))) as X; [|lia].
    rewrite <- (Ztrunc_IZR 131072). apply Ztrunc_le. apply f_rnd_ge_int; [lia|lra]. }
  assert (S : fval (f_mul (f_of_Z v1) fl) (f_rnd (IZR v1 * gr j))).
  { apply fval_mul; [apply fval_exact; lia|exact Fl|]. rewrite Rabs_pos_eq by exact Pr.
    apply Rle_trans with (1 := Up). apply Rle_trans with (bpow radix2 17); [|apply bpow_le; lia].
    rewrite bpow_Z by lia. apply IZR_le. lia. }
  destruct S as [F B]. unfold f_to_u16. apply int_of_ok; [lia|exact F|exact B|].
  split; [|lia]. rewrite <- (Ztrunc_IZR 0). apply Ztrunc_le. apply f_rnd_ge_int; [lia|exact Pr].
Qed.

(** With gain, when no pixel is below its dark reference and no product exceeds
    16 bits: the samples are the corrected pixels of n stored frames, each
    without its fraction. *)
Theorem C57_samples_gain blocks w h n dark g dr gr rnd :
  samplable blocks w h n -> u16_data blocks ->
  reals_of dark (w * h) dr -> reals_of (Some g) (w * h) gr ->
  (forall f j, In f (stored_frames blocks) -> 0 <= j < w * h ->
     (0 <= dr j <= IZR (zat f j))%R /\ (0 <= gr j)%R) ->
  (forall f j, In f (stored_frames blocks) -> 0 <= j < w * h -> gain_value (zat f j) (dr j) (gr j) < 2 ^ 16) ->
  exists fs, Zlen fs = n /\ (forall f, In f fs -> In f (stored_frames blocks)) /\
    take_samples blocks dark (Some g) n rnd =
      Ok (flat_map (fun f => map (fun j => gain_value (zat f j) (dr j) (gr j)) (zseq (w * h))) fs).
Proof.
  intros Hs Hu Hd Hg Hb Hm.
  apply (samples_flat blocks w h n Hs dark (Some g) (fun v j => gain_value v (dr j) (gr j))).
  intros f j Hf Hj. destruct (Hb f j Hf Hj) as [B1 B2]. apply (gain_ok dark g dr gr (w * h)); auto.
  pose proof (Hu f Hf) as Q. rewrite Forall_forall in Q. apply Q, zat_in. rewrite (stored_len blocks w h n Hs f Hf). exact Hj.
Qed.

(** * C58: statistics *)
Theorem C58_mean l : (forall v, In v l -> is_u16 v) -> 0 < Zlen l < 2 ^ 31 ->
  dval (calculate_mean l) (d_rnd (mean_of l)).
Proof. intros. apply mean_ok. now split. Qed.

Theorem C58_variance l : (forall v, In v l -> is_u16 v) -> 2 <= Zlen l < 2 ^ 31 ->
  exists v, dval (calculate_variance l (calculate_mean l)) v /\
    (Rabs (v - variance_of l) <= variance_of l * bpow radix2 (-19))%R.
Proof.
  intros H1 H2. destruct (variance_ok l) as (v & D & E & _); [split; [exact H1|lia]|lia|]. eauto.
Qed.

(** * C59: histogram and absence of undefined behaviour *)
(** Samples [l] of 16 bits, at most [M], whose sample variance is slightly above
    1 or more, and a number of deviations of at least 1 and at most [K]. *)
Theorem C59_thresholds fit l n bg xr q M K :
  (forall v, In v l -> is_u16 v /\ v <= M) -> 2 <= Zlen l < 2 ^ 31 ->
  (1 + bpow radix2 (-18) <= variance_of l)%R ->
  dval xr q -> (1 <= q <= IZR K)%R -> M + 2 * M * (M + 2 * K * M) < 2 ^ 31 ->
  exists lo hi top hist amp mean variance sd xray,
    is_min l lo /\ is_max l hi /\ lo < top <= hi /\ histogram_of l lo top hist /\ is_max hist amp /\
    statistics l q mean variance sd xray /\
    (exists m s x, dval mean m /\ dval sd s /\ dval xray x /\ (m <= x)%R /\
       (top = hi \/ m + x * s - 2 <= IZR top)%R) /\
    thresholds_of_samples fit l n bg xr =
      match fit (map (fun i => lo + i) (zseq (top - lo))) hist amp mean sd with
      | None => Throw "Optimization did not converge"
      | Some (om, os) => Ok (mkThresholds (d_add om (d_mul (d_abs os) bg)) xray n lo hi mean variance sd
                               (top - lo) xr bg om (d_abs os))
      end.
Proof.
  intros Hl H2 HV Hq Bq Hf.
  assert (S : sane l) by (split; [intros; now apply Hl|lia]).
  destruct (core l M K xr q S ltac:(lia) (fun v Hv => proj2 (Hl v Hv)) Hq Bq Hf HV)
    as (lo & hi & B & hist & amp & A1 & A2 & A3 & A4 & A5 & A6 & A7 & (x & Dx & Lx) & A8).
  exists lo, hi, B, hist, amp. do 4 eexists. do 5 (split; [eassumption|]). split; [exact A6|]. split; [|apply A8].
  pose proof (st_mean _ _ _ _ _ _ A6) as Dm.
  destruct A7 as [A7|(s & x' & Ds & Dx' & A7)].
  - destruct (st_xray _ _ _ _ _ _ A6) as (s & Ds & _). exists (d_rnd (mean_of l)), s, x. auto 10.
  - exists (d_rnd (mean_of l)), s, x. do 4 (split; [assumption|]). right.
    destruct Dx as [_ <-]. destruct Dx' as [_ <-]. exact A7.
Qed.

(** The background threshold: the fitted mean plus [nb] fitted deviations. *)
Lemma dval_abs x a : dval x a -> dval (d_abs x) (Rabs a).
Proof.
  intros (F & <-). destruct x as [s|s|s pl H|s mm e H]; cbn [is_finite] in F; try discriminate; cbn [d_abs].
  - split; [reflexivity|]. cbn [B2R]. now rewrite Rabs_R0.
  - split; [reflexivity|]. cbn [B2R]. rewrite <- F2R_Zabs. f_equal. destruct s; reflexivity.
Qed.

Theorem C59_background om os bg o s nb :
  dval om o -> dval os s -> dval bg nb -> (0 <= nb <= bpow radix2 100)%R ->
  (Rabs o <= bpow radix2 100)%R -> (Rabs s <= bpow radix2 100)%R ->
  dval (d_add om (d_mul (d_abs os) bg)) (d_rnd (o + d_rnd (Rabs s * nb))) /\
  (o <= d_rnd (o + d_rnd (Rabs s * nb)))%R.
Proof.
  intros Do Ds Db Bn Bo Bs. pose proof (Rabs_pos s) as Ps.
  assert (P : (0 <= Rabs s * nb <= bpow radix2 200)%R).
  { split; [apply Rmult_le_pos; lra|]. change 200 with (100 + 100). rewrite bpow_plus. apply Rmult_le_compat; lra. }
  assert (Q : (0 <= d_rnd (Rabs s * nb) <= bpow radix2 200)%R).
  { split; [apply d_rnd_nonneg; lra|]. rewrite <- (d_rnd_id (bpow radix2 200)); [apply d_rnd_le; lra|].
    apply generic_format_bpow. unfold FLT_exp. lia. }
  assert (Dm : dval (d_mul (d_abs os) bg) (d_rnd (Rabs s * nb))).
  { apply dval_mul; [now apply dval_abs|exact Db|]. rewrite Rabs_pos_eq by lra.
    apply Rle_trans with (1 := proj2 P). apply bpow_le. lia. }
  split.
  - apply dval_add; [exact Do|exact Dm|]. apply Rle_trans with (1 := Rabs_triang _ _).
    rewrite (Rabs_pos_eq (d_rnd _)) by lra. apply Rle_trans with (bpow radix2 200 + bpow radix2 200)%R.
    + apply Rplus_le_compat; [|lra]. apply Rle_trans with (1 := Bo). apply bpow_le. lia.
    + replace (bpow radix2 200 + bpow radix2 200)%R with (bpow radix2 201)
        by (change 201 with (200 + 1); rewrite bpow_plus; change (bpow radix2 1) with 2%R; ring).
      apply bpow_le. lia.
  - pose proof (dval_format _ _ Do) as Fo. rewrite <- (d_rnd_id o Fo) at 1. apply d_rnd_le. lra.
Qed.

(** ** The whole calculation *)
Lemma zsum_bounds_sq (m : R) l1 l2 : (rsum (map (sq m) (l1 ++ l2)) = rsum (map (sq m) l1) + rsum (map (sq m) l2))%R.
Proof. induction l1 as [|x t IH]; cbn [app map rsum]; [ring|]. rewrite IH. ring. Qed.

Lemma variance_of_frames (fs : list (list Z)) N :
  2 <= N -> 0 < Zlen fs -> N * Zlen fs < 2 ^ 31 ->
  (forall f, In f fs -> Zlen f = N /\ (forall v, In v f -> is_u16 v) /\ (3 <= variance_of f)%R) ->
  (1 + bpow radix2 (-18) <= variance_of (flat_map (fun f => f) fs))%R.
Proof.
  intros HN Hn Hb Hf. set (l := flat_map (fun f => f) fs). set (m := mean_of l).
  assert (L : Zlen l = N * Zlen fs).
  { unfold l. revert Hf. clear. induction fs as [|f t IH]; intros H; cbn [flat_map]; [unfold Zlen; cbn; lia|].
    rewrite Zlen_app, Zlen_cons, IH by (intros; apply H; now right). destruct (H f (or_introl eq_refl)) as [-> _]. lia. }
  assert (NR : (2 <= IZR N)%R) by (apply (IZR_le 2); lia).
  assert (KR : (1 <= IZR (Zlen fs))%R) by (apply (IZR_le 1); lia).
  assert (G : (3 * (IZR N - 1) * IZR (Zlen fs) <= rsum (map (sq m) l))%R).
  { unfold l. assert (Hb' : N < 2 ^ 31) by nia. revert Hf HN Hb' NR. generalize m. clear. intros m Hf HN Hb NR.
    induction fs as [|f t IH]; cbn [flat_map].
    - unfold Zlen. cbn. lra.
    - rewrite zsum_bounds_sq, Zlen_cons, plus_IZR. specialize (IH (fun x Hx => Hf x (or_intror Hx))).
      destruct (Hf f (or_introl eq_refl)) as (Lf & Uf & Vf).
      assert (S : sane f) by (split; [exact Uf|lia]).
      rewrite (rsum_mean f m S). unfold variance_of in Vf. rewrite Lf in Vf.
      change (map (fun v => ((IZR v - mean_of f) * (IZR v - mean_of f))%R) f) with (map (sq (mean_of f)) f) in Vf.
      rewrite Lf. set (T := rsum (map (sq (mean_of f)) f)) in *.
      assert (3 * (IZR N - 1) <= T)%R.
      { apply Rmult_le_reg_r with (/ (IZR N - 1))%R; [apply Rinv_0_lt_compat; lra|].
        unfold Rdiv in Vf. rewrite Rmult_assoc, Rinv_r by lra. lra. }
      pose proof (Rle_0_sqr (mean_of f - m)) as Q. unfold Rsqr in Q. nra. }
  unfold variance_of. fold m.
  change (map (fun v => ((IZR v - m) * (IZR v - m))%R) l) with (map (sq m) l).
  rewrite L, mult_IZR.
  assert (P : (0 < IZR N * IZR (Zlen fs) - 1)%R) by nra.
  apply Rmult_le_reg_r with (IZR N * IZR (Zlen fs) - 1)%R; [exact P|].
  unfold Rdiv. rewrite Rmult_assoc, Rinv_l, Rmult_1_r by lra.
  assert (bpow radix2 (-18) <= / 2)%R.
  { apply Rle_trans with (bpow radix2 (-1)); [apply bpow_le; lia|]. change (bpow radix2 (-1)) with (/ 2)%R. lra. }
  apply Rle_trans with (2 := G). nra.
Qed.

(** Frames with at least two pixels whose values after dark subtraction are at
    most [M] and have a sample variance of at least 3 in each frame: whatever
    frames are drawn and whatever the fit does, the calculation either reports
    that the fit did not converge or returns the statistics of the drawn frames. *)
Theorem C59_no_undefined_behaviour fit blocks w h n dark dv bg xr q M K rnd :
  samplable blocks w h n -> u16_data blocks -> 2 <= w * h ->
  dark_levels dark (w * h) dv -> (forall j, 0 <= j < w * h -> - 2 ^ 15 <= dv j < 2 ^ 15) ->
  (forall f, In f (stored_frames blocks) ->
     (forall v, In v (minus_dark dv (w * h) f) -> v <= M) /\ (3 <= variance_of (minus_dark dv (w * h) f))%R) ->
  dval xr q -> (1 <= q <= IZR K)%R -> M + 2 * M * (M + 2 * K * M) < 2 ^ 31 ->
  calculate_thresholds fit blocks dark None n bg xr rnd = Throw "Optimization did not converge" \/
  exists t fs, calculate_thresholds fit blocks dark None n bg xr rnd = Ok t /\
    Zlen fs = n /\ (forall f, In f fs -> In f (stored_frames blocks)) /\
    let l := flat_map (minus_dark dv (w * h)) fs in
    statistics l q (th_mean t) (th_variance t) (th_stddev t) (th_xray t) /\
    is_min l (th_min t) /\ is_max l (th_max t) /\ th_samples t = n /\ 0 < th_bins t <= th_max t - th_min t /\
    th_background t = d_add (th_opt_mean t) (d_mul (th_opt_stddev t) bg).
Proof.
  intros Hs Hu H2 Hd Hr Hf Hq Bq Hfit.
  destruct (C57_samples blocks w h n dark dv rnd Hs Hu Hd Hr) as (fs & Lf & Hin & E).
  unfold calculate_thresholds. rewrite E. cbn [bind].
  set (l := flat_map (minus_dark dv (w * h)) fs) in *.
  pose proof Hs as (_ & Hwh & Hn & Hsz & _).
  assert (El : l = flat_map (fun f => f) (map (minus_dark dv (w * h)) fs)).
  { unfold l. rewrite !flat_map_concat_map, map_map. reflexivity. }
  assert (Lm : Zlen (map (minus_dark dv (w * h)) fs) = n) by (rewrite Zlen_map; exact Lf).
  assert (U : forall f v, In v (minus_dark dv (w * h) f) -> is_u16 v).
  { intros f v Hv. unfold minus_dark in Hv. apply in_map_iff in Hv as (j & <- & _). unfold is_u16.
    apply Z.mod_pos_bound. lia. }
  assert (Ll : Zlen l = w * h * n).
  { unfold l. rewrite (Zlen_flat _ (w * h)) by (intros; apply Zlen_minus_dark; lia). now rewrite Lf. }
  destruct (C59_thresholds fit l n bg xr q M K) as
    (lo & hi & top & hist & amp & mean & variance & sd & xray & A1 & A2 & A3 & A4 & A5 & A6 & A7 & A8).
  - intros v Hv. apply in_flat_map in Hv as (f & Hff & Hv). split; [eapply U; exact Hv|].
    apply (proj1 (Hf f (Hin f Hff))). exact Hv.
  - rewrite Ll. nia.
  - rewrite El. apply (variance_of_frames _ (w * h)); [exact H2|lia|lia|].
    intros f Hff. apply in_map_iff in Hff as (f0 & <- & Hf0). split; [apply Zlen_minus_dark; lia|]. split; [apply U|].
    apply Hf, Hin, Hf0.
  - exact Hq.
  - exact Bq.
  - exact Hfit.
  - rewrite A8. destruct (fit _ _ _ _ _) as [[om os]|]; [right|now left].
    eexists. exists fs. split; [reflexivity|]. do 2 (split; [assumption|]). cbn. auto 10 with zarith.
Qed.

(** ** Wrong results and undefined behaviour *)
Definition fit_start (b h : list Z) (a : Z) (mean sd : double) : option (double * double) := Some (mean, sd).
Definition d4 := d_of_Z 4. Definition d10 := d_of_Z 10.

Definition code (o : outcome thresholds) : option (Z * Z * Z) :=
  match o with Ok t => Some (th_min t, th_max t, th_bins t) | _ => None end.
Definition is_UB {A} (o : outcome A) : bool := match o with UB _ => true | _ => false end.
Lemma is_UB_ok {A} (o : outcome A) : is_UB o = true -> exists s, o = UB s.
Proof. destruct o; try discriminate. eauto. Qed.

(** A pixel below its dark level becomes a sample near 65535. *)
Theorem C57_below_dark_refuted : exists blocks dark,
  samplable blocks 2 1 1 /\ u16_data blocks /\ (forall f, In f (stored_frames blocks) -> f = [5; 0]) /\
  dark_levels dark 2 (fun j => 1) /\ forall rnd, take_samples blocks dark None 1 rnd = Ok [4; 65535].
Proof.
  set (b := mkBlock (mkHeader (3, 1) (2, 1) 1 4 0 0 0 [0] [true]) (Some [5; 0])).
  assert (S : samplable [b] 2 1 1).
  { split; [discriminate|]. split; [lia|]. split; [lia|]. split; [lia|]. intros x [<-|[]]. split.
    - constructor; simpl; try lia; try reflexivity. eexists; (split; [reflexivity|]); repeat split; reflexivity.
    - split; [reflexivity|simpl; lia]. }
  assert (F : forall f, In f (stored_frames [b]) -> f = [5; 0]).
  { intros f Hf. vm_compute in Hf. destruct Hf as [<-|[]]. reflexivity. }
  assert (U : u16_data [b]).
  { intros f Hf. rewrite (F f Hf). repeat constructor; unfold is_u16; lia. }
  assert (D : dark_levels (Some [f_of_Z 1; f_of_Z 1]) 2 (fun _ => 1)).
  { intros j Hj. exists (IZR 1). split; [|now rewrite Ztrunc_IZR].
    exists (f_of_Z 1). split; [|apply fval_exact; lia].
    assert (j = 0 \/ j = 1) as [-> | ->] by lia; reflexivity. }
  exists [b], (Some [f_of_Z 1; f_of_Z 1]). do 4 (split; [assumption|]). intros rnd.
  destruct (C57_samples [b] 2 1 1 _ _ rnd S U D) as (fs & Lf & Hin & ->); [intros; lia|].
  destruct fs as [|f [|g t]]; try (unfold Zlen in Lf; cbn in Lf; lia).
  rewrite (F f) by (apply Hin; now left). reflexivity.
Qed.

(** A dark reference of 32768 or more, which the counting code accepts, is undefined here. *)
Theorem C57_dark_range_refuted v : exists s, sample_value (Some [f_of_Z 40000]) None v 0 = UB s.
Proof. apply is_UB_ok. vm_compute. reflexivity. Qed.

(** With gain, a pixel below its dark reference is undefined, and fractions are
    dropped: 3 counts with gain 1/4 give a sample of 0, not 0.75. *)
Theorem C57_gain_refuted :
  (exists s, sample_value (Some [f_of_Z 5]) (Some [f_of_Z 1]) 3 0 = UB s) /\
  sample_value None (Some [f_div (f_of_Z 1) (f_of_Z 4)]) 3 0 = Ok 0.
Proof. split; [apply is_UB_ok|]; vm_compute; reflexivity. Qed.

(** One dim pixel among 99 equal ones: a write before the histogram. *)
Theorem C59_low_outlier_refuted fit n bg :
  exists s, thresholds_of_samples fit (0 :: repeat 3 99) n bg d10 = UB s.
Proof. apply is_UB_ok. vm_compute. reflexivity. Qed.

(** Equal pixels: the histogram is empty and its first element is read. *)
Theorem C59_constant_refuted fit n bg :
  exists s, thresholds_of_samples fit (repeat 3 100) n bg d10 = UB s.
Proof. apply is_UB_ok. vm_compute. reflexivity. Qed.

(** Black and saturated pixels: the bin limits do not fit in an int. *)
Theorem C59_wide_range_refuted fit n bg :
  exists s, thresholds_of_samples fit (repeat 65535 50 ++ repeat 0 50) n bg d10 = UB s.
Proof. apply is_UB_ok. vm_compute. reflexivity. Qed.

(** A single sampled pixel has no variance. *)
Theorem C58_single_pixel_refuted fit n bg : exists s, thresholds_of_samples fit [3] n bg d10 = UB s.
Proof. apply is_UB_ok. vm_compute. reflexivity. Qed.

(** The brightest samples have no bin, even if the limits leave room: a fit that
    fails when it is shown such a bin does not fail. *)
Definition fit_without (v : Z) (b h : list Z) (a : Z) (mean sd : double) : option (double * double) :=
  if existsb (Z.eqb v) b then None else Some (mean, sd).

Theorem C59_brightest_left_out_refuted : exists l,
  is_max l 40 /\ code (thresholds_of_samples (fit_without 40) l 1 d4 d10) = Some (3, 40, 37) /\
  code (thresholds_of_samples (fit_without 39) l 1 d4 d10) = None.
Proof.
  exists [10; 12; 9; 14; 8; 8; 9; 12; 3; 40]. split; [|split; vm_compute; reflexivity].
  split; [cbn; tauto|]. intros v Hv. cbn in Hv. intuition lia.
Qed.

(** ** Non-vacuity *)
Definition ex_sampled : list block :=
  [mkBlock (mkHeader (3, 1) (5, 1) 2 4 0 0 0 [0; 1] [true; true]) (Some [10; 12; 9; 14; 8; 8; 9; 12; 3; 40])].

Example ex_samplable : samplable ex_sampled 5 1 7 /\ u16_data ex_sampled.
Proof.
  split.
  - split; [discriminate|]. split; [lia|]. split; [lia|]. split; [lia|]. intros x [<-|[]]. split.
    + constructor; simpl; try lia; try reflexivity. eexists; (split; [reflexivity|]); repeat split; reflexivity.
    + split; [reflexivity|simpl; lia].
  - intros f Hf. vm_compute in Hf. destruct Hf as [<-|[<-|[]]]; repeat constructor; unfold is_u16; lia.
Qed.

Example ex_C59 fit bg rnd :
  calculate_thresholds fit ex_sampled None None 7 bg d10 rnd = Throw "Optimization did not converge" \/
  exists t, calculate_thresholds fit ex_sampled None None 7 bg d10 rnd = Ok t.
Proof.
  destruct ex_samplable as [S U].
  destruct (C59_no_undefined_behaviour fit ex_sampled 5 1 7 None (fun _ => 0) bg d10 10%R 100 10 rnd) as [E|(t & _ & E & _)];
    eauto; try lia.
  - intros j _. reflexivity.
  - intros f Hf. vm_compute in Hf. destruct Hf as [<-|[<-|[]]].
    + split; [intros v Hv; vm_compute in Hv; destruct Hv as [<-|[<-|[<-|[<-|[<-|[]]]]]]; lia|].
      change (minus_dark (fun _ => 0) (5 * 1) [10; 12; 9; 14; 8]) with [10; 12; 9; 14; 8].
      unfold variance_of, mean_of, Zlen. cbn [zsum map rsum List.length Z.of_nat Pos.of_succ_nat Pos.succ]. 
      change (10 + (12 + (9 + (14 + (8 + 0))))) with 53. lra.
    + split; [intros v Hv; vm_compute in Hv; destruct Hv as [<-|[<-|[<-|[<-|[<-|[]]]]]]; lia|].
      change (minus_dark (fun _ => 0) (5 * 1) [8; 9; 12; 3; 40]) with [8; 9; 12; 3; 40].
      unfold variance_of, mean_of, Zlen. cbn [zsum map rsum List.length Z.of_nat Pos.of_succ_nat Pos.succ].
      change (8 + (9 + (12 + (3 + (40 + 0))))) with 72. lra.
  - apply dval_of_int. lia.
  - lra.
Qed.

Example ex_result : code (calculate_thresholds fit_start ex_sampled None None 2 d4 d10 (fun k => k)) = Some (3, 40, 37).
Proof. vm_compute. reflexivity. Qed.

Example ex_gain_samples :
  take_samples ex_sampled (Some (repeat (f_of_Z 3) 5)) (Some (repeat (f_div (f_of_Z 3) (f_of_Z 2)) 5)) 1 (fun k => k)
    = Ok [7; 9; 13; 0; 55].
Proof. vm_compute. reflexivity. Qed.

Print Assumptions C57_samples.
Print Assumptions C57_every_frame_possible.
Print Assumptions C57_samples_gain.
Print Assumptions C57_below_dark_refuted.
Print Assumptions C57_dark_range_refuted.
Print Assumptions C57_gain_refuted.
Print Assumptions C58_mean.
Print Assumptions C58_variance.
Print Assumptions C58_single_pixel_refuted.
Print Assumptions C59_thresholds.
Print Assumptions C59_no_undefined_behaviour.
Print Assumptions C59_background.
Print Assumptions C59_low_outlier_refuted.
Print Assumptions C59_constant_refuted.
Print Assumptions C59_wide_range_refuted.
Print Assumptions C59_brightest_left_out_refuted.
