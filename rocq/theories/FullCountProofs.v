(** Counting with a threaded reader: the arithmetic of one frame and the array. *)
From Coq Require Import String ZArith List Bool Reals Lia Lra Psatz.
From Flocq Require Import Core.
From Flocq Require Import IEEE754.BinarySingleNaN IEEE754.Binary IEEE754.Bits.
From Verif Require CountProps.
From Verif Require Import Base BaseFacts BlockModel CountSpec CountModel Double Float32 FloatConv ElectronModel
  ElectronSpec ElectronProofs ElectronProps IeeeModel ThresholdModel ThresholdSpec ThresholdStats ThresholdProps
  SparseModel SparseSpec SparseProofs SparseSlice CountedModel CountedSpec CountedProps ClassicPyModel ClassicPySpec ClassicPyProofs
  FullCountModel FullCountSpec.
Import ListNotations.
Open Scope Z_scope.

Local Arguments Z.mul : simpl never.
Local Arguments Z.add : simpl never.
Local Arguments Z.pow : simpl never.

(** * One frame *)
Section Frame.
  Context {T : Type} (fops : frame_ops T float32 double) (rep : T -> R -> Prop).
  Variables (dark gain : option (list float32)) (bg xr : double) (BG XR : R) (w h : Z) (raw : list Z) (c : Z -> R).
  Hypothesis Hgt : forall a b x y, rep a x -> rep b y -> (op_gt fops a b = true <-> (y < x)%R).
  Hypothesis Hle : forall a x, rep a x -> op_le fops a bg = Rle_bool x BG.
  Hypothesis Hge : forall a x, rep a x -> op_ge fops a xr = Rle_bool XR x.
  Hypothesis H0 : rep (op_zero fops) 0.
  Hypothesis Hw : 1 <= w < 65536.
  Hypothesis Hh : 1 <= h < 65536.
  Hypothesis Hwh : w * h < 2 ^ 32.
  Hypothesis HL : Zlen raw = w * h.
  Let isd := match dark with Some _ => true | None => false end.
  Let step j v := (let* v := (if isd then let* d := deref dark j in op_sub_cast fops v d else Ok v) in
                   if op_integral fops then Ok v else let* g := deref gain j in op_mul fops v g).
  Hypothesis Hpx : forall j, 0 <= j < w * h -> exists t, step j (op_of_u16 fops (zat raw j)) = Ok t /\ rep t (c j).

  Lemma threaded_values : exists l, preprocess fops isd dark gain bg xr (w, h) (map (op_of_u16 fops) raw) = Ok l /\
    Zlen l = w * h /\ forall j, 0 <= j < w * h -> exists v, nth_error l (Z.to_nat j) = Some v /\ rep v (clipped BG XR (c j)).
  Proof.
    set (g := fun j => match step j (op_of_u16 fops (zat raw j)) with
                       | Ok t => threshold_pixel fops bg xr t | _ => op_zero fops end).
    destruct (preprocess_ok fops isd dark gain bg xr w h (map (op_of_u16 fops) raw) g) as (l & E & L & V); try lia.
    - now rewrite Zlen_map.
    - intros j v Hj Hv. rewrite nth_error_map in Hv.
      destruct (nth_error raw (Z.to_nat j)) as [u|] eqn:Eu; [|discriminate]. injection Hv as <-.
      assert (Ez : zat raw j = u).
      { unfold zat. destruct (Z.ltb_spec j 0); [lia|]. now apply nth_error_nth. }
      destruct (Hpx j Hj) as (t & E1 & _). unfold g. rewrite E1. rewrite Ez in E1. unfold step in E1.
      unfold pre_value. destruct (if isd then _ else _) as [v| | |]; cbn [bind] in *; try discriminate.
      rewrite E1. reflexivity.
    - exists l. split; [exact E|]. split; [exact L|]. intros j Hj. exists (g j). split; [now apply V|].
      destruct (Hpx j Hj) as (t & E1 & Hr). unfold g. rewrite E1.
      unfold threshold_pixel. rewrite (Hle _ _ Hr), (Hge _ _ Hr), clipped_eq. destruct (_ || _); assumption.
  Qed.

  Lemma threaded_one_ok mean um : exists ev,
    threaded_one fops dark gain bg xr false mean um (w, h) raw = Ok ev /\
    forall i, In i ev <-> exists x y, i = y * w + x /\ 0 <= x < w /\ 0 <= y < h /\
      greatest (fun x y => clipped BG XR (c (y * w + x))) w h x y.
  Proof.
    destruct threaded_values as (l & E & L & V). unfold threaded_one, electronCountFrame. fold isd. rewrite E. cbn [bind].
    destruct (maximal_points_correct T (op_gt fops) l w h Hw Hh Hwh L) as (ev & Ev & A & S).
    exists ev. split; [exact Ev|]. intros i. rewrite S.
    assert (P : forall x y, 0 <= x < w -> 0 <= y < h -> exists v, pixel l w x y = Some v /\
      rep v (clipped BG XR (c (y * w + x)))).
    { intros x y Hx Hy. unfold pixel. apply V. nia. }
    split; intros (x & y & -> & Q).
    - destruct Q as (Hx & Hy & Q). exists x, y. do 3 (split; [auto|]). intros x' y' N.
      pose proof N as (Hx' & Hy' & _).
      destruct (P x y Hx Hy) as (v & Ev1 & R1). destruct (P x' y' Hx' Hy') as (v' & Ev2 & R2).
      apply (Hgt v v' _ _ R1 R2). now apply (Q x' y').
    - destruct Q as (Hx & Hy & Q). exists x, y. split; [reflexivity|]. split; [exact Hx|]. split; [exact Hy|].
      intros x' y' v v' N Ev1 Ev2. pose proof N as (Hx' & Hy' & _).
      destruct (P x y Hx Hy) as (u & Eu1 & R1). destruct (P x' y' Hx' Hy') as (u' & Eu2 & R2).
      rewrite Eu1 in Ev1. injection Ev1 as <-. rewrite Eu2 in Ev2. injection Ev2 as <-.
      apply (Hgt u u' _ _ R1 R2). now apply Q.
  Qed.
End Frame.

Section Counter.
  Variables (a : classic_args) (t : thresholds) (BG XR : R) (w h : Z) (f : list Z) (dv gv : option (Z -> R)).
  Hypothesis Hw : 1 <= w < 65536.
  Hypothesis Hh : 1 <= h < 65536.
  Hypothesis Hwh : 2 <= w * h < 2 ^ 32.
  Hypothesis HL : Zlen f = w * h.
  Hypothesis Hu : Forall is_u16 f.
  Hypothesis HR : refs_of a (w * h) dv gv.
  Hypothesis Hbg : dval (th_background t) BG.
  Hypothesis Hxr : dval (th_xray t) XR.
  Hypothesis Hrow : ca_row_dark a = false.

  Lemma pointer_same l : Zlen l = w * h -> to_pointer (Some l) = Some l.
  Proof. intros E. unfold to_pointer. destruct (Z.ltb_spec 1 (Zlen l)); [reflexivity|lia]. Qed.

  Lemma pixel_u16 j : 0 <= j < w * h -> is_u16 (zat f j).
  Proof. intros Hj. rewrite Forall_forall in Hu. apply Hu, zat_in. lia. Qed.

  Lemma threaded_count_ok : exists ev, threaded_count a t (w, h) f = Ok ev /\
    forall i, In i ev <-> exists x y, i = y * w + x /\ 0 <= x < w /\ 0 <= y < h /\
      electron_at dv gv BG XR w h f x y.
  Proof.
    destruct HR as (Hd & Hg & Hr). unfold threaded_count, worker_count, used_of. rewrite Hrow.
    destruct (ca_gain a) as [g|], gv as [gf|]; try contradiction; cbn [to_pointer].
    - destruct Hg as [Lg Hg]. fold (to_pointer (Some g)). rewrite (pointer_same g Lg).
      apply (threaded_one_ok f32_ieee fval _ (Some g) (th_background t) (th_xray t) BG XR w h f
               (fun j => counted_value (level dv j) (Some (gf j)) (zat f j))); auto; try lia.
      + intros x y u v Ha Hb. cbn. rewrite (fval_lt y x v u Hb Ha). destruct (Rlt_bool_spec v u); split; auto; try discriminate.
        intros; lra.
      + intros x u Ha. cbn. apply dval_le; [now apply dval_of_f|exact Hbg].
      + intros x u Ha. cbn. apply dval_le; [exact Hxr|now apply dval_of_f].
      + cbn. apply (fval_exact 0). lia.
      + intros j Hj. pose proof (pixel_u16 j Hj) as Uj. pose proof (u16_small _ Uj) as B16.
        assert (fval (f_of_Z (zat f j)) (IZR (zat f j))) as F0 by (apply fval_exact; unfold is_u16 in Uj; lia).
        destruct (deref_ref g j _ (Hg j Hj)) as (gl & Eg & Vg); [lia|].
        specialize (Hr j Hj). cbn [level option_map level_ok] in Hr. destruct Hr as [Bg Bd].
        assert (L16 : (bpow radix2 16 <= bpow radix2 40)%R) by (apply bpow_le; lia).
        destruct (ca_dark a) as [d|], dv as [df|]; try contradiction; cbn [to_pointer option_map level] in *.
        * destruct Hd as [Ld Hd]. fold (to_pointer (Some d)). rewrite (pointer_same d Ld).
          destruct (deref_ref d j _ (Hd j Hj)) as (fl & E & V); [lia|]. rewrite E, Eg.
          cbn [bind op_sub_cast op_of_u16 op_integral op_mul f32_ieee]. eexists. split; [reflexivity|].
          assert (B1 : (Rabs (IZR (zat f j) - df j) <= bpow radix2 41)%R).
          { unfold Rminus. apply Rle_trans with (1 := Rabs_triang _ _).
            rewrite Rabs_Ropp. pose proof (bpow_plus radix2 1 40) as B41. change (bpow radix2 1) with 2%R in B41. change (1 + 40) with 41 in B41.
            lra. }
          assert (B2 : (Rabs (f_rnd (IZR (zat f j) - df j)) <= bpow radix2 41)%R).
          { apply abs_round_le_generic; auto with typeclass_instances. apply generic_format_bpow. unfold FLT_exp. lia. }
          cbn [counted_value]. apply fval_mul; auto.
          { apply fval_sub; auto. apply Rle_trans with (1 := B1). apply bpow_le. lia. }
          rewrite Rabs_mult. apply Rle_trans with (bpow radix2 41 * bpow radix2 40)%R.
          { apply Rmult_le_compat; auto using Rabs_pos. }
          rewrite <- bpow_plus. apply bpow_le. lia.
        * rewrite Eg. cbn [bind op_of_u16 op_integral op_mul f32_ieee]. eexists. split; [reflexivity|].
          cbn [counted_value]. apply fval_mul; auto. rewrite Rabs_mult.
          apply Rle_trans with (bpow radix2 40 * bpow radix2 40)%R.
          { apply Rmult_le_compat; auto using Rabs_pos. lra. }
          rewrite <- bpow_plus. apply bpow_le. lia.
    - apply (threaded_one_ok u16_ieee rep_u16 _ None (th_background t) (th_xray t) BG XR w h f
               (fun j => counted_value (level dv j) None (zat f j))); auto; try lia.
      + intros x y u v (_ & ->) (_ & ->). cbn. rewrite Z.ltb_lt. split; [apply IZR_lt|apply lt_IZR].
      + intros x u (Ha & ->). cbn. apply dval_le; [apply dval_of_int; unfold is_u16 in Ha; lia|exact Hbg].
      + intros x u (Ha & ->). cbn. apply dval_le; [exact Hxr|apply dval_of_int; unfold is_u16 in Ha; lia].
      + split; [unfold is_u16; cbn; lia|reflexivity].
      + intros j Hj. pose proof (pixel_u16 j Hj) as Uj. specialize (Hr j Hj). cbn [level option_map level_ok] in Hr.
        destruct (ca_dark a) as [d|], dv as [df|]; try contradiction; cbn [to_pointer option_map level] in *.
        * destruct Hd as [Ld Hd]. fold (to_pointer (Some d)). rewrite (pointer_same d Ld).
          destruct (deref_ref d j _ (Hd j Hj)) as (fl & E & V); [lia|]. rewrite E.
          cbn [bind op_sub_cast op_of_u16 op_integral u16_ieee].
          assert (f_to_u16 fl = Ok (Ztrunc (df j))) as ->.
          { unfold f_to_u16. destruct V as (F1 & F2).
            apply (int_of_ok 24 128 _ (df j) 0 (2 ^ 16 - 1)); auto; try lia. now apply trunc_range. }
          cbn [bind]. eexists. split; [reflexivity|]. cbn [counted_value]. split.
          { unfold is_u16, u16. apply Z.mod_pos_bound. lia. }
          reflexivity.
        * cbn [bind op_of_u16 op_integral u16_ieee]. eexists. split; [reflexivity|]. split; [exact Uj|reflexivity].
  Qed.
End Counter.

(** Whatever the thresholds and the row correction, the events of a frame are
    different pixels of the frame. *)
Lemma wr_len {A} (l l' : list A) i v : wr l i v = Ok l' -> Zlen l' = Zlen l.
Proof.
  unfold wr. destruct (_ || _); [discriminate|]. intros [= <-]. unfold Zlen. now rewrite upd_length.
Qed.

Lemma keeps_len {A} n i (body : Z -> list A -> outcome (list A)) l l' :
  (forall j s s', body j s = Ok s' -> Zlen s' = Zlen s) -> for_from n i body l = Ok l' -> Zlen l' = Zlen l.
Proof.
  intros H E. apply (for_from_inv_ok (fun _ s => Zlen s = Zlen l) n i body l l'); auto.
  intros j s s' _ Hs Es. rewrite (H j s s' Es). exact Hs.
Qed.

Lemma row_len {T} (fops : frame_ops T float32 double) um om d g bg xr i j (l l' : list T) :
  rowdark_apply fops um om d g bg xr i j l = Ok l' -> Zlen l' = Zlen l.
Proof.
  unfold rowdark_apply. intros E. apply bind_ok in E as (s & _ & E). apply bind_ok in E as (st & _ & E).
  revert E. apply keeps_len. intros k u u'. unfold rowdark_pixel. intros E.
  apply bind_ok in E as (? & _ & E). apply bind_ok in E as (? & _ & E). apply bind_ok in E as (? & _ & E).
  apply bind_ok in E as (? & _ & E). apply bind_ok in E as (? & _ & E). now apply wr_len in E.
Qed.

Lemma one_len {T} (fops : frame_ops T float32 double) dark gain bg xr row mean um w h raw ev :
  1 <= w < 65536 -> 1 <= h < 65536 -> w * h < 2 ^ 32 -> Zlen raw = w * h ->
  threaded_one fops dark gain bg xr row mean um (w, h) raw = Ok ev ->
  NoDup ev /\ forall i, In i ev -> 0 <= i < w * h.
Proof.
  intros Hw Hh Hwh HL E. unfold threaded_one, electronCountFrame in E. apply bind_ok in E as (l & E1 & E2).
  assert (L : Zlen l = w * h).
  { rewrite <- HL, <- (Zlen_map (op_of_u16 fops) raw). destruct row.
    - unfold applyRowDark, for_loop in E1. revert E1. apply keeps_len. intros j s s' E.
      apply bind_ok in E as (u & Ea & Eb). apply row_len in Ea, Eb. congruence.
    - unfold preprocess, for_loop in E1. revert E1. apply keeps_len. intros j s s'. unfold preprocess_pixel. intros E.
      apply bind_ok in E as (? & _ & E). apply bind_ok in E as (? & _ & E). apply bind_ok in E as (? & _ & E).
      now apply wr_len in E. }
  destruct (maximal_points_correct T (op_gt fops) l w h Hw Hh Hwh L) as (ev' & Ev & A & S).
  rewrite Ev in E2. injection E2 as <-. split; [now apply ascending_NoDup|].
  intros i Hi. apply S in Hi as (x & y & -> & Hx & Hy & _). nia.
Qed.

Lemma count_len a t w h raw ev :
  1 <= w < 65536 -> 1 <= h < 65536 -> w * h < 2 ^ 32 -> Zlen raw = w * h ->
  threaded_count a t (w, h) raw = Ok ev -> NoDup ev /\ forall i, In i ev -> 0 <= i < w * h.
Proof.
  intros Hw Hh Hwh HL. unfold threaded_count, worker_count, used_of. destruct (to_pointer (ca_gain a)); now apply one_len.
Qed.

(** * Counting members of a list *)
Lemma how_many_filter {A} (P : A -> Prop) (p : A -> bool) l :
  (forall x, In x l -> (p x = true <-> P x)) -> how_many P l (Zlen (filter p l)).
Proof.
  induction l as [|x l IH]; intros H; [constructor|]. cbn [filter].
  assert (IH' := IH (fun y Hy => H y (or_intror Hy))). specialize (H x (or_introl eq_refl)).
  destruct (p x).
  - rewrite Zlen_cons. replace (1 + Zlen (filter p l)) with (Zlen (filter p l) + 1) by lia. constructor; [tauto|exact IH'].
  - constructor; [|exact IH']. intros HP. apply H in HP. discriminate.
Qed.

Lemma how_many_map {A B} (g : A -> B) (P : B -> Prop) l n : how_many P (map g l) n <-> how_many (fun x => P (g x)) l n.
Proof.
  revert n. induction l as [|x l IH]; intros n; cbn [map].
  - split; intros H; inversion H; constructor.
  - split; intros H; inversion H; subst; constructor; auto; now apply IH.
Qed.

Lemma how_many_unique {A} (P : A -> Prop) l n : how_many P l n -> forall m, how_many P l m -> n = m.
Proof.
  induction 1 as [|x l n Hx _ IH|x l n Hx _ IH]; intros m H; inversion H; subst; try contradiction; auto.
  f_equal. now apply IH.
Qed.

(** * The array *)
Section Array.
  Variables (a : classic_args) (t : thresholds) (bs : list block) (sw sh w h : Z) (r : list (list (list Z))).
  Hypothesis HD : delivery a bs sw sh w h.
  Hypothesis HC : counted_once (threaded_count a t) (sw * sh) bs r.

  Lemma frame_of_delivery f : In f (flat_map frames_of bs) -> fst (snd f) = (w, h) /\ Zlen (snd (snd f)) = w * h.
  Proof.
    intros Hf. apply in_flat_map in Hf as (b & Hb & Hf). destruct (de_blocks _ _ _ _ _ _ HD b Hb) as (K & Ed & _).
    destruct (de_frame _ _ _ _ _ _ HD) as (Hw & Hh & _).
    destruct (bk_data b K) as (d & Edat & Ld & _). unfold frames_of in Hf. rewrite Edat in Hf.
    apply in_map_iff in Hf as (i & <- & Hi). apply in_zseq in Hi. cbn [fst snd]. rewrite Ed in *. cbn [fst snd] in *.
    split; [reflexivity|]. unfold image, Zlen in *. rewrite firstn_length, skipn_length. nia.
  Qed.

  Lemma array_ok : exists sa D, wrap_counted r (sw, sh) (w, h) = Ok sa /\ wf sa /\
    to_dense sa = Ok (Dense [sh; sw; w; h] D) /\
    forall dv gv BG XR, ca_row_dark a = false -> refs_of a (w * h) dv gv ->
      dval (th_background t) BG -> dval (th_xray t) XR ->
      forall p x y, 0 <= p < sw * sh -> 0 <= x < w -> 0 <= y < h ->
        how_many (fun f => electron_at dv gv BG XR w h (snd f) x y) (frames_at p bs)
          (zat D (p * (w * h) + (y * w + x))).
  Proof.
    destruct (de_frame _ _ _ _ _ _ HD) as (Hw & Hh & Hwh). destruct (de_scan _ _ _ _ _ _ HD) as (S1 & S2 & S3).
    destruct (C56_sparse_array (threaded_count a t) bs r sw sh w h) as (sa & E & W & _ & _ & D & ED & V); auto; try lia.
    { exact (de_few _ _ _ _ _ _ HD). }
    { intros f ev Hf Ev. destruct (frame_of_delivery f Hf) as [Ef L]. rewrite Ef in Ev.
      apply (count_len a t w h (snd (snd f))); auto; lia. }
    exists sa, D. do 3 (split; [assumption|]). intros dv gv BG XR Hrow HR Hbg Hxr p x y Hp Hx Hy.
    rewrite V by (auto; nia). unfold frames_hitting. apply how_many_filter. intros f Hf.
    apply CountedProps.frames_at_in in Hf. destruct (frame_of_delivery (p, f) Hf) as [Ef L]. cbn [fst snd] in Ef, L.
    assert (U := de_pixels _ _ _ _ _ _ HD (p, f) Hf). cbn [snd] in U.
    destruct (threaded_count_ok a t BG XR w h (snd f) dv gv Hw Hh Hwh L U HR Hbg Hxr Hrow) as (ev & Ev & S).
    unfold reported. rewrite Ef, Ev. rewrite existsb_exists. split.
    - intros (i & Hi & E1). apply Z.eqb_eq in E1. subst i. apply S in Hi as (x' & y' & E1 & Hx' & Hy' & H).
      assert (y = y' /\ x = x') as [-> ->] by (apply (Z.div_mod_unique w); lia). exact H.
    - intros H. exists (y * w + x). split; [|apply Z.eqb_refl]. apply S. exists x, y. auto.
  Qed.
End Array.

Lemma dict_tells t : tells (metadata_dict (metadata_of true t)) t.
Proof. repeat split. Qed.
