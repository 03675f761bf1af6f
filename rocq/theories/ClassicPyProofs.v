(** Counting with a plain reader: the arithmetic of one frame, the readers and
    the steps of electron_count. *)
From Coq Require Import String ZArith List Bool Reals Lia Lra Psatz.
From Flocq Require Import Core.
From Flocq Require Import IEEE754.BinarySingleNaN IEEE754.Binary IEEE754.Bits.
From Verif Require CountProps StreamModel.
From Verif Require Import Base BaseFacts BlockModel CountSpec CountModel Double Float32 FloatConv ElectronModel
  ElectronSpec ElectronProofs ElectronProps IeeeModel ThresholdModel ThresholdSpec ThresholdStats ThresholdProps SparseModel SparseSpec SparseProofs SparseSlice SparseProps CountedModel PyModel PySpec PyProofs ClassicPyModel ClassicPySpec.
Import ListNotations.
Open Scope Z_scope.

Local Arguments Z.mul : simpl never.
Local Arguments Z.add : simpl never.
Local Arguments Z.pow : simpl never.

(** * Arithmetic *)
Lemma dval_of_f x a : fval x a -> dval (d_of_f x) a.
Proof.
  intros (F & E). destruct x as [s| | |s m e He]; try discriminate.
  - split; [reflexivity|]. exact E.
  - cbn [d_of_f].
    pose proof (binary_normalize_correct 53 1024 eq_refl eq_refl mode_NE (cond_Zopp s (Zpos m)) e s) as C.
    change (round radix2 (SpecFloat.fexp 53 1024) (round_mode mode_NE)) with d_rnd in C.
    assert (G : generic_format radix2 f_exp (F2R (Float radix2 (cond_Zopp s (Zpos m)) e))).
    { apply (generic_format_B2R 24 128 (B754_finite 24 128 s m e He)). }
    apply FLT_format_generic in G; [|reflexivity]. destruct G as [[m' e'] G1 G2 G3]. cbn in G2, G3.
    assert (G : generic_format radix2 d_exp (F2R (Float radix2 (cond_Zopp s (Zpos m)) e))).
    { rewrite G1. apply generic_format_FLT. exists (Float radix2 m' e'); [reflexivity| |]; cbn; lia. }
    rewrite d_rnd_id in C by exact G.
    assert (B : (Rabs (F2R (Float radix2 (cond_Zopp s (Zpos m)) e)) < bpow radix2 128)%R)
      by exact (abs_B2R_lt_emax 24 128 (B754_finite 24 128 s m e He)).
    rewrite Rlt_bool_true in C.
    2:{ apply Rlt_le_trans with (1 := B). apply bpow_le. lia. }
    destruct C as (C1 & C2 & _). split; [exact C2|]. rewrite C1. exact E.
Qed.

Lemma fval_lt x y a b : fval x a -> fval y b -> f_lt x y = Rlt_bool a b.
Proof.
  intros Hx Hy. unfold f_lt. rewrite (fval_compare x y a b Hx Hy). unfold Rlt_bool.
  destruct (Rcompare a b); reflexivity.
Qed.

Lemma clipped_eq bg xr x : clipped bg xr x = if Rle_bool x bg || Rle_bool xr x then 0%R else x.
Proof.
  unfold clipped. destruct (Rle_dec x bg) as [H|H]; [now rewrite Rle_bool_true|].
  rewrite Rle_bool_false by lra. cbn [orb]. destruct (Rle_dec xr x) as [H'|H']; [now rewrite Rle_bool_true|].
  rewrite Rle_bool_false by lra. reflexivity.
Qed.

(** * One frame *)
Section Frame.
  Context {T : Type} (fops : frame_ops T float32 double) (rep : T -> R -> Prop).
  Variables (dark gain : option (list float32)) (bg xr : double) (BG XR : R) (w h : Z) (raw : list Z) (c : Z -> R).
  Hypothesis Hgt : forall a b x y, rep a x -> rep b y -> (op_gt fops a b = true <-> (y < x)%R).
  Hypothesis Hle : forall a x, rep a x -> op_le fops a bg = Rle_bool x BG.
  Hypothesis Hge : forall a x, rep a x -> op_ge fops a xr = Rle_bool XR x.
  Hypothesis H0 : rep (op_zero fops) 0.
  Hypothesis Hw : 1 <= w < 65536.
  Hypothesis Hh : 1 <= h < 65536.
  Hypothesis Hwh : w * h < 2 ^ 32.
  Hypothesis HL : Zlen raw = w * h.
  Hypothesis Hpx : forall j, 0 <= j < w * h -> exists d t t', deref dark j = Ok d /\
    op_sub fops (op_of_u16 fops (zat raw j)) d = Ok t /\
    (if op_integral fops then Ok t else let* g := deref gain j in op_mul fops t g) = Ok t' /\ rep t' (c j).

  Lemma frame_values : exists l, preprocess_classic fops dark gain bg xr (w, h) (map (op_of_u16 fops) raw) = Ok l /\
    Zlen l = w * h /\ forall j, 0 <= j < w * h -> exists v, nth_error l (Z.to_nat j) = Some v /\ rep v (clipped BG XR (c j)).
  Proof.
    set (g := fun j => match deref dark j with Ok d =>
                match op_sub fops (op_of_u16 fops (zat raw j)) d with Ok t =>
                  match (if op_integral fops then Ok t else let* g := deref gain j in op_mul fops t g) with
                  | Ok t' => threshold_pixel fops bg xr t' | _ => op_zero fops end | _ => op_zero fops end
              | _ => op_zero fops end).
    destruct (preprocess_classic_ok fops dark gain bg xr w h (map (op_of_u16 fops) raw) g) as (l & E & L & V); try lia.
    - now rewrite Zlen_map.
    - intros j v Hj Hv. rewrite nth_error_map in Hv.
      destruct (nth_error raw (Z.to_nat j)) as [u|] eqn:Eu; [|discriminate]. injection Hv as <-.
      assert (Ez : zat raw j = u).
      { unfold zat. destruct (Z.ltb_spec j 0); [lia|]. now apply nth_error_nth. }
      destruct (Hpx j Hj) as (d & t & t' & E1 & E2 & E3 & _). unfold pre_classic_value, g.
      rewrite Ez in E2. rewrite E1, Ez. cbn [bind]. rewrite E2. cbn [bind]. rewrite E3. reflexivity.
    - exists l. split; [exact E|]. split; [exact L|]. intros j Hj. exists (g j). split; [now apply V|].
      destruct (Hpx j Hj) as (d & t & t' & E1 & E2 & E3 & Hr). unfold g. rewrite E1, E2, E3.
      unfold threshold_pixel. rewrite (Hle _ _ Hr), (Hge _ _ Hr), clipped_eq. destruct (_ || _); assumption.
  Qed.

  Lemma classic_one_ok mean um : exists ev,
    classic_one fops dark gain bg xr false mean um (w, h) raw = Ok ev /\ ascending ev /\
    forall i, In i ev <-> exists x y, i = y * w + x /\ 0 <= x < w /\ 0 <= y < h /\
      greatest (fun x y => clipped BG XR (c (y * w + x))) w h x y.
  Proof.
    destruct frame_values as (l & E & L & V). unfold classic_one. rewrite E. cbn [bind].
    destruct (maximal_points_correct T (op_gt fops) l w h Hw Hh Hwh L) as (ev & Ev & A & S).
    exists ev. split; [exact Ev|]. split; [exact A|]. intros i. rewrite S.
    assert (P : forall x y, 0 <= x < w -> 0 <= y < h -> exists v, pixel l w x y = Some v /\
      rep v (clipped BG XR (c (y * w + x)))).
    { intros x y Hx Hy. unfold pixel. apply V. nia. }
    split; intros (x & y & -> & Q).
    - destruct Q as (Hx & Hy & Q). exists x, y. do 3 (split; [auto|]). intros x' y' N.
      pose proof N as (Hx' & Hy' & _).
      destruct (P x y Hx Hy) as (v & Ev1 & R1). destruct (P x' y' Hx' Hy') as (v' & Ev2 & R2).
      apply (Hgt v v' _ _ R1 R2). now apply (Q x' y').
    - destruct Q as (Hx & Hy & Q). exists x, y. split; [reflexivity|]. split; [exact Hx|]. split; [exact Hy|].
      intros x' y' v v' N Ev1 Ev2. pose proof N as (Hx' & Hy' & _).
      destruct (P x y Hx Hy) as (u & Eu1 & R1). destruct (P x' y' Hx' Hy') as (u' & Eu2 & R2).
      rewrite Eu1 in Ev1. injection Ev1 as <-. rewrite Eu2 in Ev2. injection Ev2 as <-.
      apply (Hgt u u' _ _ R1 R2). now apply Q.
  Qed.
End Frame.

Definition rep_u16 (v : Z) (x : R) : Prop := is_u16 v /\ x = IZR v.

Lemma deref_ref r j x : ref_is r j x -> 0 <= j -> exists f, deref (Some r) j = Ok f /\ fval f x.
Proof.
  intros (f & E & H) Hj. exists f. split; [|exact H]. unfold deref, rd. destruct (Z.ltb_spec j 0); [lia|]. now rewrite E.
Qed.

Lemma u16_small v : is_u16 v -> (Rabs (IZR v) <= bpow radix2 16)%R.
Proof. unfold is_u16. intros H. apply bpow_int_le; lia. Qed.

Lemma trunc_range x : (-1 < x < 65536)%R -> 0 <= Ztrunc x <= 2 ^ 16 - 1.
Proof.
  intros [A B]. destruct (Rlt_or_le x 0) as [N|N].
  - rewrite Ztrunc_ceil by lra. split.
    + assert (-1 < Zceil x); [|lia]. apply lt_IZR. apply Rlt_le_trans with x; [exact A|apply Zceil_ub].
    + assert (Zceil x <= 0); [|lia]. apply Zceil_glb. cbn. lra.
  - rewrite Ztrunc_floor by lra. split.
    + apply Zfloor_lub. cbn. lra.
    + assert (Zfloor x < 65536); [|lia]. apply lt_IZR. apply Rle_lt_trans with x; [apply Zfloor_lb|lra].
Qed.

Lemma classic_frame_u16 d dv bg xr BG XR w h f mean um :
  1 <= w < 65536 -> 1 <= h < 65536 -> w * h < 2 ^ 32 -> Zlen f = w * h -> Forall is_u16 f ->
  refs_are d (w * h) dv -> dval bg BG -> dval xr XR ->
  (forall j, 0 <= j < w * h -> in_range None (zat f j) (dv j)) ->
  exists ev, classic_one u16_ieee (Some d) None bg xr false mean um (w, h) f = Ok ev /\ ascending ev /\
    forall i, In i ev <-> exists x y, i = y * w + x /\ 0 <= x < w /\ 0 <= y < h /\
      electron_in dv None BG XR w h f x y.
Proof.
  intros Hw Hh Hwh HL Hu [Ld Hd] Hbg Hxr Hr.
  apply (classic_one_ok u16_ieee rep_u16 (Some d) None bg xr BG XR w h f
          (fun j => classic_value None (zat f j) (dv j))); auto.
  - intros a b x y (_ & ->) (_ & ->). cbn. rewrite Z.ltb_lt. split; [apply IZR_lt|apply lt_IZR].
  - intros a x (Ha & ->). cbn. apply dval_le; [apply dval_of_int; unfold is_u16 in Ha; lia|exact Hbg].
  - intros a x (Ha & ->). cbn. apply dval_le; [exact Hxr|apply dval_of_int; unfold is_u16 in Ha; lia].
  - split; [unfold is_u16; cbn; lia|reflexivity].
  - intros j Hj. destruct (deref_ref d j _ (Hd j Hj)) as (fl & E & V); [lia|].
    specialize (Hr j Hj). cbn [in_range] in Hr.
    assert (Uj : is_u16 (zat f j)).
    { rewrite Forall_forall in Hu. apply Hu, zat_in. lia. }
    exists fl. eexists. eexists. split; [exact E|].
    assert (Bd : (Rabs (IZR (zat f j) - dv j) <= bpow radix2 100)%R).
    { destruct (Rle_or_lt (Rabs (IZR (zat f j) - dv j)) (bpow radix2 100)) as [L|L]; [exact L|exfalso].
      assert (Q : (bpow radix2 100 <= Rabs (f_rnd (IZR (zat f j) - dv j)))%R).
      { apply abs_round_ge_generic; auto with typeclass_instances; [|lra].
        apply generic_format_bpow. unfold FLT_exp. lia. }
      assert (Rabs (f_rnd (IZR (zat f j) - dv j)) <= bpow radix2 16)%R.
      { change (bpow radix2 16) with 65536%R. apply Rabs_le. lra. }
      assert (bpow radix2 16 < bpow radix2 100)%R by (apply bpow_lt; lia). lra. }
    assert (S : fval (f_sub (f_of_Z (zat f j)) fl) (f_rnd (IZR (zat f j) - dv j))).
    { apply fval_sub; auto. apply fval_exact. unfold is_u16 in Uj. lia. }
    pose proof (trunc_range _ Hr) as Tr.
    cbn [op_sub op_of_u16 op_integral u16_ieee]. split.
    + unfold f_to_u16. destruct S as (F1 & F2).
      apply (int_of_ok 24 128 _ (f_rnd (IZR (zat f j) - dv j)) 0 (2 ^ 16 - 1)); auto; lia.
    + split; [reflexivity|]. split; [unfold is_u16; lia|]. reflexivity.
Qed.

Lemma classic_frame_f32 d dv g gv bg xr BG XR w h f mean um :
  1 <= w < 65536 -> 1 <= h < 65536 -> w * h < 2 ^ 32 -> Zlen f = w * h -> Forall is_u16 f ->
  refs_are d (w * h) dv -> refs_are g (w * h) gv -> dval bg BG -> dval xr XR ->
  (forall j, 0 <= j < w * h -> in_range (Some (gv j)) (zat f j) (dv j)) ->
  exists ev, classic_one f32_ieee (Some d) (Some g) bg xr false mean um (w, h) f = Ok ev /\ ascending ev /\
    forall i, In i ev <-> exists x y, i = y * w + x /\ 0 <= x < w /\ 0 <= y < h /\
      electron_in dv (Some gv) BG XR w h f x y.
Proof.
  intros Hw Hh Hwh HL Hu [Ld Hd] [Lg Hg] Hbg Hxr Hr.
  apply (classic_one_ok f32_ieee fval (Some d) (Some g) bg xr BG XR w h f
          (fun j => classic_value (Some (gv j)) (zat f j) (dv j))); auto.
  - intros a b x y Ha Hb. cbn. rewrite (fval_lt b a y x Hb Ha). destruct (Rlt_bool_spec y x); split; auto; try discriminate.
    intros; lra.
  - intros a x Ha. cbn. apply dval_le; [now apply dval_of_f|exact Hbg].
  - intros a x Ha. cbn. apply dval_le; [exact Hxr|now apply dval_of_f].
  - cbn. apply (fval_exact 0). lia.
  - intros j Hj. destruct (deref_ref d j _ (Hd j Hj)) as (fl & E & V); [lia|].
    destruct (deref_ref g j _ (Hg j Hj)) as (gl & Eg & Vg); [lia|].
    specialize (Hr j Hj). cbn [in_range] in Hr. destruct Hr as [Bd Bg].
    assert (Uj : is_u16 (zat f j)).
    { rewrite Forall_forall in Hu. apply Hu, zat_in. lia. }
    assert (B1 : (Rabs (IZR (zat f j) - dv j) <= bpow radix2 41)%R).
    { pose proof (u16_small _ Uj) as B. unfold Rminus. apply Rle_trans with (1 := Rabs_triang _ _).
      rewrite Rabs_Ropp. pose proof (bpow_plus radix2 1 40) as B41. change (bpow radix2 1) with 2%R in B41. change (1 + 40) with 41 in B41.
      assert (bpow radix2 16 <= bpow radix2 40)%R by (apply bpow_le; lia). lra. }
    assert (B2 : (Rabs (f_rnd (IZR (zat f j) - dv j)) <= bpow radix2 41)%R).
    { apply abs_round_le_generic; auto with typeclass_instances. apply generic_format_bpow. unfold FLT_exp. lia. }
    assert (S : fval (f_sub (f_of_Z (zat f j)) fl) (f_rnd (IZR (zat f j) - dv j))).
    { apply fval_sub; auto.
      - apply fval_exact. unfold is_u16 in Uj. lia.
      - apply Rle_trans with (1 := B1). apply bpow_le. lia. }
    exists fl. eexists. eexists. split; [exact E|]. cbn [op_sub op_of_u16 op_integral op_mul f32_ieee].
    split; [reflexivity|]. rewrite Eg. cbn [bind]. split; [reflexivity|]. cbn [classic_value].
    apply fval_mul; auto. rewrite Rabs_mult.
    apply Rle_trans with (bpow radix2 41 * bpow radix2 40)%R.
    + apply Rmult_le_compat; auto using Rabs_pos.
    + rewrite <- bpow_plus. apply bpow_le. lia.
Qed.

(** * Readers *)
Section Readers.
  Context {R : Type} (ops : reader_ops R).

  Lemma delivers_cons r b bs : delivers ops r (b :: bs) ->
    exists r', ro_read ops r = (Ok b, r') /\ delivers ops r' bs.
  Proof.
    intros H. destruct (ro_read ops r) as [o r'] eqn:E. exists r'.
    pose proof (H 1%nat) as H1. cbn in H1. rewrite E in H1. cbn in H1. injection H1 as ->.
    split; [reflexivity|]. intros n. specialize (H (S n)). cbn [ro_reads map app firstn] in H. rewrite E in H.
    cbn [fst snd] in H. injection H as H. rewrite H. cbn [repeat].
    rewrite !firstn_app. f_equal. rewrite !map_length.
    set (k := (n - List.length bs)%nat). assert (k <= n)%nat by (unfold k; lia).
    change (Ok empty_block :: repeat (Ok empty_block) n) with (repeat (Ok empty_block : outcome block) (S n)).
    clearbody k. clear - H0. revert n H0. induction k as [|k IH]; intros n Hn; [reflexivity|].
    destruct n as [|n]; [lia|]. cbn [repeat firstn]. f_equal. exact (IH n ltac:(lia)).
  Qed.

  Lemma delivers_nil r : delivers ops r [] -> exists r', ro_read ops r = (Ok empty_block, r') /\ delivers ops r' [].
  Proof.
    intros H. destruct (ro_read ops r) as [o r'] eqn:E. exists r'.
    pose proof (H 1%nat) as H1. cbn in H1. rewrite E in H1. cbn in H1. injection H1 as ->.
    split; [reflexivity|]. intros n. specialize (H (S n)). cbn [ro_reads map app firstn repeat] in *. rewrite E in H.
    cbn [fst snd] in H. now injection H as H.
  Qed.

  Lemma delivers_read r bs : delivers ops r bs -> delivers ops (snd (ro_read ops r)) (skipn 1 bs).
  Proof.
    destruct bs as [|b bs]; intros H.
    - destruct (delivers_nil r H) as (r' & -> & H'). exact H'.
    - destruct (delivers_cons r b bs H) as (r' & -> & H'). exact H'.
  Qed.

  Lemma skipn_skipn {A} (l : list A) n m : skipn n (skipn m l) = skipn (m + n) l.
  Proof.
    revert l; induction m as [|m IH]; intros l; [reflexivity|].
    destruct l as [|a l]; [now rewrite !skipn_nil|]. cbn [skipn Nat.add]. apply IH.
  Qed.

  Definition has_reset (cs : list reader_call) : bool :=
    existsb (fun c => match c with CReset => true | CRead => false end) cs.

  Lemma since_reset_reads cs : has_reset cs = false -> since_reset cs = List.length cs.
  Proof.
    induction cs as [|[|] cs IH]; intros H; cbn in *; auto; [|discriminate].
    fold (has_reset cs) in *. rewrite H. now rewrite IH.
  Qed.

  Lemma delivers_reads cs : forall r bs, has_reset cs = false -> delivers ops r bs ->
    delivers ops (run_calls ops cs r) (skipn (List.length cs) bs).
  Proof.
    induction cs as [|[|] cs IH]; intros r bs H D; cbn in *; auto; [|discriminate].
    specialize (IH _ _ H (delivers_read r bs D)). rewrite skipn_skipn in IH. exact IH.
  Qed.

  Lemma run_calls_app a b r : run_calls ops (a ++ b) r = run_calls ops b (run_calls ops a r).
  Proof. revert r; induction a as [|[|] a IH]; intros r; cbn; auto. Qed.

  Lemma split_reset cs : has_reset cs = false \/
    exists a b, cs = a ++ CReset :: b /\ has_reset b = false.
  Proof.
    induction cs as [|c cs IH]; [now left|]. destruct IH as [IH|(a & b & -> & Hb)].
    - destruct c; [left; cbn; exact IH|right]. exists [], cs. auto.
    - right. exists (c :: a), b. auto.
  Qed.

  Lemma since_reset_app a b : has_reset b = false -> since_reset (a ++ CReset :: b) = List.length b.
  Proof.
    intros Hb. induction a as [|c a IH]; cbn.
    - now apply since_reset_reads.
    - destruct c; [|exact IH]. rewrite existsb_app. cbn. rewrite orb_true_r. exact IH.
  Qed.

  (** Where a reader is after any calls. *)
  Lemma delivers_after r bs cs : reader_of ops r bs ->
    delivers ops (run_calls ops cs r) (skipn (since_reset cs) bs).
  Proof.
    intros [D Re]. destruct (split_reset cs) as [N|(a & b & -> & N)].
    - rewrite since_reset_reads by exact N. now apply delivers_reads.
    - rewrite since_reset_app by exact N. rewrite run_calls_app. cbn [run_calls]. apply delivers_reads; auto.
  Qed.

  Lemma next_ok n : forall r bs, delivers ops r bs -> (forall b, In b bs -> real_block b) ->
    (n <= List.length bs)%nat ->
    exists r', next_blocks ops n r = (Ok (firstn n bs), r') /\ r' = run_calls ops (repeat CRead n) r.
  Proof.
    induction n as [|n IH]; intros r bs D Hb Hn; [exists r; auto|].
    destruct bs as [|b bs]; [cbn in Hn; lia|]. destruct (delivers_cons r b bs D) as (r1 & E & D1).
    destruct (IH r1 bs D1) as (r2 & E2 & Hr2); [intros; apply Hb; now right|cbn in Hn; lia|].
    cbn [next_blocks repeat run_calls]. unfold py_next. rewrite E. cbn [obind snd].
    destruct (Z.eqb_spec (version (hdr b)) 0) as [V|V]; [destruct (Hb b (or_introl eq_refl)); contradiction|].
    cbn [obind]. rewrite E2. cbn [obind firstn]. eauto.
  Qed.

  Lemma next_short n : forall r bs, delivers ops r bs -> (forall b, In b bs -> real_block b) ->
    (List.length bs < n)%nat ->
    exists r', next_blocks ops n r = (Throw "StopIteration", r').
  Proof.
    induction n as [|n IH]; intros r bs D Hb Hn; [lia|]. cbn [next_blocks]. unfold py_next.
    destruct bs as [|b bs].
    - destruct (delivers_nil r D) as (r1 & E & _). rewrite E. cbn. eauto.
    - destruct (delivers_cons r b bs D) as (r1 & E & D1).
      destruct (IH r1 bs D1) as (r2 & E2); [intros; apply Hb; now right|cbn in Hn; lia|].
      rewrite E. cbn [obind]. destruct (Z.eqb_spec (version (hdr b)) 0); [cbn [obind]; eauto|].
      cbn [obind]. rewrite E2. cbn [obind]. eauto.
  Qed.

  Lemma iterate_ok fuel : forall r bs, delivers ops r bs -> (forall b, In b bs -> real_block b) ->
    (List.length bs < fuel)%nat ->
    exists r', ro_iterate ops fuel r = (Ok bs, r') /\ delivers ops r' [] /\
      r' = run_calls ops (repeat CRead (S (List.length bs))) r.
  Proof.
    induction fuel as [|f IH]; intros r bs D Hb Hf; [lia|]. cbn [ro_iterate]. destruct bs as [|b bs].
    - destruct (delivers_nil r D) as (r1 & E & D1). rewrite E. cbn [obind data empty_block]. exists r1.
      split; [reflexivity|]. split; [exact D1|]. cbn [List.length repeat run_calls]. now rewrite E.
    - destruct (delivers_cons r b bs D) as (r1 & E & D1). rewrite E. cbn [obind].
      destruct (data b) eqn:Ed; [|destruct (Hb b (or_introl eq_refl)); contradiction].
      destruct (IH r1 bs D1) as (r2 & E2 & D2 & R2); [intros; apply Hb; now right|cbn in Hf; lia|].
      rewrite E2. cbn [obind]. exists r2. split; [reflexivity|]. split; [exact D2|].
      cbn [List.length]. change (repeat CRead (S (S (List.length bs)))) with (CRead :: repeat CRead (S (List.length bs))).
      cbn [run_calls]. rewrite E. exact R2.
  Qed.
End Readers.

(** * The result *)
Lemma last_in bs p f : last_frame p bs = Some f -> In (p, f) (flat_map frames_of bs).
Proof.
  unfold last_frame. set (l := frames_at p bs). intros H.
  assert (In (Some f) (map Some l)).
  { destruct l as [|a t] using rev_ind; [discriminate|]. rewrite map_app in *. cbn [map] in *.
    rewrite last_last in H. subst. apply in_or_app. right. now left. }
  apply in_map_iff in H0 as (f' & [= ->] & Hin). unfold l, frames_at in Hin.
  apply in_map_iff in Hin as ([q g] & <- & Hin). apply filter_In in Hin as [Hin E]. cbn [fst snd] in *.
  apply Z.eqb_eq in E. now subst q.
Qed.

Lemma cnt_nodup l j : NoDup l -> cnt l j = if existsb (Z.eqb j) l then 1 else 0.
Proof.
  induction 1 as [|x l Hx N IH]; [reflexivity|]. rewrite cnt_cons, IH. cbn [existsb].
  destruct (Z.eqb_spec j x) as [->|Ne]; cbn [orb]; [|lia].
  destruct (existsb (Z.eqb x) l) eqn:E; [|lia]. exfalso. apply existsb_exists in E as (y & Hy & E).
  apply Z.eqb_eq in E. now subst y.
Qed.

Section Wrap.
  Variables (count : (Z * Z) -> list Z -> outcome (list Z)) (scan : Z * Z) (bs : list block) (b0 : block) (rest : list block).
  Variables (sw sh w h : Z).
  Hypothesis Ebs : bs = b0 :: rest.
  Hypothesis Hb : forall b, In b bs -> block_ok b /\ frame_dims (hdr b) = (w, h).
  Hypothesis Hscan : scan_in_effect scan b0 = (sw, sh).
  Hypothesis Hs : 0 < sw /\ 0 < sh /\ sw * sh < 2 ^ 32.
  Hypothesis Hf : 0 < w /\ 0 < h.
  Hypothesis Hpos : forall f, In f (flat_map frames_of bs) -> 0 <= fst f < sw * sh.
  Hypothesis Hcount : forall f, In f (flat_map frames_of bs) -> exists ev,
    count (fst (snd f)) (snd (snd f)) = Ok ev /\ frame_ok (w * h) ev.

  Lemma wrapped_ok : exists sa D, classic_wrapped count scan bs = Ok sa /\ wf sa /\
    to_dense sa = Ok (Dense [sh; sw; w; h] D) /\
    forall p j, 0 <= p < sw * sh -> 0 <= j < w * h -> zat D (p * (w * h) + j) =
      match last_frame p bs with
      | None => 0
      | Some f => match count (fst f) (snd f) with
                  | Ok ev => if existsb (Z.eqb j) ev then 1 else 0
                  | _ => 0
                  end
      end.
  Proof.
    assert (Hb0 : frame_dims (hdr b0) = (w, h)) by (apply Hb; rewrite Ebs; now left).
    destruct (CountProps.classic_count_correct count scan bs b0 rest (sw * sh)) as (r & E & L & V); auto.
    { intros b Hin. destruct (Hb b Hin) as [K D]. rewrite D, Hb0. auto. }
    { rewrite Hscan. cbn. lia. } { rewrite Hscan. cbn. lia. } { now rewrite Hscan. } { nia. }
    { intros f Hin. destruct (Hcount f Hin) as (ev & Ev & _). eauto. }
    unfold classic_wrapped. rewrite E. cbn [bind]. rewrite Ebs. fold (scan_in_effect scan b0).
    rewrite Hscan, Hb0.
    assert (R1 : forall row, In row r -> exists ev, row = [ev] /\ frame_ok (w * h) ev).
    { intros row Hr. apply In_nth_error in Hr as (k & Hk).
      assert (Hk' : (k < List.length r)%nat) by (apply nth_error_Some; congruence).
      destruct (V (Z.of_nat k)) as (ev & Ev & M); [unfold Zlen in L; lia|]. rewrite Nat2Z.id, Hk in Ev. injection Ev as ->.
      exists ev. split; [reflexivity|]. destruct (last_frame (Z.of_nat k) bs) as [f|] eqn:Ef.
      - apply last_in in Ef. destruct (Hcount _ Ef) as (ev' & Ev' & K). cbn [fst snd] in Ev'. congruence.
      - subst ev. split; [constructor|intros x []]. }
    unfold wrap_counted. cbn [fst snd].
    set (F := match r with [] => 0 | row :: _ => Zlen row end).
    assert (HF : F = 1).
    { unfold F. destruct r as [|row t]; [unfold Zlen in L; cbn in L; nia|].
      destruct (R1 row (or_introl eq_refl)) as (ev & -> & _). reflexivity. }
    assert (existsb (fun row => F <? Zlen row) r = false) as ->.
    { destruct (existsb _ r) eqn:X; [|reflexivity]. apply existsb_exists in X as (row & Hr & X).
      destruct (R1 row Hr) as (ev & -> & _). rewrite HF in X. discriminate. }
    assert (existsb (fun row => Zlen row <? F) r = false) as ->.
    { destruct (existsb _ r) eqn:X; [|reflexivity]. apply existsb_exists in X as (row & Hr & X).
      destruct (R1 row Hr) as (ev & -> & _). rewrite HF in X. discriminate. }
    assert (PS : np_prod [sh; sw] = sw * sh) by (unfold np_prod; cbn [fold_right]; lia).
    assert (PF : np_prod [w; h] = w * h) by (unfold np_prod; cbn [fold_right]; lia).
    unfold sparse_init. rewrite PS, L, Z.eqb_refl.
    set (sa := mkSparse r F [sh; sw] [w; h] 32 true false).
    assert (W : wf sa).
    { constructor; cbn [sa sp_scan sp_frame sp_data sp_F sp_bits].
      - right. exists sh, sw. repeat split; lia.
      - right. exists w, h. repeat split; lia.
      - rewrite PS. exact L.
      - intros row Hr. rewrite HF. destruct (R1 row Hr) as (ev & -> & _). reflexivity.
      - rewrite HF. lia.
      - lia.
      - intros row fr Hr Hfr. rewrite PF. destruct (R1 row Hr) as (ev & -> & K).
        destruct Hfr as [<-|[]]. exact K. }
    destruct (C36_dense_values sa W) as (D & ED & _ & VD). exists sa, D.
    split; [reflexivity|]. split; [exact W|]. split; [exact ED|].
    intros p j Hp Hj. unfold num_scans, frame_size in VD. cbn [sa sp_scan sp_frame] in VD. rewrite PS, PF in VD.
    rewrite VD by assumption. unfold row_at. cbn [sa sp_data].
    destruct (V p Hp) as (ev & Ev & M). rewrite (nth_error_nth _ _ _ Ev). unfold events. cbn [map zsum fold_right].
    assert (K : frame_ok (w * h) ev).
    { destruct (R1 [ev]) as (ev' & [= <-] & K); [eapply nth_error_In; exact Ev|exact K]. }
    rewrite <- Ebs. destruct (last_frame p bs) as [f|].
    - rewrite M. rewrite cnt_nodup by apply K. lia.
    - subst ev. reflexivity.
  Qed.
End Wrap.

(** * The readers *)
Lemma stream_run cs : forall s, run_calls stream_ops cs s =
  StreamModel.sr_run (map (fun c => match c with CRead => StreamModel.OpRead | CReset => StreamModel.OpReset end) cs) s.
Proof. induction cs as [|[|] cs IH]; intros s; cbn; auto. Qed.

Lemma stream_ro_reads n : forall s, ro_reads stream_ops n s = fst (StreamModel.reads n s).
Proof.
  induction n as [|n IH]; intros s; cbn [ro_reads StreamModel.reads]; [reflexivity|].
  cbn [stream_ops ro_read]. destruct (StreamModel.read_block s) as [o s1] eqn:E. cbn [fst snd]. rewrite IH.
  destruct (StreamModel.reads n s1). reflexivity.
Qed.

Lemma delivers_step {R} (ops : reader_ops R) r r' b bs :
  ro_read ops r = (Ok b, r') -> delivers ops r' bs -> delivers ops r (b :: bs).
Proof.
  intros E D n. destruct n as [|n]; [reflexivity|]. cbn [ro_reads]. rewrite E. cbn [fst snd map app firstn].
  f_equal. rewrite (D n). rewrite !firstn_app, !map_length. f_equal.
  set (k := (n - List.length bs)%nat). assert (Hk : (k <= n)%nat) by (unfold k; lia). clearbody k. clear - Hk.
  revert n Hk. induction k as [|k IH]; intros n Hn; [reflexivity|].
  destruct n as [|n]; [lia|]. cbn [repeat firstn]. f_equal. exact (IH n ltac:(lia)).
Qed.

Lemma delivers_end {R} (ops : reader_ops R) r : ro_read ops r = (Ok empty_block, r) -> delivers ops r [].
Proof.
  intros E n. induction n as [|n IH]; [reflexivity|]. cbn [ro_reads map app repeat firstn] in *. rewrite E. cbn [fst snd].
  f_equal. exact IH.
Qed.

Section PyReader.
  Variables (a : ndarray) (numbers : list Z) (scan : Z * Z) (size total : Z).
  Hypothesis G : good_py a numbers size total.
  Let w := nd_cols a.
  Let h := nd_rows a.

  (** Image [i] of the array, row by row. *)
  Definition nd_frame (i : Z) : list Z := image (nd_data a) w h i.

  Definition py_block (lo hi : Z) : block :=
    mkBlock (mkHeader scan (w, h) (hi - lo) 3 0 0 0 (map (fun i => zat numbers (lo + i)) (zseq (hi - lo))) [])
      (Some (skipn (Z.to_nat (nd_off a + lo * (h * w))) (nd_buf a))).

  Lemma py_read_block c : 0 <= c < total ->
    ro_read py_ops (at_cur a numbers scan size total c) =
      (Ok (py_block c (Z.min (c + size) total)), at_cur a numbers scan size total (Z.min (c + size) total)).
  Proof.
    intros Hc. pose proof G as ((C1 & C2 & C3 & C4 & C5 & C6) & Ht & Hn & Hs & Hw). cbn [py_ops ro_read].
    unfold py_read, at_cur. cbn [py_total py_cur py_size py_set py_numbers py_scan].
    replace (total <=? c) with false by (symmetry; apply Z.leb_gt; lia).
    rewrite u32_id by (unfold is_u32; lia).
    replace (if total <? c + size then total else c + size)
      with (Z.min (c + size) total)
      by (destruct (Z.ltb_spec total (c + size)); lia).
    set (hi := Z.min (c + size) total). assert (Hhi : c < hi <= total) by lia.
    unfold py_image_numbers.
    rewrite numbers_ok by lia. cbn [bind app].
    replace (Z.of_nat (Z.to_nat (hi - c))) with (hi - c) by lia.
    f_equal. unfold py_block. f_equal. f_equal.
    - f_equal. rewrite Zlen_map, Zlen_zseq by lia. apply u32_id. unfold is_u32. lia.
    - f_equal. unfold nd_data, nd_slice. cbn [nd_buf nd_off]. rewrite C5. cbn [fst].
      replace (Z.min c (nd_count a)) with c by lia. reflexivity.
  Qed.

  Lemma frames_of_py lo hi : 0 <= lo <= hi ->
    frames_of (py_block lo hi) = map (fun i => (zat numbers i, ((w, h), nd_frame i))) (map (fun i => lo + i) (zseq (hi - lo))).
  Proof.
    intros Hlo. pose proof G as ((C1 & C2 & C3 & C4 & C5 & C6) & _). unfold frames_of, py_block. cbn [data hdr image_numbers frame_dims fst snd].
    rewrite Zlen_map, Zlen_zseq by lia. rewrite map_map. apply map_ext_in. intros i Hi. apply in_zseq in Hi.
    rewrite zat_map_zseq by lia. f_equal. f_equal. unfold nd_frame, image, nd_data. f_equal.
    rewrite !skipn_skipn. f_equal. assert (0 <= w) by exact C3. assert (0 <= h) by exact C2.
    rewrite <- !Z2Nat.inj_add by nia. f_equal. nia.
  Qed.

  (** The blocks of the array. *)
  Definition py_blocks : list block :=
    map (fun k => py_block (k * size) (Z.min ((k + 1) * size) total)) (zseq ((total + size - 1) / size)).

  Let n := (total + size - 1) / size.
  Lemma n_bounds : 0 <= n /\ (n - 1) * size < total <= n * size.
  Proof.
    pose proof G as (_ & Ht & _ & Hs & _). unfold n.
    pose proof (Z.div_mod (total + size - 1) size ltac:(lia)). pose proof (Z.mod_pos_bound (total + size - 1) size ltac:(lia)).
    split; [apply Z.div_pos; lia|]. nia.
  Qed.

  Lemma py_delivers (m : nat) : forall k, 0 <= k <= n -> n - k = Z.of_nat m ->
    delivers py_ops (at_cur a numbers scan size total (Z.min (k * size) total))
      (map (fun i => py_block ((k + i) * size) (Z.min ((k + i + 1) * size) total)) (zseq (n - k))).
  Proof.
    pose proof G as (_ & Ht & _ & Hs & _). pose proof n_bounds as [N0 N1].
    induction m as [|m IH]; intros k Hk Hm.
    - assert (k = n) by lia. subst k. rewrite Z.sub_diag. apply delivers_end. cbn [py_ops ro_read].
      rewrite read_end by lia. reflexivity.
    - assert (Hc : k * size < total) by nia. replace (Z.min (k * size) total) with (k * size) by lia.
      rewrite (zseq_split 1 (n - k)) by lia. change (zseq 1) with [0]. cbn [app map]. rewrite Z.add_0_r.
      eapply delivers_step.
      + rewrite py_read_block by nia. f_equal. f_equal. f_equal. lia.
      + specialize (IH (k + 1) ltac:(lia) ltac:(lia)). rewrite map_map.
        replace (Z.min (k * size + size) total) with (Z.min ((k + 1) * size) total) by lia.
        replace (n - k - 1) with (n - (k + 1)) by lia. eapply eq_rect; [exact IH|].
        apply map_ext. intros i. replace (k + 1 + i) with (k + (1 + i)) by lia. reflexivity.
  Qed.

  Lemma py_frames (m : nat) : (Z.of_nat m <= n) ->
    flat_map frames_of (map (fun k => py_block (k * size) (Z.min ((k + 1) * size) total)) (zseq (Z.of_nat m))) =
    map (fun i => (zat numbers i, ((w, h), nd_frame i))) (zseq (Z.min (Z.of_nat m * size) total)).
  Proof.
    pose proof G as (_ & Ht & _ & Hs & _). pose proof n_bounds as [N0 N1].
    induction m as [|m IH]; intros Hm.
    - replace (Z.min (Z.of_nat 0 * size) total) with 0 by lia. reflexivity.
    - rewrite (zseq_split (Z.of_nat m) (Z.of_nat (S m))) by lia. replace (Z.of_nat (S m) - Z.of_nat m) with 1 by lia.
      change (zseq 1) with [0]. cbn [map]. rewrite Z.add_0_r, map_app, flat_map_app, IH by lia.
      cbn [map flat_map]. rewrite app_nil_r. assert (Z.of_nat m * size < total) by nia.
      rewrite frames_of_py by nia. rewrite <- map_app. f_equal.
      replace (Z.min (Z.of_nat m * size) total) with (Z.of_nat m * size) by lia.
      replace (Z.of_nat (S m)) with (Z.of_nat m + 1) by lia.
      symmetry. apply zseq_split. nia.
  Qed.

  Lemma py_run cs : forall c, 0 <= c <= total -> exists c', 0 <= c' <= total /\
    run_calls py_ops cs (at_cur a numbers scan size total c) = at_cur a numbers scan size total c'.
  Proof.
    pose proof G as (_ & Ht & _ & Hs & _).
    induction cs as [|[|] cs IH]; intros c Hc; [exists c; auto| |]; cbn [run_calls].
    - destruct (Z.eq_dec c total) as [->|Ne].
      + cbn [py_ops ro_read]. rewrite read_end by lia. cbn [snd]. apply IH. lia.
      + rewrite py_read_block by lia. cbn [snd]. apply IH. lia.
    - change (ro_reset py_ops (at_cur a numbers scan size total c)) with (at_cur a numbers scan size total 0). apply IH. lia.
  Qed.

  (** A reader of an array is a reader of blocks that together hold its images. *)
  Lemma py_reader_of : reader_of py_ops (py_new a numbers scan size total) py_blocks /\
    flat_map frames_of py_blocks = map (fun i => (zat numbers i, ((w, h), nd_frame i))) (zseq total).
  Proof.
    pose proof G as (_ & Ht & _ & Hs & _). pose proof n_bounds as [N0 N1].
    assert (D : delivers py_ops (at_cur a numbers scan size total 0) py_blocks).
    { pose proof (py_delivers (Z.to_nat n) 0 ltac:(lia) ltac:(lia)) as D. cbn [Z.mul] in D. rewrite Z.min_l in D by lia.
      unfold py_blocks. fold n. rewrite Z.sub_0_r in D. exact D. }
    rewrite (py_new_eq a numbers scan size total G). split; [split; [exact D|]|].
    - intros cs. destruct (py_run cs 0) as (c' & _ & ->); [lia|]. exact D.
    - unfold py_blocks. fold n. pose proof (py_frames (Z.to_nat n) ltac:(lia)) as F.
      rewrite Z2Nat.id in F by lia. rewrite F. rewrite Z.min_r by lia. reflexivity.
  Qed.
End PyReader.
