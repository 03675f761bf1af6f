(** The float32 mean of a sparse array. *)
From Coq Require Import String ZArith List Bool Lia Reals Lra.
From Flocq Require Import Core.
From Flocq Require Import IEEE754.BinarySingleNaN IEEE754.Binary IEEE754.Bits.
From Verif Require Import Base BaseFacts Float32 SparseModel SparseMeanModel SparseSpec SparseProofs
  SparseSlice SparseReduce.
Import ListNotations.
Open Scope Z_scope.

Local Arguments Z.mul : simpl never.
Local Arguments Z.add : simpl never.
Local Arguments Z.pow : simpl never.

Lemma fval_add x y a b : fval x a -> fval y b -> (Rabs (a + b) <= bpow radix2 100)%R ->
  fval (f_add x y) (f_rnd (a + b)).
Proof.
  intros (Fx & <-) (Fy & <-) H. unfold f_add, b32_plus.
  pose proof (Bplus_correct 24 128 eq_refl eq_refl binop_nan_pl32 mode_NE x y Fx Fy) as C.
  change (round radix2 (SpecFloat.fexp 24 128) (round_mode mode_NE)) with f_rnd in C.
  rewrite f_no_overflow in C by auto. destruct C as (C1 & C2 & _). split; auto.
Qed.

Lemma int_small k : Z.abs k <= 2 ^ 26 -> (Rabs (IZR k) <= bpow radix2 100)%R.
Proof.
  intros H. rewrite <- abs_IZR. apply Rle_trans with (bpow radix2 26).
  - rewrite <- IZR_Zpower by lia. apply IZR_le. exact H.
  - apply bpow_le. lia.
Qed.

Lemma fval_add_int x y k m :
  fval x (IZR k) -> fval y (IZR m) -> Z.abs (k + m) <= 2 ^ 24 -> fval (f_add x y) (IZR (k + m)).
Proof.
  intros Hx Hy H. assert (E : (IZR k + IZR m)%R = IZR (k + m)) by (now rewrite plus_IZR).
  rewrite <- (f_rnd_int (k + m)) by exact H. rewrite <- E.
  apply fval_add; auto. rewrite E. apply int_small. lia.
Qed.

Lemma fval_int k : Z.abs k <= 2 ^ 24 -> fval (f_of_Z k) (IZR k).
Proof.
  intros H. rewrite <- (f_rnd_int k H) at 1. apply fval_of_Z, int_small. lia.
Qed.

(** 2^24 + 1 rounds (to even) back to 2^24: the accumulator is stuck. *)
Lemma f_rnd_stuck : f_rnd (IZR (2 ^ 24 + 1)) = IZR (2 ^ 24).
Proof.
  change (2 ^ 24 + 1) with 16777217. change (2 ^ 24) with 16777216.
  unfold f_rnd, round, scaled_mantissa, cexp.
  rewrite (mag_unique radix2 (IZR 16777217) 25).
  - unfold FLT_exp. change (Z.max (25 - 24) (-149)) with 1.
    assert (E : (IZR 16777217 * bpow radix2 (- (1)) = IZR 8388608 + / 2)%R) by (simpl; lra).
    rewrite E.
    assert (F : Zfloor (IZR 8388608 + / 2) = 8388608).
    { apply Zfloor_imp. change (8388608 + 1) with 8388609. lra. }
    unfold ZnearestE, Znearest. rewrite F.
    rewrite Rcompare_Eq by lra.
    change (negb (Z.even 8388608)) with false. cbv iota.
    unfold F2R. cbn [Fnum Fexp]. simpl. lra.
  - rewrite Rabs_pos_eq by lra. simpl. lra.
Qed.

Lemma fval_stuck x y : fval x (IZR (2 ^ 24)) -> fval y (IZR 1) -> fval (f_add x y) (IZR (2 ^ 24)).
Proof.
  intros Hx Hy. assert (E : (IZR (2 ^ 24) + IZR 1)%R = IZR (2 ^ 24 + 1)) by (now rewrite plus_IZR).
  rewrite <- f_rnd_stuck. rewrite <- E. apply fval_add; auto. rewrite E. apply int_small.
  change (Z.abs (2 ^ 24 + 1)) with 16777217. change (2 ^ 26) with 67108864. lia.
Qed.

(** One more event in a float accumulator that saturates at 2^24. *)
Lemma fval_inc x k : 0 <= k -> fval x (IZR (Z.min k (2 ^ 24))) ->
  fval (f_add x (f_of_Z 1)) (IZR (Z.min (k + 1) (2 ^ 24))).
Proof.
  intros Hk Hx. assert (H1 : fval (f_of_Z 1) (IZR 1)) by (apply fval_int; change (2 ^ 24) with 16777216; lia).
  destruct (Z_lt_le_dec k (2 ^ 24)) as [Hlt|Hge].
  - rewrite Z.min_l in * by lia. apply fval_add_int; auto. lia.
  - rewrite Z.min_r in * by lia. now apply fval_stuck.
Qed.

(** * Sum over the scan axes *)
Definition fat (a : list float32) (j : Z) : float32 := nth (Z.to_nat j) a (f_of_Z 0).

Lemma fput_map (g : Z -> float32) idx a :
  (forall i, In i idx -> 0 <= i < Zlen a) ->
  exists a', np_put a idx (map g idx) = Ok a' /\ Zlen a' = Zlen a /\
    forall j, 0 <= j < Zlen a -> fat a' j = if mem j idx then g j else fat a j.
Proof.
  revert a. induction idx as [|i t IH]; intros a H.
  - exists a. cbn. auto.
  - cbn [map np_put]. rewrite np_index_ok by (apply H; now left). cbn [bind].
    rewrite wr_ok by (apply H; now left). cbn [bind].
    destruct (IH (upd a (Z.to_nat i) (g i))) as [a' [E [L V]]].
    { intros k Hk. rewrite Zlen_upd. apply H. now right. }
    rewrite Zlen_upd in L, V. exists a'. repeat split; auto.
    intros j Hj. rewrite V by exact Hj. unfold mem. cbn [existsb]. fold (mem j t).
    destruct (mem j t) eqn:M; [now rewrite orb_true_r|]. rewrite orb_false_r.
    specialize (H i (or_introl eq_refl)). unfold fat.
    destruct (Z.eqb_spec j i) as [->|Hne].
    + apply nth_upd_eq. unfold Zlen in H. lia.
    + apply nth_upd_neq. lia.
Qed.

Lemma f_inc_ok a fr :
  (forall x, In x fr -> 0 <= x < Zlen a) ->
  exists a', f_inc a fr = Ok a' /\ Zlen a' = Zlen a /\
    forall j, 0 <= j < Zlen a -> fat a' j = if mem j fr then f_add (fat a j) (f_of_Z 1) else fat a j.
Proof.
  intros H. unfold f_inc. rewrite (np_take_ok a fr (f_of_Z 0) H). cbn [bind].
  rewrite map_map. apply (fput_map (fun i => f_add (fat a i) (f_of_Z 1)) fr a H).
Qed.

Lemma f_inc_all frames a (base : Z -> Z) :
  (forall fr, In fr frames -> frame_ok (Zlen a) fr) ->
  (forall j, 0 <= j < Zlen a -> 0 <= base j /\ fval (fat a j) (IZR (Z.min (base j) (2 ^ 24)))) ->
  exists a', for_each frames (fun fr ret => f_inc ret fr) a = Ok a' /\ Zlen a' = Zlen a /\
    forall j, 0 <= j < Zlen a -> fval (fat a' j) (IZR (Z.min (base j + events frames j) (2 ^ 24))).
Proof.
  revert a base. induction frames as [|f t IH]; intros a base H Hb.
  - exists a. split; [reflexivity|]. split; [reflexivity|]. intros j Hj. unfold events.
    cbn [map zsum]. rewrite Z.add_0_r. now apply Hb.
  - cbn [for_each]. destruct (f_inc_ok a f) as [a1 [E [L V]]]; [apply (H f); now left|].
    rewrite E. cbn [bind].
    destruct (IH a1 (fun j => base j + cnt f j)) as [a' [E' [L' V']]].
    { intros fr Hf. rewrite L. apply H. now right. }
    { intros j Hj. rewrite L in Hj. destruct (Hb j Hj) as [Hp Hv]. pose proof (cnt_nonneg f j).
      split; [lia|]. rewrite V by exact Hj. rewrite (cnt_nodup f) by (apply (H f); now left).
      destruct (mem j f); [now apply fval_inc|now rewrite Z.add_0_r]. }
    exists a'. rewrite L in L', V'. split; [exact E'|]. split; [exact L'|].
    intros j Hj. specialize (V' j Hj). unfold events in *. cbn [map zsum].
    now rewrite Z.add_assoc.
Qed.

Lemma f_inc_rows rows a (base : Z -> Z) :
  (forall row, In row rows -> forall fr, In fr row -> frame_ok (Zlen a) fr) ->
  (forall j, 0 <= j < Zlen a -> 0 <= base j /\ fval (fat a j) (IZR (Z.min (base j) (2 ^ 24)))) ->
  exists a', for_each rows (fun row ret => for_each row (fun fr ret => f_inc ret fr) ret) a = Ok a' /\
    Zlen a' = Zlen a /\
    forall j, 0 <= j < Zlen a ->
      fval (fat a' j) (IZR (Z.min (base j + zsum (map (fun row => events row j) rows)) (2 ^ 24))).
Proof.
  revert a base. induction rows as [|r t IH]; intros a base H Hb.
  - exists a. split; [reflexivity|]. split; [reflexivity|]. intros j Hj. cbn [map zsum].
    rewrite Z.add_0_r. now apply Hb.
  - cbn [for_each]. destruct (f_inc_all r a base) as [a1 [E [L V]]]; [apply H; now left|exact Hb|].
    rewrite E. cbn [bind].
    destruct (IH a1 (fun j => base j + events r j)) as [a' [E' [L' V']]].
    { intros row Hr. rewrite L. apply H. now right. }
    { intros j Hj. rewrite L in Hj. split; [|now apply V].
      pose proof (events_nonneg r j). pose proof (proj1 (Hb j Hj)). lia. }
    exists a'. rewrite L in L', V'. split; [exact E'|]. split; [exact L'|].
    intros j Hj. specialize (V' j Hj). cbn [map zsum]. now rewrite Z.add_assoc.
Qed.

Lemma fat_repeat n j : fat (repeat (f_of_Z 0) n) j = f_of_Z 0.
Proof.
  unfold fat. destruct (Nat.lt_ge_cases (Z.to_nat j) n).
  - apply (repeat_spec n). apply nth_In. now rewrite repeat_length.
  - apply nth_overflow. now rewrite repeat_length.
Qed.

Lemma fsum_scan_ok sa :
  wf sa ->
  exists s, fsum_scan sa = Ok s /\ Zlen s = frame_size sa /\
    forall j, 0 <= j < frame_size sa ->
      fval (fat s j) (IZR (Z.min (zsum (map (fun row => events row j) (sp_data sa))) (2 ^ 24))).
Proof.
  intros W. assert (HN := frame_size_nonneg sa W). unfold fsum_scan.
  assert (L0 : Zlen (repeat (f_of_Z 0) (Z.to_nat (frame_size sa))) = frame_size sa)
    by (rewrite Zlen_repeat; lia).
  destruct (f_inc_rows (sp_data sa) (repeat (f_of_Z 0) (Z.to_nat (frame_size sa))) (fun _ => 0))
    as [a [E [L V]]].
  { rewrite L0. now apply frames_ok_rows. }
  { intros j _. split; [lia|]. rewrite fat_repeat. apply fval_int. change (2 ^ 24) with 16777216. lia. }
  exists a. rewrite L0 in L, V. auto.
Qed.

Lemma mean_div x s P :
  0 <= s <= 2 ^ 24 -> 0 < P <= 2 ^ 24 -> fval x (IZR s) ->
  fval (f_div x (f_of_Z P)) (f_rnd (IZR s / IZR P)).
Proof.
  intros Hs HP Hx. assert (HPr : (1 <= IZR P)%R) by (apply IZR_le; lia).
  apply fval_div; [exact Hx|apply fval_int; lia|lra|].
  assert (0 <= IZR s)%R by (apply IZR_le; lia).
  assert (H0 : (0 <= IZR s / IZR P <= IZR s)%R).
  { split.
    - apply Rmult_le_pos; [assumption|]. left. apply Rinv_0_lt_compat. lra.
    - apply Rmult_le_reg_r with (IZR P); [lra|]. unfold Rdiv.
      rewrite Rmult_assoc, Rinv_l, Rmult_1_r by lra.
      rewrite <- (Rmult_1_r (IZR s)) at 1. apply Rmult_le_compat_l; lra. }
  rewrite Rabs_pos_eq by lra. apply Rle_trans with (IZR s); [lra|].
  pose proof (int_small s) as X. rewrite Rabs_pos_eq in X by assumption. apply X.
  change (2 ^ 26) with 67108864. change (2 ^ 24) with 16777216 in Hs. lia.
Qed.

Lemma fat_map f (a : list float32) j :
  0 <= j < Zlen a -> fat (map f a) j = f (fat a j).
Proof.
  intros H. unfold fat. rewrite (nth_indep _ (f_of_Z 0) (f (f_of_Z 0))).
  - apply map_nth.
  - rewrite map_length. unfold Zlen in H. lia.
Qed.

(** * Sum over the frame axes *)
Lemma enum_fill_gen {A B} (data : list A) (body : Z * A -> list B -> outcome (list B)) (g : A -> B) init :
  (forall row pre rest, In row data ->
     body (Zlen pre, row) (pre ++ init :: rest) = Ok (pre ++ g row :: rest)) ->
  for_each (enumerate data) body (repeat init (List.length data)) = Ok (map g data).
Proof.
  intros H. unfold enumerate, zseq, Zlen. rewrite Nat2Z.id.
  change (map g data) with ([] ++ map g data).
  change (repeat init (List.length data)) with ([] ++ repeat init (List.length data)).
  change (seq 0 (List.length data)) with (seq (List.length (@nil B)) (List.length data)).
  generalize (@nil B) as pre. induction data as [|row t IH]; intros pre.
  - cbn. reflexivity.
  - cbn [List.length seq map combine for_each repeat].
    change (Z.of_nat (List.length pre)) with (Zlen pre).
    rewrite H by now left. cbn [bind].
    specialize (IH (fun r p q Hr => H r p q (or_intror Hr)) (pre ++ [g row])).
    rewrite app_length in IH. cbn [List.length] in IH. rewrite Nat.add_1_r in IH.
    rewrite <- !app_assoc in IH. exact IH.
Qed.

Definition fsum_row (row : list (list Z)) : float32 :=
  fold_left (fun v fr => f_add v (f_of_Z (Zlen fr))) row (f_of_Z 0).

Lemma fsum_frame_ok sa : wf sa -> fsum_frame sa = Ok (map fsum_row (sp_data sa)).
Proof.
  intros W. unfold fsum_frame. rewrite data_length by exact W. apply enum_fill_gen.
  intros row pre rest _. unfold fsum_row. generalize (f_of_Z 0) as v.
  induction row as [|f t IH]; intros v; cbn [for_each fold_left]; [reflexivity|].
  rewrite rd_mid. cbn [bind]. rewrite wr_mid. cbn [bind]. apply IH.
Qed.

Lemma fsum_row_val row : total row <= 2 ^ 24 -> fval (fsum_row row) (IZR (total row)).
Proof.
  intros H. unfold fsum_row, total in *.
  assert (G : forall row v k, fval v (IZR k) -> 0 <= k -> k + zsum (map (@Zlen Z) row) <= 2 ^ 24 ->
     fval (fold_left (fun v fr => f_add v (f_of_Z (Zlen fr))) row v) (IZR (k + zsum (map (@Zlen Z) row)))).
  { clear. induction row as [|f t IH]; intros v k Hv Hk Hs; cbn [fold_left map zsum] in *.
    - now rewrite Z.add_0_r.
    - pose proof (Zlen_nonneg f).
      assert (0 <= zsum (map (@Zlen Z) t)).
      { apply zsum_nonneg. intros x Hx. apply in_map_iff in Hx as [l [<- _]]. apply Zlen_nonneg. }
      rewrite Z.add_assoc. apply IH; [|lia|lia].
      apply fval_add_int; [exact Hv| |lia]. apply fval_int. lia. }
  specialize (G row (f_of_Z 0) 0). rewrite Z.add_0_l in G. apply G; [|lia|exact H].
  apply fval_int. change (2 ^ 24) with 16777216. lia.
Qed.
