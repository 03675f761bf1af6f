(** Lemmas for [filter_bad_sectors] and [_safe_cast]. *)
From Coq Require Import String ZArith List Bool Lia Reals Lra Sorting.Permutation Sorting.Sorted.
From Flocq Require Import Core.
From Flocq Require Import IEEE754.BinarySingleNaN IEEE754.Binary IEEE754.Bits.
From Verif Require Import Base BaseFacts Double Float32 FloatConv SparseModel SparseMeanModel SparseMean SparseSlice
  HelperModel HelperSpec.
Import ListNotations.
Open Scope Z_scope.

Local Arguments Z.mul : simpl never.
Local Arguments Z.add : simpl never.
Local Arguments Z.pow : simpl never.

(** * Sorting *)

Definition f_order (x y : float32) : Prop := exists a b, fval x a /\ fval y b /\ (a <= b)%R.

Lemma fval_fun x a b : fval x a -> fval x b -> a = b.
Proof. intros (_ & <-) (_ & <-). reflexivity. Qed.

Lemma within_not_nan lo hi x : within lo hi x -> f_nan x = false.
Proof. intros (a & (F & _) & _). destruct x; try discriminate; reflexivity. Qed.

Lemma f_insert_perm x l : Permutation (f_insert x l) (x :: l).
Proof.
  induction l as [|y t IH]; [reflexivity|]. cbn [f_insert]. destruct (f_le x y); [reflexivity|].
  rewrite IH. apply perm_swap.
Qed.

Lemma f_sort_perm l : Permutation (f_sort l) l.
Proof.
  induction l as [|x t IH]; [reflexivity|]. cbn [f_sort fold_right]. fold (f_sort t).
  rewrite f_insert_perm. now constructor.
Qed.

Lemma f_insert_sorted lo hi x l :
  within lo hi x -> Forall (within lo hi) l -> StronglySorted f_order l -> StronglySorted f_order (f_insert x l).
Proof.
  intros (a & Fa & Ba) H S. induction S as [|y t S IH Hy]; cbn [f_insert].
  - constructor; constructor.
  - inversion H as [|? ? (b & Fb & Bb) Ht]; subst. rewrite (fval_le x y a b Fa Fb).
    destruct (Rle_bool_spec a b) as [L|L].
    + constructor; [constructor; assumption|]. constructor; [exists a, b; auto|].
      apply Forall_forall. intros z Hz. rewrite Forall_forall in Hy. destruct (Hy z Hz) as (b' & c & Fb' & Fc & Lc).
      exists a, c. rewrite (fval_fun y b' b Fb' Fb) in Lc. split; [exact Fa|]. split; [exact Fc|]. lra.
    + constructor; [now apply IH|]. apply Forall_forall. intros z Hz.
      apply (Permutation_in _ (f_insert_perm x t)) in Hz as [<-|Hz].
      * exists b, a. split; [exact Fb|]. split; [exact Fa|]. lra.
      * rewrite Forall_forall in Hy. now apply Hy.
Qed.

Lemma f_sort_sorted lo hi l : Forall (within lo hi) l -> StronglySorted f_order (f_sort l).
Proof.
  induction l as [|x t IH]; intros H; [constructor|]. inversion H; subst.
  cbn [f_sort fold_right]. fold (f_sort t). apply (f_insert_sorted lo hi); auto.
  apply Forall_forall. intros z Hz. apply (Permutation_in _ (f_sort_perm t)) in Hz.
  rewrite Forall_forall in *. auto.
Qed.

Lemma sorted_nth l i k x y :
  StronglySorted f_order l -> (i < k)%nat -> nth_error l i = Some x -> nth_error l k = Some y -> f_order x y.
Proof.
  intros S. revert i k. induction S as [|z t S IH H]; intros i k L Ei Ek.
  - destruct i; discriminate.
  - destruct k; [lia|]. cbn in Ek. destruct i as [|i]; cbn in Ei.
    + injection Ei as ->. rewrite Forall_forall in H. apply H. eapply nth_error_In, Ek.
    + apply (IH i k); auto. lia.
Qed.

(** * The median *)
Lemma f_rnd_between lo hi a :
  generic_format radix2 f_exp lo -> generic_format radix2 f_exp hi -> (lo <= a <= hi)%R -> (lo <= f_rnd a <= hi)%R.
Proof.
  intros Fl Fh [L H]. split.
  - rewrite <- (f_rnd_id lo Fl). now apply f_rnd_le.
  - rewrite <- (f_rnd_id hi Fh). now apply f_rnd_le.
Qed.

Lemma format_double r : generic_format radix2 f_exp r -> generic_format radix2 f_exp (2 * r).
Proof.
  intros H. replace (2 * r)%R with (r * bpow radix2 1)%R by (change (bpow radix2 1) with 2%R; lra).
  apply generic_format_FLT. apply FLT_format_generic in H; [|reflexivity].
  destruct H as [[m e] -> Hm He]. exists (Float radix2 m (e + 1)).
  - unfold F2R. cbn [Fnum Fexp]. rewrite bpow_plus. lra.
  - exact Hm.
  - cbn [Fexp] in *. lia.
Qed.

Lemma mean_between lo hi x y a b :
  generic_format radix2 f_exp lo -> generic_format radix2 f_exp hi ->
  (- bpow radix2 90 <= lo)%R -> (hi <= bpow radix2 90)%R ->
  fval x a -> fval y b -> (lo <= a <= hi)%R -> (lo <= b <= hi)%R ->
  fval (f_div (f_add x y) (f_of_Z 2)) (f_rnd (f_rnd (a + b) / 2)) /\
  (lo <= f_rnd (f_rnd (a + b) / 2) <= hi)%R.
Proof.
  intros Fl Fh Bl Bh Fx Fy Ha Hb.
  assert (P : (bpow radix2 90 + bpow radix2 90 <= bpow radix2 100)%R).
  { change 100 with (9 + 91). replace (bpow radix2 (9 + 91)) with (bpow radix2 9 * bpow radix2 91)%R by (now rewrite bpow_plus).
    change 91 with (1 + 90). rewrite bpow_plus. pose proof (bpow_gt_0 radix2 90). cbn -[bpow] in *.
    change (bpow radix2 9) with 512%R. change (bpow radix2 1) with 2%R. lra. }
  assert (S : fval (f_add x y) (f_rnd (a + b))).
  { apply fval_add; auto. apply Rabs_le. lra. }
  pose proof (f_rnd_between (2 * lo) (2 * hi) (a + b) (format_double _ Fl) (format_double _ Fh) ltac:(lra)) as B.
  split.
  - apply fval_div; [exact S|apply fval_exact; lia|lra|]. apply Rabs_le. lra.
  - apply f_rnd_between; auto. lra.
Qed.

Lemma nanmedian_ok lo hi l :
  generic_format radix2 f_exp lo -> generic_format radix2 f_exp hi ->
  (- bpow radix2 90 <= lo)%R -> (hi <= bpow radix2 90)%R ->
  (forall x, In x l -> f_nan x = true \/ within lo hi x) ->
  is_nanmedian l (np_nanmedian l) /\
  (f_nan (np_nanmedian l) = true \/ within lo hi (np_nanmedian l)) /\
  (f_nan (np_nanmedian l) = true -> forall x, In x l -> f_nan x = true).
Proof.
  intros Fl Fh Bl Bh H. set (k := filter (fun x => negb (f_nan x)) l).
  assert (K : Forall (within lo hi) k).
  { apply Forall_forall. intros x Hx. apply filter_In in Hx as [Hx Hn]. destruct (H x Hx) as [E|E]; [|exact E].
    rewrite E in Hn. discriminate. }
  unfold np_nanmedian, is_nanmedian. fold k. set (s := f_sort k). cbv zeta.
  assert (Ps : Permutation s k) by apply f_sort_perm.
  assert (Ss : StronglySorted f_order s) by (apply (f_sort_sorted lo hi); exact K).
  assert (W : forall i, (i < List.length s)%nat -> exists x, nth_error s i = Some x /\ nth i s f_NaN = x /\ within lo hi x).
  { intros i Hi. destruct (nth_error s i) as [x|] eqn:E; [|apply nth_error_None in E; lia].
    exists x. split; [reflexivity|]. split; [now apply nth_error_nth|].
    rewrite Forall_forall in K. apply K. apply (Permutation_in _ Ps). eapply nth_error_In, E. }
  assert (O : forall i k x y, (i < k)%nat -> nth_error s i = Some x -> nth_error s k = Some y ->
       exists a b, fval x a /\ fval y b /\ (a <= b)%R).
  { intros i j x y L Ei Ej. exact (sorted_nth s i j x y Ss L Ei Ej). }
  assert (Ln := Zlen_nonneg s).
  destruct (Z.eqb_spec (Zlen s) 0) as [E|E].
  - assert (s = []) as Es by (destruct s; [reflexivity|unfold Zlen in E; cbn in E; lia]).
    split; [|split; [now left|]].
    + exists s. split; [exact Ps|]. split; [exact O|]. rewrite E. reflexivity.
    + intros _ x Hx. destruct (f_nan x) eqn:Ex; [reflexivity|].
      assert (In x k) as Hk by (apply filter_In; split; [exact Hx|now rewrite Ex]).
      apply (Permutation_in _ (Permutation_sym Ps)) in Hk. rewrite Es in Hk. inversion Hk.
  - pose proof (Z.div_mod (Zlen s) 2 ltac:(lia)) as DM. pose proof (Z.mod_pos_bound (Zlen s) 2 ltac:(lia)) as MB.
    destruct (Z.eqb_spec (Zlen s mod 2) 1) as [M|M].
    + destruct (W (Z.to_nat (Zlen s / 2))) as (x & Ex & -> & Wx); [unfold Zlen in *; lia|].
      assert (Nx := within_not_nan _ _ _ Wx).
      split; [|split; [now right|congruence]].
      exists s. split; [exact Ps|]. split; [exact O|].
      destruct (Zlen s) as [|q|q]; [lia| |lia]. split; [intros _; exact Ex|lia].
    + destruct (W (Z.to_nat (Zlen s / 2 - 1))) as (x & Ex & -> & (a & Fa & Ba)); [unfold Zlen in *; lia|].
      destruct (W (Z.to_nat (Zlen s / 2))) as (y & Ey & -> & (b & Fb & Bb)); [unfold Zlen in *; lia|].
      destruct (mean_between lo hi x y a b Fl Fh Bl Bh Fa Fb Ba Bb) as [V B].
      assert (Wv : within lo hi (f_div (f_add x y) (f_of_Z 2))) by (eexists; eauto).
      assert (Nv := within_not_nan _ _ _ Wv).
      split; [|split; [now right|congruence]].
      exists s. split; [exact Ps|]. split; [exact O|].
      destruct (Zlen s) as [|q|q]; [lia| |lia]. split; [lia|]. intros _. exists x, y, a, b. auto.
Qed.

(** * Windows *)
Lemma filter_range lo hi m : 0 <= lo -> 0 <= m ->
  filter (fun a => (lo <=? a) && (a <? hi)) (zseq m) = map (fun k => lo + k) (zseq (Z.min m hi - lo)).
Proof.
  intros Hlo Hm. revert m Hm. apply (natlike_ind (fun m =>
    filter (fun a => (lo <=? a) && (a <? hi)) (zseq m) = map (fun k => lo + k) (zseq (Z.min m hi - lo)))).
  - cbn [zseq Z.to_nat seq map filter]. unfold zseq at 1. cbn.
    replace (Z.to_nat (Z.min 0 hi - lo)) with 0%nat by lia. unfold zseq.
    replace (Z.to_nat (Z.min 0 hi - lo)) with 0%nat by lia. reflexivity.
  - intros m Hm IH. change (Z.succ m) with (m + 1). rewrite zseq_succ, filter_app, IH by exact Hm.
    cbn [filter]. destruct (Z.leb_spec lo m) as [L|L], (Z.ltb_spec m hi) as [U|U]; cbn [andb].
    + replace (Z.min (m + 1) hi - lo) with ((m - lo) + 1) by lia. rewrite zseq_succ, map_app by lia.
      replace (Z.min m hi - lo) with (m - lo) by lia. cbn [map]. do 2 f_equal. lia.
    + rewrite app_nil_r. do 2 f_equal. lia.
    + rewrite app_nil_r. unfold zseq. replace (Z.to_nat (Z.min (m + 1) hi - lo)) with 0%nat by lia.
      replace (Z.to_nat (Z.min m hi - lo)) with 0%nat by lia. reflexivity.
    + rewrite app_nil_r. unfold zseq. replace (Z.to_nat (Z.min (m + 1) hi - lo)) with 0%nat by lia.
      replace (Z.to_nat (Z.min m hi - lo)) with 0%nat by lia. reflexivity.
Qed.

Lemma slice_interior m i : 0 < i < m ->
  py_slice m (i - 1) (i + 2) = filter (fun a => Z.abs (a - i) <=? 1) (zseq m).
Proof.
  intros H. rewrite (filter_ext _ (fun a => (i - 1 <=? a) && (a <? i + 2))).
  - rewrite filter_range by lia. unfold py_slice.
    destruct (Z.ltb_spec (i - 1) 0); [lia|]. destruct (Z.ltb_spec (i + 2) 0); [lia|].
    cbv zeta. rewrite (Z.min_comm m (i - 1)), (Z.min_l (i - 1) m) by lia. reflexivity.
  - intros a. destruct (Z.leb_spec (Z.abs (a - i)) 1), (Z.leb_spec (i - 1) a), (Z.ltb_spec a (i + 2)); cbn [andb]; lia || reflexivity.
Qed.

Lemma flat_map_filter {A B} (f : A -> list B) g l :
  flat_map f (filter g l) = flat_map (fun x => if g x then f x else []) l.
Proof.
  induction l as [|x t IH]; [reflexivity|]. cbn [filter flat_map]. destruct (g x); cbn [flat_map]; now rewrite IH.
Qed.

Lemma map_flat {A B} (f : A -> B) l : map f l = flat_map (fun x => [f x]) l.
Proof. induction l as [|x t IH]; [reflexivity|]. cbn. now rewrite IH. Qed.

Lemma flat_map_ext_in {A B} (f g : A -> list B) l :
  (forall x, In x l -> f x = g x) -> flat_map f l = flat_map g l.
Proof.
  induction l as [|x t IH]; intros H; [reflexivity|]. cbn [flat_map]. rewrite (H x), IH; auto with datatypes.
Qed.

Lemma window_interior m n c i j :
  Zlen c = m * n -> 0 < i < m -> 0 < j < n -> window m n c i j = neighbours m n c i j.
Proof.
  intros L Hi Hj. unfold window, neighbours. rewrite !slice_interior by assumption. rewrite flat_map_filter.
  apply flat_map_ext_in. intros a Ha. apply in_zseq in Ha. destruct (Z.abs (a - i) <=? 1); cbn [andb].
  - rewrite map_flat, flat_map_filter. apply flat_map_ext_in. intros b Hb. apply in_zseq in Hb.
    destruct (Z.abs (b - j) <=? 1); [|reflexivity].
    assert (Hx : 0 <= a * n + b < m * n) by (apply flat_range; assumption).
    destruct (nth_error c (Z.to_nat (a * n + b))) as [v|] eqn:E.
    + now rewrite (nth_error_nth _ _ f_NaN E).
    + apply nth_error_None in E. unfold Zlen in L. lia.
  - induction (zseq n) as [|b t IH]; [reflexivity|]. cbn [flat_map app]. exact IH.
Qed.

Lemma slice_first m : 3 <= m -> py_slice m (0 - 1) (0 + 2) = [].
Proof.
  intros H. unfold py_slice. cbn [Z.ltb Z.compare]. cbv zeta.
  change (0 - 1 <? 0) with true. change (0 + 2 <? 0) with false. cbv iota.
  unfold zseq. replace (Z.to_nat _) with 0%nat by lia. reflexivity.
Qed.

Lemma window_first m n c i j : (i = 0 /\ 3 <= m) \/ (j = 0 /\ 3 <= n) -> window m n c i j = [].
Proof.
  unfold window. intros [[-> H]|[-> H]]; rewrite slice_first by exact H; [reflexivity|].
  induction (py_slice m (i - 1) (i + 2)) as [|a t IH]; [reflexivity|exact IH].
Qed.

(** * The loop *)
Lemma list_as_getf l : l = map (getf l) (zseq (Zlen l)).
Proof.
  unfold zseq, Zlen. rewrite Nat2Z.id, map_map. apply nth_ext with (d := f_NaN) (d' := f_NaN).
  - now rewrite map_length, seq_length.
  - intros k Hk. rewrite (nth_indep (map _ _) _ (getf l (Z.of_nat 0))) by (now rewrite map_length, seq_length).
    rewrite (map_nth (fun x => getf l (Z.of_nat x))). unfold getf.
    now rewrite seq_nth, Nat2Z.id by exact Hk.
Qed.

Lemma getf_upd l p q v : 0 <= p < Zlen l -> 0 <= q ->
  getf (upd l (Z.to_nat p) v) q = if q =? p then v else getf l q.
Proof.
  intros Hp Hq. unfold getf. destruct (Z.eqb_spec q p) as [->|E].
  - apply nth_upd_eq. unfold Zlen in Hp. lia.
  - apply nth_upd_neq. lia.
Qed.

Section loop.
  Variables (m n : Z) (com0 com1 : list float32) (cut0 cut1 : float32).
  Hypothesis L0 : Zlen com0 = m * n.
  Hypothesis L1 : Zlen com1 = m * n.

  Definition is_bad (q : Z) : bool := f_lt cut1 (getf com1 q) || f_lt (getf com1 q) cut0.

  Let body := (fun p '(c0, c1) =>
       let ii := p / n in
       let jj := p mod n in
       let* c0 := wr c0 p (np_nanmedian (window m n c0 ii jj)) in
       let* c1 := wr c1 p (np_nanmedian (window m n c1 ii jj)) in
       Ok (c0, c1)).

  Definition blanked (com : list float32) : list float32 :=
    map (fun q => if is_bad q then f_NaN else getf com q) (zseq (Zlen com)).

  Definition settled (com c : list float32) (k : Z) : Prop :=
    Zlen c = m * n /\
    (forall q, 0 <= q < m * n -> (k <= q \/ is_bad q = false) -> getf c q = getf (blanked com) q) /\
    (forall q, 0 <= q < k -> is_bad q = true ->
       getf c q = np_nanmedian (window m n (as_seen is_bad com c q) (q / n) (q mod n))).

  Lemma getf_map g N q : 0 <= q < N -> getf (map g (zseq N)) q = g q.
  Proof.
    intros H. unfold getf. rewrite (nth_indep _ _ (g 0)).
    - rewrite (map_nth g). f_equal. unfold zseq. change 0 with (Z.of_nat 0) at 1. rewrite (map_nth Z.of_nat), seq_nth by lia. lia.
    - rewrite map_length. unfold zseq. rewrite map_length, seq_length. lia.
  Qed.

  Lemma settled_list com c k : Zlen com = m * n -> 0 <= k <= m * n -> settled com c k -> as_seen is_bad com c k = c.
  Proof.
    intros L Hk (Lc & A & _). rewrite (list_as_getf c) at 2. unfold as_seen. rewrite L, Lc. apply map_ext_in.
    intros q Hq. apply in_zseq in Hq. destruct (Z.ltb_spec q k); [reflexivity|].
    rewrite A by (auto; lia). unfold blanked. rewrite L, getf_map by lia. reflexivity.
  Qed.

  Lemma as_seen_ext com c c' q : Zlen com = m * n -> (forall r, 0 <= r < q -> getf c r = getf c' r) ->
    as_seen is_bad com c q = as_seen is_bad com c' q.
  Proof.
    intros L H. unfold as_seen. apply map_ext_in. intros r Hr. apply in_zseq in Hr.
    destruct (Z.ltb_spec r q); [apply H; lia|reflexivity].
  Qed.

  Lemma settled_step com c k :
    Zlen com = m * n -> 0 <= k < m * n -> settled com c k -> is_bad k = true ->
    exists c', wr c k (np_nanmedian (window m n c (k / n) (k mod n))) = Ok c' /\ settled com c' (k + 1).
  Proof.
    intros L Hk S B. pose proof S as (Lc & A & F). rewrite wr_ok by lia. eexists. split; [reflexivity|].
    set (v := np_nanmedian _). set (c' := upd c (Z.to_nat k) v).
    assert (G : forall q, 0 <= q -> getf c' q = if q =? k then v else getf c q).
    { intros q Hq. unfold c'. apply getf_upd; lia. }
    assert (X : forall q, 0 <= q <= k -> as_seen is_bad com c' q = as_seen is_bad com c q).
    { intros q Hq. apply as_seen_ext; [exact L|]. intros r Hr. rewrite G by lia.
      destruct (Z.eqb_spec r k); [lia|reflexivity]. }
    split; [unfold c'; rewrite Zlen_upd; exact Lc|]. split.
    - intros q Hq Hc. rewrite G by lia. destruct (Z.eqb_spec q k) as [->|E].
      + destruct Hc; [lia|congruence].
      + apply A; [exact Hq|]. destruct Hc; [left; lia|now right].
    - intros q Hq Bq. rewrite G by lia. destruct (Z.eqb_spec q k) as [->|E].
      + rewrite X by lia. rewrite settled_list; auto; lia.
      + rewrite X by lia. apply F; [lia|exact Bq].
  Qed.

  Lemma settled_skip com c k : settled com c k -> is_bad k = false -> settled com c (k + 1).
  Proof.
    intros (Lc & A & F) B. split; [exact Lc|]. split.
    - intros q Hq Hc. apply A; [exact Hq|]. destruct Hc; [left; lia|now right].
    - intros q Hq Bq. apply F; [|exact Bq]. destruct (Z.eq_dec q k) as [->|]; [congruence|lia].
  Qed.

  Lemma loop_ok k : 0 <= k <= m * n ->
    exists c0 c1, for_each (filter is_bad (zseq k)) body (blanked com0, blanked com1) = Ok (c0, c1) /\
      settled com0 c0 k /\ settled com1 c1 k.
  Proof.
    intros Hk. assert (Hk0 : 0 <= k) by lia. revert k Hk0 Hk. apply (natlike_ind (fun k => 0 <= k <= m * n ->
      exists c0 c1, for_each (filter is_bad (zseq k)) body (blanked com0, blanked com1) = Ok (c0, c1) /\
        settled com0 c0 k /\ settled com1 c1 k)).
    - intros H. exists (blanked com0), (blanked com1). split; [reflexivity|].
      assert (Z0 : forall com, Zlen com = m * n -> settled com (blanked com) 0).
      { intros com L. split; [unfold blanked; rewrite Zlen_map, Zlen_zseq by apply Zlen_nonneg; exact L|].
        split; [reflexivity|lia]. }
      split; apply Z0; assumption.
    - intros k Hk0 IH Hk. change (Z.succ k) with (k + 1) in *. destruct IH as (c0 & c1 & E & S0 & S1); [lia|].
      rewrite zseq_succ, filter_app, for_each_app, E by exact Hk0. cbn [bind filter].
      destruct (is_bad k) eqn:B.
      + cbn [for_each]. unfold body at 1. cbv zeta.
        destruct (settled_step com0 c0 k L0 ltac:(lia) S0 B) as (d0 & E0 & T0).
        destruct (settled_step com1 c1 k L1 ltac:(lia) S1 B) as (d1 & E1 & T1).
        rewrite E0. cbn [bind]. rewrite E1. cbn [bind]. exists d0, d1. auto.
      + cbn [for_each]. exists c0, c1. split; [reflexivity|]. split; now apply settled_skip.
  Qed.

  Lemma filter_ok : 0 <= m * n ->
    exists c0 c1, filter_bad_sectors m n com0 com1 cut0 cut1 = Ok (c0, c1) /\
      settled com0 c0 (m * n) /\ settled com1 c1 (m * n).
  Proof.
    intros Hmn. destruct (loop_ok (m * n)) as (c0 & c1 & E & S); [lia|]. exists c0, c1. split; [|exact S].
    unfold filter_bad_sectors. set (bad := map _ com1).
    assert (Eb : bad = map is_bad (zseq (m * n))).
    { unfold bad. rewrite (list_as_getf com1) at 1. rewrite map_map, L1. reflexivity. }
    assert (Et : true_positions bad = filter is_bad (zseq (m * n))).
    { unfold true_positions. rewrite Eb, Zlen_map, Zlen_zseq by exact Hmn. apply filter_ext_in.
      intros q Hq. apply in_zseq in Hq. rewrite (nth_indep _ _ (is_bad 0)).
      - rewrite (map_nth is_bad). f_equal. unfold zseq. change 0 with (Z.of_nat 0) at 1.
        rewrite (map_nth Z.of_nat), seq_nth by lia. lia.
      - rewrite map_length. unfold zseq. rewrite map_length, seq_length. lia. }
    assert (Ec : forall com, Zlen com = m * n ->
      map (fun p => if fst p : bool then f_NaN else snd p) (combine bad com) = blanked com).
    { intros com L. unfold blanked. rewrite Eb, (list_as_getf com) at 1. rewrite L.
      rewrite SparseReduce.combine_map, map_map. reflexivity. }
    cbv zeta. rewrite Et, (Ec com0 L0), (Ec com1 L1). exact E.
  Qed.
End loop.

(** * Casting *)
Lemma format_f_d r : generic_format radix2 f_exp r -> generic_format radix2 d_exp r.
Proof.
  intros H. apply FLT_format_generic in H; [|reflexivity]. destruct H as [f -> Hm He].
  apply generic_format_FLT. exists f; [reflexivity| |lia].
  apply Z.lt_trans with (1 := Hm). reflexivity.
Qed.

Lemma dval_of_f x a : fval x a -> (Rabs a <= bpow radix2 100)%R -> dval (d_of_f x) a.
Proof.
  intros (Fx & Ex) H.
  assert (G : generic_format radix2 f_exp a) by (rewrite <- Ex; apply (generic_format_B2R 24 128)).
  destruct x as [s|s|s p e|s m e Hm]; cbn in Fx; try discriminate.
  - cbn [d_of_f]. split; [reflexivity|exact Ex].
  - cbn [d_of_f]. cbn [B2R] in Ex.
    pose proof (binary_normalize_correct 53 1024 eq_refl eq_refl mode_NE (cond_Zopp s (Zpos m)) e s) as C.
    rewrite Ex in C.
    change (round radix2 (SpecFloat.fexp 53 1024) (round_mode mode_NE) a) with (d_rnd a) in C.
    rewrite no_overflow in C by (apply Rle_trans with (1 := H); apply bpow_le; lia).
    rewrite d_rnd_id in C by (now apply format_f_d). destruct C as (C1 & C2 & _). split; assumption.
Qed.

Lemma fval_format x a : fval x a -> generic_format radix2 f_exp a.
Proof. intros (_ & <-). apply (generic_format_B2R 24 128). Qed.

Lemma cast_one x a : dval x a -> (Rabs a <= bpow radix2 90)%R ->
  d_eq (d_of_f (f_of_d x)) x = Req_bool (f_rnd a) a.
Proof.
  intros Hx H.
  assert (P : (bpow radix2 90 <= bpow radix2 100)%R) by (apply bpow_le; lia).
  assert (Fx := fval_of_d x a Hx (Rle_trans _ _ _ H P)).
  assert (B : (- bpow radix2 90 <= f_rnd a <= bpow radix2 90)%R).
  { apply Rabs_le_inv in H. apply f_rnd_between; [apply generic_format_opp| |exact H];
      (apply generic_format_FLT_bpow; [reflexivity|lia]). }
  assert (Dx := dval_of_f _ _ Fx ltac:(apply Rabs_le; lra)).
  destruct Dx as (F1 & E1), Hx as (F2 & E2). unfold d_eq, b64_compare.
  rewrite Bcompare_correct by assumption. rewrite E1, E2. unfold Req_bool.
  destruct (Rcompare (f_rnd a) a); reflexivity.
Qed.

Lemma safe_cast_ok (a : list double) (v : Z -> R) :
  (forall i x, 0 <= i -> nth_error a (Z.to_nat i) = Some x -> dval x (v i) /\ (Rabs (v i) <= bpow radix2 90)%R) ->
  (forall i, 0 <= i < Zlen a -> f_rnd (v i) = v i) ->
  exists r, safe_cast a = Ok r /\ Zlen r = Zlen a /\
    (forall i x, 0 <= i -> nth_error r (Z.to_nat i) = Some x -> fval x (v i)).
Proof.
  intros H E. exists (map f_of_d a). unfold safe_cast.
  destruct (existsb _ _) eqn:X.
  - exfalso. apply existsb_exists in X as ([y x] & Hin & Hd). cbn [fst snd] in Hd.
    apply In_nth_error in Hin as (k & Hk).
    assert (nth_error a k = Some x /\ y = f_of_d x) as [Ha ->].
    { clear - Hk. revert k Hk. induction a as [|z t IH]; intros [|k] Hk; cbn in *; try discriminate; auto.
      injection Hk as <- <-. auto. }
    destruct (H (Z.of_nat k) x) as [D B]; [lia|now rewrite Nat2Z.id|].
    rewrite (cast_one x _ D B), E in Hd.
    + rewrite Req_bool_true in Hd by reflexivity. discriminate.
    + assert (k < List.length a)%nat by (apply nth_error_Some; congruence). unfold Zlen. lia.
  - split; [reflexivity|]. split; [apply Zlen_map|]. intros i x Hi Hx. rewrite nth_error_map in Hx.
    destruct (nth_error a (Z.to_nat i)) as [y|] eqn:Ey; [|discriminate]. injection Hx as <-.
    destruct (H i y Hi Ey) as [D B].
    assert (P : (bpow radix2 90 <= bpow radix2 100)%R) by (apply bpow_le; lia).
    rewrite <- (E i); [apply fval_of_d; auto; now apply Rle_trans with (2 := P)|].
    assert (Z.to_nat i < List.length a)%nat by (apply nth_error_Some; congruence). unfold Zlen. lia.
Qed.

Lemma safe_cast_raise (a : list double) x :
  In x a -> (f_nan (f_of_d x) = true \/ exists r, dval x r /\ (Rabs r <= bpow radix2 90)%R /\ f_rnd r <> r) ->
  safe_cast a = value_error.
Proof.
  intros Hx C. unfold safe_cast.
  assert (existsb (fun p => negb (d_eq (d_of_f (fst p)) (snd p))) (combine (map f_of_d a) a) = true) as ->; [|reflexivity].
  apply existsb_exists. exists (f_of_d x, x). split.
  - induction a as [|z t IH]; [inversion Hx|]. destruct Hx as [->|Hx]; [now left|right; auto].
  - cbn [fst snd]. destruct C as [N|(r & D & B & E)].
    + destruct (f_of_d x); try discriminate. reflexivity.
    + rewrite (cast_one x r D B). rewrite Req_bool_false by exact E. reflexivity.
Qed.
