(** C78: reductions of a sparse array over any axes are those of the dense array. *)
From Coq Require Import String ZArith List Bool Lia Permutation Sorted.
From Verif Require Import Base BaseFacts SparseModel SparseSpec SparseProofs SparseSlice SparseReduce
  SparseProps AxisModel AxisSpec.
Import ListNotations.
Open Scope Z_scope.

(** ** Sorting *)

Lemma ins_comm a b l : ins a (ins b l) = ins b (ins a l).
Proof.
  induction l as [|y t IH]; cbn [ins].
  - destruct (Z.leb_spec a b), (Z.leb_spec b a); try reflexivity; try (exfalso; lia).
    assert (a = b) by lia. now subst.
  - destruct (Z.leb_spec b y), (Z.leb_spec a y); cbn [ins];
      repeat match goal with |- context [?x <=? ?z] => destruct (Z.leb_spec x z) end; try lia;
      try reflexivity; try (assert (a = b) by lia; now subst). now rewrite IH.
Qed.

Lemma isort_perm_eq l l' : Permutation l l' -> isort l = isort l'.
Proof.
  induction 1; cbn [isort fold_right]; [reflexivity| | |congruence].
  - unfold isort in *. now rewrite IHPermutation.
  - apply ins_comm.
Qed.

Lemma ins_perm x l : Permutation (x :: l) (ins x l).
Proof.
  induction l as [|y t IH]; cbn [ins]; [reflexivity|]. destruct (x <=? y); [reflexivity|].
  rewrite perm_swap. now constructor.
Qed.

Lemma isort_perm l : Permutation l (isort l).
Proof.
  induction l as [|x t IH]; cbn; [reflexivity|]. rewrite <- ins_perm. now constructor.
Qed.

Lemma isort_sorted l : StronglySorted Z.le l -> isort l = l.
Proof.
  induction 1 as [|x t S IH F]; [reflexivity|]. cbn [isort fold_right]. unfold isort in IH. rewrite IH.
  destruct t as [|y t]; [reflexivity|]. cbn [ins]. inversion F; subst.
  destruct (Z.leb_spec x y); [reflexivity|lia].
Qed.

Lemma sorted_map_seq (f : nat -> Z) k n : (forall i j, (i <= j)%nat -> f i <= f j) ->
  StronglySorted Z.le (map f (seq k n)).
Proof.
  intros M. revert k. induction n as [|n IH]; intros k; cbn [seq map]; constructor; [apply IH|].
  apply Forall_forall. intros x Hx. apply in_map_iff in Hx as (i & <- & Hi). apply in_seq in Hi. apply M. lia.
Qed.

Lemma tuple_eqb_eq a b : tuple_eqb a b = true <-> a = b.
Proof. unfold tuple_eqb. destruct (list_eq_dec _ a b); split; congruence. Qed.

Lemma scan_axes_sorted sa : isort (scan_axes sa) = scan_axes sa.
Proof. apply isort_sorted. unfold scan_axes, zseq. apply sorted_map_seq. intros; lia. Qed.

Lemma frame_axes_sorted sa : isort (frame_axes sa) = frame_axes sa.
Proof.
  apply isort_sorted. unfold frame_axes, zseq. rewrite map_map. apply sorted_map_seq. intros; lia.
Qed.

Lemma frame_axes_meant sa : frame_axes sa = axes_meant sa AxFrame.
Proof. unfold frame_axes, sp_shape. cbn [axes_meant]. rewrite Zlen_app. do 2 f_equal. lia. Qed.

Lemma format_meant sa a : format_axis sa a = isort (axes_meant sa a).
Proof.
  unfold format_axis. destruct a; cbn [axes_meant]; try reflexivity.
  - unfold default_axis, sp_shape. now rewrite Zlen_app.
  - now rewrite frame_axes_meant.
Qed.

Lemma is_scan_axes_spec sa a : is_scan_axes sa (format_axis sa a) = true <-> whole_scan sa a.
Proof.
  unfold is_scan_axes, whole_scan. rewrite tuple_eqb_eq, format_meant. cbn [axes_meant].
  fold (scan_axes sa). split.
  - intros E. rewrite (isort_perm (axes_meant sa a)), (isort_perm (isort _)), E. reflexivity.
  - intros H. rewrite (isort_perm_eq _ _ (Permutation_sym (isort_perm (axes_meant sa a)))).
    rewrite (isort_perm_eq _ _ H). apply scan_axes_sorted.
Qed.

Lemma is_frame_axes_spec sa a : is_frame_axes sa (format_axis sa a) = true <-> whole_frame sa a.
Proof.
  unfold is_frame_axes, whole_frame. rewrite tuple_eqb_eq, format_meant, <- frame_axes_meant. split.
  - intros E. rewrite (isort_perm (axes_meant sa a)), (isort_perm (isort _)), E. reflexivity.
  - intros H. rewrite (isort_perm_eq _ _ (Permutation_sym (isort_perm (axes_meant sa a)))).
    rewrite (isort_perm_eq _ _ H). apply frame_axes_sorted.
Qed.

(** ** NumPy's reductions do not depend on the order of the axes *)

Lemma existsb_perm (f : Z -> bool) l l' : Permutation l l' -> existsb f l = existsb f l'.
Proof.
  induction 1; cbn [existsb]; [reflexivity|congruence| |congruence].
  now rewrite !orb_assoc, (orb_comm (f y)).
Qed.

Lemma forallb_perm (f : Z -> bool) l l' : Permutation l l' -> forallb f l = forallb f l'.
Proof.
  induction 1; cbn [forallb]; [reflexivity|congruence| |congruence].
  now rewrite !andb_assoc, (andb_comm (f y)).
Qed.

Lemma distinct_NoDup l : distinct l = true <-> NoDup l.
Proof.
  induction l as [|x t IH]; cbn [distinct]; [split; [constructor|reflexivity]|].
  rewrite andb_true_iff, negb_true_iff, IH. split.
  - intros [A B]. constructor; [|exact B]. intros H.
    assert (existsb (Z.eqb x) t = true) by (apply existsb_exists; exists x; split; [exact H|apply Z.eqb_refl]).
    congruence.
  - intros H. inversion H; subst. split; [|assumption].
    destruct (existsb (Z.eqb x) t) eqn:E; [|reflexivity].
    apply existsb_exists in E as (y & Hy & Ey). apply Z.eqb_eq in Ey. now subst.
Qed.

Lemma distinct_perm l l' : Permutation l l' -> distinct l = distinct l'.
Proof.
  intros P. destruct (distinct l) eqn:E, (distinct l') eqn:E'; try reflexivity.
  - apply distinct_NoDup in E. apply (Permutation_NoDup P), distinct_NoDup in E. congruence.
  - apply distinct_NoDup in E'. apply (Permutation_NoDup (Permutation_sym P)), distinct_NoDup in E'. congruence.
Qed.

Lemma drop_from_perm ax ax' l : Permutation ax ax' -> forall start, drop_from start ax l = drop_from start ax' l.
Proof.
  intros P. induction l as [|x t IH]; intros start; [reflexivity|]. cbn [drop_from].
  now rewrite (existsb_perm _ _ _ P), !IH.
Qed.

Lemma np_fibers_perm shape D ax ax' : Permutation ax ax' -> np_fibers shape ax D = np_fibers shape ax' D.
Proof.
  intros P. unfold np_fibers, drop_axes. rewrite (drop_from_perm _ _ _ P).
  apply map_ext. intros o. f_equal. apply filter_ext. intros i. now rewrite (drop_from_perm _ _ _ P).
Qed.

Lemma np_reduce_perm kind bits shape D l l' dtype : Permutation l l' ->
  np_reduce kind bits shape D l dtype = np_reduce kind bits shape D l' dtype.
Proof.
  intros P. assert (Pm : Permutation (map (fun a => a mod Zlen shape) l) (map (fun a => a mod Zlen shape) l'))
    by now apply Permutation_map.
  unfold np_reduce, np_axes. rewrite (forallb_perm _ _ _ P), (distinct_perm _ _ Pm).
  destruct (_ && _); [|destruct kind, dtype; reflexivity]. cbn [bind].
  rewrite (np_fibers_perm _ _ _ _ Pm). unfold drop_axes. now rewrite (drop_from_perm _ _ _ Pm).
Qed.

(** ** Fibres along all scan axes and along all frame axes *)

Lemma indices_length s : forall i, In i (indices s) -> List.length i = List.length s.
Proof.
  induction s as [|n s IH]; intros i Hi; cbn [indices] in Hi; [destruct Hi as [<-|[]]; reflexivity|].
  apply in_flat_map in Hi as (k & _ & Hi). apply in_map_iff in Hi as (t & <- & Ht).
  cbn. now rewrite (IH t Ht).
Qed.

Lemma indices_NoDup s : NoDup (indices s).
Proof.
  induction s as [|n s IH]; cbn [indices]; [repeat constructor; intros []|].
  pose proof (NoDup_zseq n) as Nz. induction (zseq n) as [|a l IHl]; cbn [flat_map]; [constructor|].
  inversion Nz; subst.
  assert (X : forall l1 l2 : list (list Z), NoDup l1 -> NoDup l2 -> (forall x, In x l1 -> ~ In x l2) -> NoDup (l1 ++ l2)).
  { clear. induction l1 as [|x l1 IH]; intros l2 N1 N2 Dj; [exact N2|]. inversion N1; subst. cbn. constructor.
    - rewrite in_app_iff. intros [H|H]; [contradiction|]. exact (Dj x (or_introl eq_refl) H).
    - apply IH; auto. intros y Hy. apply Dj. now right. }
  apply X; [|now apply IHl|].
  - apply FinFun.Injective_map_NoDup; [intros ? ? E; now injection E|exact IH].
  - intros i Hi H. apply in_map_iff in Hi as (t & <- & _). apply in_flat_map in H as (b & Hb & H).
    apply in_map_iff in H as (t' & E & _). injection E as -> _. contradiction.
Qed.

Lemma indices_app a b : indices (a ++ b) = flat_map (fun i => map (app i) (indices b)) (indices a).
Proof.
  induction a as [|n a IH]; cbn [indices app flat_map].
  - rewrite app_nil_r. symmetry. apply map_id.
  - rewrite IH. induction (zseq n) as [|k l IHl]; [reflexivity|]. cbn [flat_map].
    rewrite flat_map_app, <- IHl. f_equal. clear. induction (indices a) as [|i t IH]; [reflexivity|].
    cbn [flat_map map]. rewrite map_app, IH, map_map. reflexivity.
Qed.

Lemma np_prod_app a b : np_prod (a ++ b) = np_prod a * np_prod b.
Proof. induction a as [|x a IH]; [cbn [app np_prod fold_right]; fold (np_prod b); lia|].
  change (x * np_prod (a ++ b) = (x * np_prod a) * np_prod b). rewrite IH. lia.
Qed.

Lemma flat_app a b : forall i k, List.length i = List.length a ->
  flat (a ++ b) (i ++ k) = flat a i * np_prod b + flat b k.
Proof.
  induction a as [|n a IH]; intros [|x i] k H; try discriminate; cbn [app flat]; [lia|].
  injection H as H. rewrite IH by exact H. rewrite np_prod_app. lia.
Qed.

Lemma zseq_prod n m : 0 <= n -> 0 <= m -> flat_map (fun i => map (fun k => i * m + k) (zseq m)) (zseq n) = zseq (n * m).
Proof.
  intros Hn Hm. pattern n. apply natlike_ind; [reflexivity| |exact Hn]. clear n Hn. intros n Hn IH.
  unfold Z.succ. rewrite zseq_succ by lia. rewrite flat_map_app, IH. cbn [flat_map]. rewrite app_nil_r.
  replace ((n + 1) * m) with (n * m + m) by lia.
  assert (G : forall b k, 0 <= b -> 0 <= k -> zseq b ++ map (fun j => b + j) (zseq k) = zseq (b + k)).
  { clear. intros b k Hb Hk. pattern k. apply natlike_ind; [|clear k Hk; intros k Hk E|exact Hk].
    - rewrite zseq_0. cbn [map]. rewrite app_nil_r. f_equal. lia.
    - unfold Z.succ. rewrite zseq_succ by lia. rewrite map_app, app_assoc, E. cbn [map].
      replace (b + (k + 1)) with ((b + k) + 1) by lia. rewrite zseq_succ by lia. reflexivity. }
  apply G; nia.
Qed.

Lemma flat_indices s : (forall x, In x s -> 0 <= x) -> map (flat s) (indices s) = zseq (np_prod s).
Proof.
  induction s as [|n s IH]; intros H; [reflexivity|].
  assert (Hs : forall x, In x s -> 0 <= x) by (intros x Hx; apply H; now right).
  specialize (IH Hs). cbn [indices]. change (np_prod (n :: s)) with (n * np_prod s).
  assert (Hp : 0 <= np_prod s).
  { clear -Hs. induction s as [|x s IH]; [cbn; lia|]. change (0 <= x * np_prod s).
    apply Z.mul_nonneg_nonneg; [apply Hs; now left|apply IH; intros y Hy; apply Hs; now right]. }
  rewrite <- (zseq_prod n (np_prod s)) by (auto; apply H; now left).
  rewrite <- IH. induction (zseq n) as [|k l IHl]; [reflexivity|]. cbn [flat_map].
  rewrite map_app, IHl. f_equal. rewrite !map_map. reflexivity.
Qed.

Lemma drop_scan (ax a : list Z) : (forall x, In x ax <-> 0 <= x < Zlen a) -> forall i k,
  List.length i = List.length a -> drop_axes ax (i ++ k) = k.
Proof.
  intros Hax i k L. unfold drop_axes.
  assert (G : forall i start, 0 <= start -> start + Zlen i = Zlen a -> drop_from start ax (i ++ k) = k).
  { clear i L. induction i as [|x i IH]; intros start H0 H.
    - cbn [app]. unfold Zlen in H at 1. cbn in H.
      assert (G : forall k start, Zlen a <= start -> drop_from start ax k = k).
      { clear -Hax. induction k as [|y k IH]; intros start Hs; [reflexivity|]. cbn [drop_from].
        replace (existsb (Z.eqb start) ax) with false.
        - now rewrite IH by lia.
        - symmetry. destruct (existsb (Z.eqb start) ax) eqn:E; [|reflexivity].
          apply existsb_exists in E as (z & Hz & E). apply Z.eqb_eq in E. subst z. apply Hax in Hz. lia. }
      apply G. lia.
    - rewrite Zlen_cons in H. pose proof (Zlen_nonneg i). cbn [app drop_from].
      replace (existsb (Z.eqb start) ax) with true.
      + apply IH; lia.
      + symmetry. apply existsb_exists. exists start. split; [apply Hax; lia|apply Z.eqb_refl]. }
  apply G; [lia|]. unfold Zlen. rewrite L. lia.
Qed.

Lemma drop_frame (ax a b : list Z) : (forall x, In x ax <-> Zlen a <= x < Zlen a + Zlen b) -> forall i k,
  List.length i = List.length a -> List.length k = List.length b -> drop_axes ax (i ++ k) = i.
Proof.
  intros Hax i k L L'. unfold drop_axes.
  assert (K : forall k start, Zlen a <= start -> start + Zlen k = Zlen a + Zlen b -> drop_from start ax k = []).
  { clear k L'. induction k as [|y k IH]; intros start Hs H; [reflexivity|].
    rewrite Zlen_cons in H. pose proof (Zlen_nonneg k). cbn [drop_from].
    replace (existsb (Z.eqb start) ax) with true; [apply IH; lia|].
    symmetry. apply existsb_exists. exists start. split; [apply Hax; lia|apply Z.eqb_refl]. }
  assert (G : forall i start, 0 <= start -> start + Zlen i = Zlen a -> drop_from start ax (i ++ k) = i).
  { clear i L. induction i as [|x i IH]; intros start H0 H.
    - cbn [app]. unfold Zlen in H at 1. cbn in H. apply K; [lia|]. unfold Zlen. rewrite L'. unfold Zlen in H. lia.
    - rewrite Zlen_cons in H. pose proof (Zlen_nonneg i). cbn [app drop_from].
      replace (existsb (Z.eqb start) ax) with false.
      + f_equal. apply IH; lia.
      + symmetry. destruct (existsb (Z.eqb start) ax) eqn:E; [|reflexivity].
        apply existsb_exists in E as (z & Hz & E). apply Z.eqb_eq in E. subst z. apply Hax in Hz. lia. }
  apply G; [lia|]. unfold Zlen. rewrite L. lia.
Qed.

Lemma filter_single (l : list (list Z)) o : NoDup l -> In o l -> filter (fun k => tuple_eqb k o) l = [o].
Proof.
  induction l as [|x l IH]; intros N H; [destruct H|]. inversion N; subst. cbn [filter].
  destruct (tuple_eqb x o) eqn:E.
  - apply tuple_eqb_eq in E. subst x. f_equal.
    assert (X : forall y, In y l -> tuple_eqb y o = false).
    { intros y Hy. destruct (tuple_eqb y o) eqn:E; [|reflexivity]. apply tuple_eqb_eq in E. now subst. }
    clear -X. induction l as [|y l IH]; [reflexivity|]. cbn [filter]. rewrite X by now left.
    apply IH. intros z Hz. apply X. now right.
  - destruct H as [->|H]; [|now apply IH].
    assert (tuple_eqb o o = true) by now apply tuple_eqb_eq. congruence.
Qed.

Lemma filter_map_comm {A B} (f : A -> B) p l : filter p (map f l) = map f (filter (fun x => p (f x)) l).
Proof. induction l as [|x l IH]; [reflexivity|]. cbn. destruct (p (f x)); cbn; now rewrite IH. Qed.

Lemma filter_flat_map {A B} (f : A -> list B) p l : filter p (flat_map f l) = flat_map (fun x => filter p (f x)) l.
Proof. induction l as [|x l IH]; [reflexivity|]. cbn. now rewrite filter_app, IH. Qed.

Section fibres.
  Variables (a b D ax : list Z).
  Hypothesis Ha : forall x, In x a -> 0 <= x.
  Hypothesis Hb : forall x, In x b -> 0 <= x.

  Lemma fibres_scan : (forall x, In x ax <-> 0 <= x < Zlen a) ->
    drop_axes ax (a ++ b) = b /\
    np_fibers (a ++ b) ax D = map (along_scan (np_prod a) (np_prod b) D) (zseq (np_prod b)).
  Proof.
    intros Hax. split; [now apply (drop_scan ax a)|].
    unfold np_fibers. rewrite (drop_scan ax a Hax) by reflexivity.
    rewrite <- (flat_indices b Hb), map_map. apply map_ext_in. intros o Ho.
    rewrite indices_app, filter_flat_map.
    assert (E : flat_map (fun i => filter (fun x => tuple_eqb (drop_axes ax x) o) (map (app i) (indices b))) (indices a)
                = map (fun i => i ++ o) (indices a)).
    { pose proof (indices_length a) as L. induction (indices a) as [|i l IH]; [reflexivity|].
      cbn [flat_map map]. rewrite IH by (intros j Hj; apply L; now right).
      rewrite filter_map_comm.
      rewrite (filter_ext_in _ (fun k => tuple_eqb k o)).
      - rewrite filter_single; [reflexivity|apply indices_NoDup|exact Ho].
      - intros k Hk. rewrite (drop_scan ax a Hax); [reflexivity|]. apply L. now left. }
    rewrite E, map_map. unfold along_scan. rewrite <- (flat_indices a Ha), map_map.
    apply map_ext_in. intros i Hi. now rewrite flat_app by (now apply indices_length).
  Qed.

  Lemma fibres_frame : (forall x, In x ax <-> Zlen a <= x < Zlen a + Zlen b) ->
    drop_axes ax (a ++ b) = a /\
    np_fibers (a ++ b) ax D = map (along_frame (np_prod a) (np_prod b) D) (zseq (np_prod a)).
  Proof.
    intros Hax. split; [now apply (drop_frame ax a b)|].
    unfold np_fibers. rewrite (drop_frame ax a b Hax) by reflexivity.
    rewrite <- (flat_indices a Ha), map_map. apply map_ext_in. intros o Ho.
    rewrite indices_app, filter_flat_map.
    assert (E : flat_map (fun i => filter (fun x => tuple_eqb (drop_axes ax x) o) (map (app i) (indices b))) (indices a)
                = map (app o) (indices b)).
    { assert (E : flat_map (fun i => filter (fun x => tuple_eqb (drop_axes ax x) o) (map (app i) (indices b))) (indices a)
                = flat_map (fun i => map (app i) (indices b)) (filter (fun i => tuple_eqb i o) (indices a))).
      { clear Ho. pose proof (indices_length a) as L. induction (indices a) as [|i l IH]; [reflexivity|].
        cbn [flat_map filter]. rewrite IH by (intros j Hj; apply L; now right).
        rewrite filter_map_comm.
        rewrite (filter_ext_in _ (fun k => tuple_eqb i o)).
        - destruct (tuple_eqb i o); cbn [flat_map].
          + do 2 f_equal. clear. induction (indices b) as [|x l IH]; [reflexivity|]. cbn. now rewrite IH.
          + replace (filter (fun _ : list Z => false) (indices b)) with (@nil (list Z)); [reflexivity|].
            clear. induction (indices b); cbn; auto.
        - intros k Hk. rewrite (drop_frame ax a b Hax); [reflexivity|apply L; now left|now apply indices_length]. }
      rewrite E, filter_single; [cbn; apply app_nil_r|apply indices_NoDup|exact Ho]. }
    rewrite E, map_map. unfold along_frame. rewrite <- (flat_indices b Hb), map_map.
    apply map_ext_in. intros k Hk. now rewrite flat_app by (now apply indices_length).
  Qed.
End fibres.

(** ** Maxima and minima *)

Lemma fold_max l : forall x, (forall y, In y (x :: l) -> y <= fold_left Z.max l x) /\ In (fold_left Z.max l x) (x :: l).
Proof.
  induction l as [|z l IH]; intros x; cbn [fold_left].
  - split; [intros y [->|[]]; lia|now left].
  - destruct (IH (Z.max x z)) as [A B]. split.
    + intros y [<-|[<-|Hy]]; [|pose proof (A (Z.max x z) (or_introl eq_refl)); lia|apply A; now right].
      pose proof (A (Z.max x z) (or_introl eq_refl)). lia.
    + destruct B as [E|E]; [|right; now right]. rewrite <- E.
      destruct (Z.max_spec x z) as [[_ ->]|[_ ->]]; [right; now left|now left].
Qed.

Lemma fold_min l : forall x, (forall y, In y (x :: l) -> fold_left Z.min l x <= y) /\ In (fold_left Z.min l x) (x :: l).
Proof.
  induction l as [|z l IH]; intros x; cbn [fold_left].
  - split; [intros y [->|[]]; lia|now left].
  - destruct (IH (Z.min x z)) as [A B]. split.
    + intros y [<-|[<-|Hy]]; [|pose proof (A (Z.min x z) (or_introl eq_refl)); lia|apply A; now right].
      pose proof (A (Z.min x z) (or_introl eq_refl)). lia.
    + destruct B as [E|E]; [|right; now right]. rewrite <- E.
      destruct (Z.min_spec x z) as [[_ ->]|[_ ->]]; [now left|right; now left].
Qed.

Lemma np_max_is m l : is_max m l -> np_max l = Ok m.
Proof.
  intros [A B]. destruct l as [|x l]; [destruct A|]. cbn. f_equal.
  destruct (fold_max l x) as [C E]. specialize (B _ E). specialize (C _ A). lia.
Qed.

Lemma np_min_is m l : is_min m l -> np_min l = Ok m.
Proof.
  intros [A B]. destruct l as [|x l]; [destruct A|]. cbn. f_equal.
  destruct (fold_min l x) as [C E]. specialize (B _ E). specialize (C _ A). lia.
Qed.

Lemma mapM_at (f : list Z -> outcome Z) (g : Z -> list Z) r n : 0 <= n -> Zlen r = n ->
  (forall j, 0 <= j < n -> f (g j) = Ok (zat r j)) -> mapM f (map g (zseq n)) = Ok r.
Proof.
  intros Hn L H. rewrite (list_as_map_zat r), L.
  assert (G : forall l, (forall j, In j l -> 0 <= j < n) -> mapM f (map g l) = Ok (map (zat r) l)).
  { induction l as [|j l IH]; intros Hl; [reflexivity|]. cbn [map mapM].
    rewrite H by (apply Hl; now left). cbn [bind]. rewrite IH; [reflexivity|]. intros k Hk. apply Hl. now right. }
  apply G. intros j Hj. now apply in_zseq in Hj.
Qed.

Lemma shape_nonneg s : shape_ok s -> forall x, In x s -> 0 <= x.
Proof. intros [(n & -> & H)|(n & m & -> & H & H')] x Hx; cbn in Hx; intuition lia. Qed.

Lemma shape_len s : shape_ok s -> 0 < Zlen s.
Proof. intros [(n & -> & H)|(n & m & -> & H & H')]; cbn; lia. Qed.

(** The whole scan and the whole frame as axes for NumPy. *)
Lemma np_axes_in l n lo hi : 0 <= lo -> hi <= n -> Permutation l (map (fun k => lo + k) (zseq (hi - lo))) ->
  exists ax, np_axes n l = Ok ax /\ forall x, In x ax <-> lo <= x < hi.
Proof.
  intros H0 Hh P.
  assert (In' : forall x, In x l <-> lo <= x < hi).
  { intros x. split; intros H.
    - apply (Permutation_in _ P), in_map_iff in H as (k & <- & Hk). apply in_zseq in Hk. lia.
    - apply (Permutation_in _ (Permutation_sym P)), in_map_iff. exists (x - lo). split; [lia|]. apply in_zseq. lia. }
  assert (M : map (fun a => a mod n) l = l).
  { rewrite <- (map_id l) at 2. apply map_ext_in. intros x Hx. apply In' in Hx. apply Z.mod_small. lia. }
  exists l. split; [|exact In']. unfold np_axes. rewrite M.
  replace (forallb _ l) with true.
  - replace (distinct l) with true; [reflexivity|]. symmetry. apply distinct_NoDup.
    apply (Permutation_NoDup (Permutation_sym P)). apply FinFun.Injective_map_NoDup; [|apply NoDup_zseq].
    intros ? ? ?; lia.
  - symmetry. apply forallb_forall. intros x Hx. apply In' in Hx.
    apply andb_true_iff. rewrite Z.leb_le, Z.ltb_lt. lia.
Qed.

Section whole.
  Variables (sa : sparse) (shape D : list Z).
  Hypothesis W : wf sa.
  Hypothesis HD : to_dense sa = Ok (Dense shape D).
  Let P := num_scans sa.
  Let N := frame_size sa.

  Lemma shape_eq : shape = sp_scan sa ++ sp_frame sa.
  Proof. destruct (C36_dense_values sa W) as (D' & E & _). rewrite E in HD. now injection HD as <- _. Qed.

  Lemma whole_scan_axes a : whole_scan sa a -> exists ax, np_axes (Zlen shape) (axes_meant sa a) = Ok ax /\
    drop_axes ax shape = sp_frame sa /\ np_fibers shape ax D = map (along_scan P N D) (zseq N).
  Proof.
    intros H. rewrite shape_eq. pose proof (Zlen_nonneg (sp_scan sa)). pose proof (Zlen_nonneg (sp_frame sa)).
    destruct (np_axes_in (axes_meant sa a) (Zlen (sp_scan sa ++ sp_frame sa)) 0 (Zlen (sp_scan sa)))
      as (ax & E & Hax); [lia|rewrite Zlen_app; lia| |].
    - rewrite H. cbn [axes_meant]. rewrite Z.sub_0_r. rewrite map_id. reflexivity.
    - exists ax. split; [exact E|]. apply fibres_scan; [apply shape_nonneg, W|apply shape_nonneg, W|exact Hax].
  Qed.

  Lemma whole_frame_axes a : whole_frame sa a -> exists ax, np_axes (Zlen shape) (axes_meant sa a) = Ok ax /\
    drop_axes ax shape = sp_scan sa /\ np_fibers shape ax D = map (along_frame P N D) (zseq P).
  Proof.
    intros H. rewrite shape_eq. pose proof (Zlen_nonneg (sp_scan sa)). pose proof (Zlen_nonneg (sp_frame sa)).
    destruct (np_axes_in (axes_meant sa a) (Zlen (sp_scan sa ++ sp_frame sa)) (Zlen (sp_scan sa))
                (Zlen (sp_scan sa) + Zlen (sp_frame sa)))
      as (ax & E & Hax); [lia|rewrite Zlen_app; lia| |].
    - rewrite H. cbn [axes_meant].
      replace (Zlen (sp_scan sa) + Zlen (sp_frame sa) - Zlen (sp_scan sa)) with (Zlen (sp_frame sa)) by lia.
      reflexivity.
    - exists ax. split; [exact E|]. apply fibres_frame; [apply shape_nonneg, W|apply shape_nonneg, W|exact Hax].
  Qed.

  Lemma not_both a : whole_scan sa a -> whole_frame sa a -> False.
  Proof.
    unfold whole_scan, whole_frame. intros H H'. rewrite H in H'. cbn [axes_meant] in H'.
    pose proof (shape_len _ (wf_scan _ W)).
    assert (I : In 0 (zseq (Zlen (sp_scan sa)))) by (apply in_zseq; lia).
    apply (Permutation_in _ H'), in_map_iff in I as (k & E & Hk). apply in_zseq in Hk. lia.
  Qed.

  (** The call when no quick way applies. *)
  Lemma other_axes kind a dtype : ~ whole_scan sa a -> ~ whole_frame sa a ->
    fst (py_reduce kind sa a dtype) =
    if sp_full sa then np_reduce kind (sp_bits sa) shape D (axes_meant sa a) dtype else full_denied.
  Proof.
    intros H1 H2. unfold py_reduce, full_expansion, body.
    destruct (is_scan_axes sa _) eqn:E1; [apply is_scan_axes_spec in E1; contradiction|].
    destruct (is_frame_axes sa _) eqn:E2; [apply is_frame_axes_spec in E2; contradiction|].
    cbn [fst]. rewrite format_meant.
    rewrite (np_reduce_perm kind (sp_bits sa) shape D _ _ dtype (isort_perm (axes_meant sa a))).
    assert (Wd : wf (with_slicing sa false)) by (destruct W; constructor; assumption).
    assert (Dd : to_dense (with_slicing sa false) = Ok (Dense shape D)) by exact HD.
    pose proof (C36_dense_values sa W) as (D' & E' & _). rewrite HD in E'. injection E' as Es _.
    assert (K : exists sk fk sl fl, split_slices (with_slicing sa false) [KSlice None None None] = Ok (sk, fk) /\
      np_select (sp_scan (with_slicing sa false)) sk = Ok (sp_scan sa, sl) /\
      np_select (sp_frame (with_slicing sa false)) fk = Ok (sp_frame sa, fl)).
    { exists [KSlice None None None], []. unfold with_slicing, split_slices. cbn [sp_scan sp_frame].
      assert (Sl : forall n, 0 <= n -> exists l, slice_positions n None None None = Ok l /\ Zlen l = n).
      { intros n Hn. unfold slice_positions. cbn. eexists. split; [reflexivity|]. rewrite Zlen_map.
        unfold slice_count. cbn. destruct (Z.ltb_spec 0 n); [|cbn; lia].
        replace (n - 0 - 1) with (n - 1) by lia. rewrite Z.div_1_r, Zlen_zseq by lia. lia. }
      destruct (wf_scan _ W) as [(n & -> & Hn)|(n & m & -> & Hn & Hm)];
        destruct (Sl n Hn) as (l & El & Ll); cbn [np_select axis_select]; rewrite El; cbn [bind]; rewrite Ll;
        (destruct (wf_frame _ W) as [(x & -> & _)|(x & y & -> & _)]; do 2 eexists; repeat split). }
    destruct K as (sk & fk & sl & fl & K1 & K2 & K3).
    destruct (C39_slice_dense (with_slicing sa false) _ _ _ _ _ _ _ shape D Wd eq_refl Dd K1 K2 K3) as [A B].
    change (sp_full (with_slicing sa false)) with (sp_full sa) in A, B.
    assert (Full : sp_full sa = true -> getitem (with_slicing sa false) [KSlice None None None] = Ok (Dense shape D)).
    { intros F. rewrite <- HD. unfold to_dense, with_slicing. now rewrite F. }
    destruct (sp_full sa).
    - rewrite Full by reflexivity. reflexivity.
    - rewrite A by reflexivity. reflexivity.
  Qed.

  Lemma Zlen_of_scan a (r : list Z) dtype kind bits :
    whole_scan sa a -> bits = match dtype with Some b => b | None => sp_bits sa end ->
    match kind with RMax => max_scan sa bits | RMin => min_scan sa bits | RSum => sum_scan sa bits end = Ok r ->
    fst (py_reduce kind sa a dtype) = Ok (sp_frame sa, r).
  Proof.
    intros H -> E. unfold py_reduce, full_expansion, body.
    apply is_scan_axes_spec in H. rewrite H, E. reflexivity.
  Qed.

  Lemma Zlen_of_frame a (r : list Z) dtype kind bits :
    whole_frame sa a -> bits = match dtype with Some b => b | None => sp_bits sa end ->
    match kind with RMax => max_frame sa bits | RMin => min_frame sa bits | RSum => sum_frame sa bits end = Ok r ->
    fst (py_reduce kind sa a dtype) = Ok (sp_scan sa, r).
  Proof.
    intros H -> E. unfold py_reduce, full_expansion, body.
    destruct (is_scan_axes sa _) eqn:E1; [apply is_scan_axes_spec in E1; destruct (not_both a E1 H)|].
    apply is_frame_axes_spec in H. rewrite H, E. reflexivity.
  Qed.

  Lemma wrapped_sum (g : Z -> list Z) bits r n : 0 <= n -> Zlen r = n ->
    (forall j, 0 <= j < n -> zat r j = wrapu bits (zsum (g j))) ->
    map (fun l => wrapu bits (zsum l)) (map g (zseq n)) = r.
  Proof.
    intros Hn L H. rewrite (list_as_map_zat r), L, map_map. apply map_ext_in.
    intros j Hj. apply in_zseq in Hj. symmetry. now apply H.
  Qed.
End whole.

(** ** The theorems *)

(** C78.  sum with a result type: for every axis argument what NumPy gives for the
    dense array, exceptions included, if full expansion is allowed or the axes are
    those of the scan or of the frame. *)
Theorem C78_sum sa shape D a b : wf sa -> to_dense sa = Ok (Dense shape D) ->
  sp_full sa = true \/ whole_scan sa a \/ whole_frame sa a ->
  fst (py_reduce RSum sa a (Some b)) = np_reduce RSum (sp_bits sa) shape D (axes_meant sa a) (Some b).
Proof.
  intros W HD HF.
  pose proof (num_scans_nonneg sa W) as HP. pose proof (frame_size_nonneg sa W) as HN.
  assert (S : forall a, whole_scan sa a -> fst (py_reduce RSum sa a (Some b)) = np_reduce RSum (sp_bits sa) shape D (axes_meant sa a) (Some b)).
  { clear a HF. intros a H. destruct (whole_scan_axes sa shape D W HD a H) as (ax & E & E2 & E3).
    destruct (C36_sum_scan sa shape D W HD b) as (r & R & L & V).
    rewrite (Zlen_of_scan sa a r (Some b) RSum b H eq_refl R). cbn [np_reduce]. rewrite E. cbn [bind].
    rewrite E2, E3, (wrapped_sum _ b r _ HN L V). reflexivity. }
  assert (F : forall a, whole_frame sa a -> fst (py_reduce RSum sa a (Some b)) = np_reduce RSum (sp_bits sa) shape D (axes_meant sa a) (Some b)).
  { clear a HF. intros a H. destruct (whole_frame_axes sa shape D W HD a H) as (ax & E & E2 & E3).
    destruct (C36_sum_frame sa shape D W HD b) as (r & R & L & V).
    rewrite (Zlen_of_frame sa W a r (Some b) RSum b H eq_refl R). cbn [np_reduce]. rewrite E. cbn [bind].
    rewrite E2, E3, (wrapped_sum _ b r _ HP L V). reflexivity. }
  destruct (is_scan_axes sa (format_axis sa a)) eqn:E1; [apply is_scan_axes_spec in E1; now apply S|].
  destruct (is_frame_axes sa (format_axis sa a)) eqn:E2; [apply is_frame_axes_spec in E2; now apply F|].
  assert (N1 : ~ whole_scan sa a) by (rewrite <- is_scan_axes_spec; congruence).
  assert (N2 : ~ whole_frame sa a) by (rewrite <- is_frame_axes_spec; congruence).
  rewrite (other_axes sa shape D W HD RSum a (Some b) N1 N2).
  destruct HF as [->|[H|H]]; [reflexivity|contradiction|contradiction].
Qed.

(** C78.  sum without a type: the same, as long as the number of events fits the
    type of the array (at most 64 bits). *)
Theorem C78_sum_default sa shape D a : wf sa -> to_dense sa = Ok (Dense shape D) ->
  sp_full sa = true \/ whole_scan sa a \/ whole_frame sa a ->
  zsum D < 2 ^ sp_bits sa -> sp_bits sa <= 64 ->
  fst (py_reduce RSum sa a None) = np_reduce RSum (sp_bits sa) shape D (axes_meant sa a) None.
Proof.
  intros W HD HF HS HB.
  pose proof (num_scans_nonneg sa W) as HP. pose proof (frame_size_nonneg sa W) as HN.
  pose proof (wf_bits sa W) as HB0.
  destruct (is_scan_axes sa (format_axis sa a) || is_frame_axes sa (format_axis sa a)) eqn:E0.
  2:{ apply orb_false_iff in E0 as [E1 E2].
      assert (N1 : ~ whole_scan sa a) by (rewrite <- is_scan_axes_spec; congruence).
      assert (N2 : ~ whole_frame sa a) by (rewrite <- is_frame_axes_spec; congruence).
      rewrite (other_axes sa shape D W HD RSum a None N1 N2).
      destruct HF as [->|[H|H]]; [reflexivity|contradiction|contradiction]. }
  assert (S : whole_scan sa a \/ whole_frame sa a).
  { apply orb_true_iff in E0 as [E|E]; [left; now apply is_scan_axes_spec|right; now apply is_frame_axes_spec]. }
  assert (X : fst (py_reduce RSum sa a None) = fst (py_reduce RSum sa a (Some (sp_bits sa)))).
  { unfold py_reduce, full_expansion, body. apply orb_true_iff in E0 as [E|E]; rewrite E; [|destruct (is_scan_axes sa _)];
      [destruct (sum_scan sa _)|destruct (sum_scan sa _)|destruct (sum_frame sa _)]; reflexivity. }
  rewrite X, (C78_sum sa shape D a (sp_bits sa) W HD (or_intror S)). cbn [np_reduce].
  assert (Dn : forall p j, 0 <= p < num_scans sa -> 0 <= j < frame_size sa -> 0 <= zat D (p * frame_size sa + j)).
  { intros p j Hp Hj. destruct (C36_dense_values sa W) as (D' & E & _ & V). rewrite HD in E. injection E as _ <-.
    rewrite V by assumption. apply events_nonneg. }
  assert (Le : forall g n, (forall j, 0 <= j < n -> 0 <= zsum (g j) <= zsum D) ->
    map (fun l => wrapu (sp_bits sa) (zsum l)) (map g (zseq n)) = map (fun l => wrapu (Z.max (sp_bits sa) 64) (zsum l)) (map g (zseq n))).
  { intros g n H. rewrite !map_map. apply map_ext_in. intros j Hj. apply in_zseq in Hj. specialize (H j Hj).
    unfold wrapu. rewrite Z.max_r by lia. rewrite !Z.mod_small; [reflexivity| |lia].
    assert (2 ^ sp_bits sa <= 2 ^ 64) by (apply Z.pow_le_mono_r; lia). lia. }
  assert (Tot : zsum D = zsum (map (fun p => zsum (along_frame (num_scans sa) (frame_size sa) D p)) (zseq (num_scans sa)))).
  { destruct (C36_dense_values sa W) as (D' & E & L & V). rewrite HD in E. injection E as _ <-.
    rewrite (list_as_map_zat D) at 1. rewrite L.
    rewrite Z.mul_comm, zsum_grid by lia. reflexivity. }
  assert (One : forall (f : Z -> Z) n j, (forall i, 0 <= i < n -> 0 <= f i) -> 0 <= j < n -> f j <= zsum (map f (zseq n))).
  { intros f n j Hf Hj. assert (Hl : forall l, (forall i, In i l -> 0 <= f i) -> forall j, In j l -> f j <= zsum (map f l)).
    { clear. induction l as [|x l IH]; intros Hf j Hj; [destruct Hj|]. cbn [map zsum].
      assert (0 <= f x) by (apply Hf; now left).
      assert (0 <= zsum (map f l)) by (apply zsum_nonneg; intros y Hy; apply in_map_iff in Hy as (i & <- & Hi); apply Hf; now right).
      destruct Hj as [<-|Hj]; [lia|]. specialize (IH (fun i Hi => Hf i (or_intror Hi)) j Hj). lia. }
    apply Hl; [intros i Hi; apply Hf; now apply in_zseq|now apply in_zseq]. }
  assert (Fr : forall p, 0 <= p < num_scans sa -> 0 <= zsum (along_frame (num_scans sa) (frame_size sa) D p)).
  { intros p Hp. apply zsum_nonneg. intros x Hx. unfold along_frame in Hx. apply in_map_iff in Hx as (j & <- & Hj).
    apply in_zseq in Hj. now apply Dn. }
  destruct S as [H|H].
  - destruct (whole_scan_axes sa shape D W HD a H) as (ax & E & E2 & E3). rewrite E. cbn [bind]. rewrite E2, E3. do 2 f_equal.
    apply Le. intros j Hj. split.
    + apply zsum_nonneg. intros x Hx. unfold along_scan in Hx. apply in_map_iff in Hx as (p & <- & Hp).
      apply in_zseq in Hp. now apply Dn.
    + rewrite Tot. unfold along_scan.
      assert (G : forall l, (forall p, In p l -> 0 <= p < num_scans sa) ->
        zsum (map (fun p => zat D (p * frame_size sa + j)) l) <=
        zsum (map (fun p => zsum (along_frame (num_scans sa) (frame_size sa) D p)) l)).
      { induction l as [|p l IH]; intros Hl; [cbn; lia|]. cbn [map zsum].
        specialize (IH (fun q Hq => Hl q (or_intror Hq))).
        assert (Hp : 0 <= p < num_scans sa) by (apply Hl; now left).
        pose proof (One (fun k => zat D (p * frame_size sa + k)) (frame_size sa) j (fun i Hi => Dn p i Hp Hi) Hj) as Q.
        cbv beta in Q. unfold along_frame at 1. lia. }
      apply G. intros p Hp. now apply in_zseq.
  - destruct (whole_frame_axes sa shape D W HD a H) as (ax & E & E2 & E3). rewrite E. cbn [bind]. rewrite E2, E3. do 2 f_equal.
    apply Le. intros p Hp. split; [now apply Fr|]. rewrite Tot. exact (One (fun q => zsum (along_frame (num_scans sa) (frame_size sa) D q)) _ p Fr Hp).
Qed.

(** C78.  max and min without a type: what NumPy gives for the dense array, for
    every axis argument; over the whole scan or frame for arrays with positions,
    pixels and frame slots, and the maximum over the frame if every position has an
    event. *)
Theorem C78_max sa shape D a : wf sa -> to_dense sa = Ok (Dense shape D) ->
  sp_full sa = true \/ whole_scan sa a \/ whole_frame sa a ->
  (whole_scan sa a -> 0 < sp_F sa /\ 0 < num_scans sa) ->
  (whole_frame sa a -> 0 < frame_size sa /\
     forall p, 0 <= p < num_scans sa -> exists j, 0 <= j < frame_size sa /\ 0 < events (row_at sa p) j) ->
  fst (py_reduce RMax sa a None) = np_reduce RMax (sp_bits sa) shape D (axes_meant sa a) None.
Proof.
  intros W HD HF C1 C2.
  pose proof (num_scans_nonneg sa W) as HP. pose proof (frame_size_nonneg sa W) as HN.
  pose proof (wf_F sa W) as HFb.
  destruct (is_scan_axes sa (format_axis sa a)) eqn:E1.
  { apply is_scan_axes_spec in E1. destruct (C1 E1) as [Q1 Q2].
    destruct (whole_scan_axes sa shape D W HD a E1) as (ax & E & E2 & E3).
    destruct (C36_max_scan sa shape D W HD (sp_bits sa) ltac:(lia) Q2) as (r & R & L & V).
    rewrite (Zlen_of_scan sa a r None RMax _ E1 eq_refl R). cbn [np_reduce]. rewrite E. cbn [bind]. rewrite E2, E3.
    rewrite (mapM_at np_max _ r _ HN L); [reflexivity|]. intros j Hj. apply np_max_is. now apply V. }
  destruct (is_frame_axes sa (format_axis sa a)) eqn:E2.
  { apply is_frame_axes_spec in E2. destruct (C2 E2) as [Q1 Q2].
    destruct (whole_frame_axes sa shape D W HD a E2) as (ax & E & E3 & E4).
    destruct (C36_max_frame sa shape D W HD (sp_bits sa) ltac:(lia) Q1 Q2) as (r & R & L & V).
    rewrite (Zlen_of_frame sa W a r None RMax _ E2 eq_refl R). cbn [np_reduce]. rewrite E. cbn [bind]. rewrite E3, E4.
    rewrite (mapM_at np_max _ r _ HP L); [reflexivity|]. intros j Hj. apply np_max_is. now apply V. }
  assert (N1 : ~ whole_scan sa a) by (rewrite <- is_scan_axes_spec; congruence).
  assert (N2 : ~ whole_frame sa a) by (rewrite <- is_frame_axes_spec; congruence).
  rewrite (other_axes sa shape D W HD RMax a None N1 N2).
  destruct HF as [->|[H|H]]; [reflexivity|contradiction|contradiction].
Qed.

Theorem C78_min sa shape D a : wf sa -> to_dense sa = Ok (Dense shape D) ->
  sp_full sa = true \/ whole_scan sa a \/ whole_frame sa a ->
  (whole_scan sa a -> 0 < sp_F sa /\ 0 < num_scans sa) ->
  (whole_frame sa a -> 0 < sp_F sa /\ 0 < frame_size sa) ->
  fst (py_reduce RMin sa a None) = np_reduce RMin (sp_bits sa) shape D (axes_meant sa a) None.
Proof.
  intros W HD HF C1 C2.
  pose proof (num_scans_nonneg sa W) as HP. pose proof (frame_size_nonneg sa W) as HN.
  pose proof (wf_F sa W) as HFb.
  destruct (is_scan_axes sa (format_axis sa a)) eqn:E1.
  { apply is_scan_axes_spec in E1. destruct (C1 E1) as [Q1 Q2].
    destruct (whole_scan_axes sa shape D W HD a E1) as (ax & E & E2 & E3).
    destruct (C36_min_scan sa shape D W HD (sp_bits sa) ltac:(lia) Q2) as (r & R & L & V).
    rewrite (Zlen_of_scan sa a r None RMin _ E1 eq_refl R). cbn [np_reduce]. rewrite E. cbn [bind]. rewrite E2, E3.
    rewrite (mapM_at np_min _ r _ HN L); [reflexivity|]. intros j Hj. apply np_min_is. now apply V. }
  destruct (is_frame_axes sa (format_axis sa a)) eqn:E2.
  { apply is_frame_axes_spec in E2. destruct (C2 E2) as [Q1 Q2].
    destruct (whole_frame_axes sa shape D W HD a E2) as (ax & E & E3 & E4).
    destruct (C36_min_frame sa shape D W HD (sp_bits sa) ltac:(lia) Q2) as (r & R & L & V).
    rewrite (Zlen_of_frame sa W a r None RMin _ E2 eq_refl R). cbn [np_reduce]. rewrite E. cbn [bind]. rewrite E3, E4.
    rewrite (mapM_at np_min _ r _ HP L); [reflexivity|]. intros j Hj. apply np_min_is. now apply V. }
  assert (N1 : ~ whole_scan sa a) by (rewrite <- is_scan_axes_spec; congruence).
  assert (N2 : ~ whole_frame sa a) by (rewrite <- is_frame_axes_spec; congruence).
  rewrite (other_axes sa shape D W HD RMin a None N1 N2).
  destruct HF as [->|[H|H]]; [reflexivity|contradiction|contradiction].
Qed.

(** C78.  Where full expansion is not allowed and the axes are others, the call
    raises, whatever the axes are. *)
Theorem C78_denied kind sa a dtype : wf sa -> sp_full sa = false ->
  ~ whole_scan sa a -> ~ whole_frame sa a -> fst (py_reduce kind sa a dtype) = Throw "FullExpansionDenied".
Proof.
  intros W F H1 H2. destruct (C36_dense_values sa W) as (D & E & _).
  rewrite (other_axes sa _ D W E kind a dtype H1 H2), F. reflexivity.
Qed.

(** C78.  A call leaves the array as it was, also when it raises. *)
Theorem C78_unchanged kind sa a dtype : snd (py_reduce kind sa a dtype) = sa.
Proof.
  unfold py_reduce, full_expansion. destruct (body kind sa _ dtype) as [[r|]| | |]; try reflexivity.
  now destruct sa.
Qed.

(** C78.  The order in which axes are given makes no difference. *)
Theorem C78_order kind sa l l' dtype : Permutation l l' ->
  py_reduce kind sa (AxSeq l) dtype = py_reduce kind sa (AxSeq l') dtype.
Proof. intros P. unfold py_reduce, format_axis. now rewrite (isort_perm_eq _ _ P). Qed.

(** ** Findings *)

(** Negative axes mean the same axes to NumPy, but are not recognised: without full
    expansion the sum over (-4, -3) of an array of four dimensions raises, although
    the sum over (0, 1) does not. *)
Theorem C78_negative_refuted sa kind h w fh fw dtype : wf sa -> sp_full sa = false ->
  sp_scan sa = [h; w] -> sp_frame sa = [fh; fw] ->
  fst (py_reduce kind sa (AxSeq [-4; -3]) dtype) = Throw "FullExpansionDenied" /\
  fst (py_reduce kind sa (AxSeq [-2; -1]) dtype) = Throw "FullExpansionDenied" /\
  np_axes 4 [-4; -3] = np_axes 4 (axes_meant sa AxScan) /\
  np_axes 4 [-2; -1] = np_axes 4 (axes_meant sa AxFrame).
Proof.
  intros W F S Fr.
  assert (N : forall x l, (forall y, In y l -> 0 <= y) -> x < 0 -> ~ Permutation (x :: l) l /\ True) by (split; auto; intros P; apply Permutation_length in P; cbn in P; lia).
  assert (A : forall l b, In b l -> b < 0 -> ~ whole_scan sa (AxSeq l) /\ ~ whole_frame sa (AxSeq l)).
  { intros l b Hb Hn. unfold whole_scan, whole_frame. cbn [axes_meant]. split; intros P; apply (Permutation_in b) in P; auto.
    - apply in_zseq in P. lia.
    - apply in_map_iff in P as (k & E & Hk). apply in_zseq in Hk. pose proof (Zlen_nonneg (sp_scan sa)). lia. }
  destruct (A [-4; -3] (-4)) as [A1 A2]; [now left|lia|].
  destruct (A [-2; -1] (-2)) as [B1 B2]; [now left|lia|].
  split; [now apply C78_denied|]. split; [now apply C78_denied|]. cbn [axes_meant]. rewrite S, Fr. split; reflexivity.
Qed.

(** A result type for max or min is taken over the whole scan or frame, but makes
    every other call raise. *)
Theorem C78_max_type_refuted kind sa a b : wf sa -> kind <> RSum -> sp_full sa = true ->
  ~ whole_scan sa a -> ~ whole_frame sa a -> fst (py_reduce kind sa a (Some b)) = Throw "TypeError".
Proof.
  intros W K F H1 H2. destruct (C36_dense_values sa W) as (D & E & _).
  rewrite (other_axes sa _ D W E kind a (Some b) H1 H2), F. now destruct kind.
Qed.

(** Without a type, the sum over the whole scan is taken modulo the type of the
    array, but the sums over its axes one by one are not: 256 events at one pixel of
    an array of 8 bits. *)
Definition ex_wrap : sparse := mkSparse (repeat [[0]] 256) 1 [1; 256] [1; 1] 8 true true.

Theorem C78_default_type_refuted :
  wf ex_wrap /\
  fst (py_reduce RSum ex_wrap AxScan None) = Ok ([1; 1], [0]) /\
  fst (py_reduce RSum ex_wrap (AxInt 1) None) = Ok ([1; 1; 1], [256]) /\
  fst (py_reduce RSum ex_wrap AxNone None) = Ok ([], [256]).
Proof.
  split; [|split; [|split]]; [|vm_compute; reflexivity..].
  constructor; unfold ex_wrap; cbn [sp_data sp_F sp_scan sp_frame sp_bits].
  - right. exists 1, 256. repeat split; lia.
  - right. exists 1, 1. repeat split; lia.
  - reflexivity.
  - intros row H. apply repeat_spec in H. now subst.
  - lia.
  - lia.
  - intros row fr H H'. apply repeat_spec in H. subst row. destruct H' as [<-|[]].
    split; [repeat constructor; intros []|]. intros x [<-|[]]. cbn. lia.
Qed.

(** ** Examples: the hypotheses are met by the array of SparseProps.v. *)
Example ex_axes : wf ex_sparse /\ sp_full ex_sparse = true /\ sp_bits ex_sparse <= 64 /\
  whole_scan ex_sparse (AxSeq [1; 0]) /\ ~ whole_scan ex_sparse (AxInt (-1)) /\ ~ whole_frame ex_sparse (AxInt (-1)) /\
  fst (py_reduce RSum ex_sparse (AxSeq [1; 0]) None) = Ok ([2; 2], [4; 3; 4; 4]) /\
  fst (py_reduce RSum ex_sparse (AxInt (-1)) None) = Ok ([2; 2; 2], [1; 2; 1; 0; 4; 4; 1; 2]) /\
  fst (py_reduce RMax ex_sparse AxNone None) = Ok ([], [2]) /\
  fst (py_reduce RMin ex_sparse (AxSeq [3; 0]) None) = Ok ([2; 2], [0; 0; 0; 0]) /\
  fst (py_reduce RMax ex_sparse (AxInt 4) None) = value_error /\
  fst (py_reduce RMax ex_sparse (AxSeq [0; -4]) None) = value_error.
Proof.
  split; [exact ex_sparse_wf|]. split; [reflexivity|]. split; [cbn; lia|].
  split; [apply perm_swap|].
  split; [intros P; apply Permutation_length in P; discriminate|].
  split; [intros P; apply Permutation_length in P; discriminate|].
  repeat split.
Qed.

Print Assumptions C78_sum.
Print Assumptions C78_sum_default.
Print Assumptions C78_max.
Print Assumptions C78_min.
Print Assumptions C78_denied.
Print Assumptions C78_unchanged.
Print Assumptions C78_order.
Print Assumptions C78_negative_refuted.
Print Assumptions C78_max_type_refuted.
Print Assumptions C78_default_type_refuted.
