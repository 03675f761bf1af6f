(** C80: mean of a sparse array over any axes. *)
From Coq Require Import String ZArith List Bool Reals Lia Lra Permutation.
From Flocq Require Import Core.
From Verif Require Import Base BaseFacts Double Float32 FloatConv SparseModel SparseSpec SparseProofs SparseSlice
  SparseReduce SparseMeanModel SparseMean SparseProps ClassicPyProofs AxisModel AxisSpec AxisProps MeanModel MeanSpec.
Import ListNotations.
Open Scope string_scope.
Open Scope Z_scope.

(** ** The number of entries in a fibre *)
Fixpoint dropped (start : Z) (ax shape : list Z) : Z :=
  match shape with
  | [] => 1
  | n :: s => (if existsb (Z.eqb start) ax then n else 1) * dropped (start + 1) ax s
  end.

Lemma Zlen_flat_map_const {A B} (f : A -> list B) l c :
  (forall x, In x l -> Zlen (f x) = c) -> Zlen (flat_map f l) = Zlen l * c.
Proof.
  intros H. induction l as [|x t IH]; [reflexivity|]. cbn [flat_map]. rewrite Zlen_app, Zlen_cons.
  rewrite H by (now left). rewrite IH by (intros y Hy; apply H; now right). lia.
Qed.

Lemma tuple_eqb_cons i j t o : tuple_eqb (i :: t) (j :: o) = (i =? j) && tuple_eqb t o.
Proof.
  apply eq_true_iff_eq. rewrite andb_true_iff, !tuple_eqb_eq, Z.eqb_eq. split; [now intros [= -> ->]|now intros [-> ->]].
Qed.

Lemma fiber_count ax s : (forall x, In x s -> 0 <= x) -> forall start o, In o (indices (drop_from start ax s)) ->
  Zlen (filter (fun i => tuple_eqb (drop_from start ax i) o) (indices s)) = dropped start ax s.
Proof.
  induction s as [|n s IH]; intros Hs start o Ho; cbn [drop_from indices dropped] in *.
  - destruct Ho as [<-|[]]. reflexivity.
  - assert (Hn : 0 <= n) by (apply Hs; now left). assert (Hs' : forall x, In x s -> 0 <= x) by (intros; apply Hs; now right).
    rewrite filter_flat_map. destruct (existsb (Z.eqb start) ax) eqn:E.
    + rewrite (Zlen_flat_map_const _ _ (dropped (start + 1) ax s)); [rewrite Zlen_zseq; lia|].
      intros i _. rewrite filter_map_comm, Zlen_map. rewrite <- (IH Hs' (start + 1) o Ho). f_equal. apply filter_ext.
      intros t. cbn [drop_from]. now rewrite E.
    + cbn [indices] in Ho. apply in_flat_map in Ho as (j & Hj & Ho). apply in_map_iff in Ho as (o' & <- & Ho).
      rewrite Z.mul_1_l, <- (IH Hs' (start + 1) o' Ho).
      assert (G : forall l, NoDup l -> In j l ->
        Zlen (flat_map (fun x => filter (fun i => tuple_eqb (drop_from start ax i) (j :: o')) (map (cons x) (indices s))) l) =
        Zlen (filter (fun i => tuple_eqb (drop_from (start + 1) ax i) o') (indices s))).
      { assert (F : forall x, filter (fun i => tuple_eqb (drop_from start ax i) (j :: o')) (map (cons x) (indices s)) =
          if x =? j then map (cons x) (filter (fun i => tuple_eqb (drop_from (start + 1) ax i) o') (indices s)) else []).
        { intros x. rewrite filter_map_comm.
          rewrite (filter_ext _ (fun i => (x =? j) && tuple_eqb (drop_from (start + 1) ax i) o')).
          2:{ intros i. cbn [drop_from]. rewrite E. apply tuple_eqb_cons. }
          destruct (x =? j); [reflexivity|]. cbn [andb]. clear. induction (indices s) as [|? ? IHi]; [reflexivity|exact IHi]. }
        assert (None' : forall l, ~ In j l -> Zlen (flat_map (fun x => filter (fun i => tuple_eqb (drop_from start ax i) (j :: o')) (map (cons x) (indices s))) l) = 0).
        { induction l as [|x t IHl]; intros Hin; [reflexivity|]. cbn [flat_map]. rewrite Zlen_app, F.
          destruct (Z.eqb_spec x j) as [->|_]; [exfalso; apply Hin; now left|].
          rewrite IHl by (intros H; apply Hin; now right). reflexivity. }
        induction l as [|x t IHl]; intros Nd Hin; [destruct Hin|]. inversion Nd; subst. cbn [flat_map]. rewrite Zlen_app.
        destruct Hin as [->|Hin].
        - rewrite None' by assumption. rewrite F, Z.eqb_refl, Zlen_map. lia.
        - rewrite F. destruct (Z.eqb_spec x j) as [->|_]; [contradiction|]. rewrite IHl by assumption. reflexivity. }
      apply G; [|exact Hj]. unfold zseq. apply FinFun.Injective_map_NoDup; [intros ? ? ?; lia|apply seq_NoDup].
Qed.

Lemma dropped_ext ax ax' s : forall start, (forall x, start <= x -> existsb (Z.eqb x) ax = existsb (Z.eqb x) ax') ->
  dropped start ax s = dropped start ax' s.
Proof.
  induction s as [|n s IH]; intros start H; [reflexivity|]. cbn [dropped]. rewrite H by lia.
  rewrite (IH (start + 1)) by (intros; apply H; lia). reflexivity.
Qed.

Lemma existsb_In x l : existsb (Z.eqb x) l = true <-> In x l.
Proof. rewrite existsb_exists. split; [intros (y & Hy & E); apply Z.eqb_eq in E as ->; auto|]. intros H. exists x. now rewrite Z.eqb_refl. Qed.

Lemma np_prod_perm l l' : Permutation l l' -> np_prod l = np_prod l'.
Proof. unfold np_prod. induction 1; cbn [fold_right]; lia. Qed.

Lemma dropped_prod s : forall start ax, NoDup ax -> (forall x, In x ax -> start <= x < start + Zlen s) ->
  np_prod (map (fun x => zat s (x - start)) ax) = dropped start ax s.
Proof.
  induction s as [|n s IH]; intros start ax Nd Hax; cbn [dropped].
  - destruct ax as [|x t]; [reflexivity|]. specialize (Hax x (or_introl eq_refl)). cbn in Hax. lia.
  - rewrite Zlen_cons in Hax.
    assert (G : forall ax, NoDup ax -> (forall x, In x ax -> start + 1 <= x < start + 1 + Zlen s) ->
      np_prod (map (fun x => zat (n :: s) (x - start)) ax) = dropped (start + 1) ax s).
    { intros l Nl Hl. rewrite <- (IH (start + 1) l Nl Hl). f_equal. apply map_ext_in. intros x Hx. specialize (Hl x Hx).
      replace (x - start) with ((x - (start + 1)) + 1) by lia. unfold zat.
      replace (Z.to_nat (x - (start + 1) + 1)) with (S (Z.to_nat (x - (start + 1)))) by lia.
      destruct (Z.ltb_spec (x - (start + 1)) 0); [lia|]. destruct (Z.ltb_spec (x - (start + 1) + 1) 0); [lia|]. reflexivity. }
    destruct (existsb (Z.eqb start) ax) eqn:E.
    + apply existsb_In in E. apply in_split in E as (l1 & l2 & ->).
      assert (Pm : Permutation (l1 ++ start :: l2) (start :: l1 ++ l2)) by (symmetry; apply Permutation_middle).
      rewrite (np_prod_perm _ _ (Permutation_map _ Pm)). cbn [map]. rewrite Z.sub_diag.
      assert (Nd' := NoDup_remove_1 _ _ _ Nd). assert (Ni := NoDup_remove_2 _ _ _ Nd).
      change (n * np_prod (map (fun x => zat (n :: s) (x - start)) (l1 ++ l2)) = n * dropped (start + 1) (l1 ++ start :: l2) s).
      f_equal. rewrite G; [|exact Nd'|].
      * apply dropped_ext. intros x Hx. rewrite !existsb_app. cbn [existsb]. destruct (Z.eqb_spec x start); [lia|reflexivity].
      * intros x Hx. assert (x <> start) by (intros ->; contradiction).
        assert (Hi : In x (l1 ++ start :: l2)) by (apply in_app_iff in Hx; apply in_app_iff; cbn [In]; tauto).
        specialize (Hax x Hi). lia.
    + rewrite Z.mul_1_l. apply G; [exact Nd|]. intros x Hx. specialize (Hax x Hx).
      assert (x <> start); [|lia]. intros ->. apply existsb_In in Hx. congruence.
Qed.

Lemma np_axes_ok n axis ax : np_axes n axis = Ok ax -> 
  ax = map (fun a => a mod n) axis /\ NoDup ax /\ (forall a, In a axis -> - n <= a < n).
Proof.
  unfold np_axes. destruct (_ && _) eqn:E; [|discriminate]. intros [= <-]. apply andb_true_iff in E as [E1 E2].
  split; [reflexivity|]. split; [now apply distinct_NoDup|]. intros a Ha.
  rewrite forallb_forall in E1. specialize (E1 a Ha). apply andb_true_iff in E1. rewrite Z.leb_le, Z.ltb_lt in E1. exact E1.
Qed.

Lemma tuple_at_mod t x : - Zlen t <= x < Zlen t -> tuple_at t x = Ok (zat t (x mod Zlen t)).
Proof.
  intros H. unfold tuple_at. destruct (Z.leb_spec (- Zlen t) x); [|lia]. destruct (Z.ltb_spec x (Zlen t)); [|lia]. cbn [andb].
  do 2 f_equal. destruct (Z.ltb_spec x 0).
  - apply Z.mod_unique with (q := -1); lia.
  - now rewrite Z.mod_small by lia.
Qed.

Lemma mapM_pure {A B} (f : A -> outcome B) g l : (forall x, In x l -> f x = Ok (g x)) -> mapM f l = Ok (map g l).
Proof.
  intros H. induction l as [|x t IH]; [reflexivity|]. cbn [mapM map]. rewrite H by (now left). cbn [bind].
  rewrite IH by (intros; apply H; now right). reflexivity.
Qed.

(** mean_length is the number of entries of every fibre. *)
Lemma mean_length_ok sa shape D a ax : wf sa -> to_dense sa = Ok (Dense shape D) ->
  np_axes (Zlen shape) (axes_meant sa a) = Ok ax ->
  exists n, mean_length sa (format_axis sa a) = Ok n /\ forall l, In l (np_fibers shape ax D) -> Zlen l = n.
Proof.
  intros W HD H. pose proof (shape_eq sa shape D W HD) as Es.
  destruct (np_axes_ok _ _ _ H) as (-> & Nd & R).
  exists (np_prod (map (fun x => zat shape (x mod Zlen shape)) (format_axis sa a))). split.
  - unfold mean_length. rewrite (mapM_pure _ (fun x => zat shape (x mod Zlen shape))); [reflexivity|].
    intros x Hx. rewrite format_meant in Hx. apply (Permutation_in _ (Permutation_sym (isort_perm _))) in Hx.
    unfold sp_shape. rewrite <- Es. apply tuple_at_mod, R, Hx.
  - intros l Hl. unfold np_fibers in Hl. apply in_map_iff in Hl as (o & <- & Ho). rewrite Zlen_map.
    assert (Hp : forall x, In x shape -> 0 <= x).
    { rewrite Es. intros x Hx. apply in_app_iff in Hx as [Hx|Hx]; [exact (shape_nonneg _ (wf_scan _ W) x Hx)|exact (shape_nonneg _ (wf_frame _ W) x Hx)]. }
    unfold drop_axes in *. rewrite (fiber_count _ shape Hp 0 o Ho).
    rewrite <- (dropped_prod shape 0); [|exact Nd|].
    + rewrite map_map. rewrite format_meant. rewrite (np_prod_perm _ _ (Permutation_map _ (Permutation_sym (isort_perm (axes_meant sa a))))).
      f_equal. apply map_ext. intros x. now rewrite Z.sub_0_r.
    + intros x Hx. apply in_map_iff in Hx as (y & <- & Hy). specialize (R y Hy).
      pose proof (Z.mod_pos_bound y (Zlen shape)). lia.
Qed.

(** Any order of adding up is exact while the total is at most 2^24. *)
Lemma added_exact l x : added l x -> forall zs, Forall2 (fun f z => f = f_of_Z z) l zs -> (forall z, In z zs -> 0 <= z) ->
  zsum zs <= 2 ^ 24 -> fval x (IZR (zsum zs)).
Proof.
  induction 1 as [|x|l1 l2 x y _ IH1 _ IH2|l l' x _ IH Hp]; intros zs F Hz Hs.
  - inversion F; subst. apply fval_int. cbn. lia.
  - inversion F as [|? z ? t -> Ft]; subst. inversion Ft; subst. cbn [zsum] in *. rewrite Z.add_0_r in *.
    apply fval_int. specialize (Hz z (or_introl eq_refl)). lia.
  - apply Forall2_app_inv_l in F as (z1 & z2 & F1 & F2 & ->). rewrite zsum_app in *.
    assert (0 <= zsum z1) by (apply zsum_nonneg; intros; apply Hz, in_app_iff; now left).
    assert (0 <= zsum z2) by (apply zsum_nonneg; intros; apply Hz, in_app_iff; now right).
    apply fval_add_int; [apply IH1; auto; [|lia]|apply IH2; auto; [|lia]|lia]; intros; apply Hz, in_app_iff; auto.
  - destruct (Permutation_Forall2 (Permutation_sym Hp) F) as (zs' & Pz & F').
    assert (E : zsum zs = zsum zs') by (clear -Pz; induction Pz; cbn [zsum]; lia). rewrite E in *.
    apply IH; auto. intros z Hin. apply Hz. apply (Permutation_in _ (Permutation_sym Pz)), Hin.
Qed.

Lemma order_exact order l : summation order -> (forall z, In z l -> 0 <= z) -> zsum l <= 2 ^ 24 ->
  fval (order (map f_of_Z l)) (IZR (zsum l)).
Proof.
  intros Ho Hz Hs. apply (added_exact _ _ (Ho _)); auto. clear. induction l; cbn [map]; constructor; auto.
Qed.

Lemma nth_error_map_zseq {A} (f : Z -> A) n k l : nth_error (map f (zseq n)) k = Some l ->
  0 <= Z.of_nat k < n /\ l = f (Z.of_nat k).
Proof.
  rewrite nth_error_map. destruct (nth_error (zseq n) k) eqn:E; cbn; [|discriminate]. intros [= <-].
  assert (Hk := proj1 (nth_error_Some (zseq n) k) ltac:(congruence)).
  unfold zseq in E, Hk. rewrite map_length, seq_length in Hk. rewrite nth_error_map in E.
  rewrite (nth_error_nth' _ 0%nat) in E by (now rewrite seq_length). cbn in E. rewrite seq_nth in E by exact Hk.
  injection E as <-. split; [lia|]. reflexivity.
Qed.

Lemma nth_error_fat (l : list float32) k : 0 <= Z.of_nat k < Zlen l -> nth_error l k = Some (fat l (Z.of_nat k)).
Proof.
  intros H. unfold fat. rewrite Nat2Z.id. apply nth_error_nth'. unfold Zlen in H. lia.
Qed.

Section float_sum.
  Variables (sa : sparse) (shape D : list Z) (order : list float32 -> float32).
  Hypothesis W : wf sa.
  Hypothesis HD : to_dense sa = Ok (Dense shape D).
  Hypothesis Ho : summation order.
  Let P := num_scans sa.
  Let N := frame_size sa.

  Lemma dense_nonneg k : 0 <= zat D k.
  Proof.
    destruct (C36_dense_values sa W) as (D' & E & L & V). rewrite HD in E. injection E as _ <-.
    destruct (Z_lt_le_dec k 0); [unfold zat; destruct (Z.ltb_spec k 0); lia|].
    destruct (Z_lt_le_dec k (Zlen D)).
    - assert (HN := frame_size_nonneg sa W). assert (frame_size sa <> 0) by nia.
      rewrite (Z_div_mod_eq_full k (frame_size sa)). pose proof (Z.mod_pos_bound k (frame_size sa)).
      replace (frame_size sa * (k / frame_size sa)) with (k / frame_size sa * frame_size sa) by lia.
      rewrite V; [apply events_nonneg| |lia]. split; [apply Z.div_pos; lia|]. apply Z.div_lt_upper_bound; nia.
    - unfold zat. destruct (Z.ltb_spec k 0); [lia|]. rewrite nth_overflow; [lia|]. unfold Zlen in *. lia.
  Qed.

  Lemma fiber_nonneg ax l : In l (np_fibers shape ax D) -> forall z, In z l -> 0 <= z.
  Proof.
    intros Hl z Hz. unfold np_fibers in Hl. apply in_map_iff in Hl as (o & <- & _).
    apply in_map_iff in Hz as (i & <- & _). apply dense_nonneg.
  Qed.

  Lemma expanded_ok : getitem (with_slicing sa false) [KSlice None None None] =
    if sp_full sa then Ok (Dense shape D) else full_denied.
  Proof.
    pose proof (other_axes sa shape D W HD) as _.
    assert (Wd : wf (with_slicing sa false)) by (destruct W; constructor; assumption).
    assert (Dd : to_dense (with_slicing sa false) = Ok (Dense shape D)) by exact HD.
    assert (K : exists sk fk sl fl, split_slices (with_slicing sa false) [KSlice None None None] = Ok (sk, fk) /\
      np_select (sp_scan (with_slicing sa false)) sk = Ok (sp_scan sa, sl) /\
      np_select (sp_frame (with_slicing sa false)) fk = Ok (sp_frame sa, fl)).
    { exists [KSlice None None None], []. unfold with_slicing, split_slices. cbn [sp_scan sp_frame].
      assert (Sl : forall n, 0 <= n -> exists l, slice_positions n None None None = Ok l /\ Zlen l = n).
      { intros n Hn. unfold slice_positions. cbn. eexists. split; [reflexivity|]. rewrite Zlen_map.
        unfold slice_count. cbn. destruct (Z.ltb_spec 0 n); [|cbn; lia].
        replace (n - 0 - 1) with (n - 1) by lia. rewrite Z.div_1_r, Zlen_zseq by lia. lia. }
      destruct (wf_scan _ W) as [(n & -> & Hn)|(n & m & -> & Hn & Hm)];
        destruct (Sl n Hn) as (l & El & Ll); cbn [np_select axis_select]; rewrite El; cbn [bind]; rewrite Ll;
        (destruct (wf_frame _ W) as [(x & -> & _)|(x & y & -> & _)]; do 2 eexists; repeat split). }
    destruct K as (sk & fk & sl & fl & K1 & K2 & K3).
    destruct (C39_slice_dense (with_slicing sa false) _ _ _ _ _ _ _ shape D Wd eq_refl Dd K1 K2 K3) as [A _].
    change (sp_full (with_slicing sa false)) with (sp_full sa) in A.
    destruct (sp_full sa) eqn:F; [|now apply A].
    rewrite <- HD. unfold to_dense, with_slicing. now rewrite F.
  Qed.

  Lemma np_float_sum_perm l l' : Permutation l l' -> np_float_sum order shape D l = np_float_sum order shape D l'.
  Proof.
    intros Pl. assert (Pm : Permutation (map (fun a => a mod Zlen shape) l) (map (fun a => a mod Zlen shape) l'))
      by now apply Permutation_map.
    unfold np_float_sum, np_axes. rewrite (forallb_perm _ _ _ Pl), (distinct_perm _ _ Pm).
    destruct (_ && _); [|reflexivity]. cbn [bind].
    rewrite (np_fibers_perm _ _ _ _ Pm). unfold drop_axes. now rewrite (drop_from_perm _ _ _ Pm).
  Qed.

  Lemma format_again a : format_axis sa (AxSeq (format_axis sa a)) = format_axis sa a.
  Proof. rewrite (format_meant sa (AxSeq _)). cbn [axes_meant]. rewrite format_meant. apply isort_perm_eq, Permutation_sym, isort_perm. Qed.

  Lemma float_sum_again a : float_sum order sa (AxSeq (format_axis sa a)) = float_sum order sa a.
  Proof. unfold float_sum. now rewrite format_again. Qed.

  Lemma float_other a : ~ whole_scan sa a -> ~ whole_frame sa a ->
    fst (float_sum order sa a) =
    if sp_full sa then np_float_sum order shape D (axes_meant sa a) else full_denied.
  Proof.
    intros H1 H2. unfold float_sum, float_body.
    destruct (is_scan_axes sa _) eqn:E1; [apply is_scan_axes_spec in E1; contradiction|].
    destruct (is_frame_axes sa _) eqn:E2; [apply is_frame_axes_spec in E2; contradiction|].
    cbn [fst]. rewrite format_meant, expanded_ok.
    destruct (sp_full sa); [|reflexivity]. cbn [bind]. symmetry. apply np_float_sum_perm, isort_perm.
  Qed.

  Lemma float_sum_ok a ax : sp_full sa = true \/ whole_scan sa a \/ whole_frame sa a ->
    np_axes (Zlen shape) (axes_meant sa a) = Ok ax ->
    exists s, fst (float_sum order sa a) = Ok (drop_axes ax shape, s) /\ Zlen s = Zlen (np_fibers shape ax D) /\
      forall k l, nth_error (np_fibers shape ax D) k = Some l -> zsum l <= 2 ^ 24 ->
        exists v, nth_error s k = Some v /\ fval v (IZR (zsum l)).
  Proof.
    intros Hfull Hax.
    destruct (is_scan_axes sa (format_axis sa a)) eqn:E1.
    - apply is_scan_axes_spec in E1 as H. destruct (whole_scan_axes sa shape D W HD a H) as (ax' & Ea & Es & Ef).
      rewrite Hax in Ea. injection Ea as <-. rewrite Es, Ef. unfold float_sum, float_body. rewrite E1.
      destruct (fsum_scan_ok sa W) as (s & E & L & V). rewrite E. cbn [bind fst]. exists s. split; [reflexivity|].
      assert (HN := frame_size_nonneg sa W). split; [rewrite Zlen_map, Zlen_zseq by exact HN; exact L|].
      intros k l Hk Hs. apply nth_error_map_zseq in Hk as (Hk & ->). exists (fat s (Z.of_nat k)).
      split; [apply nth_error_fat; rewrite L; exact Hk|]. specialize (V _ Hk).
      rewrite (along_scan_eq sa shape D W HD) in * by exact Hk. rewrite Z.min_l in V by exact Hs. exact V.
    - destruct (is_frame_axes sa (format_axis sa a)) eqn:E2.
      + apply is_frame_axes_spec in E2 as H. destruct (whole_frame_axes sa shape D W HD a H) as (ax' & Ea & Es & Ef).
        rewrite Hax in Ea. injection Ea as <-. rewrite Es, Ef. unfold float_sum, float_body. rewrite E1, E2.
        rewrite fsum_frame_ok by exact W. cbn [bind fst]. eexists. split; [reflexivity|].
        assert (HP := num_scans_nonneg sa W). split; [rewrite !Zlen_map, Zlen_zseq by exact HP; apply (wf_len sa W)|].
        intros k l Hk Hs. apply nth_error_map_zseq in Hk as (Hk & ->). exists (fsum_row (row_at sa (Z.of_nat k))).
        rewrite (along_frame_eq sa shape D W HD) in * by exact Hk.
        assert (Hin : In (row_at sa (Z.of_nat k)) (sp_data sa)).
        { unfold row_at. apply nth_In. pose proof (wf_len sa W). unfold num_scans, Zlen in *. lia. }
        rewrite <- total_as_events in * by
          (try (intros fr Hf; exact (wf_frames sa W _ fr Hin Hf)); apply frame_size_nonneg; exact W).
        split; [|now apply fsum_row_val].
        rewrite nth_error_map. unfold row_at. rewrite Nat2Z.id.
        rewrite (nth_error_nth' _ ([] : list (list Z))); [reflexivity|].
        pose proof (wf_len sa W). unfold num_scans, Zlen in *. lia.
      + assert (H1 : ~ whole_scan sa a) by (intros H; apply is_scan_axes_spec in H; congruence).
        assert (H2 : ~ whole_frame sa a) by (intros H; apply is_frame_axes_spec in H; congruence).
        rewrite (float_other a H1 H2). destruct Hfull as [->|[H|H]]; try contradiction.
        unfold np_float_sum. rewrite Hax. cbn [bind]. eexists. split; [reflexivity|]. split; [apply Zlen_map|].
        intros k l Hk Hs. exists (order (map f_of_Z l)). split; [rewrite nth_error_map, Hk; reflexivity|].
        apply order_exact; auto. apply fiber_nonneg with ax. eapply nth_error_In, Hk.
  Qed.
End float_sum.

Lemma float_sum_same sa order a : snd (float_sum order sa a) = sa.
Proof.
  unfold float_sum. destruct (float_body sa _) as [[r|]| | |]; try reflexivity. cbn [snd]. destruct sa; reflexivity.
Qed.

(** ** The theorems *)

(** C80.  The mean over some of the axes: at every index of the result the correctly
    rounded quotient of the sum of the dense entries and their number, as long as both
    are at most 2^24, in whatever order NumPy adds up. *)
Theorem C80_mean sa shape D order a ax : wf sa -> to_dense sa = Ok (Dense shape D) -> summation order ->
  sp_full sa = true \/ whole_scan sa a \/ whole_frame sa a ->
  np_axes (Zlen shape) (axes_meant sa a) = Ok ax -> drop_axes ax shape <> [] ->
  exists r, fst (py_mean order sa a MFloat32) = Ok (MArray (drop_axes ax shape) r) /\
    Zlen r = Zlen (np_fibers shape ax D) /\
    forall k l, nth_error (np_fibers shape ax D) k = Some l -> 0 < Zlen l <= 2 ^ 24 -> zsum l <= 2 ^ 24 ->
      exists v, nth_error r k = Some v /\ fval v (f_rnd (IZR (zsum l) / IZR (Zlen l))).
Proof.
  intros W HD Ho Hfull Hax Hne. destruct (mean_length_ok sa shape D a ax W HD Hax) as (n & En & Hn).
  destruct (float_sum_ok sa shape D order W HD Ho a ax Hfull Hax) as (s & Es & Ls & Vs).
  unfold py_mean, mean_body. rewrite float_sum_again. pose proof (float_sum_same sa order a) as Sm.
  destruct (float_sum order sa a) as [o sa']. cbn [fst snd] in *. subst o sa'. cbn [bind]. rewrite En. cbn [bind].
  exists (map (fun v => f_div v (f_of_Z n)) s). split; [destruct (drop_axes ax shape); [contradiction|reflexivity]|].
  split; [now rewrite Zlen_map|]. intros k l Hk Hl Hs.
  assert (Hin : In l (np_fibers shape ax D)) by (eapply nth_error_In, Hk).
  destruct (Vs k l Hk Hs) as (v & Ev & Hv). exists (f_div v (f_of_Z n)). split; [rewrite nth_error_map, Ev; reflexivity|].
  rewrite (Hn l Hin) in *. apply mean_div; auto. split; [|exact Hs].
  apply zsum_nonneg. exact (fiber_nonneg sa shape D W HD ax l Hin).
Qed.

(** ... and over all axes (for instance without an axis argument): the quotient as a
    double. *)
Theorem C80_mean_all sa shape D order a ax : wf sa -> to_dense sa = Ok (Dense shape D) -> summation order ->
  sp_full sa = true -> np_axes (Zlen shape) (axes_meant sa a) = Ok ax -> drop_axes ax shape = [] ->
  exists l v, np_fibers shape ax D = [l] /\ fst (py_mean order sa a MFloat32) = Ok (MScalar v) /\
    (0 < Zlen l <= 2 ^ 53 -> zsum l <= 2 ^ 24 -> dval v (d_rnd (IZR (zsum l) / IZR (Zlen l)))).
Proof.
  intros W HD Ho Hfull Hax Hne. destruct (mean_length_ok sa shape D a ax W HD Hax) as (n & En & Hn).
  destruct (float_sum_ok sa shape D order W HD Ho a ax (or_introl Hfull) Hax) as (s & Es & Ls & Vs).
  assert (Hf : exists l, np_fibers shape ax D = [l]) by (unfold np_fibers; rewrite Hne; cbn [indices map]; eauto).
  destruct Hf as (l & Ef). rewrite Ef in *. destruct s as [|x [|y t]]; [discriminate Ls| |exfalso; unfold Zlen in Ls; cbn [List.length] in Ls; lia].
  unfold py_mean, mean_body. rewrite float_sum_again. pose proof (float_sum_same sa order a) as Sm.
  destruct (float_sum order sa a) as [o sa']. cbn [fst snd] in *. subst o sa'. cbn [bind]. rewrite En. cbn [bind].
  rewrite Hne. do 2 eexists. split; [reflexivity|]. split; [reflexivity|]. intros Hl Hs.
  destruct (Vs 0%nat l eq_refl Hs) as (v & [= <-] & Hv). rewrite (Hn l (or_introl eq_refl)) in *.
  assert (0 <= zsum l).
  { apply zsum_nonneg. apply (fiber_nonneg sa shape D W HD ax l). rewrite Ef. now left. }
  assert (H1 : (1 <= IZR n)%R) by (apply IZR_le; lia). assert (H0 : (0 <= IZR (zsum l))%R) by (apply IZR_le; lia).
  apply dval_div; [now apply ClassicPyProofs.dval_of_f|apply dval_of_int; lia|lra|].
  rewrite Rabs_pos_eq.
  - apply Rle_trans with (IZR (2 ^ 24)); [|change (IZR (2 ^ 24)) with (bpow radix2 24); apply bpow_le; lia].
    apply Rle_trans with (IZR (zsum l)); [|apply IZR_le; lia].
    apply Rmult_le_reg_r with (IZR n); [lra|]. unfold Rdiv. rewrite Rmult_assoc, Rinv_l by lra. nra.
  - apply Rmult_le_pos; [exact H0|]. left. apply Rinv_0_lt_compat. lra.
Qed.

(** If full expansion is not allowed and the axes are others than those of the scan or
    of the frame the call raises, whatever they are. *)
Theorem C80_denied sa order a dtype : wf sa -> sp_full sa = false -> ~ whole_scan sa a -> ~ whole_frame sa a ->
  fst (py_mean order sa a dtype) = Throw "FullExpansionDenied".
Proof.
  intros W F H1 H2. destruct (C36_dense_values sa W) as (D & HD & _).
  unfold py_mean, mean_body. destruct dtype as [|bits].
  - rewrite float_sum_again. pose proof (float_other sa _ D order W HD a H1 H2) as E. rewrite F in E.
    destruct (float_sum order sa a) as [o sa']. cbn [fst] in *. now rewrite E.
  - assert (H1' : ~ whole_scan sa (AxSeq (format_axis sa a))).
    { intros H. apply H1. apply is_scan_axes_spec in H. rewrite format_again in H. now apply is_scan_axes_spec. }
    assert (H2' : ~ whole_frame sa (AxSeq (format_axis sa a))).
    { intros H. apply H2. apply is_frame_axes_spec in H. rewrite format_again in H. now apply is_frame_axes_spec. }
    pose proof (C78_denied RSum sa _ (Some bits) W F H1' H2') as E.
    destruct (py_reduce RSum sa _ (Some bits)) as [o sa']. cbn [fst] in *. now rewrite E.
Qed.

(** Axes out of range or repeated raise, as they do in NumPy. *)
Theorem C80_bad_axes sa shape D order a dtype : wf sa -> to_dense sa = Ok (Dense shape D) -> sp_full sa = true ->
  np_axes (Zlen shape) (axes_meant sa a) = value_error ->
  fst (py_mean order sa a dtype) = value_error.
Proof.
  intros W HD F Hax.
  assert (H1 : ~ whole_scan sa a).
  { intros H. destruct (whole_scan_axes sa shape D W HD a H) as (ax & E & _). rewrite Hax in E. discriminate. }
  assert (H2 : ~ whole_frame sa a).
  { intros H. destruct (whole_frame_axes sa shape D W HD a H) as (ax & E & _). rewrite Hax in E. discriminate. }
  unfold py_mean, mean_body. destruct dtype as [|bits].
  - rewrite float_sum_again. pose proof (float_other sa _ D order W HD a H1 H2) as E. rewrite F in E.
    destruct (float_sum order sa a) as [o sa']. cbn [fst] in *. rewrite E. unfold np_float_sum. now rewrite Hax.
  - pose proof (C78_sum sa shape D (AxSeq (format_axis sa a)) bits W HD (or_introl F)) as E.
    destruct (py_reduce RSum sa _ (Some bits)) as [o sa']. cbn [fst] in *. rewrite E. cbn [axes_meant].
    rewrite format_meant, <- (np_reduce_perm _ _ _ _ _ _ _ (isort_perm (axes_meant sa a))).
    unfold np_reduce. now rewrite Hax.
Qed.

(** The call changes neither the array nor its settings. *)
Theorem C80_unchanged sa order a dtype : snd (py_mean order sa a dtype) = sa.
Proof.
  unfold py_mean, mean_body. destruct dtype as [|bits].
  - pose proof (float_sum_same sa order (AxSeq (format_axis sa a))) as E. destruct (float_sum order sa _). exact E.
  - pose proof (C78_unchanged RSum sa (AxSeq (format_axis sa a)) (Some bits)) as E. destruct (py_reduce RSum sa _ _). exact E.
Qed.

(** Finding: an integer result type makes the call raise, unless all axes are
    reduced. *)
Theorem C80_integer_type_refuted sa shape D order a ax bits : wf sa -> to_dense sa = Ok (Dense shape D) ->
  sp_full sa = true \/ whole_scan sa a \/ whole_frame sa a ->
  np_axes (Zlen shape) (axes_meant sa a) = Ok ax -> drop_axes ax shape <> [] ->
  fst (py_mean order sa a (MInt bits)) = Throw "UFuncTypeError".
Proof.
  intros W HD Hfull Hax Hne. destruct (mean_length_ok sa shape D a ax W HD Hax) as (n & En & Hn).
  assert (Hfull' : sp_full sa = true \/ whole_scan sa (AxSeq (format_axis sa a)) \/ whole_frame sa (AxSeq (format_axis sa a))).
  { destruct Hfull as [H|[H|H]]; [now left|right; left|right; right].
    - apply is_scan_axes_spec. rewrite format_again. now apply is_scan_axes_spec.
    - apply is_frame_axes_spec. rewrite format_again. now apply is_frame_axes_spec. }
  pose proof (C78_sum sa shape D (AxSeq (format_axis sa a)) bits W HD Hfull') as E.
  pose proof (C78_unchanged RSum sa (AxSeq (format_axis sa a)) (Some bits)) as S.
  cbn [axes_meant] in E. rewrite format_meant in E at 2.
  rewrite <- (np_reduce_perm _ _ _ _ _ _ _ (isort_perm (axes_meant sa a))) in E.
  unfold py_mean, mean_body. destruct (py_reduce RSum sa _ (Some bits)) as [o sa']. cbn [fst snd] in *. subst o sa'.
  unfold np_reduce. rewrite Hax. cbn [bind]. rewrite En. cbn [bind].
  destruct (drop_axes ax shape); [contradiction|reflexivity].
Qed.

(** ** Non-vacuity *)
Definition left_to_right (l : list float32) : float32 :=
  match l with [] => f_of_Z 0 | x :: t => fold_left f_add t x end.
Lemma left_to_right_sums : summation left_to_right.
Proof.
  intros [|x t]; [constructor|]. cbn [left_to_right].
  assert (G : forall l y, added l y -> added (l ++ t) (fold_left f_add t y)).
  { induction t as [|z t IH]; intros l y H; cbn [fold_left]; [now rewrite app_nil_r|].
    replace (l ++ z :: t)%list with ((l ++ [z]) ++ t)%list by (now rewrite <- app_assoc). apply IH.
    apply added_two; [exact H|apply added_one]. }
  exact (G [x] x (added_one x)).
Qed.

Definition ex_mean_array : sparse :=
  mkSparse [[[1; 4]]; [[0; 5]]; [[5]]; [[2; 3]]; [[1; 2; 3]]; [[5; 4]]] 1 [3; 2] [2; 3] 32 true true.
Definition third : float32 := f_div (f_of_Z 1) (f_of_Z 3).

Example C80_meets :
  wf ex_mean_array /\
  (exists D, to_dense ex_mean_array = Ok (Dense [3; 2; 2; 3] D)) /\
  np_axes 4 (axes_meant ex_mean_array (AxSeq [-1; 0])) = Ok [3; 0] /\ drop_axes [3; 0] [3; 2; 2; 3] = [2; 2] /\
  match fst (py_mean left_to_right ex_mean_array (AxSeq [-1; 0]) MFloat32) with
  | Ok (MArray s l) => s = [2; 2] /\ map (f_eq third) l = [true; true; false; false] /\ List.length l = 4%nat
  | _ => False
  end /\
  match fst (py_mean left_to_right ex_mean_array AxNone MFloat32) with
  | Ok (MScalar v) => d_eq v (d_div (d_of_Z 12) (d_of_Z 36)) = true
  | _ => False
  end /\
  fst (py_mean left_to_right ex_mean_array (AxInt 4) MFloat32) = value_error /\
  fst (py_mean left_to_right ex_mean_array (AxInt 1) (MInt 32)) = Throw "UFuncTypeError".
Proof.
  split.
  { constructor.
    - right. exists 3, 2. repeat split; lia.
    - right. exists 2, 3. repeat split; lia.
    - reflexivity.
    - intros r Hr. repeat (destruct Hr as [<-|Hr]; [reflexivity|]). destruct Hr.
    - cbn. lia.
    - cbn. lia.
    - intros r fr Hr Hf.
      assert (G : forall r, In r (sp_data ex_mean_array) -> forall fr, In fr r -> NoDup fr /\ forallb (fun x => (0 <=? x) && (x <? 6)) fr = true).
      { clear. intros r Hr fr Hf. repeat (destruct Hr as [<-|Hr]; [destruct Hf as [<-|[]]; (split; [repeat constructor; cbn; intuition lia|reflexivity])|]).
        destruct Hr. }
      destruct (G r Hr fr Hf) as [Nd Fb]. split; [exact Nd|]. intros x Hx. rewrite forallb_forall in Fb. specialize (Fb x Hx).
      apply andb_true_iff in Fb. rewrite Z.leb_le, Z.ltb_lt in Fb. cbn. lia. }
  split; [eexists; vm_compute; reflexivity|].
  split; [reflexivity|]. split; [reflexivity|].
  split; [vm_compute; repeat split|]. split; [vm_compute; reflexivity|]. split; vm_compute; reflexivity.
Qed.

Print Assumptions C80_mean.
Print Assumptions C80_mean_all.
Print Assumptions C80_denied.
Print Assumptions C80_bad_axes.
Print Assumptions C80_unchanged.
Print Assumptions C80_integer_type_refuted.
