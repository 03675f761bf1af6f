(** Indexing a sparse array: ranges of NumPy selections, expansion of slices. *)
From Coq Require Import String ZArith List Bool Lia Permutation.
From Verif Require Import Base BaseFacts StemProofs PyProofs SparseModel SparseSpec SparseProofs.
Import ListNotations.
Open Scope Z_scope.

Local Arguments Z.mul : simpl never.
Local Arguments Z.add : simpl never.

Lemma Zlen_map {A B} (f : A -> B) l : Zlen (map f l) = Zlen l.
Proof. unfold Zlen. now rewrite map_length. Qed.

Lemma slice_positions_range n a b s l :
  0 <= n -> slice_positions n a b s = Ok l -> (forall x, In x l -> 0 <= x < n) /\ NoDup l.
Proof.
  intros Hn. unfold slice_positions. set (st := match s with Some x => x | None => 1 end).
  destruct (Z.eqb_spec st 0) as [|Hst]; [discriminate|].
  cbv zeta. intros E. injection E as <-.
  set (clip := fun v => Z.max (if 0 <? st then 0 else -1)
                          (Z.min (if 0 <? st then n else n - 1) (if v <? 0 then v + n else v))).
  set (A := match a with Some v => clip v | None => if 0 <? st then 0 else n - 1 end).
  set (B := match b with Some v => clip v | None => if 0 <? st then n else -1 end).
  assert (Hclip : forall v, (if 0 <? st then 0 else -1) <= clip v <= (if 0 <? st then n else n - 1)).
  { intros v. unfold clip. destruct (0 <? st); lia. }
  assert (HA : (if 0 <? st then 0 else -1) <= A <= (if 0 <? st then n else n - 1)).
  { unfold A. destruct a; [apply Hclip|]. destruct (0 <? st); lia. }
  assert (HB : (if 0 <? st then 0 else -1) <= B <= (if 0 <? st then n else n - 1)).
  { unfold B. destruct b; [apply Hclip|]. destruct (0 <? st); lia. }
  change ((forall x, In x (map (fun k => A + k * st) (zseq (slice_count A B st))) -> 0 <= x < n) /\
          NoDup (map (fun k => A + k * st) (zseq (slice_count A B st)))).
  clearbody A B. clear Hclip clip. split.
  - intros x Hx. apply in_map_iff in Hx as [k [<- Hk]]. apply in_zseq in Hk.
    unfold slice_count in Hk. revert HA HB Hk. destruct (Z.ltb_spec 0 st); intros HA HB Hk.
    + revert Hk. destruct (Z.ltb_spec A B); intros Hk; [|lia].
      assert (k <= (B - A - 1) / st) by lia.
      assert (st * ((B - A - 1) / st) <= B - A - 1) by (apply Z.mul_div_le; lia). nia.
    + revert Hk. destruct (Z.ltb_spec B A); intros Hk; [|lia].
      assert (k <= (A - B - 1) / - st) by lia.
      assert (- st * ((A - B - 1) / - st) <= A - B - 1) by (apply Z.mul_div_le; lia). nia.
  - apply FinFun.Injective_map_NoDup; [|apply NoDup_zseq]. intros x y. nia.
Qed.

Lemma true_positions_range l x : In x (true_positions l) -> 0 <= x < Zlen l.
Proof. unfold true_positions. intros H. apply filter_In in H as [H _]. now apply in_zseq. Qed.

Lemma true_positions_nodup l : NoDup (true_positions l).
Proof. apply NoDup_filter, NoDup_zseq. Qed.

Definition axis_list (s : axis_sel) : list Z :=
  match s with AInt i => [i] | ABasic l | AAdv l => l end.

Lemma axis_select_range n k s :
  0 <= n -> axis_select n k = Ok s -> forall x, In x (axis_list s) -> 0 <= x < n.
Proof.
  intros Hn. destruct k as [i|a b st|l|l| |]; cbn [axis_select]; try discriminate.
  - intros E. apply bind_ok in E as [j [Ej E]]. injection E as <-. apply np_index_inv in Ej.
    cbn [axis_list]. intros x [<-|[]]. exact Ej.
  - intros E. apply bind_ok in E as [l [El E]]. injection E as <-.
    apply (slice_positions_range _ _ _ _ _ Hn El).
  - intros E. apply bind_ok in E as [l' [El E]]. injection E as <-. apply mapM_inv in El.
    cbn [axis_list]. intros x Hx. induction El as [|u v t t' Huv _ IH]; [destruct Hx|].
    destruct Hx as [<-|Hx]; [now apply np_index_inv in Huv|now apply IH].
  - destruct (Z.eqb_spec (Zlen l) n); [|discriminate]. intros E. injection E as <-.
    cbn [axis_list]. intros x Hx. apply true_positions_range in Hx. lia.
Qed.

Lemma Zlen_cross m a b : Zlen (cross m a b) = Zlen a * Zlen b.
Proof.
  unfold cross. induction a as [|x t IH]; [reflexivity|].
  cbn [flat_map]. rewrite Zlen_app, IH, Zlen_map, Zlen_cons. lia.
Qed.

Lemma in_cross m a b x : In x (cross m a b) -> exists r c, In r a /\ In c b /\ x = r * m + c.
Proof.
  unfold cross. intros H. apply in_flat_map in H as [r [Hr H]].
  apply in_map_iff in H as [c [<- Hc]]. eauto.
Qed.

Lemma broadcast2_in a b ps p : broadcast2 a b = Ok ps -> In p ps -> In (fst p) a /\ In (snd p) b.
Proof.
  unfold broadcast2. destruct (Z.eqb_spec (Zlen a) (Zlen b)).
  - intros E. injection E as <-. destruct p as [x y]. intros H. cbn [fst snd].
    split; [eapply in_combine_l|eapply in_combine_r]; eauto.
  - destruct (Z.eqb_spec (Zlen a) 1) as [Ha|].
    { intros E. injection E as <-. intros H. apply in_map_iff in H as [y [<- Hy]]. cbn [fst snd].
      split; [|exact Hy]. destruct a as [|x t]; [cbn in Ha; lia|now left]. }
    destruct (Z.eqb_spec (Zlen b) 1) as [Hb|]; [|discriminate].
    intros E. injection E as <-. intros H. apply in_map_iff in H as [y [<- Hy]]. cbn [fst snd].
    split; [exact Hy|]. destruct b as [|x t]; [cbn in Hb; lia|now left].
Qed.

Lemma flat_range n m r c : 0 <= r < n -> 0 <= c < m -> 0 <= r * m + c < n * m.
Proof. nia. Qed.

(** A selection addresses existing entries and fills its shape. *)
Lemma np_select_range s ks s' l :
  shape_ok s -> np_select s ks = Ok (s', l) ->
  (forall x, In x l -> 0 <= x < np_prod s) /\ Zlen l = np_prod s' /\ (s' = [] \/ shape_ok s').
Proof.
  intros Hs E.
  assert (Hnn := np_prod_nonneg s Hs).
  assert (Hall : ks = [] -> s' = s /\ l = zseq (np_prod s)).
  { intros ->. destruct s as [|? [|? [|? ?]]]; cbn [np_select] in E; injection E as <- <-; auto. }
  destruct ks as [|k1 [|k2 [|k3 ks]]].
  - destruct (Hall eq_refl) as [-> ->]. repeat split.
    + apply in_zseq in H. lia.
    + apply in_zseq in H. lia.
    + now apply Zlen_zseq.
    + now right.
  - clear Hall. destruct Hs as [[n [-> Hn]]|[n [m [-> [Hn Hm]]]]].
    + cbn [np_select] in E. apply bind_ok in E as [a [Ea E]].
      assert (R := axis_select_range _ _ _ Hn Ea). cbn [np_prod fold_right] in *.
      destruct a as [i|b|b]; injection E as <- <-; cbn [axis_list] in R; split.
      * intros x Hx. apply R in Hx. lia.
      * cbn. auto.
      * intros x Hx. apply R in Hx. lia.
      * cbn [np_prod fold_right]. split; [lia|]. right. left. eexists; split; [reflexivity|apply Zlen_nonneg].
      * intros x Hx. apply R in Hx. lia.
      * cbn [np_prod fold_right]. split; [lia|]. right. left. eexists; split; [reflexivity|apply Zlen_nonneg].
    + assert (G : (let* a := axis_select n k1 in
                   match a with
                   | AInt i => Ok ([m], map (fun c => i * m + c) (zseq m))
                   | ABasic l | AAdv l => Ok ([Zlen l; m], cross m l (zseq m))
                   end) = Ok (s', l) ->
                  (forall x, In x l -> 0 <= x < np_prod [n; m]) /\ Zlen l = np_prod s' /\
                  (s' = [] \/ shape_ok s')).
      { clear E. intros E. apply bind_ok in E as [a [Ea E]].
        assert (R := axis_select_range _ _ _ Hn Ea). cbn [np_prod fold_right] in *.
        assert (C : forall b, (forall x, In x b -> 0 <= x < n) ->
                    (forall x, In x (cross m b (zseq m)) -> 0 <= x < n * (m * 1)) /\
                    Zlen (cross m b (zseq m)) = np_prod [Zlen b; m] /\
                    ([Zlen b; m] = [] \/ shape_ok [Zlen b; m])).
        { intros b Hb. repeat split.
          - apply in_cross in H as [r [c [Hr [Hc ->]]]]. apply Hb in Hr. apply in_zseq in Hc.
            pose proof (flat_range n m r c Hr Hc). lia.
          - apply in_cross in H as [r [c [Hr [Hc ->]]]]. apply Hb in Hr. apply in_zseq in Hc.
            pose proof (flat_range n m r c Hr Hc). lia.
          - rewrite Zlen_cross, Zlen_zseq by lia. cbn [np_prod fold_right]. lia.
          - right. right. exists (Zlen b), m. repeat split; auto. apply Zlen_nonneg. }
        destruct a as [i|b|b]; injection E as <- <-; cbn [axis_list] in R; [|exact (C b R)|exact (C b R)].
        repeat split.
        - apply in_map_iff in H as [c [<- Hc]]. apply in_zseq in Hc.
          specialize (R i (or_introl eq_refl)). nia.
        - apply in_map_iff in H as [c [<- Hc]]. apply in_zseq in Hc.
          specialize (R i (or_introl eq_refl)). nia.
        - rewrite Zlen_map, Zlen_zseq by lia. cbn [np_prod fold_right]. lia.
        - right. left. exists m. auto. }
      destruct k1 as [i|a b st|b|b|r c b|r c b]; try exact (G E).
      clear G. cbn [np_select] in E.
      destruct (Z.eqb_spec r n), (Z.eqb_spec c m), (Z.eqb_spec (Zlen b) (n * m));
        cbn [andb] in E; try discriminate.
      injection E as <- <-. cbn [np_prod fold_right]. repeat split.
      * apply true_positions_range in H. lia.
      * apply true_positions_range in H. lia.
      * lia.
      * right. left. eexists; split; [reflexivity|apply Zlen_nonneg].
  - clear Hall. destruct Hs as [[n [-> Hn]]|[n [m [-> [Hn Hm]]]]].
    { cbn [np_select] in E. discriminate. }
    assert (G : (let* s1 := axis_select n k1 in
                 let* s2 := axis_select m k2 in
                 match s1, s2 with
                 | AInt i, AInt j => Ok ([], [i * m + j])
                 | AInt i, ABasic l | AInt i, AAdv l => Ok ([Zlen l], map (fun c => i * m + c) l)
                 | ABasic l, AInt j | AAdv l, AInt j => Ok ([Zlen l], map (fun r => r * m + j) l)
                 | ABasic a, ABasic b | ABasic a, AAdv b | AAdv a, ABasic b =>
                     Ok ([Zlen a; Zlen b], cross m a b)
                 | AAdv a, AAdv b =>
                     let* ps := broadcast2 a b in
                     Ok ([Zlen ps], map (fun p => fst p * m + snd p) ps)
                 end) = Ok (s', l)).
    { destruct k1; exact E. }
    clear E. apply bind_ok in G as [s1 [E1 G]]. apply bind_ok in G as [s2 [E2 G]].
    assert (R1 := axis_select_range _ _ _ Hn E1). assert (R2 := axis_select_range _ _ _ Hm E2).
    assert (X : forall a b, (forall x, In x a -> 0 <= x < n) -> (forall x, In x b -> 0 <= x < m) ->
                (forall x, In x (cross m a b) -> 0 <= x < np_prod [n; m]) /\
                Zlen (cross m a b) = np_prod [Zlen a; Zlen b] /\
                ([Zlen a; Zlen b] = [] \/ shape_ok [Zlen a; Zlen b])).
    { intros a b Ha Hb. cbn [np_prod fold_right]. repeat split.
      - apply in_cross in H as [r [c [Hr [Hc ->]]]]. apply Ha in Hr. apply Hb in Hc. nia.
      - apply in_cross in H as [r [c [Hr [Hc ->]]]]. apply Ha in Hr. apply Hb in Hc. nia.
      - rewrite Zlen_cross. lia.
      - right. right. exists (Zlen a), (Zlen b). repeat split; apply Zlen_nonneg. }
    assert (Y : forall (T : Type) (f : T -> Z) (b : list T), (forall x, In x b -> 0 <= f x < n * m) ->
                (forall x, In x (map f b) -> 0 <= x < np_prod [n; m]) /\
                Zlen (map f b) = np_prod [Zlen b] /\ ([Zlen b] = [] \/ shape_ok [Zlen b])).
    { intros T f b Hb. cbn [np_prod fold_right]. repeat split.
      - apply in_map_iff in H as [c [<- Hc]]. apply Hb in Hc. lia.
      - apply in_map_iff in H as [c [<- Hc]]. apply Hb in Hc. lia.
      - rewrite Zlen_map. lia.
      - right. left. eexists; split; [reflexivity|apply Zlen_nonneg]. }
    destruct s1 as [i|a|a], s2 as [j|b|b]; cbn [axis_list] in R1, R2.
    + injection G as <- <-. specialize (R1 i (or_introl eq_refl)). specialize (R2 j (or_introl eq_refl)).
      cbn [np_prod fold_right]. split; [|split; [reflexivity|now left]].
      intros x [<-|[]]. nia.
    + injection G as <- <-. apply Y. intros c Hc. apply R2 in Hc. apply flat_range; [apply R1; now left|lia].
    + injection G as <- <-. apply Y. intros c Hc. apply R2 in Hc. apply flat_range; [apply R1; now left|lia].
    + injection G as <- <-. apply Y. intros c Hc. apply R1 in Hc. apply flat_range; [lia|apply R2; now left].
    + injection G as <- <-. now apply X.
    + injection G as <- <-. now apply X.
    + injection G as <- <-. apply Y. intros c Hc. apply R1 in Hc. apply flat_range; [lia|apply R2; now left].
    + injection G as <- <-. now apply X.
    + apply bind_ok in G as [ps [Ep G]]. injection G as <- <-. apply Y. intros p Hp.
      destruct (broadcast2_in _ _ _ _ Ep Hp) as [H1 H2]. apply flat_range; auto.
  - exfalso. destruct Hs as [[n [-> Hn]]|[n [m [-> [Hn Hm]]]]]; cbn [np_select] in E; destruct k1; discriminate.
Qed.

(** Selecting everything. *)
Lemma slice_positions_all n : 0 <= n -> slice_positions n None None None = Ok (zseq n).
Proof.
  intros H. unfold slice_positions. change (1 =? 0) with false. cbv iota zeta.
  change (0 <? 1) with true. cbv iota. unfold slice_count. change (0 <? 1) with true. cbv iota.
  f_equal. rewrite (map_ext _ (fun k => k)) by (intros; lia). rewrite map_id. f_equal.
  destruct (Z.ltb_spec 0 n); [|lia]. rewrite Z.div_1_r. lia.
Qed.

Lemma cross_all n m : 0 <= n -> 0 <= m -> cross m (zseq n) (zseq m) = zseq (n * m).
Proof.
  intros Hn Hm. revert n Hn. apply natlike_ind; [reflexivity|].
  intros n Hn IH. rewrite <- Z.add_1_r, zseq_succ by lia.
  unfold cross in *. rewrite flat_map_app, IH. cbn [flat_map]. rewrite app_nil_r.
  replace ((n + 1) * m) with (n * m + m) by lia.
  rewrite (zseq_split (n * m) (n * m + m)) by nia. do 3 f_equal. lia.
Qed.

Lemma np_select_all s :
  shape_ok s -> np_select s [KSlice None None None] = Ok (s, zseq (np_prod s)).
Proof.
  intros [[n [-> H]]|[n [m [-> [H H']]]]]; cbn [np_select axis_select].
  - rewrite slice_positions_all by lia. cbn [bind]. rewrite Zlen_zseq by lia.
    cbn [np_prod fold_right]. now rewrite Z.mul_1_r.
  - rewrite slice_positions_all by lia. cbn [bind]. rewrite Zlen_zseq by lia.
    rewrite cross_all by lia. cbn [np_prod fold_right]. now rewrite Z.mul_1_r.
Qed.

(** The dense result of a selection. *)
Definition dense_of (sa : sparse) (sl fl : list Z) : list Z :=
  flat_map (fun p => map (events (row_at sa p)) fl) sl.

Lemma slice_rows sa sl fl :
  wf sa ->
  (forall p, In p sl -> 0 <= p < num_scans sa) ->
  (forall j, In j fl -> 0 <= j < frame_size sa) ->
  mapM (fun p => let* dp := expand sa p in np_take dp fl) sl =
  Ok (map (fun p => map (events (row_at sa p)) fl) sl).
Proof.
  intros W Hs Hf. apply mapM_ok. intros p Hp. rewrite expand_ok by auto. cbn [bind].
  assert (HN := np_prod_nonneg _ (wf_frame _ W)). fold (frame_size sa) in HN.
  rewrite np_take_zat.
  - f_equal. apply map_ext_in. intros j Hj. apply zat_map_zseq. auto.
  - intros j Hj. rewrite Zlen_map, Zlen_zseq by exact HN. auto.
Qed.

Lemma slice_dense_ok sa sk fk ss sl fs fl :
  wf sa ->
  np_select (sp_scan sa) sk = Ok (ss, sl) -> np_select (sp_frame sa) fk = Ok (fs, fl) ->
  slice_dense sa sk fk =
    (if shape_eqb (ss ++ fs) (sp_shape sa) && negb (sp_full sa) then full_denied
     else Ok (Dense (ss ++ fs) (dense_of sa sl fl))).
Proof.
  intros W Es Ef. unfold slice_dense. rewrite Es, Ef. cbn [bind].
  destruct (shape_eqb _ _ && _); [reflexivity|].
  destruct (np_select_range _ _ _ _ (wf_scan _ W) Es) as [Rs _].
  destruct (np_select_range _ _ _ _ (wf_frame _ W) Ef) as [Rf _].
  rewrite slice_rows; auto. cbn [bind]. unfold dense_of. now rewrite flat_map_concat_map.
Qed.

Lemma dense_of_at sa sl fl i j :
  0 <= i < Zlen sl -> 0 <= j < Zlen fl ->
  zat (dense_of sa sl fl) (i * Zlen fl + j) = events (row_at sa (zat sl i)) (zat fl j).
Proof.
  revert i. induction sl as [|p t IH]; intros i Hi Hj; [cbn in Hi; lia|].
  unfold dense_of. cbn [flat_map]. fold (dense_of sa t fl). rewrite Zlen_cons in Hi.
  rewrite zat_app, Zlen_map.
  destruct (Z.eq_dec i 0) as [->|Hi0].
  - rewrite Z.mul_0_l, Z.add_0_l. destruct (Z.ltb_spec j (Zlen fl)); [|lia].
    unfold zat. destruct (Z.ltb_spec j 0); [lia|]. cbn [Z.ltb nth Z.to_nat].
    rewrite (nth_indep _ 0 (events (row_at sa p) 0)) by (rewrite map_length; unfold Zlen in *; lia).
    change (0 <? 0) with false. cbn [nth]. now rewrite map_nth.
  - destruct (Z.ltb_spec (i * Zlen fl + j) (Zlen fl)); [nia|].
    replace (i * Zlen fl + j - Zlen fl) with ((i - 1) * Zlen fl + j) by lia.
    rewrite IH by lia. f_equal. f_equal. unfold zat.
    destruct (Z.ltb_spec (i - 1) 0), (Z.ltb_spec i 0); try lia.
    replace (Z.to_nat i) with (S (Z.to_nat (i - 1))) by lia. reflexivity.
Qed.

Lemma Zlen_dense_of sa sl fl : Zlen (dense_of sa sl fl) = Zlen sl * Zlen fl.
Proof.
  unfold dense_of. induction sl as [|p t IH]; [reflexivity|]. cbn [flat_map].
  rewrite Zlen_app, IH, Zlen_map, Zlen_cons. lia.
Qed.

Lemma to_dense_ok sa :
  wf sa ->
  to_dense sa = Ok (Dense (sp_shape sa)
                      (dense_of sa (zseq (num_scans sa)) (zseq (frame_size sa)))).
Proof.
  intros W. unfold to_dense.
  set (sa' := mkSparse _ _ _ _ _ _ _).
  assert (E : split_slices sa' [KSlice None None None] = Ok ([KSlice None None None], [])).
  { unfold split_slices, validate_adv. cbn [sa' sp_scan sp_frame].
    destruct (wf_scan _ W) as [[n [-> _]]|[n [m [-> _]]]]; reflexivity. }
  unfold getitem. rewrite E. cbn [bind]. change (sp_slicing sa') with false. cbv iota. clear E.
  assert (W' : wf sa').
  { destruct W. constructor; assumption. }
  assert (Es : np_select (sp_scan sa') [KSlice None None None] = Ok (sp_scan sa, zseq (num_scans sa))).
  { apply np_select_all, (wf_scan _ W). }
  assert (Ef : np_select (sp_frame sa') [] = Ok (sp_frame sa, zseq (frame_size sa))).
  { unfold frame_size. cbn [sa' sp_frame]. destruct (wf_frame _ W) as [[n [-> _]]|[n [m [-> _]]]]; reflexivity. }
  rewrite (slice_dense_ok _ _ _ _ _ _ _ W' Es Ef).
  cbn [sa' sp_full negb]. rewrite andb_false_r. reflexivity.
Qed.

(** * Sparse slicing *)

Lemma np_select_dims s ks s' l :
  shape_ok s -> np_select s ks = Ok (s', l) -> Zlen s' <= Zlen s.
Proof.
  intros Hs E.
  assert (C : ks = [] \/ exists k, ks = [k] \/ exists k2 t, ks = k :: k2 :: t).
  { destruct ks as [|k [|k2 t]]; eauto. right. exists k. right. eauto. }
  destruct Hs as [[n [-> Hn]]|[n [m [-> [Hn Hm]]]]].
  - destruct ks as [|k1 [|k2 ks]]; cbn [np_select] in E; try discriminate.
    + injection E as <- <-. lia.
    + apply bind_ok in E as [a [_ E]]. destruct a; injection E as <- <-; unfold Zlen; cbn; lia.
  - destruct ks as [|k1 [|k2 [|k3 ks]]]; cbn [np_select] in E.
    + injection E as <- <-. lia.
    + assert (G : (let* a := axis_select n k1 in
                   match a with
                   | AInt i => Ok ([m], map (fun c => i * m + c) (zseq m))
                   | ABasic l | AAdv l => Ok ([Zlen l; m], cross m l (zseq m))
                   end) = Ok (s', l) -> Zlen s' <= Zlen [n; m]).
      { clear E. intros E. apply bind_ok in E as [a [_ E]].
        destruct a; injection E as <- <-; unfold Zlen; cbn; lia. }
      destruct k1; try exact (G E). clear G.
      destruct (_ && _); [|discriminate]. injection E as <- <-. unfold Zlen; cbn; lia.
    + destruct k1; apply bind_ok in E as [a [_ E]]; apply bind_ok in E as [b [_ E]];
        destruct a, b; try (injection E as <- <-; unfold Zlen; cbn; lia);
        apply bind_ok in E as [ps [_ E]]; injection E as <- <-; unfold Zlen; cbn; lia.
    + destruct k1; discriminate.
Qed.

Lemma is_none_eq k : is_none_slice k = true -> k = KSlice None None None.
Proof.
  destruct k as [|[|] [|] [|]| | | |]; try discriminate. reflexivity.
Qed.

(** Only [:] in the key: everything is selected. *)
Lemma np_select_none s ks s' l :
  shape_ok s -> existsb (fun k => negb (is_none_slice k)) ks = false ->
  np_select s ks = Ok (s', l) -> s' = s /\ l = zseq (np_prod s).
Proof.
  intros Hs Hn E.
  assert (F : forall k, In k ks -> k = KSlice None None None).
  { intros k Hk. apply is_none_eq. destruct (is_none_slice k) eqn:X; [reflexivity|].
    assert (existsb (fun k => negb (is_none_slice k)) ks = true).
    { apply existsb_exists. exists k. rewrite X. auto. }
    congruence. }
  destruct ks as [|k1 [|k2 [|k3 ks]]].
  - destruct Hs as [[n [-> _]]|[n [m [-> _]]]]; cbn [np_select] in E; injection E as <- <-; auto.
  - rewrite (F k1) in E by now left. rewrite np_select_all in E by exact Hs.
    injection E as <- <-. auto.
  - rewrite (F k1), (F k2) in E by (cbn; auto).
    destruct Hs as [[n [-> Hn']]|[n [m [-> [Hn' Hm]]]]]; cbn [np_select axis_select] in E; [discriminate|].
    rewrite !slice_positions_all in E by lia. cbn [bind] in E. injection E as <- <-.
    rewrite !Zlen_zseq, cross_all by lia. cbn [np_prod fold_right]. now rewrite Z.mul_1_r.
  - destruct Hs as [[n [-> _]]|[n [m [-> _]]]]; cbn [np_select] in E; destruct k1; discriminate.
Qed.

(** Position of a value in a list. *)
Fixpoint pos_of (l : list Z) (x : Z) : Z :=
  match l with [] => 0 | y :: t => if x =? y then 0 else 1 + pos_of t x end.

Lemma pos_of_zat l k : NoDup l -> 0 <= k < Zlen l -> pos_of l (zat l k) = k.
Proof.
  intros Hn. revert k. induction Hn as [|x t Hx Hn IH]; intros k Hk; [cbn in Hk; lia|].
  rewrite Zlen_cons in Hk. cbn [pos_of].
  destruct (Z.eq_dec k 0) as [->|Hk0].
  - change (zat (x :: t) 0) with x. rewrite Z.eqb_refl. reflexivity.
  - assert (E : zat (x :: t) k = zat t (k - 1)).
    { unfold zat. destruct (Z.ltb_spec k 0), (Z.ltb_spec (k - 1) 0); try lia.
      replace (Z.to_nat k) with (S (Z.to_nat (k - 1))) by lia. reflexivity. }
    rewrite E. destruct (Z.eqb_spec (zat t (k - 1)) x) as [Ex|_].
    + exfalso. apply Hx. rewrite <- Ex. apply zat_in. lia.
    + rewrite IH by lia. lia.
Qed.

Lemma pos_of_in l x : In x l -> 0 <= pos_of l x < Zlen l /\ zat l (pos_of l x) = x.
Proof.
  induction l as [|y t IH]; intros H; [destruct H|]. cbn [pos_of]. rewrite Zlen_cons.
  pose proof (Zlen_nonneg t).
  destruct (Z.eqb_spec x y); [subst; split; [lia|reflexivity]|].
  destruct H as [H|H]; [congruence|]. destruct (IH H) as [R E]. split; [lia|].
  rewrite <- E at 2. unfold zat.
  destruct (Z.ltb_spec (1 + pos_of t x) 0), (Z.ltb_spec (pos_of t x) 0); try lia.
  replace (Z.to_nat (1 + pos_of t x)) with (S (Z.to_nat (pos_of t x))) by lia. reflexivity.
Qed.

Lemma index_map_ok N px :
  0 <= N -> NoDup px -> (forall x, In x px -> 0 <= x < N) ->
  exists mp, np_put (repeat (-1) (Z.to_nat N)) px (zseq (Zlen px)) = Ok mp /\ Zlen mp = N /\
    forall j, 0 <= j < N -> zat mp j = if mem j px then pos_of px j else -1.
Proof.
  intros HN Hn Hr.
  assert (E : zseq (Zlen px) = map (pos_of px) px).
  { rewrite (list_as_map_zat px) at 3. rewrite map_map. rewrite <- (map_id (zseq (Zlen px))) at 1.
    apply map_ext_in. intros k Hk. apply in_zseq in Hk. symmetry. now apply pos_of_zat. }
  rewrite E.
  destruct (np_put_map (pos_of px) px (repeat (-1) (Z.to_nat N))) as [mp [E' [L V]]].
  { intros i Hi. rewrite Zlen_repeat, Z2Nat.id by lia. auto. }
  rewrite Zlen_repeat, Z2Nat.id in L by lia.
  exists mp. repeat split; auto. intros j Hj. rewrite V. destruct (mem j px); [reflexivity|].
  now apply zat_repeat.
Qed.

Lemma nodup_of_cnt l : (forall j, cnt l j <= 1) -> NoDup l.
Proof.
  induction l as [|x t IH]; intros H; constructor.
  - intros Hi. apply cnt_pos in Hi. specialize (H x). rewrite cnt_cons, Z.eqb_refl in H. lia.
  - apply IH. intros j. specialize (H j). rewrite cnt_cons in H. destruct (j =? x); lia.
Qed.

Lemma renumber_ok N px mp fr :
  NoDup px -> (forall x, In x px -> 0 <= x < N) -> Zlen mp = N ->
  (forall j, 0 <= j < N -> zat mp j = if mem j px then pos_of px j else -1) ->
  frame_ok N fr ->
  exists fr', renumber mp fr = Ok fr' /\ frame_ok (Zlen px) fr' /\
    forall i, 0 <= i < Zlen px -> cnt fr' i = cnt fr (zat px i).
Proof.
  intros Hn Hr HL HV [Hd HR]. unfold renumber.
  rewrite np_take_zat by (intros i Hi; rewrite HL; now apply HR). cbn [bind].
  eexists; split; [reflexivity|].
  assert (C : forall i, 0 <= i < Zlen px ->
              cnt (filter (fun x => 0 <=? x) (map (zat mp) fr)) i = cnt fr (zat px i)).
  { intros i Hi. clear Hd. induction fr as [|x t IH]; [reflexivity|].
    assert (IH' := IH (fun y Hy => HR y (or_intror Hy))). clear IH.
    assert (Hx := HR x (or_introl eq_refl)).
    cbn [map filter]. rewrite cnt_cons, HV by exact Hx.
    destruct (mem x px) eqn:M.
    - apply mem_in in M. destruct (pos_of_in px x M) as [Rp Ep].
      destruct (Z.leb_spec 0 (pos_of px x)); [|lia]. rewrite cnt_cons, IH'. f_equal.
      destruct (Z.eqb_spec i (pos_of px x)) as [->|Hne].
      + rewrite Ep, Z.eqb_refl. reflexivity.
      + destruct (Z.eqb_spec (zat px i) x) as [Ex|]; [|reflexivity].
        exfalso. apply Hne. rewrite <- Ex. symmetry. now apply pos_of_zat.
    - change (0 <=? -1) with false. cbv iota. rewrite IH'.
      destruct (Z.eqb_spec (zat px i) x) as [Ex|]; [|lia].
      exfalso. apply mem_false in M. apply M. rewrite <- Ex. now apply zat_in. }
  assert (R : forall x, In x (filter (fun x => 0 <=? x) (map (zat mp) fr)) -> 0 <= x < Zlen px).
  { intros x Hx. apply filter_In in Hx as [Hx Hp]. apply Z.leb_le in Hp.
    apply in_map_iff in Hx as [y [<- Hy]]. apply HR in Hy. rewrite HV in * by exact Hy.
    destruct (mem y px) eqn:M; [|lia]. apply mem_in in M. now apply pos_of_in. }
  split; [split; [|exact R]|exact C].
  apply nodup_of_cnt. intros j.
  destruct (Z_le_dec 0 j) as [H0|H0]; [destruct (Z_lt_dec j (Zlen px)) as [H1|H1]|].
  - rewrite C by lia. rewrite cnt_nodup by exact Hd. destruct (mem _ _); lia.
  - rewrite cnt_notin; [lia|]. intros Hj. apply R in Hj. lia.
  - rewrite cnt_notin; [lia|]. intros Hj. apply R in Hj. lia.
Qed.

Lemma renumber_rows N px mp rows :
  NoDup px -> (forall x, In x px -> 0 <= x < N) -> Zlen mp = N ->
  (forall j, 0 <= j < N -> zat mp j = if mem j px then pos_of px j else -1) ->
  (forall row fr, In row rows -> In fr row -> frame_ok N fr) ->
  exists rows', mapM (fun row => mapM (renumber mp) row) rows = Ok rows' /\
    Forall2 (fun row row' => Zlen row' = Zlen row /\
               (forall fr, In fr row' -> frame_ok (Zlen px) fr) /\
               forall i, 0 <= i < Zlen px -> events row' i = events row (zat px i)) rows rows'.
Proof.
  intros Hn Hr HL HV. induction rows as [|row rows IH]; intros HF.
  - exists []. split; [reflexivity|constructor].
  - assert (G : exists row', mapM (renumber mp) row = Ok row' /\
               Zlen row' = Zlen row /\
               (forall fr, In fr row' -> frame_ok (Zlen px) fr) /\
               forall i, 0 <= i < Zlen px -> events row' i = events row (zat px i)).
    { assert (HF' : forall fr, In fr row -> frame_ok N fr) by (intros fr Hf; apply (HF row); [now left|exact Hf]).
      clear HF IH. induction row as [|fr row IH].
      - exists []. split; [reflexivity|]. split; [reflexivity|]. split; [intros fr []|reflexivity].
      - destruct (renumber_ok N px mp fr Hn Hr HL HV (HF' fr (or_introl eq_refl))) as [fr' [E [K C]]].
        destruct (IH (fun f Hf => HF' f (or_intror Hf))) as [row' [E' [L' [K' C']]]].
        exists (fr' :: row'). cbn [mapM]. rewrite E. cbn [bind]. rewrite E'. cbn [bind].
        split; [reflexivity|]. split; [rewrite !Zlen_cons; lia|]. split.
        + intros g [<-|Hg]; [exact K|now apply K'].
        + intros i Hi. unfold events in *. cbn [map zsum]. rewrite C, C' by exact Hi. reflexivity. }
    destruct G as [row' [E P]].
    destruct (IH (fun r f Hr Hf => HF r f (or_intror Hr) Hf)) as [rows' [E' P']].
    exists (row' :: rows'). cbn [mapM]. rewrite E. cbn [bind]. rewrite E'. cbn [bind].
    split; [reflexivity|]. now constructor.
Qed.

Lemma Forall2_len {A B} (R : A -> B -> Prop) l l' : Forall2 R l l' -> List.length l = List.length l'.
Proof. induction 1; cbn; congruence. Qed.

(** What a slice result stands for. *)
Definition represents (r : sliced) (shape vals : list Z) : Prop :=
  r = Dense shape vals \/
  exists sa', r = Sparse sa' /\ wf sa' /\ to_dense sa' = Ok (Dense shape vals).

Lemma shape_eqb_len a b : Zlen a <> Zlen b -> shape_eqb a b = false.
Proof. intros H. unfold shape_eqb. destruct (Z.eqb_spec (Zlen a) (Zlen b)); [contradiction|reflexivity]. Qed.

Lemma flat_map_zseq {B} (l : list Z) (f g : Z -> list B) :
  (forall i, 0 <= i < Zlen l -> f i = g (zat l i)) ->
  flat_map f (zseq (Zlen l)) = flat_map g l.
Proof.
  intros H. rewrite (list_as_map_zat l) at 2. rewrite !flat_map_concat_map, map_map.
  f_equal. apply map_ext_in. intros i Hi. apply H. now apply in_zseq.
Qed.

Lemma slice_sparse_ok sa sk fk ss sl fs fl :
  wf sa ->
  np_select (sp_scan sa) sk = Ok (ss, sl) -> np_select (sp_frame sa) fk = Ok (fs, fl) ->
  NoDup fl ->
  exists r, slice_sparse sa sk fk = Ok r /\ represents r (ss ++ fs) (dense_of sa sl fl).
Proof.
  intros W Es Ef Hn.
  destruct (np_select_range _ _ _ _ (wf_scan _ W) Es) as [Rs [Ls Ks]].
  destruct (np_select_range _ _ _ _ (wf_frame _ W) Ef) as [Rf [Lf Kf]].
  assert (Ds := np_select_dims _ _ _ _ (wf_scan _ W) Es).
  assert (Df := np_select_dims _ _ _ _ (wf_frame _ W) Ef).
  assert (HN := np_prod_nonneg _ (wf_frame _ W)). fold (frame_size sa) in HN, Rf.
  fold (num_scans sa) in Rs.
  assert (L1 : 1 <= Zlen (sp_scan sa)).
  { destruct (wf_scan _ W) as [[n [-> _]]|[n [m [-> _]]]]; unfold Zlen; cbn; lia. }
  assert (L2 : 1 <= Zlen (sp_frame sa)).
  { destruct (wf_frame _ W) as [[n [-> _]]|[n [m [-> _]]]]; unfold Zlen; cbn; lia. }
  assert (HD : ss = [] \/ fs = [] ->
     exists r, slice_dense sa sk fk = Ok r /\ represents r (ss ++ fs) (dense_of sa sl fl)).
  { intros Hc. rewrite (slice_dense_ok _ _ _ _ _ _ _ W Es Ef).
    rewrite shape_eqb_len.
    - cbn [andb]. eexists; split; [reflexivity|now left].
    - unfold sp_shape. rewrite !Zlen_app. pose proof (Zlen_nonneg ss). pose proof (Zlen_nonneg fs).
      destruct Hc as [->| ->]; change (@Zlen Z []) with 0 in *; lia. }
  unfold slice_sparse.
  (* scan part *)
  assert (S1 : exists rows,
     (if existsb (fun k => negb (is_none_slice k)) sk then
        let* (s, ps) := np_select (sp_scan sa) sk in
        match s with [] => Ok ([], []) | _ => let* rows := np_take (sp_data sa) ps in Ok (s, rows) end
      else Ok (sp_scan sa, sp_data sa)) = Ok (ss, rows) /\
     (ss <> [] -> rows = map (row_at sa) sl)).
  { destruct (existsb (fun k => negb (is_none_slice k)) sk) eqn:Em.
    - rewrite Es. cbn [bind]. destruct ss as [|x t].
      + exists []. split; [reflexivity|congruence].
      + rewrite (np_take_ok (sp_data sa) sl []).
        * cbn [bind]. eexists; split; [reflexivity|]. reflexivity.
        * intros i Hi. rewrite (wf_len _ W). now apply Rs.
    - destruct (np_select_none _ _ _ _ (wf_scan _ W) Em Es) as [-> ->].
      eexists; split; [reflexivity|]. intros _. fold (num_scans sa).
      assert (X : forall (d : list (list (list Z))), d = map (fun p => nth (Z.to_nat p) d []) (zseq (Zlen d))).
      { clear. intros d. unfold zseq, Zlen. rewrite Nat2Z.id, map_map.
        rewrite (map_ext _ (fun k => nth k d [])) by (intros; now rewrite Nat2Z.id).
        induction d as [|x t IH]; [reflexivity|]. cbn [List.length seq map nth]. f_equal.
        rewrite <- seq_shift, map_map. exact IH. }
      unfold row_at. rewrite (X (sp_data sa)) at 1. rewrite (wf_len _ W). reflexivity. }
  destruct S1 as [rows [S1 Hrows]]. rewrite S1. cbn [bind]. clear S1.
  destruct Ks as [->|Ks]; [apply HD; now left|].
  assert (Hss : ss <> []) by (destruct Ks as [[n [-> _]]|[n [m [-> _]]]]; discriminate).
  specialize (Hrows Hss).
  replace (match ss with [] => true | _ => false end) with false by (destruct ss; [congruence|reflexivity]).
  cbv iota.
  assert (Hin : forall row, In row rows -> In row (sp_data sa)).
  { intros row Hr. rewrite Hrows in Hr. apply in_map_iff in Hr as [p [<- Hp]].
    apply wf_row; auto. }
  destruct (existsb (fun k => negb (is_none_slice k)) fk) eqn:Em.
  - rewrite Ef. cbn [bind].
    destruct (index_map_ok (frame_size sa) fl HN Hn Rf) as [mp [Emp [Lmp Vmp]]].
    rewrite Emp. cbn [bind].
    destruct Kf as [->|Kf]; [apply HD; now right|].
    replace (match fs with [] => true | _ => false end) with false
      by (destruct Kf as [[n [-> _]]|[n [m [-> _]]]]; reflexivity).
    cbv iota.
    destruct (renumber_rows (frame_size sa) fl mp rows Hn Rf Lmp Vmp) as [rows' [Er Fr]].
    { intros row fr Hr Hf. apply (wf_frames _ W row); auto. }
    rewrite Er. cbn [bind]. clear Er.
    assert (Lr : Zlen rows' = Zlen sl).
    { unfold Zlen. rewrite <- (Forall2_len _ _ _ Fr). rewrite Hrows, map_length. reflexivity. }
    unfold sparse_init. destruct (Z.eqb_spec (Zlen rows') (np_prod ss)) as [_|X]; [|lia].
    cbn [bind]. eexists; split; [reflexivity|]. right.
    eexists; split; [reflexivity|].
    set (sa' := mkSparse _ _ _ _ _ _ _).
    assert (Hback : forall row', In row' rows' -> exists row, In row rows /\ Zlen row' = Zlen row /\
               (forall fr, In fr row' -> frame_ok (Zlen fl) fr)).
    { clear -Fr. induction Fr as [|a b ta tb Hab _ IH]; intros row' [].
      - subst. exists a. split; [now left|]. split; [apply Hab|apply Hab].
      - destruct (IH _ H) as [row [Hr R]]. exists row. split; [now right|exact R]. }
    assert (W' : wf sa').
    { constructor; cbn [sa' sp_data sp_F sp_scan sp_frame sp_bits].
      - exact Ks.
      - exact Kf.
      - lia.
      - intros row' Hr'. destruct (Hback _ Hr') as [row [Hr [L _]]]. rewrite L.
        apply (wf_rows _ W). auto.
      - apply (wf_F _ W).
      - apply (wf_bits _ W).
      - intros row' fr Hr' Hf. destruct (Hback _ Hr') as [row [_ [_ K]]]. rewrite <- Lf. auto. }
    split; [exact W'|]. rewrite to_dense_ok by exact W'. f_equal. f_equal.
    unfold num_scans, frame_size. cbn [sa' sp_scan sp_frame].
    unfold dense_of. rewrite <- Ls, <- Lf.
    apply flat_map_zseq. intros i Hi.
    assert (Hev : forall j, 0 <= j < Zlen fl ->
              events (row_at sa' i) j = events (row_at sa (zat sl i)) (zat fl j)).
    { unfold row_at at 1. cbn [sa' sp_data].
      assert (N1 : nth_error rows (Z.to_nat i) = Some (row_at sa (zat sl i))).
      { rewrite Hrows. rewrite (map_nth_error (row_at sa) (Z.to_nat i) sl (d := zat sl i)); [reflexivity|].
        unfold zat. destruct (Z.ltb_spec i 0); [lia|]. apply nth_error_nth'. unfold Zlen in Hi. lia. }
      destruct (nth_error rows' (Z.to_nat i)) as [row'|] eqn:N2.
      - rewrite (nth_error_nth _ _ [] N2).
        assert (P : forall k a b, nth_error rows k = Some a -> nth_error rows' k = Some b ->
           forall j, 0 <= j < Zlen fl -> events b j = events a (zat fl j)).
        { clear -Fr. induction Fr as [|a b ta tb Hab _ IH]; intros [|k] a' b' A B; try discriminate.
          - cbn in A, B. injection A as <-. injection B as <-. apply Hab.
          - cbn in A, B. eauto. }
        exact (P _ _ _ N1 N2).
      - exfalso. apply nth_error_None in N2. unfold Zlen in Lr, Hi. lia. }
    rewrite (list_as_map_zat fl) at 2. rewrite map_map. apply map_ext_in.
    intros j Hj. apply in_zseq in Hj. now apply Hev.
  - destruct (np_select_none _ _ _ _ (wf_frame _ W) Em Ef) as [-> ->].
    cbn [bind]. replace (match sp_frame sa with [] => true | _ => false end) with false
      by (destruct (wf_frame _ W) as [[n [-> _]]|[n [m [-> _]]]]; reflexivity).
    cbv iota. cbn [bind].
    assert (Lr : Zlen rows = Zlen sl) by (rewrite Hrows; apply Zlen_map).
    unfold sparse_init. destruct (Z.eqb_spec (Zlen rows) (np_prod ss)) as [_|X]; [|lia].
    cbn [bind]. eexists; split; [reflexivity|]. right.
    eexists; split; [reflexivity|].
    set (sa' := mkSparse _ _ _ _ _ _ _).
    assert (W' : wf sa').
    { constructor; cbn [sa' sp_data sp_F sp_scan sp_frame sp_bits].
      - exact Ks.
      - apply (wf_frame _ W).
      - lia.
      - intros row' Hr'. apply (wf_rows _ W). auto.
      - apply (wf_F _ W).
      - apply (wf_bits _ W).
      - intros row' fr Hr' Hf. apply (wf_frames _ W row'); auto. }
    split; [exact W'|]. rewrite to_dense_ok by exact W'. f_equal. f_equal.
    unfold num_scans, frame_size. cbn [sa' sp_scan sp_frame].
    unfold dense_of. rewrite <- Ls.
    apply flat_map_zseq. intros i Hi. f_equal. f_equal.
    unfold row_at at 1. cbn [sa' sp_data]. rewrite Hrows.
    rewrite (nth_indep _ [] (row_at sa 0)) by (rewrite map_length; unfold Zlen in Hi; lia).
    rewrite map_nth. f_equal. unfold zat. destruct (Z.ltb_spec i 0); [lia|].
    reflexivity.
Qed.
