(** createDataSet, createGroup, children and allDataSets. *)
From Coq Require Import String ZArith List Bool Lia.
From Verif Require Import Base BaseFacts H5LibModel H5WrapModel H5WrapSpec H5DataSpec H5DataProofs H5Region H5RegionProofs.
Import ListNotations.
Open Scope Z_scope.

(** The same as [wp_with], with all other identifiers. *)
Lemma wp_with_other {A} n k id (body : prog A) s (Q : A -> world -> Prop) :
  wp body s (fun r s1 => (id < 0 \/ n <= id /\ exists o, lookup s1 id = Some o /\ hkind_of o = k) /\
     forall s2, pres n s1 s2 -> w_tree s2 = w_tree s1 -> w_next s2 = w_next s1 -> (forall x, x <> id -> lookup s2 x = lookup s1 x) -> Q r s2) ->
  wp (with_id k id body) s Q.
Proof.
  intros H. unfold with_id. apply wp_bind. eapply wp_mono; [exact H|]. cbn beta. intros r s1 (C & G). apply wp_bind.
  destruct (0 <=? id) eqn:E.
  - apply Z.leb_le in E. destruct C as [C|(L & o & Ho & Hk)]; [lia|].
    exists tt, (set_live (filter (fun e => negb (fst e =? id)) (w_live s1)) (set_clock (w_clock s1 + 1) s1)).
    split; [unfold close_id; rewrite Ho; destruct (hkind_dec (hkind_of o) k); [reflexivity|contradiction]|].
    assert (K : forall x, x <> id -> lookup (set_live (filter (fun e => negb (fst e =? id)) (w_live s1)) (set_clock (w_clock s1 + 1) s1)) x = lookup s1 x).
    { intros x Hx. unfold lookup. cbn.
      assert (F : find (fun e => fst e =? x) (filter (fun e => negb (fst e =? id)) (w_live s1)) = find (fun e => fst e =? x) (w_live s1)).
      { induction (w_live s1) as [|e l IH]; [reflexivity|]. cbn [filter find]. destruct (fst e =? id) eqn:E1; cbn [negb].
        - destruct (fst e =? x) eqn:E2; [apply Z.eqb_eq in E1, E2; lia|exact IH].
        - cbn [find]. destruct (fst e =? x); [reflexivity|exact IH]. }
      rewrite F. reflexivity. }
    apply wp_ret. apply G; [|reflexivity|reflexivity|exact K]. repeat split; try (cbn; lia). intros x Hx. apply K. lia.
  - apply wp_ret. apply wp_ret. apply G; [apply pres_refl|reflexivity|reflexivity|reflexivity].
Qed.

Lemma wp_set_chunk id c s (Q : Z -> world -> Prop) : (id < 1 -> lookup s id = None) ->
  (forall r s1, pres id s s1 -> w_tree s1 = w_tree s -> w_next s1 = w_next s ->
    (forall x, x <> id -> lookup s1 x = lookup s x) ->
    (lookup s1 id = lookup s id /\ (no_faults s -> forallb (fun d => 0 <? d) c = true -> lookup s id = Some (HPlist None) -> False) \/
     lookup s1 id = Some (HPlist (Some c)) /\ exists o, lookup s id = Some (HPlist o)) -> Q r s1) ->
  wp (H5Pset_chunk id c) s Q.
Proof.
  intros NI H. unfold H5Pset_chunk, wp, change.
  destruct (w_fault s (w_clock s)) eqn:F.
  { eexists. eexists. split; [reflexivity|]. apply H; [repeat split; cbn; lia|reflexivity|reflexivity|reflexivity|]. left. split; [reflexivity|]. intros X. rewrite X in F. discriminate. }
  change (lookup (set_clock (w_clock s + 1) s) id) with (lookup s id).
  destruct (lookup s id) as [[| | | | | |o]|] eqn:K; unfold guard.
  7: destruct (forallb (fun d => 0 <? d) c) eqn:C.
  7: { eexists. eexists. split; [reflexivity|].
       assert (E : forall x, lookup (set_live (map (fun e => if fst e =? id then (id, HPlist (Some c)) else e) (w_live (set_clock (w_clock s + 1) s))) (set_clock (w_clock s + 1) s)) x =
                 if x =? id then Some (HPlist (Some c)) else lookup s x).
       { intros x. rewrite (lookup_set (set_clock (w_clock s + 1) s)); [reflexivity|]. change (lookup s id <> None). congruence. }
       apply H; [|reflexivity|reflexivity| |].
       - repeat split; try (cbn; lia). intros x Hx. rewrite E. destruct (Z.eqb_spec x id); [lia|reflexivity].
       - intros x Hx. rewrite E. destruct (Z.eqb_spec x id); [congruence|reflexivity].
       - right. rewrite E, Z.eqb_refl. eauto. }
  all: eexists; eexists; (split; [reflexivity|]); (apply H; [repeat split; cbn; lia|reflexivity|reflexivity|reflexivity|]); left; (split; [exact K|]); congruence.
Qed.


Lemma chunk_fits_ok c d : Forall2 (fun c d => 1 <= c <= d) c d -> Forall is_i32 d -> map u64 c = c /\ forallb (fun x => 0 <? x) c = true /\ chunk_ok c d = true.
Proof.
  intros H. induction H as [|x y c d Hx H IH]; intros I; [auto|]. inversion I as [|? ? I1 I2]. subst. destruct (IH I2) as (A & B & C).
  unfold is_i32 in I1. cbn [map forallb chunk_ok]. rewrite A, B, C, u64_small, (proj2 (Z.ltb_lt 0 x)), (proj2 (Z.leb_le x y)) by lia. auto.
Qed.

Lemma wp_plist chunk s (Q : Z -> world -> Prop) : 1 <= w_next s -> (forall id, id < 1 -> lookup s id = None) ->
  (forall id s1, pres (w_next s) s s1 -> w_tree s1 = w_tree s ->
     (chunk = [] /\ id = 0 /\ w_next s1 = w_next s \/ chunk <> [] /\ id = -1 /\ w_next s1 = w_next s /\ ~ no_faults s \/
      chunk <> [] /\ id = w_next s /\ w_next s1 = w_next s + 1 /\ exists o, lookup s1 id = Some (HPlist o) /\
       (no_faults s -> forallb (fun d => 0 <? d) (map u64 chunk) = true -> o = Some (map u64 chunk))) -> Q id s1) ->
  wp (match chunk with [] => ret 0 | _ => do id <- H5Pcreate; do _ <- H5Pset_chunk id (map u64 chunk); ret id end) s Q.
Proof.
  intros L FN H. destruct chunk as [|c0 cs].
  { apply wp_ret. apply H; [apply pres_refl|reflexivity|]. left. auto. }
  set (chunk := c0 :: cs) in *. assert (NE : chunk <> []) by discriminate. clearbody chunk. clear c0 cs.
  apply wp_bind. unfold H5Pcreate. apply wp_open1. intros id s1 P1 T1 O1. assert (N1 : w_next s <= w_next s1) by apply P1.
  assert (A : id = -1 /\ ~ no_faults s \/ id = w_next s /\ w_next s1 = w_next s + 1 /\ lookup s1 id = Some (HPlist None)).
  { destruct O1 as [(-> & N & F)|(-> & N & o & E & K)]; [left|right]; [split; [reflexivity|]; intros X; discriminate (F X)|]. injection E as <-. auto. }
  apply wp_bind, wp_set_chunk.
  { intros Hid. destruct A as [(-> & _)|(-> & _)]; [|lia]. rewrite (pres_lookup _ _ _ _ P1) by lia. apply FN. lia. }
  intros r s2 P2 T2 N2 X2 O2. apply wp_ret. apply H; [|congruence|].
  - destruct A as [(-> & _)|(-> & A)].
    + assert (M : lookup s2 (-1) = lookup s1 (-1)).
      { destruct O2 as [(-> & _)|(_ & o & E)]; [reflexivity|]. rewrite (pres_lookup _ _ _ _ P1), FN in E by lia. discriminate. }
      destruct P1 as (a1 & a2 & a3 & a4 & a5 & a6), P2 as (b1 & b2 & b3 & b4 & b5 & b6). repeat split; try congruence; try lia.
      intros x Hx. destruct (Z.eq_dec x (-1)) as [->|Nx]; [rewrite M|rewrite X2 by exact Nx]; apply a6; lia.
    + via P1. exact P2.
  - right. destruct A as [(-> & A)|(-> & N & K)]; [left|right]; split; auto.
    + split; [reflexivity|]. split; [|exact A]. rewrite N2. destruct O1 as [(_ & O & _)|(O & _)]; [exact O|lia].
    + split; [reflexivity|]. split; [lia|]. destruct O2 as [(O2 & Z)|(O2 & o & E)]; rewrite O2.
      * exists None. split; [exact K|]. intros X C. exfalso. apply Z; auto. now apply (pres_faults _ _ _ P1).
      * eauto.
Qed.

Lemma wp_create t p n dims chunk s : file_ok s -> dims <> [] -> Forall is_i32 dims ->
  wp (create_data_set t p n dims chunk) s (fun r s' => pres (w_next s) s s' /\
    (if r then creatable s p n dims /\ w_tree s' = w_tree s ++ [new_data p n t dims (repeat (zero_of t) (Z.to_nat (prodZ dims)))]
     else w_tree s' = w_tree s /\ (no_faults s -> chunk_fits chunk dims -> ~ creatable s p n dims))).
Proof.
  intros (L & FO & FN & _) ND Hd. unfold create_data_set. apply wp_bind, wp_valid.
  destruct (0 <=? m_file s) eqn:V.
  2: { apply wp_ret. split; [apply pres_refl|]. split; [reflexivity|]. intros _ _ (C & _). apply Z.leb_gt in V. lia. }
  apply Z.leb_le in V. destruct (FO V) as (FL & FF). apply wp_bind, wp_get, wp_bind, wp_open1. intros g s1 P1 T1 O1.
  assert (N1 : w_next s <= w_next s1) by apply P1.
  apply wp_bind, wp_plist; [lia|intros id Hid; rewrite (pres_lookup _ _ _ _ P1) by lia; auto|]. intros pl s0 P0 T0 O0.
  assert (N0 : w_next s1 <= w_next s0) by apply P0.
  destruct dims as [|d0 ds] eqn:ED; [contradiction|]. rewrite <- ED in *. clear ND d0 ds ED.
  apply (wp_with (w_next s1)).
  apply wp_bind, wp_open1. intros sp s2 P2 T2 O2. assert (N2 : w_next s0 <= w_next s2) by apply P2.
  apply wp_bind, wp_Dcreate; [lia|]. intros d s3 P3 O3. assert (N3 : w_next s2 <= w_next s3) by apply P3.
  apply (wp_with_other (w_next s)), (wp_with (w_next s0)), (wp_with (w_next s2)).
  assert (G : g < 0 \/ g = w_next s /\ w_next s1 = w_next s + 1 /\ is_group (w_tree s) p = true /\ lookup s1 g = Some (HGroup p)).
  { destruct O1 as [(-> & _)|(-> & N & o & E & K)]; [left; lia|right]. unfold guard in E.
    destruct (file_open s (m_file s) && is_group (w_tree s) p) eqn:B; [|discriminate]. injection E as <-. apply andb_true_iff in B as [_ B]. auto. }
  assert (S : sp < 0 \/ sp = w_next s0 /\ w_next s2 = w_next s0 + 1 /\ Forall (fun d => 0 <= d) dims /\ lookup s2 sp = Some (HSpace dims None)).
  { destruct O2 as [(-> & _)|(-> & N & o & E & K)]; [left; lia|right]. unfold guard in E.
    destruct (forallb size_ok (map u64 dims)) eqn:B; [|discriminate]. injection E as <-.
    destruct (size_ok_dims dims Hd B) as (A1 & A2). rewrite A2 in *. auto. }
  apply wp_ret. split.
  { destruct O3 as [(-> & _)|(-> & N & q & dd & E & K & _)]; [left; lia|right]. split; [lia|]. eexists. split; [exact K|reflexivity]. }
  intros s6 P6 T6 N6. split.
  { destruct S as [S|(-> & N & _ & K)]; [now left|right]. split; [lia|]. eexists. split; [lk; exact K|reflexivity]. }
  intros s7 P7 T7 N7. split.
  { destruct G as [G|(-> & N & _ & K)]; [now left|right]. split; [lia|]. eexists. split; [lk; exact K|reflexivity]. }
  intros s8 P8 T8 N8 K8. split.
  { destruct O0 as [(_ & -> & _)|[(_ & -> & _)|(_ & -> & N & o & K & _)]]; [left; reflexivity|left; reflexivity|].
    destruct (Z.eqb_spec (w_next s1) 0); [lia|]. right. split; [lia|]. exists (HPlist o). split; [|reflexivity].
    rewrite K8 by (destruct G as [G|(-> & Ng & _)]; lia). lk. exact K. }
  intros s9 P9 T9 N9. split.
  { via P1. via P0. via P2. via P3. via P6. via P7. via P8. eapply pres_weak; [|exact P9]. lia. }
  assert (TT : w_tree s9 = w_tree s3) by congruence.
  destruct O3 as [(-> & N & T3 & F3)|(-> & N & q & dd & E & K & T3)].
  - cbn. split; [congruence|]. intros X CF (C1 & C2 & C3 & C4 & C5).
    specialize (F3 (pres_faults _ _ _ P2 (pres_faults _ _ _ P0 (pres_faults _ _ _ P1 X)))).
    destruct O1 as [(-> & N1' & F1)|(-> & N1' & o1 & E1 & K1)].
    { specialize (F1 X). unfold file_open in F1. rewrite FF, C3 in F1. discriminate. }
    destruct O2 as [(-> & N2' & F2)|(-> & N2' & o2 & E2 & K2)].
    { specialize (F2 (pres_faults _ _ _ P0 (pres_faults _ _ _ P1 X))). rewrite (proj1 (dims_size_ok dims Hd C5)) in F2. discriminate. }
    destruct G as [G|(_ & _ & _ & G)]; [lia|]. destruct S as [S|(_ & _ & _ & S)]; [lia|].
    unfold dcreate_ok, space_of in F3. rewrite S in F3. rewrite (pres_lookup _ _ _ _ P2), (pres_lookup _ _ _ _ P0) in F3 by lia. rewrite G in F3.
    assert (R2 : w_ro s2 = false) by (destruct P2 as (-> & _), P0 as (-> & _), P1 as (-> & _); exact C2).
    assert (PO : plist_ok s2 pl dims = true).
    { unfold plist_ok. destruct O0 as [(_ & -> & _)|[(_ & _ & _ & NF)|(NC & -> & N' & o & K & KO)]]; [reflexivity|destruct (NF (pres_faults _ _ _ P1 X))|].
      destruct (Z.eqb_spec (w_next s1) 0); [reflexivity|]. rewrite (pres_lookup _ _ _ _ P2), K by lia. destruct CF as [CF|CF]; [contradiction|].
      destruct (chunk_fits_ok _ _ CF Hd) as (M1 & M2 & M3). rewrite M1 in KO. rewrite (KO (pres_faults _ _ _ P1 X) M2). exact M3. }
    rewrite T2, T0, T1, R2, C3, C4, PO in F3. discriminate.
  - rewrite (proj2 (Z.leb_le 0 (w_next s2))) by lia. unfold dcreate_ok in E.
    destruct G as [G|(-> & N1' & G1 & G2)]; [rewrite (pres_lookup _ _ _ _ P2), (pres_lookup _ _ _ _ P0), (pres_lookup _ _ _ _ P1), FN in E by lia; discriminate|].
    rewrite (pres_lookup _ _ _ _ P2), (pres_lookup _ _ _ _ P0), G2 in E by lia. unfold space_of in E.
    destruct S as [S|(-> & N2' & S1 & S2)]; [rewrite (pres_lookup _ _ _ _ P2), (pres_lookup _ _ _ _ P0), (pres_lookup _ _ _ _ P1), FN in E by lia; discriminate|].
    rewrite S2 in E. unfold guard in E. destruct (negb (w_ro s2) && _ && _ && _) eqn:B; [|discriminate]. injection E as <- <-.
    apply andb_true_iff in B as [B B4]. apply andb_true_iff in B as [B _]. apply andb_true_iff in B as [B _].
    split.
    + split; [exact V|]. split; [destruct P2 as (R2 & _), P0 as (R0 & _), P1 as (R1 & _); rewrite <- R1, <- R0, <- R2; now apply negb_true_iff|]. split; [exact G1|].
      split; [|exact S1]. rewrite T2, T0, T1 in B4. destruct (find_obj _ _); [discriminate|reflexivity].
    + rewrite TT, T3, T2, T0, T1. reflexivity.
Qed.

(** createGroup. *)
Lemma wp_create_group p s : file_ok s ->
  wp (create_group p) s (fun r s' => pres (w_next s) s s' /\
    (if r then w_tree s' = w_tree s ++ [mkObj p KGroup []] else w_tree s' = w_tree s) /\
    (r = true -> group_creatable s p) /\ (no_faults s -> group_creatable s p -> r = true)).
Proof.
  intros (L & FO & FN & _). unfold create_group. apply wp_bind, wp_valid. destruct (0 <=? m_file s) eqn:V.
  2: { apply wp_ret. split; [apply pres_refl|]. split; [reflexivity|]. split; [discriminate|]. intros _ (C & _). apply Z.leb_gt in V. lia. }
  apply Z.leb_le in V. destruct (FO V) as (FL & FF). apply wp_bind, wp_get, wp_bind.
  set (ok := file_open s (m_file s) && negb (w_ro s) && match p with [] => false | _ => is_group (w_tree s) (removelast p) end &&
      match find_obj (w_tree s) p with Some _ => false | None => true end).
  assert (OK : ok = true <-> group_creatable s p).
  { unfold ok, group_creatable, file_open. rewrite FF, !andb_true_iff. cbn [andb]. split.
    - intros (((_ & A) & B) & C). split; [exact V|]. split; [now apply negb_true_iff|]. destruct p; [discriminate|]. split; [discriminate|]. split; [exact B|].
      destruct (find_obj _ _); [discriminate|reflexivity].
    - intros (_ & A & B & C & D). rewrite A, D. destruct p; [contradiction|]. auto. }
  unfold H5Gcreate.
  assert (W : wp (open_id (fun s2 => guard (file_open s2 (m_file s) && negb (w_ro s2) && match p with [] => false | _ => is_group (w_tree s2) (removelast p) end &&
      match find_obj (w_tree s2) p with Some _ => false | None => true end) (Some (HGroup p)))) s
     (fun id s1 => pres (w_next s) s s1 /\ w_tree s1 = w_tree s /\
        (id = -1 /\ (no_faults s -> ok = false) \/ id = w_next s /\ ok = true /\ lookup s1 id = Some (HGroup p)))).
  { apply wp_open.
    - intros s1 P T N F. split; [exact P|]. split; [exact T|]. left. split; [reflexivity|]. intros X. specialize (F X). fold ok in F. destruct ok; [discriminate|reflexivity].
    - intros s1 o E P T N K. split; [exact P|]. split; [exact T|]. right. fold ok in E. destruct ok; [|discriminate]. injection E as <-. auto. }
  destruct W as (id & s1 & E & P & T & O).
  match goal with |- wp ?m s _ => assert (M : m s = Ok (id, if 0 <=? id then set_tree (w_tree s1 ++ [mkObj p KGroup []]) s1 else s1)) end.
  { rewrite E. reflexivity. }
  eexists. eexists. split; [exact M|]. destruct O as [(-> & F)|(-> & F & K)].
  - cbn. apply wp_ret. split; [exact P|]. split; [exact T|]. split; [discriminate|]. intros X C. apply OK in C. rewrite (F X) in C. discriminate.
  - rewrite (proj2 (Z.leb_le 0 (w_next s))), (proj2 (Z.ltb_ge (w_next s) 0)) by lia. apply wp_bind.
    eexists. eexists. split.
    { unfold close_id. change (lookup (set_tree (w_tree s1 ++ [mkObj p KGroup []]) s1) (w_next s)) with (lookup s1 (w_next s)). rewrite K. reflexivity. }
    apply wp_ret. split; [|split; [cbn; now rewrite T|split; [intros _; now apply OK|reflexivity]]].
    destruct P as (a1 & a2 & a3 & a4 & a5 & a6). repeat split; cbn; auto. intros x Hx. rewrite <- (a6 x Hx). unfold lookup. cbn.
    induction (w_live s1) as [|e l IH]; [reflexivity|]. cbn [filter find]. destruct (fst e =? w_next s) eqn:E1; cbn [negb find].
    + destruct (fst e =? x) eqn:E2; [apply Z.eqb_eq in E1, E2; lia|exact IH].
    + destruct (fst e =? x); [reflexivity|exact IH].
Qed.

(** children. *)
Lemma child_names_in t g n : In n (child_names t g) <-> exists o, In o t /\ o_path o = g ++ [n].
Proof.
  unfold child_names. rewrite in_flat_map. split.
  - intros (o & Ho & Hn). exists o. split; [exact Ho|]. unfold child_name in Hn. destruct (path_eqb (removelast (o_path o)) g) eqn:E; [|destruct Hn].
    apply path_eqb_eq in E. destruct (rev (o_path o)) as [|x l] eqn:R; [destruct Hn|]. destruct Hn as [<-|[]].
    assert (X : o_path o = rev l ++ [x]) by (rewrite <- (rev_involutive (o_path o)), R; reflexivity). rewrite X, removelast_last in E. now rewrite X, E.
  - intros (o & Ho & Hn). exists o. split; [exact Ho|]. unfold child_name. rewrite Hn, removelast_last, path_eqb_refl, rev_app_distr. now left.
Qed.
Lemma find_obj_in t p : (exists o, In o t /\ o_path o = p) <-> find_obj t p <> None.
Proof.
  unfold find_obj. split.
  - intros (o & Ho & Hp) F. apply (find_none _ _ F) in Ho. rewrite Hp, path_eqb_refl in Ho. discriminate.
  - destruct (find _ t) as [o|] eqn:F; [|contradiction]. intros _. apply find_some in F as (H1 & H2). apply path_eqb_eq in H2. eauto.
Qed.

Lemma wp_child_loop g p n : forall i last s (Q : list string -> world -> Prop), no_faults s -> group_of s g = Some p -> 0 <= i ->
  i + Z.of_nat n = Zlen (child_names (w_tree s) p) ->
  (forall s1, pres (w_next s) s s1 -> w_tree s1 = w_tree s -> (forall id, lookup s1 id = lookup s id) -> Q (skipn (Z.to_nat i) (child_names (w_tree s) p)) s1) ->
  wp (child_loop g i n last) s Q.
Proof.
  induction n as [|n IH]; intros i last s Q X G I L H; cbn [child_loop].
  - apply wp_ret. rewrite skipn_all2 in H by (unfold Zlen in L; lia). apply H; [apply pres_refl|reflexivity|reflexivity].
  - apply wp_bind. unfold H5Gget_objname_by_idx. apply wp_call; [intros ? ? ? ? F; contradiction|]. intros s1 P T N K. rewrite G.
    destruct (nth_error (child_names (w_tree s) p) (Z.to_nat i)) as [x|] eqn:E.
    2: { apply nth_error_None in E. unfold Zlen in L. lia. }
    apply wp_bind. apply IH.
    + now apply (pres_faults _ _ _ P).
    + unfold group_of in *. now rewrite K.
    + lia.
    + rewrite T. lia.
    + intros s2 P2 T2 K2. apply wp_ret. rewrite T. rewrite T in T2. apply (nth_error_split) in E as (l1 & l2 & E1 & E2).
      specialize (H s2). rewrite E1 in *. assert (Z.to_nat (i + 1) = Datatypes.S (Z.to_nat i)) as -> by lia.
      rewrite <- E2 in H |- *. rewrite skipn_app, skipn_all, Nat.sub_diag in H. cbn [app skipn] in H.
      replace (skipn (Datatypes.S (List.length l1)) (l1 ++ x :: l2)) with l2.
      2: { rewrite skipn_app, skipn_all2 by lia. replace (Datatypes.S (List.length l1) - List.length l1)%nat with 1%nat by lia. reflexivity. }
      apply H; [eapply pres_trans; [apply Z.le_refl|exact P|eapply pres_weak; [|exact P2]; lia]|congruence|intros id; rewrite K2; apply K].
Qed.

Lemma wp_children p s : file_ok s -> no_faults s -> 0 <= m_file s ->
  wp (children p) s (fun r s' => w_tree s' = w_tree s /\ r = if is_group (w_tree s) p then (child_names (w_tree s) p, true) else ([], false)).
Proof.
  intros (L & FO & FN & _) X V. destruct (FO V) as (FL & FF). unfold children. apply wp_bind, wp_valid. rewrite (proj2 (Z.leb_le _ _) V).
  apply wp_bind, wp_get, wp_bind. unfold H5Gopen. apply wp_open1. intros g s1 P1 T1 O1. unfold opened, file_open in O1. rewrite FF in O1. cbn [andb] in O1.
  destruct O1 as [(-> & N & F)|(-> & N & o & E & K)].
  - cbn. apply wp_ret. split; [exact T1|]. specialize (F X). destruct (is_group (w_tree s) p); [discriminate|reflexivity].
  - rewrite (proj2 (Z.ltb_ge _ _)) by lia. destruct (is_group (w_tree s) p); [|discriminate]. cbn [guard] in E. injection E as <-.
    apply (wp_with (w_next s)), wp_bind. unfold H5Gget_num_objs. apply wp_call; [intros ? ? ? ? F; destruct (F (pres_faults _ _ _ P1 X))|].
    intros s2 P2 T2 N2 K2. unfold group_of at 1. rewrite K. apply wp_bind. apply (wp_child_loop _ p).
    + eauto using pres_faults.
    + unfold group_of. now rewrite K2, K.
    + lia.
    + rewrite T2. unfold Zlen. lia.
    + intros s3 P3 T3 K3. apply wp_ret. split; [right; split; [lia|]; exists (HGroup p); split; [now rewrite K3, K2|reflexivity]|].
      intros s4 P4 T4 N4. split; [congruence|]. cbn [skipn Z.to_nat]. rewrite T2, T1. reflexivity.
Qed.

(** allDataSets. *)
Lemma below_spec g : forall p q, below g p = Some q <-> p = g ++ q.
Proof.
  induction g as [|a g IH]; intros p q; cbn [below app]; [split; intros E; congruence|]. destruct p as [|b p]; [split; discriminate|].
  destruct (String.eqb_spec a b) as [<-|N]; [rewrite IH; split; intros E; congruence|split; intros E; congruence].
Qed.
Lemma data_below_in t g q : NoDup (map o_path t) -> (In q (data_below t g) <-> is_data t (g ++ q) = true).
Proof.
  intros ND. assert (F : forall o, In o t -> find_obj t (o_path o) = Some o).
  { intros o. unfold find_obj. induction t as [|a t IH]; [contradiction|]. cbn [map] in ND. inversion ND as [|? ? N1 N2]. subst. intros [<-|Ho]; cbn [find].
    - now rewrite path_eqb_refl.
    - destruct (path_eqb (o_path a) (o_path o)) eqn:E; [|now apply IH]. apply path_eqb_eq in E. destruct N1. rewrite E. now apply in_map. }
  unfold data_below. rewrite in_flat_map. split.
  - intros (o & Ho & Hq). destruct (o_kind o) eqn:K; [destruct Hq|]. destruct (below g (o_path o)) as [q'|] eqn:B; [|destruct Hq]. destruct Hq as [<-|[]].
    apply below_spec in B. unfold is_data. rewrite <- B, (F o Ho), K. reflexivity.
  - unfold is_data. destruct (find_obj t (g ++ q)) as [o|] eqn:E; [|discriminate]. intros K. exists o. unfold find_obj in E. apply find_some in E as (Ho & Hp).
    apply path_eqb_eq in Hp. split; [exact Ho|]. destruct (o_kind o); [discriminate|]. rewrite (proj2 (below_spec g (o_path o) q) Hp). now left.
Qed.

Lemma wp_all_data_sets p s : file_ok s ->
  wp (all_data_sets p) s (fun r s' => w_tree s' = w_tree s /\ (r = [] \/ r = data_below (w_tree s) p) /\
    (no_faults s -> 0 <= m_file s -> is_group (w_tree s) p = true -> r = data_below (w_tree s) p)).
Proof.
  intros (L & FO & FN & _). unfold all_data_sets. apply wp_bind, wp_valid. destruct (0 <=? m_file s) eqn:V.
  2: { apply wp_ret. split; [reflexivity|]. split; [now left|]. intros _ C. apply Z.leb_gt in V. lia. }
  apply Z.leb_le in V. destruct (FO V) as (FL & FF). apply wp_bind, wp_get. destruct p as [|a p].
  - apply wp_bind, wp_ret. apply (wp_with (w_next s)), wp_bind. unfold H5Ovisit. apply wp_call.
    + intros s1 P T N F _. apply wp_ret. split; [left; lia|]. intros s2 P2 T2 N2. split; [congruence|]. split; [now left|]. intros X. contradiction.
    + intros s1 P T N _. unfold group_of. rewrite FF. apply wp_ret. split; [left; lia|]. intros s2 P2 T2 N2. split; [congruence|]. auto.
  - set (g := a :: p). apply wp_bind, wp_bind. unfold H5Gopen. apply wp_open1. intros id s1 P1 T1 O1. unfold opened, file_open in O1. rewrite FF in O1. cbn [andb] in O1.
    apply wp_ret. apply (wp_with (w_next s)), wp_bind. unfold H5Ovisit.
    assert (ID : id < 0 \/ w_next s <= id /\ lookup s1 id = Some (HGroup g)).
    { destruct O1 as [(-> & _)|(-> & N & o & E & K)]; [left; lia|right]. unfold guard in E. destruct (is_group (w_tree s) g); [|discriminate]. injection E as <-. split; [lia|exact K]. }
    apply wp_call.
    + intros s2 P2 T2 N2 F2 K2. apply wp_ret. split; [destruct ID as [I|(I & K)]; [now left|right; split; [exact I|]; exists (HGroup g); split; [now rewrite K2|reflexivity]]|].
      intros s3 P3 T3 N3. split; [congruence|]. split; [now left|]. intros X. destruct F2. now apply (pres_faults _ _ _ P1).
    + intros s2 P2 T2 N2 K2. apply wp_ret. split; [destruct ID as [I|(I & K)]; [now left|right; split; [exact I|]; exists (HGroup g); split; [now rewrite K2|reflexivity]]|].
      intros s3 P3 T3 N3. split; [congruence|]. destruct ID as [I|(I & K)].
      * unfold group_of. rewrite (pres_lookup _ _ _ _ P1), FN by lia. split; [now left|]. intros X _ G. destruct O1 as [(_ & _ & F)|(-> & _)]; [|lia].
        specialize (F X). rewrite G in F. discriminate.
      * unfold group_of. rewrite K, T1. auto.
Qed.
