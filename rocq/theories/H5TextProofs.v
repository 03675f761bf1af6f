(** Texts and the names of types. *)
From Coq Require Import String ZArith List Bool Lia.
From Verif Require Import Base BaseFacts H5LibModel H5WrapModel H5WrapSpec H5DataSpec H5DataProofs H5Region H5RegionProofs H5AttrProofs.
Import ListNotations.
Open Scope Z_scope.

Lemma wp_set_variable id n s (Q : Z -> world -> Prop) : n <= id \/ type_of s id = None ->
  (forall r s1, pres n s s1 -> w_tree s1 = w_tree s -> w_next s1 = w_next s ->
     (r = -1 /\ (no_faults s -> forall z, type_of s id <> Some (TFixStr z)) \/ r = 0 /\ type_of s id <> None) -> Q r s1) ->
  wp (H5Tset_variable id) s Q.
Proof.
  intros NI H. unfold H5Tset_variable, wp, change. destruct (w_fault s (w_clock s)) eqn:F.
  { eexists. eexists. split; [reflexivity|]. apply H; [repeat split; cbn; lia|reflexivity|reflexivity|]. left. split; [reflexivity|].
    intros X. rewrite X in F. discriminate. }
  change (type_of (set_clock (w_clock s + 1) s) id) with (type_of s id). destruct (type_of s id) as [[]|] eqn:T.
  12: { eexists. eexists. split; [reflexivity|]. destruct NI as [NI|NI]; [|discriminate].
        assert (E : forall x, lookup (set_live (map (fun e => if fst e =? id then (id, HType TVarStr) else e) (w_live (set_clock (w_clock s + 1) s))) (set_clock (w_clock s + 1) s)) x =
                 if x =? id then Some (HType TVarStr) else lookup s x).
        { intros x. rewrite (lookup_set (set_clock (w_clock s + 1) s)); [reflexivity|]. change (lookup s id <> None). unfold type_of in T. destruct (lookup s id); discriminate. }
        apply H; [|reflexivity|reflexivity|right; split; [reflexivity|discriminate]].
        repeat split; try (cbn; lia). intros x Hx. rewrite E. destruct (Z.eqb_spec x id); [lia|reflexivity]. }
  all: eexists; eexists; (split; [reflexivity|]); (apply H; [repeat split; cbn; lia|reflexivity|reflexivity|]); left; (split; [reflexivity|]); intros _ z; discriminate.
Qed.

(** setAttribute of a text. *)
Lemma wp_set_text p n x s : file_ok s ->
  wp (set_attribute_string p n x) s (fun r s' => pres (w_next s) s s' /\
    if r then settable s p n /\ attr_changed s s' p n (Some (mkAttr n TVarStr [EStr x]))
    else (w_tree s' = w_tree s \/ settable s p n /\ attr_changed s s' p n (Some (mkAttr n TVarStr [EStr ""]))) /\ (no_faults s -> ~ settable s p n)).
Proof.
  intros FOK. pose proof FOK as (L & FO & FN & MO). unfold set_attribute_string. apply wp_bind, wp_valid. destruct (0 <=? m_file s) eqn:V.
  2: { apply wp_ret. split; [apply pres_refl|]. split; [now left|]. intros _ (C & _). apply Z.leb_gt in V. lia. }
  apply Z.leb_le in V. destruct (FO V) as (FL & FF). apply wp_bind, wp_parent; [exact FOK|exact V|]. intros g k s1 P1 T1 O1.
  assert (N1 : w_next s <= w_next s1) by apply P1. apply (wp_with (w_next s)), wp_bind. unfold H5Screate_simple. apply wp_open1. intros sp s2 P2 T2 O2.
  assert (N2 : w_next s1 <= w_next s2) by apply P2. apply (wp_with (w_next s1)), wp_bind. unfold H5Tcopy. apply wp_open1. intros ty s3 P3 T3 O3.
  assert (N3 : w_next s2 <= w_next s3) by apply P3. 
  unfold opened in O2. cbn [forallb guard] in O2. change (size_ok 1) with true in O2. cbn [andb guard] in O2.
  assert (S : sp = -1 /\ ~ no_faults s \/ sp = w_next s1 /\ w_next s2 = w_next s1 + 1 /\ lookup s2 sp = Some (HSpace [1] None)).
  { destruct O2 as [(-> & _ & X)|(-> & N & o & E & K)]; [left|right]; [split; [reflexivity|]; intros Y; discriminate (X (pres_faults _ _ _ P1 Y))|].
    injection E as <-. auto. }
  clear O2.
  assert (Y : ty = -1 /\ ~ no_faults s \/ ty = w_next s2 /\ w_next s3 = w_next s2 + 1 /\ lookup s3 ty = Some (HType (TFixStr 1))).
  { destruct O3 as [(-> & _ & X)|(-> & N & o & E & K)]; [left|right]; [split; [reflexivity|]; intros Y; discriminate (X (pres_faults _ _ _ P2 (pres_faults _ _ _ P1 Y)))|].
    injection E as <-. auto. }
  clear O3. apply wp_bind, (wp_set_variable ty (w_next s2)).
  { destruct Y as [(-> & _)|(-> & _)]; [right|left; lia]. unfold type_of. lk. now rewrite FN by lia. }
  intros st s4 P4 T4 N4 O4.
  assert (P24 : pres (w_next s2) s2 s4) by (via P3; exact P4).
  assert (Fin : forall r s5, pres (w_next s2) s4 s5 ->
     (forall s', w_tree s' = w_tree s5 -> if (r : bool) then settable s p n /\ attr_changed s s' p n (Some (mkAttr n TVarStr [EStr x]))
       else (w_tree s' = w_tree s \/ settable s p n /\ attr_changed s s' p n (Some (mkAttr n TVarStr [EStr ""]))) /\ (no_faults s -> ~ settable s p n)) ->
     (sp < 0 \/ w_next s1 <= sp /\ exists o, lookup s5 sp = Some o /\ hkind_of o = CSpace) /\
        forall s7, pres (w_next s1) s5 s7 -> w_tree s7 = w_tree s5 -> w_next s7 = w_next s5 ->
        (g < 0 \/ w_next s <= g /\ exists o, lookup s7 g = Some o /\ hkind_of o = k) /\
        forall s8, pres (w_next s) s7 s8 -> w_tree s8 = w_tree s7 -> w_next s8 = w_next s7 -> pres (w_next s) s s8 /\
          if r then settable s p n /\ attr_changed s s8 p n (Some (mkAttr n TVarStr [EStr x]))
          else (w_tree s8 = w_tree s \/ settable s p n /\ attr_changed s s8 p n (Some (mkAttr n TVarStr [EStr ""]))) /\ (no_faults s -> ~ settable s p n)).
  { intros r s5 P5 HQ. split.
    { destruct S as [(-> & _)|(-> & N & K)]; [left; lia|right]. split; [lia|]. eexists. split; [lk; exact K|reflexivity]. }
    intros s7 P7 T7 N7. split.
    { destruct O1 as [(-> & _)|(-> & N & _ & _ & o & K1 & K2)]; [left; lia|right]. split; [lia|]. exists o. split; [|exact K2]. lk. exact K1. }
    intros s8 P8 T8 N8. split; [via P1; via P2; via P24; via P5; via P7; exact P8|]. apply HQ. congruence. }
  destruct (st <? 0) eqn:ST.
  { apply wp_ret. apply (Fin false); [apply pres_refl|]. intros s' T'. split; [left; congruence|]. intros X _. destruct O4 as [(_ & O4)|(-> & _)]; [|discriminate].
    destruct Y as [(_ & Y)|(-> & _ & Y)]; [contradiction|]. apply (O4 (pres_faults _ _ _ P3 (pres_faults _ _ _ P2 (pres_faults _ _ _ P1 X))) 1). unfold type_of. now rewrite Y. }
  apply wp_bind, wp_Acreate; [lia|]. intros a s5 P5 O5. assert (N5 : w_next s4 <= w_next s5) by apply P5.
  assert (P45 : pres (w_next s2) s4 s5) by (eapply pres_weak; [|exact P5]; lia).
  destruct O5 as [(-> & N & T5 & F5)|(-> & N & q & dd & E & K & CH)].
  - cbn [Z.ltb Z.compare]. apply wp_ret. apply (Fin false); [exact P45|]. intros s' T'. split; [left; congruence|]. intros X (C1 & C2 & C3 & C4).
    assert (X4 : no_faults s4) by eauto using pres_faults. specialize (F5 X4).
    destruct S as [(_ & S)|(-> & N2' & S)]; [contradiction|].
    destruct O1 as [(-> & _ & O)|(-> & N1' & _ & O & _)]; [apply C3; auto|].
    unfold acreate_ok, parent_of in *. rewrite (pres_lookup _ _ _ _ P24), (pres_lookup _ _ _ _ P2), (pres_lookup _ _ _ (w_next s1) P24), S in F5 by lia.
    assert (R4 : w_ro s4 = false) by (destruct P24 as (-> & _), P2 as (-> & _), P1 as (-> & _); exact C2).
    assert (TR : w_tree s4 = w_tree s) by congruence.
    destruct (lookup s1 (w_next s)) as [[]|]; try discriminate; injection O as ->; rewrite R4, TR in F5; unfold attr_at in C4;
      destruct (find_obj (w_tree s) p); try contradiction; cbn [negb guard] in F5; rewrite C4 in F5; discriminate.
  - rewrite (proj2 (Z.ltb_ge _ _)) by lia. unfold acreate_ok in E. destruct S as [(-> & S)|(-> & N2' & S)].
    { rewrite (pres_lookup _ _ _ (-1) P24), (pres_lookup _ _ _ (-1) P2), (pres_lookup _ _ _ (-1) P1), FN in E by lia. destruct (parent_of s4 g); discriminate. }
    rewrite (pres_lookup _ _ _ (w_next s1) P24), S in E by lia. destruct O1 as [(-> & _)|(-> & N1' & PE & O & _)].
    { unfold parent_of in E. rewrite (pres_lookup _ _ _ _ P24), (pres_lookup _ _ _ _ P2), (pres_lookup _ _ _ _ P1), FN in E by lia. discriminate. }
    assert (PO : parent_of s4 (w_next s) = Some p) by (unfold parent_of in *; rewrite (pres_lookup _ _ _ _ P24), (pres_lookup _ _ _ _ P2) by lia; exact O).
    assert (TR : w_tree s4 = w_tree s) by congruence.
    rewrite PO in E. unfold guard in E. destruct (negb (w_ro s4)) eqn:R; [|discriminate]. destruct (find_obj (w_tree s4) p) as [o|] eqn:FO4; [|discriminate].
    destruct (find_attr o n) eqn:FA; [discriminate|]. injection E as <- <-.
    assert (STT : settable s p n).
    { split; [exact V|]. split; [destruct P24 as (R4 & _), P2 as (R2 & _), P1 as (R1 & _); rewrite <- R1, <- R2, <- R4; now apply negb_true_iff|]. split; [exact PE|].
      unfold attr_at. rewrite <- TR, FO4. exact FA. }
    assert (CH0 : attr_changed s s5 p n (Some (mkAttr n TVarStr [EStr ""]))) by (eapply attr_changed_from; [exact TR|exact CH]).
    apply (wp_with (w_next s4)), wp_bind. eapply wp_Awrite; [exact K|apply CH0|cbn; lia|]. cbn [a_vals a_type List.length firstn].
    intros r s6 P6 O6. apply wp_ret. split.
    { right. split; [lia|]. eexists. split; [lk; exact K|reflexivity]. }
    intros s7 P7 T7 N7. apply Fin; [via P45; via P6; eapply pres_weak; [|exact P7]; lia|]. intros s' T'.
    destruct O6 as [(-> & T6 & R6)|(-> & CH6)]; cbn.
    + split; [right; split; [exact STT|]; eapply attr_changed_tree; [|exact CH0]; congruence|]. intros X _.
      assert (RO : w_ro s5 = true) by (apply R6; eauto using pres_faults).
      destruct P5 as (R5 & _), P24 as (R4 & _), P2 as (R2 & _), P1 as (R1 & _), STT as (_ & R0 & _). congruence.
    + split; [exact STT|]. eapply attr_changed_tree; [|eapply attr_changed_trans; eassumption]. congruence.
Qed.

(** attribute<string>. *)
Lemma wp_text p n s : file_ok s -> (forall y, attr_at s p n = Some y -> (exists x, a_vals y = [EStr x]) /\ forall z, a_type y <> TFixStr z) ->
  wp (attribute_string p n) s (fun r s' => pres (w_next s) s s' /\ w_tree s' = w_tree s /\
    (snd r = true -> exists y, attr_at s p n = Some y /\ a_type y = TVarStr /\ a_vals y = [EStr (fst r)]) /\
    (no_faults s -> 0 <= m_file s -> (snd r = true <-> exists y, attr_at s p n = Some y /\ a_type y = TVarStr))).
Proof.
  intros FOK ONE. pose proof FOK as (L & FO & FN & MO). unfold attribute_string. apply wp_bind, wp_attr_exists; [exact FOK|]. intros b s1 P1 T1 B1 B2.
  assert (N1 : w_next s <= w_next s1) by apply P1. destruct b.
  2: { apply wp_ret. split; [exact P1|]. split; [exact T1|]. split; [discriminate|]. intros X Y. split; [discriminate|]. intros (y & E & _).
       assert (attr_at s p n <> None) as H by congruence. discriminate (B2 X Y H). }
  destruct (B1 eq_refl) as (V & AT). destruct (attr_at s p n) as [y|] eqn:AX; [|contradiction]. clear AT B1 B2. destruct (ONE y eq_refl) as ((x & VX) & NF).
  destruct (FO V) as (FL & FF). assert (M1 : m_file s1 = m_file s) by apply P1.
  apply wp_bind, wp_get, wp_bind. unfold H5Aopen_by_name. apply wp_open1. intros a s2 P2 T2 O2. assert (N2 : w_next s1 <= w_next s2) by apply P2.
  unfold opened, file_open in O2. rewrite M1, (pres_lookup _ _ _ _ P1), FF, (attr_at_tree s s1), AX in O2 by (try lia; exact T1). cbn [guard] in O2.
  assert (A : a = -1 /\ ~ no_faults s \/ a = w_next s1 /\ w_next s2 = w_next s1 + 1 /\ lookup s2 a = Some (HAttr p n)).
  { destruct O2 as [(-> & _ & F)|(-> & N & o & E & K)]; [left|right]; [split; [reflexivity|]; intros Y; discriminate (F (pres_faults _ _ _ P1 Y))|].
    injection E as <-. auto. }
  clear O2. apply wp_bind. unfold H5Aget_type. apply wp_open1. intros ty s3 P3 T3 O3. assert (N3 : w_next s2 <= w_next s3) by apply P3.
  assert (TY : (ty = -1 /\ ~ no_faults s) \/ ty = w_next s2 /\ w_next s3 = w_next s2 + 1 /\ lookup s3 ty = Some (HType (a_type y)) /\ 1 <= a /\ lookup s2 a = Some (HAttr p n)).
  { unfold opened in O3. destruct A as [(-> & A)|(-> & NA & KA)].
    - rewrite (pres_lookup _ _ _ (-1) P2), (pres_lookup _ _ _ (-1) P1), FN in O3 by lia. destruct O3 as [(-> & _ & F)|(_ & _ & o & E & _)]; [auto|discriminate].
    - rewrite KA, (attr_at_tree s s2), AX in O3 by congruence. destruct O3 as [(-> & _ & F)|(-> & N & o & E & K)]; [left|right].
      + split; [reflexivity|]. intros Y. discriminate (F (pres_faults _ _ _ P2 (pres_faults _ _ _ P1 Y))).
      + injection E as <-. repeat split; auto. lia. }
  clear O3. apply (wp_with (w_next s1)), (wp_with (w_next s2)), wp_bind.
  assert (Fin : forall r s5, pres (w_next s3) s3 s5 -> w_tree s5 = w_tree s ->
     (snd r = true -> a_type y = TVarStr /\ a_vals y = [EStr (fst r)]) ->
     (no_faults s -> a_type y = TVarStr -> snd r = true) ->
     wp (ret r) s5 (fun r1 s6 => (ty < 0 \/ w_next s2 <= ty /\ exists o, lookup s6 ty = Some o /\ hkind_of o = CType) /\
        forall s7, pres (w_next s2) s6 s7 -> w_tree s7 = w_tree s6 -> w_next s7 = w_next s6 ->
        (a < 0 \/ w_next s1 <= a /\ exists o, lookup s7 a = Some o /\ hkind_of o = CAttr) /\
        forall s8, pres (w_next s1) s7 s8 -> w_tree s8 = w_tree s7 -> w_next s8 = w_next s7 ->
          pres (w_next s) s s8 /\ w_tree s8 = w_tree s /\
          (snd r1 = true -> exists y0, Some y = Some y0 /\ a_type y0 = TVarStr /\ a_vals y0 = [EStr (fst r1)]) /\
          (no_faults s -> 0 <= m_file s -> (snd r1 = true <-> exists y0, Some y = Some y0 /\ a_type y0 = TVarStr)))).
  { intros r s5 P5 T5 R1 R2. apply wp_ret. split.
    { destruct TY as [(-> & _)|(-> & NT & KT & _)]; [left; lia|right]. split; [lia|]. eexists. split; [lk; exact KT|reflexivity]. }
    intros s7 P7 T7 N7. split.
    { destruct A as [(-> & _)|(-> & NA & KA)]; [left; lia|right]. split; [lia|]. eexists. split; [lk; exact KA|reflexivity]. }
    intros s8 P8 T8 N8. split; [via P1; via P2; via P3; via P5; via P7; eapply pres_weak; [|exact P8]; lia|]. split; [congruence|]. split; [intros H; exists y; split; [reflexivity|auto]|].
    intros X _. split; [intros H; exists y; split; [reflexivity|]; now apply R1|]. intros (y0 & E & H). injection E as <-. auto. }
  assert (RT : type_of s3 ty = None /\ ~ no_faults s \/ type_of s3 ty = Some (a_type y) /\ lookup s2 a = Some (HAttr p n) /\ a < w_next s2).
  { unfold type_of. destruct TY as [(-> & TY)|(-> & _ & KT & _ & KA)]; [left|right].
    - split; [|exact TY]. rewrite (pres_lookup _ _ _ _ P3), (pres_lookup _ _ _ _ P2), (pres_lookup _ _ _ _ P1), FN by lia. reflexivity.
    - rewrite KT. split; [reflexivity|]. split; [exact KA|]. destruct A as [(-> & _)|(-> & NA & _)]; lia. }
  assert (Tail : forall s4, pres (w_next s3) s3 s4 -> w_tree s4 = w_tree s -> a_type y = TVarStr -> lookup s2 a = Some (HAttr p n) /\ a < w_next s2 ->
    wp (do r <- H5Aread a; match r with None => ret (EmptyString, false) | Some [EStr x] => ret (x, true) | Some [] => undefined "indeterminate pointer"
          | Some _ => undefined "write past the end of the pointer" end) s4 (fun r1 s6 => (ty < 0 \/ w_next s2 <= ty /\ exists o, lookup s6 ty = Some o /\ hkind_of o = CType) /\
        forall s7, pres (w_next s2) s6 s7 -> w_tree s7 = w_tree s6 -> w_next s7 = w_next s6 ->
        (a < 0 \/ w_next s1 <= a /\ exists o, lookup s7 a = Some o /\ hkind_of o = CAttr) /\
        forall s8, pres (w_next s1) s7 s8 -> w_tree s8 = w_tree s7 -> w_next s8 = w_next s7 ->
          pres (w_next s) s s8 /\ w_tree s8 = w_tree s /\
          (snd r1 = true -> exists y0, Some y = Some y0 /\ a_type y0 = TVarStr /\ a_vals y0 = [EStr (fst r1)]) /\
          (no_faults s -> 0 <= m_file s -> (snd r1 = true <-> exists y0, Some y = Some y0 /\ a_type y0 = TVarStr)))).
  { intros s4 P4 T4 TV (KA & LA). apply wp_bind. unfold H5Aread. apply wp_call.
    - intros s5 P5 T5 N5 X5 _. apply Fin; [via P4; eapply pres_weak; [|exact P5]; apply P4|congruence|discriminate|]. intros Y. exfalso. apply X5. eauto using pres_faults.
    - intros s5 P5 T5 N5 _. rewrite (pres_lookup _ _ _ _ P4), (pres_lookup _ _ _ _ P3), KA, (attr_at_tree s s4), AX by (try lia; congruence). rewrite VX at 1.
      apply Fin; [via P4; eapply pres_weak; [|exact P5]; apply P4|congruence|cbn; auto|reflexivity]. }
  unfold H5Tget. apply wp_call.
  { intros s4 P4 T4 N4 X4 _. apply Fin; [exact P4|congruence|discriminate|]. intros Y. exfalso. apply X4. eauto using pres_faults. }
  intros s4 P4 T4 N4 K4. destruct RT as [(RT & NX)|(RT & KA & LA)]; rewrite RT.
  { apply Fin; [exact P4|congruence|discriminate|]. intros Y. contradiction. }
  destruct (a_type y) eqn:TV.
  12: { destruct (NF size eq_refl). }
  11: { apply wp_bind, wp_call.
        - intros s5 P5 T5 N5 X5 _. apply Fin; [via P4; eapply pres_weak; [|exact P5]; apply P4|congruence|discriminate|]. intros Y. exfalso. apply X5. eauto using pres_faults.
        - intros s5 P5 T5 N5 _. unfold type_of. rewrite K4. fold (type_of s3 ty). rewrite RT. apply Tail; auto; [via P4; eapply pres_weak; [|exact P5]; apply P4|congruence]. }
  all: apply Fin; [exact P4|congruence|discriminate|]; intros _ C; discriminate.
Qed.

(** dataType without failures. *)
Lemma wp_find_dtype ty u l : forall s (Q : dtype -> world -> Prop), no_faults s -> type_of s ty = Some u ->
  (forall s1, pres (w_next s) s s1 -> w_tree s1 = w_tree s -> (forall id, lookup s1 id = lookup s id) ->
     Q (match find (fun e => type_eqb u (fst e)) l with Some e => snd e | None => DNone end) s1) ->
  wp (find_dtype ty l) s Q.
Proof.
  induction l as [|[t d] l IH]; intros s Q X T H; cbn [find_dtype find fst].
  - apply wp_ret. apply H; [apply pres_refl|reflexivity|reflexivity].
  - apply wp_bind. unfold H5Tequal. apply wp_call; [intros ? ? ? ? F; contradiction|]. intros s1 P T1 N1 K1. rewrite T. destruct (type_eqb u t) eqn:E.
    + cbn. apply wp_ret. cbn [find fst snd] in H. rewrite E in H. now apply H.
    + cbn. apply IH; [now apply (pres_faults _ _ _ P)|unfold type_of in *; now rewrite K1|]. intros s2 P2 T2 K2.
      cbn [find fst snd] in H. rewrite E in H. apply H; [eapply pres_trans; [apply Z.le_refl|exact P|eapply pres_weak; [|exact P2]; lia]|congruence|intros id; rewrite K2; apply K1].
Qed.

Lemma wp_data_type p s : file_ok s -> no_faults s -> 0 <= m_file s ->
  wp (data_type p) s (fun r s' => w_tree s' = w_tree s /\ r = match data_at s p with
    | Some (u, _, _) => match find (fun e => type_eqb u (fst e)) h5_to_dtype_map with Some e => snd e | None => DNone end
    | None => DNone end).
Proof.
  intros FOK X V. pose proof FOK as (L & FO & FN & MO). destruct (FO V) as (FL & FF). unfold data_type, is_data_set. apply wp_bind, wp_object; [exact FOK|].
  intros b s1 P1 T1 N1 B1 B2. specialize (B2 X V). assert (M1 : m_file s1 = m_file s) by apply P1. destruct b.
  - symmetry in B2. apply is_data_at in B2 as ([[u d] v] & D). rewrite D. apply wp_bind, wp_get, wp_bind, wp_Dopen. intros ds s2 P2 T2 O2.
    assert (F1 : lookup s1 (m_file s1) = Some HFile) by (rewrite M1; lk; exact FF).
    assert (D1 : data_at s1 p = Some (u, d, v)) by (rewrite <- D; now apply data_at_tree).
    destruct O2 as [(_ & _ & F)|(-> & N2 & _ & _ & K)].
    { specialize (F (pres_faults _ _ _ P1 X) F1). assert (is_data (w_tree s1) p = true) as H by (apply is_data_at; eauto). congruence. }
    rewrite (proj2 (Z.ltb_ge _ _)) by lia. apply wp_bind. eapply wp_Dtype; [exact K|rewrite <- D1; now apply data_at_tree|]. intros ty s3 P3 T3 [(_ & _ & F)|(-> & N3 & K3)].
    { destruct F. eauto using pres_faults. }
    apply (wp_with (w_next s1)), (wp_with (w_next s2)). apply (wp_find_dtype _ u); [eauto using pres_faults|unfold type_of; now rewrite K3|].
    intros s4 P4 T4 K4. split; [right; split; [lia|]; exists (HType u); split; [now rewrite K4|reflexivity]|]. intros s5 P5 T5 N5.
    split; [right; split; [lia|]; exists (HData p); split; [|reflexivity]; lk; exact K|]. intros s6 P6 T6 N6. split; [congruence|reflexivity].
  - apply wp_ret. split; [exact T1|]. destruct (data_at s p) eqn:D; [|reflexivity]. assert (is_data (w_tree s) p = true) as H by (apply is_data_at; eauto). congruence.
Qed.

Lemma wp_attribute_type p n s : file_ok s -> no_faults s -> 0 <= m_file s ->
  wp (attribute_type p n) s (fun r s' => w_tree s' = w_tree s /\ r = match attr_at s p n with
    | Some y => match a_type y with TVarStr | TFixStr _ => DString
                | u => match find (fun e => type_eqb u (fst e)) h5_to_dtype_map with Some e => snd e | None => DNone end end
    | None => DNone end).
Proof.
  intros FOK X V. pose proof FOK as (L & FO & FN & MO). destruct (FO V) as (FL & FF). unfold attribute_type. apply wp_bind, wp_attr_exists; [exact FOK|].
  intros b s1 P1 T1 B1 B2. assert (N1 : w_next s <= w_next s1) by apply P1. destruct b.
  2: { apply wp_ret. split; [exact T1|]. destruct (attr_at s p n) eqn:E; [|reflexivity]. assert (Some a <> None) as H by discriminate. discriminate (B2 X V H). }
  destruct (B1 eq_refl) as (_ & AT). destruct (attr_at s p n) as [y|] eqn:AX; [|contradiction]. clear AT B1 B2. assert (M1 : m_file s1 = m_file s) by apply P1.
  apply wp_bind, wp_get, wp_bind. unfold H5Aopen_by_name. apply wp_open1. intros a s2 P2 T2 O2. assert (N2 : w_next s1 <= w_next s2) by apply P2.
  unfold opened, file_open in O2. rewrite M1, (pres_lookup _ _ _ _ P1), FF, (attr_at_tree s s1), AX in O2 by (try lia; exact T1). cbn [guard] in O2.
  destruct O2 as [(_ & _ & F)|(-> & N2' & o & E & KA)]; [discriminate (F (pres_faults _ _ _ P1 X))|]. injection E as <-.
  apply wp_bind. unfold H5Aget_type. apply wp_open1. intros ty s3 P3 T3 O3. unfold opened in O3. rewrite KA, (attr_at_tree s s2), AX in O3 by congruence.
  destruct O3 as [(_ & _ & F)|(-> & N3 & o & E & K3)]; [discriminate (F (pres_faults _ _ _ P2 (pres_faults _ _ _ P1 X)))|]. injection E as <-.
  apply (wp_with (w_next s1)), (wp_with (w_next s2)), wp_bind. unfold H5Tget. apply wp_call; [intros ? ? ? ? F; destruct F; eauto using pres_faults|].
  intros s4 P4 T4 N4 K4. unfold type_of. rewrite K3.
  assert (Fin : forall r s5, pres (w_next s3) s4 s5 -> w_tree s5 = w_tree s4 -> (forall id, lookup s5 id = lookup s4 id) ->
      (w_next s2 < 0 \/ w_next s2 <= w_next s2 /\ exists o, lookup s5 (w_next s2) = Some o /\ hkind_of o = CType) /\
      forall s7, pres (w_next s2) s5 s7 -> w_tree s7 = w_tree s5 -> w_next s7 = w_next s5 ->
      (w_next s1 < 0 \/ w_next s1 <= w_next s1 /\ exists o, lookup s7 (w_next s1) = Some o /\ hkind_of o = CAttr) /\
      forall s8, pres (w_next s1) s7 s8 -> w_tree s8 = w_tree s7 -> w_next s8 = w_next s7 -> w_tree s8 = w_tree s /\ r = (r : dtype)).
  { intros r s5 P5 T5 K5. split; [right; split; [lia|]; eexists; split; [rewrite K5, K4; exact K3|reflexivity]|]. intros s7 P7 T7 N7.
    split; [right; split; [lia|]; exists (HAttr p n); split; [|reflexivity]; lk; exact KA|]. intros s8 P8 T8 N8. split; [congruence|reflexivity]. }
  assert (X4 : no_faults s4) by eauto using pres_faults. assert (TY : type_of s4 (w_next s2) = Some (a_type y)) by (unfold type_of; now rewrite K4, K3).
  destruct (a_type y) eqn:TV.
  all: first [apply wp_ret; apply Fin; [apply pres_refl|reflexivity|reflexivity] |
    apply (wp_find_dtype _ (a_type y)); [exact X4|now rewrite TV|]; rewrite TV; intros s5 P5 T5 K5; apply Fin; [eapply pres_weak; [|exact P5]; lia|exact T5|exact K5]].
Qed.
