(** Attributes. *)
From Coq Require Import String ZArith List Bool Lia.
From Verif Require Import Base BaseFacts H5LibModel H5WrapModel H5WrapSpec H5DataSpec H5DataProofs.
Import ListNotations.
Open Scope Z_scope.

Lemma attr_at_tree s s1 p n : w_tree s1 = w_tree s -> attr_at s1 p n = attr_at s p n.
Proof. unfold attr_at. now intros ->. Qed.

(** What a change of the attributes of one object may do. *)
Definition attr_changed (s s1 : world) (p : path) (n : string) (new : option attr) : Prop :=
  attr_at s1 p n = new /\
  (forall q m, (q, m) <> (p, n) -> attr_at s1 q m = attr_at s q m) /\
  (forall q, data_at s1 q = data_at s q) /\ (forall q, is_group (w_tree s1) q = is_group (w_tree s) q).

Lemma attr_unchanged s s1 p n : w_tree s1 = w_tree s -> attr_changed s s1 p n (attr_at s p n).
Proof.
  intros T. split; [now apply attr_at_tree|]. split; [intros; now apply attr_at_tree|]. split; [intros; now apply data_at_tree|].
  intros q. now rewrite T.
Qed.
Lemma attr_changed_tree s s1 s2 p n a : w_tree s2 = w_tree s1 -> attr_changed s s1 p n a -> attr_changed s s2 p n a.
Proof. intros T (A & B & C & D). unfold attr_changed, attr_at, data_at in *. rewrite T. auto. Qed.
Lemma attr_changed_from s s0 s1 p n a : w_tree s0 = w_tree s -> attr_changed s0 s1 p n a -> attr_changed s s1 p n a.
Proof. intros T (A & B & C & D). unfold attr_changed, attr_at, data_at in *. rewrite T in *. auto. Qed.
Lemma attr_changed_trans s s1 s2 p n a b : attr_changed s s1 p n a -> attr_changed s1 s2 p n b -> attr_changed s s2 p n b.
Proof.
  intros (A & B & C & D) (A' & B' & C' & D'). split; [exact A'|]. split; [intros; rewrite B', B by assumption; reflexivity|].
  split; intros; [now rewrite C', C|now rewrite D', D].
Qed.

Lemma attr_map s p n f new : (forall o, o_path (f o) = o_path o) -> (forall o, o_kind (f o) = o_kind o) ->
  (forall o m, m <> n -> find_attr (f o) m = find_attr o m) ->
  (match find_obj (w_tree s) p with Some o => find_attr (f o) n | None => None end) = new ->
  forall c, attr_changed s (set_tree (map_obj p f (w_tree s)) (set_clock c s)) p n new.
Proof.
  intros H1 H2 H3 H4 c. unfold attr_changed, attr_at, data_at, is_group. cbn [w_tree set_tree]. repeat split.
  - rewrite (find_obj_map _ _ _ H1). destruct (find_obj (w_tree s) p); exact H4.
  - intros q m N. destruct (list_eq_dec string_dec p q) as [<-|E].
    + rewrite (find_obj_map _ _ _ H1). destruct (find_obj (w_tree s) p); [|reflexivity]. apply H3. congruence.
    + now rewrite (find_obj_map_other _ _ _ _ H1 E).
  - intros q. destruct (list_eq_dec string_dec p q) as [<-|E].
    + rewrite (find_obj_map _ _ _ H1). destruct (find_obj (w_tree s) p); [|reflexivity]. now rewrite H2.
    + now rewrite (find_obj_map_other _ _ _ _ H1 E).
  - intros q. destruct (list_eq_dec string_dec p q) as [<-|E].
    + rewrite (find_obj_map _ _ _ H1). destruct (find_obj (w_tree s) p); [|reflexivity]. now rewrite H2.
    + now rewrite (find_obj_map_other _ _ _ _ H1 E).
Qed.

(** The parent. *)
Lemma wp_parent p s (Q : Z * hkind -> world -> Prop) : file_ok s -> 0 <= m_file s ->
  (forall id k s1, pres (w_next s) s s1 -> w_tree s1 = w_tree s ->
     (id = -1 /\ w_next s1 = w_next s /\ (no_faults s -> find_obj (w_tree s) p = None) \/
      id = w_next s /\ w_next s1 = w_next s + 1 /\ find_obj (w_tree s) p <> None /\ parent_of s1 id = Some p /\ (exists o, lookup s1 id = Some o /\ hkind_of o = k)) -> Q (id, k) s1) ->
  wp (open_parent p) s Q.
Proof.
  intros FOK V H. pose proof FOK as (L & FO & FN & MO). destruct (FO V) as (FL & FF). unfold open_parent, is_data_set. apply wp_bind, wp_object; [exact FOK|].
  intros b s1 P1 T1 N1 B1 B2. assert (M1 : m_file s1 = m_file s) by apply P1.
  assert (F1 : lookup s1 (m_file s1) = Some HFile) by (rewrite M1; lk; exact FF).
  apply wp_bind, wp_get. destruct b.
  - apply wp_bind, wp_Dopen. intros id s2 P2 T2 O2. apply wp_ret. apply H; [via P1; eapply pres_weak; [|exact P2]; lia|congruence|].
    rewrite N1, T1 in O2. destruct O2 as [(-> & N & F)|(-> & N & ID & _ & K)]; [left|right].
    + repeat split; auto. intros X. specialize (F (pres_faults _ _ _ P1 X) F1). rewrite (B1 eq_refl) in F. discriminate.
    + split; [reflexivity|]. split; [exact N|]. split; [unfold is_data in ID; destruct (find_obj (w_tree s) p); [discriminate|discriminate ID]|].
      split; [unfold parent_of; now rewrite K|eauto].
  - apply wp_bind. unfold H5Gopen. apply wp_open1. intros id s2 P2 T2 O2. apply wp_ret. apply H; [via P1; eapply pres_weak; [|exact P2]; lia|congruence|].
    unfold opened, file_open in O2. rewrite F1, N1, T1 in O2. cbn [andb] in O2. destruct O2 as [(-> & N & F)|(-> & N & o & E & K)]; [left|right].
    + repeat split; auto. intros X. specialize (F (pres_faults _ _ _ P1 X)). specialize (B2 X V). unfold is_data, is_group in *.
      destruct (find_obj (w_tree s) p) as [o|]; [|reflexivity]. destruct (o_kind o); discriminate.
    + unfold guard in E. destruct (is_group (w_tree s) p) eqn:G; [|discriminate]. injection E as <-.
      split; [reflexivity|]. split; [exact N|]. split; [unfold is_group in G; destruct (find_obj (w_tree s) p); [discriminate|discriminate G]|].
      split; [unfold parent_of; now rewrite K|eauto].
Qed.

Lemma wp_Acreate parent n t space s (Q : Z -> world -> Prop) : 1 <= w_next s ->
  (forall id s1, pres (w_next s) s s1 ->
     (id = -1 /\ w_next s1 = w_next s /\ w_tree s1 = w_tree s /\ (no_faults s -> acreate_ok parent n space s = None) \/
      id = w_next s /\ w_next s1 = w_next s + 1 /\ exists q d, acreate_ok parent n space s = Some (q, d) /\ lookup s1 id = Some (HAttr q n) /\
       attr_changed s s1 q n (Some (mkAttr n t (repeat (zero_of t) (Z.to_nat (prodZ d)))))) -> Q id s1) ->
  wp (H5Acreate2 parent n t space) s Q.
Proof.
  intros L H. unfold H5Acreate2.
  assert (W : wp (open_id (fun s => match acreate_ok parent n space s with Some (p, _) => Some (HAttr p n) | None => None end)) s
     (fun id s1 => Q id (if 0 <=? id then acreate_tree n t (acreate_ok parent n space s) s1 else s1))).
  { apply wp_open.
    - intros s1 P T N F. cbn [Z.leb Z.compare]. apply H; [exact P|]. left. repeat split; auto. intros X. specialize (F X).
      destruct (acreate_ok _ _ _ _) as [[]|]; [discriminate|reflexivity].
    - intros s1 o E P T N K. rewrite (proj2 (Z.leb_le 0 (w_next s))) by lia. destruct (acreate_ok _ _ _ _) as [[q d]|] eqn:D; [|discriminate].
      injection E as <-. cbn [acreate_tree]. apply H; [exact P|]. right. split; [reflexivity|]. split; [exact N|]. exists q, d.
      split; [reflexivity|]. split; [exact K|]. apply (attr_changed_from s s1); [exact T|].
      apply (attr_changed_tree s1 (set_tree (map_obj q (fun o => mkObj (o_path o) (o_kind o)
           (o_attrs o ++ [mkAttr n t (repeat (zero_of t) (Z.to_nat (prodZ d)))])) (w_tree s1)) (set_clock (w_clock s1) s1))); [reflexivity|].
      apply attr_map; try reflexivity.
      + intros o m Hm. unfold find_attr. cbn [o_attrs]. induction (o_attrs o) as [|y l IH]; cbn [app find a_name].
        * destruct (String.eqb_spec n m); [congruence|reflexivity].
        * destruct (a_name y =? m)%string; auto.
      + rewrite T. unfold acreate_ok in D. destruct (parent_of s parent); [|discriminate]. destruct (lookup s space) as [[]|]; try discriminate.
        unfold guard in D. destruct (negb (w_ro s)); [|discriminate]. destruct (find_obj (w_tree s) p) as [o|] eqn:E; [|discriminate].
        destruct (find_attr o n) eqn:A; [discriminate|]. injection D as -> ->. rewrite E. unfold find_attr in *. cbn [o_attrs]. revert A.
        induction (o_attrs o) as [|y l IH]; cbn [app find a_name]; intros A; [now rewrite String.eqb_refl|].
        destruct (a_name y =? n)%string; [discriminate|auto]. }
  destruct W as (id & s1 & E & W). exists id. eexists. split; [rewrite E; reflexivity|]. exact W.
Qed.

Lemma wp_Awrite a q n x l s (Q : Z -> world -> Prop) : lookup s a = Some (HAttr q n) -> attr_at s q n = Some x -> Zlen (a_vals x) <= Zlen l ->
  (forall r s1, pres (w_next s) s s1 ->
     (r = -1 /\ w_tree s1 = w_tree s /\ (no_faults s -> w_ro s = true) \/
      r = 0 /\ attr_changed s s1 q n (Some (mkAttr n (a_type x) (firstn (List.length (a_vals x)) l)))) -> Q r s1) ->
  wp (H5Awrite a (Some l)) s Q.
Proof.
  intros K A L H. unfold wp, H5Awrite. rewrite K, A. rewrite (proj2 (Z.ltb_ge _ _)) by lia. unfold change, guard.
  destruct (w_fault s (w_clock s)) eqn:F.
  { eexists. eexists. split; [reflexivity|]. apply H; [repeat split; cbn; lia|]. left. repeat split. intros X. rewrite X in F. discriminate. }
  cbn [w_ro set_clock]. destruct (w_ro s) eqn:RO; cbn [negb]; (eexists; eexists; split; [reflexivity|]); (apply H; [repeat split; cbn; auto; lia|]).
  - left. repeat split.
  - right. split; [reflexivity|]. apply (attr_map s q n); try reflexivity.
    + intros o m Hm. unfold find_attr. cbn [o_attrs]. induction (o_attrs o) as [|y l0 IH]; [reflexivity|]. cbn [map find].
      destruct (String.eqb_spec (a_name y) n) as [E|E]; cbn [a_name].
      * rewrite E. destruct (String.eqb_spec n m); [congruence|exact IH].
      * destruct (a_name y =? m)%string; [reflexivity|exact IH].
    + unfold attr_at in A. destruct (find_obj (w_tree s) q) as [o|]; [|discriminate]. unfold find_attr in *. cbn [o_attrs]. revert A.
      induction (o_attrs o) as [|y l0 IH]; intros A; [discriminate|]. cbn [map find] in *. destruct (a_name y =? n)%string eqn:E.
      * cbn [a_name]. rewrite String.eqb_refl. injection A as ->. reflexivity.
      * rewrite E. auto.
Qed.


(** setAttribute. *)
Lemma wp_set_attribute t p n vals s : file_ok s -> vals <> [] -> Zlen vals < 2 ^ 31 ->
  wp (set_attribute t p n vals) s (fun r s' => pres (w_next s) s s' /\
    if r then settable s p n /\ attr_changed s s' p n (Some (mkAttr n t vals))
    else (w_tree s' = w_tree s \/ settable s p n /\ attr_changed s s' p n (Some (mkAttr n t (repeat (zero_of t) (List.length vals))))) /\
         (no_faults s -> ~ settable s p n)).
Proof.
  intros FOK NE SM. pose proof FOK as (L & FO & FN & MO). unfold set_attribute. apply wp_bind, wp_valid. destruct (0 <=? m_file s) eqn:V.
  2: { apply wp_ret. split; [apply pres_refl|]. split; [now left|]. intros _ (C & _). apply Z.leb_gt in V. lia. }
  apply Z.leb_le in V. destruct (FO V) as (FL & FF). apply wp_bind, wp_parent; [exact FOK|exact V|]. intros g k s1 P1 T1 O1.
  assert (N1 : w_next s <= w_next s1) by apply P1. apply (wp_with (w_next s)), wp_bind. unfold H5Screate_simple. apply wp_open1. intros sp s2 P2 T2 O2.
  assert (N2 : w_next s1 <= w_next s2) by apply P2. apply wp_bind, wp_Acreate; [lia|]. intros a s3 P3 O3. assert (N3 : w_next s2 <= w_next s3) by apply P3.
  apply (wp_with (w_next s1)), (wp_with (w_next s2)), wp_bind.
  assert (SZ : forallb size_ok [Zlen vals] = true).
  { cbn [forallb]. unfold size_ok. unfold Zlen in *. rewrite (proj2 (Z.leb_le 0 _)), (proj2 (Z.ltb_lt _ _)); [reflexivity|lia|lia]. }
  unfold opened in O2. rewrite SZ in O2. cbn [guard] in O2.
  assert (S : sp = -1 /\ ~ no_faults s \/ sp = w_next s1 /\ w_next s2 = w_next s1 + 1 /\ lookup s2 sp = Some (HSpace [Zlen vals] None)).
  { destruct O2 as [(-> & _ & X)|(-> & N & o & E & K)]; [left|right]; [split; [reflexivity|]; intros Y; discriminate (X (pres_faults _ _ _ P1 Y))|].
    injection E as <-. auto. }
  clear O2 SZ.
  assert (Fin : forall r s4, pres (w_next s3) s3 s4 ->
     (a = -1 \/ a = w_next s2 /\ w_next s3 = w_next s2 + 1 /\ exists q, lookup s3 a = Some (HAttr q n)) ->
     (forall s', w_tree s' = w_tree s4 -> if 0 <=? r then settable s p n /\ attr_changed s s' p n (Some (mkAttr n t vals))
       else (w_tree s' = w_tree s \/ settable s p n /\ attr_changed s s' p n (Some (mkAttr n t (repeat (zero_of t) (List.length vals))))) /\
         (no_faults s -> ~ settable s p n)) ->
     wp (ret (0 <=? r)) s4 (fun r1 s5 => (a < 0 \/ w_next s2 <= a /\ exists o, lookup s5 a = Some o /\ hkind_of o = CAttr) /\
        forall s6, pres (w_next s2) s5 s6 -> w_tree s6 = w_tree s5 -> w_next s6 = w_next s5 ->
        (sp < 0 \/ w_next s1 <= sp /\ exists o, lookup s6 sp = Some o /\ hkind_of o = CSpace) /\
        forall s7, pres (w_next s1) s6 s7 -> w_tree s7 = w_tree s6 -> w_next s7 = w_next s6 ->
        (g < 0 \/ w_next s <= g /\ exists o, lookup s7 g = Some o /\ hkind_of o = k) /\
        forall s8, pres (w_next s) s7 s8 -> w_tree s8 = w_tree s7 -> w_next s8 = w_next s7 -> pres (w_next s) s s8 /\
          if r1 then settable s p n /\ attr_changed s s8 p n (Some (mkAttr n t vals))
          else (w_tree s8 = w_tree s \/ settable s p n /\ attr_changed s s8 p n (Some (mkAttr n t (repeat (zero_of t) (List.length vals))))) /\
            (no_faults s -> ~ settable s p n))).
  { intros r s4 P4 HD HQ. apply wp_ret. split.
    { destruct HD as [HD|(-> & N & q & K)]; [left; lia|right]. split; [lia|]. eexists. split; [lk; exact K|reflexivity]. }
    intros s6 P6 T6 N6. split.
    { destruct S as [(-> & _)|(-> & N & K)]; [left; lia|right]. split; [lia|]. eexists. split; [lk; exact K|reflexivity]. }
    intros s7 P7 T7 N7. split.
    { destruct O1 as [(-> & _)|(-> & N & _ & _ & o & K1 & K2)]; [left; lia|right]. split; [lia|]. exists o. split; [lk; exact K1|exact K2]. }
    intros s8 P8 T8 N8. split; [via P1; via P2; via P3; via P4; via P6; via P7; exact P8|]. apply HQ. congruence. }
  destruct O3 as [(-> & N & T3 & F3)|(-> & N & q & dd & E & K & CH)].
  - apply (wp_same _ (change (fun _ => None))).
    { unfold H5Awrite. lk. rewrite FN by lia. destruct vals; reflexivity. }
    apply wp_fail. intros s4 P4 T4 _ _. apply Fin; [exact P4|now left|]. cbn. intros s' T'. split; [left; congruence|].
    intros X (C1 & C2 & C3 & C4). specialize (F3 (pres_faults _ _ _ P2 (pres_faults _ _ _ P1 X))).
    destruct S as [(_ & S)|(-> & N2' & S)]; [contradiction|].
    destruct O1 as [(-> & _ & O)|(-> & N1' & _ & O & _)]; [apply C3; auto|].
    unfold acreate_ok, parent_of in *. rewrite (pres_lookup _ _ _ _ P2), S in F3 by lia.
    assert (R2 : w_ro s2 = false) by (destruct P2 as (-> & _), P1 as (-> & _); exact C2).
    destruct (lookup s1 (w_next s)) as [[]|]; try discriminate; injection O as ->; rewrite R2, T2, T1 in F3; unfold attr_at in C4;
      destruct (find_obj (w_tree s) p); try contradiction; cbn [negb guard] in F3; rewrite C4 in F3; discriminate.
  - unfold acreate_ok in E. destruct S as [(-> & S)|(-> & N2' & S)].
    { rewrite (pres_lookup _ _ (s2) (-1) P2), (pres_lookup _ _ _ (-1) P1), FN in E by lia. destruct (parent_of s2 g); discriminate. }
    rewrite S in E. destruct O1 as [(-> & _)|(-> & N1' & PE & O & _)].
    { unfold parent_of in E. rewrite (pres_lookup _ _ _ _ P2), (pres_lookup _ _ _ _ P1), FN in E by lia. discriminate. }
    assert (PO : parent_of s2 (w_next s) = Some p) by (unfold parent_of in *; rewrite (pres_lookup _ _ _ _ P2) by lia; exact O).
    rewrite PO in E. unfold guard in E. destruct (negb (w_ro s2)) eqn:R; [|discriminate]. destruct (find_obj (w_tree s2) p) as [o|] eqn:FO2; [|discriminate].
    destruct (find_attr o n) eqn:FA; [discriminate|]. injection E as <- <-.
    assert (ST : settable s p n).
    { split; [exact V|]. split; [destruct P2 as (R2 & _), P1 as (R1 & _); rewrite <- R1, <- R2; now apply negb_true_iff|]. split; [exact PE|].
      unfold attr_at. rewrite <- T1, <- T2, FO2. exact FA. }
    assert (CH0 : attr_changed s s3 p n (Some (mkAttr n t (repeat (zero_of t) (Z.to_nat (prodZ [Zlen vals])))))).
    { eapply attr_changed_from; [|exact CH]. congruence. }
    replace (Z.to_nat (prodZ [Zlen vals])) with (List.length vals) in CH0 by (cbn; unfold Zlen; lia).
    replace (match vals with [] => None | _ :: _ => Some vals end) with (Some vals) by (destruct vals; [contradiction|reflexivity]).
    eapply wp_Awrite; [exact K|apply CH0|cbn [a_vals]; unfold Zlen; rewrite repeat_length; lia|]. cbn [a_vals a_type]. rewrite repeat_length, firstn_all.
    intros r s4 P4 [(-> & T4 & R4)|(-> & CH4)]; (apply Fin; [exact P4|right; eauto|]); cbn; intros s' T'.
    + split; [right; split; [exact ST|]; eapply attr_changed_tree; [|exact CH0]; congruence|]. intros X _.
      assert (RO : w_ro s3 = true) by (apply R4; eauto using pres_faults).
      destruct P3 as (R3 & _), P2 as (R2 & _), P1 as (R1 & _), ST as (_ & R0 & _). congruence.
    + split; [exact ST|]. eapply attr_changed_tree; [exact T'|]. eapply attr_changed_trans; eassumption.
Qed.

(** attribute<T>. *)
Lemma wp_attr_exists p n s (Q : bool -> world -> Prop) : file_ok s ->
  (forall b s1, pres (w_next s) s s1 -> w_tree s1 = w_tree s -> (b = true -> 0 <= m_file s /\ attr_at s p n <> None) ->
     (no_faults s -> 0 <= m_file s -> attr_at s p n <> None -> b = true) -> Q b s1) ->
  wp (attribute_exists p n) s Q.
Proof.
  intros (L & FO & FN & MO) H. unfold attribute_exists. apply wp_bind, wp_valid. destruct (0 <=? m_file s) eqn:V.
  2: { apply wp_ret. apply H; [apply pres_refl|reflexivity|discriminate|]. apply Z.leb_gt in V. intros _ C. lia. }
  apply Z.leb_le in V. destruct (FO V) as (FL & FF). apply wp_bind, wp_get, wp_bind. unfold H5Aexists_by_name. apply wp_call.
  - intros s1 P T N X _. cbn. apply wp_ret. apply H; auto; try discriminate; intros Y; contradiction.
  - intros s1 P T N _. apply wp_ret. unfold file_open. rewrite FF. unfold attr_at in *.
    destruct (find_obj (w_tree s) p) as [o|]; [destruct (find_attr o n)|]; cbn; apply H; auto; try discriminate; try (split; [exact V|discriminate]); intros; contradiction.
Qed.

Lemma wp_attribute t p n s : file_ok s -> (forall x, attr_at s p n = Some x -> exists v, a_vals x = [v]) ->
  wp (attribute t p n) s (fun r s' => pres (w_next s) s s' /\ w_tree s' = w_tree s /\
    (snd r = true -> exists x, attr_at s p n = Some x /\ fst r = nth_error (a_vals x) 0) /\
    (no_faults s -> 0 <= m_file s -> r = match attr_at s p n with
       | Some x => if type_eqb (a_type x) t then (nth_error (a_vals x) 0, true) else (None, false)
       | None => (None, false) end)).
Proof.
  intros FOK ONE. pose proof FOK as (L & FO & FN & MO). unfold attribute. apply wp_bind, wp_attr_exists; [exact FOK|]. intros b s1 P1 T1 B1 B2.
  assert (N1 : w_next s <= w_next s1) by apply P1. destruct b.
  2: { apply wp_ret. split; [exact P1|]. split; [exact T1|]. split; [discriminate|]. intros X Y.
       destruct (attr_at s p n) as [x|] eqn:E; [|reflexivity]. discriminate (B2 X Y ltac:(discriminate)). }
  destruct (B1 eq_refl) as (V & AT). destruct (attr_at s p n) as [x|] eqn:AX; [|contradiction]. clear AT B1 B2. destruct (ONE x eq_refl) as (v & VX).
  destruct (FO V) as (FL & FF). assert (M1 : m_file s1 = m_file s) by apply P1.
  apply wp_bind, wp_get, wp_bind. unfold H5Aopen_by_name. apply wp_open1. intros a s2 P2 T2 O2. assert (N2 : w_next s1 <= w_next s2) by apply P2.
  unfold opened, file_open in O2. rewrite M1, (pres_lookup _ _ _ _ P1), FF, (attr_at_tree s s1), AX in O2 by (try lia; exact T1). cbn [guard] in O2.
  assert (A : a = -1 /\ ~ no_faults s \/ a = w_next s1 /\ w_next s2 = w_next s1 + 1 /\ lookup s2 a = Some (HAttr p n)).
  { destruct O2 as [(-> & _ & F)|(-> & N & o & E & K)]; [left|right]; [split; [reflexivity|]; intros Y; discriminate (F (pres_faults _ _ _ P1 Y))|].
    injection E as <-. auto. }
  clear O2. apply wp_bind. unfold H5Aget_type. apply wp_open1. intros ty s3 P3 T3 O3. assert (N3 : w_next s2 <= w_next s3) by apply P3.
  assert (TY : (ty = -1 /\ ~ no_faults s) \/ ty = w_next s2 /\ w_next s3 = w_next s2 + 1 /\ lookup s3 ty = Some (HType (a_type x)) /\ 1 <= a /\ lookup s2 a = Some (HAttr p n)).
  { unfold opened in O3. destruct A as [(-> & A)|(-> & NA & KA)].
    - rewrite (pres_lookup _ _ _ (-1) P2), (pres_lookup _ _ _ (-1) P1), FN in O3 by lia. destruct O3 as [(-> & _ & F)|(_ & _ & o & E & _)]; [auto|discriminate].
    - rewrite KA, (attr_at_tree s s2), AX in O3 by congruence. destruct O3 as [(-> & _ & F)|(-> & N & o & E & K)]; [left|right].
      + split; [reflexivity|]. intros Y. discriminate (F (pres_faults _ _ _ P2 (pres_faults _ _ _ P1 Y))).
      + injection E as <-. repeat split; auto. lia. }
  clear O3. apply (wp_with (w_next s1)), (wp_with (w_next s2)), wp_bind.
  assert (Fin : forall r s5, pres (w_next s3) s3 s5 -> w_tree s5 = w_tree s ->
     (snd r = true -> fst r = nth_error (a_vals x) 0) ->
     (no_faults s -> r = if type_eqb (a_type x) t then (nth_error (a_vals x) 0, true) else (None, false)) ->
     wp (ret r) s5 (fun r1 s6 => (ty < 0 \/ w_next s2 <= ty /\ exists o, lookup s6 ty = Some o /\ hkind_of o = CType) /\
        forall s7, pres (w_next s2) s6 s7 -> w_tree s7 = w_tree s6 -> w_next s7 = w_next s6 ->
        (a < 0 \/ w_next s1 <= a /\ exists o, lookup s7 a = Some o /\ hkind_of o = CAttr) /\
        forall s8, pres (w_next s1) s7 s8 -> w_tree s8 = w_tree s7 -> w_next s8 = w_next s7 ->
          pres (w_next s) s s8 /\ w_tree s8 = w_tree s /\
          (snd r1 = true -> exists x0, Some x = Some x0 /\ fst r1 = nth_error (a_vals x0) 0) /\
          (no_faults s -> 0 <= m_file s -> r1 = if type_eqb (a_type x) t then (nth_error (a_vals x) 0, true) else (None, false)))).
  { intros r s5 P5 T5 R1 R2. apply wp_ret. split.
    { destruct TY as [(-> & _)|(-> & NT & KT & _)]; [left; lia|right]. split; [lia|]. eexists. split; [lk; exact KT|reflexivity]. }
    intros s7 P7 T7 N7. split.
    { destruct A as [(-> & _)|(-> & NA & KA)]; [left; lia|right]. split; [lia|]. eexists. split; [lk; exact KA|reflexivity]. }
    intros s8 P8 T8 N8. split; [via P1; via P2; via P3; via P5; via P7; eapply pres_weak; [|exact P8]; lia|]. split; [congruence|]. split; [eauto|auto]. }
  apply (wp_same_type ty t (a_type x)).
  { unfold type_of. destruct TY as [(-> & TY)|(-> & _ & KT & _)]; [right|left; now rewrite KT]. lk. rewrite FN by lia. split; [reflexivity|].
    intros Y. apply TY. intros k. rewrite <- (Y k). destruct P3 as (_ & _ & F3 & _), P2 as (_ & _ & F2 & _), P1 as (_ & _ & F1 & _). congruence. }
  intros b s4 P4 K4 T4 B4.
  destruct b.
  - apply wp_bind. unfold H5Aread. apply wp_call.
    + intros s5 P5 T5 N5 X5 _. apply Fin; [via P4; eapply pres_weak; [|exact P5]; apply P4|congruence|discriminate|]. intros Y. exfalso. apply X5. eauto using pres_faults.
    + intros s5 P5 T5 N5 _.
      assert (P35 : pres (w_next s3) s3 s5) by (via P4; eapply pres_weak; [|exact P5]; apply P4).
      rewrite K4. destruct A as [(-> & A)|(-> & NA & KA)].
      * rewrite (pres_lookup _ _ s3 (-1) P3), (pres_lookup _ _ s2 (-1) P2), (pres_lookup _ _ s1 (-1) P1), FN by lia.
        apply Fin; [exact P35|congruence|discriminate|]. intros Y. contradiction.
      * rewrite (pres_lookup _ _ s3 _ P3), KA, (attr_at_tree s s4), AX by (try lia; congruence). rewrite VX at 1.
        apply Fin; [exact P35|congruence|intros _; cbn; now rewrite VX|]. intros Y.
        destruct (B4 ltac:(eauto using pres_faults)) as (_ & <-). now rewrite VX.
  - apply Fin; [exact P4|congruence|discriminate|]. intros Y. destruct (B4 ltac:(eauto using pres_faults)) as (_ & <-). reflexivity.
Qed.
