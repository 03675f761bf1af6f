(** What the calls of the wrapper do to the file: weakest preconditions. *)
From Coq Require Import String ZArith List Bool Lia.
From Verif Require Import Base BaseFacts H5LibModel H5WrapModel H5WrapSpec H5DataSpec.
Import ListNotations.
Open Scope Z_scope.

Definition wp {A} (m : prog A) (s : world) (Q : A -> world -> Prop) : Prop := exists a s', m s = Ok (a, s') /\ Q a s'.

(** [s1] comes after [s]; identifiers below [n] are as they were. *)
Definition pres (n : Z) (s s1 : world) : Prop :=
  w_ro s1 = w_ro s /\ m_file s1 = m_file s /\ w_fault s1 = w_fault s /\ w_next s <= w_next s1 /\ m_off s1 = m_off s /\
  forall id, id < n -> lookup s1 id = lookup s id.

Lemma pres_refl n s : pres n s s.
Proof. repeat split; lia. Qed.
Lemma pres_trans n m s1 s2 s3 : n <= m -> pres n s1 s2 -> pres m s2 s3 -> pres n s1 s3.
Proof.
  intros L (A & B & C & D & E & F) (A' & B' & C' & D' & E' & F'). repeat split; try congruence; try lia.
  intros id H. rewrite F' by lia. apply F. exact H.
Qed.
Lemma pres_weak n m s1 s2 : n <= m -> pres m s1 s2 -> pres n s1 s2.
Proof. intros L (A & B & C & D & E & F). repeat split; auto. intros id H. apply F. lia. Qed.
Lemma pres_lookup n s s1 id : pres n s s1 -> id < n -> lookup s1 id = lookup s id.
Proof. intros H L. apply H. exact L. Qed.
Lemma pres_faults n s s1 : pres n s s1 -> no_faults s -> no_faults s1.
Proof. intros (A & B & C & D) H k. rewrite C. apply H. Qed.

Lemma wp_same {A} (m m' : prog A) s (Q : A -> world -> Prop) : m s = m' s -> wp m' s Q -> wp m s Q.
Proof. intros E (a & s1 & H). exists a, s1. rewrite E. exact H. Qed.
Lemma wp_ret {A} (a : A) s (Q : A -> world -> Prop) : Q a s -> wp (ret a) s Q.
Proof. intros H. exists a, s. split; [reflexivity|exact H]. Qed.
Lemma wp_get s (Q : world -> world -> Prop) : Q s s -> wp get s Q.
Proof. intros H. exists s, s. split; [reflexivity|exact H]. Qed.
Lemma wp_modify f s (Q : unit -> world -> Prop) : Q tt (f s) -> wp (modify f) s Q.
Proof. intros H. exists tt, (f s). split; [reflexivity|exact H]. Qed.
Lemma wp_bind {A B} (m : prog A) (k : A -> prog B) s (Q : B -> world -> Prop) :
  wp m s (fun a s1 => wp (k a) s1 Q) -> wp (pbind m k) s Q.
Proof. intros (a & s1 & E & b & s2 & E2 & H). exists b, s2. unfold pbind. rewrite E. cbn [bind]. auto. Qed.
Lemma wp_mono {A} (m : prog A) s (P Q : A -> world -> Prop) : wp m s P -> (forall a s1, P a s1 -> Q a s1) -> wp m s Q.
Proof. intros (a & s1 & E & H) I. exists a, s1. auto. Qed.

Lemma wp_open f s (Q : Z -> world -> Prop) :
  (forall s1, pres (w_next s) s s1 -> w_tree s1 = w_tree s -> w_next s1 = w_next s -> (no_faults s -> f s = None) -> Q (-1) s1) ->
  (forall s1 o, f s = Some o -> pres (w_next s) s s1 -> w_tree s1 = w_tree s -> w_next s1 = w_next s + 1 ->
     lookup s1 (w_next s) = Some o -> Q (w_next s) s1) ->
  wp (open_id f) s Q.
Proof.
  intros H1 H2. unfold wp, open_id. destruct (w_fault s (w_clock s)) eqn:F.
  { eexists. eexists. split; [reflexivity|]. apply H1; try reflexivity; [repeat split; cbn; lia|]. intros C. rewrite C in F. discriminate. }
  destruct (f s) as [o|] eqn:E; (eexists; eexists; split; [reflexivity|]).
  - apply (H2 _ o); [reflexivity| |reflexivity|reflexivity|unfold lookup; cbn; now rewrite Z.eqb_refl].
    repeat split; cbn; try lia. intros id L. unfold lookup. cbn. destruct (w_next s =? id) eqn:X; [apply Z.eqb_eq in X; lia|reflexivity].
  - apply H1; try reflexivity; repeat split; cbn; lia.
Qed.

Lemma wp_call {A} (bad : A) f s (Q : A -> world -> Prop) :
  (forall s1, pres (w_next s) s s1 -> w_tree s1 = w_tree s -> w_next s1 = w_next s -> ~ no_faults s -> (forall id, lookup s1 id = lookup s id) -> Q bad s1) ->
  (forall s1, pres (w_next s) s s1 -> w_tree s1 = w_tree s -> w_next s1 = w_next s -> (forall id, lookup s1 id = lookup s id) -> Q (f s) s1) ->
  wp (call bad f) s Q.
Proof.
  intros H1 H2. unfold wp, call. destruct (w_fault s (w_clock s)) eqn:F; (eexists; eexists; split; [reflexivity|]).
  - apply H1; try reflexivity; [repeat split; cbn; lia|]. intros C. rewrite C in F. discriminate.
  - apply H2; try reflexivity. repeat split; cbn; lia.
Qed.

(** A scope that closes an identifier opened at or after [n]. *)
Lemma wp_with {A} n k id (body : prog A) s (Q : A -> world -> Prop) :
  wp body s (fun r s1 => (id < 0 \/ n <= id /\ exists o, lookup s1 id = Some o /\ hkind_of o = k) /\
     forall s2, pres n s1 s2 -> w_tree s2 = w_tree s1 -> w_next s2 = w_next s1 -> Q r s2) ->
  wp (with_id k id body) s Q.
Proof.
  intros H. unfold with_id. apply wp_bind. eapply wp_mono; [exact H|]. cbn beta. intros r s1 (C & G). apply wp_bind.
  destruct (0 <=? id) eqn:E.
  - apply Z.leb_le in E. destruct C as [C|(L & o & Ho & Hk)]; [lia|].
    exists tt, (set_live (filter (fun e => negb (fst e =? id)) (w_live s1)) (set_clock (w_clock s1 + 1) s1)).
    split; [unfold close_id; rewrite Ho; destruct (hkind_dec (hkind_of o) k); [reflexivity|contradiction]|].
    apply wp_ret. apply G; [|reflexivity|reflexivity]. repeat split; cbn; try lia. intros x Hx. unfold lookup. cbn.
    assert (F : find (fun e => fst e =? x) (filter (fun e => negb (fst e =? id)) (w_live s1)) = find (fun e => fst e =? x) (w_live s1)).
    { induction (w_live s1) as [|e l IH]; [reflexivity|]. cbn [filter find]. destruct (fst e =? id) eqn:E1; cbn [negb].
      - destruct (fst e =? x) eqn:E2; [apply Z.eqb_eq in E1, E2; lia|exact IH].
      - cbn [find]. destruct (fst e =? x); [reflexivity|exact IH]. }
    rewrite F. reflexivity.
  - apply wp_ret. apply wp_ret. apply G; [apply pres_refl|reflexivity|reflexivity].
Qed.

Lemma wp_fail s (Q : Z -> world -> Prop) :
  (forall s1, pres (w_next s) s s1 -> w_tree s1 = w_tree s -> w_next s1 = w_next s -> (forall id, lookup s1 id = lookup s id) -> Q (-1) s1) ->
  wp (change (fun _ => None)) s Q.
Proof.
  intros H. unfold wp, change. destruct (w_fault s (w_clock s)); (eexists; eexists; split; [reflexivity|]); apply H; try reflexivity; repeat split; cbn; lia.
Qed.

(** The same with the two outcomes in one. *)
Definition opened (f : world -> option hobj) (s : world) (id : Z) (s1 : world) : Prop :=
  id = -1 /\ w_next s1 = w_next s /\ (no_faults s -> f s = None) \/
  id = w_next s /\ w_next s1 = w_next s + 1 /\ exists o, f s = Some o /\ lookup s1 id = Some o.
Lemma wp_open1 f s (Q : Z -> world -> Prop) :
  (forall id s1, pres (w_next s) s s1 -> w_tree s1 = w_tree s -> opened f s id s1 -> Q id s1) -> wp (open_id f) s Q.
Proof. intros H. apply wp_open; intros; apply H; auto; [left|right]; eauto 10. Qed.

(** A file that is open. *)
Definition file_ok (s : world) : Prop :=
  1 <= w_next s /\ (0 <= m_file s -> m_file s < w_next s /\ lookup s (m_file s) = Some HFile) /\ (forall id, id < 1 -> lookup s id = None) /\ m_off s = false.
Lemma between_ok s : between_calls s -> file_ok s.
Proof.
  intros (_ & A & B & O & C). split; [exact A|].
  assert (L : forall id o, lookup s id = Some o -> 1 <= id < w_next s).
  { intros id o H. unfold lookup in H. destruct (find _ _) as [e|] eqn:F; [|discriminate]. apply find_some in F as [F1 F2]. apply Z.eqb_eq in F2.
    specialize (B (fst e, hkind_of (snd e))). cbn [fst] in B. rewrite <- F2. apply B. unfold open_ids. apply in_map_iff. exists e. auto. }
  split; [|split; [intros id H; destruct (lookup s id) eqn:E; [specialize (L _ _ E); lia|reflexivity]|exact O]].
  intros H. specialize (C H). split; [|exact C]. now apply L in C.
Qed.
Lemma pres_file n s s1 : pres n s s1 -> w_next s <= n -> file_ok s -> file_ok s1.
Proof.
  intros (A & B & C & D & E & F) L (G & H & I & J). split; [lia|]. split; [|split; [|congruence]].
  - intros M. rewrite B in *. destruct (H M) as (H1 & H2). split; [lia|]. rewrite F by lia. exact H2.
  - intros id M. rewrite F by lia. auto.
Qed.

Ltac via P := eapply pres_trans; [apply Z.le_refl|eapply pres_weak; [|exact P]; lia|].
Ltac lk := repeat match goal with
  | P : pres ?n ?s ?s1 |- context [lookup ?s1 ?id] => rewrite (pres_lookup n s s1 id P) by lia
  | P : forall id, lookup ?s1 id = lookup ?s id |- context [lookup ?s1 ?id] => rewrite (P id)
  end.

(** Paths and trees. *)
Lemma path_eqb_refl p : path_eqb p p = true.
Proof. unfold path_eqb. destruct (list_eq_dec _ p p); [reflexivity|contradiction]. Qed.
Lemma path_eqb_eq p q : path_eqb p q = true -> p = q.
Proof. unfold path_eqb. destruct (list_eq_dec _ p q); [auto|discriminate]. Qed.

Lemma find_obj_new t o : find_obj t (o_path o) = None -> find_obj (t ++ [o]) (o_path o) = Some o.
Proof.
  unfold find_obj. induction t as [|x t IH]; cbn [find app]; intros H; [now rewrite path_eqb_refl|].
  destruct (path_eqb (o_path x) (o_path o)); [discriminate|auto].
Qed.
Lemma find_obj_old t o q x : find_obj t q = Some x -> find_obj (t ++ [o]) q = Some x.
Proof.
  unfold find_obj. induction t as [|y t IH]; cbn [find app]; intros H; [discriminate|].
  destruct (path_eqb (o_path y) q); [exact H|auto].
Qed.
Lemma find_obj_other t o q : o_path o <> q -> find_obj (t ++ [o]) q = find_obj t q.
Proof.
  unfold find_obj. intros N. induction t as [|y t IH]; cbn [find app].
  - destruct (path_eqb (o_path o) q) eqn:E; [apply path_eqb_eq in E; contradiction|reflexivity].
  - destruct (path_eqb (o_path y) q); auto.
Qed.
Lemma map_obj_new t o f : find_obj t (o_path o) = None -> map_obj (o_path o) f (t ++ [o]) = t ++ [f o].
Proof.
  unfold map_obj, find_obj. intros H. rewrite map_app. cbn [map]. rewrite path_eqb_refl. f_equal.
  induction t as [|x t IH]; [reflexivity|]. cbn [find] in H. cbn [map]. destruct (path_eqb (o_path x) (o_path o)); [discriminate|].
  f_equal. auto.
Qed.
Lemma find_obj_map t p f : (forall o, o_path (f o) = o_path o) ->
  find_obj (map_obj p f t) p = match find_obj t p with Some o => Some (f o) | None => None end.
Proof.
  unfold find_obj, map_obj. intros H. induction t as [|o t IH]; [reflexivity|]. cbn [map find].
  destruct (path_eqb (o_path o) p) eqn:E; [rewrite H, E|rewrite E; exact IH]. reflexivity.
Qed.
Lemma find_obj_map_other t p q f : (forall o, o_path (f o) = o_path o) -> p <> q ->
  find_obj (map_obj p f t) q = find_obj t q.
Proof.
  unfold find_obj, map_obj. intros H N. induction t as [|o t IH]; [reflexivity|]. cbn [map find].
  destruct (path_eqb (o_path o) p) eqn:E.
  - rewrite H. apply path_eqb_eq in E. destruct (path_eqb (o_path o) q) eqn:E2; [apply path_eqb_eq in E2; congruence|exact IH].
  - destruct (path_eqb (o_path o) q); [reflexivity|exact IH].
Qed.
Lemma find_obj_path t p o : find_obj t p = Some o -> o_path o = p.
Proof. unfold find_obj. intros H. apply find_some in H as [_ H]. now apply path_eqb_eq. Qed.

Lemma prodZ_nonneg l : Forall (fun d => 0 <= d) l -> 0 <= prodZ l.
Proof. unfold prodZ. induction 1; cbn; nia. Qed.

Lemma size_ok_dims dims : Forall is_i32 dims -> forallb size_ok (map u64 dims) = true ->
  Forall (fun d => 0 <= d) dims /\ map u64 dims = dims.
Proof.
  induction 1 as [|d l Hd Hl IH]; intros H; [split; [constructor|reflexivity]|]. cbn [map forallb] in *.
  apply andb_true_iff in H as [H1 H2]. destruct (IH H2) as (I1 & I2). unfold size_ok in H1. apply andb_true_iff in H1 as [_ H1].
  apply Z.ltb_lt in H1. unfold u64 in H1. assert (0 <= d).
  { destruct (Z.ltb_spec d 0); [|assumption]. exfalso. unfold is_i32 in Hd.
    rewrite <- (Z.mod_unique d (2 ^ 64) (-1) (d + 2 ^ 64)) in H1; lia. }
  split; [constructor; auto|]. rewrite I2. f_equal. unfold u64. apply Z.mod_small. unfold is_i32 in Hd. lia.
Qed.
Lemma dims_size_ok dims : Forall is_i32 dims -> Forall (fun d => 0 <= d) dims ->
  forallb size_ok (map u64 dims) = true /\ map u64 dims = dims.
Proof.
  intros A B. assert (E : map u64 dims = dims).
  { induction A as [|d l Hd Hl IH]; [reflexivity|]. inversion B; subst. cbn. rewrite IH by assumption. f_equal.
    unfold u64. apply Z.mod_small. unfold is_i32 in Hd. lia. }
  split; [|exact E]. rewrite E. apply forallb_forall. intros d Hd. rewrite Forall_forall in A, B. specialize (A d Hd). specialize (B d Hd).
  unfold is_i32 in A. unfold size_ok. apply andb_true_iff. split; [apply Z.leb_le|apply Z.ltb_lt]; cbn beta in B; lia.
Qed.

Lemma put_all_from (pre v : list elem) (buf : list elem) : (List.length v <= List.length buf)%nat ->
  put (pre ++ v) (map (fun k => Z.of_nat (List.length pre) + Z.of_nat k) (seq 0 (List.length v))) buf = pre ++ firstn (List.length v) buf.
Proof.
  revert pre buf. induction v as [|x v IH]; intros pre buf L; [reflexivity|].
  destruct buf as [|y buf]; [cbn in L; lia|]. cbn [List.length seq map put firstn].
  assert (U : upd (pre ++ x :: v) (Z.to_nat (Z.of_nat (List.length pre) + Z.of_nat 0)) y = (pre ++ [y]) ++ v).
  { replace (Z.to_nat _) with (List.length pre) by lia. clear. induction pre; [reflexivity|]. cbn. now rewrite IHpre. }
  rewrite U, <- seq_shift, map_map.
  replace (pre ++ y :: firstn (List.length v) buf) with ((pre ++ [y]) ++ firstn (List.length v) buf) by (rewrite <- app_assoc; reflexivity).
  rewrite <- (IH (pre ++ [y]) buf) by (cbn in L; lia). f_equal. apply map_ext. intros k. rewrite app_length. cbn [List.length]. lia.
Qed.
Lemma put_all v buf n : Zlen v = n -> n <= Zlen buf -> put v (zseq n) buf = firstn (Z.to_nat n) buf.
Proof.
  intros H L. unfold Zlen in *. subst n. rewrite Nat2Z.id. pose proof (put_all_from [] v buf ltac:(lia)) as E. cbn [app] in E.
  rewrite <- E. f_equal. unfold zseq. rewrite Nat2Z.id. apply map_ext. intros k. cbn [List.length]. lia.
Qed.
Lemma pick_all v n : Zlen v = n -> pick v (zseq n) = v.
Proof.
  intros H. unfold pick, zseq. subst n. unfold Zlen. rewrite Nat2Z.id, map_map.
  rewrite (map_ext _ (fun k => nth k v (ENum 0))) by (intros; now rewrite Nat2Z.id).
  induction v as [|x v IH]; [reflexivity|]. cbn [List.length seq map nth]. f_equal. rewrite <- seq_shift, map_map. exact IH.
Qed.

(** writeData. *)
Definition new_data (p : path) (n : string) (t : h5type) (dims : list Z) (v : list elem) : object := mkObj (p ++ [n]) (KData t dims v) [].

Lemma wp_valid s (Q : bool -> world -> Prop) : Q (0 <=? m_file s) s -> wp file_is_valid s Q.
Proof. intros H. unfold file_is_valid. apply wp_bind, wp_get, wp_ret. exact H. Qed.


Lemma wp_Dcreate g n t space dcpl s (Q : Z -> world -> Prop) : 1 <= w_next s ->
  (forall id s1, pres (w_next s) s s1 ->
     (id = -1 /\ w_next s1 = w_next s /\ w_tree s1 = w_tree s /\ (no_faults s -> dcreate_ok g n space dcpl s = None) \/
      id = w_next s /\ w_next s1 = w_next s + 1 /\ exists q d, dcreate_ok g n space dcpl s = Some (q, d) /\ lookup s1 id = Some (HData q) /\
       w_tree s1 = w_tree s ++ [mkObj q (KData t d (repeat (zero_of t) (Z.to_nat (prodZ d)))) []]) -> Q id s1) ->
  wp (H5Dcreate g n t space dcpl) s Q.
Proof.
  intros L H. unfold H5Dcreate.
  assert (W : wp (open_id (fun s => match dcreate_ok g n space dcpl s with Some (q, _) => Some (HData q) | None => None end)) s
     (fun id s1 => Q id (if 0 <=? id then dcreate_tree t (dcreate_ok g n space dcpl s) s1 else s1))).
  { apply wp_open.
    - intros s1 P T N F. cbn [Z.leb Z.compare]. apply H; [exact P|]. left. repeat split; auto. intros X. specialize (F X).
      destruct (dcreate_ok _ _ _ _ _) as [[]|]; [discriminate|reflexivity].
    - intros s1 o E P T N K. rewrite (proj2 (Z.leb_le 0 (w_next s))) by lia. destruct (dcreate_ok _ _ _ _ _) as [[q d]|] eqn:D; [|discriminate].
      injection E as <-. cbn [dcreate_tree]. apply H; [exact P|]. right. split; [reflexivity|]. split; [exact N|]. exists q, d.
      split; [reflexivity|]. split; [exact K|]. cbn [w_tree set_tree]. now rewrite T. }
  destruct W as (id & s1 & E & W). exists id. eexists. split; [rewrite E; reflexivity|]. exact W.
Qed.

Lemma wp_Dwrite_all d p t dims v buf s (Q : Z -> world -> Prop) :
  lookup s d = Some (HData p) -> data_at s p = Some (t, dims, v) -> Forall (fun d => 0 <= d) dims -> prodZ dims <= Zlen buf ->
  (forall r s1, pres (w_next s) s s1 -> (forall id, lookup s1 id = lookup s id) ->
     (r = -1 /\ w_tree s1 = w_tree s /\ (no_faults s -> w_ro s = true) \/
      r = 0 /\ w_tree s1 = map_obj p (fun o => match o_kind o with
                 | KData t d v => mkObj (o_path o) (KData t d (put v (zseq (prodZ dims)) buf)) (o_attrs o)
                 | KGroup => o end) (w_tree s)) -> Q r s1) ->
  wp (H5Dwrite d 0 0 buf) s Q.
Proof.
  intros A B C D H. unfold wp, H5Dwrite, transfer, data_of. rewrite A, B. cbn [Z.eqb]. rewrite Z.eqb_refl. cbn [andb guard].
  rewrite (proj2 (Z.ltb_ge (Zlen buf) (Zlen (zseq (prodZ dims))))) by (rewrite Zlen_zseq by (now apply prodZ_nonneg); exact D).
  unfold change, guard. destruct (w_fault s (w_clock s)) eqn:F.
  { eexists. eexists. split; [reflexivity|]. apply H; [repeat split; cbn; lia|reflexivity|]. left. repeat split. intros X. rewrite X in F. discriminate. }
  cbn [w_ro set_clock]. destruct (w_ro s) eqn:R; cbn [negb]; (eexists; eexists; split; [reflexivity|]); (apply H; [repeat split; cbn; auto; lia|reflexivity|]).
  - left. repeat split.
  - right. split; reflexivity.
Qed.

Definition write_post (s : world) (t : h5type) (p : path) (n : string) (dims : list Z) (buf : list elem) (r : bool) (t' : tree) : Prop :=
  if r then creatable s p n dims /\ t' = w_tree s ++ [new_data p n t dims (firstn (Z.to_nat (prodZ dims)) buf)]
  else (t' = w_tree s \/
        creatable s p n dims /\ t' = w_tree s ++ [new_data p n t dims (repeat (zero_of t) (Z.to_nat (prodZ dims)))]) /\
       (no_faults s -> ~ creatable s p n dims).

Lemma wp_write t p n dims buf s : file_ok s -> dims <> [] -> Forall is_i32 dims -> prodZ dims <= Zlen buf ->
  wp (write_data t p n dims buf) s (fun r s' => pres (w_next s) s s' /\ write_post s t p n dims buf r (w_tree s')).
Proof.
  intros (L & FO & FN & _) ND Hd Hb. unfold write_data. apply wp_bind, wp_valid.
  destruct (0 <=? m_file s) eqn:V.
  2: { apply wp_ret. split; [apply pres_refl|]. split; [now left|]. intros _ (C & _). apply Z.leb_gt in V. lia. }
  apply Z.leb_le in V. destruct (FO V) as (FL & FF). apply wp_bind, wp_get, wp_bind, wp_open1. intros g s1 P1 T1 O1.
  assert (N1 : w_next s <= w_next s1) by apply P1.
  destruct dims as [|d0 ds] eqn:ED; [contradiction|]. rewrite <- ED in *. clear ND d0 ds ED.
  apply wp_bind, wp_open1. intros sp s2 P2 T2 O2. assert (N2 : w_next s1 <= w_next s2) by apply P2.
  apply wp_bind, wp_Dcreate; [lia|]. intros d s3 P3 O3. assert (N3 : w_next s2 <= w_next s3) by apply P3.
  apply (wp_with (w_next s)), (wp_with (w_next s1)), (wp_with (w_next s2)), wp_bind.
  assert (G : g < 0 \/ g = w_next s /\ w_next s1 = w_next s + 1 /\ is_group (w_tree s) p = true /\ lookup s1 g = Some (HGroup p)).
  { destruct O1 as [(-> & _)|(-> & N & o & E & K)]; [left; lia|right]. unfold guard in E.
    destruct (file_open s (m_file s) && is_group (w_tree s) p) eqn:B; [|discriminate]. injection E as <-. apply andb_true_iff in B as [_ B]. auto. }
  assert (S : sp < 0 \/ sp = w_next s1 /\ w_next s2 = w_next s1 + 1 /\ Forall (fun d => 0 <= d) dims /\ lookup s2 sp = Some (HSpace dims None)).
  { destruct O2 as [(-> & _)|(-> & N & o & E & K)]; [left; lia|right]. unfold guard in E.
    destruct (forallb size_ok (map u64 dims)) eqn:B; [|discriminate]. injection E as <-.
    destruct (size_ok_dims dims Hd B) as (A1 & A2). rewrite A2 in *. auto. }
  assert (Fin : forall r s4, pres (w_next s3) s3 s4 ->
     (d < 0 \/ d = w_next s2 /\ w_next s3 = w_next s2 + 1 /\ exists q, lookup s3 d = Some (HData q)) ->
     write_post s t p n dims buf (0 <=? r) (w_tree s4) ->
     wp (ret (0 <=? r)) s4 (fun r1 s5 => (d < 0 \/ w_next s2 <= d /\ exists o, lookup s5 d = Some o /\ hkind_of o = CData) /\
        forall s6, pres (w_next s2) s5 s6 -> w_tree s6 = w_tree s5 -> w_next s6 = w_next s5 ->
        (sp < 0 \/ w_next s1 <= sp /\ exists o, lookup s6 sp = Some o /\ hkind_of o = CSpace) /\
        forall s7, pres (w_next s1) s6 s7 -> w_tree s7 = w_tree s6 -> w_next s7 = w_next s6 ->
        (g < 0 \/ w_next s <= g /\ exists o, lookup s7 g = Some o /\ hkind_of o = CGroup) /\
        forall s8, pres (w_next s) s7 s8 -> w_tree s8 = w_tree s7 -> w_next s8 = w_next s7 -> pres (w_next s) s s8 /\
          write_post s t p n dims buf r1 (w_tree s8))).
  { intros r s4 P4 HD HQ. apply wp_ret. split.
    { destruct HD as [HD|(-> & N & q & K)]; [now left|right]. split; [lia|]. eexists. split; [lk; exact K|reflexivity]. }
    intros s6 P6 T6 N6. split.
    { destruct S as [S|(-> & N & _ & K)]; [now left|right]. split; [lia|]. eexists. split; [lk; exact K|reflexivity]. }
    intros s7 P7 T7 N7. split.
    { destruct G as [G|(-> & N & _ & K)]; [now left|right]. split; [lia|]. eexists. split; [lk; exact K|reflexivity]. }
    intros s8 P8 T8 N8. split; [|rewrite T8, T7, T6; exact HQ].
    via P1. via P2. via P3. via P4. via P6. via P7. exact P8. }
  destruct O3 as [(-> & N & T3 & F3)|(-> & N & q & dd & E & K & T3)].
  - apply (wp_same _ (change (fun _ => None))).
    { unfold H5Dwrite, transfer, data_of. lk. now rewrite FN by lia. }
    apply wp_fail. intros s4 P4 T4 _ _. apply Fin; [exact P4|left; lia|]. cbn. rewrite T4, T3, T2, T1. split; [now left|].
    intros X (C1 & C2 & C3 & C4 & C5).
    specialize (F3 (pres_faults _ _ _ P2 (pres_faults _ _ _ P1 X))).
    destruct O1 as [(-> & N1' & F1)|(-> & N1' & o1 & E1 & K1)].
    { specialize (F1 X). unfold file_open in F1. rewrite FF, C3 in F1. discriminate. }
    destruct O2 as [(-> & N2' & F2)|(-> & N2' & o2 & E2 & K2)].
    { specialize (F2 (pres_faults _ _ _ P1 X)). rewrite (proj1 (dims_size_ok dims Hd C5)) in F2. discriminate. }
    destruct G as [G|(_ & _ & _ & G)]; [lia|]. destruct S as [S|(_ & _ & _ & S)]; [lia|].
    unfold dcreate_ok, space_of in F3. rewrite S in F3. rewrite (pres_lookup _ _ _ _ P2) in F3 by lia. rewrite G in F3.
    assert (R2 : w_ro s2 = false) by (destruct P2 as (-> & _), P1 as (-> & _); exact C2).
    rewrite T2, T1, R2, C3, C4 in F3. discriminate.
  - unfold dcreate_ok in E.
    destruct G as [G|(-> & N1' & G1 & G2)]; [rewrite (pres_lookup _ _ _ _ P2), (pres_lookup _ _ _ _ P1), FN in E by lia; discriminate|].
    rewrite (pres_lookup _ _ _ _ P2), G2 in E by lia. unfold space_of in E.
    destruct S as [S|(-> & N2' & S1 & S2)]; [rewrite (pres_lookup _ _ _ _ P2), (pres_lookup _ _ _ _ P1), FN in E by lia; discriminate|].
    rewrite S2 in E. unfold guard in E. destruct (negb (w_ro s2) && _ && _ && _) eqn:B; [|discriminate]. injection E as <- <-.
    apply andb_true_iff in B as [B B4]. apply andb_true_iff in B as [B _]. apply andb_true_iff in B as [B _].
    assert (CR : creatable s p n dims).
    { split; [exact V|]. split; [destruct P2 as (R2 & _), P1 as (R1 & _); rewrite <- R1, <- R2; now apply negb_true_iff|]. split; [exact G1|].
      split; [|exact S1]. rewrite T2, T1 in B4. destruct (find_obj _ _); [discriminate|reflexivity]. }
    rewrite T2, T1 in T3. pose proof (proj1 (proj2 (proj2 (proj2 CR)))) as FR.
    set (o := mkObj (p ++ [n]) (KData t dims (repeat (zero_of t) (Z.to_nat (prodZ dims)))) []) in *.
    eapply (wp_Dwrite_all (w_next s2) (p ++ [n]) t dims); [exact K| |exact S1|exact Hb|].
    { unfold data_at. rewrite T3. change (p ++ [n]) with (o_path o). rewrite (find_obj_new (w_tree s) o FR). reflexivity. }
    intros r s4 P4 _ [(-> & T4 & R4)|(-> & T4)]; (apply Fin; [exact P4|right; eauto|]).
    + cbn. rewrite T4, T3. split; [right; split; [exact CR|reflexivity]|]. intros X _.
      assert (R : w_ro s3 = true) by (apply R4; eauto using pres_faults). destruct P3 as (R3 & _), P2 as (R2 & _), P1 as (R1 & _), CR as (_ & R0 & _). congruence.
    + cbn. split; [exact CR|]. rewrite T4, T3. change (p ++ [n]) with (o_path o). rewrite (map_obj_new (w_tree s) o _ FR). unfold o. cbn [o_kind o_path o_attrs]. unfold new_data. do 4 f_equal.
      apply put_all; [|exact Hb]. unfold Zlen. rewrite repeat_length, Z2Nat.id; [reflexivity|now apply prodZ_nonneg].
Qed.

(** isDataSet and isGroup. *)
Lemma wp_object (d : bool) p s (Q : bool -> world -> Prop) : file_ok s ->
  (forall b s1, pres (w_next s) s s1 -> w_tree s1 = w_tree s -> w_next s1 = w_next s ->
     (b = true -> (if d then is_data (w_tree s) p else is_group (w_tree s) p) = true) ->
     (no_faults s -> 0 <= m_file s -> b = (if d then is_data (w_tree s) p else is_group (w_tree s) p)) -> Q b s1) ->
  wp (is_object d p) s Q.
Proof.
  intros (L & FO & FN & MO) H. unfold is_object, turn_off_errors, turn_on_errors, get_info, H5Eget_auto, H5Eset_auto.
  apply wp_bind, wp_bind, wp_get. rewrite MO. apply wp_bind. exists (w_handler s), s. split; [reflexivity|].
  apply wp_bind, wp_modify, wp_bind, wp_modify, wp_modify. apply wp_bind, wp_bind, wp_valid.
  cbn [m_file set_off set_handler set_saved].
  assert (E : forall (i : option (bool * Z)) s1, (let s0 := set_off true (set_handler 0 (set_saved (w_handler s) s)) in
     pres (w_next s) s0 s1 /\ w_tree s1 = w_tree s /\ w_next s1 = w_next s) ->
     (let b := match i with Some (x, _) => Bool.eqb x d | None => false end in
        (b = true -> (if d then is_data (w_tree s) p else is_group (w_tree s) p) = true) /\
        (no_faults s -> 0 <= m_file s -> b = (if d then is_data (w_tree s) p else is_group (w_tree s) p))) ->
     wp (match i with
         | Some (d0, _) => do _ <- (do s2 <- get; if m_off s2 then do _ <- modify (set_handler (m_saved s2)); do _ <- modify (set_saved 0); modify (set_off false) else ret tt); ret (Bool.eqb d0 d)
         | None => do _ <- (do s2 <- get; if m_off s2 then do _ <- modify (set_handler (m_saved s2)); do _ <- modify (set_saved 0); modify (set_off false) else ret tt); ret false end) s1 Q).
  { intros i s1 (P & T & N) (B1 & B2).
    assert (M1 : m_off s1 = true) by apply P.
    assert (W : wp (do _ <- (do s2 <- get; if m_off s2 then do _ <- modify (set_handler (m_saved s2)); do _ <- modify (set_saved 0); modify (set_off false) else ret tt);
              ret (match i with Some (x, _) => Bool.eqb x d | None => false end)) s1 Q).
    { apply wp_bind, wp_bind, wp_get. rewrite M1. apply wp_bind, wp_modify, wp_bind, wp_modify, wp_modify, wp_ret. apply H; auto.
      destruct P as (A1 & A2 & A3 & A4 & A5 & A6). repeat split; cbn; auto. }
    destruct i as [[x k]|]; exact W. }
  destruct (0 <=? m_file s) eqn:V.
  - apply Z.leb_le in V. destruct (FO V) as (FL & FF). apply wp_bind, wp_get. unfold H5Oget_info_by_name. apply wp_call.
    + intros s1 P T N X _. apply (E None s1); [auto|]. split; [discriminate|]. intros Y. exfalso. apply X. exact Y.
    + intros s1 P T N _. apply E; [auto|]. cbn [m_file set_off set_handler set_saved w_tree].
      unfold file_open, guard. change (lookup _ (m_file s)) with (lookup s (m_file s)). rewrite FF. unfold is_data, is_group.
      destruct (find_obj (w_tree s) p) as [o|]; [destruct (o_kind o), d|destruct d]; cbn; split; auto; discriminate.
  - apply wp_ret. apply (E None); [cbn; repeat split; try lia|]. split; [discriminate|]. intros _ C. apply Z.leb_gt in V. lia.
Qed.

Lemma is_data_at s p : is_data (w_tree s) p = true <-> exists x, data_at s p = Some x.
Proof.
  unfold is_data, data_at. destruct (find_obj (w_tree s) p) as [o|]; [destruct (o_kind o)|]; split; try discriminate; try (intros [? ?]; discriminate); eauto.
Qed.
Lemma data_at_tree s s1 p : w_tree s1 = w_tree s -> data_at s1 p = data_at s p.
Proof. unfold data_at. now intros ->. Qed.


Lemma wp_Dopen f p s (Q : Z -> world -> Prop) :
  (forall id s1, pres (w_next s) s s1 -> w_tree s1 = w_tree s ->
     (id = -1 /\ w_next s1 = w_next s /\ (no_faults s -> lookup s f = Some HFile -> is_data (w_tree s) p = false) \/
      id = w_next s /\ w_next s1 = w_next s + 1 /\ is_data (w_tree s) p = true /\ lookup s f = Some HFile /\ lookup s1 id = Some (HData p)) -> Q id s1) ->
  wp (H5Dopen f p) s Q.
Proof.
  intros H. unfold H5Dopen. apply wp_open1. intros id s1 P T O. apply H; auto. destruct O as [(A & B & C)|(A & B & o & C & D)]; [left|right].
  - repeat split; auto. intros X Y. specialize (C X). unfold file_open in C. rewrite Y in C. cbn [andb] in C. destruct (is_data _ _); [discriminate|reflexivity].
  - unfold guard in C. destruct (file_open s f && is_data (w_tree s) p) eqn:E; [|discriminate]. injection C as <-. apply andb_true_iff in E as [E1 E2].
    unfold file_open in E1. destruct (lookup s f) as [[]|] eqn:F; try discriminate. auto 10.
Qed.
Lemma wp_Dspace ds p t d v s (Q : Z -> world -> Prop) : lookup s ds = Some (HData p) -> data_at s p = Some (t, d, v) ->
  (forall id s1, pres (w_next s) s s1 -> w_tree s1 = w_tree s ->
     (id = -1 /\ w_next s1 = w_next s /\ ~ no_faults s \/ id = w_next s /\ w_next s1 = w_next s + 1 /\ lookup s1 id = Some (HSpace d None)) -> Q id s1) ->
  wp (H5Dget_space ds) s Q.
Proof.
  intros A B H. unfold H5Dget_space. apply wp_open1. intros id s1 P T O. apply H; auto. unfold opened, data_of in O. rewrite A, B in O.
  destruct O as [(X & Y & Z)|(X & Y & o & Z & W)]; [left|right].
  - repeat split; auto. intros F. discriminate (Z F).
  - injection Z as <-. auto.
Qed.
Lemma wp_Dtype ds p t d v s (Q : Z -> world -> Prop) : lookup s ds = Some (HData p) -> data_at s p = Some (t, d, v) ->
  (forall id s1, pres (w_next s) s s1 -> w_tree s1 = w_tree s ->
     (id = -1 /\ w_next s1 = w_next s /\ ~ no_faults s \/ id = w_next s /\ w_next s1 = w_next s + 1 /\ lookup s1 id = Some (HType t)) -> Q id s1) ->
  wp (H5Dget_type ds) s Q.
Proof.
  intros A B H. unfold H5Dget_type. apply wp_open1. intros id s1 P T O. apply H; auto. unfold opened, data_of in O. rewrite A, B in O.
  destruct O as [(X & Y & Z)|(X & Y & o & Z & W)]; [left|right].
  - repeat split; auto. intros F. discriminate (Z F).
  - injection Z as <-. auto.
Qed.

(** getDimensions. *)
Lemma wp_dims p s (Q : list Z -> world -> Prop) : file_ok s ->
  (forall l s1, pres (w_next s) s s1 -> w_tree s1 = w_tree s ->
     (l = [] \/ exists t v, data_at s p = Some (t, l, v)) ->
     (no_faults s -> 0 <= m_file s -> forall t d v, data_at s p = Some (t, d, v) -> l = d) -> Q l s1) ->
  wp (get_dimensions p) s Q.
Proof.
  intros FOK H. pose proof FOK as (L & FO & FN & MO). unfold get_dimensions, is_data_set. apply wp_bind, wp_object; [exact FOK|]. intros b s1 P1 T1 N1 B1 B2.
  destruct b.
  2: { apply wp_ret. apply H; auto. intros X Y t d v E. specialize (B2 X Y). exfalso.
       assert (is_data (w_tree s) p = true) by (apply is_data_at; eauto). congruence. }
  assert (FOK1 : file_ok s1) by (eapply pres_file; [exact P1|lia|exact FOK]).
  specialize (B1 eq_refl). pose proof B1 as ID. apply is_data_at in B1 as ([[t0 d0] v0] & D0).
  assert (Fail : forall s', pres (w_next s) s s' -> w_tree s' = w_tree s -> ~ no_faults s -> Q [] s').
  { intros s' P T X. apply H; auto. intros Y. contradiction. }
  apply wp_bind, wp_get, wp_bind, wp_Dopen. intros ds s2 P2 T2 O2.
  assert (P12 : pres (w_next s) s s2) by (via P1; eapply pres_weak; [|exact P2]; lia).
  destruct O2 as [(-> & N2 & F2)|(-> & N2 & _ & FF & K2)].
  { cbn [Z.ltb Z.compare]. apply wp_ret. apply H; [exact P12|congruence|now left|]. intros X Y t d v E. exfalso.
    destruct FOK1 as (_ & FO1 & _). assert (M : m_file s1 = m_file s) by apply P1.
    specialize (F2 (pres_faults _ _ _ P1 X)). rewrite (proj2 (FO1 ltac:(lia))), T1, ID in F2. discriminate (F2 eq_refl). }
  rewrite (proj2 (Z.ltb_ge (w_next s1) 0)) by lia. apply (wp_with (w_next s1)), wp_bind.
  eapply wp_Dspace; [exact K2|rewrite (data_at_tree s s2) by congruence; exact D0|]. intros sp s3 P3 T3 O3.
  assert (P13 : pres (w_next s) s s3) by (via P12; eapply pres_weak; [|exact P3]; lia).
  assert (Close : forall l s5, pres (w_next s3) s3 s5 -> w_tree s5 = w_tree s ->
     (forall s', pres (w_next s) s s' -> w_tree s' = w_tree s -> Q l s') ->
     (w_next s1 < 0 \/ w_next s1 <= w_next s1 /\ (exists o, lookup s5 (w_next s1) = Some o /\ hkind_of o = CData)) /\
     (forall s6, pres (w_next s1) s5 s6 -> w_tree s6 = w_tree s5 -> w_next s6 = w_next s5 -> Q l s6)).
  { assert (N3 : w_next s2 <= w_next s3) by apply P3. intros l s5 P5 T5 HQ. split.
    - right. split; [lia|]. eexists. split; [lk; exact K2|reflexivity].
    - intros s6 P6 T6 N6. apply HQ; [via P13; via P5; eapply pres_weak; [|exact P6]; lia|congruence]. }
  destruct O3 as [(-> & N3 & F3)|(-> & N3 & K3)].
  { cbn [Z.ltb Z.compare]. apply wp_ret. apply Close; [apply pres_refl|congruence|]. intros s' P T. apply Fail; auto.
    intros X. apply F3. eauto using pres_faults. }
  rewrite (proj2 (Z.ltb_ge (w_next s2) 0)) by lia. apply (wp_with (w_next s2)), wp_bind.
  assert (Close2 : forall l s5, pres (w_next s3) s3 s5 -> w_tree s5 = w_tree s ->
     (forall s', pres (w_next s) s s' -> w_tree s' = w_tree s -> Q l s') ->
     (w_next s2 < 0 \/ w_next s2 <= w_next s2 /\ (exists o, lookup s5 (w_next s2) = Some o /\ hkind_of o = CSpace)) /\
     (forall s6, pres (w_next s2) s5 s6 -> w_tree s6 = w_tree s5 -> w_next s6 = w_next s5 ->
     (w_next s1 < 0 \/ w_next s1 <= w_next s1 /\ (exists o, lookup s6 (w_next s1) = Some o /\ hkind_of o = CData)) /\
     (forall s7, pres (w_next s1) s6 s7 -> w_tree s7 = w_tree s6 -> w_next s7 = w_next s6 -> Q l s7))).
  { intros l s5 P5 T5 HQ. split.
    - right. split; [lia|]. eexists. split; [lk; exact K3|reflexivity].
    - intros s6 P6 T6 N6. split.
      + right. split; [lia|]. eexists. split; [lk; exact K2|reflexivity].
      + intros s7 P7 T7 N7. apply HQ; [via P13; via P5; via P6; eapply pres_weak; [|exact P7]; lia|congruence]. }
  apply wp_call.
  { intros s4 P4 T4 N4 X K4. cbn [Z.ltb Z.compare]. apply wp_ret. apply Close2; [exact P4|congruence|]. intros s' P T. apply Fail; auto.
    intros Y. apply X. eauto using pres_faults. }
  intros s4 P4 T4 N4 K4. unfold space_of. rewrite K3. destruct (Zlen d0 <? 1) eqn:E1.
  { apply wp_ret. assert (d0 = []) by (destruct d0; [reflexivity|apply Z.ltb_lt in E1; unfold Zlen in E1; cbn [List.length] in E1; lia]). subst d0.
    apply Close2; [exact P4|congruence|]. intros s' P T. apply H; auto. intros _ _ t d v E. congruence. }
  apply wp_bind. apply wp_call.
  { intros s5 P5 T5 N5 X K5. apply wp_ret. apply Close2; [via P4; eapply pres_weak; [|exact P5]; lia|congruence|]. intros s' P T. apply Fail; auto.
    intros Y. apply X. eauto using pres_faults. }
  intros s5 P5 T5 N5 K5. unfold space_of. rewrite K4, K3, Z.eqb_refl. apply wp_ret. apply Close2; [via P4; eapply pres_weak; [|exact P5]; lia|congruence|].
  intros s' P T. apply H; auto; [right; eauto|]. intros _ _ t d v E. congruence.
Qed.

(** The comparison of types.  It says "same" of different types only if the first
    comparison fails. *)
Lemma wp_same_type ty t u s (Q : bool -> world -> Prop) : type_of s ty = Some u \/ type_of s ty = None /\ ~ no_faults s ->
  (forall b s1, pres (w_next s) s s1 -> (forall id, lookup s1 id = lookup s id) -> w_tree s1 = w_tree s ->
     (no_faults s -> type_of s ty = Some u /\ b = type_eqb u t) -> Q b s1) ->
  wp (same_type ty t) s Q.
Proof.
  intros K H. unfold same_type, H5Tequal.
  assert (D : forall b s1, ~ no_faults s -> pres (w_next s) s s1 -> (forall id, lookup s1 id = lookup s id) -> w_tree s1 = w_tree s -> Q b s1).
  { intros b s1 X P I T. apply H; auto. intros Y. contradiction. }
  apply wp_bind, wp_call.
  - intros s1 P1 T1 N1 X1 K1. cbn [Z.eqb]. apply wp_bind, wp_call.
    + intros s2 P2 T2 N2 X2 K2. cbn. apply wp_ret. apply D; [exact X1|via P1; eapply pres_weak; [|exact P2]; lia| |congruence].
      intros id. now rewrite K2, K1.
    + intros s2 P2 T2 N2 K2. destruct (_ <? 0); apply wp_ret; (apply D; [exact X1|via P1; eapply pres_weak; [|exact P2]; lia| |congruence];
      intros id; now rewrite K2, K1).
  - intros s1 P1 T1 N1 K1. destruct K as [K|[K X]]; rewrite K.
    + unfold type_eqb. destruct (h5type_dec u t) as [E|E]; cbn [Z.eqb].
      * apply wp_bind, wp_call.
        -- intros s2 P2 T2 N2 X2 K2. cbn. apply wp_ret. apply D; [|via P1; eapply pres_weak; [|exact P2]; lia| |congruence].
           ++ intros Y. apply X2. eauto using pres_faults.
           ++ intros id. now rewrite K2, K1.
        -- intros s2 P2 T2 N2 K2.
           assert (B : type_of s1 ty = Some u) by (unfold type_of in *; now rewrite K1). rewrite B. unfold type_eqb.
           destruct (h5type_dec u t); [|contradiction]. cbn. apply wp_ret. apply H; [via P1; eapply pres_weak; [|exact P2]; lia| |congruence|].
           ++ intros id. now rewrite K2, K1.
           ++ intros _. split; [exact K|]. unfold type_eqb. destruct (h5type_dec u t); [reflexivity|contradiction].
      * apply wp_ret. apply H; auto. intros _. split; [exact K|]. unfold type_eqb. destruct (h5type_dec u t); [contradiction|reflexivity].
    + cbn [Z.eqb]. apply wp_bind, wp_call.
      * intros s2 P2 T2 N2 X2 K2. cbn. apply wp_ret. apply D; [exact X|via P1; eapply pres_weak; [|exact P2]; lia| |congruence].
        intros id. now rewrite K2, K1.
      * intros s2 P2 T2 N2 K2. destruct (_ <? 0); apply wp_ret; (apply D; [exact X|via P1; eapply pres_weak; [|exact P2]; lia| |congruence];
        intros id; now rewrite K2, K1).
Qed.

Lemma transfer_same s s1 ds mem sp : (forall id, id = ds \/ id = mem \/ id = sp -> lookup s1 id = lookup s id) -> w_tree s1 = w_tree s ->
  transfer s1 ds mem sp = transfer s ds mem sp.
Proof.
  intros K T. unfold transfer, data_of, space_of. rewrite !K by auto. destruct (lookup s ds) as [[]|]; try reflexivity.
  rewrite (data_at_tree s s1) by exact T. reflexivity.
Qed.

(** The end of readData. *)
Lemma wp_finish t ds sp room mem p u d v s (Q : option (list elem) -> world -> Prop) :
  1 <= w_next s -> ds < w_next s -> sp < w_next s -> mem < w_next s -> (forall id, id < 1 -> lookup s id = None) ->
  lookup s ds = Some (HData p) -> data_at s p = Some (u, d, v) ->
  (forall q idx, transfer s ds mem sp = Some (q, idx) -> Zlen idx <= room) ->
  (forall r s1, pres (w_next s) s s1 -> w_tree s1 = w_tree s ->
    (forall l, r = Some l -> exists idx, transfer s ds mem sp = Some (p, idx) /\ l = pick v idx) ->
    (no_faults s -> r = if type_eqb u t then match transfer s ds mem sp with Some (_, idx) => Some (pick v idx) | None => None end else None) ->
    Q r s1) ->
  wp (finish_read t ds sp room mem) s Q.
Proof.
  intros L1 L2 L3 L4 FN K D Room H. unfold finish_read. apply wp_bind. eapply wp_Dtype; [exact K|exact D|]. intros ty s1 P1 T1 O1.
  assert (N1 : w_next s <= w_next s1) by apply P1.
  apply (wp_with (w_next s)), wp_bind. apply (wp_same_type ty t u).
  { unfold type_of. destruct O1 as [(-> & _ & X)|(-> & _ & K1)]; [right|left; now rewrite K1]. rewrite (pres_lookup _ _ _ _ P1), FN by lia.
    split; [reflexivity|]. intros Y. apply X. intros k. rewrite <- (Y k). destruct P1 as (_ & _ & F & _). now rewrite F. }
  intros b s2 P2 K2 T2 B2.
  assert (Close : forall r s3, pres (w_next s2) s2 s3 -> w_tree s3 = w_tree s -> (forall s', pres (w_next s) s s' -> w_tree s' = w_tree s -> Q r s') ->
     (ty < 0 \/ w_next s <= ty /\ (exists o, lookup s3 ty = Some o /\ hkind_of o = CType)) /\
     (forall s4, pres (w_next s) s3 s4 -> w_tree s4 = w_tree s3 -> w_next s4 = w_next s3 -> Q r s4)).
  { assert (N2 : w_next s1 <= w_next s2) by apply P2. intros r s3 P3 T3 HQ. split.
    - destruct O1 as [(-> & _)|(-> & N & K1)]; [left; lia|right]. split; [lia|]. eexists. split; [lk; exact K1|reflexivity].
    - intros s4 P4 T4 N4. apply HQ; [via P1; via P2; via P3; exact P4|congruence]. }
  assert (TR : transfer s2 ds mem sp = transfer s ds mem sp).
  { apply transfer_same; [|congruence]. intros id Hid. rewrite K2. apply (pres_lookup _ _ _ _ P1). lia. }
  destruct b.
  - apply wp_bind. unfold H5Dread. apply wp_call.
    + intros s3 P3 T3 N3 X3 K3. apply wp_ret. apply Close; [exact P3|congruence|]. intros s' P T. apply H; auto; [discriminate|].
      intros Y. exfalso. apply X3. eauto using pres_faults.
    + intros s3 P3 T3 N3 K3. rewrite TR. destruct (transfer s ds mem sp) as [[q idx]|] eqn:E.
      * assert (q = p).
        { unfold transfer, data_of in E. rewrite K, D in E. destruct (if sp =? 0 then _ else _); [|discriminate]. destruct (if mem =? 0 then _ else _); [|discriminate].
          unfold guard in E. destruct (_ && _); congruence. }
        subst q. rewrite (data_at_tree s s2) by congruence. rewrite D.
        specialize (Room p idx eq_refl). assert (LL : Zlen (pick v idx) = Zlen idx) by (unfold pick, Zlen; now rewrite map_length).
        rewrite (proj2 (Z.ltb_ge room (Zlen (pick v idx)))) by lia. apply wp_ret. apply Close; [exact P3|congruence|]. intros s' P T.
        apply H; auto; [intros l X; injection X as <-; eauto|]. intros Y. destruct (B2 (pres_faults _ _ _ P1 Y)) as (_ & <-). reflexivity.
      * apply wp_ret. apply Close; [exact P3|congruence|]. intros s' P T. apply H; auto; [discriminate|]. intros _. now destruct (type_eqb u t).
  - apply wp_ret. apply Close; [apply pres_refl|congruence|]. intros s' P T. apply H; auto; [discriminate|].
    intros Y. destruct (B2 (pres_faults _ _ _ P1 Y)) as (_ & <-). reflexivity.
Qed.


(** readData of everything. *)
Lemma wp_read_all t p room s (Q : option (list elem) -> world -> Prop) : file_ok s -> whole s p ->
  (forall u d v, data_at s p = Some (u, d, v) -> prodZ d <= room) ->
  (forall r s1, pres (w_next s) s s1 -> w_tree s1 = w_tree s ->
    (forall l, r = Some l -> exists u d, data_at s p = Some (u, d, l)) ->
    (no_faults s -> 0 <= m_file s -> r = match data_at s p with Some (u, _, v) => if type_eqb u t then Some v else None | None => None end) -> Q r s1) ->
  wp (read_data t p room None None None) s Q.
Proof.
  intros FOK W Room H. pose proof FOK as (L & FO & FN & MO). unfold read_data. apply wp_bind, wp_get, wp_bind, wp_Dopen. intros ds s1 P1 T1 O1.
  destruct O1 as [(-> & N1 & F1)|(-> & N1 & ID & FF & K1)].
  { cbn [Z.ltb Z.compare]. apply wp_ret. apply H; auto; [discriminate|]. intros X Y. specialize (F1 X (proj2 (FO Y))).
    destruct (data_at s p) as [[[u d] v]|] eqn:E; [|reflexivity]. exfalso.
    assert (is_data (w_tree s) p = true) by (apply is_data_at; eauto). congruence. }
  rewrite (proj2 (Z.ltb_ge (w_next s) 0)) by lia. apply (wp_with (w_next s)), wp_bind. apply is_data_at in ID as ([[u d] v] & D).
  destruct (W u d v D) as (LV & Dpos). specialize (Room u d v D).
  eapply wp_Dspace; [exact K1|rewrite (data_at_tree s s1) by exact T1; exact D|]. intros sp s2 P2 T2 O2.
  assert (N2 : w_next s1 <= w_next s2) by apply P2.
  destruct O2 as [(-> & N2' & X2)|(-> & N2' & K2)].
  { cbn [Z.ltb Z.compare]. apply wp_ret. split; [right; split; [lia|]; eexists; split; [lk; exact K1|reflexivity]|]. intros s3 P3 T3 N3.
    apply H; [via P1; via P2; exact P3|congruence|discriminate|]. intros X. exfalso. apply X2. eauto using pres_faults. }
  rewrite (proj2 (Z.ltb_ge (w_next s1) 0)) by lia. apply (wp_with (w_next s1)).
  assert (TR : transfer s2 (w_next s) 0 (w_next s1) = Some (p, zseq (prodZ d))).
  { unfold transfer, data_of, space_of. rewrite (pres_lookup _ _ _ _ P2) by lia. rewrite K1, (data_at_tree s s2), D by congruence.
    rewrite (proj2 (Z.eqb_neq (w_next s1) 0)) by lia. rewrite K2. cbn [Z.eqb]. now rewrite Z.eqb_refl. }
  eapply (wp_finish t (w_next s) (w_next s1) room 0 p u d v); try lia.
  { intros id Hid. rewrite (pres_lookup _ _ _ _ P2), (pres_lookup _ _ _ _ P1) by lia. auto. }
  { lk. exact K1. }
  { rewrite (data_at_tree s s2) by congruence. exact D. }
  { intros q idx E. rewrite TR in E. injection E as <- <-. rewrite Zlen_zseq by (now apply prodZ_nonneg). exact Room. }
  intros r s3 P3 T3 R3 G3. assert (N3 : w_next s2 <= w_next s3) by apply P3. split; [right; split; [lia|]; eexists; split; [lk; exact K2|reflexivity]|].
  intros s4 P4 T4 N4. split; [right; split; [lia|]; eexists; split; [lk; exact K1|reflexivity]|]. intros s5 P5 T5 N5.
  apply H; [via P1; via P2; via P3; via P4; exact P5|congruence| |].
  - intros l ->. destruct (R3 l eq_refl) as (idx & E & ->). rewrite TR in E. injection E as <-. rewrite (pick_all v (prodZ d) LV). eauto.
  - intros X _. rewrite (G3 (pres_faults _ _ _ P2 (pres_faults _ _ _ P1 X))), TR, D. now rewrite (pick_all v (prodZ d) LV).
Qed.

(** readData<T>(path, dims). *)
Lemma wp_int_prod l : forall acc s (Q : Z -> world -> Prop), (forall k, acc * prodZ (firstn k l) < 2 ^ 31) -> Q (acc * prodZ l) s -> wp (int_prod acc l) s Q.
Proof.
  induction l as [|d l IH]; intros acc s Q Hk H; cbn [int_prod].
  - apply wp_ret. cbn in H. now rewrite Z.mul_1_r in H.
  - pose proof (Hk 1%nat) as H1. cbn in H1. rewrite (proj2 (Z.ltb_lt (acc * d) (2 ^ 31))) by (rewrite Z.mul_1_r in H1; exact H1).
    apply IH; [|cbn in H; rewrite <- Z.mul_assoc; exact H]. intros k. specialize (Hk (S k)). cbn in Hk. rewrite <- Z.mul_assoc. exact Hk.
Qed.

Lemma wp_vector t p s (Q : list Z * list elem -> world -> Prop) : file_ok s -> whole s p ->
  (forall u d v, data_at s p = Some (u, d, v) -> forall k, prodZ (firstn k d) < 2 ^ 31) ->
  (forall dims l s1, pres (w_next s) s s1 -> w_tree s1 = w_tree s ->
     (l <> [] -> exists u, data_at s p = Some (u, dims, l)) ->
     (dims <> [] -> exists u v, data_at s p = Some (u, dims, v)) ->
     (no_faults s -> 0 <= m_file s -> forall u d v, data_at s p = Some (u, d, v) -> d <> [] -> (dims, l) = (d, if type_eqb u t then v else [])) ->
     Q (dims, l) s1) ->
  wp (read_vector t p) s Q.
Proof.
  intros FOK W Small H. unfold read_vector. apply wp_bind, wp_dims; [exact FOK|]. intros dims s1 P1 T1 C1 G1.
  assert (N1 : w_next s <= w_next s1) by apply P1.
  assert (FOK1 : file_ok s1) by (eapply pres_file; [exact P1|lia|exact FOK]).
  destruct dims as [|d0 ds] eqn:E0.
  { apply wp_ret. apply H; auto; try congruence. intros X Y u d v E N. specialize (G1 X Y u d v E). congruence. }
  rewrite <- E0 in *. assert (ND : dims <> []) by congruence. clear d0 ds E0. destruct C1 as [C1|(u & v & D)]; [contradiction|].
  apply wp_bind. apply wp_int_prod.
  { intros k. rewrite Z.mul_1_l. eauto. }
  rewrite Z.mul_1_l. apply wp_bind. apply wp_read_all; [exact FOK1| | |].
  - unfold whole. rewrite (data_at_tree s s1) by exact T1. exact W.
  - rewrite (data_at_tree s s1) by exact T1. rewrite D. intros u' d' v' E. injection E as <- <- <-. lia.
  - rewrite (data_at_tree s s1) by exact T1. rewrite D. intros r s2 P2 T2 R2 G2.
    assert (PP : pres (w_next s) s s2) by (via P1; eapply pres_weak; [|exact P2]; lia).
    destruct r as [l|]; apply wp_ret; (apply H; [exact PP|congruence| | |]).
    + intros _. destruct (R2 l eq_refl) as (u' & d' & E). injection E as <- <- <-. eauto.
    + eauto.
    + intros X Y u' d' v' E N. rewrite D in E. injection E as <- <- <-. f_equal. destruct P1 as (_ & M & F & _).
      specialize (G2 ltac:(intros k; rewrite F; apply X) ltac:(lia)). destruct (type_eqb u t); congruence.
    + congruence.
    + eauto.
    + intros X Y u' d' v' E N. rewrite D in E. injection E as <- <- <-. f_equal. destruct P1 as (_ & M & F & _).
      specialize (G2 ltac:(intros k; rewrite F; apply X) ltac:(lia)). destruct (type_eqb u t); congruence.
Qed.
