(** C72: what is written with the HDF5 wrapper can be read, whatever fails in the
    library. *)
From Coq Require Import String ZArith List Bool Lia.
From Verif Require Import Base BaseFacts H5LibModel H5WrapModel H5WrapSpec H5DataSpec H5DataProofs H5Region H5RegionProofs H5AttrProofs H5CreateProofs H5TextProofs H5WrapProps.
Import ListNotations.
Open Scope Z_scope.

Lemma after_call {A} c (m : prog A) s r s' : between_calls s -> is_string_set c = false -> run_api c = drop m -> m s = Ok (r, s') -> between_calls s'.
Proof.
  intros B H E R. destruct (C71_closes c s B H) as (_ & C). apply (C s'). rewrite E. unfold drop, pbind. rewrite R. reflexivity.
Qed.

Lemma only_new s s' o : w_tree s' = w_tree s ++ [o] -> only_at (o_path o) s s'.
Proof. intros T q N. rewrite T. apply find_obj_other. congruence. Qed.
Lemma only_same p s s' : w_tree s' = w_tree s -> only_at p s s'.
Proof. intros T q _. now rewrite T. Qed.
Lemma data_new s s' p n t d v : w_tree s' = w_tree s ++ [new_data p n t d v] -> find_obj (w_tree s) (p ++ [n]) = None -> data_at s' (p ++ [n]) = Some (t, d, v).
Proof. intros T F. unfold data_at. rewrite T. change (p ++ [n]) with (o_path (new_data p n t d v)) in *. rewrite (find_obj_new _ _ F). reflexivity. Qed.

(** writeData: what it says it did, it did, and it touches nothing else.  If it
    says that it failed then the data set was not made or holds zeros; it fails
    only if the library does or the data set cannot be made. *)
Theorem C72_write t p n dims buf s : between_calls s -> dims <> [] -> Forall is_i32 dims -> prodZ dims <= Zlen buf ->
  exists r s', write_data t p n dims buf s = Ok (r, s') /\ between_calls s' /\ only_at (p ++ [n]) s s' /\
    (r = true -> creatable s p n dims /\ data_at s' (p ++ [n]) = Some (t, dims, firstn (Z.to_nat (prodZ dims)) buf)) /\
    (r = false -> w_tree s' = w_tree s \/
       creatable s p n dims /\ data_at s' (p ++ [n]) = Some (t, dims, repeat (zero_of t) (Z.to_nat (prodZ dims)))) /\
    (no_faults s -> (r = true <-> creatable s p n dims)).
Proof.
  intros B N I L. destruct (wp_write t p n dims buf s (between_ok s B) N I L) as (r & s' & E & P & W). exists r, s'.
  split; [exact E|]. split; [now apply (after_call (WriteData t p n dims buf) _ s r s' B eq_refl eq_refl)|]. unfold write_post in W. destruct r.
  - destruct W as (C & T). split; [exact (only_new _ _ _ T)|]. split; [intros _; split; [exact C|eapply data_new; [exact T|apply C]]|].
    split; [discriminate|]. tauto.
  - destruct W as (W & F). split; [destruct W as [T|(C & T)]; [now apply only_same|exact (only_new _ _ _ T)]|]. split; [discriminate|].
    split; [|intros X; split; [discriminate|intros C; destruct (F X C)]]. intros _. destruct W as [T|(C & T)]; [now left|right]. split; [exact C|].
    eapply data_new; [exact T|apply C].
Qed.

(** readData of a whole data set: nothing is changed, what comes is what is
    there, and it comes unless the library fails or the type is another one. *)
Theorem C72_read t p s : between_calls s -> whole s p ->
  (forall u d v, data_at s p = Some (u, d, v) -> forall k, prodZ (firstn k d) < 2 ^ 31) ->
  exists dims l s', read_vector t p s = Ok ((dims, l), s') /\ between_calls s' /\ w_tree s' = w_tree s /\
    (l <> [] -> exists u, data_at s p = Some (u, dims, l)) /\
    (no_faults s -> 0 <= m_file s -> forall u d v, data_at s p = Some (u, d, v) -> d <> [] -> dims = d /\ l = if type_eqb u t then v else []).
Proof.
  intros B W O. destruct (wp_vector t p s (fun r s' => w_tree s' = w_tree s /\ (snd r <> [] -> exists u, data_at s p = Some (u, fst r, snd r)) /\
    (no_faults s -> 0 <= m_file s -> forall u d v, data_at s p = Some (u, d, v) -> d <> [] -> r = (d, if type_eqb u t then v else [])))) as ([dims l] & s' & E & T & A & C).
  - now apply between_ok.
  - exact W.
  - exact O.
  - auto.
  - exists dims, l, s'. split; [exact E|]. split; [now apply (after_call (ReadVector t p) _ s (dims, l) s' B eq_refl eq_refl)|]. split; [exact T|]. split; [exact A|].
    intros X V u d v D N. specialize (C X V u d v D N). injection C as -> ->. auto.
Qed.

(** Writing and reading again.  Whatever fails: data that come after a successful
    write are the written ones. *)
Theorem C72_round_trip t u p n dims buf s : between_calls s -> find_obj (w_tree s) (p ++ [n]) = None ->
  dims <> [] -> Forall is_i32 dims -> Forall (fun d => 0 <= d) dims -> (forall k, prodZ (firstn k dims) < 2 ^ 31) -> prodZ dims <= Zlen buf ->
  exists r dims' l s', (do r <- write_data t p n dims buf; do (d, l) <- read_vector u (p ++ [n]); ret (r, d, l)) s = Ok (r, dims', l, s') /\
    (r = true -> l <> [] -> dims' = dims /\ l = firstn (Z.to_nat (prodZ dims)) buf) /\
    (no_faults s -> creatable s p n dims -> r = true /\ dims' = dims /\ l = if type_eqb t u then firstn (Z.to_nat (prodZ dims)) buf else []).
Proof.
  intros B F N I NN K L. destruct (wp_write t p n dims buf s (between_ok s B) N I L) as (r & s1 & E & P & W).
  assert (B1 : between_calls s1) by now apply (after_call (WriteData t p n dims buf) _ s r s1 B eq_refl eq_refl).
  assert (D : data_at s1 (p ++ [n]) = None \/ exists v, data_at s1 (p ++ [n]) = Some (t, dims, v) /\ Zlen v = prodZ dims /\
     (r = true -> v = firstn (Z.to_nat (prodZ dims)) buf)).
  { pose proof (prodZ_nonneg dims NN) as PN. unfold write_post in W. destruct r.
    - destruct W as (C & T). right. eexists. split; [eapply data_new; [exact T|exact F]|]. split; [|auto]. unfold Zlen in *. rewrite firstn_length. lia.
    - destruct W as ([T|(C & T)] & _); [left; unfold data_at; now rewrite T, F|right]. eexists. split; [eapply data_new; [exact T|exact F]|].
      split; [|discriminate]. unfold Zlen. rewrite repeat_length. lia. }
  assert (WH : whole s1 (p ++ [n])).
  { intros t0 d0 v0 D0. destruct D as [D|(v & D & DL & _)]; [congruence|]. rewrite D in D0. injection D0 as <- <- <-. auto. }
  destruct (C72_read u (p ++ [n]) s1 B1 WH) as (dims' & l & s' & E' & _ & _ & R1 & R2).
  { intros u0 d0 v0 D0. destruct D as [D|(v & D & DL & _)]; [congruence|]. rewrite D in D0. injection D0 as <- <- <-. exact K. }
  exists r, dims', l, s'. split; [unfold pbind; rewrite E; cbn [bind]; rewrite E'; reflexivity|]. split.
  - intros -> NE. destruct (R1 NE) as (u0 & D0). destruct D as [D|(v & D & _ & DV)]; [congruence|]. rewrite D in D0. injection D0 as _ <- <-. auto.
  - intros X C. unfold write_post in W. destruct r; [|destruct W as (_ & W); destruct (W X C)]. split; [reflexivity|].
    destruct D as [D|(v & D & _ & DV)]; [destruct W as (_ & T); rewrite (data_new _ _ _ _ _ _ _ T F) in D; discriminate|]. rewrite (DV eq_refl) in D.
    apply (R2 (pres_faults _ _ _ P X)) with (u := t); auto. destruct P as (_ & M & _). rewrite M. apply C.
Qed.

Lemma pick_nth v idx j : (j < List.length idx)%nat -> nth j (pick v idx) (ENum 0) = nth (Z.to_nat (nth j idx 0)) v (ENum 0).
Proof. intros H. unfold pick. rewrite (nth_indep _ _ ((fun i => nth (Z.to_nat i) v (ENum 0)) 0)) by now rewrite map_length. now rewrite (map_nth (fun i => nth (Z.to_nat i) v (ENum 0))). Qed.

(** readData of a region: the elements of the data set at start + k * stride, in
    row-major order, whatever fails. *)
Theorem C72_region t p u d v strides start counts sd st cn room s : between_calls s ->
  data_at s p = Some (u, d, v) -> Zlen v = prodZ d -> Forall is_i32 d -> d <> [] -> fits d st sd cn -> Forall is_i32 sd ->
  given strides (repeat 1 (List.length d)) sd -> given start (repeat 0 (List.length d)) st -> given counts (default_counts d st sd) cn ->
  (strides <> None \/ start <> None \/ counts <> None) -> prodZ cn <= room ->
  exists r s', read_data t p room strides start counts s = Ok (r, s') /\ between_calls s' /\ w_tree s' = w_tree s /\
    (forall l, r = Some l -> Zlen l = prodZ cn /\ forall k, within k cn -> nth (Z.to_nat (ravel cn k)) l (ENum 0) = at_index d v (place st sd k)) /\
    (no_faults s -> 0 <= m_file s -> (r <> None <-> u = t)).
Proof.
  intros B D HV HI HN HF IS G1 G2 G3 SOME ROOM. destruct (fits_length _ _ _ _ HF) as (L1 & L2 & L3 & F1 & F2 & F3 & F4).
  destruct (wp_region t u p d st sd cn v HV HF HI HN strides start counts room s (fun r s' => w_tree s' = w_tree s /\
     (forall l, r = Some l -> l = pick v (offsets d (zip3 st sd cn))) /\
     (no_faults s -> 0 <= m_file s -> r = if type_eqb u t then Some (pick v (offsets d (zip3 st sd cn))) else None))) as (r & s' & E & T & A & C); auto.
  { now apply between_ok. }
  exists r, s'. split; [exact E|]. split; [now apply (after_call (ReadData t p room strides start counts) _ s r s' B eq_refl eq_refl)|]. split; [exact T|].
  assert (OL : Zlen (offsets d (zip3 st sd cn)) = prodZ cn).
  { apply offsets_len; auto. eapply Forall_impl; [|exact F1]. cbn. lia. }
  split.
  - intros l ->. rewrite (A l eq_refl). split; [unfold pick; unfold Zlen in *; now rewrite map_length|]. intros k K.
    pose proof (ravel_bound cn k K) as RB. rewrite pick_nth by (unfold Zlen in OL; lia). unfold at_index. now rewrite offsets_nth.
  - intros X V. rewrite (C X V). unfold type_eqb. destruct (h5type_dec u t); split; congruence.
Qed.

Lemma data_updated s s' p t d v f : data_at s p = Some (t, d, v) ->
  w_tree s' = map_obj p (fun o => match o_kind o with KData t' d' v' => mkObj (o_path o) (KData t' d' (f v')) (o_attrs o) | KGroup => o end) (w_tree s) ->
  data_at s' p = Some (t, d, f v) /\ only_at p s s'.
Proof.
  intros D T. split.
  - unfold data_at in *. rewrite T, find_obj_map by (intros []; cbn; destruct o_kind; reflexivity). destruct (find_obj (w_tree s) p) as [o|]; [|discriminate].
    destruct (o_kind o) as [|t0 d0 v0]; [discriminate|]. injection D as -> -> ->. reflexivity.
  - intros q N. rewrite T. apply find_obj_map_other; [|congruence]. intros []; cbn; destruct o_kind; reflexivity.
Qed.

(** updateData: the elements of the region become those of the buffer, all others
    stay; if it fails nothing is changed. *)
Theorem C72_update p u d v dims buf start counts st cn s : between_calls s ->
  data_at s p = Some (u, d, v) -> Zlen v = prodZ d -> Forall is_i32 d -> d <> [] -> fits d st (repeat 1 (List.length d)) cn -> List.length dims = List.length d ->
  given start (repeat 0 (List.length d)) st -> given counts (zip_sub dims st) cn -> prodZ cn <= Zlen buf ->
  exists r s', update_data p dims buf start counts s = Ok (r, s') /\ between_calls s' /\
    (r = true -> only_at p s s' /\ (forall m, attr_at s' p m = attr_at s p m) /\ exists v', data_at s' p = Some (u, d, v') /\ Zlen v' = Zlen v /\
       (forall k, within k cn -> at_index d v' (place st (repeat 1 (List.length d)) k) = nth (Z.to_nat (ravel cn k)) buf (ENum 0)) /\
       (forall i, within i d -> (forall k, within k cn -> i <> place st (repeat 1 (List.length d)) k) -> at_index d v' i = at_index d v i)) /\
    (r = false -> w_tree s' = w_tree s) /\
    (no_faults s -> 0 <= m_file s -> w_ro s = false -> r = true).
Proof.
  intros B D HV HI HN HF LD G1 G2 BL. set (sd := repeat 1 (List.length d)) in *. destruct (fits_length _ _ _ _ HF) as (L1 & L2 & L3 & F1 & F2 & F3 & F4).
  destruct (wp_update u p d st sd cn v HV HF HI HN dims buf start counts s (fun (r : bool) s1 =>
      (if r then w_ro s = false /\ w_tree s1 = updated p d st sd cn s buf else w_tree s1 = w_tree s) /\
      (no_faults s -> 0 <= m_file s -> w_ro s = false -> r = true))) as (r & s' & E & T & C); auto.
  { now apply between_ok. }
  exists r, s'. split; [exact E|]. split; [now apply (after_call (UpdateData p dims buf start counts) _ s r s' B eq_refl eq_refl)|].
  split; [|split; [intros ->; exact T|exact C]]. intros ->. destruct T as (_ & T). unfold updated in T.
  destruct (data_updated s s' p u d v (fun v0 => put v0 (offsets d (zip3 st sd cn)) buf) D T) as (D' & O). split; [exact O|].
  split; [unfold attr_at; rewrite T; intros m; rewrite find_obj_map by (intros []; cbn; destruct o_kind; reflexivity);
          destruct (find_obj (w_tree s) p) as [o|]; [|reflexivity]; destruct (o_kind o); reflexivity|].
  eexists. split; [exact D'|]. split; [unfold Zlen; now rewrite put_len|].
  assert (OL : Zlen (offsets d (zip3 st sd cn)) = prodZ cn).
  { apply offsets_len; auto. eapply Forall_impl; [|exact F1]. cbn. lia. }
  assert (IN : forall o, In o (offsets d (zip3 st sd cn)) -> 0 <= o < Zlen v).
  { intros o Ho. destruct (offsets_in _ _ _ _ _ HF Ho) as (k & K & ->). rewrite HV. apply ravel_bound. now apply (place_within d st sd cn). }
  split.
  - intros k K. pose proof (ravel_bound cn k K) as RB. unfold at_index. rewrite <- (offsets_nth d st sd cn k) by auto.
    apply put_same; [now apply offsets_nodup|apply Forall_forall; exact IN|unfold Zlen in OL; lia|unfold Zlen in *; lia].
  - intros i I NO. pose proof (ravel_bound d i I) as RB. unfold at_index. apply put_other.
    + rewrite Z2Nat.id by lia. intros Ho. destruct (offsets_in _ _ _ _ _ HF Ho) as (k & K & EQ). apply (NO k K).
      apply (ravel_inj d); auto. now apply (place_within d st sd cn).
    + apply Forall_forall. intros o Ho. apply IN in Ho. lia.
Qed.

(** setAttribute. *)
Theorem C72_set_attribute t p n vals s : between_calls s -> vals <> [] -> Zlen vals < 2 ^ 31 ->
  exists r s', set_attribute t p n vals s = Ok (r, s') /\ between_calls s' /\ only_attr p n s s' /\
    (r = true -> settable s p n /\ attr_at s' p n = Some (mkAttr n t vals)) /\
    (r = false -> attr_at s' p n = attr_at s p n \/ settable s p n /\ attr_at s' p n = Some (mkAttr n t (repeat (zero_of t) (List.length vals)))) /\
    (no_faults s -> (r = true <-> settable s p n)).
Proof.
  intros B N L. destruct (wp_set_attribute t p n vals s (between_ok s B) N L) as (r & s' & E & P & W). exists r, s'. split; [exact E|].
  split; [now apply (after_call (SetAttribute t p n vals) _ s r s' B eq_refl eq_refl)|]. destruct r.
  - destruct W as (C & A & W). split; [exact W|]. split; [auto|]. split; [discriminate|tauto].
  - destruct W as (W & F). split; [destruct W as [T|(C & _ & W)]; [apply (attr_unchanged s s' p n T)|exact W]|]. split; [discriminate|].
    split; [|intros X; split; [discriminate|intros C; destruct (F X C)]]. intros _. destruct W as [T|(C & A & _)]; [left; now apply attr_at_tree|auto].
Qed.

(** attribute<T> of an attribute that has one value. *)
Theorem C72_attribute t p n s : between_calls s -> (forall x, attr_at s p n = Some x -> exists v, a_vals x = [v]) ->
  exists r ok s', attribute t p n s = Ok ((r, ok), s') /\ between_calls s' /\ w_tree s' = w_tree s /\
    (ok = true -> exists u v, attr_at s p n = Some (mkAttr n u [v]) /\ r = Some v) /\
    (no_faults s -> 0 <= m_file s -> (ok = true <-> exists v, attr_at s p n = Some (mkAttr n t [v]))).
Proof.
  intros B O. destruct (wp_attribute t p n s (between_ok s B) O) as ([r ok] & s' & E & P & T & A & C). exists r, ok, s'. split; [exact E|].
  split; [now apply (after_call (Attribute t p n) _ s (r, ok) s' B eq_refl eq_refl)|]. split; [exact T|]. cbn [fst snd] in *.
  assert (NM : forall x, attr_at s p n = Some x -> a_name x = n).
  { intros x. unfold attr_at. destruct (find_obj (w_tree s) p); [|discriminate]. unfold find_attr. intros F. apply find_some in F as [_ F]. now apply String.eqb_eq. }
  split.
  - intros K. destruct (A K) as (x & AX & ->). destruct (O x AX) as (v & V). exists (a_type x), v. rewrite V. split; [|reflexivity].
    rewrite AX. destruct x as [xn xt xv]. pose proof (NM _ AX) as NX. cbn in *. congruence.
  - intros X V. specialize (C X V). destruct (attr_at s p n) as [x|] eqn:AX.
    + destruct (O x eq_refl) as (v & EV). unfold type_eqb in C. destruct (h5type_dec (a_type x) t) as [ET|ET]; injection C as -> ->.
      * split; [|auto]. intros _. exists v. destruct x as [xn xt xv]. pose proof (NM _ eq_refl) as NX. cbn in *. congruence.
      * split; [discriminate|]. intros (v' & EX). injection EX as ->. cbn in ET. contradiction.
    + injection C as -> ->. split; [discriminate|]. intros (v & F). discriminate.
Qed.

(** Setting a value and getting it. *)
Theorem C72_attribute_round_trip t u p n v s : between_calls s -> attr_at s p n = None ->
  exists r x ok s', (do r <- set_attribute t p n [v]; do (x, ok) <- attribute u p n; ret (r, x, ok)) s = Ok (r, x, ok, s') /\
    (r = true -> ok = true -> x = Some v) /\
    (no_faults s -> settable s p n -> r = true /\ (ok = true <-> t = u)).
Proof.
  intros B F. destruct (C72_set_attribute t p n [v] s B ltac:(discriminate) ltac:(cbn; lia)) as (r & s1 & E & B1 & _ & R1 & R2 & R3).
  assert (PR : m_file s1 = m_file s /\ (no_faults s -> no_faults s1)).
  { destruct (wp_set_attribute t p n [v] s (between_ok s B) ltac:(discriminate) ltac:(cbn; lia)) as (r0 & s0 & E0 & P0 & _). rewrite E in E0. injection E0 as <- <-.
    split; [apply P0|]. now apply (pres_faults _ _ _ P0). }
  destruct (C72_attribute u p n s1 B1) as (x & ok & s' & E' & _ & _ & A1 & A2).
  { intros x AX. destruct r; [destruct (R1 eq_refl) as (_ & A); rewrite A in AX; injection AX as <-; cbn; eauto|].
    destruct (R2 eq_refl) as [A|(_ & A)]; rewrite A in AX; [congruence|]. injection AX as <-. cbn. eauto. }
  exists r, x, ok, s'. split; [unfold pbind; rewrite E; cbn [bind]; rewrite E'; reflexivity|]. split.
  - intros -> ->. destruct (A1 eq_refl) as (u0 & v0 & A & ->). destruct (R1 eq_refl) as (_ & A'). rewrite A in A'. congruence.
  - intros X ST. destruct (R3 X) as (_ & R3'). specialize (R3' ST). split; [exact R3'|]. destruct (R1 R3') as (_ & A).
    rewrite (A2 (proj2 PR X)) by (rewrite (proj1 PR); apply ST). rewrite A. split; [intros (v0 & E0); congruence|]. intros ->. eauto.
Qed.

(** createDataSet: a new data set of zeros. *)
Theorem C72_create t p n dims chunk s : between_calls s -> dims <> [] -> Forall is_i32 dims ->
  exists r s', create_data_set t p n dims chunk s = Ok (r, s') /\ between_calls s' /\ only_at (p ++ [n]) s s' /\
    (r = true -> creatable s p n dims /\ data_at s' (p ++ [n]) = Some (t, dims, repeat (zero_of t) (Z.to_nat (prodZ dims)))) /\
    (r = false -> w_tree s' = w_tree s) /\
    (no_faults s -> chunk_fits chunk dims -> (r = true <-> creatable s p n dims)).
Proof.
  intros B N I. destruct (wp_create t p n dims chunk s (between_ok s B) N I) as (r & s' & E & P & W). exists r, s'. split; [exact E|].
  split; [now apply (after_call (CreateDataSet t p n dims chunk) _ s r s' B eq_refl eq_refl)|]. destruct r.
  - destruct W as (C & T). split; [exact (only_new _ _ _ T)|]. split; [intros _; split; [exact C|eapply data_new; [exact T|apply C]]|]. split; [discriminate|tauto].
  - destruct W as (T & F). split; [now apply only_same|]. split; [discriminate|]. split; [auto|]. intros X CF. split; [discriminate|]. intros C. destruct (F X CF C).
Qed.

(** createGroup. *)
Theorem C72_create_group p s : between_calls s ->
  exists r s', create_group p s = Ok (r, s') /\ between_calls s' /\
    (r = true -> only_at p s s' /\ is_group (w_tree s') p = true /\ group_creatable s p) /\ (r = false -> w_tree s' = w_tree s) /\
    (no_faults s -> (r = true <-> group_creatable s p)).
Proof.
  intros B. destruct (wp_create_group p s (between_ok s B)) as (r & s' & E & P & W & C & F). exists r, s'. split; [exact E|].
  split; [now apply (after_call (CreateGroup p) _ s r s' B eq_refl eq_refl)|]. split; [|split; [intros ->; exact W|intros X; split; auto]]. intros ->.
  specialize (C eq_refl). split; [exact (only_new _ _ (mkObj p KGroup []) W)|]. split; [|exact C]. destruct C as (_ & _ & _ & _ & FR).
  unfold is_group. rewrite W. pose proof (find_obj_new (w_tree s) (mkObj p KGroup []) FR) as FN. cbn [o_path] in FN. rewrite FN. reflexivity.
Qed.

(** children of a group: the names of what is in it. *)
Theorem C72_children p s : between_calls s -> no_faults s -> 0 <= m_file s ->
  exists l ok s', children p s = Ok ((l, ok), s') /\ between_calls s' /\ w_tree s' = w_tree s /\ (ok = true <-> is_group (w_tree s) p = true) /\
    (ok = true -> forall n, In n l <-> find_obj (w_tree s) (p ++ [n]) <> None).
Proof.
  intros B X V. destruct (wp_children p s (between_ok s B) X V) as ([l ok] & s' & E & T & W). exists l, ok, s'. split; [exact E|].
  split; [now apply (after_call (Children p) _ s (l, ok) s' B eq_refl eq_refl)|]. split; [exact T|]. destruct (is_group (w_tree s) p); injection W as -> ->.
  - split; [tauto|]. intros _ n. rewrite child_names_in. apply find_obj_in.
  - split; [split; discriminate|discriminate].
Qed.

(** allDataSets: the data sets below a group, or nothing if the library fails.
    The names in a file are distinct. *)
Theorem C72_all_data_sets p s : between_calls s -> NoDup (map o_path (w_tree s)) ->
  exists l s', all_data_sets p s = Ok (l, s') /\ between_calls s' /\ w_tree s' = w_tree s /\
    (l = [] \/ forall q, In q l <-> exists x, data_at s (p ++ q) = Some x) /\
    (no_faults s -> 0 <= m_file s -> is_group (w_tree s) p = true -> forall q, In q l <-> exists x, data_at s (p ++ q) = Some x).
Proof.
  intros B ND. destruct (wp_all_data_sets p s (between_ok s B)) as (l & s' & E & T & W & F). exists l, s'. split; [exact E|].
  split; [now apply (after_call (AllDataSets p) _ s l s' B eq_refl eq_refl)|]. split; [exact T|].
  assert (D : forall q, In q (data_below (w_tree s) p) <-> exists x, data_at s (p ++ q) = Some x).
  { intros q. rewrite (data_below_in _ _ _ ND). apply is_data_at. }
  split; [destruct W as [->| ->]; [now left|now right]|]. intros X V G. now rewrite (F X V G).
Qed.

(** setAttribute of a text. *)
Theorem C72_set_text p n x s : between_calls s ->
  exists r s', set_attribute_string p n x s = Ok (r, s') /\ between_calls s' /\ only_attr p n s s' /\
    (r = true -> settable s p n /\ attr_at s' p n = Some (mkAttr n TVarStr [EStr x])) /\
    (r = false -> attr_at s' p n = attr_at s p n \/ settable s p n /\ attr_at s' p n = Some (mkAttr n TVarStr [EStr ""])) /\
    (no_faults s -> (r = true <-> settable s p n)).
Proof.
  intros B. destruct (wp_set_text p n x s (between_ok s B)) as (r & s' & E & P & W). exists r, s'. split; [exact E|]. split.
  { destruct (C71_text p n x s B) as (_ & C). apply (C s'). cbn [run_api]. unfold drop, pbind. rewrite E. reflexivity. }
  destruct r.
  - destruct W as (C & A & W). split; [exact W|]. split; [auto|]. split; [discriminate|tauto].
  - destruct W as (W & F). split; [destruct W as [T|(C & _ & W)]; [apply (attr_unchanged s s' p n T)|exact W]|]. split; [discriminate|].
    split; [|intros X; split; [discriminate|intros C; destruct (F X C)]]. intros _. destruct W as [T|(C & A & _)]; [left; now apply attr_at_tree|auto].
Qed.

(** Setting a text and getting it. *)
Theorem C72_text_round_trip p n x s : between_calls s -> attr_at s p n = None ->
  exists r y ok s', (do r <- set_attribute_string p n x; do (y, ok) <- attribute_string p n; ret (r, y, ok)) s = Ok (r, y, ok, s') /\
    (r = true -> ok = true -> y = x) /\
    (no_faults s -> settable s p n -> r = true /\ ok = true).
Proof.
  intros B F. destruct (C72_set_text p n x s B) as (r & s1 & E & B1 & _ & R1 & R2 & R3).
  assert (PR : m_file s1 = m_file s /\ (no_faults s -> no_faults s1)).
  { destruct (wp_set_text p n x s (between_ok s B)) as (r0 & s0 & E0 & P0 & _). rewrite E in E0. injection E0 as <- <-.
    split; [apply P0|]. now apply (pres_faults _ _ _ P0). }
  destruct (wp_text p n s1 (between_ok s1 B1)) as ([y ok] & s' & E' & _ & _ & A1 & A2).
  { intros z AZ. assert (H : z = mkAttr n TVarStr [EStr x] \/ z = mkAttr n TVarStr [EStr ""]).
    { destruct r; [destruct (R1 eq_refl) as (_ & A); left; congruence|]. destruct (R2 eq_refl) as [A|(_ & A)]; [congruence|right; congruence]. }
    destruct H as [-> | ->]; cbn; (split; [eauto|discriminate]). }
  exists r, y, ok, s'. split; [unfold pbind; rewrite E; cbn [bind]; rewrite E'; reflexivity|]. cbn [fst snd] in *. split.
  - intros -> ->. destruct (A1 eq_refl) as (z & AZ & _ & VZ). destruct (R1 eq_refl) as (_ & A). rewrite A in AZ. injection AZ as <-. cbn in VZ. congruence.
  - intros X ST. destruct (R3 X) as (_ & R3'). specialize (R3' ST). split; [exact R3'|]. destruct (R1 R3') as (_ & A).
    apply (A2 (proj2 PR X)); [rewrite (proj1 PR); apply ST|]. rewrite A. eexists. split; reflexivity.
Qed.

(** dataType and attributeType without failures: the enumerator that stands for
    the type, if there is one. *)
Lemma dtype_found u (d : dtype) : file_type d = Some u ->
  match find (fun e => type_eqb u (fst e)) h5_to_dtype_map with Some e => snd e | None => DNone end = d.
Proof. destruct d; cbn; intros E; try discriminate; injection E as <-; reflexivity. Qed.
Theorem C72_data_type p s : between_calls s -> no_faults s -> 0 <= m_file s ->
  exists r s', data_type p s = Ok (r, s') /\ between_calls s' /\ w_tree s' = w_tree s /\
    (forall u d v k, data_at s p = Some (u, d, v) -> file_type k = Some u -> r = k) /\ (data_at s p = None -> r = DNone).
Proof.
  intros B X V. destruct (wp_data_type p s (between_ok s B) X V) as (r & s' & E & T & R). exists r, s'. split; [exact E|].
  split; [now apply (after_call (DataTypeOf p) _ s r s' B eq_refl eq_refl)|]. split; [exact T|]. split.
  - intros u d v k D K. rewrite D in R. rewrite R. now apply dtype_found.
  - intros D. now rewrite D in R.
Qed.
Theorem C72_attribute_type p n s : between_calls s -> no_faults s -> 0 <= m_file s ->
  exists r s', attribute_type p n s = Ok (r, s') /\ between_calls s' /\ w_tree s' = w_tree s /\
    (forall y k, attr_at s p n = Some y -> file_type k = Some (a_type y) -> r = k) /\
    (forall y, attr_at s p n = Some y -> a_type y = TVarStr -> r = DString) /\ (attr_at s p n = None -> r = DNone).
Proof.
  intros B X V. destruct (wp_attribute_type p n s (between_ok s B) X V) as (r & s' & E & T & R). exists r, s'. split; [exact E|].
  split; [now apply (after_call (AttributeType p n) _ s r s' B eq_refl eq_refl)|]. split; [exact T|]. split; [|split].
  - intros y k A K. rewrite A in R. rewrite R. destruct (a_type y); try (now apply dtype_found); destruct k; discriminate.
  - intros y A K. now rewrite A, K in R.
  - intros A. now rewrite A in R.
Qed.

Definition start_state (fault : Z -> bool) : world := nothing_open [] fault.
Definition quiet : Z -> bool := fun _ => false.

(** False: without counts, readData reads all elements that the strides reach. *)
Theorem C72_as_much_as_possible_refuted : exists l s',
  (do _ <- open_file false true; do _ <- write_data TI32 [] "d" [5] (map ENum [10; 11; 12; 13; 14]); read_data TI32 ["d"%string] 5 (Some [2]) None None)
    (start_state quiet) = Ok (Some l, s') /\ l = map ENum [10; 12] /\ fits [5] [0] [2] [3].
Proof. eexists _, _. split; [vm_compute; reflexivity|]. split; [reflexivity|]. repeat constructor; lia. Qed.

(** False: an impossible region is refused. *)
Theorem C72_bad_region_refuted : exists l s',
  (do _ <- open_file false true; do _ <- write_data TI32 [] "d" [2; 2] (map ENum [1; 2; 3; 4]); read_data TI32 ["d"%string] 4 (Some [0; 1]) (Some [1; 1]) (Some [4; 1]))
    (start_state quiet) = Ok (Some l, s') /\ l = map ENum [1; 2; 3; 4].
Proof. eexists _, _. split; [vm_compute; reflexivity|]. reflexivity. Qed.

(** False: data of another type are never read. *)
Theorem C72_other_type_refuted : exists fault l s',
  (do _ <- open_file false true; do _ <- write_data TF64 [] "d" [2] (map ENum [1; 2]); read_data TI32 ["d"%string] 2 None None None)
    (start_state fault) = Ok (Some l, s').
Proof. exists (fun k => k =? 11). eexists _, _. vm_compute. reflexivity. Qed.

(** False: a write that fails leaves the file as it was. *)
Theorem C72_failed_write_refuted : exists fault s',
  (do _ <- open_file false true; write_data TI32 [] "d" [2] (map ENum [1; 2])) (start_state fault) = Ok (false, s') /\
  data_at s' ["d"%string] = Some (TI32, [2], map ENum [0; 0]).
Proof. exists (fun k => k =? 4). eexists. split; vm_compute; reflexivity. Qed.

(** False: an attribute that was not set is not there: an empty list is refused
    but makes the attribute. *)
Theorem C72_empty_attribute_refuted : exists s',
  (do _ <- open_file false true; do r <- set_attribute TI32 [] "a" []; do x <- attribute TI32 [] "a"; ret (r, x)) (start_state quiet) = Ok (false, (None, true), s').
Proof. eexists. vm_compute. reflexivity. Qed.

(** False: a failure while listing a group is reported; the first name is then
    read from memory that was never written, or a name comes twice. *)
Theorem C72_children_refuted :
  (exists fault why, (do _ <- open_file false true; do _ <- create_group ["a"%string]; children []) (start_state fault) = UB why) /\
  (exists fault s', (do _ <- open_file false true; do _ <- create_group ["a"%string]; do _ <- create_group ["b"%string]; children []) (start_state fault) =
     Ok ((["a"; "a"]%string, true), s')).
Proof.
  split; [exists (fun k => k =? 5)|exists (fun k => k =? 8)]; eexists; vm_compute; reflexivity.
Qed.

(** A file with a data set and an attribute, as it is between two calls: the
    theorems above apply to it. *)
Definition some_file : world := mkW
  [mkObj [] KGroup []; mkObj ["g"%string] KGroup []; mkObj ["g"; "d"]%string (KData TU16 [3; 4] (map ENum [1; 2; 3; 4; 5; 6; 7; 8; 9; 10; 11; 12])) [mkAttr "a" TI32 [ENum 7]]]
  false [(1, HFile)] 2 40 (fun k => k =? 55) 1 1 false 0.
Example ex_reachable : exists s', (do _ <- open_file false true; do _ <- create_group ["g"%string];
  do _ <- write_data TU16 ["g"%string] "d" [3; 4] (map ENum [1; 2; 3; 4; 5; 6; 7; 8; 9; 10; 11; 12]); set_attribute TI32 ["g"; "d"]%string "a" [ENum 7]) (start_state quiet) = Ok (true, s') /\
  w_tree s' = w_tree some_file /\ w_live s' = w_live some_file /\ m_file s' = m_file some_file.
Proof. eexists. split; [vm_compute; reflexivity|]. auto. Qed.
Example ex_some_file : between_calls some_file /\ whole some_file ["g"; "d"]%string /\ NoDup (map o_path (w_tree some_file)) /\
  creatable some_file ["g"%string] "e" [2; 2] /\ settable some_file ["g"%string] "b" /\ group_creatable some_file ["h"%string] /\ ~ no_faults some_file.
Proof.
  unfold between_calls, creatable, settable, group_creatable, whole, some_file. cbn. repeat split; try lia; try discriminate; try reflexivity.
  - repeat constructor. cbn. tauto.
  - destruct H as [<-|[]]; cbn; lia.
  - destruct H as [<-|[]]; cbn; lia.
  - unfold data_at in H. cbn in H. injection H as <- <- <-. reflexivity.
  - unfold data_at in H. cbn in H. injection H as <- <- <-. repeat constructor; lia.
  - repeat constructor; cbn; intuition congruence.
  - repeat constructor; lia.
  - intros H. specialize (H 55). discriminate.
Qed.
(** A region with strides, as theorem [C72_region] reads it. *)
Example ex_region : exists s', read_data TU16 ["g"; "d"]%string 4 (Some [2; 3]) None (Some [2; 2]) some_file = Ok (Some (map ENum [1; 4; 9; 12]), s') /\
  fits [3; 4] [0; 0] [2; 3] [2; 2] /\ place [0; 0] [2; 3] [1; 1] = [2; 3] /\ ravel [3; 4] [2; 3] = 11.
Proof. eexists. split; [vm_compute; reflexivity|]. split; [repeat constructor; lia|]. split; reflexivity. Qed.
Example ex_update : exists s', update_data ["g"; "d"]%string [3; 4] (map ENum [50; 60; 70; 80]) (Some [1; 1]) (Some [2; 2]) some_file = Ok (true, s') /\
  data_at s' ["g"; "d"]%string = Some (TU16, [3; 4], map ENum [1; 2; 3; 4; 5; 50; 60; 8; 9; 70; 80; 12]) /\ fits [3; 4] [1; 1] (repeat 1 2) [2; 2].
Proof. eexists. split; [vm_compute; reflexivity|]. split; [reflexivity|]. repeat constructor; lia. Qed.

Print Assumptions C72_write.
Print Assumptions C72_read.
Print Assumptions C72_round_trip.
Print Assumptions C72_region.
Print Assumptions C72_update.
Print Assumptions C72_set_attribute.
Print Assumptions C72_attribute.
Print Assumptions C72_attribute_round_trip.
Print Assumptions C72_create.
Print Assumptions C72_create_group.
Print Assumptions C72_children.
Print Assumptions C72_all_data_sets.
Print Assumptions C72_as_much_as_possible_refuted.
Print Assumptions C72_bad_region_refuted.
Print Assumptions C72_other_type_refuted.
Print Assumptions C72_failed_write_refuted.
Print Assumptions C72_empty_attribute_refuted.
Print Assumptions C72_children_refuted.
Print Assumptions C72_set_text.
Print Assumptions C72_text_round_trip.
Print Assumptions C72_data_type.
Print Assumptions C72_attribute_type.
