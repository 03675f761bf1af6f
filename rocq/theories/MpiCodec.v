(** cereal round trips. *)
From Coq Require Import String ZArith List Lia Bool Sorting.Sorted.
From Verif Require Import Base BaseFacts BlockModel StreamModel StreamSpec StreamProofs SectorModel
  SectorProofs ThreadedModel MultipassModel MultipassProofs MpiModel.
Import ListNotations.
Open Scope Z_scope.
Local Arguments skipn : simpl never.
Local Arguments firstn : simpl never.
Local Arguments Z.mul : simpl never.
Local Arguments Z.add : simpl never.
Local Arguments Z.pow : simpl never.

(** [d] undoes [e] on [x], whatever follows in the stream. *)
Definition codec {A B} (e : A -> bytes) (d : bytes -> outcome (B * bytes)) (x : A) (y : B) : Prop :=
  forall r, d (e x ++ r) = Ok (y, r).

Lemma put_le_bytes k v : put k v = le_bytes k v.
Proof. reflexivity. Qed.

Lemma put_length k v : List.length (put k v) = k.
Proof. rewrite put_le_bytes. apply le_bytes_length. Qed.

Lemma le_put k v : le (put k v) = v mod 256 ^ Z.of_nat k.
Proof.
  revert v. induction k as [|k IH]; intros v; cbn [put le].
  - change (256 ^ Z.of_nat 0) with 1. now rewrite Z.mod_1_r.
  - rewrite IH. rewrite Nat2Z.inj_succ, Z.pow_succ_r by lia.
    rewrite Z.rem_mul_r by lia. lia.
Qed.

Lemma take_put k v r : firstn k (put k v ++ r) = put k v.
Proof.
  pose proof (put_length k v) as H. rewrite firstn_app, H, Nat.sub_diag.
  change (firstn 0 r) with (@nil Z). rewrite app_nil_r. apply firstn_all2. lia.
Qed.
Lemma drop_put k v r : skipn k (put k v ++ r) = r.
Proof.
  pose proof (put_length k v) as H. rewrite skipn_app, H, Nat.sub_diag.
  rewrite skipn_all2 by lia. reflexivity.
Qed.

Lemma get_put k v : codec (put k) (get k) v (v mod 256 ^ Z.of_nat k).
Proof.
  intros r. unfold get. rewrite app_length, put_length.
  destruct (Nat.ltb_spec (k + List.length r) k); [lia|]. now rewrite take_put, drop_put, le_put.
Qed.

Lemma get_put_small k v : 0 <= v < 256 ^ Z.of_nat k -> codec (put k) (get k) v v.
Proof. intros H r. rewrite get_put, Z.mod_small by auto. reflexivity. Qed.

Lemma get_put_signed k v : (0 < k)%nat -> - (256 ^ Z.of_nat k / 2) <= v < 256 ^ Z.of_nat k / 2 ->
  codec (put k) (get_signed k) v v.
Proof.
  intros Hk H r. unfold get_signed. rewrite get_put. cbn [bind].
  destruct k as [|k]; [lia|].
  assert (E : exists m, 256 ^ Z.of_nat (S k) = 2 * m /\ 0 < m).
  { exists (128 * 256 ^ Z.of_nat k). rewrite Nat2Z.inj_succ, Z.pow_succ_r by lia.
    pose proof (Z.pow_pos_nonneg 256 (Z.of_nat k)). lia. }
  destruct E as (m & E & Hm). rewrite E in *. rewrite Z.mul_comm, Z.div_mul in * by lia.
  do 2 f_equal. destruct (Z_lt_ge_dec v 0) as [Hv|Hv].
  - assert (v mod (m * 2) = v + m * 2) as ->.
    { rewrite <- (Z.mod_small (v + m * 2) (m * 2)) by lia.
      rewrite <- (Z.mul_1_l (m * 2)) at 2. now rewrite Z.mod_add by lia. }
    destruct (Z.ltb_spec (v + m * 2) m); f_equal; lia.
  - rewrite Z.mod_small by lia. destruct (Z.ltb_spec v m); [reflexivity|lia].
Qed.

Lemma get_n_ok {A B} (e : A -> bytes) d (l : list A) (l' : list B) : Forall2 (codec e d) l l' ->
  forall r, get_n d (List.length l) (flat_map e l ++ r) = Ok (l', r).
Proof.
  induction 1 as [|x y l l' H HF IH]; intros r; cbn [List.length get_n flat_map app]; auto.
  rewrite <- app_assoc, H. cbn [bind]. rewrite IH. reflexivity.
Qed.

Lemma get_list_ok {A B} (e : A -> bytes) d (l : list A) (l' : list B) : Zlen l < 2 ^ 64 ->
  Forall2 (codec e d) l l' -> codec (put_list e) (get_list d) l l'.
Proof.
  intros HL H r. unfold put_list, get_list. rewrite <- app_assoc, get_put_small.
  2: { pose proof (Zlen_nonneg l). change (256 ^ Z.of_nat 8) with (2 ^ 64). lia. }
  cbn [bind]. unfold Zlen. rewrite Nat2Z.id. apply get_n_ok; auto.
Qed.

Lemma map_put_last {A} k (a : A) m : (forall k' b, In (k', b) m -> k' < k) -> map_put k a m = m ++ [(k, a)].
Proof.
  induction m as [|[k' b] m IH]; cbn [map_put app]; intros H; auto.
  pose proof (H k' b (or_introl eq_refl)). destruct (Z.ltb_spec k k'); [lia|].
  destruct (Z.eqb_spec k k'); [lia|]. f_equal. apply IH. intros. eapply H. right; eauto.
Qed.

Lemma emplace_all {A} (l m : list (Z * A)) : ordered (m ++ l) -> fold_left emplace l m = m ++ l.
Proof.
  revert m. induction l as [|[k a] l IH]; intros m H; cbn [fold_left]; [now rewrite app_nil_r|].
  assert (Hlt : forall k' b, In (k', b) m -> k' < k).
  { unfold ordered in H. rewrite map_app in H. cbn [map fst] in H. intros k' b Hin.
    clear IH. induction m as [|[x y] m IHm]; [contradiction|]. cbn [map app fst] in H.
    apply StronglySorted_inv in H as [H1 H2]. destruct Hin as [E|Hin].
    - injection E as -> ->. rewrite Forall_forall in H2. apply H2. apply in_app_iff. right. now left.
    - auto. }
  unfold emplace at 2. cbn [fst snd].
  assert (map_get k m = None) as ->.
  { apply map_get_none. intros Hin. apply in_map_iff in Hin as ([k' b] & <- & Hin). specialize (Hlt _ _ Hin). cbn [fst] in Hlt. lia. }
  rewrite map_put_last by auto. rewrite IH; rewrite <- app_assoc; auto.
Qed.

Lemma Forall2_weaken {A B} (R S : A -> B -> Prop) l m : (forall x y, R x y -> S x y) ->
  Forall2 R l m -> Forall2 S l m.
Proof. intros H. induction 1; constructor; auto. Qed.

Lemma get_map_ok {V W} (e : V -> bytes) d (m : list (Z * V)) (m' : list (Z * W)) :
  Zlen m < 2 ^ 64 -> ordered m ->
  Forall2 (fun x y => fst x = fst y /\ 0 <= fst x < 2 ^ 32 /\ codec e d (snd x) (snd y)) m m' ->
  codec (put_map e) (get_map d) m m'.
Proof.
  intros HL HO H r. unfold put_map, get_map.
  rewrite (get_list_ok (put_pair e) (get_pair d) m m'); auto.
  - cbn [bind]. rewrite emplace_all; auto. cbn [app]. unfold ordered in *.
    replace (map fst m') with (map fst m); auto. clear - H. induction H as [|x y m m' (E & _) _ IH]; cbn [map]; congruence.
  - eapply Forall2_weaken; [|exact H]. intros [k v] [k' w] (E & Hk & Hc) r'. cbn [fst snd] in *. subst k'.
    unfold put_pair, get_pair. cbn [fst snd]. rewrite <- app_assoc, get_put_small.
    + cbn [bind]. rewrite Hc. reflexivity.
    + change (256 ^ Z.of_nat 4) with (2 ^ 32). lia.
Qed.

(** ** Locations and scan maps *)

Definition small_loc (l : loc) : Prop :=
  0 <= l_sector l < 4 /\ Z.of_nat (l_stream l) < 2 ^ 31 /\ 0 <= l_offset l < 2 ^ 63.

(** What arrives for a location. *)
Definition raw (l : option loc) : Z * Z * Z :=
  match l with Some l => (l_sector l, Z.of_nat (l_stream l), l_offset l) | None => (-1, -1, 0) end.

Lemma loc_ok l : match l with Some l => small_loc l | None => True end -> codec put_loc get_loc l (raw l).
Proof.
  intros H r. unfold get_loc.
  assert (E : exists a b c, put_loc l = put 2 a ++ put 4 b ++ put 8 c /\ raw l = (a, b, c) /\
     -1 <= a < 4 /\ -1 <= b < 2 ^ 31 /\ 0 <= c < 2 ^ 63).
  { destruct l as [l|]; cbn [put_loc raw].
    - destruct H as (H1 & H2 & H3). do 3 eexists. split; [reflexivity|]. repeat split; try reflexivity; lia.
    - do 3 eexists. split; [reflexivity|]. repeat split; try reflexivity; lia. }
  destruct E as (a & b & c & -> & -> & Ha & Hb & Hc). rewrite <- !app_assoc.
  rewrite get_put_signed; [|lia|change (256 ^ Z.of_nat 2 / 2) with 32768; lia]. cbn [bind].
  rewrite get_put_signed; [|lia|change (256 ^ Z.of_nat 4 / 2) with (2 ^ 31); lia]. cbn [bind].
  rewrite get_put_signed; [|lia|change (256 ^ Z.of_nat 8 / 2) with (2 ^ 63); lia]. reflexivity.
Qed.

Definition small_fm (fm : fmap) : Prop :=
  Zlen fm = 4 /\ forall l, In (Some l) fm -> small_loc l.

Lemma locs_ok fm : small_fm fm -> codec put_locs get_locs fm (map raw fm).
Proof.
  intros [HL H] r. unfold put_locs, get_locs. assert (List.length fm = 4%nat) as <- by (unfold Zlen in HL; lia).
  apply get_n_ok. clear HL. induction fm as [|l fm IH]; cbn [map]; constructor.
  - apply loc_ok. destruct l; auto. apply H. now left.
  - apply IH. intros l' Hl. apply H. now right.
Qed.

Definition small_map (m : scanmap) : Prop :=
  Zlen m < 2 ^ 32 /\ forall fr, In fr m -> Zlen fr < 2 ^ 64 /\ ordered fr /\
    forall fn fm, In (fn, fm) fr -> 0 <= fn < 2 ^ 32 /\ small_fm fm.

(** The partial map as it arrives. *)
Definition raw_frames (fr : list (Z * fmap)) : list (Z * list (Z * Z * Z)) :=
  map (fun x => (fst x, map raw (snd x))) fr.
Definition raw_map (pm : list (Z * list (Z * fmap))) : list (Z * list (Z * list (Z * Z * Z))) :=
  map (fun x => (fst x, raw_frames (snd x))) pm.

Lemma partial_keys {A} (m : list (list A)) i k fr : In (k, fr) (partial_map i m) ->
  i <= k < i + Zlen m /\ fr <> [] /\ nth_error m (Z.to_nat (k - i)) = Some fr.
Proof.
  revert i. induction m as [|x m IH]; intros i H; [contradiction|]. cbn [partial_map] in H.
  assert (Ht : In (k, fr) (partial_map (i + 1) m) -> i <= k < i + Zlen (x :: m) /\ fr <> [] /\ nth_error (x :: m) (Z.to_nat (k - i)) = Some fr).
  { intros Hin. destruct (IH _ Hin) as (H1 & H2 & H3). rewrite Zlen_cons. repeat split; auto; try lia.
    replace (Z.to_nat (k - i)) with (S (Z.to_nat (k - (i + 1)))) by lia. exact H3. }
  destruct x as [|y x]; auto. destruct H as [H|H]; auto. injection H as <- <-.
  rewrite Zlen_cons. pose proof (Zlen_nonneg m). repeat split; try lia; [discriminate|].
  rewrite Z.sub_diag. reflexivity.
Qed.

Lemma partial_ordered {A} (m : list (list A)) i : ordered (partial_map i m).
Proof.
  revert i. induction m as [|x m IH]; intros i; cbn [partial_map]; [constructor|].
  destruct x as [|y x]; auto. unfold ordered. cbn [map fst]. constructor; [apply IH|].
  apply Forall_forall. intros k Hk. apply in_map_iff in Hk as ([k' fr] & <- & Hin).
  apply partial_keys in Hin as (H & _). cbn [fst]. lia.
Qed.

Lemma partial_length {A} (m : list (list A)) i : Zlen (partial_map i m) <= Zlen m.
Proof.
  revert i. induction m as [|x m IH]; intros i; cbn [partial_map]; [apply Z.le_refl|]. specialize (IH (i + 1)).
  destruct x; rewrite ?Zlen_cons in *; lia.
Qed.

Lemma scan_map_ok m : small_map m ->
  codec serialize_scan_map (get_map (get_map get_locs)) m (raw_map (partial_map 0 m)).
Proof.
  intros [HL H] r. unfold serialize_scan_map.
  apply get_map_ok; [pose proof (partial_length m 0); lia|apply partial_ordered|].
  unfold raw_map. assert (HF : Forall (fun x => 0 <= fst x < 2 ^ 32 /\ In (snd x) m) (partial_map 0 m)).
  { apply Forall_forall. intros [k fr] Hin. apply partial_keys in Hin as (H1 & _ & H2). cbn [fst snd].
    split; [lia|]. eapply nth_error_In; eauto. }
  induction HF as [|[k fr] pm [Hk Hin] _ IH]; cbn [map]; constructor; auto. cbn [fst snd] in *.
  split; auto. split; auto. destruct (H _ Hin) as (H1 & H2 & H3). apply get_map_ok; auto.
  unfold raw_frames. clear - H3. induction fr as [|[fn fm] fr IH]; cbn [map]; constructor.
  - cbn [fst snd]. destruct (H3 fn fm (or_introl eq_refl)). split; auto. split; auto. now apply locs_ok.
  - apply IH. intros. apply H3. now right.
Qed.

(** ** Events *)

Definition small_events (ev : list (list (list Z))) : Prop :=
  Zlen ev < 2 ^ 32 /\ forall fr, In fr ev -> Zlen fr < 2 ^ 64 /\
    forall l, In l fr -> Zlen l < 2 ^ 64 /\ Forall (fun v => 0 <= v < 2 ^ 32) l.

Lemma Forall2_refl {A} (R : A -> A -> Prop) l : (forall x, In x l -> R x x) -> Forall2 R l l.
Proof. intros H. induction l as [|x l IH]; constructor; [apply H; now left|apply IH; intros; apply H; now right]. Qed.

Lemma events_ok ev : small_events ev -> codec serialize_events load_events ev (partial_map 0 ev).
Proof.
  intros [HL H] r. unfold serialize_events, load_events.
  apply get_map_ok; [pose proof (partial_length ev 0); lia|apply partial_ordered|].
  apply Forall2_refl. intros [k fr] Hin. apply partial_keys in Hin as (H1 & _ & H2). cbn [fst snd].
  split; auto. split; [lia|]. apply nth_error_In in H2. destruct (H _ H2) as [H3 H4].
  apply get_list_ok; auto. apply Forall2_refl. intros l Hl. destruct (H4 _ Hl) as [H5 H6].
  apply get_list_ok; auto. apply Forall2_refl. intros v Hv. rewrite Forall_forall in H6.
  apply get_put_small. change (256 ^ Z.of_nat 4) with (2 ^ 32). auto.
Qed.
