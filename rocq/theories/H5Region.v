(** Regions of arrays: the offsets of a selection in terms of multi-indices. *)
From Coq Require Import String ZArith List Bool Lia.
From Verif Require Import Base BaseFacts H5LibModel H5DataSpec.
Import ListNotations.
Open Scope Z_scope.

Lemma prodZ_cons d l : prodZ (d :: l) = d * prodZ l.
Proof. reflexivity. Qed.
Lemma prodZ_pos l : Forall (fun d => 1 <= d) l -> 1 <= prodZ l.
Proof. unfold prodZ. induction 1; cbn; nia. Qed.

Lemma flat_map_nth {A} (f : Z -> list A) m c i j (d : A) : (forall k, 0 <= k < c -> Zlen (f k) = m) -> 0 <= i < c -> 0 <= j < m ->
  nth (Z.to_nat (i * m + j)) (flat_map f (zseq c)) d = nth (Z.to_nat j) (f i) d.
Proof.
  intros Hf Hi Hj. unfold zseq. rewrite <- (Z2Nat.id c) in Hf by lia. assert (Hi' : 0 <= i < Z.of_nat (Z.to_nat c)) by lia. clear Hi. revert Hf Hi'.
  generalize (Z.to_nat c) as n. clear c. intros n. 
  assert (G : forall n a, (forall k, a <= k < a + Z.of_nat n -> Zlen (f k) = m) -> forall i, 0 <= i < Z.of_nat n ->
     nth (Z.to_nat (i * m + j)) (flat_map f (map (fun k => a + Z.of_nat k) (seq 0 n))) d = nth (Z.to_nat j) (f (a + i)) d).
  { clear n i. induction n as [|n IH]; intros a Hf i Hi; [lia|]. cbn [seq map flat_map]. replace (a + Z.of_nat 0) with a by lia.
    assert (La : Zlen (f a) = m) by (apply Hf; lia). unfold Zlen in La. destruct (Z.eq_dec i 0) as [->|N].
    - rewrite app_nth1 by lia. now rewrite !Z.add_0_r.
    - rewrite app_nth2 by nia. replace (Z.to_nat (i * m + j) - List.length (f a))%nat with (Z.to_nat ((i - 1) * m + j)) by nia.
      rewrite <- seq_shift, map_map. rewrite (map_ext _ (fun k => (a + 1) + Z.of_nat k)) by (intros; lia).
      rewrite IH by (try lia; intros k Hk; apply Hf; lia). f_equal. f_equal. lia. }
  intros Hf Hi. specialize (G n 0 ltac:(intros; apply Hf; lia) i Hi). rewrite Z.add_0_l in G. rewrite <- G. reflexivity.
Qed.
Lemma flat_map_len {A} (f : Z -> list A) m c : (forall k, 0 <= k < c -> Zlen (f k) = m) -> 0 <= c -> Zlen (flat_map f (zseq c)) = c * m.
Proof.
  intros Hf Hc. unfold zseq. rewrite <- (Z2Nat.id c) in Hf by lia. replace (c * m) with (Z.of_nat (Z.to_nat c) * m) by (f_equal; lia). revert Hf. generalize (Z.to_nat c) as n. clear c Hc. intros n.
  assert (G : forall n a, (forall k, Z.of_nat a <= k < Z.of_nat (a + n) -> Zlen (f k) = m) -> Zlen (flat_map f (map Z.of_nat (seq a n))) = Z.of_nat n * m).
  { clear n. induction n as [|n IH]; intros a Hf; [reflexivity|]. cbn [seq map flat_map]. unfold Zlen in *. rewrite app_length, Nat2Z.inj_add.
    rewrite (Hf (Z.of_nat a)) by lia. rewrite IH by (intros k Hk; apply Hf; lia). lia. }
  intros Hf. apply (G n 0%nat). intros k Hk. apply Hf. lia.
Qed.

(** Multi-indices. *)
Lemma within_inv k c cn : within k (c :: cn) -> exists x l, k = x :: l /\ 0 <= x < c /\ within l cn.
Proof. intros H. inversion H; subst. eauto. Qed.
Lemma within_nil k : within k [] -> k = [].
Proof. intros H. now inversion H. Qed.
Lemma ravel_bound dims i : within i dims -> 0 <= ravel dims i < prodZ dims.
Proof.
  intros H. induction H as [|i d is ds Hi H IH]; [cbn; lia|]. cbn [ravel]. rewrite prodZ_cons. nia.
Qed.
Lemma ravel_inj dims : forall i j, within i dims -> within j dims -> ravel dims i = ravel dims j -> i = j.
Proof.
  induction dims as [|d ds IH]; intros i j Hi Hj E; [apply within_nil in Hi, Hj; congruence|].
  apply within_inv in Hi as (x & l & -> & Hx & Hl), Hj as (y & l' & -> & Hy & Hl'). cbn [ravel] in E.
  pose proof (ravel_bound ds _ Hl). pose proof (ravel_bound ds _ Hl').
  assert (x = y) by nia. subst y. f_equal. apply IH; auto. lia.
Qed.
Lemma unravel_ex dims : forall n, Forall (fun d => 0 <= d) dims -> 0 <= n < prodZ dims -> exists i, within i dims /\ ravel dims i = n.
Proof.
  induction dims as [|d ds IH]; intros n F Hn.
  - exists []. split; [constructor|]. cbn in *. lia.
  - inversion F; subst. rewrite prodZ_cons in Hn. assert (0 < prodZ ds) by nia.
    destruct (IH (n mod prodZ ds) H2) as (i & Hi & E); [apply Z.mod_pos_bound; lia|]. exists (n / prodZ ds :: i). split.
    + constructor; [|exact Hi]. split; [apply Z.div_pos; lia|apply Z.div_lt_upper_bound; nia].
    + cbn [ravel]. rewrite E. pose proof (Z.div_mod n (prodZ ds) ltac:(lia)). lia.
Qed.

Lemma offsets_len dims : forall st sd cn, List.length st = List.length dims -> List.length sd = List.length dims -> List.length cn = List.length dims ->
  Forall (fun c => 0 <= c) cn -> Zlen (offsets dims (zip3 st sd cn)) = prodZ cn.
Proof.
  induction dims as [|d ds IH]; intros [|b st] [|t sd] [|c cn] L1 L2 L3 F; try discriminate; [reflexivity|]. cbn [zip3 offsets].
  inversion F; subst. rewrite prodZ_cons. apply flat_map_len; [|assumption]. intros k _. unfold Zlen. rewrite map_length.
  change (Zlen (offsets ds (zip3 st sd cn)) = prodZ cn). apply IH; auto.
Qed.

Lemma offsets_nth dims : forall st sd cn k, List.length st = List.length dims -> List.length sd = List.length dims -> List.length cn = List.length dims ->
  within k cn -> nth (Z.to_nat (ravel cn k)) (offsets dims (zip3 st sd cn)) 0 = ravel dims (place st sd k).
Proof.
  induction dims as [|d ds IH]; intros [|b st] [|t sd] [|c cn] k L1 L2 L3 W; try discriminate; [apply within_nil in W; subst; reflexivity|].
  apply within_inv in W as (x & l & -> & H1 & H3).
  cbn [zip3 offsets ravel place]. pose proof (ravel_bound cn l H3) as RB.
  assert (F : Forall (fun c => 0 <= c) cn). { clear - H3. induction H3; constructor; auto. lia. }
  pose proof (offsets_len ds st sd cn ltac:(auto) ltac:(auto) ltac:(auto) F) as LL.
  rewrite (flat_map_nth _ (prodZ cn)); [| |exact H1|exact RB].
  - rewrite (nth_indep _ 0 ((fun o => (b + x * t) * prodZ ds + o) 0)) by (rewrite map_length; unfold Zlen in LL; lia).
    rewrite (map_nth (fun o => (b + x * t) * prodZ ds + o)). rewrite IH; auto.
  - intros j Hj. unfold Zlen in *. rewrite map_length. exact LL.
Qed.

(** A selection lies within the data set. *)
Lemma place_within dims : forall st sd cn k, fits dims st sd cn -> within k cn -> within (place st sd k) dims.
Proof.
  intros st sd cn k H. revert k. induction H; intros k W; [apply within_nil in W; subst; constructor|]. apply within_inv in W as (x & l & -> & Hx & Hl). cbn [place]. constructor; [nia|]. apply IHfits. assumption.
Qed.
Lemma place_inj st sd : Forall (fun t => 1 <= t) sd -> forall i j, List.length i = List.length st -> List.length j = List.length st -> List.length sd = List.length st ->
  place st sd i = place st sd j -> i = j.
Proof.
  intros F. revert st. induction F as [|t sd Ht F IH]; intros [|b st] [|i is] [|j js] L1 L2 L3 E; try discriminate; try reflexivity.
  cbn [place] in E. injection E as E1 E2. f_equal; [nia|]. apply (IH st); auto.
Qed.
Lemma fits_length dims st sd cn : fits dims st sd cn -> List.length st = List.length dims /\ List.length sd = List.length dims /\ List.length cn = List.length dims /\
  Forall (fun c => 1 <= c) cn /\ Forall (fun t => 1 <= t) sd /\ Forall (fun b => 0 <= b) st /\ Forall (fun d => 1 <= d) dims.
Proof.
  induction 1; [repeat split; constructor|]. destruct IHfits as (A & B & C & D & E & F & G). cbn [List.length]. repeat split; try lia; constructor; auto; nia.
Qed.
Lemma fits_inside dims st sd cn : fits dims st sd cn -> inside dims (zip3 st sd cn) = true.
Proof.
  induction 1; [reflexivity|]. cbn [zip3 inside]. rewrite IHfits. rewrite (proj2 (Z.leb_le 0 b)) by lia.
  rewrite (proj2 (Z.ltb_lt (b + (c - 1) * t) d)) by lia. now rewrite orb_true_r.
Qed.
Lemma fits_size dims st sd cn : fits dims st sd cn -> sel_size (zip3 st sd cn) = prodZ cn.
Proof. unfold sel_size. induction 1; [reflexivity|]. cbn [zip3 map snd]. rewrite !prodZ_cons, IHfits. f_equal. lia. Qed.
Lemma fits_le dims st sd cn : fits dims st sd cn -> prodZ cn <= prodZ dims /\ (prodZ cn = prodZ dims -> cn = dims).
Proof.
  intros H. pose proof (fits_length _ _ _ _ H) as (_ & _ & _ & F & _ & _ & G). induction H; [split; reflexivity|].
  inversion F; inversion G; subst. destruct (IHfits ltac:(assumption) ltac:(assumption)) as (I1 & I2). rewrite !prodZ_cons.
  pose proof (prodZ_pos cs ltac:(assumption)). assert (c <= d) by nia. split; [nia|]. intros E.
  assert (c = d) by nia. subst c. f_equal. apply I2. nia.
Qed.
Lemma zseq_blocks d m : 0 <= d -> 0 <= m -> flat_map (fun k => map (fun o => k * m + o) (zseq m)) (zseq d) = zseq (d * m).
Proof.
  intros Hd Hm. apply (nth_ext _ _ 0 0).
  - apply Nat2Z.inj. change (Zlen (flat_map (fun k => map (fun o => k * m + o) (zseq m)) (zseq d)) = Zlen (zseq (d * m))).
    rewrite Zlen_zseq by nia. apply flat_map_len; [|exact Hd]. intros k _. unfold Zlen. rewrite map_length. now apply Zlen_zseq.
  - intros n Hn. assert (LL : Zlen (flat_map (fun k => map (fun o => k * m + o) (zseq m)) (zseq d)) = d * m).
    { apply flat_map_len; [|exact Hd]. intros k _. unfold Zlen. rewrite map_length. now apply Zlen_zseq. }
    unfold Zlen in LL. assert (Hn' : 0 <= Z.of_nat n < d * m) by lia. assert (0 < m) by nia.
    assert (Z0 : forall k c, 0 <= k < c -> nth (Z.to_nat k) (zseq c) 0 = k).
    { intros k c Hk. unfold zseq. change 0 with (Z.of_nat 0). rewrite map_nth, seq_nth by lia. lia. }
    replace n with (Z.to_nat (Z.of_nat n / m * m + Z.of_nat n mod m)) at 1 by (rewrite Z.mul_comm, <- Z.div_mod by lia; lia).
    pose proof (Z.mod_pos_bound (Z.of_nat n) m ltac:(lia)).
    rewrite (flat_map_nth _ m).
    + rewrite (nth_indep _ 0 ((fun o => Z.of_nat n / m * m + o) 0)) by (rewrite map_length; pose proof (Zlen_zseq m Hm) as X; unfold Zlen in X; lia).
      rewrite (map_nth (fun o => Z.of_nat n / m * m + o)), Z0 by lia. rewrite <- (Nat2Z.id n) at 3. rewrite Z0 by lia.
      pose proof (Z.div_mod (Z.of_nat n) m ltac:(lia)). lia.
    + intros k _. unfold Zlen. rewrite map_length. now apply Zlen_zseq.
    + split; [apply Z.div_pos; lia|apply Z.div_lt_upper_bound; nia].
    + lia.
Qed.
(** A region with as many elements as the data set is the data set. *)
Lemma fits_whole dims st sd cn : fits dims st sd cn -> prodZ cn = prodZ dims -> offsets dims (zip3 st sd cn) = zseq (prodZ dims).
Proof.
  intros H E. destruct (fits_le _ _ _ _ H) as (_ & X). specialize (X E). clear E. induction H; [reflexivity|].
  injection X as -> X. cbn [zip3 offsets]. rewrite (IHfits X), prodZ_cons. destruct (fits_length _ _ _ _ H3) as (_ & _ & _ & _ & _ & _ & G).
  pose proof (prodZ_pos _ G). rewrite <- zseq_blocks by lia.
  assert (FE : forall (f g : Z -> list Z) l, (forall k, In k l -> f k = g k) -> flat_map f l = flat_map g l).
  { intros f g l. induction l; intros Hl; [reflexivity|]. cbn. rewrite Hl by (now left). f_equal. apply IHl. intros; apply Hl. now right. }
  apply FE. intros k Hk. apply in_zseq in Hk. apply map_ext. intros o. f_equal. f_equal. assert (b = 0) by nia. subst b.
  destruct (Z.eq_dec d 1) as [->|N]; [assert (k = 0) by lia; subst; lia|]. assert (t = 1) by nia. subst. lia.
Qed.

(** [put] at distinct positions. *)
Lemma upd_len {A} (l : list A) n x : List.length (upd l n x) = List.length l.
Proof. revert n. induction l; intros [|n]; cbn; auto. Qed.
Lemma upd_nth_same {A} (l : list A) n x d : (n < List.length l)%nat -> nth n (upd l n x) d = x.
Proof. revert n. induction l; intros [|n] H; cbn in *; try lia; auto. apply IHl. lia. Qed.
Lemma upd_nth_other {A} (l : list A) n m x d : n <> m -> nth m (upd l n x) d = nth m l d.
Proof. revert n m. induction l; intros [|n] [|m] H; cbn; try congruence; auto. Qed.
Lemma put_len v : forall idx new, List.length (put v idx new) = List.length v.
Proof. intros idx. revert v. induction idx as [|i idx IH]; intros v [|x new]; cbn; auto. rewrite IH. apply upd_len. Qed.
Lemma put_other v : forall idx new m d, ~ In (Z.of_nat m) idx -> Forall (fun i => 0 <= i) idx -> nth m (put v idx new) d = nth m v d.
Proof.
  intros idx. revert v. induction idx as [|i idx IH]; intros v [|x new] m d H F; cbn [put]; auto. inversion F; subst.
  rewrite IH; [|intros C; apply H; now right|assumption]. apply upd_nth_other. intros C. apply H. left. lia.
Qed.
Lemma put_same v : forall idx new j d, NoDup idx -> Forall (fun i => 0 <= i < Zlen v) idx -> (j < List.length idx)%nat -> (List.length idx <= List.length new)%nat ->
  nth (Z.to_nat (nth j idx 0)) (put v idx new) d = nth j new d.
Proof.
  intros idx. revert v. induction idx as [|i idx IH]; intros v [|x new] j d N F L1 L2; cbn in L1, L2; try lia. inversion N; inversion F; subst. cbn [put].
  assert (FF : Forall (fun i0 => 0 <= i0 < Zlen (upd v (Z.to_nat i) x)) idx) by (unfold Zlen in *; rewrite upd_len; assumption).
  destruct j as [|j]; cbn [nth].
  - rewrite put_other; [|rewrite Z2Nat.id by lia; assumption|].
    + apply upd_nth_same. unfold Zlen in *. lia.
    + eapply Forall_impl; [|exact FF]. cbn. intros; lia.
  - apply IH; auto; lia.
Qed.

Lemma offsets_in dims st sd cn o : fits dims st sd cn -> In o (offsets dims (zip3 st sd cn)) -> exists k, within k cn /\ o = ravel dims (place st sd k).
Proof.
  intros H I. destruct (fits_length _ _ _ _ H) as (L1 & L2 & L3 & F & _).
  assert (F0 : Forall (fun c => 0 <= c) cn) by (eapply Forall_impl; [|exact F]; cbn; intros; lia).
  destruct (In_nth _ _ 0 I) as (n & Hn & <-). pose proof (offsets_len dims st sd cn L1 L2 L3 F0) as LL. unfold Zlen in LL.
  destruct (unravel_ex cn (Z.of_nat n) F0 ltac:(lia)) as (k & W & E). exists k. split; [exact W|].
  rewrite <- (offsets_nth dims st sd cn k L1 L2 L3 W), E, Nat2Z.id. reflexivity.
Qed.
Lemma within_length k cn : within k cn -> List.length k = List.length cn.
Proof. induction 1; cbn; auto. Qed.
Lemma offsets_nodup dims st sd cn : fits dims st sd cn -> NoDup (offsets dims (zip3 st sd cn)).
Proof.
  intros H. destruct (fits_length _ _ _ _ H) as (L1 & L2 & L3 & F & G & _).
  assert (F0 : Forall (fun c => 0 <= c) cn) by (eapply Forall_impl; [|exact F]; cbn; intros; lia).
  pose proof (offsets_len dims st sd cn L1 L2 L3 F0) as LL. unfold Zlen in LL.
  rewrite (NoDup_nth _ 0). intros a b Ha Hb E.
  destruct (unravel_ex cn (Z.of_nat a) F0 ltac:(lia)) as (i & Wi & Ei). destruct (unravel_ex cn (Z.of_nat b) F0 ltac:(lia)) as (j & Wj & Ej).
  rewrite <- (Nat2Z.id a), <- Ei, <- (Nat2Z.id b), <- Ej, !offsets_nth in E by assumption.
  apply ravel_inj in E; [|now apply (place_within dims _ _ cn)|now apply (place_within dims _ _ cn)].
  apply place_inj in E; [|exact G|rewrite (within_length _ _ Wi); congruence|rewrite (within_length _ _ Wj); congruence|congruence].
  subst j. apply Nat2Z.inj. congruence.
Qed.
