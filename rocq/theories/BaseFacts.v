(** Lemmas about the vocabulary of Base.v. *)
From Coq Require Import ZArith List Lia String Bool Permutation ZifyBool.
From Verif Require Import Base.
Import ListNotations.
Open Scope Z_scope.

Lemma bind_ok {A B} (m : outcome A) (k : A -> outcome B) b :
  bind m k = Ok b <-> exists a, m = Ok a /\ k a = Ok b.
Proof.
  destruct m; simpl; split; intros H; try discriminate; eauto;
    try (destruct H as (? & ? & ?); discriminate).
  destruct H as (? & H & ?); inversion H; subst; auto.
Qed.

Lemma Zlen_nonneg {A} (l : list A) : 0 <= Zlen l.
Proof. unfold Zlen; lia. Qed.

Lemma Zlen_cons {A} (x : A) l : Zlen (x :: l) = 1 + Zlen l.
Proof. unfold Zlen; simpl List.length; lia. Qed.

Lemma Zlen_app {A} (l l' : list A) : Zlen (l ++ l') = Zlen l + Zlen l'.
Proof. unfold Zlen; rewrite app_length; lia. Qed.

Lemma upd_length {A} (l : list A) n v : List.length (upd l n v) = List.length l.
Proof. revert n; induction l; destruct n; simpl; auto. Qed.

Lemma Zlen_upd {A} (l : list A) n v : Zlen (upd l n v) = Zlen l.
Proof. unfold Zlen; rewrite upd_length; auto. Qed.

Lemma nth_error_upd_eq {A} (l : list A) n v :
  (n < List.length l)%nat -> nth_error (upd l n v) n = Some v.
Proof.
  revert n; induction l; destruct n; simpl; intros; try lia; auto.
  apply IHl; lia.
Qed.

Lemma nth_error_upd_neq {A} (l : list A) n m v :
  n <> m -> nth_error (upd l n v) m = nth_error l m.
Proof.
  revert n m; induction l; destruct n, m; simpl; intros; try lia; auto.
Qed.

Lemma nth_upd_eq {A} (l : list A) n v d :
  (n < List.length l)%nat -> nth n (upd l n v) d = v.
Proof.
  revert n; induction l; destruct n; simpl; intros; try lia; auto.
  apply IHl; lia.
Qed.

Lemma nth_upd_neq {A} (l : list A) n m v d :
  n <> m -> nth m (upd l n v) d = nth m l d.
Proof.
  revert n m; induction l; destruct n, m; simpl; intros; try lia; auto.
Qed.

Lemma rd_ok {A} (l : list A) i d :
  0 <= i < Zlen l -> rd l i = Ok (nth (Z.to_nat i) l d).
Proof.
  intros H. unfold rd, Zlen in *.
  destruct (Z.ltb_spec i 0); try lia.
  rewrite (nth_error_nth' l d) by lia. reflexivity.
Qed.

Lemma rd_zat l i : 0 <= i < Zlen l -> rd l i = Ok (zat l i).
Proof.
  intros H. rewrite (rd_ok l i 0 H). unfold zat.
  destruct (Z.ltb_spec i 0); try lia. reflexivity.
Qed.

Lemma rd_ok_inv {A} (l : list A) i v :
  rd l i = Ok v -> 0 <= i < Zlen l /\ nth_error l (Z.to_nat i) = Some v.
Proof.
  unfold rd, Zlen. destruct (Z.ltb_spec i 0); try discriminate.
  destruct (nth_error l (Z.to_nat i)) eqn:E; try discriminate.
  intros H1; inversion H1; subst. split; auto.
  assert (Z.to_nat i < List.length l)%nat by (apply nth_error_Some; congruence).
  lia.
Qed.

Lemma wr_ok {A} (l : list A) i v :
  0 <= i < Zlen l -> wr l i v = Ok (upd l (Z.to_nat i) v).
Proof.
  intros H. unfold wr, Zlen in *.
  destruct (Z.ltb_spec i 0); try lia.
  destruct (Z.leb_spec (Z.of_nat (List.length l)) i); try lia. reflexivity.
Qed.

Lemma wr_ok_inv {A} (l : list A) i v l' :
  wr l i v = Ok l' -> 0 <= i < Zlen l /\ l' = upd l (Z.to_nat i) v.
Proof.
  unfold wr, Zlen. destruct (Z.ltb_spec i 0); try discriminate.
  destruct (Z.leb_spec (Z.of_nat (List.length l)) i); try discriminate.
  simpl. intros E; inversion E; split; auto; lia.
Qed.

Lemma zat_upd l i j v :
  0 <= i < Zlen l -> zat (upd l (Z.to_nat i) v) j = if j =? i then v else zat l j.
Proof.
  intros H. unfold zat, Zlen in *.
  destruct (Z.ltb_spec j 0); destruct (Z.eqb_spec j i); subst; try lia; auto.
  - apply nth_upd_eq; lia.
  - apply nth_upd_neq; lia.
Qed.

Lemma zat_out l i : i < 0 \/ Zlen l <= i -> zat l i = 0.
Proof.
  unfold zat, Zlen. intros [H|H]; destruct (Z.ltb_spec i 0); try lia; auto.
  apply nth_overflow; lia.
Qed.

Lemma for_from_inv {S} (P : Z -> S -> Prop) n i body (s : S) :
  P i s ->
  (forall j s, i <= j < i + Z.of_nat n -> P j s ->
               exists s', body j s = Ok s' /\ P (j + 1) s') ->
  exists s', for_from n i body s = Ok s' /\ P (i + Z.of_nat n) s'.
Proof.
  revert i s; induction n; intros i s H0 Hs; simpl.
  - exists s; split; auto. replace (i + 0) with i by lia; auto.
  - destruct (Hs i s ltac:(lia) H0) as (s1 & E & H1). rewrite E; simpl.
    destruct (IHn (i + 1) s1 H1) as (s2 & E2 & H2).
    + intros; apply Hs; auto; lia.
    + exists s2; split; auto.
      replace (i + Z.pos (Pos.of_succ_nat n)) with (i + 1 + Z.of_nat n) by lia; auto.
Qed.

Lemma for_loop_inv {S} (P : Z -> S -> Prop) n body (s : S) :
  0 <= n ->
  P 0 s ->
  (forall j s, 0 <= j < n -> P j s ->
               exists s', body j s = Ok s' /\ P (j + 1) s') ->
  exists s', for_loop n body s = Ok s' /\ P n s'.
Proof.
  intros Hn H0 Hs. unfold for_loop.
  destruct (for_from_inv P (Z.to_nat n) 0 body s H0) as (s' & E & H).
  - intros; apply Hs; auto; lia.
  - exists s'; split; auto. replace (0 + Z.of_nat (Z.to_nat n)) with n in H by lia; auto.
Qed.

(** Partial-correctness version: whatever an [Ok] run returns satisfies P. *)
Lemma for_from_inv_ok {S} (P : Z -> S -> Prop) n i body (s s' : S) :
  P i s ->
  (forall j s s', i <= j < i + Z.of_nat n -> P j s -> body j s = Ok s' -> P (j + 1) s') ->
  for_from n i body s = Ok s' -> P (i + Z.of_nat n) s'.
Proof.
  revert i s; induction n; intros i s H0 Hs E; simpl in *.
  - inversion E; subst. replace (i + 0) with i by lia; auto.
  - apply bind_ok in E. destruct E as (s1 & E1 & E2).
    replace (i + Z.pos (Pos.of_succ_nat n)) with (i + 1 + Z.of_nat n) by lia.
    eapply IHn; eauto.
    + eapply Hs; eauto; lia.
    + intros; eapply Hs; eauto; lia.
Qed.

Lemma for_from_ext {S} n i (b1 b2 : Z -> S -> outcome S) s :
  (forall j s, i <= j < i + Z.of_nat n -> b1 j s = b2 j s) ->
  for_from n i b1 s = for_from n i b2 s.
Proof.
  revert i s; induction n; intros i s H; simpl; auto.
  rewrite H by lia. destruct (b2 i s); simpl; auto.
  apply IHn; intros; apply H; lia.
Qed.

Lemma for_from_add {S} n m i (b : Z -> S -> outcome S) s :
  for_from (n + m) i b s =
  bind (for_from n i b s) (for_from m (i + Z.of_nat n) b).
Proof.
  revert i s; induction n; intros i s; simpl.
  - replace (i + 0) with i by lia; auto.
  - destruct (b i s); simpl; auto. rewrite IHn.
    replace (i + 1 + Z.of_nat n) with (i + Z.pos (Pos.of_succ_nat n)) by lia; auto.
Qed.

Lemma for_each_app {A S} (l l' : list A) body (s : S) :
  for_each (l ++ l') body s = bind (for_each l body s) (for_each l' body).
Proof.
  revert s; induction l; intros; simpl; auto. destruct (body a s); simpl; auto.
Qed.

Lemma for_each_inv {A S} (P : list A -> S -> Prop) l body (s : S) :
  P [] s ->
  (forall pre x post s, l = pre ++ x :: post -> P pre s ->
     exists s', body x s = Ok s' /\ P (pre ++ [x]) s') ->
  exists s', for_each l body s = Ok s' /\ P l s'.
Proof.
  intros H0 Hs.
  assert (G : forall post pre s, l = pre ++ post -> P pre s ->
     exists s', for_each post body s = Ok s' /\ P l s').
  { induction post; intros pre s1 E H; simpl.
    - rewrite app_nil_r in E; subst; eauto.
    - destruct (Hs pre a post s1 E H) as (s2 & E2 & H2). rewrite E2; simpl.
      apply (IHpost (pre ++ [a])); auto. rewrite <- app_assoc; auto. }
  apply (G l []); auto.
Qed.

Lemma zsum_app l l' : zsum (l ++ l') = zsum l + zsum l'.
Proof. induction l; simpl; lia. Qed.

Lemma zsum_perm l l' : Permutation l l' -> zsum l = zsum l'.
Proof. induction 1; simpl; lia. Qed.

Lemma zsum_nonneg l : (forall x, In x l -> 0 <= x) -> 0 <= zsum l.
Proof.
  induction l; simpl; intros; try lia.
  assert (0 <= a) by auto. assert (0 <= zsum l) by auto. lia.
Qed.

Lemma zsum_bound l b : (forall x, In x l -> x <= b) -> zsum l <= b * Zlen l.
Proof.
  induction l; intros; [unfold Zlen; simpl; lia|].
  rewrite Zlen_cons. change (zsum (a :: l)) with (a + zsum l).
  assert (a <= b) by (apply H; left; auto).
  assert (zsum l <= b * Zlen l) by (apply IHl; intros; apply H; right; auto).
  rewrite Z.mul_add_distr_l. lia.
Qed.

Lemma zsum_map_add {A} (f g : A -> Z) l :
  zsum (map (fun x => f x + g x) l) = zsum (map f l) + zsum (map g l).
Proof. induction l; simpl; lia. Qed.

Lemma zsum_map_ext {A} (f g : A -> Z) l :
  (forall x, In x l -> f x = g x) -> zsum (map f l) = zsum (map g l).
Proof. intros. f_equal. apply map_ext_in; auto. Qed.

Lemma zsum_map_zero {A} (f : A -> Z) l :
  (forall x, In x l -> f x = 0) -> zsum (map f l) = 0.
Proof. induction l; simpl; intros; auto. rewrite H, IHl; auto. Qed.

Lemma zsum_map_scale {A} (f : A -> Z) c l :
  zsum (map (fun x => c * f x) l) = c * zsum (map f l).
Proof. induction l; simpl; [ring|]. rewrite IHl; ring. Qed.

Lemma zsum_swap {A B} (f : A -> B -> Z) l m :
  zsum (map (fun x => zsum (map (f x) m)) l) =
  zsum (map (fun y => zsum (map (fun x => f x y) l)) m).
Proof.
  induction l; simpl.
  - symmetry; apply zsum_map_zero; auto.
  - rewrite IHl. rewrite <- zsum_map_add. reflexivity.
Qed.

Lemma zseq_0 : zseq 0 = [].
Proof. reflexivity. Qed.

Lemma zseq_succ n : 0 <= n -> zseq (n + 1) = zseq n ++ [n].
Proof.
  intros. unfold zseq. replace (Z.to_nat (n + 1)) with (S (Z.to_nat n)) by lia.
  rewrite seq_S, map_app. simpl. repeat f_equal. lia.
Qed.

Lemma in_zseq n i : In i (zseq n) <-> 0 <= i < n.
Proof.
  unfold zseq. rewrite in_map_iff. split.
  - intros (k & E & H). apply in_seq in H. lia.
  - intros H. exists (Z.to_nat i). rewrite in_seq. lia.
Qed.

Lemma Zlen_zseq n : 0 <= n -> Zlen (zseq n) = n.
Proof. intros. unfold Zlen, zseq. rewrite map_length, seq_length. lia. Qed.

Lemma NoDup_zseq n : NoDup (zseq n).
Proof.
  unfold zseq. apply FinFun.Injective_map_NoDup; [|apply seq_NoDup].
  intros a b; lia.
Qed.

Lemma list_eq_zat l l' :
  Zlen l = Zlen l' -> (forall i, 0 <= i < Zlen l -> zat l i = zat l' i) -> l = l'.
Proof.
  unfold Zlen; intros HL H. apply (nth_ext l l' 0 0); try lia.
  intros n Hn. specialize (H (Z.of_nat n) ltac:(lia)). unfold zat in H.
  destruct (Z.ltb_spec (Z.of_nat n) 0); try lia.
  rewrite Nat2Z.id in H; auto.
Qed.

Lemma zat_map_zseq f n i : 0 <= i < n -> zat (map f (zseq n)) i = f i.
Proof.
  intros H. unfold zat. destruct (Z.ltb_spec i 0); try lia.
  unfold zseq. rewrite map_map.
  rewrite (nth_indep _ 0 (f (Z.of_nat 0))) by (rewrite map_length, seq_length; lia).
  rewrite (map_nth (fun x => f (Z.of_nat x)) _ 0%nat).
  rewrite seq_nth by lia. f_equal; lia.
Qed.

Lemma list_as_map_zat l : l = map (zat l) (zseq (Zlen l)).
Proof.
  apply list_eq_zat.
  - unfold Zlen at 2. rewrite map_length. change (Zlen l = Zlen (zseq (Zlen l))).
    rewrite Zlen_zseq; auto; apply Zlen_nonneg.
  - intros. rewrite zat_map_zseq; auto.
Qed.

Lemma zat_repeat0 n i : zat (repeat 0 n) i = 0.
Proof.
  unfold zat. destruct (i <? 0); auto.
  generalize (Z.to_nat i). induction n; intros [|k]; simpl; auto.
Qed.

Lemma Zlen_repeat {A} (x : A) n : Zlen (repeat x n) = Z.of_nat n.
Proof. unfold Zlen; rewrite repeat_length; auto. Qed.

Lemma zat_app l l' i :
  zat (l ++ l') i = if i <? Zlen l then zat l i else zat l' (i - Zlen l).
Proof.
  unfold zat, Zlen.
  destruct (Z.ltb_spec i 0); destruct (Z.ltb_spec i (Z.of_nat (List.length l)));
    try lia; auto.
  - rewrite app_nth1; auto; lia.
  - destruct (Z.ltb_spec (i - Z.of_nat (List.length l)) 0); try lia.
    rewrite app_nth2 by lia. f_equal; lia.
Qed.

Lemma zat_in l i : 0 <= i < Zlen l -> In (zat l i) l.
Proof.
  intros. unfold zat, Zlen in *. destruct (Z.ltb_spec i 0); try lia.
  apply nth_In; lia.
Qed.

Lemma zat_firstn l n i : 0 <= i < Z.of_nat n -> zat (firstn n l) i = zat l i.
Proof.
  intros. unfold zat. destruct (Z.ltb_spec i 0); try lia.
  assert (Hn : (Z.to_nat i < n)%nat) by lia. revert Hn.
  generalize (Z.to_nat i). clear. intros k; revert k n.
  induction l; intros [|k] [|n]; simpl; intros; try lia; auto.
  apply IHl; lia.
Qed.

Lemma zat_skipn l n i : 0 <= i -> zat (skipn n l) i = zat l (i + Z.of_nat n).
Proof.
  intros. unfold zat. destruct (Z.ltb_spec i 0); try lia.
  destruct (Z.ltb_spec (i + Z.of_nat n) 0); try lia.
  replace (Z.to_nat (i + Z.of_nat n)) with (n + Z.to_nat i)%nat by lia.
  generalize (Z.to_nat i). clear. intros k; revert k n.
  induction l; intros k [|n]; simpl; auto.
  destruct k; auto.
Qed.

Lemma u16_id z : is_u16 z -> u16 z = z.
Proof. unfold is_u16, u16; intros; apply Z.mod_small; auto. Qed.
Lemma u32_id z : is_u32 z -> u32 z = z.
Proof. unfold is_u32, u32; intros; apply Z.mod_small; auto. Qed.
Lemma u64_id z : is_u64 z -> u64 z = z.
Proof. unfold is_u64, u64; intros; apply Z.mod_small; auto. Qed.
Lemma u16_range z : is_u16 (u16 z).
Proof. apply Z.mod_pos_bound; reflexivity. Qed.
Lemma u32_range z : is_u32 (u32 z).
Proof. apply Z.mod_pos_bound; reflexivity. Qed.
Lemma u64_range z : is_u64 (u64 z).
Proof. apply Z.mod_pos_bound; reflexivity. Qed.

Lemma div_mod_unique_row w x y : 0 <= x < w -> (y * w + x) mod w = x /\ (y * w + x) / w = y.
Proof.
  intros. split.
  - rewrite Z.add_comm, Z.mod_add by lia. apply Z.mod_small; lia.
  - rewrite Z.add_comm, Z.div_add by lia. rewrite Z.div_small; lia.
Qed.

(** A loop that stores [f i] at every index fills the array with [f]. *)
Lemma for_loop_fill n (body : Z -> list Z -> outcome (list Z)) (f : Z -> Z) l0 :
  0 <= n -> Zlen l0 = n ->
  (forall i l, 0 <= i < n -> Zlen l = n -> body i l = wr l i (f i)) ->
  for_loop n body l0 = Ok (map f (zseq n)).
Proof.
  intros Hn Hl Hb.
  destruct (for_loop_inv (fun i l => Zlen l = n /\ forall j, 0 <= j < i -> zat l j = f j)
              n body l0) as (l & E & HL & H); auto.
  - split; auto. intros; lia.
  - intros j l Hj (HL & H). exists (upd l (Z.to_nat j) (f j)).
    rewrite Hb, wr_ok by lia. split; auto. rewrite Zlen_upd. split; auto.
    intros k Hk. rewrite zat_upd by lia. destruct (Z.eqb_spec k j); subst; auto.
    apply H; lia.
  - rewrite E. f_equal. apply list_eq_zat.
    + rewrite HL. unfold Zlen. rewrite map_length.
      symmetry. apply Zlen_zseq; auto.
    + intros i Hi. rewrite zat_map_zseq by lia. apply H; lia.
Qed.

Lemma u64_add_l a b : u64 (u64 a + b) = u64 (a + b).
Proof. unfold u64. apply Zplus_mod_idemp_l. Qed.
Lemma u64_add_r a b : u64 (a + u64 b) = u64 (a + b).
Proof. unfold u64. apply Zplus_mod_idemp_r. Qed.
Lemma u32_add_l a b : u32 (u32 a + b) = u32 (a + b).
Proof. unfold u32. apply Zplus_mod_idemp_l. Qed.

(** A loop that accumulates in 64 bits computes the wrapped sum. *)
Lemma for_loop_sum n (body : Z -> Z -> outcome Z) (f : Z -> Z) a0 :
  0 <= n -> is_u64 a0 ->
  (forall i a, 0 <= i < n -> body i a = Ok (u64 (a + f i))) ->
  for_loop n body a0 = Ok (u64 (a0 + zsum (map f (zseq n)))).
Proof.
  intros Hn Ha Hb.
  destruct (for_loop_inv (fun i a => a = u64 (a0 + zsum (map f (zseq i)))) n body a0)
    as (a & E & H); auto.
  - rewrite zseq_0; simpl. rewrite u64_id; auto; [lia|].
    replace (a0 + 0) with a0 by lia; auto.
  - intros j a Hj ->. rewrite Hb by lia. eexists; split; eauto.
    rewrite zseq_succ, map_app, zsum_app by lia. simpl.
    rewrite u64_add_l. f_equal; lia.
  - subst; auto.
Qed.

Lemma zsum_grid (f : Z -> Z) w h :
  0 <= w -> 0 <= h ->
  zsum (map f (zseq (w * h))) =
  zsum (map (fun y => zsum (map (fun x => f (y * w + x)) (zseq w))) (zseq h)).
Proof.
  intros Hw Hh. revert h Hh. apply natlike_ind.
  - rewrite Z.mul_0_r, !zseq_0; auto.
  - intros h Hh IH. change (Z.succ h) with (h + 1).
    rewrite (zseq_succ h), map_app, zsum_app by lia. rewrite <- IH. simpl.
    assert (G : forall k, 0 <= k ->
      zsum (map f (zseq (w * h + k))) =
      zsum (map f (zseq (w * h))) + zsum (map (fun x => f (h * w + x)) (zseq k))).
    { apply natlike_ind.
      - rewrite Z.add_0_r, zseq_0; simpl; lia.
      - intros k Hk IHk. change (Z.succ k) with (k + 1). rewrite Z.add_assoc.
        rewrite !zseq_succ by nia. rewrite !map_app, !zsum_app, IHk. simpl.
        replace (h * w + k) with (w * h + k) by lia. lia. }
    replace (w * (h + 1)) with (w * h + w) by lia. rewrite G by lia. lia.
Qed.

Lemma zsum_indicator (f : Z -> Z) n e :
  0 <= e < n -> zsum (map (fun i => if i =? e then f i else 0) (zseq n)) = f e.
Proof.
  intros He. assert (Hn : 0 <= n) by lia. revert n Hn He. apply (natlike_ind
    (fun n => 0 <= e < n -> zsum (map (fun i => if i =? e then f i else 0) (zseq n)) = f e)).
  - intros; lia.
  - intros n Hn IH He. change (Z.succ n) with (n + 1) in *.
    rewrite zseq_succ, map_app, zsum_app by lia. cbn [map zsum].
    destruct (Z.eqb_spec n e).
    + subst. rewrite zsum_map_zero; [lia|].
      intros x Hx. apply in_zseq in Hx. destruct (Z.eqb_spec x e); lia.
    + rewrite IH by lia. lia.
Qed.

Lemma Permutation_flat_map_in {A B} (f : A -> list B) l l' :
  Permutation l l' -> Permutation (flat_map f l) (flat_map f l').
Proof. apply Permutation_flat_map. Qed.
