(** Proofs about get_scan_path. *)
From Coq Require Import String Ascii ZArith List Bool Lia.
From Verif Require Import Base ScanPathModel ScanPathSpec.
Import ListNotations.
Open Scope list_scope.
Open Scope Z_scope.

Local Arguments Z.mul : simpl never.
Local Arguments Z.add : simpl never.
Local Arguments Z.sub : simpl never.

(** * Numbers *)

Definition dv (c : ascii) : Z := Z.of_nat (nat_of_ascii c) - 48.

Lemma digit_dv : forall c, is_digit c -> digit (dv c) = c /\ 0 <= dv c <= 9.
Proof.
  unfold is_digit, digit, dv; intros c H; split; [|lia].
  replace (48 + Z.to_nat (Z.of_nat (nat_of_ascii c) - 48))%nat with (nat_of_ascii c) by lia.
  apply ascii_nat_embedding.
Qed.

Lemma dv_zero : forall c, is_digit c -> dv c = 0 -> c = "0"%char.
Proof.
  intros c H E. destruct (digit_dv c H) as [D _]. rewrite E in D. rewrite <- D. reflexivity.
Qed.

Lemma value_snoc : forall t c, value (t ++ [c]) = 10 * value t + dv c.
Proof. intros; unfold value; rewrite fold_left_app; reflexivity. Qed.

Lemma digits_app : forall a b, digits (a ++ b) <-> digits a /\ digits b.
Proof. intros; unfold digits; rewrite Forall_app; tauto. Qed.

Lemma value_nonneg : forall t, digits t -> 0 <= value t.
Proof.
  induction t as [|c t IH] using rev_ind; intros D; [cbn; lia|].
  apply digits_app in D as [D1 D2]. rewrite value_snoc.
  inversion D2; subst. destruct (digit_dv c H1). specialize (IH D1). lia.
Qed.

Lemma value_big : forall r c, digits (c :: r) -> c <> "0"%char ->
  2 ^ Z.of_nat (List.length r) <= value (c :: r).
Proof.
  induction r as [|d r IH] using rev_ind; intros c D N.
  - cbn. inversion D; subst. destruct (digit_dv c H1) as [_ B].
    assert (dv c <> 0) by (intro E; apply N; now apply dv_zero).
    unfold dv in *. lia.
  - change (c :: r ++ [d]) with ((c :: r) ++ [d]) in *.
    apply digits_app in D as [D1 D2]. rewrite value_snoc. inversion D2; subst.
    destruct (digit_dv d H1) as [_ B]. specialize (IH c D1 N).
    rewrite app_length; cbn [List.length]. replace (Z.of_nat (List.length r + 1)) with (Z.of_nat (List.length r) + 1) by lia.
    rewrite Z.pow_add_r by lia. lia.
Qed.

Lemma digits_of_ok : forall t fuel acc, digits t -> t <> [] ->
  (List.length t <= fuel)%nat ->
  (List.length t = 1%nat \/ exists c r, t = c :: r /\ c <> "0"%char) ->
  digits_of fuel (value t) acc = t ++ acc.
Proof.
  induction t as [|c t IH] using rev_ind; intros fuel acc D NE F H; [congruence|].
  apply digits_app in D as [D1 D2]. inversion D2; subst. clear D2 H3.
  destruct (digit_dv c H2) as [Dc Bc]. rewrite app_length in F; cbn in F.
  destruct fuel as [|f]; [lia|]. cbn [digits_of]. rewrite value_snoc.
  rewrite <- app_assoc; cbn [app].
  replace ((10 * value t + dv c) mod 10) with (dv c)
    by (rewrite Z.add_comm, Z.mul_comm, Z_mod_plus_full, Z.mod_small; lia).
  replace ((10 * value t + dv c) / 10) with (value t)
    by (rewrite Z.add_comm, Z.mul_comm, Z.div_add, Z.div_small; lia).
  rewrite Dc.
  destruct t as [|d t'].
  - cbn [app]. unfold value at 1; cbn [fold_left].
    destruct (10 * 0 + dv c <? 10) eqn:E; [reflexivity|]. apply Z.ltb_ge in E; lia.
  - assert (Hd : d <> "0"%char).
    { destruct H as [H|(c0 & r & E & N)].
      - rewrite app_length in H; cbn in H; lia.
      - cbn in E. injection E as -> _. exact N. }
    pose proof (value_big t' d D1 Hd). assert (0 < 2 ^ Z.of_nat (List.length t')) by (apply Z.pow_pos_nonneg; lia).
    destruct (10 * value (d :: t') + dv c <? 10) eqn:E; [apply Z.ltb_lt in E; lia|].
    rewrite IH; [reflexivity|assumption|congruence|lia|right; eauto].
Qed.

(** str() writes numbers as people do. *)
Lemma py_str_value : forall t, number t -> py_str (value t) = t.
Proof.
  intros t (D & H). unfold py_str. pose proof (value_nonneg t D).
  destruct (value t <? 0) eqn:E; [apply Z.ltb_lt in E; lia|]. clear E.
  destruct H as [->|(c & r & -> & N)]; [reflexivity|].
  rewrite digits_of_ok; try assumption; try congruence; [apply app_nil_r| |right; eauto].
  pose proof (value_big r c D N). cbn [List.length].
  assert (Z.of_nat (List.length r) <= Z.log2 (value (c :: r))) by (apply Z.log2_le_pow2; lia).
  lia.
Qed.

Lemma digit_is_digit : forall d, 0 <= d <= 9 -> is_digit (digit d) /\ dv (digit d) = d.
Proof.
  intros d H. unfold is_digit, dv, digit.
  rewrite nat_ascii_embedding by lia. lia.
Qed.

Lemma number_exists : forall n, 0 <= n -> exists t, number t /\ value t = n.
Proof.
  intros n0 H0. generalize H0.
  apply (Z_lt_induction (fun n => 0 <= n -> exists t, number t /\ value t = n)); [|exact H0].
  clear n0 H0. intros n IH Hn. destruct (Z_lt_le_dec n 10) as [L|G].
  - exists [digit n]. destruct (digit_is_digit n ltac:(lia)) as [A B]. split.
    + split; [constructor; [exact A|constructor]|].
      destruct (Z.eq_dec n 0) as [->|NZ]; [left; reflexivity|right].
      exists (digit n), []. split; [reflexivity|]. intro E. apply NZ.
      rewrite <- B, E. reflexivity.
    + change [digit n] with ([] ++ [digit n]). rewrite value_snoc, B. change (value []) with 0; lia.
  - pose proof (Z.div_mod n 10 ltac:(lia)). pose proof (Z.mod_pos_bound n 10 ltac:(lia)).
    destruct (IH (n / 10)) as (t & (D & H1) & V); [split; [apply Z.div_pos; lia|apply Z.div_lt; lia]|apply Z.div_pos; lia|].
    destruct (digit_is_digit (n mod 10) ltac:(lia)) as [A B].
    exists (t ++ [digit (n mod 10)]). split; [split|].
    + apply digits_app; split; [exact D|constructor; [exact A|constructor]].
    + right. destruct H1 as [->|(c & r & -> & N)].
      * change (value ["0"%char]) with 0 in V. lia.
      * exists c, (r ++ [digit (n mod 10)]). split; [reflexivity|exact N].
    + rewrite value_snoc, V, B. lia.
Qed.

(** The text str() gives for a number asked for. *)
Lemma py_str_number : forall n, 0 <= n -> number (py_str n) /\ value (py_str n) = n.
Proof.
  intros n H. destruct (number_exists n H) as (t & N & V).
  rewrite <- V at 1 2. rewrite py_str_value by exact N. auto.
Qed.

Lemma number_nonnil : forall t, number t -> t <> [].
Proof. intros t (_ & [->|(c & r & -> & _)]); congruence. Qed.

Lemma value_zeros : forall k t, value (repeat "0"%char k ++ t) = value t.
Proof.
  intros k t; unfold value; rewrite fold_left_app. f_equal.
  induction k; [reflexivity|]. cbn [repeat fold_left]. exact IHk.
Qed.

Lemma leading_zeros : forall t, digits t -> t <> [] ->
  exists k u, t = repeat "0"%char k ++ u /\ number u.
Proof.
  induction t as [|c t IH]; intros D NE; [congruence|].
  inversion D; subst.
  destruct (ascii_dec c "0"%char) as [->|N].
  - destruct t as [|d t'].
    + exists O, ["0"%char]. split; [reflexivity|]. split; [exact D|left; reflexivity].
    + destruct IH as (k & u & E & Nu); [assumption|congruence|].
      exists (S k), u. split; [cbn; now rewrite E|exact Nu].
  - exists O, (c :: t). split; [reflexivity|]. split; [exact D|right; eauto].
Qed.

Lemma digit_not : forall c d, is_digit c -> ~ is_digit d -> Ascii.eqb c d = false.
Proof.
  intros c d H N. apply Ascii.eqb_neq. intros ->. contradiction.
Qed.

Ltac nodigit := unfold is_digit; let H := fresh in intro H; vm_compute in H; lia.

Lemma zfill_number : forall t, number t -> zfill 5 t = repeat "0"%char (5 - List.length t) ++ t.
Proof.
  intros t (D & H). unfold zfill. destruct t as [|c r]; [now rewrite app_nil_r|].
  inversion D; subst. rewrite !(digit_not c) by (try assumption; nodigit). reflexivity.
Qed.

(** zfill writes padded numbers. *)
Lemma zfill_value : forall t, padded t -> zfill 5 (py_str (value t)) = t.
Proof.
  intros t (D & H).
  assert (NE : t <> []) by (intros ->; cbn in H; destruct H as [H|[H _]]; lia).
  destruct (leading_zeros t D NE) as (k & u & E & Nu).
  assert (V : value t = value u) by (rewrite E; apply value_zeros).
  rewrite V, py_str_value, zfill_number by exact Nu.
  assert (L : List.length t = (k + List.length u)%nat) by (rewrite E, app_length, repeat_length; reflexivity).
  destruct H as [H|(H & c & r & E2 & N)].
  - replace (5 - List.length u)%nat with k by lia. now rewrite E.
  - destruct k as [|k]; [|rewrite E2 in E; cbn in E; congruence].
    cbn in L. replace (5 - List.length u)%nat with O by lia. now rewrite E.
Qed.

Lemma zfill_padded : forall n, 0 <= n ->
  padded (zfill 5 (py_str n)) /\ value (zfill 5 (py_str n)) = n.
Proof.
  intros n H. destruct (py_str_number n H) as [(D & Hd) V].
  rewrite zfill_number by (split; assumption). rewrite value_zeros. split; [|exact V].
  split.
  - apply digits_app; split; [|exact D]. apply Forall_forall; intros x I.
    apply repeat_spec in I as ->. unfold is_digit; vm_compute; lia.
  - rewrite app_length, repeat_length.
    destruct (Nat.le_gt_cases (List.length (py_str n)) 5); [left; lia|right].
    split; [lia|]. replace (5 - List.length (py_str n))%nat with O by lia. cbn [repeat app].
    destruct Hd as [E|Hd]; [rewrite E in *; cbn in *; lia|exact Hd].
Qed.

Lemma padded_value_inj : forall a b, padded a -> padded b -> value a = value b -> a = b.
Proof.
  intros a b A B E. rewrite <- (zfill_value a A), <- (zfill_value b B), E. reflexivity.
Qed.

Lemma number_value_inj : forall a b, number a -> number b -> value a = value b -> a = b.
Proof.
  intros a b A B E. rewrite <- (py_str_value a A), <- (py_str_value b B), E. reflexivity.
Qed.

(** * int() *)

Lemma digit_not_space : forall c, is_digit c -> is_space c = false.
Proof.
  unfold is_digit, is_space; intros c H.
  destruct (Z.of_nat (nat_of_ascii c) =? 32) eqn:A; [apply Z.eqb_eq in A; lia|].
  destruct (9 <=? Z.of_nat (nat_of_ascii c)) eqn:B; destruct (Z.of_nat (nat_of_ascii c) <=? 13) eqn:C;
    destruct (28 <=? Z.of_nat (nat_of_ascii c)) eqn:E; destruct (Z.of_nat (nat_of_ascii c) <=? 31) eqn:F;
    try reflexivity; try (apply Z.leb_le in C); try (apply Z.leb_le in F); lia.
Qed.

Lemma strip_left_digits : forall t, digits t -> strip_left t = t.
Proof.
  intros [|c r] D; [reflexivity|]. inversion D; subst. cbn. now rewrite digit_not_space.
Qed.

Lemma strip_digits : forall t, digits t -> strip t = t.
Proof.
  intros t D. unfold strip. rewrite (strip_left_digits t) by exact D.
  rewrite strip_left_digits by (apply Forall_rev; exact D). apply rev_involutive.
Qed.

Lemma digit_value_ok : forall c, is_digit c -> digit_value c = Some (dv c).
Proof.
  unfold is_digit, digit_value, dv; intros c H.
  destruct (48 <=? Z.of_nat (nat_of_ascii c)) eqn:A; [|apply Z.leb_gt in A; lia].
  destruct (Z.of_nat (nat_of_ascii c) <=? 57) eqn:B; [reflexivity|apply Z.leb_gt in B; lia].
Qed.

Lemma read_digits_ok : forall t acc, digits t ->
  read_digits acc t = Some (fold_left (fun a c => 10 * a + (Z.of_nat (nat_of_ascii c) - 48)) t acc).
Proof.
  induction t as [|c t IH]; intros acc D; [reflexivity|]. inversion D; subst.
  cbn [read_digits fold_left]. rewrite digit_value_ok by assumption. now rewrite IH.
Qed.

Lemma py_int_ok : forall t, digits t -> t <> [] -> py_int t = Ok (value t).
Proof.
  intros t D NE. unfold py_int. rewrite strip_digits by exact D.
  destruct t as [|c r]; [congruence|]. inversion D; subst.
  rewrite !(digit_not c) by (try assumption; nodigit).
  unfold unsigned. now rewrite read_digits_ok.
Qed.

(** * Patterns *)

Definition plain (t : text) : Prop := Forall (fun c => c <> "*"%char /\ c <> "?"%char) t.

Lemma plain_digits : forall t, digits t -> plain t.
Proof.
  intros t D. eapply Forall_impl; [|exact D]. cbn. intros c H; split; intros ->; revert H; nodigit.
Qed.

Lemma glob_nil : forall t, glob_match [] t = true <-> t = [].
Proof. intros [|c t]; cbn; split; congruence. Qed.

Lemma glob_plain : forall u p t, plain u ->
  (glob_match (u ++ p) t = true <-> exists t', t = u ++ t' /\ glob_match p t' = true).
Proof.
  induction u as [|c u IH]; intros p t P; cbn [app].
  - split; [eauto|intros (t' & -> & H); exact H].
  - inversion P as [|? ? [N1 N2] P']; subst. cbn [glob_match].
    rewrite (proj2 (Ascii.eqb_neq c "*") N1), (proj2 (Ascii.eqb_neq c "?") N2). cbn [orb].
    destruct t as [|d t].
    + split; [discriminate|intros (t' & E & _); discriminate].
    + rewrite andb_true_iff, Ascii.eqb_eq, (IH p t P'). split.
      * intros (<- & t' & -> & H). eauto.
      * intros (t' & E & H). injection E as <- ->. eauto.
Qed.

Lemma glob_star : forall p t,
  glob_match ("*"%char :: p) t = true <-> exists a b, t = a ++ b /\ glob_match p b = true.
Proof.
  intros p t. cbn [glob_match]. rewrite Ascii.eqb_refl.
  induction t as [|c t IH].
  - rewrite orb_false_r. split.
    + intros H. exists [], []. auto.
    + intros (a & b & E & H). symmetry in E. apply app_eq_nil in E as [-> ->]. exact H.
  - rewrite orb_true_iff, IH. split.
    + intros [H|(a & b & -> & H)]; [exists [], (c :: t); auto|].
      exists (c :: a), b. auto.
    + intros ([|x a] & b & E & H); cbn in E.
      * left. now rewrite E.
      * right. injection E as <- ->. eauto.
Qed.

Lemma glob_any : forall k p t,
  glob_match (repeat "?"%char k ++ p) t = true <->
  exists a b, t = a ++ b /\ List.length a = k /\ glob_match p b = true.
Proof.
  induction k as [|k IH]; intros p t; cbn [repeat app].
  - split.
    + intros H. exists [], t. auto.
    + intros ([|x a] & b & -> & L & H); [exact H|discriminate].
  - cbn [glob_match]. change (Ascii.eqb "?" "*") with false. cbv iota.
    destruct t as [|d t].
    + split; [discriminate|]. intros ([|x a] & b & E & L & H); discriminate.
    + rewrite Ascii.eqb_refl. cbn [orb andb]. rewrite IH. split.
      * intros (a & b & -> & L & H). exists (d :: a), b. cbn. auto.
      * intros ([|x a] & b & E & L & H); [discriminate|]. cbn in E, L.
        injection E as -> ->. exists a, b. auto.
Qed.

Ltac isplain := repeat constructor; discriminate.

(** A literal text matches itself only. *)
Lemma glob_literal : forall u t, plain u -> (glob_match u t = true <-> t = u).
Proof.
  intros u t P. rewrite <- (app_nil_r u) at 1. rewrite glob_plain by exact P. split.
  - intros (t' & -> & H). apply glob_nil in H as ->. apply app_nil_r.
  - intros ->. exists []. now rewrite app_nil_r.
Qed.

(** * Parts *)

Definition nous (t : text) : Prop := ~ In "_"%char t.

Lemma nous_digits : forall t, digits t -> nous t.
Proof.
  intros t D I. eapply Forall_forall in I; [|exact D]. revert I. nodigit.
Qed.

Lemma nous_app : forall a b, nous a -> nous b -> nous (a ++ b).
Proof. unfold nous; intros a b A B I. apply in_app_iff in I. tauto. Qed.

Lemma split_cons : forall t, exists p ps, split_us t = p :: ps.
Proof.
  destruct t as [|c t]; [cbn; eauto|]. cbn.
  destruct (Ascii.eqb c "_"); [eauto|]. destruct (split_us t); eauto.
Qed.

Lemma split_join : forall a b, split_us (a ++ "_"%char :: b) = split_us a ++ split_us b.
Proof.
  induction a as [|c a IH]; intros b; [reflexivity|]. cbn [app split_us].
  destruct (Ascii.eqb c "_"); [now rewrite IH|]. rewrite IH.
  destruct (split_cons a) as (p & ps & ->). reflexivity.
Qed.

Lemma split_nous : forall a, nous a -> split_us a = [a].
Proof.
  induction a as [|c a IH]; intros N; [reflexivity|]. cbn [split_us].
  destruct (Ascii.eqb_spec c "_") as [->|_]; [exfalso; apply N; left; reflexivity|].
  rewrite IH; [reflexivity|]. intro I; apply N; right; exact I.
Qed.

Lemma split_head : forall a b, nous a -> exists p ps, split_us (a ++ b) = (a ++ p) :: ps.
Proof.
  induction a as [|c a IH]; intros b N; cbn [app].
  - apply split_cons.
  - cbn [split_us]. destruct (Ascii.eqb_spec c "_") as [->|_]; [exfalso; apply N; left; reflexivity|].
    destruct (IH b) as (p & ps & ->); [intro I; apply N; right; exact I|]. eauto.
Qed.

(** * Ends of texts *)

Lemma same_tail : forall (a b x y : text), List.length x = List.length y ->
  a ++ x = b ++ y -> a = b /\ x = y.
Proof.
  induction a as [|c a IH]; intros [|d b] x y L E; cbn in E.
  - auto.
  - exfalso. apply (f_equal (@List.length ascii)) in E. cbn in E. rewrite app_length in E. lia.
  - exfalso. apply (f_equal (@List.length ascii)) in E. cbn in E. rewrite app_length in E. lia.
  - injection E as <- E. destruct (IH b x y L E) as [-> ->]. auto.
Qed.

Lemma digits_prefix : forall w t x y, digits w -> digits t ->
  w ++ x = t ++ "_"%char :: y -> exists r, t = w ++ r.
Proof.
  induction w as [|c w IH]; intros t x y W T E; [exists t; reflexivity|].
  inversion W; subst. destruct t as [|d t]; cbn in E.
  - injection E as -> _. exfalso. revert H1. nodigit.
  - injection E as <- E. inversion T; subst. destruct (IH t x y H2 H4 E) as (r & ->). exists r. reflexivity.
Qed.

Lemma begins_spec : forall w t, begins w t = true <-> exists r, t = w ++ r.
Proof.
  intros w t. unfold begins, text_eqb.
  destruct (list_eq_dec ascii_dec w (firstn (List.length w) t)) as [E|N]; split; intros H; try congruence.
  - exists (skipn (List.length w) t). rewrite <- (firstn_skipn (List.length w) t) at 1. now rewrite <- E.
  - destruct H as (r & ->). exfalso. apply N.
    rewrite firstn_app, firstn_all, Nat.sub_diag. cbn. symmetry; apply app_nil_r.
Qed.

Lemma same_kind_spec : forall a b, same_kind a b = true <-> a = b.
Proof. intros [] []; cbn; split; congruence. Qed.

Lemma ending_eq : forall s, suffix_value s ++ lit "." ++ filetype s = ending s.
Proof. intros []; reflexivity. Qed.

(** Two texts with different ends. *)
Ltac tails n E :=
  let H := fresh in
  pose proof (f_equal (fun t => firstn n (rev t)) E) as H;
  cbv beta in H; repeat rewrite rev_app_distr in H; cbn in H.

(** * Which entries a pattern takes *)

Lemma plain_padded : forall t, padded t -> plain t.
Proof. intros t (D & _); now apply plain_digits. Qed.

Lemma plain_ending : forall s, plain (ending s).
Proof. intros []; isplain. Qed.

Lemma padded_nonnil : forall t, padded t -> t <> [].
Proof. intros t (_ & H) ->. cbn in H. destruct H as [H|[H _]]; lia. Qed.

Lemma pat_new_id : forall num i s t, 0 <= i ->
  let w := zfill 5 (py_str i) in
  glob_match (pattern_1 num (Some i) s) t = true <->
  exists a q, t = lit "FOURD_" ++ a ++ lit "_" ++ w ++ lit "_" ++ q ++ ending s /\ List.length q = 5%nat.
Proof.
  intros num i s t Hi w. destruct (zfill_padded i Hi) as [P _]. fold w in P.
  assert (E : pattern_1 num (Some i) s =
    lit "FOURD_" ++ "*"%char :: lit "_" ++ w ++ lit "_" ++ repeat "?"%char 5 ++ ending s)
    by (destruct s; reflexivity).
  rewrite E. clear E. rewrite glob_plain by isplain. split.
  - intros (t1 & -> & H). apply glob_star in H as (a & b & -> & H).
    apply glob_plain in H as (t2 & -> & H); [|isplain].
    apply glob_plain in H as (t3 & -> & H); [|now apply plain_padded].
    apply glob_plain in H as (t4 & -> & H); [|isplain].
    apply glob_any in H as (q & t5 & -> & L & H).
    apply glob_literal in H as ->; [|apply plain_ending]. eauto.
  - intros (a & q & -> & L). eexists; split; [reflexivity|].
    apply glob_star. exists a. eexists; split; [reflexivity|].
    apply glob_plain; [isplain|]. eexists; split; [reflexivity|].
    apply glob_plain; [now apply plain_padded|]. eexists; split; [reflexivity|].
    apply glob_plain; [isplain|]. eexists; split; [reflexivity|].
    apply glob_any. exists q, (ending s). repeat split; auto.
    apply glob_literal; [apply plain_ending|reflexivity].
Qed.

Lemma pat_new_num : forall n s t, 0 <= n ->
  let w := zfill 5 (py_str n) in
  glob_match (pattern_1 (Some n) None s) t = true <->
  exists a b, t = lit "FOURD_" ++ a ++ lit "_" ++ b ++ lit "_" ++ w ++ ending s.
Proof.
  intros n s t Hn w. destruct (zfill_padded n Hn) as [P _]. fold w in P.
  assert (E : pattern_1 (Some n) None s =
    lit "FOURD_" ++ "*"%char :: lit "_" ++ "*"%char :: lit "_" ++ w ++ ending s)
    by (destruct s; reflexivity).
  rewrite E. clear E. rewrite glob_plain by isplain. split.
  - intros (t1 & -> & H). apply glob_star in H as (a & b & -> & H).
    apply glob_plain in H as (t2 & -> & H); [|isplain].
    apply glob_star in H as (b' & t3 & -> & H).
    apply glob_plain in H as (t4 & -> & H); [|isplain].
    apply glob_plain in H as (t5 & -> & H); [|now apply plain_padded].
    apply glob_literal in H as ->; [|apply plain_ending]. eauto.
  - intros (a & b & ->). eexists; split; [reflexivity|].
    apply glob_star. exists a. eexists; split; [reflexivity|].
    apply glob_plain; [isplain|]. eexists; split; [reflexivity|].
    apply glob_star. exists b. eexists; split; [reflexivity|].
    apply glob_plain; [isplain|]. eexists; split; [reflexivity|].
    apply glob_plain; [now apply plain_padded|]. eexists; split; [reflexivity|].
    apply glob_literal; [apply plain_ending|reflexivity].
Qed.

Lemma plain_number : forall t, number t -> plain t.
Proof. intros t (D & _); now apply plain_digits. Qed.

Lemma pat_old_id : forall num i th s t, 0 <= i ->
  glob_match (pattern_0 num (Some i) th s) t = true <->
  exists a b, t = a ++ lit "_id" ++ py_str i ++ b ++ ending s.
Proof.
  intros num i th s t Hi. destruct (py_str_number i Hi) as [P _].
  assert (E : pattern_0 num (Some i) th s =
    "*"%char :: lit "_id" ++ py_str i ++ "*"%char :: ending s)
    by (destruct s; reflexivity).
  rewrite E. clear E. split.
  - intros H. apply glob_star in H as (a & b & -> & H).
    apply glob_plain in H as (t2 & -> & H); [|isplain].
    apply glob_plain in H as (t3 & -> & H); [|now apply plain_number].
    apply glob_star in H as (b' & t4 & -> & H).
    apply glob_literal in H as ->; [|apply plain_ending]. eauto.
  - intros (a & b & ->).
    apply glob_star. exists a. eexists; split; [reflexivity|].
    apply glob_plain; [isplain|]. eexists; split; [reflexivity|].
    apply glob_plain; [now apply plain_number|]. eexists; split; [reflexivity|].
    apply glob_star. exists b. eexists; split; [reflexivity|].
    apply glob_literal; [apply plain_ending|reflexivity].
Qed.

Lemma pat_old_num : forall n s t, 0 <= n ->
  glob_match (pattern_0 (Some n) None None s) t = true <->
  exists b, t = lit "data_scan" ++ py_str n ++ b ++ lit "electrons" ++ ending s.
Proof.
  intros n s t Hn. destruct (py_str_number n Hn) as [P _].
  assert (E : pattern_0 (Some n) None None s =
    lit "data_scan" ++ py_str n ++ "*"%char :: lit "electrons" ++ ending s)
    by (destruct s; reflexivity).
  rewrite E. clear E. rewrite glob_plain by isplain. split.
  - intros (t1 & -> & H).
    apply glob_plain in H as (t3 & -> & H); [|now apply plain_number].
    apply glob_star in H as (b & t4 & -> & H).
    apply glob_plain in H as (t5 & -> & H); [|isplain].
    apply glob_literal in H as ->; [|apply plain_ending]. eauto.
  - intros (b & ->). eexists; split; [reflexivity|].
    apply glob_plain; [now apply plain_number|]. eexists; split; [reflexivity|].
    apply glob_star. exists b. eexists; split; [reflexivity|].
    apply glob_plain; [isplain|]. eexists; split; [reflexivity|].
    apply glob_literal; [apply plain_ending|reflexivity].
Qed.

Lemma pat_old_th : forall n h s t, 0 <= n -> 0 <= h ->
  glob_match (pattern_0 (Some n) None (Some h) s) t = true <->
  t = lit "data_scan" ++ py_str n ++ lit "_th" ++ py_str h ++ lit "_electrons" ++ ending s.
Proof.
  intros n h s t Hn Hh. destruct (py_str_number n Hn) as [P _]. destruct (py_str_number h Hh) as [Q _].
  assert (E : pattern_0 (Some n) None (Some h) s =
    lit "data_scan" ++ py_str n ++ lit "_th" ++ py_str h ++ lit "_electrons" ++ ending s)
    by (destruct s; reflexivity).
  rewrite E. apply glob_literal.
  repeat (apply Forall_app; split); try isplain; try (now apply plain_number). apply plain_ending.
Qed.

Lemma split_end : forall u s, nous u ->
  split_us (u ++ ending s) =
  match s with
  | Standard => [u ++ lit ".h5"]
  | Offsets => [u; lit "offsets.emd"]
  | Centered => [u; lit "centered.h5"]
  end.
Proof.
  intros u s N. destruct s; cbn [ending].
  - apply split_nous. apply nous_app; [exact N|]. intro I; cbn in I; intuition discriminate.
  - change (lit "_offsets.emd") with ("_"%char :: lit "offsets.emd"). rewrite split_join, split_nous by exact N. reflexivity.
  - change (lit "_centered.h5") with ("_"%char :: lit "centered.h5"). rewrite split_join, split_nous by exact N. reflexivity.
Qed.

(** A text that begins with a digit is not one of the words. *)
Lemma digit_word : forall u x w c, digits u -> u <> [] -> u ++ x = c :: w -> ~ is_digit c -> False.
Proof.
  intros [|d u] x w c D NE E N; [congruence|]. cbn in E. injection E as -> _. inversion D; contradiction.
Qed.

(** The text and the kind of the file are read off the last parts. *)
Lemma split_end_eq : forall l l' u u' s s', nous u -> nous u' -> digits u -> digits u' -> u <> [] -> u' <> [] ->
  l ++ split_us (u ++ ending s) = l' ++ split_us (u' ++ ending s') -> l = l' /\ u = u' /\ s = s'.
Proof.
  intros l l' u u' s s' N N' D D' NE NE' E. rewrite !split_end in E by assumption.
  destruct s, s'.
  - apply app_inj_tail in E as [-> E]. apply same_tail in E as [-> _]; [|reflexivity]. auto.
  - change [u'; lit "offsets.emd"] with ([u'] ++ [lit "offsets.emd"]) in E. rewrite app_assoc in E.
    apply app_inj_tail in E as [_ E]. exfalso. eapply digit_word in E; eauto. nodigit.
  - change [u'; lit "centered.h5"] with ([u'] ++ [lit "centered.h5"]) in E. rewrite app_assoc in E.
    apply app_inj_tail in E as [_ E]. exfalso. eapply digit_word in E; eauto. nodigit.
  - change [u; lit "offsets.emd"] with ([u] ++ [lit "offsets.emd"]) in E. rewrite app_assoc in E.
    apply app_inj_tail in E as [_ E]. exfalso. symmetry in E. eapply digit_word in E; eauto. nodigit.
  - change [u; lit "offsets.emd"] with ([u] ++ [lit "offsets.emd"]) in E.
    change [u'; lit "offsets.emd"] with ([u'] ++ [lit "offsets.emd"]) in E. rewrite !app_assoc in E.
    apply app_inj_tail in E as [E _]. apply app_inj_tail in E as [-> ->]. auto.
  - change [u; lit "offsets.emd"] with ([u] ++ [lit "offsets.emd"]) in E.
    change [u'; lit "centered.h5"] with ([u'] ++ [lit "centered.h5"]) in E. rewrite !app_assoc in E.
    apply app_inj_tail in E as [_ E]. discriminate.
  - change [u; lit "centered.h5"] with ([u] ++ [lit "centered.h5"]) in E. rewrite app_assoc in E.
    apply app_inj_tail in E as [_ E]. exfalso. symmetry in E. eapply digit_word in E; eauto. nodigit.
  - change [u; lit "centered.h5"] with ([u] ++ [lit "centered.h5"]) in E.
    change [u'; lit "offsets.emd"] with ([u'] ++ [lit "offsets.emd"]) in E. rewrite !app_assoc in E.
    apply app_inj_tail in E as [_ E]. discriminate.
  - change [u; lit "centered.h5"] with ([u] ++ [lit "centered.h5"]) in E.
    change [u'; lit "centered.h5"] with ([u'] ++ [lit "centered.h5"]) in E. rewrite !app_assoc in E.
    apply app_inj_tail in E as [E _]. apply app_inj_tail in E as [-> ->]. auto.
Qed.

Lemma split_lit : forall a b, split_us (a ++ lit "_" ++ b) = split_us a ++ split_us b.
Proof. intros; apply split_join. Qed.

Lemma new_num_taken : forall n s e, 0 <= n -> wf_entry e ->
  glob_match (pattern_1 (Some n) None s) (name_of e) = new_with_num n s e.
Proof.
  intros n s e Hn W. apply eq_true_iff_eq. rewrite pat_new_num by exact Hn.
  destruct (zfill_padded n Hn) as [P V]. set (w := zfill 5 (py_str n)) in *.
  destruct e as [d tm it nt s'|? ? s'|? ? s'|name]; cbn [new_with_num name_of].
  - destruct W as (Dd & Dt & Pi & Pn). rewrite andb_true_iff, Z.eqb_eq, same_kind_spec. split.
    + intros (a & b & E). apply app_inv_head in E.
      apply (f_equal split_us) in E. rewrite !split_lit in E. rewrite !app_assoc in E.
      apply split_end_eq in E as (_ & -> & ->);
        try (apply nous_digits; apply Pn); try (apply nous_digits; apply P);
        try apply Pn; try apply P; try (now apply padded_nonnil). auto.
    + intros (Vn & ->). assert (nt = w) by (apply padded_value_inj; [assumption..|now rewrite V]). subst nt.
      exists d, (tm ++ lit "_" ++ it). now rewrite <- !app_assoc.
  - split; [|discriminate]. intros (a & b & E). discriminate.
  - split; [|discriminate]. intros (a & b & E). discriminate.
  - split; [|discriminate]. intros (a & b & E). destruct W as (W & _). exfalso. eapply W; exact E.
Qed.

Lemma five_chars : forall t : text, List.length t = 5%nat ->
  exists a b c d e, t = [a; b; c; d; e].
Proof.
  intros t L. do 5 (destruct t as [|? t]; [discriminate|]). destruct t; [|discriminate].
  repeat eexists.
Qed.

Lemma new_id_taken : forall num i s e, 0 <= i -> wf_entry e -> five e ->
  glob_match (pattern_1 num (Some i) s) (name_of e) = new_with_id i s e.
Proof.
  intros num i s e Hi W F. apply eq_true_iff_eq. rewrite pat_new_id by exact Hi.
  destruct (zfill_padded i Hi) as [P V]. set (w := zfill 5 (py_str i)) in *.
  destruct e as [d tm it nt s'|? ? s'|? ? s'|name]; cbn [new_with_id name_of].
  - destruct W as (Dd & Dt & Pi & Pn). cbn in F. rewrite andb_true_iff, Z.eqb_eq, same_kind_spec. split.
    + intros (a & q & E & L). apply app_inv_head in E.
      assert (K : s' = s).
      { destruct (five_chars nt F) as (n1 & n2 & n3 & n4 & n5 & ->).
        destruct (five_chars q L) as (q1 & q2 & q3 & q4 & q5 & ->).
        destruct s, s'; try reflexivity; exfalso; tails 9%nat E; discriminate. }
      subst s'. split; [|reflexivity].
      rewrite !app_assoc in E. apply same_tail in E as [E _]; [|reflexivity].
      apply same_tail in E as [E _]; [|congruence]. apply same_tail in E as [E _]; [|reflexivity].
      apply (f_equal split_us) in E. rewrite <- !app_assoc, !split_lit in E.
      rewrite (split_nous w) in E by (apply nous_digits; apply P).
      rewrite (split_nous it) in E by (apply nous_digits; apply Pi).
      rewrite !app_assoc in E. apply app_inj_tail in E as [_ ->]. exact V.
    + intros (Vn & ->). assert (it = w) by (apply padded_value_inj; [assumption..|now rewrite V]). subst it.
      exists (d ++ lit "_" ++ tm), nt. split; [|exact F]. now rewrite <- !app_assoc.
  - split; [|discriminate]. intros (a & b & E & _). discriminate.
  - split; [|discriminate]. intros (a & b & E & _). discriminate.
  - split; [|discriminate]. intros (a & b & E & _). destruct W as (W & _). exfalso. eapply W; exact E.
Qed.

(** No part of a name of another sort begins with "id". *)
Lemma id_part : forall (a b w : text) , nous w ->
  exists r, In (lit "id" ++ w ++ r) (split_us (a ++ lit "_id" ++ w ++ b)).
Proof.
  intros a b w N. change (lit "_id" ++ w ++ b) with (lit "_" ++ (lit "id" ++ w ++ b)).
  rewrite split_lit, app_assoc.
  destruct (split_head (lit "id" ++ w) b) as (p & ps & E).
  - apply nous_app; [|exact N]. intro I; cbn in I; intuition discriminate.
  - rewrite E. exists p. rewrite app_assoc. apply in_or_app; right; left; reflexivity.
Qed.

Lemma in_split_end : forall u s x, nous u -> In x (split_us (u ++ ending s)) ->
  (exists y, x = u ++ y) \/ x = lit "offsets.emd" \/ x = lit "centered.h5".
Proof.
  intros u s x N I. rewrite split_end in I by exact N.
  destruct s; cbn in I; destruct I as [<-|I]; try tauto.
  - left; eexists; reflexivity.
  - left; exists []; symmetry; apply app_nil_r.
  - destruct I as [<-|[]]; auto.
  - left; exists []; symmetry; apply app_nil_r.
  - destruct I as [<-|[]]; auto.
Qed.

Lemma not_id_digits : forall u x r, digits u -> u ++ x = lit "id" ++ r -> u <> [] -> False.
Proof.
  intros u x r D E NE. cbn in E. eapply digit_word in E; eauto. nodigit.
Qed.

Lemma nous_electrons : nous (lit "electrons").
Proof. intro I; cbn in I; intuition discriminate. Qed.

Lemma split_old : forall k n i s, nous (lit k ++ i) -> digits n ->
  split_us (lit "data_scan" ++ n ++ lit "_" ++ lit k ++ i ++ lit "_electrons" ++ ending s) =
  [lit "data"; lit "scan" ++ n; lit k ++ i] ++ split_us (lit "electrons" ++ ending s).
Proof.
  intros k n i s N D. change (lit "data_scan" ++ n ++ lit "_" ++ lit k ++ i ++ lit "_electrons" ++ ending s)
    with (lit "data" ++ lit "_" ++ (lit "scan" ++ n ++ lit "_" ++ lit k ++ i ++ lit "_" ++ lit "electrons" ++ ending s)).
  rewrite split_lit, (split_nous (lit "data")) by (intro I; cbn in I; intuition discriminate).
  rewrite (app_assoc (lit "scan")), split_lit.
  rewrite (split_nous (lit "scan" ++ n)) by
    (apply nous_app; [intro I; cbn in I; intuition discriminate|now apply nous_digits]).
  rewrite (app_assoc (lit k)), split_lit, (split_nous (lit k ++ i)) by exact N. reflexivity.
Qed.

Lemma split_new : forall d t i n s, digits d -> digits t -> digits i ->
  split_us (lit "FOURD_" ++ d ++ lit "_" ++ t ++ lit "_" ++ i ++ lit "_" ++ n ++ s) =
  [lit "FOURD"; d; t; i] ++ split_us (n ++ s).
Proof.
  intros d t i n s D T I.
  change (lit "FOURD_" ++ d ++ lit "_" ++ t ++ lit "_" ++ i ++ lit "_" ++ n ++ s)
    with (lit "FOURD" ++ lit "_" ++ d ++ lit "_" ++ t ++ lit "_" ++ i ++ lit "_" ++ n ++ s).
  rewrite !split_lit, !split_nous by (try (now apply nous_digits); intro J; cbn in J; intuition discriminate).
  reflexivity.
Qed.

Lemma old_id_taken : forall num i th s e, 0 <= i -> wf_entry e ->
  glob_match (pattern_0 num (Some i) th s) (name_of e) = old_seen_by_id (py_str i) s e.
Proof.
  intros num i th s e Hi W. apply eq_true_iff_eq. rewrite pat_old_id by exact Hi.
  destruct (py_str_number i Hi) as [P V]. set (w := py_str i) in *.
  assert (Nw : nous w) by (apply nous_digits; apply P).
  destruct e as [d tm it nt s'|nt it s'|nt ht s'|name]; cbn [old_seen_by_id name_of].
  - split; [|discriminate]. destruct W as (Dd & Dt & (Di & _) & Pn). intros (a & b & E). exfalso.
    destruct (id_part a (b ++ ending s) w Nw) as (r & I).
    rewrite <- E, split_new in I by assumption.
    assert (Z : forall u x r, digits u -> u ++ x = lit "id" ++ r -> u <> [] -> False) by exact not_id_digits.
    assert (Y : forall u, digits u -> u = lit "id" ++ w ++ r -> False).
    { intros u D Q. destruct u; [discriminate|]. eapply (Z _ []); [exact D|rewrite app_nil_r; exact Q|congruence]. }
    apply in_app_iff in I as [I|I].
    + cbn in I. destruct I as [I|[I|[I|[I|[]]]]]; [discriminate| | |];
        match type of I with ?u = _ => refine (Y u _ I); assumption end.
    + apply in_split_end in I as [(y & I)|[I|I]]; try discriminate; [|apply nous_digits; apply Pn].
      symmetry in I. eapply Z in I; [exact I|apply Pn|now apply padded_nonnil].
  - destruct W as (Pn & Pi).
    rewrite andb_true_iff, begins_spec, orb_true_iff, same_kind_spec.
    assert (Ni : nous (lit "id" ++ it)).
    { apply nous_app; [intro I; cbn in I; intuition discriminate|apply nous_digits; apply Pi]. }
    split.
    + intros (a & b & E). split.
      * destruct (id_part a (b ++ ending s) w Nw) as (r & I).
        rewrite <- E in I.
        change (lit "_id" ++ it ++ lit "_electrons" ++ ending s') with (lit "_" ++ lit "id" ++ it ++ lit "_electrons" ++ ending s') in I.
        rewrite split_old in I by (try assumption; apply Pn).
        apply in_app_iff in I as [I|I].
        -- cbn [In] in I. destruct I as [I|[I|[I|[]]]]; [discriminate|discriminate|].
           apply app_inv_head in I. eauto.
        -- apply in_split_end in I as [(y & I)|[I|I]]; try discriminate. apply nous_electrons.
      * destruct s, s'; auto; exfalso; tails 3%nat E; try discriminate.
        clear H. tails 5%nat E. discriminate.
    + intros ((r & ->) & K). exists (lit "data_scan" ++ nt).
      exists (r ++ lit "_electrons" ++ match s, s' with Standard, Centered => lit "_centered" | _, _ => [] end).
      destruct K as [->|K].
      * rewrite <- !app_assoc. destruct s; reflexivity.
      * destruct s, s'; try discriminate. rewrite <- !app_assoc. reflexivity.
  - destruct W as (Pn & Ph). split; [|discriminate]. intros (a & b & E). exfalso.
    assert (Ni : nous (lit "th" ++ ht)).
    { apply nous_app; [intro I; cbn in I; intuition discriminate|apply nous_digits; apply Ph]. }
    destruct (id_part a (b ++ ending s) w Nw) as (r & I).
    rewrite <- E in I.
    change (lit "_th" ++ ht ++ lit "_electrons" ++ ending s') with (lit "_" ++ lit "th" ++ ht ++ lit "_electrons" ++ ending s') in I.
    rewrite split_old in I by (try assumption; apply Pn).
    apply in_app_iff in I as [I|I].
    + cbn [In] in I. destruct I as [I|[I|[I|[]]]]; discriminate.
    + apply in_split_end in I as [(y & I)|[I|I]]; try discriminate. apply nous_electrons.
  - split; [|discriminate]. intros (a & b & E). destruct W as (_ & _ & W). exfalso. eapply W; exact E.
Qed.

Lemma old_num_taken : forall n s e, 0 <= n -> wf_entry e ->
  glob_match (pattern_0 (Some n) None None s) (name_of e) = old_seen_by_num (py_str n) s e.
Proof.
  intros n s e Hn W. apply eq_true_iff_eq. rewrite pat_old_num by exact Hn.
  destruct (py_str_number n Hn) as [P V]. set (w := py_str n) in *.
  destruct e as [d tm it nt s'|nt it s'|nt ht s'|name]; cbn [old_seen_by_num name_of].
  - split; [|discriminate]. intros (b & E). discriminate.
  - destruct W as (Pn & Pi). rewrite andb_true_iff, begins_spec, same_kind_spec. split.
    + intros (b & E). split.
      * apply app_inv_head in E. symmetry in E. eapply digits_prefix in E; [exact E|apply P|apply Pn].
      * destruct s, s'; auto; exfalso; tails 5%nat E; discriminate.
    + intros ((r & ->) & ->). exists (r ++ lit "_id" ++ it ++ lit "_").
      rewrite <- !app_assoc. reflexivity.
  - destruct W as (Pn & Ph). rewrite andb_true_iff, begins_spec, same_kind_spec. split.
    + intros (b & E). split.
      * apply app_inv_head in E. symmetry in E. eapply digits_prefix in E; [exact E|apply P|apply Pn].
      * destruct s, s'; auto; exfalso; tails 5%nat E; discriminate.
    + intros ((r & ->) & ->). exists (r ++ lit "_th" ++ ht ++ lit "_").
      rewrite <- !app_assoc. reflexivity.
  - split; [|discriminate]. intros (b & E). destruct W as (_ & W & _). exfalso. eapply W; exact E.
Qed.

Lemma old_th_taken : forall n h s e, 0 <= n -> 0 <= h -> wf_entry e ->
  glob_match (pattern_0 (Some n) None (Some h) s) (name_of e) = old_with_th n h s e.
Proof.
  intros n h s e Hn Hh W. apply eq_true_iff_eq. rewrite pat_old_th by assumption.
  destruct (py_str_number n Hn) as [P V]. destruct (py_str_number h Hh) as [Q U].
  set (w := py_str n) in *. set (x := py_str h) in *.
  assert (Nth : forall t, digits t -> nous (lit "th" ++ t)).
  { intros t D. apply nous_app; [intro I; cbn in I; intuition discriminate|now apply nous_digits]. }
  assert (Nid : forall t, digits t -> nous (lit "id" ++ t)).
  { intros t D. apply nous_app; [intro I; cbn in I; intuition discriminate|now apply nous_digits]. }
  destruct e as [d tm it nt s'|nt it s'|nt ht s'|name]; cbn [old_with_th name_of].
  - split; [|discriminate]. intros E. discriminate.
  - destruct W as (Pn & Pi). split; [|discriminate]. intros E. exfalso.
    apply (f_equal split_us) in E.
    change (lit "_id" ++ it ++ lit "_electrons" ++ ending s') with (lit "_" ++ lit "id" ++ it ++ lit "_electrons" ++ ending s') in E.
    change (lit "_th" ++ x ++ lit "_electrons" ++ ending s) with (lit "_" ++ lit "th" ++ x ++ lit "_electrons" ++ ending s) in E.
    rewrite !split_old in E by (first [apply Pn|apply P|apply Nth, Q|apply Nid, Pi]).
    discriminate.
  - destruct W as (Pn & Ph). rewrite !andb_true_iff, !Z.eqb_eq, same_kind_spec. split.
    + intros E.
      assert (K : s' = s) by (destruct s, s'; auto; exfalso; tails 5%nat E; discriminate).
      apply (f_equal split_us) in E.
      change (lit "_th" ++ ht ++ lit "_electrons" ++ ending s') with (lit "_" ++ lit "th" ++ ht ++ lit "_electrons" ++ ending s') in E.
      change (lit "_th" ++ x ++ lit "_electrons" ++ ending s) with (lit "_" ++ lit "th" ++ x ++ lit "_electrons" ++ ending s) in E.
      rewrite !split_old in E by (first [apply Pn|apply P|apply Nth, Q|apply Nth, Ph]).
      cbn [app] in E. injection E as E1 E2 _.
      rewrite E1, E2. auto.
    + intros ((Vn & Vh) & ->).
      replace nt with w by (apply number_value_inj; [assumption..|congruence]).
      replace ht with x by (apply number_value_inj; [assumption..|congruence]). reflexivity.
  - split; [|discriminate]. intros E. destruct W as (_ & W & _). exfalso. eapply W; exact E.
Qed.

(** * Reading the name *)

Lemma starts_no : forall c p t, ~ In c t -> starts (c :: p) t = false.
Proof.
  intros c p [|d t] N; [reflexivity|]. cbn.
  destruct (Ascii.eqb_spec c d) as [->|_]; [exfalso; apply N; left; reflexivity|reflexivity].
Qed.

Lemma occurs_no : forall c p t, ~ In c t -> occurs (c :: p) t = false.
Proof.
  induction t as [|d t IH]; intros N; [reflexivity|].
  cbn [occurs]. rewrite starts_no by exact N. apply IH. intro I; apply N; right; exact I.
Qed.

Lemma digits_not_in : forall t c, digits t -> ~ is_digit c -> ~ In c t.
Proof. intros t c D N I. apply N. eapply Forall_forall in I; [|exact D]. exact I. Qed.

Lemma starts_app : forall p t, starts p (p ++ t) = true.
Proof. induction p; intros; cbn; [reflexivity|]. rewrite Ascii.eqb_refl; apply IHp. Qed.

Lemma occurs_app : forall p t, occurs p (p ++ t) = true.
Proof.
  intros p t. destruct (p ++ t) as [|c r] eqn:E.
  - apply app_eq_nil in E as [-> ->]. reflexivity.
  - cbn [occurs]. rewrite <- E, starts_app. reflexivity.
Qed.

Lemma read_electrons : forall s num id,
  read_parts (split_us (lit "electrons" ++ ending s)) num id = Ok (num, id).
Proof. intros [] num id; reflexivity. Qed.

Lemma occurs_scan : forall t, digits t -> occurs (lit "id") (lit "scan" ++ t) = false.
Proof.
  intros t D. apply occurs_no. intro I. apply in_app_iff in I as [I|I].
  - cbn in I; intuition discriminate.
  - revert I. apply digits_not_in; [exact D|nodigit].
Qed.

Lemma read_scan : forall t ps num id, digits t -> t <> [] ->
  read_parts ((lit "scan" ++ t) :: ps) num id = read_parts ps (Some (value t)) id.
Proof.
  intros t ps num id D NE. cbn [read_parts]. rewrite occurs_scan by exact D.
  rewrite occurs_app. change (skipn 4 (lit "scan" ++ t)) with t.
  rewrite py_int_ok by assumption. reflexivity.
Qed.

Lemma read_id : forall t ps num id, digits t -> t <> [] ->
  read_parts ((lit "id" ++ t) :: ps) num id = read_parts ps num (Some (value t)).
Proof.
  intros t ps num id D NE. cbn [read_parts].
  rewrite occurs_app. change (skipn 2 (lit "id" ++ t)) with t.
  rewrite py_int_ok by assumption. reflexivity.
Qed.

Lemma read_th : forall t ps num id, digits t ->
  read_parts ((lit "th" ++ t) :: ps) num id = read_parts ps num id.
Proof.
  intros t ps num id D. cbn [read_parts].
  assert (A : occurs (lit "id") (lit "th" ++ t) = false).
  { apply occurs_no; intro I; apply in_app_iff in I as [I|I]; [cbn in I; intuition discriminate|].
    revert I; apply digits_not_in; [exact D|nodigit]. }
  assert (B : occurs (lit "scan") (lit "th" ++ t) = false).
  { apply occurs_no; intro I; apply in_app_iff in I as [I|I]; [cbn in I; intuition discriminate|].
    revert I; apply digits_not_in; [exact D|nodigit]. }
  rewrite A, B. reflexivity.
Qed.

Lemma read_old : forall n i s num id, number n -> number i ->
  read_parts (split_us (name_of (Old n i s))) num id = Ok (Some (value n), Some (value i)).
Proof.
  intros n i s num id Pn Pi. cbn [name_of].
  change (lit "_id" ++ i ++ lit "_electrons" ++ ending s) with (lit "_" ++ lit "id" ++ i ++ lit "_electrons" ++ ending s).
  rewrite split_old; [|apply nous_app; [intro I; cbn in I; intuition discriminate|apply nous_digits; apply Pi]|apply Pn].
  cbn [app]. change (read_parts (lit "data" :: ?p) num id) with (read_parts p num id).
  pose proof (number_nonnil n Pn). pose proof (number_nonnil i Pi).
  destruct Pn as (Dn & _), Pi as (Di & _).
  change (read_parts ([lit "data"] ++ [lit "scan" ++ n] ++ [lit "id" ++ i] ++ split_us (lit "electrons" ++ ending s)) num id = Ok (Some (value n), Some (value i))).
  cbn [app]. change (read_parts (lit "data" :: (lit "scan" ++ n) :: (lit "id" ++ i) :: split_us (lit "electrons" ++ ending s)) num id)
    with (read_parts ((lit "scan" ++ n) :: (lit "id" ++ i) :: split_us (lit "electrons" ++ ending s)) num id).
  rewrite read_scan, read_id, read_electrons by assumption. reflexivity.
Qed.

Lemma read_old_th : forall n h s num id, number n -> number h ->
  read_parts (split_us (name_of (OldTh n h s))) num id = Ok (Some (value n), id).
Proof.
  intros n h s num id Pn Ph. cbn [name_of].
  change (lit "_th" ++ h ++ lit "_electrons" ++ ending s) with (lit "_" ++ lit "th" ++ h ++ lit "_electrons" ++ ending s).
  rewrite split_old; [|apply nous_app; [intro I; cbn in I; intuition discriminate|apply nous_digits; apply Ph]|apply Pn].
  pose proof (number_nonnil n Pn).
  destruct Pn as (Dn & _), Ph as (Dh & _). cbn [app].
  change (read_parts (lit "data" :: (lit "scan" ++ n) :: (lit "th" ++ h) :: split_us (lit "electrons" ++ ending s)) num id = Ok (Some (value n), id)).
  change (read_parts (lit "data" :: (lit "scan" ++ n) :: (lit "th" ++ h) :: split_us (lit "electrons" ++ ending s)) num id)
    with (read_parts ((lit "scan" ++ n) :: (lit "th" ++ h) :: split_us (lit "electrons" ++ ending s)) num id).
  rewrite read_scan, read_th, read_electrons by assumption. reflexivity.
Qed.

Lemma rfind_last : forall b x, ~ In "."%char x ->
  rfind_dot (b ++ "."%char :: x) = Some (List.length b).
Proof.
  intros b x N. assert (R : rfind_dot x = None).
  { induction x as [|c x IH]; [reflexivity|]. cbn. rewrite IH by (intro I; apply N; right; exact I).
    destruct (Ascii.eqb_spec c ".") as [->|_]; [exfalso; apply N; left; reflexivity|reflexivity]. }
  induction b as [|c b IH]; cbn.
  - now rewrite R.
  - now rewrite IH.
Qed.

Lemma stem_last : forall b x, b <> [] -> x <> [] -> ~ In "."%char x ->
  stem (b ++ lit "." ++ x) = b.
Proof.
  intros b x Nb Nx N. unfold stem. change (lit "." ++ x) with ("."%char :: x).
  rewrite rfind_last by exact N. rewrite app_length. cbn [List.length].
  destruct b as [|c b]; [congruence|]. destruct x as [|d x]; [congruence|]. cbn [List.length].
  replace (0 <? Datatypes.S (List.length b))%nat with true by (symmetry; apply Nat.ltb_lt; lia).
  replace (Datatypes.S (List.length b) <? Datatypes.S (List.length b) + Datatypes.S (Datatypes.S (List.length x)) - 1)%nat with true
    by (symmetry; apply Nat.ltb_lt; lia).
  cbn [andb]. rewrite firstn_app. cbn [List.length]. rewrite Nat.sub_diag. cbn [firstn]. rewrite app_nil_r.
  f_equal. apply firstn_all.
Qed.

Lemma stem_new : forall d t i n s, digits d -> digits t -> digits i -> digits n ->
  exists r, split_us (stem (name_of (New d t i n s))) = lit "FOURD" :: d :: t :: i :: n :: r.
Proof.
  intros d t i n s D T I N.
  assert (E : exists x, (forall y, x ++ y = ending s -> True) /\
     stem (name_of (New d t i n s)) = lit "FOURD_" ++ d ++ lit "_" ++ t ++ lit "_" ++ i ++ lit "_" ++ n ++ suffix_value s).
  { exists []. split; [auto|]. cbn [name_of]. rewrite <- ending_eq.
    replace (lit "FOURD_" ++ d ++ lit "_" ++ t ++ lit "_" ++ i ++ lit "_" ++ n ++ suffix_value s ++ lit "." ++ filetype s)
      with ((lit "FOURD_" ++ d ++ lit "_" ++ t ++ lit "_" ++ i ++ lit "_" ++ n ++ suffix_value s) ++ lit "." ++ filetype s)
      by (rewrite <- !app_assoc; reflexivity).
    apply stem_last.
    - discriminate.
    - destruct s; discriminate.
    - destruct s; intro J; cbn in J; intuition discriminate. }
  destruct E as (_ & _ & ->). rewrite split_new by assumption.
  destruct s; cbn [suffix_value].
  - rewrite app_nil_r, split_nous by (now apply nous_digits). exists []. reflexivity.
  - change (lit "_offsets") with (lit "_" ++ lit "offsets"). rewrite split_lit, split_nous by (now apply nous_digits). eexists; reflexivity.
  - change (lit "_centered") with (lit "_" ++ lit "centered"). rewrite split_lit, split_nous by (now apply nous_digits). eexists; reflexivity.
Qed.

(** * The answers *)

Lemma glob_entries : forall p sel dir,
  (forall e, In e dir -> glob_match p (name_of e) = sel e) ->
  glob (map name_of dir) p = map name_of (filter sel dir).
Proof.
  intros p sel dir. unfold glob. induction dir as [|e dir IH]; intros H; [reflexivity|].
  cbn. rewrite (H e) by (left; reflexivity). rewrite IH by (intros x I; apply H; right; exact I).
  destruct (sel e); reflexivity.
Qed.

Lemma answer_of : forall sel dir (k : text -> outcome found),
  (forall e, In e dir -> sel e = true -> k (name_of e) = Ok (name_of e, num_of e, id_of e)) ->
  (let* p := only_one (map name_of (filter sel dir)) in k p) = answer (filter sel dir).
Proof.
  intros sel dir k H. destruct (filter sel dir) as [|e [|e2 l]] eqn:E; [reflexivity| |reflexivity].
  cbn. assert (I : In e (filter sel dir)) by (rewrite E; left; reflexivity).
  apply filter_In in I as [I S]. now apply H.
Qed.

Lemma version_1_answer : forall dir num id s sel, wf_dir dir ->
  (num, id) <> (None, None) ->
  (forall e, In e dir -> glob_match (pattern_1 num id s) (name_of e) = sel e) ->
  (forall e, sel e = true -> exists d t i n k, e = New d t i n k) ->
  get_scan_path_version_1 (map name_of dir) num id s = answer (filter sel dir).
Proof.
  intros dir num id s sel W NN H K. unfold get_scan_path_version_1.
  rewrite (glob_entries _ sel) by exact H.
  assert (G : forall e, In e dir -> sel e = true ->
    (let* t3 := part (split_us (stem (name_of e))) 3 in
     let* i := py_int t3 in
     let* t4 := part (split_us (stem (name_of e))) 4 in
     let* n := py_int t4 in Ok (name_of e, Some n, Some i)) = Ok (name_of e, num_of e, id_of e)).
  { intros e I S. destruct (K e S) as (d & t & i & n & k & ->).
    eapply Forall_forall in I; [|exact W]. destruct I as (Dd & Dt & Pi & Pn).
    destruct (stem_new d t i n k Dd Dt (proj1 Pi) (proj1 Pn)) as (r & ->). cbn [part nth_error bind].
    rewrite (py_int_ok i) by (try apply Pi; now apply padded_nonnil). cbn [bind].
    rewrite (py_int_ok n) by (try apply Pn; now apply padded_nonnil). reflexivity. }
  destruct num, id; try congruence; exact (answer_of sel dir _ G).
Qed.

Lemma version_0_answer : forall dir num id th s sel, wf_dir dir ->
  (num, id) <> (None, None) ->
  (forall e, In e dir -> glob_match (pattern_0 num id th s) (name_of e) = sel e) ->
  (forall e, sel e = true -> (exists n i k, e = Old n i k) \/ id = None /\ exists n h k, e = OldTh n h k) ->
  get_scan_path_version_0 (map name_of dir) num id th s = answer (filter sel dir).
Proof.
  intros dir num id th s sel W NN H K. unfold get_scan_path_version_0.
  rewrite (glob_entries _ sel) by exact H.
  assert (G : forall e, In e dir -> sel e = true ->
    (let* (n, i) := read_parts (split_us (name_of e)) num id in Ok (name_of e, n, i))
    = Ok (name_of e, num_of e, id_of e)).
  { intros e I S. eapply Forall_forall in I; [|exact W].
    destruct (K e S) as [(n & i & k & ->)|(-> & n & h & k & ->)]; destruct I as (P1 & P2).
    - rewrite read_old by assumption. reflexivity.
    - rewrite read_old_th by assumption. reflexivity. }
  destruct num, id; try congruence; exact (answer_of sel dir _ G).
Qed.
