(** Small toolkit for multiset reasoning on lists: permutations are compared by
    counting occurrences. *)
From Coq Require Import ZArith List Lia Permutation Bool.
From Verif Require Import Base BaseFacts.
Import ListNotations.

Lemma perm_count {A} (dec : forall x y : A, {x = y} + {x <> y}) l l' :
  Permutation l l' <-> forall x, count_occ dec l x = count_occ dec l' x.
Proof. apply Permutation_count_occ. Qed.

Lemma count_occ_cons_if {A} (dec : forall x y : A, {x = y} + {x <> y}) a l x :
  count_occ dec (a :: l) x = ((if dec a x then 1 else 0) + count_occ dec l x)%nat.
Proof. simpl. destruct (dec a x); reflexivity. Qed.

Ltac perm_solve dec :=
  apply (perm_count dec);
  let x := fresh "x" in intros x;
  repeat match goal with
  | H : Permutation _ _ |- _ =>
      let H' := fresh "P" in
      pose proof (proj1 (perm_count dec _ _) H x) as H'; clear H
  end;
  repeat rewrite ?count_occ_app, ?count_occ_cons_if, ?app_nil_r in *;
  cbn [count_occ] in *;
  repeat match goal with |- context [dec ?a x] => destruct (dec a x) end;
  repeat match goal with H : context [dec ?a x] |- _ => destruct (dec a x) end;
  lia.

Lemma concat_map_upd {A B} (f : A -> list B) ws i w :
  nth_error ws i = Some w ->
  exists R, Permutation (concat (map f ws)) (f w ++ R) /\
    forall w', Permutation (concat (map f (upd ws i w'))) (f w' ++ R).
Proof.
  revert i; induction ws as [|a ws IH]; destruct i; simpl; intros H; try discriminate.
  - injection H as <-. exists (concat (map f ws)). auto.
  - destruct (IH i H) as (R & P1 & P2). exists (f a ++ R). split.
    + rewrite P1. rewrite !app_assoc. apply Permutation_app_tail, Permutation_app_comm.
    + intros w'. rewrite P2. rewrite !app_assoc. apply Permutation_app_tail, Permutation_app_comm.
Qed.

Lemma nth_error_split_perm {A} (l : list A) k b :
  nth_error l k = Some b -> Permutation l (b :: firstn k l ++ skipn (S k) l).
Proof.
  revert k; induction l as [|a l IH]; destruct k; intros H; try discriminate.
  - injection H as <-. reflexivity.
  - simpl in H. simpl firstn. change (skipn (S (S k)) (a :: l)) with (skipn (S k) l).
    apply IH in H. rewrite H at 1. apply perm_swap.
Qed.

Lemma Forall_upd {A} (P : A -> Prop) l i x :
  Forall P l -> P x -> Forall P (upd l i x).
Proof.
  intros H Hx. revert i. induction H; destruct i; simpl; auto.
Qed.

Lemma Forall_nth_error {A} (P : A -> Prop) l i x :
  Forall P l -> nth_error l i = Some x -> P x.
Proof.
  intros H E. apply nth_error_In in E. rewrite Forall_forall in H. auto.
Qed.

Lemma Permutation_filter {A} (f : A -> bool) l l' :
  Permutation l l' -> Permutation (filter f l) (filter f l').
Proof.
  induction 1; simpl; auto.
  - destruct (f x); auto.
  - destruct (f x), (f y); auto. apply perm_swap.
  - etransitivity; eauto.
Qed.

Lemma flat_map_perm {A B} (f : A -> list B) l l' :
  Permutation l l' -> Permutation (flat_map f l) (flat_map f l').
Proof. apply Permutation_flat_map. Qed.
