(** Property theorems C06 (STEM images from electron events) and C43
    (argument validation). *)
From Coq Require Import String ZArith List Lia Permutation Bool.
From Verif Require Import Base BaseFacts BlockModel PoolModel PoolFacts StemModel StemSpec
  StemProofs StemProps SparseStemProofs.
Import ListNotations.
Open Scope Z_scope.

(** ** C06 *)

(** Acceptable sparse input: at most one entry per scan position, events inside
    the frame, and not so many events that 65535 times their number overflows. *)
Definition sparse_input (sparse : list (list (list Z))) (w h sw sh : Z) : Prop :=
  0 <= w < 2 ^ 31 /\ 0 <= h < 2 ^ 31 /\ w * h < 2 ^ 32 /\
  0 <= sw /\ 0 <= sh /\ sw * sh < 2 ^ 32 /\
  Zlen sparse <= sw * sh /\
  Forall (fun frames => Forall (Forall (fun e => 0 <= e < w * h)) frames /\
                        65535 * Zlen (concat frames) < 2 ^ 64) sparse.

(** [sparse_count sparse p x y w]: events recorded at position p on pixel (x,y). *)
Definition event_count (sparse : list (list (list Z))) (w p x y : Z) : Z :=
  occurrences (y * w + x) (concat (nth (Z.to_nat p) sparse [])).

Theorem sparse_stem_images_correct :
  forall sparse inner outer w h sw sh cx cy,
    sparse_input sparse w h sw sh ->
    inner <> [] -> List.length inner = List.length outer ->
    Forall radius_ok inner -> Forall radius_ok outer ->
    exists imgs,
      createSTEMImagesSparse sparse inner outer (sw, sh) (w, h) (cx, cy) = Ok imgs /\
      List.length imgs = List.length inner /\
      forall k, (k < List.length inner)%nat ->
        Zlen (nth k imgs []) = sw * sh /\
        forall p, 0 <= p < sw * sh ->
          zat (nth k imgs []) p =
          65535 * annulus_sum w h (event_count sparse w p)
                    (axis_center w cx) (axis_center h cy) (nth k inner 0) (nth k outer 0).
Proof.
  intros sparse inner outer w h sw sh cx cy (Hw & Hh & Hn & Hsw & Hsh & Hs & HL & Hev) Hi HLen Fi Fo.
  unfold createSTEMImagesSparse.
  destruct inner as [|i it]; [congruence|]. destruct outer as [|o ot]; [discriminate|].
  cbn [orb]. assert (Ez : (Zlen (i :: it) =? Zlen (o :: ot)) = true).
  { apply Z.eqb_eq. unfold Zlen. lia. }
  rewrite Ez. cbn [negb fst snd].
  rewrite (u32_id (sw * sh)) by (unfold is_u32; nia).
  rewrite create_masks_ok by auto. cbn [bind].
  destruct (sparse_images_ok w h (axis_center w cx) (axis_center h cy)
     (combine (i :: it) (o :: ot)) sparse (sw * sh)) as (imgs & E & L & V); auto; try lia; try nia.
  exists imgs. split; auto.
  assert (HLr : List.length (combine (i :: it) (o :: ot)) = List.length (i :: it)).
  { rewrite combine_length, HLen. apply Nat.min_id. }
  split; [congruence|].
  intros k Hk. destruct (V k ltac:(congruence)) as (V1 & V2). split; auto.
  intros p Hp. rewrite V2 by auto.
  rewrite combine_nth by auto. reflexivity.
Qed.

(** Reordering events, or moving them between frames of the same position,
    changes nothing. *)
Theorem sparse_stem_order_independent :
  forall s1 s2 inner outer w h sw sh cx cy,
    sparse_input s1 w h sw sh -> sparse_input s2 w h sw sh ->
    inner <> [] -> List.length inner = List.length outer ->
    Forall radius_ok inner -> Forall radius_ok outer ->
    (forall p, Permutation (concat (nth p s1 [])) (concat (nth p s2 []))) ->
    createSTEMImagesSparse s1 inner outer (sw, sh) (w, h) (cx, cy) =
    createSTEMImagesSparse s2 inner outer (sw, sh) (w, h) (cx, cy).
Proof.
  intros s1 s2 inner outer w h sw sh cx cy H1 H2 Hi HL Fi Fo HP.
  destruct (sparse_stem_images_correct s1 inner outer w h sw sh cx cy) as (i1 & E1 & L1 & V1); auto.
  destruct (sparse_stem_images_correct s2 inner outer w h sw sh cx cy) as (i2 & E2 & L2 & V2); auto.
  rewrite E1, E2. f_equal. apply nth_ext with (d := []) (d' := []); [congruence|].
  intros k Hk. destruct (V1 k ltac:(congruence)) as (A1 & B1).
  destruct (V2 k ltac:(congruence)) as (A2 & B2).
  apply list_eq_zat; [congruence|]. intros p Hp. rewrite A1 in Hp.
  rewrite B1, B2 by auto. f_equal.
  unfold annulus_sum. apply zsum_map_ext; intros y _. apply zsum_map_ext; intros x _.
  assert (E : event_count s1 w p x y = event_count s2 w p x y).
  { unfold event_count, occurrences. f_equal. apply Permutation_count_occ; auto. }
  rewrite E; auto.
Qed.

Definition ex_sparse : list (list (list Z)) := [[[0; 3; 3]; [1]]; []; [[2]]].

Example sparse_input_example : sparse_input ex_sparse 2 2 2 2.
Proof.
  unfold sparse_input, ex_sparse. repeat split; try lia; try (unfold Zlen; simpl; lia).
  repeat constructor; unfold Zlen; simpl; lia.
Qed.

Example sparse_stem_example :
  createSTEMImagesSparse ex_sparse [0; 1] [1; 2] (2, 2) (2, 2) (1, 1) =
  Ok [[65535 * 2; 0; 0; 0]; [65535 * 2; 0; 65535; 0]].
Proof. vm_compute. reflexivity. Qed.

(** The sparse image of counted electrons is NOT the dense image of the same
    counts: the mask value 65535 is added per event instead of being used as a
    bit mask. *)
Theorem sparse_equals_dense_refuted :
  exists blocks sparse inner outer w h sw sh center cs dense_imgs sparse_imgs,
    stem_input blocks inner outer (sw, sh) w h sw sh /\
    sparse_input sparse w h sw sh /\
    (* same counts: block image at position p has event_count pixels *)
    (forall b d i p x y, In b blocks -> data b = Some d ->
        nth_error (image_numbers (hdr b)) i = Some p ->
        0 <= x < w -> 0 <= y < h ->
        frame_pixel d w h (Z.of_nat i) x y = event_count sparse w p x y) /\
    createSTEMImages blocks inner outer (sw, sh) center cs = Some (Ok dense_imgs) /\
    createSTEMImagesSparse sparse inner outer (sw, sh) (w, h) center = Ok sparse_imgs /\
    dense_imgs <> sparse_imgs.
Proof.
  exists [ mkBlock (mkHeader (1, 1) (1, 1) 1 1 0 0 0 [0] []) (Some [1]) ],
    [[[0]]], [0], [1], 1, 1, 1, 1, (0, 0), [Main; Worker 0; Worker 0], [[1]], [[65535]].
  split; [|split; [|split; [|split; [vm_compute; reflexivity|split;
    [vm_compute; reflexivity|discriminate]]]]].
  - constructor; unfold radius_ok; try (repeat constructor; simpl; lia);
    try (repeat split; simpl; try lia; discriminate).
    repeat constructor. exists [1].
    repeat split; try reflexivity; repeat constructor; simpl; lia.
  - unfold sparse_input. repeat split; try lia; try (unfold Zlen; simpl; lia).
    repeat constructor; unfold Zlen; simpl; lia.
  - intros b d i p x y [<-|[]] Hd Hi Hx Hy. simpl in Hd. inversion Hd; subst; clear Hd.
    destruct i as [|[|i]]; simpl in Hi; inversion Hi; subst.
    assert (x = 0) by lia. assert (y = 0) by lia. subst. reflexivity.
Qed.

(** An event outside the frame reads outside the mask: undefined behaviour. *)
Theorem sparse_stem_event_out_of_frame :
  forall e w h inner outer cx cy,
    0 <= w < 2 ^ 31 -> 0 <= h < 2 ^ 31 -> w * h < 2 ^ 32 ->
    radius_ok inner -> radius_ok outer -> w * h <= e ->
    exists why, createSTEMImagesSparse [[[e]]] [inner] [outer] (1, 1) (w, h) (cx, cy) = UB why.
Proof.
  intros e w h inner outer cx cy Hw Hh Hn Hi Ho He.
  unfold createSTEMImagesSparse. cbn [orb]. change (Zlen [inner] =? Zlen [outer]) with true.
  cbn [negb]. rewrite create_masks_ok; auto. cbn [bind combine map fst snd].
  unfold sparse_images, calculateSTEMValuesSparse. unfold for_loop.
  change (Z.to_nat (Zlen [[[e]]])) with 1%nat. cbn [for_from].
  change (rd [[[e]]] 0) with (Ok [[e]]). cbn [bind for_each].
  assert (E : forall m, Zlen m = w * h -> rd m e = UB "index past the end" :> outcome Z).
  { intros m Hm. unfold rd. destruct (Z.ltb_spec e 0); [nia|].
    destruct (nth_error m (Z.to_nat e)) eqn:En; auto.
    assert (Z.to_nat e < List.length m)%nat by (apply nth_error_Some; congruence).
    unfold Zlen in Hm. lia. }
  rewrite E. { cbn [bind]. eauto. }
  rewrite Zlen_map, Zlen_zseq; nia.
Qed.

(** ** C43 *)

Lemma stem_exec_no_throw masks npix o imgs s :
  stem_exec masks npix o imgs <> Throw s.
Proof.
  assert (R : forall A (l : list A) i t, rd l i <> Throw t).
  { intros A l i t. unfold rd. destruct (i <? 0); [discriminate|].
    destruct (nth_error l (Z.to_nat i)); discriminate. }
  assert (W : forall A (l : list A) i v t, wr l i v <> Throw t).
  { intros A l i v t. unfold wr. destruct (_ || _); discriminate. }
  assert (B : forall A B (m : outcome A) (k : A -> outcome B) t,
             m <> Throw t -> (forall a, k a <> Throw t) -> bind m k <> Throw t).
  { intros A B m k t Hm Hk. destruct m; simpl; auto; congruence. }
  assert (F : forall S n i (body : Z -> S -> outcome S) x t,
             (forall j y, body j y <> Throw t) -> for_from n i body x <> Throw t).
  { intros S n; induction n; simpl; intros; [discriminate|]. apply B; auto. }
  unfold stem_exec. apply B; [|intros d].
  { unfold block_data. destruct (data _); discriminate. }
  apply B; [apply R|intros m]. apply B; [|intros v].
  { unfold calculateSTEMValues, for_loop. apply F. intros.
    apply B; [apply R|intros]. apply B; [apply R|intros]. discriminate. }
  apply B; [apply R|intros]. apply B; [apply R|intros]. apply B; [apply W|intros]. apply W.
Qed.

Lemma bind_throw {A B} (m : outcome A) (k : A -> outcome B) s :
  bind m k = Throw s -> m = Throw s \/ exists a, m = Ok a /\ k a = Throw s.
Proof. destruct m; simpl; intros H; try discriminate; eauto. left; inversion H; auto. Qed.

Lemma createAnnularMask_no_throw dims i o c s : createAnnularMask dims i o c <> Throw s.
Proof.
  intros H. unfold createAnnularMask in H.
  assert (T : forall z t, to_int z <> Throw t).
  { intros z t. unfold to_int. destruct (_ && _); discriminate. }
  apply bind_throw in H. destruct H as [H|(c' & _ & H)].
  - unfold default_center in H. apply bind_throw in H. destruct H as [H|(? & _ & H)].
    + destruct (fst c <? 0); [|discriminate]. eapply T; eauto.
    + apply bind_throw in H. destruct H as [H|(? & _ & H)]; [|discriminate].
      destruct (snd c <? 0); [|discriminate]. eapply T; eauto.
  - apply bind_throw in H. destruct H as [H|(? & _ & H)]; [eapply T; eauto|].
    apply bind_throw in H. destruct H as [H|(? & _ & H)]; [eapply T; eauto|].
    unfold for_loop in H. revert H. generalize (repeat 0 (Z.to_nat (u32 (fst dims * snd dims)))).
    generalize 0 at 1. generalize (Z.to_nat (u32 (fst dims * snd dims))).
    intros n; induction n; simpl; intros k l H; [discriminate|].
    apply bind_throw in H. destruct H as [H|(? & _ & H)]; [|eapply IHn; eauto].
    unfold wr in H. destruct (_ || _); discriminate.
Qed.

Lemma create_masks_no_throw dims inner outer c s : create_masks dims inner outer c <> Throw s.
Proof.
  revert outer; induction inner as [|i it IH]; intros [|o ot]; simpl; try discriminate.
  intros H. apply bind_throw in H. destruct H as [H|(? & _ & H)].
  - eapply createAnnularMask_no_throw; eauto.
  - apply bind_throw in H. destruct H as [H|(? & _ & H)]; [eapply IH; eauto|discriminate].
Qed.

(** The dense entry point raises an error exactly on invalid arguments, for every
    schedule, and the error names the first failed check. *)
Definition dense_arguments_error (blocks : list block) (inner outer : list Z) (scan : Z * Z)
  : option string :=
  match blocks with
  | [] => Some "No blocks to read!"%string
  | _ =>
    match inner, outer with
    | [], _ | _, [] => Some "innerRadii or outerRadii are empty!"%string
    | _, _ =>
      if Nat.eqb (List.length inner) (List.length outer)
      then if (fst (effective_scan scan blocks) <=? 0) || (snd (effective_scan scan blocks) <=? 0)
           then Some "No scan image size provided."%string
           else None
      else Some "innerRadii and outerRadii are not the same size!"%string
    end
  end.

Lemma stem_setup_error blocks inner outer scan center :
  match dense_arguments_error blocks inner outer scan with
  | Some msg => stem_setup blocks inner outer scan center = Throw msg
  | None => forall s, stem_setup blocks inner outer scan center <> Throw s
  end.
Proof.
  unfold dense_arguments_error, stem_setup. destruct blocks as [|b bs]; auto.
  destruct inner as [|i it]; auto. destruct outer as [|o ot]; auto.
  cbn [orb]. destruct (Nat.eqb_spec (List.length (i :: it)) (List.length (o :: ot))) as [E|E].
  - unfold Zlen. rewrite E, Z.eqb_refl. cbn [negb]. unfold effective_scan.
    destruct (_ || _) eqn:Eo; auto. intros s H.
    apply bind_throw in H. destruct H as [H|(? & _ & H)]; [|discriminate].
    eapply create_masks_no_throw; eauto.
  - assert (Ez : (Zlen (i :: it) =? Zlen (o :: ot)) = false).
    { apply Z.eqb_neq. unfold Zlen. lia. }
    rewrite Ez. auto.
Qed.

Theorem stem_arguments_validated :
  forall blocks inner outer scan center cs r,
    createSTEMImages blocks inner outer scan center cs = Some r ->
    (forall msg, r = Throw msg <-> dense_arguments_error blocks inner outer scan = Some msg).
Proof.
  intros blocks inner outer scan center cs r Hr msg.
  pose proof (stem_setup_error blocks inner outer scan center) as H.
  unfold createSTEMImages in Hr.
  destruct (dense_arguments_error blocks inner outer scan) as [m|].
  - rewrite H in Hr. inversion Hr; subst. split; intros E; inversion E; auto.
  - split; [|discriminate]. intros ->.
    destruct (stem_setup blocks inner outer scan center) as [((npix & masks) & imgs)|s|s|] eqn:Es;
      try discriminate.
    2:{ inversion Hr; subst. exfalso. eapply H; eauto. }
    destruct (pool_run _ cs _) as [p|] eqn:Erun; [|discriminate].
    destruct (pool_finished p) eqn:Ef; [|discriminate]. inversion Hr as [Em].
    apply pool_finished_done in Ef.
    destruct (pool_complete _ _ _ _ _ _ Erun Ef) as (ops & _ & Hmem).
    rewrite Em in Hmem. symmetry in Hmem. exfalso. clear - Hmem.
    revert imgs Hmem. induction ops; simpl; intros imgs Hm; [discriminate|].
    apply bind_throw in Hm. destruct Hm as [Hm|(? & _ & Hm)]; eauto.
    eapply stem_exec_no_throw; eauto.
Qed.

Theorem sparse_arguments_validated :
  forall sparse inner outer scan frame center,
    (inner = [] \/ outer = [] ->
     createSTEMImagesSparse sparse inner outer scan frame center =
     Throw "innerRadii or outerRadii are empty!") /\
    (inner <> [] -> outer <> [] -> List.length inner <> List.length outer ->
     createSTEMImagesSparse sparse inner outer scan frame center =
     Throw "innerRadii and outerRadii are not the same size!").
Proof.
  intros. unfold createSTEMImagesSparse. split.
  - intros [->| ->]; auto. destruct inner; auto.
  - intros Hi Ho HL. destruct inner as [|i it]; [congruence|].
    destruct outer as [|o ot]; [congruence|]. cbn [orb].
    assert (Ez : (Zlen (i :: it) =? Zlen (o :: ot)) = false).
    { apply Z.eqb_neq. unfold Zlen. lia. }
    rewrite Ez. auto.
Qed.

Example validation_examples :
  createSTEMImages ex_blocks [1] [2; 3] (0, 0) (0, 0) [] =
    Some (Throw "innerRadii and outerRadii are not the same size!") /\
  createSTEMImages [] [1] [2] (1, 1) (0, 0) [] = Some (Throw "No blocks to read!") /\
  dense_arguments_error ex_blocks [1] [2] (0, 0) = None.
Proof. repeat split. Qed.

Print Assumptions annular_mask_membership.
Print Assumptions annular_mask_default_center.
Print Assumptions annular_mask_radius_overflow.
Print Assumptions stem_images_correct.
Print Assumptions stem_images_schedule_independent.
Print Assumptions stem_images_terminates.
Print Assumptions stem_pool_no_deadlock.
Print Assumptions stem_pool_finite.
Print Assumptions stem_images_duplicate_positions_refuted.
Print Assumptions adjacent_annuli_add.
Print Assumptions sparse_stem_images_correct.
Print Assumptions sparse_stem_order_independent.
Print Assumptions sparse_equals_dense_refuted.
Print Assumptions sparse_stem_event_out_of_frame.
Print Assumptions stem_arguments_validated.
Print Assumptions sparse_arguments_validated.
