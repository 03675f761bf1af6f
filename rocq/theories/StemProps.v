(** Property theorems C02-C06 and C43: annular detectors and STEM images. *)
From Coq Require Import String ZArith List Lia Permutation Bool.
From Verif Require Import Base BaseFacts BlockModel PoolModel PoolFacts StemModel StemSpec StemProofs.
Import ListNotations.
Open Scope Z_scope.

(** ** C02 *)
Theorem annular_mask_membership :
  forall w h inner outer cx cy,
    0 <= w < 2 ^ 31 -> 0 <= h < 2 ^ 31 -> w * h < 2 ^ 32 ->
    radius_ok inner -> radius_ok outer ->
    exists mask,
      createAnnularMask (w, h) inner outer (cx, cy) = Ok mask /\
      Zlen mask = w * h /\
      forall x y, 0 <= x < w -> 0 <= y < h ->
        (in_annulus (axis_center w cx) (axis_center h cy) inner outer x y ->
         zat mask (y * w + x) = 65535) /\
        (~ in_annulus (axis_center w cx) (axis_center h cy) inner outer x y ->
         zat mask (y * w + x) = 0).
Proof.
  intros w h inner outer cx cy Hw Hh Hn Hi Ho.
  eexists; split; [apply createAnnularMask_ok; auto|].
  split; [rewrite Zlen_map, Zlen_zseq; nia|].
  intros x y Hx Hy. pose proof (row_index w h x y Hx Hy).
  rewrite zat_map_zseq by auto. unfold mask_value.
  destruct (div_mod_unique_row w x y Hx) as (-> & ->).
  rewrite <- in_annulusb_spec.
  destruct (in_annulusb _ _ _ _ _ _); split; intros; auto; congruence.
Qed.

(** The default centre of a negative coordinate does not depend on how negative
    it is, and each coordinate is defaulted on its own. *)
Theorem annular_mask_default_center :
  forall w h inner outer cx cy cx' cy',
    0 <= w < 2 ^ 31 -> 0 <= h < 2 ^ 31 -> w * h < 2 ^ 32 ->
    radius_ok inner -> radius_ok outer ->
    (cx = cx' \/ (cx < 0 /\ (cx' < 0 \/ cx' = (w + 1) / 2))) ->
    (cy = cy' \/ (cy < 0 /\ (cy' < 0 \/ cy' = (h + 1) / 2))) ->
    createAnnularMask (w, h) inner outer (cx, cy) =
    createAnnularMask (w, h) inner outer (cx', cy').
Proof.
  intros. rewrite !createAnnularMask_ok by auto.
  assert (E : forall n c c', 0 <= n -> (c = c' \/ (c < 0 /\ (c' < 0 \/ c' = (n + 1) / 2))) ->
            axis_center n c = axis_center n c').
  { intros n c c' Hn H6. unfold axis_center.
    assert (0 <= (n + 1) / 2) by (apply Z.div_pos; lia).
    destruct (Z.ltb_spec c 0), (Z.ltb_spec c' 0); lia. }
  rewrite (E w cx cx'), (E h cy cy'); auto; lia.
Qed.

(** A radius whose square does not fit an int is undefined behaviour. *)
Theorem annular_mask_radius_overflow :
  forall w h inner outer cx cy,
    0 <= w < 2 ^ 31 -> 0 <= h < 2 ^ 31 ->
    ~ radius_ok inner \/ ~ radius_ok outer ->
    exists why, createAnnularMask (w, h) inner outer (cx, cy) = UB why.
Proof.
  intros w h inner outer cx cy Hw Hh H. unfold createAnnularMask.
  rewrite default_center_ok by auto. cbn [bind].
  unfold radius_ok in H.
  destruct (Z_lt_dec inner (-46340)) as [Hi|Hi];
    [|destruct (Z_lt_dec 46340 inner) as [Hi'|Hi']].
  - destruct (to_int_square_big inner ltac:(lia)) as (s & ->); eexists; reflexivity.
  - destruct (to_int_square_big inner ltac:(lia)) as (s & ->); eexists; reflexivity.
  - rewrite to_int_square by lia. cbn [bind].
    destruct (to_int_square_big outer ltac:(lia)) as (s & ->); eexists; reflexivity.
Qed.

Example annular_mask_example :
  createAnnularMask (3, 4) 1 2 (-1, 1) =
  Ok [0; 65535; 65535;
      0; 65535; 0;
      0; 65535; 65535;
      0; 0; 0].
Proof. vm_compute. reflexivity. Qed.

(** ** C04 and C05 *)
Lemma stem_setup_ok blocks inner outer scan w h sw sh cx cy :
  stem_input blocks inner outer scan w h sw sh ->
  stem_setup blocks inner outer scan (cx, cy) =
  Ok (w * h,
      map (fun io => map (mask_value w (axis_center w cx) (axis_center h cy)
                             (fst io) (snd io)) (zseq (w * h))) (combine inner outer),
      repeat (repeat 0 (Z.to_nat (sw * sh))) (List.length inner)).
Proof.
  intros [Hne Hb (Hw & Hh & Hn) (Hsc & Hsw & Hsh & Hs) (Hi & HL) Fi Fo].
  unfold stem_setup. destruct blocks as [|b0 bs]; [congruence|].
  destruct inner as [|i it]; [congruence|].
  destruct outer as [|o ot]; [discriminate|]. simpl orb at 1.
  unfold Zlen. rewrite HL, Z.eqb_refl. simpl negb.
  unfold effective_scan in Hsc. rewrite Hsc. cbn [fst snd].
  destruct (Z.leb_spec sw 0); try lia. destruct (Z.leb_spec sh 0); try lia. simpl orb.
  inversion Hb; subst. destruct H3 as (Hfd & _). rewrite Hfd. cbn [fst snd].
  rewrite (u32_id (sw * sh)) by (unfold is_u32; nia).
  rewrite (u32_id (w * h)) by (unfold is_u32; nia).
  rewrite create_masks_ok by auto. cbn [bind]. reflexivity.
Qed.

Lemma pool_finished_done {op mem} (p : pool op mem) :
  pool_finished p = true <-> pool_done p.
Proof.
  unfold pool_finished, pool_done. destruct (pending p), (queue p);
    try (split; [discriminate|intros (A & B & C); discriminate]).
  rewrite forallb_forall, Forall_forall. split.
  - intros H; repeat split; auto. intros x Hx. specialize (H x Hx). destruct x; auto; discriminate.
  - intros (_ & _ & H) x Hx. rewrite (H x Hx). auto.
Qed.

Theorem stem_images_correct :
  forall blocks inner outer scan w h sw sh cx cy,
    stem_input blocks inner outer scan w h sw sh ->
    distinct_positions blocks ->
    forall cs r, createSTEMImages blocks inner outer scan (cx, cy) cs = Some r ->
    exists imgs, r = Ok imgs /\ List.length imgs = List.length inner /\
      forall k, (k < List.length inner)%nat ->
        Zlen (nth k imgs []) = sw * sh /\
        forall p, 0 <= p < sw * sh ->
          (forall b d i, In b blocks -> data b = Some d ->
             nth_error (image_numbers (hdr b)) i = Some p ->
             zat (nth k imgs []) p =
             annulus_sum w h (frame_pixel d w h (Z.of_nat i))
               (axis_center w cx) (axis_center h cy) (nth k inner 0) (nth k outer 0)) /\
          ((forall b, In b blocks -> ~ In p (image_numbers (hdr b))) ->
             zat (nth k imgs []) p = 0).
Proof.
  intros blocks inner outer scan w h sw sh cx cy Hin Hd cs r Hr.
  unfold createSTEMImages in Hr. rewrite (stem_setup_ok _ _ _ _ _ _ _ _ _ _ Hin) in Hr.
  destruct Hin as [Hne Hb (Hw & Hh & Hn) (Hsc & Hsw & Hsh & Hs) (Hi & HL) Fi Fo].
  rewrite map_length in Hr. set (radii := combine inner outer) in *.
  assert (HLr : List.length radii = List.length inner).
  { unfold radii. rewrite combine_length, HL. apply Nat.min_id. }
  destruct (pool_run _ cs _) as [p|] eqn:Erun; [|discriminate].
  destruct (pool_finished p) eqn:Ef; [|discriminate]. inversion Hr; subst r; clear Hr.
  apply pool_finished_done in Ef.
  destruct (pool_complete _ _ _ _ _ _ Erun Ef) as (ops & Hperm & Hmem).
  set (cx' := axis_center w cx) in *. set (cy' := axis_center h cy) in *.
  destruct (run_ops w h (sw * sh) cx' cy' radii Hw Hh Hn ops
              (repeat (repeat 0 (Z.to_nat (sw * sh))) (List.length inner)))
    as (imgs & E & (HSL & HSP) & Hval).
  - apply Forall_forall. intros o Ho. apply (Permutation_in _ Hperm) in Ho.
    apply in_tasks in Ho. destruct Ho as (H1 & H2 & H3).
    rewrite Forall_forall in Hb. destruct (Hb _ H1) as (Hfd & d & Hd1 & Hd2 & Hd3 & Hd4 & Hd5).
    split; [|split]; auto. exists d; auto.
  - apply Permutation_NoDup with (l := map okey (concat (stem_tasks blocks (List.length radii)))).
    + apply Permutation_map. symmetry; auto.
    + apply NoDup_keys; auto.
  - nia.
  - rewrite HLr; reflexivity.
  - exists imgs. rewrite Hmem, E. split; auto. split; [lia|].
    intros k Hk. split.
    { rewrite Forall_forall in HSP. apply HSP, nth_In. lia. }
    intros q Hq. destruct (Hval k q ltac:(lia) Hq) as (V1 & V2). split.
    + intros b d i Hbi Hdb Hnth.
      assert (Hil : (i < List.length (image_numbers (hdr b)))%nat)
        by (apply nth_error_Some; congruence).
      assert (Hz : zat (image_numbers (hdr b)) (Z.of_nat i) = q).
      { unfold zat. destruct (Z.ltb_spec (Z.of_nat i) 0); try lia.
        rewrite Nat2Z.id. apply nth_error_nth with (d := 0) in Hnth; auto. }
      rewrite (V1 (mkStemOp k b (Z.of_nat i))).
      * unfold oval; simpl. rewrite Hdb.
        assert (En : nth k radii (0, 0) = (nth k inner 0, nth k outer 0))
          by (apply combine_nth; auto).
        rewrite En. reflexivity.
      * apply (Permutation_in _ (Permutation_sym Hperm)). apply in_tasks; simpl.
        repeat split; auto; unfold Zlen; lia.
      * unfold okey; simpl. rewrite Hz; auto.
    + intros Hno. apply V2. intros o Ho Hk'. apply (Permutation_in _ Hperm) in Ho.
      apply in_tasks in Ho. destruct Ho as (H1 & H2 & H3).
      apply (Hno _ H1). unfold okey in Hk'. inversion Hk'. apply zat_in; auto.
Qed.

Theorem stem_images_schedule_independent :
  forall blocks inner outer scan w h sw sh center,
    stem_input blocks inner outer scan w h sw sh ->
    distinct_positions blocks ->
    forall cs1 cs2 r1 r2,
      createSTEMImages blocks inner outer scan center cs1 = Some r1 ->
      createSTEMImages blocks inner outer scan center cs2 = Some r2 ->
      r1 = r2.
Proof.
  intros blocks inner outer scan w h sw sh (cx, cy) Hin Hd cs1 cs2 r1 r2 H1 H2.
  destruct (stem_images_correct _ _ _ _ _ _ _ _ _ _ Hin Hd _ _ H1) as (i1 & -> & L1 & P1).
  destruct (stem_images_correct _ _ _ _ _ _ _ _ _ _ Hin Hd _ _ H2) as (i2 & -> & L2 & P2).
  f_equal. apply nth_ext with (d := []) (d' := []); [lia|].
  intros k Hk. destruct (P1 k ltac:(lia)) as (Z1 & V1). destruct (P2 k ltac:(lia)) as (Z2 & V2).
  apply list_eq_zat; [lia|]. intros q Hq. rewrite Z1 in Hq.
  destruct (V1 q Hq) as (A1 & B1). destruct (V2 q Hq) as (A2 & B2).
  destruct (in_dec Z.eq_dec q (flat_map (fun b => image_numbers (hdr b)) blocks)) as [Hq'|Hq'].
  - apply in_flat_map in Hq'. destruct Hq' as (b & Hb & Hq').
    apply In_nth_error in Hq'. destruct Hq' as (i & Hi).
    destruct Hin as [_ Hbs _ _ _ _ _]. rewrite Forall_forall in Hbs.
    destruct (Hbs b Hb) as (_ & d & Ed & _).
    rewrite (A1 b d i), (A2 b d i); auto.
  - rewrite B1, B2; auto.
    + intros b Hb Hc. apply Hq', in_flat_map; eauto.
    + intros b Hb Hc. apply Hq', in_flat_map; eauto.
Qed.

(** The pool never deadlocks and always finishes: some schedule completes. *)
Theorem stem_images_terminates :
  forall blocks inner outer scan center,
    exists cs r, createSTEMImages blocks inner outer scan center cs = Some r.
Proof.
  intros. unfold createSTEMImages.
  destruct (stem_setup blocks inner outer scan center) as [((npix & masks) & imgs)|s|s|];
    [|exists []; eauto..].
  set (p0 := pool_init 2 (stem_tasks blocks (List.length masks)) imgs).
  destruct (pool_can_finish (stem_exec masks npix) p0) as (cs & p & Hr & Hd).
  - unfold p0; simpl; discriminate.
  - destruct (pool_finished p0) eqn:E.
    + left; apply pool_finished_done; auto.
    + right; intros H; apply pool_finished_done in H; congruence.
  - exists cs, (memory p). rewrite Hr. apply pool_finished_done in Hd. rewrite Hd. auto.
Qed.

(** Every schedule is finite, and a pool that cannot step has finished: no
    schedule can run forever or get stuck half way. *)
Theorem stem_pool_no_deadlock :
  forall masks npix (p : pool stem_op images),
    workers p <> [] -> (forall c, pool_step (stem_exec masks npix) c p = None) -> pool_done p.
Proof.
  intros masks npix p Hw Hs.
  destruct (pool_finished p) eqn:E; [apply pool_finished_done; auto|].
  destruct (pool_progress (stem_exec masks npix) p Hw) as (c & p' & H).
  - intros H; apply pool_finished_done in H; congruence.
  - rewrite Hs in H; discriminate.
Qed.

Theorem stem_pool_finite :
  forall masks npix cs (p p' : pool stem_op images),
    pool_run (stem_exec masks npix) cs p = Some p' ->
    (List.length cs <= pool_measure p)%nat.
Proof.
  intros masks npix cs. induction cs; simpl; intros p p' H; [lia|].
  destruct (pool_step _ a p) eqn:E; [|discriminate].
  apply IHcs in H. apply pool_step_decreases in E. lia.
Qed.

Definition ex_blocks : list block :=
  [ mkBlock (mkHeader (2, 2) (2, 1) 2 1 0 0 0 [3; 0] []) (Some [10; 20; 30; 40]);
    mkBlock (mkHeader (2, 2) (2, 1) 1 1 0 0 0 [1] []) (Some [5; 6]) ].

Example stem_input_example :
  stem_input ex_blocks [0; 0] [1; 5] (0, 0) 2 1 2 2 /\ distinct_positions ex_blocks.
Proof.
  split; [constructor|]; unfold radius_ok; try (repeat constructor; simpl; lia);
    try (repeat split; simpl; try lia; discriminate).
  - repeat constructor.
    + exists [10; 20; 30; 40]. repeat split; try reflexivity; repeat constructor; simpl; lia.
    + exists [5; 6]. repeat split; try reflexivity; repeat constructor; simpl; lia.
Qed.

Example stem_images_example :
  createSTEMImages ex_blocks [0; 0] [1; 5] (0, 0) (0, 0)
    [Main; Worker 0; Main; Main; Worker 1; Worker 0; Main; Worker 1; Worker 0; Worker 1;
     Worker 0; Worker 1; Worker 0; Worker 1] =
  Some (Ok [[30; 5; 0; 10]; [70; 11; 0; 30]]).
Proof. vm_compute. reflexivity. Qed.

(** Without distinct positions the result depends on the schedule. *)
Theorem stem_images_duplicate_positions_refuted :
  exists blocks inner outer scan w h sw sh center cs1 cs2 r1 r2,
    stem_input blocks inner outer scan w h sw sh /\
    createSTEMImages blocks inner outer scan center cs1 = Some (Ok r1) /\
    createSTEMImages blocks inner outer scan center cs2 = Some (Ok r2) /\
    r1 <> r2.
Proof.
  exists [ mkBlock (mkHeader (1, 1) (1, 1) 1 1 0 0 0 [0] []) (Some [1]);
           mkBlock (mkHeader (1, 1) (1, 1) 1 1 0 0 0 [0] []) (Some [2]) ],
    [0], [1], (1, 1), 1, 1, 1, 1, (0, 0),
    [Main; Main; Worker 0; Worker 1; Worker 0; Worker 1],
    [Main; Main; Worker 0; Worker 1; Worker 1; Worker 0], [[2]], [[1]].
  split; [|split; [vm_compute; reflexivity|split; [vm_compute; reflexivity|discriminate]]].
  constructor; unfold radius_ok; try (repeat constructor; simpl; lia);
    try (repeat split; simpl; try lia; discriminate).
  repeat constructor.
  - exists [1]. repeat split; try reflexivity; repeat constructor; simpl; lia.
  - exists [2]. repeat split; try reflexivity; repeat constructor; simpl; lia.
Qed.

(** ** C03 *)
Lemma annulus_sum_add w h pix cx cy a b c :
  0 <= a <= b -> b <= c ->
  annulus_sum w h pix cx cy a c =
  annulus_sum w h pix cx cy a b + annulus_sum w h pix cx cy b c.
Proof.
  intros Hab Hbc. unfold annulus_sum. rewrite <- zsum_map_add.
  apply zsum_map_ext; intros y _. rewrite <- zsum_map_add.
  apply zsum_map_ext; intros x _. unfold in_annulusb.
  set (d := (x - cx) * (x - cx) + (y - cy) * (y - cy)).
  assert (a * a <= b * b) by nia. assert (b * b <= c * c) by nia.
  destruct (Z.leb_spec (a * a) d), (Z.ltb_spec d (c * c)), (Z.ltb_spec d (b * b)),
    (Z.leb_spec (b * b) d); simpl; lia.
Qed.

Theorem adjacent_annuli_add :
  forall blocks scan w h sw sh cx cy a b c,
    0 <= a -> a <= b -> b <= c ->
    stem_input blocks [a; a; b] [c; b; c] scan w h sw sh ->
    distinct_positions blocks ->
    forall cs r, createSTEMImages blocks [a; a; b] [c; b; c] scan (cx, cy) cs = Some r ->
    exists whole inside outside,
      r = Ok [whole; inside; outside] /\
      forall p, 0 <= p < sw * sh -> zat whole p = zat inside p + zat outside p.
Proof.
  intros blocks scan w h sw sh cx cy a b c Ha Hab Hbc Hin Hd cs r Hr.
  destruct (stem_images_correct _ _ _ _ _ _ _ _ _ _ Hin Hd _ _ Hr) as (imgs & -> & L & V).
  destruct imgs as [|i0 [|i1 [|i2 [|? ?]]]]; simpl in L; try lia.
  exists i0, i1, i2. split; auto. intros p Hp.
  destruct (V 0%nat ltac:(simpl; lia)) as (_ & V0). destruct (V0 p Hp) as (A0 & B0).
  destruct (V 1%nat ltac:(simpl; lia)) as (_ & V1). destruct (V1 p Hp) as (A1 & B1).
  destruct (V 2%nat ltac:(simpl; lia)) as (_ & V2). destruct (V2 p Hp) as (A2 & B2).
  simpl in *.
  destruct (in_dec Z.eq_dec p (flat_map (fun b => image_numbers (hdr b)) blocks)) as [Hq|Hq].
  - apply in_flat_map in Hq. destruct Hq as (bl & Hb & Hq).
    apply In_nth_error in Hq. destruct Hq as (i & Hi).
    destruct Hin as [_ Hbs _ _ _ _ _]. rewrite Forall_forall in Hbs.
    destruct (Hbs bl Hb) as (_ & d & Ed & _).
    rewrite (A0 bl d i), (A1 bl d i), (A2 bl d i); auto.
    apply annulus_sum_add; lia.
  - assert (N : forall bl, In bl blocks -> ~ In p (image_numbers (hdr bl))).
    { intros bl Hb Hc. apply Hq, in_flat_map; eauto. }
    rewrite B0, B1, B2; auto.
Qed.

Example adjacent_annuli_example :
  stem_input ex_blocks [0; 0; 1] [5; 1; 5] (2, 2) 2 1 2 2 /\
  exists cs r, createSTEMImages ex_blocks [0; 0; 1] [5; 1; 5] (2, 2) (0, 0) cs = Some r.
Proof.
  split; [|apply stem_images_terminates].
  constructor; unfold radius_ok; try (repeat constructor; simpl; lia);
    try (repeat split; simpl; try lia; discriminate).
  repeat constructor.
  - exists [10; 20; 30; 40]. repeat split; try reflexivity; repeat constructor; simpl; lia.
  - exists [5; 6]. repeat split; try reflexivity; repeat constructor; simpl; lia.
Qed.
