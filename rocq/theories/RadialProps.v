(** Property theorems C07 and C08: radial sums. *)
From Coq Require Import String ZArith List Lia Permutation Bool.
From Verif Require Import Base BaseFacts BlockModel PoolModel PoolFacts PermFacts StemModel StemSpec StemProofs
  StemProps RadialModel RadialSpec RadialProofs.
Import ListNotations.
Open Scope Z_scope.

(** The pool part, for any number of worker threads [nw]. *)
Lemma radial_pool_ok blocks scan w h sw sh cx cy radii :
  radial_input blocks scan w h sw sh cx cy radii ->
  forall nw cs p,
    pool_run (radial_exec (w, h) (axis_center w cx, axis_center h cy) (sw, sh) (w * h)) cs
      (pool_init nw (map (radial_task (w * h)) blocks) (repeat 0 (Z.to_nat (radii * (sw * sh)))))
      = Some p -> pool_done p ->
    exists mem, memory p = Ok mem /\ Zlen mem = radii * (sw * sh) /\
      forall r q, 0 <= r < radii -> 0 <= q < sw * sh ->
        zat mem (r * (sw * sh) + q) =
        u64 (over_frames_at w h blocks q
               (fun pix => ring_sum w h pix (axis_center w cx) (axis_center h cy) r)).
Proof.
  intros Hin nw cs p Hr Hd.
  destruct (radial_facts _ _ _ _ _ _ _ _ _ Hin)
    as (Hw & Hh & Hn & Cx & Cy & Hsw & Hsh & Hn0 & E & Hf & Hr2).
  destruct (pool_complete _ _ _ _ _ _ Hr Hd) as (ops & Hp & Hm).
  set (n := sw * sh) in *.
  set (addr := radial_addr w h sw sh cx cy). set (val := radial_val w h).
  assert (HO : Forall (radial_okop blocks w h) ops).
  { apply Forall_forall. intros o Ho.
    pose proof (radial_ops_ok blocks w h sw sh cx cy) as F. rewrite Forall_forall in F.
    apply F. eapply Permutation_in; eauto. }
  destruct (run_adds _ addr val (radii * n) (radial_okop blocks w h)
     (fun o m => radial_exec_ok _ _ _ _ _ _ _ _ _ Hin o m)
     (radial_addr_range _ _ _ _ _ _ _ _ _ Hin) ops HO (repeat 0 (Z.to_nat (radii * n))))
    as (mem & Em & HL & HV).
  - rewrite Zlen_repeat. lia.
  - apply Forall_forall. intros x Hx. apply repeat_spec in Hx. subst. unfold is_u64. lia.
  - exists mem. split; [congruence|]. split; [auto|].
    intros r q Hr' Hq. rewrite HV by nia. rewrite zat_repeat0, Z.add_0_l.
    f_equal. rewrite <- (ring_total blocks scan w h sw sh cx cy radii Hin r q Hq).
    apply zsum_perm, Permutation_map; auto.
Qed.

(** ** C07: what every complete execution returns: for ring [r] and position [q],
    the sum (modulo 2^64) over all frames delivered for [q] of the pixels whose
    distance from the centre is in (r-1, r].  In particular nothing is written
    outside the buffer: that would have been [UB]. *)
Theorem radial_sum_correct :
  forall blocks scan w h sw sh cx cy radii,
    radial_input blocks scan w h sw sh cx cy radii ->
    forall cs res, radialSum blocks scan (cx, cy) cs = Some res ->
    exists mem, res = Ok (radii, mem) /\ Zlen mem = radii * (sw * sh) /\
      forall r q, 0 <= r < radii -> 0 <= q < sw * sh ->
        zat mem (r * (sw * sh) + q) =
        u64 (over_frames_at w h blocks q
               (fun pix => ring_sum w h pix (axis_center w cx) (axis_center h cy) r)).
Proof.
  intros blocks scan w h sw sh cx cy radii Hin cs res Hres.
  unfold radialSum in Hres.
  rewrite (radial_setup_ok _ _ _ _ _ _ _ _ _ Hin) in Hres.
  destruct (pool_run _ cs _) as [p|] eqn:Er; [|discriminate].
  destruct (pool_finished p) eqn:Ef; [|discriminate].
  apply pool_finished_done in Ef.
  destruct (radial_pool_ok _ _ _ _ _ _ _ _ _ Hin 2%nat cs p Er Ef) as (mem & Em & HL & HV).
  rewrite Em in Hres. cbn [bind] in Hres. inversion Hres; subst. eauto.
Qed.

(** Conservation: as long as the total intensity at a position fits 64 bits,
    every bin is exact and the bins of the position add up to the sum of all
    pixels of its frames. *)
Theorem radial_sum_conserves :
  forall blocks scan w h sw sh cx cy radii,
    radial_input blocks scan w h sw sh cx cy radii ->
    forall cs res, radialSum blocks scan (cx, cy) cs = Some res ->
    exists mem, res = Ok (radii, mem) /\
      forall q, 0 <= q < sw * sh ->
        over_frames_at w h blocks q (frame_sum w h) < 2 ^ 64 ->
        (forall r, 0 <= r < radii ->
           zat mem (r * (sw * sh) + q) =
           over_frames_at w h blocks q
             (fun pix => ring_sum w h pix (axis_center w cx) (axis_center h cy) r)) /\
        zsum (map (fun r => zat mem (r * (sw * sh) + q)) (zseq radii)) =
        over_frames_at w h blocks q (frame_sum w h).
Proof.
  intros blocks scan w h sw sh cx cy radii Hin cs res Hres.
  destruct (radial_sum_correct _ _ _ _ _ _ _ _ _ Hin cs res Hres) as (mem & -> & HL & HV).
  exists mem. split; auto. intros q Hq Hfit.
  assert (X : forall r, 0 <= r < radii -> zat mem (r * (sw * sh) + q) =
      over_frames_at w h blocks q
        (fun pix => ring_sum w h pix (axis_center w cx) (axis_center h cy) r)).
  { intros r Hr. rewrite HV by auto. apply u64_id. unfold is_u64.
    pose proof (ring_nonneg _ _ _ _ _ _ _ _ _ Hin r q).
    pose proof (ring_le_total _ _ _ _ _ _ _ _ _ Hin r q Hr). lia. }
  split; auto.
  rewrite <- (rings_total _ _ _ _ _ _ _ _ _ Hin q). apply zsum_map_ext.
  intros r Hr. apply in_zseq in Hr. auto.
Qed.

(** Every pixel of the frame is in exactly one ring, and the ring exists. *)
Theorem radial_rings_partition :
  forall blocks scan w h sw sh cx cy radii x y,
    radial_input blocks scan w h sw sh cx cy radii ->
    0 <= x < w -> 0 <= y < h ->
    exists r, 0 <= r < radii /\ in_ring (axis_center w cx) (axis_center h cy) r x y /\
      forall r', in_ring (axis_center w cx) (axis_center h cy) r' x y -> r' = r.
Proof.
  intros blocks scan w h sw sh cx cy radii x y Hin Hx Hy.
  pose proof (row_index w h x y Hx Hy) as Hj.
  pose proof (ring_of_range _ _ _ _ _ _ _ _ _ Hin _ Hj) as Hr. unfold ring_of in Hr.
  destruct (div_mod_unique_row w x y Hx) as (E1 & E2). rewrite E1, E2 in Hr.
  eexists. split; [exact Hr|].
  set (cx' := axis_center w cx) in *. set (cy' := axis_center h cy) in *.
  unfold in_ring. cbv zeta. set (d := (x - cx') * (x - cx') + (y - cy') * (y - cy')) in *.
  assert (Hd : 0 <= d) by (unfold d; pose proof (Z.square_nonneg (x - cx'));
                           pose proof (Z.square_nonneg (y - cy')); lia).
  destruct (ceil_sqrt_spec d Hd) as (A & B & C). split; [auto|].
  intros r' (A' & B' & C'). apply ceil_sqrt_unique; auto.
Qed.

(** ** C08 *)
Theorem radial_sum_schedule_independent :
  forall blocks scan w h sw sh cx cy radii,
    radial_input blocks scan w h sw sh cx cy radii ->
    forall cs1 cs2 r1 r2,
      radialSum blocks scan (cx, cy) cs1 = Some r1 ->
      radialSum blocks scan (cx, cy) cs2 = Some r2 -> r1 = r2.
Proof.
  intros blocks scan w h sw sh cx cy radii Hin cs1 cs2 r1 r2 H1 H2.
  destruct (radial_facts _ _ _ _ _ _ _ _ _ Hin)
    as (Hw & Hh & Hn & Cx & Cy & Hsw & Hsh & Hn0 & E & Hf & Hr2).
  destruct (radial_sum_correct _ _ _ _ _ _ _ _ _ Hin _ _ H1) as (m1 & -> & L1 & V1).
  destruct (radial_sum_correct _ _ _ _ _ _ _ _ _ Hin _ _ H2) as (m2 & -> & L2 & V2).
  do 2 f_equal. apply list_eq_zat; [congruence|]. intros k Hk. rewrite L1 in Hk.
  assert (0 <= k / (sw * sh) < radii)
    by (split; [apply Z.div_pos; lia|apply Z.div_lt_upper_bound; lia]).
  assert (0 <= k mod (sw * sh) < sw * sh) by (apply Z.mod_pos_bound; lia).
  specialize (V1 _ _ H H0). specialize (V2 _ _ H H0).
  replace (k / (sw * sh) * (sw * sh) + k mod (sw * sh)) with k in V1, V2
    by (rewrite Z.mul_comm; apply Z.div_mod; lia).
  congruence.
Qed.

(** The same for any two numbers of worker threads: the final buffers agree. *)
Theorem radial_sum_any_workers :
  forall blocks scan w h sw sh cx cy radii,
    radial_input blocks scan w h sw sh cx cy radii ->
    let exec := radial_exec (w, h) (axis_center w cx, axis_center h cy) (sw, sh) (w * h) in
    let start nw := pool_init nw (map (radial_task (w * h)) blocks)
                      (repeat 0 (Z.to_nat (radii * (sw * sh)))) in
    forall n1 n2 cs1 cs2 p1 p2,
      pool_run exec cs1 (start n1) = Some p1 -> pool_done p1 ->
      pool_run exec cs2 (start n2) = Some p2 -> pool_done p2 ->
      memory p1 = memory p2 /\ exists mem, memory p1 = Ok mem.
Proof.
  intros blocks scan w h sw sh cx cy radii Hin exec start n1 n2 cs1 cs2 p1 p2 H1 D1 H2 D2.
  destruct (radial_facts _ _ _ _ _ _ _ _ _ Hin)
    as (Hw & Hh & Hn & Cx & Cy & Hsw & Hsh & Hn0 & E & Hf & Hr2).
  destruct (radial_pool_ok _ _ _ _ _ _ _ _ _ Hin n1 _ _ H1 D1) as (m1 & E1 & L1 & V1).
  destruct (radial_pool_ok _ _ _ _ _ _ _ _ _ Hin n2 _ _ H2 D2) as (m2 & E2 & L2 & V2).
  split; [|eauto]. rewrite E1, E2. f_equal.
  apply list_eq_zat; [congruence|]. intros k Hk. rewrite L1 in Hk.
  assert (0 <= k / (sw * sh) < radii)
    by (split; [apply Z.div_pos; lia|apply Z.div_lt_upper_bound; lia]).
  assert (0 <= k mod (sw * sh) < sw * sh) by (apply Z.mod_pos_bound; lia).
  specialize (V1 _ _ H H0). specialize (V2 _ _ H H0).
  replace (k / (sw * sh) * (sw * sh) + k mod (sw * sh)) with k in V1, V2
    by (rewrite Z.mul_comm; apply Z.div_mod; lia).
  congruence.
Qed.

(** Some schedule completes, none runs forever, and a pool that cannot step has
    finished. *)
Theorem radial_sum_terminates :
  forall blocks scan center, exists cs r, radialSum blocks scan center cs = Some r.
Proof.
  intros. unfold radialSum.
  destruct (radial_setup blocks scan center) as [(((((fd & c) & sd) & npix) & radii) & mem)|s|s|];
    [|exists []; eauto..].
  set (p0 := pool_init 2 (map (radial_task npix) blocks) mem).
  destruct (pool_can_finish (radial_exec fd c sd npix) p0) as (cs & p & Hr & Hd).
  - unfold p0; simpl; discriminate.
  - destruct (pool_finished p0) eqn:E.
    + left; apply pool_finished_done; auto.
    + right; intros H; apply pool_finished_done in H; congruence.
  - exists cs. eexists. rewrite Hr. apply pool_finished_done in Hd. rewrite Hd. eauto.
Qed.

Theorem radial_pool_no_deadlock :
  forall fd c sd npix (p : pool radial_op (list Z)),
    workers p <> [] -> (forall ch, pool_step (radial_exec fd c sd npix) ch p = None) -> pool_done p.
Proof.
  intros fd c sd npix p Hw Hs.
  destruct (pool_finished p) eqn:E; [apply pool_finished_done; auto|].
  destruct (pool_progress (radial_exec fd c sd npix) p Hw) as (ch & p' & H).
  - intros H; apply pool_finished_done in H; congruence.
  - rewrite Hs in H; discriminate.
Qed.

(** Arguments rejected with an exception. *)
Theorem radial_sum_rejects :
  (forall scan center cs, radialSum [] scan center cs = Some (Throw "No blocks to read!")) /\
  (forall b bs scan center cs sw sh,
     effective_scan scan (b :: bs) = (sw, sh) -> sw <= 0 \/ sh <= 0 ->
     radialSum (b :: bs) scan center cs = Some (Throw "No scan image size provided.")).
Proof.
  split; [reflexivity|]. intros b bs scan center cs sw sh He Hz. unfold radialSum, radial_setup.
  change (if (fst scan =? 0) || (snd scan =? 0) then scan_dims (hdr b) else scan)
    with (effective_scan scan (b :: bs)). rewrite He. cbn [fst snd].
  destruct (Z.leb_spec sw 0), (Z.leb_spec sh 0); try lia; reflexivity.
Qed.

(** Why the result has to fit 32-bit indexing: a 32768 x 32768 scan of 2 x 1
    frames needs 2^32 bins, the allocated buffer has none. *)
Definition radial_big_block : block :=
  mkBlock (mkHeader (32768, 32768) (2, 1) 1 1 0 0 0 [0] []) (Some [7; 8]).

Theorem radial_sum_large_result_undefined :
  block_holds 2 1 (32768 * 32768) radial_big_block /\
  in_ring 0 0 (4 - 1) (far 2 0) (far 1 0) /\
  radialSum [radial_big_block] (0, 0) (0, 0)
    [Main; Worker 0; Worker 0; Worker 0] = Some (UB "index past the end").
Proof.
  split; [|split].
  - split; [reflexivity|]. exists [7; 8]. repeat split; try reflexivity; repeat constructor; simpl; lia.
  - unfold in_ring, far. simpl. lia.
  - vm_compute. reflexivity.
Qed.

Definition ex_radial : list block :=
  [ mkBlock (mkHeader (2, 1) (3, 2) 2 1 0 0 0 [1; 0] []) (Some [1; 2; 3; 4; 5; 6; 10; 20; 30; 40; 50; 60]);
    mkBlock (mkHeader (2, 1) (3, 2) 1 1 0 0 0 [1] []) (Some [100; 200; 300; 400; 500; 600]) ].

Example radial_input_example : radial_input ex_radial (0, 0) 3 2 2 1 (-1) 0 4.
Proof.
  constructor; try (repeat split; simpl; try lia; discriminate).
  - repeat constructor.
    + eexists. repeat split; try reflexivity; repeat constructor; simpl; lia.
    + eexists. repeat split; try reflexivity; repeat constructor; simpl; lia.
Qed.

Example radial_sum_example :
  exists cs, radialSum ex_radial (0, 0) (-1, 0) cs =
    Some (Ok (4, [30; 303; 80; 808; 60; 606; 40; 404])).
Proof.
  exists (Main :: Main :: Worker 1 :: Worker 0 :: repeat (Worker 0) 6 ++ repeat (Worker 1) 12).
  vm_compute. reflexivity.
Qed.

Print Assumptions radial_sum_correct.
Print Assumptions radial_sum_conserves.
Print Assumptions radial_rings_partition.
Print Assumptions radial_sum_schedule_independent.
Print Assumptions radial_sum_any_workers.
Print Assumptions radial_sum_terminates.
Print Assumptions radial_pool_no_deadlock.
Print Assumptions radial_sum_rejects.
Print Assumptions radial_sum_large_result_undefined.
