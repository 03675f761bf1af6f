(** Lemmas about radial sums. *)
From Coq Require Import String ZArith List Lia Permutation Bool.
From Verif Require Import Base BaseFacts BlockModel PoolModel PoolFacts PermFacts StemModel StemSpec StemProofs
  RadialModel RadialSpec.
Import ListNotations.
Open Scope Z_scope.

Lemma ceil_sqrt_spec n : 0 <= n ->
  0 <= ceil_sqrt n /\ n <= ceil_sqrt n * ceil_sqrt n /\
  (ceil_sqrt n = 0 \/ (ceil_sqrt n - 1) * (ceil_sqrt n - 1) < n).
Proof.
  intros Hn. unfold ceil_sqrt. pose proof (Z.sqrt_spec n Hn) as [H1 H2].
  pose proof (Z.sqrt_nonneg n). cbv zeta.
  destruct (Z.eqb_spec (Z.sqrt n * Z.sqrt n) n) as [E|E].
  - split; [lia|split; [lia|]]. destruct (Z.eq_dec (Z.sqrt n) 0); [left; auto|right]. nia.
  - split; [lia|split; [lia|]]. right. unfold Z.succ in *. replace (Z.sqrt n + 1 - 1) with (Z.sqrt n) by lia. lia.
Qed.

Lemma ceil_sqrt_unique n r : 0 <= n -> 0 <= r -> n <= r * r -> (r = 0 \/ (r - 1) * (r - 1) < n) ->
  r = ceil_sqrt n.
Proof.
  intros Hn Hr H1 H2. destruct (ceil_sqrt_spec n Hn) as (A & B & C).
  set (c := ceil_sqrt n) in *. destruct C, H2; nia.
Qed.

Lemma ceil_sqrt_mono n m : 0 <= n <= m -> ceil_sqrt n <= ceil_sqrt m.
Proof.
  intros H. destruct (ceil_sqrt_spec n) as (A & B & C); [lia|].
  destruct (ceil_sqrt_spec m) as (A' & B' & C'); [lia|].
  destruct C as [C|C]; [lia|]. destruct (Z_le_gt_dec (ceil_sqrt n) (ceil_sqrt m)) as [|G]; auto.
  assert (ceil_sqrt m * ceil_sqrt m <= (ceil_sqrt n - 1) * (ceil_sqrt n - 1)) by (apply Z.mul_le_mono_nonneg; lia).
  lia.
Qed.

Lemma in_ringb_spec cx cy r x y :
  in_ringb cx cy r x y = (r =? ceil_sqrt ((x - cx) * (x - cx) + (y - cy) * (y - cy))).
Proof.
  unfold in_ringb. set (d := (x - cx) * (x - cx) + (y - cy) * (y - cy)).
  assert (Hd : 0 <= d) by (unfold d; pose proof (Z.square_nonneg (x - cx)); pose proof (Z.square_nonneg (y - cy)); lia). destruct (ceil_sqrt_spec d Hd) as (A & B & C).
  destruct (Z.eqb_spec r (ceil_sqrt d)) as [->|Ne].
  - rewrite !andb_true_iff, orb_true_iff, !Z.leb_le, Z.ltb_lt, Z.eqb_eq. auto.
  - apply not_true_is_false. rewrite !andb_true_iff, orb_true_iff, !Z.leb_le, Z.ltb_lt, Z.eqb_eq.
    intros ((H1 & H2) & H3). apply Ne. apply ceil_sqrt_unique; auto.
Qed.

Lemma int_sub_ok a b : - 2 ^ 31 <= a - b < 2 ^ 31 -> int_sub a b = Ok (a - b).
Proof.
  intros H. unfold int_sub.
  destruct (Z.leb_spec (- 2 ^ 31) (a - b)), (Z.ltb_spec (a - b) (2 ^ 31)); auto; lia.
Qed.

Lemma distance_sq_ok x1 y1 x2 y2 :
  - 2 ^ 31 <= x1 - x2 < 2 ^ 31 -> - 2 ^ 31 <= y1 - y2 < 2 ^ 31 ->
  distance_sq x1 y1 x2 y2 = Ok ((x1 - x2) * (x1 - x2) + (y1 - y2) * (y1 - y2)).
Proof. intros. unfold distance_sq. rewrite !int_sub_ok by auto. reflexivity. Qed.

Lemma far_sq n c : 0 <= n -> 0 <= c ->
  far n c * far n c = Z.max ((0 - c) * (0 - c)) ((n - c) * (n - c)).
Proof. intros. unfold far. nia. Qed.

Lemma max_corner_ok w h cx cy :
  0 <= w < 2 ^ 24 -> 0 <= h < 2 ^ 24 -> 0 <= cx < 2 ^ 24 -> 0 <= cy < 2 ^ 24 ->
  max_corner_sq (w, h) (cx, cy) = Ok (far w cx * far w cx + far h cy * far h cy).
Proof.
  intros Hw Hh Hx Hy. unfold max_corner_sq, for_loop. change (Z.to_nat 2) with 2%nat.
  cbn [for_from fst snd]. change (0 + 1) with 1.
  replace (0 * w) with 0 by lia. replace (0 * h) with 0 by lia.
  replace (1 * w) with w by lia. replace (1 * h) with h by lia.
  rewrite (u32_id 0), (u32_id w), (u32_id h) by (unfold is_u32; lia). rewrite !i32_small by lia.
  rewrite !distance_sq_ok by lia. cbn [bind].
  rewrite !far_sq by lia. f_equal.
  assert (M : forall a b, (if a <? b then b else a) = Z.max a b)
    by (intros a b; destruct (Z.ltb_spec a b); lia).
  rewrite !M.
  pose proof (Z.square_nonneg (0 - cx)). pose proof (Z.square_nonneg (0 - cy)). lia.
Qed.

Lemma far_bound n c x : 0 <= x <= n -> 0 <= c -> (x - c) * (x - c) <= far n c * far n c.
Proof. intros. unfold far. nia. Qed.

Lemma axis_center_range n c : 0 <= n < 2 ^ 24 -> c < 2 ^ 24 -> 0 <= axis_center n c < 2 ^ 24.
Proof.
  intros. unfold axis_center. destruct (Z.ltb_spec c 0); [|lia].
  split; [apply Z.div_pos; lia|apply Z.div_lt_upper_bound; lia].
Qed.

(** The operations of a list of additions on a buffer. *)
Section Adds.
Context {O : Type}.
Variable exec : O -> list Z -> outcome (list Z).
Variables (addr val : O -> Z) (n : Z).
Variable okop : O -> Prop.
Hypothesis Hexec : forall o m, okop o -> Zlen m = n ->
  exec o m = Ok (upd m (Z.to_nat (addr o)) (u64 (zat m (addr o) + val o))).
Hypothesis Haddr : forall o, okop o -> 0 <= addr o < n.

Lemma run_adds ops : Forall okop ops -> forall m, Zlen m = n -> Forall is_u64 m ->
  exists m', for_each ops exec m = Ok m' /\ Zlen m' = n /\
    forall k, 0 <= k < n ->
      zat m' k = u64 (zat m k + zsum (map (fun o => if addr o =? k then val o else 0) ops)).
Proof.
  induction 1 as [|o ops Ho _ IH]; intros m HL HU.
  - exists m. split; [reflexivity|]. split; auto. intros k Hk. simpl.
    rewrite Z.add_0_r, u64_id; auto. rewrite Forall_forall in HU. apply HU, zat_in; lia.
  - cbn [for_each]. rewrite Hexec by auto. cbn [bind]. pose proof (Haddr o Ho) as Ha.
    destruct (IH (upd m (Z.to_nat (addr o)) (u64 (zat m (addr o) + val o)))) as (m' & E & HL' & HV).
    + rewrite Zlen_upd; auto.
    + apply Forall_upd; auto. apply u64_range.
    + exists m'. split; auto. split; auto. intros k Hk. rewrite HV by auto.
      rewrite zat_upd by lia. cbn [map zsum]. rewrite (Z.eqb_sym k).
      destruct (Z.eqb_spec (addr o) k) as [->|].
      * rewrite u64_add_l. f_equal. lia.
      * f_equal.
Qed.
End Adds.

Lemma zsum_flat_map {A B} (F : B -> Z) (g : A -> list B) l :
  zsum (map F (flat_map g l)) = zsum (map (fun x => zsum (map F (g x))) l).
Proof. induction l; simpl; auto. rewrite map_app, zsum_app, IHl. reflexivity. Qed.

Section Radial.
Variables (blocks : list block) (scan : Z * Z) (w h sw sh cx0 cy0 radii : Z).
Hypothesis Hin : radial_input blocks scan w h sw sh cx0 cy0 radii.
Let cx := axis_center w cx0.
Let cy := axis_center h cy0.
Let n := sw * sh.

Definition ring_of (j : Z) : Z :=
  ceil_sqrt ((j mod w - cx) * (j mod w - cx) + (j / w - cy) * (j / w - cy)).

Definition blk_data (b : block) : list Z := match data b with Some d => d | None => [] end.

Definition radial_addr (o : radial_op) : Z :=
  ring_of (rs_pixel o) * n + zat (image_numbers (hdr (rs_block o))) (rs_image o).
Definition radial_val (o : radial_op) : Z :=
  zat (blk_data (rs_block o)) (rs_image o * (w * h) + rs_pixel o).
Definition radial_okop (o : radial_op) : Prop :=
  In (rs_block o) blocks /\
  0 <= rs_image o < Zlen (image_numbers (hdr (rs_block o))) /\ 0 <= rs_pixel o < w * h.

Lemma radial_facts : 0 < w < 2 ^ 24 /\ 0 < h < 2 ^ 24 /\ w * h < 2 ^ 32 /\
  0 <= cx < 2 ^ 24 /\ 0 <= cy < 2 ^ 24 /\ 0 < sw /\ 0 < sh /\ 0 < n /\
  radii = ceil_sqrt (far w cx * far w cx + far h cy * far h cy) + 1 /\ radii * n < 2 ^ 32 /\ 2 <= radii < 2 ^ 26.
Proof.
  destruct Hin as [_ _ (Hw & Hh & Hn) (Hsc & Hsw & Hsh) (Hcx & Hcy) Hr Hf].
  pose proof (axis_center_range w cx0 ltac:(lia) Hcx) as Cx.
  pose proof (axis_center_range h cy0 ltac:(lia) Hcy) as Cy.
  fold cx in Cx, Hr. fold cy in Cy, Hr. fold n in Hf. unfold in_ring in Hr.
  rewrite !Z.sub_0_r in Hr. destruct Hr as (R1 & R2 & R3).
  assert (F : 1 <= far w cx) by (unfold far; lia).
  assert (F2 : 1 <= far h cy) by (unfold far; lia).
  assert (E : radii = ceil_sqrt (far w cx * far w cx + far h cy * far h cy) + 1).
  { rewrite <- (ceil_sqrt_unique _ (radii - 1)); auto; nia. }
  assert (Fu : far w cx < 2 ^ 24 /\ far h cy < 2 ^ 24) by (unfold far; lia).
  assert (Hn0 : 0 < n) by (unfold n; nia).
  assert (H2 : 2 <= radii < 2 ^ 26).
  { split; [nia|]. destruct R3 as [R3|R3]; [lia|].
    assert (radii - 1 - 1 < far w cx + far h cy); [|lia].
    apply Z.nle_gt. intros G.
    assert ((far w cx + far h cy) * (far w cx + far h cy) <= (radii - 1 - 1) * (radii - 1 - 1))
      by (apply Z.mul_le_mono_nonneg; lia). nia. }
  repeat (split; [solve [auto; lia]|]). lia.
Qed.

Lemma ring_of_range j : 0 <= j < w * h -> 0 <= ring_of j < radii.
Proof.
  intros Hj. destruct radial_facts as (Hw & Hh & Hn & Cx & Cy & Hsw & Hsh & Hn0 & E & Hf & Hr2).
  unfold ring_of.
  assert (0 <= j mod w < w) by (apply Z.mod_pos_bound; lia).
  assert (0 <= j / w < h) by (split; [apply Z.div_pos; lia|apply Z.div_lt_upper_bound; lia]).
  pose proof (far_bound w cx (j mod w) ltac:(lia) ltac:(lia)).
  pose proof (far_bound h cy (j / w) ltac:(lia) ltac:(lia)).
  pose proof (Z.square_nonneg (j mod w - cx)). pose proof (Z.square_nonneg (j / w - cy)).
  pose proof (ceil_sqrt_mono ((j mod w - cx) * (j mod w - cx) + (j / w - cy) * (j / w - cy))
    (far w cx * far w cx + far h cy * far h cy) ltac:(lia)).
  split; [apply ceil_sqrt_spec; lia|]. rewrite E. lia.
Qed.

Lemma pos_range o : radial_okop o ->
  0 <= zat (image_numbers (hdr (rs_block o))) (rs_image o) < n.
Proof.
  intros (Hb & Hi & Hj). destruct Hin as [_ HB _ _ _ _ _].
  rewrite Forall_forall in HB. destruct (HB _ Hb) as (_ & d & _ & _ & _ & _ & HP).
  rewrite Forall_forall in HP. apply HP. apply zat_in; auto.
Qed.

Lemma radial_addr_range o : radial_okop o -> 0 <= radial_addr o < radii * n.
Proof.
  intros Ho. pose proof (pos_range o Ho). destruct Ho as (Hb & Hi & Hj).
  pose proof (ring_of_range _ Hj). unfold radial_addr. nia.
Qed.

Lemma radial_exec_ok o m : radial_okop o -> Zlen m = radii * n ->
  radial_exec (w, h) (cx, cy) (sw, sh) (w * h) o m =
  Ok (upd m (Z.to_nat (radial_addr o)) (u64 (zat m (radial_addr o) + radial_val o))).
Proof.
  intros Ho HL. pose proof (pos_range o Ho) as Hp. pose proof (radial_addr_range o Ho) as Ha.
  pose proof Ho as (Hb & Hi & Hj). pose proof (ring_of_range _ Hj) as Hr.
  destruct radial_facts as (Hw & Hh & Hn & Cx & Cy & Hsw & Hsh & Hn0 & E & Hf & Hr2).
  destruct Hin as [_ HB _ _ _ _ _]. rewrite Forall_forall in HB.
  destruct (HB _ Hb) as (_ & d & Hd & HLd & HL64 & _ & _).
  assert (Hdat : blk_data (rs_block o) = d) by (unfold blk_data; rewrite Hd; auto).
  unfold radial_exec, block_data. rewrite Hd. cbn [bind].
  rewrite rd_zat by auto. cbn [bind]. cbv zeta. cbn [fst snd].
  set (ns := image_numbers (hdr (rs_block o))) in *.
  rewrite (u64_id (rs_image o * (w * h))) by (unfold is_u64; nia).
  assert (0 <= rs_pixel o mod w < w) by (apply Z.mod_pos_bound; lia).
  assert (0 <= rs_pixel o / w < h)
    by (split; [apply Z.div_pos; lia|apply Z.div_lt_upper_bound; lia]).
  rewrite !i32_small by lia.
  rewrite distance_sq_ok by lia. cbn [bind]. fold (ring_of (rs_pixel o)).
  rewrite to_int_ok by lia. cbn [bind].
  rewrite (u32_id (ring_of (rs_pixel o) * sw)) by (unfold is_u32; unfold n in *; nia).
  rewrite (u32_id (ring_of (rs_pixel o) * sw * sh)) by (unfold is_u32; unfold n in *; nia).
  rewrite (i32_small (zat ns (rs_image o))) by nia.
  replace (ring_of (rs_pixel o) * sw * sh + zat ns (rs_image o)) with (radial_addr o)
    by (unfold radial_addr, n; fold ns; ring).
  rewrite (rd_zat d) by nia. cbn [bind]. rewrite rd_zat by lia. cbn [bind].
  rewrite wr_ok by lia. unfold radial_val. rewrite Hdat. reflexivity.
Qed.

Lemma radial_ops_ok : Forall radial_okop (concat (map (radial_task (w * h)) blocks)).
Proof.
  rewrite <- flat_map_concat_map. apply Forall_forall. intros o Ho.
  apply in_flat_map in Ho. destruct Ho as (b & Hb & Ho).
  unfold radial_task in Ho. apply in_flat_map in Ho. destruct Ho as (i & Hi & Ho).
  apply in_map_iff in Ho. destruct Ho as (j & <- & Hj). apply in_zseq in Hi. apply in_zseq in Hj.
  repeat split; simpl; auto; lia.
Qed.

Lemma addr_split r p ring q : 0 <= q < n -> 0 <= p < n ->
  (ring * n + q =? r * n + p) = (q =? p) && (r =? ring).
Proof.
  intros Hq Hp. destruct (div_mod_unique_row n q ring Hq) as (A & B).
  destruct (div_mod_unique_row n p r Hp) as (C & D).
  destruct (Z.eqb_spec (ring * n + q) (r * n + p)) as [E|Ne].
  - rewrite E in A, B. rewrite <- A, <- B, C, D, !Z.eqb_refl. reflexivity.
  - destruct (Z.eqb_spec q p) as [->|]; auto. destruct (Z.eqb_spec r ring) as [->|]; auto. 
Qed.

Lemma ring_total r p : 0 <= p < n ->
  zsum (map (fun o => if radial_addr o =? r * n + p then radial_val o else 0)
            (concat (map (radial_task (w * h)) blocks))) =
  over_frames_at w h blocks p (fun pix => ring_sum w h pix cx cy r).
Proof.
  intros Hp. destruct radial_facts as (Hw & Hh & _).
  pose proof radial_ops_ok as HO. rewrite Forall_forall in HO.
  rewrite <- flat_map_concat_map in *. rewrite zsum_flat_map. unfold over_frames_at.
  apply zsum_map_ext. intros b Hb. unfold radial_task. rewrite zsum_flat_map.
  apply zsum_map_ext. intros i Hi. rewrite map_map. fold (blk_data b).
  assert (Hpos : forall j, In j (zseq (w * h)) ->
      radial_okop (mkRadialOp b i j)).
  { intros j Hj. apply HO. apply in_flat_map. exists b. split; auto.
    apply in_flat_map. exists i. split; auto. apply in_map; auto. }
  apply in_zseq in Hi.
  destruct (Z.eqb_spec (zat (image_numbers (hdr b)) i) p) as [Ep|Ne].
  - unfold ring_sum. rewrite zsum_grid by lia.
    apply zsum_map_ext. intros y Hy. apply zsum_map_ext. intros x Hx.
    apply in_zseq in Hx. apply in_zseq in Hy.
    pose proof (row_index w h x y Hx Hy) as Hj.
    unfold radial_addr, radial_val. cbn [rs_block rs_image rs_pixel].
    rewrite addr_split; auto.
    2:{ apply (pos_range (mkRadialOp b i (y * w + x))). apply Hpos, in_zseq; auto. }
    rewrite Ep, Z.eqb_refl. cbn [andb]. rewrite in_ringb_spec.
    unfold ring_of. destruct (div_mod_unique_row w x y Hx) as (-> & ->).
    unfold frame_pixel. rewrite Z.add_assoc. reflexivity.
  - apply zsum_map_zero. intros j Hj.
    unfold radial_addr. cbn [rs_block rs_image rs_pixel].
    rewrite addr_split; auto.
    2:{ apply (pos_range (mkRadialOp b i j)). apply Hpos; auto. }
    destruct (Z.eqb_spec (zat (image_numbers (hdr b)) i) p); [contradiction|reflexivity].
Qed.

Lemma pixel_u16 b i x y : In b blocks -> 0 <= i < Zlen (image_numbers (hdr b)) ->
  0 <= x < w -> 0 <= y < h -> is_u16 (frame_pixel (blk_data b) w h i x y).
Proof.
  intros Hb Hi Hx Hy. destruct Hin as [_ HB _ _ _ _ _]. rewrite Forall_forall in HB.
  destruct (HB _ Hb) as (_ & d & Hd & HLd & _ & HU & _).
  unfold blk_data, frame_pixel. rewrite Hd. rewrite Forall_forall in HU. apply HU, zat_in.
  pose proof (row_index w h x y Hx Hy). nia.
Qed.

Lemma ring_sums_total b i : In b blocks -> 0 <= i < Zlen (image_numbers (hdr b)) ->
  zsum (map (fun r => ring_sum w h (frame_pixel (blk_data b) w h i) cx cy r) (zseq radii)) =
  frame_sum w h (frame_pixel (blk_data b) w h i).
Proof.
  intros Hb Hi. destruct radial_facts as (Hw & Hh & _).
  unfold ring_sum, frame_sum. rewrite zsum_swap. apply zsum_map_ext. intros y Hy.
  rewrite zsum_swap. apply zsum_map_ext. intros x Hx. apply in_zseq in Hx. apply in_zseq in Hy.
  pose proof (row_index w h x y Hx Hy) as Hj. pose proof (ring_of_range _ Hj) as Hr.
  unfold ring_of in Hr. destruct (div_mod_unique_row w x y Hx) as (E1 & E2). rewrite E1, E2 in Hr.
  etransitivity; [|apply (zsum_indicator (fun _ => frame_pixel (blk_data b) w h i x y) radii _ Hr)].
  apply zsum_map_ext. intros r _. rewrite in_ringb_spec. reflexivity.
Qed.

Lemma rings_total p :
  zsum (map (fun r => over_frames_at w h blocks p (fun pix => ring_sum w h pix cx cy r)) (zseq radii)) =
  over_frames_at w h blocks p (frame_sum w h).
Proof.
  unfold over_frames_at. rewrite zsum_swap. apply zsum_map_ext. intros b Hb.
  rewrite zsum_swap. apply zsum_map_ext. intros i Hi. apply in_zseq in Hi. fold (blk_data b).
  destruct (zat _ i =? p); [apply ring_sums_total; auto|].
  apply zsum_map_zero. auto.
Qed.

Lemma ring_nonneg r p : 0 <= over_frames_at w h blocks p (fun pix => ring_sum w h pix cx cy r).
Proof.
  apply zsum_nonneg. intros v Hv. apply in_map_iff in Hv. destruct Hv as (b & <- & Hb).
  apply zsum_nonneg. intros v Hv. apply in_map_iff in Hv. destruct Hv as (i & <- & Hi).
  apply in_zseq in Hi. destruct (_ =? p); [|lia]. fold (blk_data b).
  apply zsum_nonneg. intros v Hv. apply in_map_iff in Hv. destruct Hv as (y & <- & Hy).
  apply zsum_nonneg. intros v Hv. apply in_map_iff in Hv. destruct Hv as (x & <- & Hx).
  apply in_zseq in Hx. apply in_zseq in Hy. destruct (in_ringb _ _ _ _ _); [|lia].
  apply (pixel_u16 b i x y); auto.
Qed.

Lemma zsum_part l v : (forall x, In x l -> 0 <= x) -> In v l -> v <= zsum l.
Proof.
  induction l as [|a l IH]; simpl; intros H Hv; [contradiction|].
  assert (0 <= a) by auto. pose proof (zsum_nonneg l ltac:(auto)).
  destruct Hv as [->|Hv]; [lia|]. specialize (IH ltac:(auto) Hv). lia.
Qed.

Lemma ring_le_total r p : 0 <= r < radii ->
  over_frames_at w h blocks p (fun pix => ring_sum w h pix cx cy r) <=
  over_frames_at w h blocks p (frame_sum w h).
Proof.
  intros Hr. rewrite <- rings_total. apply zsum_part.
  - intros v Hv. apply in_map_iff in Hv. destruct Hv as (r' & <- & _). apply ring_nonneg.
  - apply (in_map (fun r => over_frames_at w h blocks p (fun pix => ring_sum w h pix cx cy r))).
    apply in_zseq; auto.
Qed.

Lemma radial_setup_ok : radial_setup blocks scan (cx0, cy0) =
  Ok ((w, h), (cx, cy), (sw, sh), w * h, radii, repeat 0 (Z.to_nat (radii * n))).
Proof.
  destruct radial_facts as (Hw & Hh & Hn & Cx & Cy & Hsw & Hsh & Hn0 & E & Hf & Hr2).
  destruct Hin as [Hne HB _ (Hsc & _ & _) (Hcx & Hcy) _ _].
  destruct blocks as [|b0 bs]; [congruence|]. unfold radial_setup.
  change (if (fst scan =? 0) || (snd scan =? 0) then scan_dims (hdr b0) else scan)
    with (effective_scan scan (b0 :: bs)). rewrite Hsc. cbn [fst snd].
  destruct (Forall_inv HB) as (Hfd & _). rewrite Hfd. cbn [fst snd].
  destruct (Z.leb_spec sw 0); [lia|]. destruct (Z.leb_spec sh 0); [lia|]. cbn [orb].
  rewrite default_center_ok by lia. cbn [bind]. fold cx cy.
  rewrite max_corner_ok by lia. cbn [bind].
  rewrite to_int_ok by lia. cbn [bind]. rewrite <- E.
  rewrite (u32_id (w * h)) by (unfold is_u32; nia).
  fold n. rewrite (u32_id n) by (unfold is_u32; nia).
  rewrite (u32_id (n * radii)) by (unfold is_u32; nia).
  rewrite (Z.mul_comm n). reflexivity.
Qed.

End Radial.
