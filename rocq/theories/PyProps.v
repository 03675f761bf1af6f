(** C30 and C31: the Python block reader and the NumPy views. *)
From Coq Require Import String ZArith List Lia Bool.
From Verif Require Import Base BaseFacts BlockModel PyModel PySpec PyProofs.
Import ListNotations.
Open Scope Z_scope.

Local Arguments Z.add : simpl never.
Local Arguments Z.mul : simpl never.
Local Arguments Z.sub : simpl never.

(** ** C30 *)

(** A two-image data set of 2 x 3 frames in a larger buffer. *)
Definition ex_set : ndarray :=
  mkNd [99; 1; 2; 3; 4; 5; 6; 7; 8; 9; 10; 11; 12; 13; 14; 15; 16; 17; 18] 1
       (3, 2, 3) (6, 3, 1).

Example ex_set_good : good_py ex_set [5; 7; 9] 2 3.
Proof. unfold good_py, contiguous, ex_set, Zlen; cbn; repeat split; lia. Qed.

(** Whatever was called before, after a reset the reads return the images
    0 .. size-1, size .. 2 size-1, ... of the data set with their numbers, the
    last block being cut at the total, and then empty blocks for ever. *)
Theorem py_reader_after_reset :
  forall a numbers scan size total (cs : list pycall) (n : nat),
  good_py a numbers size total ->
  exists before after r,
    py_calls (cs ++ PyReset :: repeat PyRead n) (py_new a numbers scan size total)
    = Ok (before ++ after, r) /\
    List.length after = n /\
    forall k b, nth_error after k = Some b ->
      kth_block a numbers scan size total (Z.of_nat k) b.
Proof.
  intros a numbers scan size total cs n G.
  rewrite (py_new_eq a numbers scan size total G), calls_app.
  pose proof G as (_ & Ht & _ & Hs & _).
  assert (Z0 : Z.min (0 * size) total = 0) by lia.
  destruct (calls_reach a numbers scan size total G cs 0 (Z.le_refl 0))
    as (b1 & k' & _ & E1). rewrite Z0 in E1. rewrite E1. cbn [bind py_calls py_call].
  destruct (reads_from a numbers scan size total G 0 n (Z.le_refl 0))
    as (b2 & E2 & L & H). rewrite Z0 in E2.
  change (py_reset (at_cur a numbers scan size total (Z.min (k' * size) total)))
    with (at_cur a numbers scan size total 0).
  rewrite E2. cbn [bind app].
  exists b1, b2. eexists. split; [reflexivity|]. split; [exact L|].
  intros k b Hk. exact (H k b Hk).
Qed.

(** The same for a fresh reader. *)
Theorem py_reader_fresh :
  forall a numbers scan size total (n : nat),
  good_py a numbers size total ->
  exists bs r,
    py_calls (repeat PyRead n) (py_new a numbers scan size total) = Ok (bs, r) /\
    List.length bs = n /\
    forall k b, nth_error bs k = Some b ->
      kth_block a numbers scan size total (Z.of_nat k) b.
Proof.
  intros a numbers scan size total n G.
  rewrite (py_new_eq a numbers scan size total G).
  pose proof G as (_ & Ht & _ & Hs & _).
  destruct (reads_from a numbers scan size total G 0 n (Z.le_refl 0))
    as (b2 & E2 & L & H).
  replace (Z.min (0 * size) total) with 0 in E2 by lia.
  exists b2. eexists. split; [exact E2|]. split; [exact L|].
  intros k b Hk. exact (H k b Hk).
Qed.

(** A loop over the reader ends, sees every image number of 0 .. total-1 once
    and in order, in ceil(total / size) blocks that are consecutive ranges. *)
Theorem py_reader_iteration :
  forall a numbers scan size total,
  good_py a numbers size total ->
  exists fuel bs r,
    py_iterate fuel (py_new a numbers scan size total) = Ok (bs, r) /\
    flat_map (fun b => image_numbers (hdr b)) bs = firstn (Z.to_nat total) numbers /\
    (Zlen bs - 1) * size < total <= Zlen bs * size /\
    forall k b, nth_error bs k = Some b ->
      holds_images a numbers scan (Z.of_nat k * size)
        (Z.min ((Z.of_nat k + 1) * size) total) b /\
      Z.of_nat k * size < total.
Proof.
  intros a numbers scan size total G.
  rewrite (py_new_eq a numbers scan size total G).
  pose proof G as (_ & Ht & Hn & Hs & _).
  destruct (iterate_from a numbers scan size total G (Z.to_nat (total + 1)) 0)
    as (bs & E & Hnum & Hb & Hl); [lia|lia|].
  exists (Z.to_nat (total + 1)), bs. eexists. split; [exact E|].
  rewrite Z.sub_0_r in *. split; [|split; [lia|]].
  - unfold numbers_of in Hnum. rewrite Hnum.
    apply list_eq_zat.
    + unfold Zlen in *. rewrite map_length, firstn_length.
      pose proof (Zlen_zseq total ltac:(lia)) as L. unfold Zlen in L.
      rewrite L. lia.
    + intros i Hi. unfold Zlen in Hi. rewrite map_length in Hi.
      pose proof (Zlen_zseq total ltac:(lia)) as L. unfold Zlen in L.
      rewrite zat_map_zseq by lia. rewrite zat_firstn by lia. f_equal. 
  - intros k b Hk. exact (Hb k b Hk).
Qed.

Example py_iteration_example :
  match py_iterate 5 (py_new ex_set [5; 7; 9] (3, 1) 2 3) with
  | Ok (bs, _) => map (fun b => image_numbers (hdr b)) bs = [[5; 7]; [9]]
  | _ => False
  end.
Proof. vm_compute. reflexivity. Qed.

(** A block size of zero makes the loop endless. *)
Theorem py_zero_block_size_refuted :
  forall a numbers scan total fuel,
  0 < total < 2 ^ 32 ->
  py_iterate fuel (py_new a numbers scan 0 total) = OutOfFuel.
Proof.
  intros a numbers scan total fuel Ht. unfold py_new.
  change (u32 0) with 0. rewrite u32_id by (unfold is_u32; lia).
  induction fuel as [|fuel IH]; [reflexivity|].
  cbn [py_iterate]. unfold py_read at 1. cbn [py_total py_cur py_size].
  replace (total <=? 0) with false by (symmetry; apply Z.leb_gt; lia).
  change (u32 (0 + 0)) with 0.
  replace (total <? 0) with false by (symmetry; apply Z.ltb_ge; lia).
  cbn [py_set py_numbers py_scan]. unfold py_image_numbers.
  change (Z.to_nat (0 - 0)) with O. cbn [for_from bind data]. rewrite IH. reflexivity.
Qed.

(** Block size 2^31 and a total above it: the second read wraps the upper bound
    to 0, returns a block without images and starts over. *)
Theorem py_upper_bound_wraps_refuted :
  forall a numbers scan,
  contiguous a -> nd_count a = 2 ^ 32 - 1 -> Zlen numbers = 2 ^ 32 - 1 ->
  exists b, py_read (mkPy a numbers scan (2 ^ 31) (2 ^ 32 - 1) (2 ^ 31))
            = Ok (b, mkPy a numbers scan (2 ^ 31) (2 ^ 32 - 1) 0) /\
            images_in_block (hdr b) = 0 /\ data b <> None.
Proof.
  intros a numbers scan C N L. unfold py_read.
  cbn [py_total py_cur py_size py_set py_numbers py_scan].
  change (2 ^ 32 - 1 <=? 2 ^ 31) with false.
  change (u32 (2 ^ 31 + 2 ^ 31)) with 0.
  change (2 ^ 32 - 1 <? 0) with false. cbv iota zeta.
  unfold py_image_numbers. change (Z.to_nat (0 - 2 ^ 31)) with O.
  cbn [for_from bind]. eexists. split; [reflexivity|]. split; [reflexivity|discriminate].
Qed.

(** A data set shorter than the total: the header announces an image whose
    pixels are outside the array. *)
Theorem py_short_dataset_refuted :
  exists a numbers,
    contiguous a /\
    match py_read (py_new a numbers (2, 1) 2 2) with
    | Ok (b, _) => images_in_block (hdr b) = 2 /\ block_pixel b 1 0 0 = None
    | _ => False
    end.
Proof.
  exists (mkNd [1; 2; 3; 4] 0 (1, 2, 2) (4, 2, 1)), [0; 1].
  split; [unfold contiguous, Zlen; cbn; repeat split; lia|].
  vm_compute. split; reflexivity.
Qed.

(** A data set that is not C-contiguous (a transposed NumPy array): the pixels
    of the block are not those of the data set. *)
Theorem py_transposed_dataset_refuted :
  exists a numbers b r,
    nd_count a = 1 /\
    py_read (py_new a numbers (1, 1) 1 1) = Ok (b, r) /\
    nd_pixel a 0 0 1 = 3 /\ block_pixel b 0 0 1 = Some 2.
Proof.
  exists (mkNd [1; 2; 3; 4] 0 (1, 2, 2) (4, 1, 2)), [0].
  eexists. eexists. split; [reflexivity|]. split; [vm_compute; reflexivity|].
  split; reflexivity.
Qed.

(** ** C31 *)

Lemma cell_bound n w h i y x :
  0 <= i < n -> 0 <= y < h -> 0 <= x < w ->
  0 <= i * (h * w) + y * w + x < n * (h * w).
Proof.
  intros Hi Hy Hx.
  assert (P : 0 < h * w) by nia.
  assert (0 <= i * (h * w)) by (apply Z.mul_nonneg_nonneg; lia).
  assert (0 <= y * w) by (apply Z.mul_nonneg_nonneg; lia).
  assert (Y : (y + 1) * w <= h * w) by (apply Z.mul_le_mono_nonneg_r; lia).
  assert (R : (i + 1) * (h * w) <= n * (h * w)) by (apply Z.mul_le_mono_nonneg_r; lia).
  lia.
Qed.

Lemma div_elem s k : 0 < s -> (s * k) / s = k.
Proof. intros H. rewrite Z.mul_comm. apply Z.div_mul. lia. Qed.

(** Image views: element [y, x] is pixel (x, y), for every size. *)
Theorem image_view_correct :
  forall s w h mem y x,
  0 < s -> Zlen mem = h * w -> 0 <= y < h -> 0 <= x < w ->
  view_get (image_view s (w, h) mem) [y; x] = Ok (stored mem w h 0 y x).
Proof.
  intros s w h mem y x Hs Hm Hy Hx. unfold view_get, image_view.
  cbn [v_shape v_strides v_mem v_elem fst snd in_shape dot].
  replace (0 <=? y) with true by (symmetry; apply Z.leb_le; lia).
  replace (y <? h) with true by (symmetry; apply Z.ltb_lt; lia).
  replace (0 <=? x) with true by (symmetry; apply Z.leb_le; lia).
  replace (x <? w) with true by (symmetry; apply Z.ltb_lt; lia).
  cbn [andb].
  replace (y * (s * w) + (x * s + 0)) with (s * (y * w + x)) by lia.
  rewrite div_elem by lia. rewrite rd_zat by nia.
  unfold stored. do 2 f_equal; lia.
Qed.

(** Radial sum views: element [r, y, x] is bin r of position (x, y). *)
Theorem radial_view_correct :
  forall s radii w h mem r y x,
  0 < s -> Zlen mem = radii * (h * w) -> 0 <= r < radii -> 0 <= y < h -> 0 <= x < w ->
  view_get (radial_view s radii (w, h) mem) [r; y; x] = Ok (stored mem w h r y x).
Proof.
  intros s radii w h mem r y x Hs Hm Hr Hy Hx. unfold view_get, radial_view.
  cbn [v_shape v_strides v_mem v_elem fst snd in_shape dot].
  replace (0 <=? r) with true by (symmetry; apply Z.leb_le; lia).
  replace (r <? radii) with true by (symmetry; apply Z.ltb_lt; lia).
  replace (0 <=? y) with true by (symmetry; apply Z.leb_le; lia).
  replace (y <? h) with true by (symmetry; apply Z.ltb_lt; lia).
  replace (0 <=? x) with true by (symmetry; apply Z.leb_le; lia).
  replace (x <? w) with true by (symmetry; apply Z.ltb_lt; lia).
  cbn [andb].
  replace (r * (s * w * h) + (y * (s * w) + (x * s + 0)))
    with (s * (r * (h * w) + y * w + x)) by lia.
  rewrite div_elem by lia.
  pose proof (cell_bound radii w h r y x Hr Hy Hx).
  rewrite rd_zat by lia. reflexivity.
Qed.

(** An index outside the shape is refused. *)
Theorem view_out_of_range :
  forall v idx, in_shape idx (v_shape v) = false -> view_get v idx = Throw "IndexError".
Proof. intros v idx H. unfold view_get. now rewrite H. Qed.

(** The element the Block view reads for [i, y, x]. *)
Lemma block_view_get b d w h n i y x :
  data b = Some d -> frame_dims (hdr b) = (w, h) -> images_in_block (hdr b) = n ->
  0 <= i < n -> 0 <= y < h -> 0 <= x < w ->
  (let* v := block_view b in view_get v [i; y; x]) = rd d (i * (h * w) + y * h + x).
Proof.
  intros Hd Hf Hn Hi Hy Hx. unfold block_view, block_data. rewrite Hd. cbn [bind].
  rewrite Hf, Hn. unfold view_get. cbn [v_shape v_strides v_mem v_elem fst snd in_shape dot].
  replace (0 <=? i) with true by (symmetry; apply Z.leb_le; lia).
  replace (i <? n) with true by (symmetry; apply Z.ltb_lt; lia).
  replace (0 <=? y) with true by (symmetry; apply Z.leb_le; lia).
  replace (y <? h) with true by (symmetry; apply Z.ltb_lt; lia).
  replace (0 <=? x) with true by (symmetry; apply Z.leb_le; lia).
  replace (x <? w) with true by (symmetry; apply Z.ltb_lt; lia).
  cbn [andb].
  replace (i * (2 * h * w) + (y * (2 * h) + (x * 2 + 0)))
    with (2 * (i * (h * w) + y * h + x)) by lia.
  now rewrite div_elem by lia.
Qed.

(** Block of [n] frames of [w] x [h] pixels whose data is complete. *)
Definition whole_block (b : block) (n w h : Z) (d : list Z) : Prop :=
  data b = Some d /\ frame_dims (hdr b) = (w, h) /\ images_in_block (hdr b) = n /\
  Zlen d = n * (h * w).

(** Square frames (and frames of one row): the view of a block is right. *)
Theorem block_view_square :
  forall b n w h d i y x,
  whole_block b n w h d -> w = h \/ h = 1 ->
  0 <= i < n -> 0 <= y < h -> 0 <= x < w ->
  (let* v := block_view b in view_get v [i; y; x]) = Ok (stored d w h i y x).
Proof.
  intros b n w h d i y x (Hd & Hf & Hn & Hl) Hs Hi Hy Hx.
  rewrite (block_view_get b d w h n i y x Hd Hf Hn Hi Hy Hx).
  assert (E : y * h = y * w) by (destruct Hs as [<-| ->]; nia). rewrite E.
  pose proof (cell_bound n w h i y x Hi Hy Hx).
  rewrite rd_zat by lia. reflexivity.
Qed.

(** These are the only shapes for which it is: for any other one some pixel of
    some block is not the one asked for. *)
Theorem block_view_right_iff :
  forall n w h, 0 < n -> 0 < w -> 0 < h ->
  ((forall b d i y x,
      whole_block b n w h d -> 0 <= i < n -> 0 <= y < h -> 0 <= x < w ->
      (let* v := block_view b in view_get v [i; y; x]) = Ok (stored d w h i y x))
   <-> w = h \/ h = 1).
Proof.
  intros n w h Hn Hw Hh. split.
  - intros H. destruct (Z.eq_dec h 1) as [->|H1]; [now right|].
    left. set (d := zseq (n * (h * w))).
    set (b := mkBlock (mkHeader (0, 0) (w, h) n 0 0 0 0 [] []) (Some d)).
    assert (Hd : Zlen d = n * (h * w)) by (apply Zlen_zseq; nia).
    assert (Hb : whole_block b n w h d) by (repeat split; exact Hd).
    specialize (H b d 0 1 0 Hb ltac:(lia) ltac:(lia) ltac:(lia)).
    rewrite (block_view_get b d w h n 0 1 0) in H by (try reflexivity; lia).
    assert (Z1 : 2 * w <= h * w) by nia.
    assert (Z2 : 1 * (h * w) <= n * (h * w)) by nia.
    assert (A : forall k, 0 <= k < n * (h * w) -> zat d k = k).
    { intros k Hk. unfold d. rewrite <- (map_id (zseq _)).
      now rewrite zat_map_zseq. }
    replace (0 * (h * w) + 1 * h + 0) with h in H by lia.
    destruct (rd_ok_inv _ _ _ H) as [Hr _].
    rewrite rd_zat in H by exact Hr. injection H as H. unfold stored in H.
    replace (0 * (h * w) + 1 * w + 0) with w in H by lia.
    rewrite !A in H; lia.
  - intros Hs b d i y x Hb Hi Hy Hx. now apply block_view_square with n.
Qed.

(** Frames higher than wide: the view reads past the end of the block's memory;
    frames wider than high: it stays inside the memory but is wrong. *)
Theorem block_view_out_of_bounds_iff :
  forall b n w h d, whole_block b n w h d -> 0 < n -> 0 < w -> 0 < h ->
  ((exists i y x, 0 <= i < n /\ 0 <= y < h /\ 0 <= x < w /\
      (let* v := block_view b in view_get v [i; y; x]) = UB "index past the end")
   <-> w < h).
Proof.
  intros b n w h d (Hd & Hf & Hn & Hl) Pn Pw Ph. split.
  - intros (i & y & x & Hi & Hy & Hx & E).
    rewrite (block_view_get b d w h n i y x Hd Hf Hn Hi Hy Hx) in E.
    destruct (Z.lt_ge_cases w h) as [|Hge]; [assumption|exfalso].
    pose proof (cell_bound n w h i y x Hi Hy Hx).
    assert (0 <= i * (h * w)) by (apply Z.mul_nonneg_nonneg; nia).
    assert (Y0 : 0 <= y * h) by (apply Z.mul_nonneg_nonneg; lia).
    assert (Y : y * h <= y * w) by (apply Z.mul_le_mono_nonneg_l; lia).
    rewrite rd_zat in E by lia. discriminate.
  - intros Hwh. exists (n - 1), (h - 1), (w - 1).
    split; [lia|]. split; [lia|]. split; [lia|].
    rewrite (block_view_get b d w h n) by (try assumption; lia).
    unfold rd.
    assert (0 <= (n - 1) * (h * w)) by nia.
    assert (X : n * (h * w) <= (n - 1) * (h * w) + (h - 1) * h + (w - 1)) by nia.
    replace ((n - 1) * (h * w) + (h - 1) * h + (w - 1) <? 0) with false
      by (symmetry; apply Z.ltb_ge; nia).
    destruct (nth_error d _) eqn:E; [|reflexivity].
    assert (L : (Z.to_nat ((n - 1) * (h * w) + (h - 1) * h + (w - 1)) < List.length d)%nat)
      by (apply nth_error_Some; congruence).
    unfold Zlen in Hl. lia.
Qed.

Example block_view_example :
  let b := mkBlock (mkHeader (1, 1) (2, 2) 1 3 0 0 0 [0] []) (Some [1; 2; 3; 4]) in
  whole_block b 1 2 2 [1; 2; 3; 4] /\
  (let* v := block_view b in view_get v [0; 1; 0]) = Ok 3.
Proof. split; [repeat split|reflexivity]. Qed.

Example block_view_wide_example :
  let b := mkBlock (mkHeader (1, 1) (3, 2) 1 3 0 0 0 [0] []) (Some [1; 2; 3; 4; 5; 6]) in
  (let* v := block_view b in view_get v [0; 1; 0]) = Ok 3 /\
  stored [1; 2; 3; 4; 5; 6] 3 2 0 1 0 = 4.
Proof. split; reflexivity. Qed.

Print Assumptions py_reader_after_reset.
Print Assumptions py_reader_fresh.
Print Assumptions py_reader_iteration.
Print Assumptions py_zero_block_size_refuted.
Print Assumptions py_upper_bound_wraps_refuted.
Print Assumptions py_short_dataset_refuted.
Print Assumptions py_transposed_dataset_refuted.
Print Assumptions image_view_correct.
Print Assumptions radial_view_correct.
Print Assumptions block_view_square.
Print Assumptions block_view_right_iff.
Print Assumptions block_view_out_of_bounds_iff.
