(** Lemmas for StemPyProps.v. *)
From Coq Require Import String ZArith List Lia Bool.
From Verif Require Import Base BaseFacts BlockModel PyModel PySpec PyProofs PoolModel StemModel
  StemSpec StemProofs StemProps SparseModel SparseSpec StemPyModel StemPySpec.
Import ListNotations.
Open Scope Z_scope.

Local Arguments Z.add : simpl never.
Local Arguments Z.mul : simpl never.
Local Arguments Z.sub : simpl never.
Local Arguments Z.pow : simpl never.

(** * The stored copy of an array *)

Lemma decode n h w i y x : 0 <= i < n -> 0 <= y < h -> 0 <= x < w ->
  let k := i * (h * w) + y * w + x in
  0 <= k < n * (h * w) /\ k / (h * w) = i /\ k / w mod h = y /\ k mod w = x.
Proof.
  intros Hi Hy Hx k.
  assert (Y : 0 <= y * w + x < h * w) by nia.
  assert (0 <= i * (h * w)) by nia.
  assert (i * (h * w) + h * w <= n * (h * w)) by nia.
  split; [unfold k; lia|]. split; [|split].
  - unfold k. rewrite <- Z.add_assoc, Z.div_add_l by lia. rewrite Z.div_small by lia. lia.
  - unfold k. replace (i * (h * w) + y * w + x) with ((i * h + y) * w + x) by ring.
    rewrite Z.div_add_l by lia. rewrite (Z.div_small x w) by lia. rewrite Z.add_0_r.
    rewrite Z.add_comm, Z.mod_add by lia. apply Z.mod_small; lia.
  - unfold k. replace (i * (h * w) + y * w + x) with (x + (i * h + y) * w) by ring.
    rewrite Z.mod_add by lia. apply Z.mod_small; lia.
Qed.

Lemma copy_shape a : nd_shape (nd_copy a) = (nd_count a, nd_rows a, nd_cols a).
Proof. unfold nd_copy. destruct (nd_strides a) as [[? ?] ?]. reflexivity. Qed.

Lemma copy_dims a :
  nd_count (nd_copy a) = nd_count a /\ nd_rows (nd_copy a) = nd_rows a /\
  nd_cols (nd_copy a) = nd_cols a.
Proof. unfold nd_count at 1, nd_rows at 1, nd_cols at 1. rewrite copy_shape. now cbn. Qed.

Lemma copy_pixel a i y x :
  0 <= i < nd_count a -> 0 <= y < nd_rows a -> 0 <= x < nd_cols a ->
  nd_pixel (nd_copy a) i y x = nd_pixel a i y x.
Proof.
  intros Hi Hy Hx. unfold nd_pixel, nd_copy.
  destruct (nd_strides a) as [[s0 s1] s2]. cbn [nd_strides nd_buf nd_off].
  destruct (decode _ _ _ _ _ _ Hi Hy Hx) as (R & D1 & D2 & D3).
  replace (0 + i * (nd_rows a * nd_cols a) + y * nd_cols a + x * 1)
    with (i * (nd_rows a * nd_cols a) + y * nd_cols a + x) by lia.
  rewrite zat_map_zseq by exact R. now rewrite D1, D2, D3.
Qed.

Lemma copy_same a : same_array (nd_copy a) a.
Proof.
  destruct (copy_dims a) as (E1 & E2 & E3). split.
  - rewrite copy_shape. unfold nd_count, nd_rows, nd_cols.
    destruct (nd_shape a) as [[? ?] ?]. reflexivity.
  - rewrite E1, E2, E3. intros. now apply copy_pixel.
Qed.

Lemma copy_contiguous a : 0 <= nd_count a -> 0 <= nd_rows a -> 0 <= nd_cols a ->
  contiguous (nd_copy a).
Proof.
  intros H0 H1 H2. destruct (copy_dims a) as (E1 & E2 & E3).
  unfold contiguous. rewrite E1, E2, E3. unfold nd_copy.
  destruct (nd_strides a) as [[s0 s1] s2]. cbn [nd_strides nd_buf nd_off].
  repeat split; try lia. rewrite Zlen_map, Zlen_zseq; nia.
Qed.

Lemma zat_u16 l i : Forall is_u16 l -> is_u16 (zat l i).
Proof.
  intros H. unfold zat. destruct (i <? 0); [unfold is_u16; lia|].
  destruct (Nat.lt_ge_cases (Z.to_nat i) (List.length l)) as [L|L].
  - rewrite Forall_forall in H. apply H. now apply nth_In.
  - rewrite nth_overflow by exact L. unfold is_u16; lia.
Qed.

Lemma copy_u16 a : Forall is_u16 (nd_buf a) -> Forall is_u16 (nd_buf (nd_copy a)).
Proof.
  intros H. unfold nd_copy. destruct (nd_strides a) as [[s0 s1] s2]. cbn [nd_buf].
  apply Forall_forall. intros v Hv. apply in_map_iff in Hv. destruct Hv as (k & <- & _).
  now apply zat_u16.
Qed.

Lemma copy_len a : 0 <= nd_count a -> 0 <= nd_rows a -> 0 <= nd_cols a ->
  Zlen (nd_buf (nd_copy a)) = nd_count a * (nd_rows a * nd_cols a).
Proof.
  intros. unfold nd_copy. destruct (nd_strides a) as [[s0 s1] s2]. cbn [nd_buf].
  rewrite Zlen_map, Zlen_zseq; nia.
Qed.

(** * The blocks of a PyReader *)

Lemma read_data r b r' : py_read r = Ok (b, r') ->
  py_set r' = py_set r /\
  (forall d, data b = Some d -> exists n, d = skipn n (nd_buf (py_set r))).
Proof.
  unfold py_read. destruct (_ <=? _).
  - intros [= <- <-]. split; [reflexivity|]. discriminate.
  - destruct (py_image_numbers _ _ _) as [l| | |]; cbn [bind]; try discriminate.
    intros [= <- <-]. split; [reflexivity|]. cbn [data]. intros d [= <-].
    unfold nd_data, nd_slice. cbn [nd_buf]. eauto.
Qed.

Lemma iterate_data fuel : forall r bs r', py_iterate fuel r = Ok (bs, r') ->
  forall b, In b bs -> exists n, data b = Some (skipn n (nd_buf (py_set r))).
Proof.
  induction fuel as [|fuel IH]; intros r bs r' E b Hb; [discriminate|].
  cbn [py_iterate] in E. destruct (py_read r) as [[b1 r1]| | |] eqn:Er; try discriminate.
  cbn [bind] in E. destruct (read_data _ _ _ Er) as (S1 & S2).
  destruct (data b1) as [d|] eqn:Ed.
  - destruct (py_iterate fuel r1) as [[bs2 r2]| | |] eqn:E2; try discriminate.
    cbn [bind] in E. injection E as <- <-. destruct Hb as [<-|Hb].
    + destruct (S2 d eq_refl) as (n & ->). eauto.
    + rewrite <- S1. eapply IH; eauto.
  - injection E as <- <-. destruct Hb.
Qed.

Lemma Forall_skipn {A} (P : A -> Prop) n l : Forall P l -> Forall P (skipn n l).
Proof.
  intros H. rewrite <- (firstn_skipn n l) in H. apply Forall_app in H. tauto.
Qed.

Lemma Zlen_skipn_le {A} n (l : list A) : Zlen (skipn n l) <= Zlen l.
Proof. unfold Zlen. rewrite skipn_length. lia. Qed.

Section Raw.
Variables (a : ndarray) (numbers : list Z) (scan0 scan : Z * Z) (inner outer : list Z)
  (sw sh cx cy : Z).
Hypothesis C : contiguous a.
Hypothesis U : Forall is_u16 (nd_buf a).
Hypothesis M : Zlen (nd_buf a) < 2 ^ 64.
Hypothesis S : sizes_ok a.
Hypothesis Ln : Zlen numbers = nd_count a.
Hypothesis Nd : NoDup numbers.
Hypothesis Rg : Forall (fun p => 0 <= p < sw * sh) numbers.
Hypothesis Rd : radii_ok inner outer.
Hypothesis Sc : scan_or scan scan0 = (sw, sh).
Hypothesis Sp : 0 < sw /\ 0 < sh /\ sw * sh < 2 ^ 32.

Let w := nd_cols a.
Let h := nd_rows a.
Let n := nd_count a.

Lemma blocks_exist :
  exists bs, py_blocks (py_new a numbers scan0 32 n) = Ok bs /\
    stem_input bs inner outer scan w h sw sh /\
    flat_map (fun b => image_numbers (hdr b)) bs = numbers /\
    forall i, 0 <= i < n ->
      exists b d j, In b bs /\ data b = Some d /\
        nth_error (image_numbers (hdr b)) j = Some (zat numbers i) /\
        forall x y, 0 <= x < w -> 0 <= y < h ->
          frame_pixel d w h (Z.of_nat j) x y = nd_pixel a i y x.
Proof.
  destruct S as (S1 & S2 & S3 & S4 & S5).
  assert (G : good_py a numbers 32 n).
  { unfold good_py. fold n in S1, Ln. repeat split; try lia; try apply C. }
  pose proof C as (C1 & C2 & C3 & C4 & C5 & C6).
  destruct (iterate_from a numbers scan0 32 n G (Datatypes.S (Z.to_nat n)) 0)
    as (bs & E & Hnum & Hb & Hl); [lia|lia|].
  rewrite <- (py_new_eq a numbers scan0 32 n G) in E.
  exists bs. unfold py_blocks.
  replace (py_total (py_new a numbers scan0 32 n)) with n.
  2:{ unfold py_new. cbn [py_total]. rewrite u32_id; [reflexivity|unfold is_u32; lia]. }
  rewrite E. cbn [bind]. split; [reflexivity|].
  rewrite Z.sub_0_r in *.
  assert (F : flat_map (fun b => image_numbers (hdr b)) bs = numbers).
  { unfold numbers_of in Hnum. rewrite Hnum. apply list_eq_zat.
    - rewrite Zlen_map, Zlen_zseq; lia.
    - intros i Hi. rewrite Zlen_map, Zlen_zseq in Hi by lia.
      rewrite zat_map_zseq by lia. now rewrite Z.add_0_l. }
  assert (Hin : forall b, In b bs -> exists lo, 0 <= lo < n /\
             holds_images a numbers scan0 lo (Z.min (lo + 32) n) b).
  { intros b Hbi. apply In_nth_error in Hbi. destruct Hbi as (j & Hj).
    destruct (Hb j b Hj) as (H1 & H2). rewrite Z.add_0_l in *.
    exists (Z.of_nat j * 32). split; [lia|].
    replace (Z.of_nat j * 32 + 32) with ((Z.of_nat j + 1) * 32) by lia. exact H1. }
  assert (Hne : bs <> []).
  { intros ->. change (Zlen (@nil block)) with 0 in Hl. lia. }
  split; [|split; [exact F|]].
  - constructor.
    + exact Hne.
    + apply Forall_forall. intros b Hbi. destruct (Hin b Hbi) as (lo & Hlo & HI).
      destruct HI as (I1 & I2 & I3 & I4 & I5 & I6).
      destruct (iterate_data _ _ _ _ E b Hbi) as (m & Hd).
      unfold py_new in Hd. cbn [py_set] in Hd.
      split; [exact I3|]. exists (skipn m (nd_buf a)). split; [exact Hd|].
      assert (HL : Zlen (image_numbers (hdr b)) = Z.min (lo + 32) n - lo).
      { rewrite I2, Zlen_map, Zlen_zseq; lia. }
      split; [|split; [|split]].
      * rewrite HL. set (c := Z.min (lo + 32) n - lo) in *. assert (0 < c) by lia.
        destruct (Z.eq_dec (w * h) 0) as [Z0|Z0].
        { rewrite Z0, Z.mul_0_l. apply Zlen_nonneg. }
        assert (0 < w /\ 0 < h) by (unfold w, h in *; nia).
        assert (X := I6 (c - 1) (h - 1) (w - 1) ltac:(lia) ltac:(fold h; lia) ltac:(fold w; lia)).
        unfold block_pixel in X. rewrite Hd, I3 in X. fold w h in X.
        assert (L : (Z.to_nat ((c - 1) * (h * w) + (h - 1) * w + (w - 1)) < List.length (skipn m (nd_buf a)))%nat).
        { apply nth_error_Some. rewrite X. discriminate. }
        unfold Zlen. nia.
      * pose proof (Zlen_skipn_le m (nd_buf a)). lia.
      * now apply Forall_skipn.
      * apply Forall_forall. intros p Hp. rewrite Forall_forall in Rg. apply Rg.
        rewrite <- F. apply in_flat_map. eauto.
    + unfold w, h. repeat split; lia.
    + split; [|lia]. unfold effective_scan. destruct bs as [|b0 bt]; [congruence|].
      destruct (Hin b0 (or_introl eq_refl)) as (lo & _ & HI).
      destruct HI as (_ & _ & _ & I4 & _). rewrite I4.
      rewrite <- Sc. unfold scan_or. destruct (fst scan =? 0); [reflexivity|].
      cbn [orb]. reflexivity.
    + destruct Rd as (R1 & R2 & _). now split.
    + now destruct Rd as (_ & _ & R3 & _).
    + now destruct Rd as (_ & _ & _ & R4).
  - intros i Hi.
    assert (Hq : 0 <= i / 32) by (apply Z.div_pos; lia).
    pose proof (Z.div_mod i 32 ltac:(lia)) as DM. pose proof (Z.mod_pos_bound i 32 ltac:(lia)) as MB.
    assert (Hk : (Z.to_nat (i / 32) < List.length bs)%nat) by (unfold Zlen in Hl; lia).
    destruct (nth_error bs (Z.to_nat (i / 32))) as [b|] eqn:Eb.
    2:{ apply nth_error_None in Eb. lia. }
    destruct (Hb _ b Eb) as (HI & HI2). rewrite Z2Nat.id in HI, HI2 by lia.
    rewrite Z.add_0_l in *.
    destruct HI as (I1 & I2 & I3 & I4 & I5 & I6).
    set (lo := i / 32 * 32) in *. set (hi := Z.min ((i / 32 + 1) * 32) n) in *.
    assert (Hr : 0 <= i - lo < hi - lo) by lia.
    destruct (iterate_data _ _ _ _ E b (nth_error_In _ _ Eb)) as (m & Hd).
    unfold py_new in Hd. cbn [py_set] in Hd.
    exists b, (skipn m (nd_buf a)), (Z.to_nat (i - lo)).
    split; [eapply nth_error_In; eauto|]. split; [exact Hd|]. split.
    + rewrite I2. rewrite nth_error_zat by (rewrite Zlen_map, Zlen_zseq; lia).
      rewrite zat_map_zseq by lia. f_equal. f_equal. lia.
    + intros x y Hx Hy. rewrite Z2Nat.id by lia.
      assert (X := I6 (i - lo) y x Hr ltac:(fold h; lia) ltac:(fold w; lia)).
      unfold block_pixel in X. rewrite Hd, I3 in X. fold w h in X.
      replace (lo + (i - lo)) with i in X by lia. rewrite <- (Z.mul_comm w h) in X.
      unfold frame_pixel, zat.
      assert (0 <= (i - lo) * (w * h) + y * w + x) by nia.
      destruct (Z.ltb_spec ((i - lo) * (w * h) + y * w + x) 0); [lia|].
      now apply nth_error_nth with (d := 0) in X.
Qed.

Lemma annulus_sum_ext w0 h0 f g cx0 cy0 i0 o0 :
  (forall x y, 0 <= x < w0 -> 0 <= y < h0 -> f x y = g x y) ->
  annulus_sum w0 h0 f cx0 cy0 i0 o0 = annulus_sum w0 h0 g cx0 cy0 i0 o0.
Proof.
  intros H. unfold annulus_sum. apply zsum_map_ext. intros y Hy. apply in_zseq in Hy.
  apply zsum_map_ext. intros x Hx. apply in_zseq in Hx. now rewrite H.
Qed.

Lemma raw_stem cs r :
  match py_blocks (py_new a numbers scan0 32 n) with
  | Ok bs => createSTEMImages bs inner outer scan (cx, cy) cs
  | Throw m => Some (Throw m) | UB m => Some (UB m) | OutOfFuel => Some OutOfFuel
  end = Some r ->
  exists imgs, r = Ok imgs /\
    shows_frames imgs a (Some numbers) inner outer (sw * sh) cx cy.
Proof.
  destruct blocks_exist as (bs & -> & SI & F & V). intros E.
  destruct (stem_images_correct bs inner outer scan w h sw sh cx cy SI) with (cs := cs) (r := r)
    as (imgs & -> & L & P); [unfold distinct_positions; now rewrite F|exact E|].
  exists imgs. split; [reflexivity|]. split; [exact L|].
  intros k Hk. destruct (P k Hk) as (P1 & P2). split; [exact P1|].
  intros p Hp. destruct (P2 p Hp) as (P3 & P4). cbn [position]. split.
  - intros i Hi Hip. destruct (V i Hi) as (b & d & j & V1 & V2 & V3 & V4).
    rewrite Hip in V3. rewrite (P3 b d j V1 V2 V3). now apply annulus_sum_ext.
  - intros Hno. apply P4. intros b Hb Hin.
    assert (Hn : In p numbers) by (rewrite <- F; apply in_flat_map; eauto).
    apply In_nth_error in Hn. destruct Hn as (j & Hj).
    assert (Hjl : (j < List.length numbers)%nat) by (apply nth_error_Some; congruence).
    apply (Hno (Z.of_nat j)); [unfold Zlen in Ln; lia|].
    unfold zat. destruct (Z.ltb_spec (Z.of_nat j) 0); [lia|]. rewrite Nat2Z.id.
    now apply nth_error_nth.
Qed.

End Raw.
