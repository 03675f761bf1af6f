(** Lemmas for PyProps.v. *)
From Coq Require Import String ZArith List Lia Bool.
From Verif Require Import Base BaseFacts BlockModel PyModel PySpec.
Import ListNotations.
Open Scope Z_scope.

Local Arguments Z.add : simpl never.
Local Arguments Z.mul : simpl never.
Local Arguments Z.sub : simpl never.

Lemma zseq_shift n : 0 <= n -> zseq (n + 1) = 0 :: map (fun i => i + 1) (zseq n).
Proof.
  intros H. unfold zseq. replace (Z.to_nat (n + 1)) with (S (Z.to_nat n)) by lia.
  cbn [seq map]. f_equal. rewrite <- seq_shift, !map_map. apply map_ext.
  intros k. lia.
Qed.

Lemma numbers_ok numbers n : forall lo acc,
  0 <= lo -> lo + Z.of_nat n <= Zlen numbers ->
  for_from n lo (fun i acc => let* x := rd numbers i in Ok (acc ++ [x])) acc
  = Ok (acc ++ map (fun i => zat numbers (lo + i)) (zseq (Z.of_nat n))).
Proof.
  induction n as [|n IH]; intros lo acc H0 H; cbn [for_from].
  - cbn. now rewrite app_nil_r.
  - rewrite rd_zat by lia. cbn [bind]. rewrite IH by lia. f_equal.
    replace (Z.of_nat (S n)) with (Z.of_nat n + 1) by lia.
    rewrite zseq_shift by lia. cbn [map]. rewrite map_map, <- app_assoc. cbn [app].
    f_equal. f_equal.
    + f_equal. lia.
    + apply map_ext. intros k. f_equal. lia.
Qed.

Lemma nth_error_zat l i : 0 <= i < Zlen l ->
  nth_error l (Z.to_nat i) = Some (zat l i).
Proof.
  intros H. pose proof (rd_zat l i H) as E. unfold rd in E.
  destruct (i <? 0); [discriminate|].
  destruct (nth_error l (Z.to_nat i)); congruence.
Qed.

Lemma nth_error_skipn {A} (l : list A) n k : nth_error (skipn n l) k = nth_error l (n + k).
Proof.
  revert l. induction n; intros l; [reflexivity|].
  destruct l; [now destruct k|]. apply IHn.
Qed.

Section Reader.
Variables (a : ndarray) (numbers : list Z) (scan : Z * Z) (size total : Z).
Hypothesis G : good_py a numbers size total.

Definition at_cur (c : Z) : pyreader := mkPy a numbers scan size total c.

Lemma py_new_eq : py_new a numbers scan size total = at_cur 0.
Proof.
  destruct G as (_ & ? & _ & ? & ?). unfold py_new, at_cur.
  rewrite !u32_id by (unfold is_u32; lia). reflexivity.
Qed.

Lemma read_at c : 0 <= c < total ->
  exists b, py_read (at_cur c) = Ok (b, at_cur (Z.min (c + size) total)) /\
    holds_images a numbers scan c (Z.min (c + size) total) b /\
    data b <> None.
Proof.
  intros Hc. destruct G as ((C1 & C2 & C3 & C4 & C5 & C6) & Ht & Hn & Hs & Hw).
  unfold py_read, at_cur. cbn [py_total py_cur py_size py_set py_numbers py_scan].
  replace (total <=? c) with false by (symmetry; apply Z.leb_gt; lia).
  rewrite u32_id by (unfold is_u32; lia).
  replace (if total <? c + size then total else c + size)
    with (Z.min (c + size) total)
    by (destruct (Z.ltb_spec total (c + size)); lia).
  set (hi := Z.min (c + size) total). assert (Hhi : c < hi <= total) by lia.
  unfold py_image_numbers.
  rewrite numbers_ok by lia. cbn [bind app].
  replace (Z.of_nat (Z.to_nat (hi - c))) with (hi - c) by lia.
  eexists; split; [reflexivity|]. split; [|discriminate].
  unfold holds_images. cbn [hdr images_in_block image_numbers frame_dims scan_dims version].
  split; [|split; [reflexivity|split; [reflexivity|split; [reflexivity|split; [reflexivity|]]]]].
  - unfold Zlen. rewrite map_length. fold (Zlen (zseq (hi - c))).
    rewrite Zlen_zseq by lia. apply u32_id. unfold is_u32; lia.
  - intros i y x Hi Hy Hx. unfold block_pixel, nd_pixel.
    cbn [data hdr frame_dims nd_slice nd_cols nd_rows nd_shape snd fst].
    fold (nd_cols a) (nd_rows a). rewrite C5. cbn [fst].
    unfold nd_data, nd_slice. cbn [nd_buf nd_off].
    rewrite C5. cbn [fst].
    replace (Z.min c (nd_count a)) with c by lia.
    set (w := nd_cols a) in *. set (h := nd_rows a) in *.
    rewrite nth_error_skipn.
    assert (0 <= i * (h * w)) by nia. assert (0 <= y * w) by nia.
    assert (0 <= c * (h * w)) by nia.
    assert (B : (c + i + 1) * (h * w) <= nd_count a * (h * w)) by nia.
    assert (Y : (y + 1) * w <= h * w) by nia.
    rewrite <- Z2Nat.inj_add by lia.
    rewrite nth_error_zat by nia. f_equal. f_equal. nia.
Qed.

Lemma read_end c : total <= c -> py_read (at_cur c) = Ok (empty_block, at_cur c).
Proof.
  intros H. unfold py_read, at_cur. cbn [py_total py_cur].
  now replace (total <=? c) with true by (symmetry; apply Z.leb_le; lia).
Qed.

(** The cursor after [k] reads from a reset. *)
Lemma read_kth k : 0 <= k ->
  exists b, py_read (at_cur (Z.min (k * size) total))
            = Ok (b, at_cur (Z.min ((k + 1) * size) total)) /\
            kth_block a numbers scan size total k b.
Proof.
  intros Hk. pose proof G as (_ & Ht & _ & Hs & _). unfold kth_block.
  assert (0 <= k * size) by nia.
  destruct (Z.ltb_spec (k * size) total) as [H1|H1].
  - rewrite (Z.min_l (k * size)) by lia.
    destruct (read_at (k * size)) as (b & E & Hb & _); [lia|].
    exists b. replace ((k + 1) * size) with (k * size + size) by lia. now split.
  - rewrite (Z.min_r (k * size)) by lia. exists empty_block.
    rewrite Z.min_r by lia. split; [apply read_end; lia|reflexivity].
Qed.

Lemma reads_from k0 n : 0 <= k0 ->
  exists bs, py_calls (repeat PyRead n) (at_cur (Z.min (k0 * size) total))
             = Ok (bs, at_cur (Z.min ((k0 + Z.of_nat n) * size) total)) /\
    List.length bs = n /\
    forall j b, nth_error bs j = Some b ->
      kth_block a numbers scan size total (k0 + Z.of_nat j) b.
Proof.
  revert k0. induction n as [|n IH]; intros k0 Hk.
  - exists []. cbn. rewrite Z.add_0_r. split; [reflexivity|split; [reflexivity|]].
    intros [|] b; discriminate.
  - cbn [repeat py_calls py_call].
    destruct (read_kth k0 Hk) as (b & E & Hb). rewrite E. cbn [bind].
    destruct (IH (k0 + 1)) as (bs & E2 & L & Hbs); [lia|]. rewrite E2. cbn [bind].
    exists (b :: bs). split; [|split].
    + cbn [app]. now replace (k0 + Z.of_nat (S n)) with (k0 + 1 + Z.of_nat n) by lia.
    + cbn. now rewrite L.
    + intros [|j] b'; cbn [nth_error].
      * intros [= <-]. now rewrite Z.add_0_r.
      * intros Hj. apply Hbs in Hj. now replace (k0 + Z.of_nat (S j)) with (k0 + 1 + Z.of_nat j) by lia.
Qed.

(** Every history of calls is possible and leaves a cursor that is only
    moved by the reader. *)
Lemma calls_reach cs : forall k, 0 <= k ->
  exists bs k', 0 <= k' /\
    py_calls cs (at_cur (Z.min (k * size) total))
    = Ok (bs, at_cur (Z.min (k' * size) total)).
Proof.
  pose proof G as (_ & Ht & _ & Hs & _).
  induction cs as [|c cs IH]; intros k Hk.
  - exists [], k. now split.
  - cbn [py_calls]. destruct c; cbn [py_call].
    + destruct (read_kth k Hk) as (b & E & _). rewrite E. cbn [bind].
      destruct (IH (k + 1)) as (bs & k' & H' & E'); [lia|]. rewrite E'. cbn [bind].
      eauto.
    + cbn [bind]. destruct (IH 0) as (bs & k' & H' & E'); [lia|].
      assert (Z0 : Z.min (0 * size) total = 0) by lia. rewrite Z0 in E'.
      change (py_reset (at_cur (Z.min (k * size) total))) with (at_cur 0).
      rewrite E'. cbn [bind]. eauto.
Qed.

Lemma calls_app c1 : forall c2 r,
  py_calls (c1 ++ c2) r
  = let* (b1, r1) := py_calls c1 r in
    let* (b2, r2) := py_calls c2 r1 in Ok (b1 ++ b2, r2).
Proof.
  induction c1 as [|c c1 IH]; intros c2 r; cbn [py_calls app bind].
  - now destruct (py_calls c2 r) as [[? ?]| | |].
  - destruct (py_call c r) as [[b r1]| | |]; cbn [bind]; try reflexivity.
    rewrite IH. destruct (py_calls c1 r1) as [[b1 r2]| | |]; cbn [bind]; try reflexivity.
    destruct (py_calls c2 r2) as [[b2 r3]| | |]; cbn [bind]; try reflexivity.
    now rewrite app_assoc.
Qed.

(** Iteration. *)
Lemma zseq_split p q : 0 <= p <= q ->
  zseq q = zseq p ++ map (fun i => p + i) (zseq (q - p)).
Proof.
  intros H. unfold zseq. rewrite map_map.
  replace (Z.to_nat q) with (Z.to_nat p + Z.to_nat (q - p))%nat by lia.
  rewrite seq_app, map_app. f_equal. cbn [Nat.add].
  rewrite <- (Nat.add_0_r (Z.to_nat p)).
  assert (X : forall m s, map Z.of_nat (seq (Z.to_nat p + s) m)
              = map (fun x => p + Z.of_nat x) (seq s m)).
  { induction m as [|m IHm]; intros s; [reflexivity|].
    cbn [seq map]. f_equal; [lia|]. rewrite <- IHm.
    now replace (S (Z.to_nat p + s)) with (Z.to_nat p + S s)%nat by lia. }
  apply X.
Qed.

Definition numbers_of (bs : list block) : list Z :=
  flat_map (fun b => image_numbers (hdr b)) bs.

Lemma iterate_from fuel : forall c, 0 <= c <= total ->
  total - c < Z.of_nat fuel ->
  exists bs, py_iterate fuel (at_cur c) = Ok (bs, at_cur total) /\
    numbers_of bs = map (fun i => zat numbers (c + i)) (zseq (total - c)) /\
    (forall j b, nth_error bs j = Some b ->
       holds_images a numbers scan (c + Z.of_nat j * size)
         (Z.min (c + (Z.of_nat j + 1) * size) total) b /\
       c + Z.of_nat j * size < total) /\
    (Zlen bs - 1) * size < total - c <= Zlen bs * size.
Proof.
  pose proof G as (_ & Ht & _ & Hs & _).
  induction fuel as [|fuel IH]; intros c Hc Hf; [lia|].
  cbn [py_iterate]. destruct (Z.eq_dec c total) as [->|Hne].
  - rewrite read_end by lia. cbn [bind]. exists []. split; [reflexivity|].
    rewrite Z.sub_diag. split; [reflexivity|]. split; [intros [|]; discriminate|].
    unfold Zlen; cbn; lia.
  - destruct (read_at c) as (b & E & Hb & Hd); [lia|]. rewrite E. cbn [bind].
    destruct (data b) eqn:Ed; [|congruence].
    set (c' := Z.min (c + size) total) in *.
    destruct (IH c') as (bs & E' & Hn & Hbs & Hl); [lia|lia|].
    rewrite E'. cbn [bind]. exists (b :: bs). split; [reflexivity|].
    split; [|split].
    + unfold numbers_of in *. cbn [flat_map]. rewrite Hn.
      destruct Hb as (_ & -> & _).
      rewrite (zseq_split (c' - c) (total - c)) by lia.
      rewrite map_app, map_map. f_equal.
      replace (total - c - (c' - c)) with (total - c') by lia.
      apply map_ext. intros i. f_equal. lia.
    + intros [|j] b'; cbn [nth_error].
      * intros [= <-]. change (Z.of_nat 0) with 0.
        rewrite Z.mul_0_l, Z.add_0_r. split; [|lia].
        replace (c + (0 + 1) * size) with (c + size) by lia. exact Hb.
      * intros Hj. destruct (Hbs j b' Hj) as [H1 H2].
        assert (Ec : c' = c + size) by nia. rewrite Ec in H1, H2.
        replace (c + Z.of_nat (S j) * size) with (c + size + Z.of_nat j * size) by lia.
        replace (c + (Z.of_nat (S j) + 1) * size)
          with (c + size + (Z.of_nat j + 1) * size) by lia.
        now split.
    + rewrite Zlen_cons. destruct bs as [|b2 bs2].
      * change (Zlen (@nil block)) with 0 in *. lia.
      * destruct (Hbs O b2 eq_refl) as [_ H2]. change (Z.of_nat 0) with 0 in H2.
        assert (c' = c + size) by lia. nia.
Qed.

End Reader.
