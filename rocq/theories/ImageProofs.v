(** Lemmas about average and maximum images. *)
From Coq Require Import String ZArith List Lia Permutation Bool Reals Lra.
From Flocq Require Import Core.
From Verif Require Import Base BaseFacts BlockModel StemSpec StemProofs Double ImageModel ImageSpec.
Import ListNotations.
Open Scope Z_scope.

Lemma for_loop_each {S} n (body : Z -> S -> outcome S) s :
  for_loop n body s = for_each (zseq n) body s.
Proof.
  unfold for_loop, zseq. generalize (Z.to_nat n) as k. intros k.
  change 0 with (Z.of_nat 0). generalize 0%nat as i. revert s.
  induction k as [|k IH]; intros s i; [reflexivity|].
  cbn [for_from seq map for_each]. destruct (body (Z.of_nat i) s); cbn [bind]; auto.
  replace (Z.of_nat i + 1) with (Z.of_nat (Datatypes.S i)) by lia. apply IH.
Qed.

Lemma for_each_map {A B S} (g : A -> B) l (body : B -> S -> outcome S) s :
  for_each (map g l) body s = for_each l (fun x => body (g x)) s.
Proof. revert s; induction l; intros; simpl; auto. destruct (body (g a) s); simpl; auto. Qed.

Lemma for_each_flat_map {A B S} (g : A -> list B) l (body : B -> S -> outcome S) s :
  for_each (flat_map g l) body s = for_each l (fun x => for_each (g x) body) s.
Proof.
  revert s; induction l; intros; simpl; auto. rewrite for_each_app.
  destruct (for_each (g a) body s); simpl; auto.
Qed.

Lemma for_each_ext {A S} (l : list A) (b1 b2 : A -> S -> outcome S) s :
  (forall x s, In x l -> b1 x s = b2 x s) -> for_each l b1 s = for_each l b2 s.
Proof.
  revert s; induction l; intros s H; simpl; auto. rewrite H by (left; auto).
  destruct (b2 a s); simpl; auto. apply IHl. intros; apply H; right; auto.
Qed.

(** A loop that rewrites element i from its old value only. *)
Lemma for_loop_pointwise {A} n (body : Z -> list A -> outcome (list A)) (F : Z -> A -> A) (d : A) l :
  0 <= n -> Zlen l = n ->
  (forall i l', 0 <= i < n -> Zlen l' = n ->
     body i l' = wr l' i (F i (nth (Z.to_nat i) l' d))) ->
  exists l', for_loop n body l = Ok l' /\ Zlen l' = n /\
    forall i, 0 <= i < n -> nth (Z.to_nat i) l' d = F i (nth (Z.to_nat i) l d).
Proof.
  intros Hn HL HB.
  destruct (for_loop_inv (fun k l' => Zlen l' = n /\
     forall i, 0 <= i < n -> nth (Z.to_nat i) l' d =
       if i <? k then F i (nth (Z.to_nat i) l d) else nth (Z.to_nat i) l d) n body l Hn)
    as (l' & E & HL' & HV).
  - split; auto. intros i Hi. destruct (Z.ltb_spec i 0); auto. lia.
  - intros j l1 Hj (HL1 & HV1). rewrite HB by auto. rewrite wr_ok by lia.
    eexists; split; [reflexivity|]. split; [rewrite Zlen_upd; auto|].
    intros i Hi. destruct (Z.eq_dec i j) as [->|Ne].
    + rewrite nth_upd_eq by (unfold Zlen in *; lia). rewrite HV1 by auto.
      destruct (Z.ltb_spec j j); [lia|]. destruct (Z.ltb_spec j (j + 1)); [auto|lia].
    + rewrite nth_upd_neq by lia. rewrite HV1 by auto.
      destruct (Z.ltb_spec i j), (Z.ltb_spec i (j + 1)); auto; lia.
  - exists l'. split; auto. split; auto. intros i Hi. rewrite HV by auto.
    destruct (Z.ltb_spec i n); auto; lia.
Qed.

Lemma upd_same {A} (l : list A) n d : (n < List.length l)%nat -> upd l n (nth n l d) = l.
Proof. revert n; induction l; destruct n; simpl; intros; auto; try lia. f_equal. apply IHl. lia. Qed.

Lemma wr_same {A} (l : list A) i d : 0 <= i < Zlen l -> wr l i (nth (Z.to_nat i) l d) = Ok l.
Proof. intros H. rewrite wr_ok by auto. rewrite upd_same; auto. unfold Zlen in H. lia. Qed.

Section Frames.
Variables (w h : Z).
Hypothesis (Hw : 0 <= w) (Hh : 0 <= h) (Hwh : w * h < 2 ^ 32).

(** Value of linear pixel j of a frame. *)
Definition fpix (f : block * Z) (j : Z) : Z :=
  zat (match data (fst f) with Some d => d | None => [] end) (snd f * (w * h) + j).

Definition frame_ok (f : block * Z) : Prop :=
  block_of_frames w h (fst f) /\ 0 <= snd f < images_in_block (hdr (fst f)).

Lemma all_frames_ok blocks : Forall (block_of_frames w h) blocks -> Forall frame_ok (all_frames blocks).
Proof.
  intros HB. apply Forall_forall. intros f Hf. unfold all_frames in Hf.
  apply in_flat_map in Hf. destruct Hf as (b & Hb & Hf). apply in_map_iff in Hf.
  destruct Hf as (i & <- & Hi). apply in_zseq in Hi. rewrite Forall_forall in HB. split; simpl; auto.
Qed.

Lemma fpix_read f j : frame_ok f -> 0 <= j < w * h ->
  exists d, block_data (fst f) = Ok d /\
    rd d (u32 (u32 (snd f * (w * h)) + j)) = Ok (fpix f j) /\ is_u16 (fpix f j).
Proof.
  intros ((Hd & Hi0 & d & E & HL & H32 & HU) & Hi) Hj. exists d.
  unfold block_data, fpix. rewrite E. split; auto.
  assert (0 <= snd f * (w * h) + j < w * h * images_in_block (hdr (fst f))) by nia.
  rewrite (u32_id (snd f * (w * h))) by (unfold is_u32; nia).
  rewrite u32_id by (unfold is_u32; lia).
  rewrite rd_zat by lia. split; auto. rewrite Forall_forall in HU. apply HU, zat_in; lia.
Qed.

Lemma pixel_of_fpix x y f : 0 <= x < w -> 0 <= y < h -> pixel_of w h x y f = fpix f (y * w + x).
Proof. intros. unfold pixel_of, fpix, frame_pixel. f_equal. lia. Qed.

Lemma all_frames_sum blocks : zsum (map (fun b => Zlen (zseq (images_in_block (hdr b)))) blocks) =
  Zlen (all_frames blocks).
Proof.
  induction blocks as [|b bs IH]; [reflexivity|].
  unfold all_frames. cbn [map zsum flat_map]. rewrite Zlen_app, IH. f_equal.
  unfold Zlen. rewrite map_length. reflexivity.
Qed.

(** One frame added to the image. *)
Definition add_frame (f : block * Z) (img : list double) : outcome (list double) :=
  for_loop (w * h) (fun j img =>
    let* d := block_data (fst f) in
    let* v := rd d (u32 (u32 (snd f * (w * h)) + j)) in
    let* o := rd img j in
    wr img j (d_add o (d_of_Z v))) img.

Lemma add_frame_ok f img : frame_ok f -> Zlen img = w * h ->
  exists img', add_frame f img = Ok img' /\ Zlen img' = w * h /\
    forall j, 0 <= j < w * h -> dat img' j = d_add (dat img j) (d_of_Z (fpix f j)).
Proof.
  intros Hf HL. apply (for_loop_pointwise (w * h) _ (fun j o => d_add o (d_of_Z (fpix f j)))); auto.
  - nia.
  - intros j l' Hj HL'. destruct (fpix_read f j Hf Hj) as (d & Ed & Er & _).
    rewrite Ed. cbn [bind]. rewrite Er. cbn [bind].
    rewrite (rd_ok l' j (d_of_Z 0)) by lia. reflexivity.
Qed.

Lemma dval_add_int x a v : dval x (IZR a) -> Z.abs v <= 2 ^ 53 -> Z.abs (a + v) <= 2 ^ 53 ->
  dval (d_add x (d_of_Z v)) (IZR (a + v)).
Proof.
  intros Hx Hv Ha. rewrite <- (d_rnd_int (a + v)) by auto. rewrite plus_IZR.
  apply dval_add; auto. { apply dval_of_int; auto. }
  rewrite <- plus_IZR. apply Rle_trans with (bpow radix2 53); [apply bpow_int_le; auto; lia|].
  apply bpow_le. lia.
Qed.

Lemma add_frames_ok fs : Forall frame_ok fs -> 65535 * Zlen fs <= 2 ^ 53 -> forall img,
  Zlen img = w * h -> (forall j, 0 <= j < w * h -> dval (dat img j) 0) ->
  exists img', for_each fs add_frame img = Ok img' /\ Zlen img' = w * h /\
    forall j, 0 <= j < w * h ->
      dval (dat img' j) (IZR (zsum (map (fun f => fpix f j) fs))).
Proof.
  intros HF HN img HL H0. rewrite Forall_forall in HF.
  destruct (for_each_inv (fun pre img' => Zlen img' = w * h /\
     forall j, 0 <= j < w * h -> dval (dat img' j) (IZR (zsum (map (fun f => fpix f j) pre))))
     fs add_frame img) as (img' & E & P).
  - split; auto.
  - intros pre f post s Efs (HLs & HV).
    assert (Hf : frame_ok f) by (apply HF; rewrite Efs; apply in_elt).
    destruct (add_frame_ok f s Hf HLs) as (s' & Es & HLs' & HVs).
    exists s'. split; auto. split; auto. intros j Hj. rewrite HVs by auto.
    rewrite map_app, zsum_app. cbn [map zsum]. rewrite Z.add_0_r.
    assert (HB : forall g, In g (pre ++ [f]) -> is_u16 (fpix g j)).
    { intros g Hg. assert (Hg' : frame_ok g).
      { apply HF. rewrite Efs. apply in_app_iff in Hg. apply in_app_iff.
        destruct Hg as [|[->|[]]]; auto. right; left; auto. }
      destruct (fpix_read g j Hg' Hj) as (_ & _ & _ & U). exact U. }
    assert (B : 0 <= zsum (map (fun f => fpix f j) (pre ++ [f])) <= 2 ^ 53).
    { split.
      - apply zsum_nonneg. intros v Hv. apply in_map_iff in Hv. destruct Hv as (g & <- & Hg).
        apply HB in Hg. unfold is_u16 in Hg. lia.
      - etransitivity; [apply (zsum_bound _ 65535)|].
        + intros v Hv. apply in_map_iff in Hv. destruct Hv as (g & <- & Hg).
          apply HB in Hg. unfold is_u16 in Hg. lia.
        + rewrite Zlen_map. etransitivity; [|exact HN].
          rewrite Efs, !Zlen_app, !Zlen_cons. pose proof (Zlen_nonneg post).
          change (Zlen (@nil (block * Z))) with 0. lia. }
    rewrite map_app, zsum_app in B. cbn [map zsum] in B. rewrite Z.add_0_r in B.
    assert (is_u16 (fpix f j)) by (apply HB, in_elt). unfold is_u16 in *.
    apply dval_add_int; auto; lia.
  - destruct P as (HL' & HV). eauto.
Qed.

(** One frame merged into the running maximum. *)
Definition max_frame (f : block * Z) (img : list double) : outcome (list double) :=
  for_loop (w * h) (fun j img =>
    let* d := block_data (fst f) in
    let* v := rd d (u32 (u32 (snd f * (w * h)) + j)) in
    let* o := rd img j in
    if d_lt o (d_of_Z v) then wr img j (d_of_Z v) else Ok img) img.

Lemma max_frame_ok f img : frame_ok f -> Zlen img = w * h ->
  exists img', max_frame f img = Ok img' /\ Zlen img' = w * h /\
    forall j, 0 <= j < w * h ->
      dat img' j = if d_lt (dat img j) (d_of_Z (fpix f j)) then d_of_Z (fpix f j) else dat img j.
Proof.
  intros Hf HL. apply (for_loop_pointwise (w * h) _
    (fun j o => if d_lt o (d_of_Z (fpix f j)) then d_of_Z (fpix f j) else o)); auto.
  - nia.
  - intros j l' Hj HL'. destruct (fpix_read f j Hf Hj) as (d & Ed & Er & _).
    rewrite Ed. cbn [bind]. rewrite Er. cbn [bind].
    rewrite (rd_ok l' j (d_of_Z 0)) by lia. cbn [bind].
    destruct (d_lt _ _); auto. rewrite wr_same by lia. reflexivity.
Qed.

Lemma d_lt_ints a b : Z.abs a <= 2 ^ 53 -> Z.abs b <= 2 ^ 53 -> d_lt (d_of_Z a) (d_of_Z b) = (a <? b).
Proof.
  intros Ha Hb. rewrite (dval_lt _ _ (IZR a) (IZR b)) by (apply dval_of_int; auto).
  destruct (Z.ltb_spec a b); [apply Rlt_bool_true, IZR_lt; auto|apply Rlt_bool_false, IZR_le; auto].
Qed.

Lemma max_frames_ok fs : Forall frame_ok fs -> forall img,
  Zlen img = w * h -> (forall j, 0 <= j < w * h -> dat img j = d_of_Z 0) ->
  exists img', for_each fs max_frame img = Ok img' /\ Zlen img' = w * h /\
    forall j, 0 <= j < w * h ->
      exists m, dat img' j = d_of_Z m /\ is_max0 (map (fun f => fpix f j) fs) m /\ is_u16 m.
Proof.
  intros HF img HL H0. rewrite Forall_forall in HF.
  destruct (for_each_inv (fun pre img' => Zlen img' = w * h /\
     forall j, 0 <= j < w * h ->
      exists m, dat img' j = d_of_Z m /\ is_max0 (map (fun f => fpix f j) pre) m /\ is_u16 m)
     fs max_frame img) as (img' & E & P).
  - split; auto. intros j Hj. exists 0. split; auto. unfold is_max0, is_u16. simpl.
    split; [|lia]. split; [auto|]. split; [lia|]. tauto.
  - intros pre f post s Efs (HLs & HV).
    assert (Hf : frame_ok f) by (apply HF; rewrite Efs; apply in_elt).
    destruct (max_frame_ok f s Hf HLs) as (s' & Es & HLs' & HVs).
    exists s'. split; auto. split; auto. intros j Hj. rewrite HVs by auto.
    destruct (HV j Hj) as (m & Em & (M1 & M2 & M3) & Um). rewrite Em.
    destruct (fpix_read f j Hf Hj) as (_ & _ & _ & U). unfold is_u16 in *.
    rewrite d_lt_ints by lia.
    exists (Z.max m (fpix f j)). unfold is_max0. rewrite map_app. cbn [map].
    split; [|split; [split; [|split]|]].
    + destruct (Z.ltb_spec m (fpix f j)); f_equal; lia.
    + destruct (Z.max_spec m (fpix f j)) as [(_ & ->)|(_ & ->)].
      * right. apply in_elt.
      * destruct M1; [left; auto|right; apply in_app_iff; auto].
    + lia.
    + intros v Hv. apply in_app_iff in Hv. destruct Hv as [Hv|[<-|[]]]; [|lia].
      apply M3 in Hv. lia.
    + lia.
  - destruct P as (HL' & HV). eauto.
Qed.

(** The block loops are loops over all frames. *)
Lemma avg_blocks_loop blocks : Forall (block_of_frames w h) blocks -> forall s,
  is_u64 (snd s) ->
  for_each blocks (fun b s =>
    let npix := u32 (fst (frame_dims (hdr b)) * snd (frame_dims (hdr b))) in
    let* img := for_loop (images_in_block (hdr b)) (fun i img =>
      for_loop npix (fun j img =>
        let* d := block_data b in
        let* v := rd d (u32 (u32 (i * npix) + j)) in
        let* o := rd img j in
        wr img j (d_add o (d_of_Z v))) img) (fst s) in
    Ok (img, u64 (snd s + images_in_block (hdr b)))) s =
  bind (for_each (all_frames blocks) add_frame (fst s))
       (fun img => Ok (img, u64 (snd s + Zlen (all_frames blocks)))).
Proof.
  induction 1 as [|b bs Hb HB IH]; intros (img, n) Hn.
  - cbn. change (Zlen (@nil (block * Z))) with 0. rewrite Z.add_0_r, u64_id; auto.
  - unfold all_frames. cbn [flat_map]. fold (all_frames bs). rewrite for_each_app.
    cbn [for_each fst snd]. rewrite for_each_map, for_loop_each.
    destruct Hb as (Hd & Hi & _). rewrite Hd. cbn [fst snd]. rewrite (u32_id (w * h)) by (unfold is_u32; nia).
    unfold add_frame at 1. cbn [fst snd].
    destruct (for_each (zseq _) _ img) as [img1| | |]; cbn [bind]; auto.
    rewrite IH by (cbn [snd]; apply u64_range). cbn [fst snd].
    rewrite Zlen_app, u64_add_l.
    assert (EL : Zlen (map (fun i : Z => (b, i)) (zseq (images_in_block (hdr b)))) = images_in_block (hdr b)).
    { unfold Zlen. rewrite map_length. apply (Zlen_zseq _ Hi). }
    rewrite EL. rewrite Z.add_assoc. reflexivity.
Qed.

Lemma max_blocks_loop blocks : Forall (block_of_frames w h) blocks -> forall img,
  for_each blocks (fun b img =>
    let npix := u32 (fst (frame_dims (hdr b)) * snd (frame_dims (hdr b))) in
    for_loop (images_in_block (hdr b)) (fun i img =>
      for_loop npix (fun j img =>
        let* d := block_data b in
        let* v := rd d (u32 (u32 (i * npix) + j)) in
        let* o := rd img j in
        if d_lt o (d_of_Z v) then wr img j (d_of_Z v) else Ok img) img) img) img =
  for_each (all_frames blocks) max_frame img.
Proof.
  induction 1 as [|b bs Hb HB IH]; intros img; [reflexivity|].
  unfold all_frames. cbn [flat_map]. fold (all_frames bs). rewrite for_each_app.
  cbn [for_each]. rewrite for_each_map, for_loop_each.
  destruct Hb as (Hd & Hi & _). rewrite Hd. cbn [fst snd]. rewrite (u32_id (w * h)) by (unfold is_u32; nia).
  unfold max_frame at 1. cbn [fst snd].
  destruct (for_each (zseq _) _ img) as [img1| | |]; cbn [bind]; auto.
Qed.

Lemma dat_repeat0 n j : dat (repeat (d_of_Z 0) n) j = d_of_Z 0.
Proof.
  unfold dat. generalize (Z.to_nat j) as k. induction n; intros [|k]; simpl; auto.
Qed.
End Frames.
