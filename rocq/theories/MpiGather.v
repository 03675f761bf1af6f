(** gatherBlocks and gatherEvents. *)
From Coq Require Import String ZArith List Lia Bool.
From Verif Require Import Base BaseFacts PermFacts BlockModel StreamModel StreamSpec
  StreamProofs SectorModel SectorSpec SectorProofs ThreadedModel MultipassModel MultipassSpec
  MultipassProofs MpiModel MpiSpec MpiCodec MpiProofs MpiWorld.
Import ListNotations.
Open Scope Z_scope.
Local Arguments skipn : simpl never.
Local Arguments firstn : simpl never.
Local Arguments Z.mul : simpl never.
Local Arguments Z.add : simpl never.
Local Arguments Z.pow : simpl never.

(** ** Blocks *)

Definition pixels (b : block) : Z :=
  fst (frame_dims (hdr b)) * snd (frame_dims (hdr b)) * images_in_block (hdr b).

Lemma pixels_len b d : wf_wire b d -> Zlen d = pixels b.
Proof. intros H. apply H. Qed.

Lemma pix_bytes d : Zlen (flat_map (put 2) d) = 2 * Zlen d.
Proof.
  induction d as [|x d IH]; [reflexivity|]. cbn [flat_map]. rewrite Zlen_app, IH, Zlen_cons.
  unfold Zlen at 1. rewrite put_length. lia.
Qed.

Lemma save_size b : u64 (u64 (u64 (2 * fst (frame_dims (hdr b))) * snd (frame_dims (hdr b))) * images_in_block (hdr b))
  = u64 (2 * pixels b).
Proof.
  unfold u64, pixels. rewrite Z.mul_mod_idemp_l by lia. rewrite <- Z.mul_assoc, Z.mul_mod_idemp_l by lia.
  f_equal. ring.
Qed.

Lemma load_size h : u32 (u32 (fst (frame_dims h) * snd (frame_dims h)) * images_in_block h)
  = u32 (fst (frame_dims h) * snd (frame_dims h) * images_in_block h).
Proof. unfold u32. now rewrite Z.mul_mod_idemp_l by lia. Qed.

Lemma save_block_ok b d : wf_wire b d -> pixels b < 2 ^ 63 ->
  save_block b = Ok (put_header (hdr b) ++ flat_map (put 2) d).
Proof.
  intros H Hp. pose proof (pixels_len b d H) as HL. pose proof (Zlen_nonneg d).
  unfold save_block. rewrite save_size. unfold u64. rewrite Z.mod_small by lia.
  destruct (Z.eqb_spec (2 * pixels b) 0) as [E|E].
  - assert (d = []) as ->. { destruct d; auto. rewrite Zlen_cons in HL. pose proof (Zlen_nonneg d). lia. }
    cbn [flat_map]. now rewrite app_nil_r.
  - unfold block_data. rewrite (proj1 H). cbn [bind].
    destruct (Z.ltb_spec (Zlen d * 2) (2 * pixels b)); [lia|]. do 2 f_equal. apply firstn_all2.
    pose proof (pix_bytes d) as HB. unfold Zlen in HB at 1. lia.
Qed.

Lemma header_ok b d : wf_wire b d -> codec put_header get_header (hdr b)
  (mkHeader (scan_dims (hdr b)) (frame_dims (hdr b)) (images_in_block (hdr b)) 0 0 (frame_number (hdr b)) 0 (image_numbers (hdr b)) []).
Proof.
  intros (_ & H1 & H2 & H3 & H4 & H5 & H6 & H7 & H8 & _) r. unfold put_header, get_header. rewrite <- !app_assoc.
  unfold is_u32 in *.
  do 6 (rewrite get_put_small by assumption; cbn [bind]).
  rewrite (get_list_ok (put 4) (get 4) _ (image_numbers (hdr b))); auto.
  - cbn [bind]. now rewrite <- !surjective_pairing.
  - apply Forall2_refl. intros x Hx. apply get_put_small. rewrite Forall_forall in H7. apply H7; auto.
Qed.

Lemma firstn_pix n d r : (n <= List.length d)%nat ->
  firstn (2 * n) (flat_map (put 2) d ++ r) = flat_map (put 2) (firstn n d) /\
  skipn (2 * n) (flat_map (put 2) d ++ r) = flat_map (put 2) (skipn n d) ++ r.
Proof.
  intros Hn. rewrite <- (firstn_skipn n d) at 1 3. rewrite flat_map_app, <- app_assoc.
  assert (List.length (flat_map (put 2) (firstn n d)) = 2 * n)%nat as HL.
  { pose proof (pix_bytes (firstn n d)) as HB. unfold Zlen in HB. rewrite firstn_length_le in HB by auto. lia. }
  split.
  - rewrite firstn_app, HL, Nat.sub_diag. change (firstn 0 ?l) with (@nil Z). rewrite app_nil_r.
    apply firstn_all2. lia.
  - rewrite skipn_app, HL, Nat.sub_diag. rewrite skipn_all2 by lia. reflexivity.
Qed.

(** Loading takes the number of pixels modulo 2^32. *)
Lemma load_block_ok b d r : wf_wire b d ->
  load_block ((put_header (hdr b) ++ flat_map (put 2) d) ++ r) =
  Ok (mkBlock (hdr (received b)) (Some (firstn (Z.to_nat (u32 (pixels b))) d)),
      flat_map (put 2) (skipn (Z.to_nat (u32 (pixels b))) d) ++ r).
Proof.
  intros H. pose proof (pixels_len b d H) as HL.
  assert (Hp : 0 <= pixels b) by (rewrite <- HL; apply Zlen_nonneg).
  assert (HU : 0 <= u32 (pixels b) <= pixels b) by (unfold u32; split; [apply Z.mod_pos_bound|apply Z.mod_le]; lia).
  unfold load_block. rewrite <- app_assoc, (header_ok b d H). cbn [bind frame_dims images_in_block].
  rewrite load_size. change (u32 (fst (frame_dims (hdr b)) * snd (frame_dims (hdr b)) * images_in_block (hdr b))) with (u32 (pixels b)).
  rewrite Z2Nat.inj_mul by lia. change (Z.to_nat 2) with 2%nat.
  set (n := Z.to_nat (u32 (pixels b))) in *.
  assert (Hn : (n <= List.length d)%nat) by (unfold n, Zlen in *; lia).
  assert (HB : (2 * List.length d <= List.length (flat_map (put 2) d ++ r))%nat).
  { rewrite app_length. pose proof (pix_bytes d) as HB. unfold Zlen in HB. lia. }
  destruct (Nat.ltb_spec (List.length (flat_map (put 2) d ++ r)) (2 * n)); [lia|].
  destruct (firstn_pix n d r Hn) as [-> ->]. unfold received. cbn [hdr]. do 4 f_equal.
  assert (List.length (firstn n d) = n) as Hn' by (apply firstn_length_le; auto).
  apply words_flat'; [auto|]. apply Forall_forall. intros x Hx.
  assert (In x d) as Hd. { rewrite <- (firstn_skipn n d). apply in_or_app. auto. }
  destruct H as (_ & _ & _ & _ & _ & _ & _ & _ & _ & _ & H). rewrite Forall_forall in H. apply H in Hd.
  unfold is_u16 in Hd. change (256 ^ Z.of_nat 2) with 65536. change (2 ^ 16) with 65536 in Hd. exact Hd.
Qed.

Lemma block_ok b d r : wf_wire b d -> pixels b < 2 ^ 32 ->
  load_block ((put_header (hdr b) ++ flat_map (put 2) d) ++ r) = Ok (received b, r).
Proof.
  intros H Hp. pose proof (pixels_len b d H) as HL. pose proof (Zlen_nonneg d).
  rewrite (load_block_ok b d r H). unfold u32. rewrite Z.mod_small by lia.
  rewrite firstn_all2, skipn_all2 by (unfold Zlen in *; lia). cbn [flat_map app].
  unfold received. cbn [hdr]. rewrite (proj1 H). reflexivity.
Qed.

Lemma header_len h : Zlen (put_header h) = 32 + 4 * Zlen (image_numbers h).
Proof.
  unfold put_header, put_list. rewrite !Zlen_app. unfold Zlen at 1 2 3 4 5 6 7. rewrite !put_length.
  assert (Zlen (flat_map (put 4) (image_numbers h)) = 4 * Zlen (image_numbers h)); [|lia].
  induction (image_numbers h) as [|x l IH]; [reflexivity|]. cbn [flat_map]. rewrite Zlen_app, Zlen_cons, IH.
  unfold Zlen at 1. rewrite put_length. lia.
Qed.

Definition wf_sample (b : block) : Prop := exists d, wf_wire b d /\ pixels b < 2 ^ 32.

Lemma save_all_ok bs : (forall b, In b bs -> wf_sample b) ->
  exists x, save_all bs = Ok x /\ Zlen x = zsum (map wire_size bs) /\
    forall r, get_n load_block (List.length bs) (x ++ r) = Ok (map received bs, r).
Proof.
  induction bs as [|b bs IH]; intros H.
  - exists []. repeat split.
  - destruct (H b (or_introl eq_refl)) as (d & Hw & Hp).
    destruct IH as (x & E & L & D); [intros; apply H; now right|].
    cbn [save_all]. rewrite (save_block_ok b d Hw), E by lia. cbn [bind].
    eexists. split; [reflexivity|]. split.
    + rewrite !Zlen_app, header_len, pix_bytes, (pixels_len b d Hw), L. cbn [map zsum]. unfold wire_size, pixels. lia.
    + intros r. cbn [List.length get_n]. rewrite <- (app_assoc _ x r).
      rewrite (block_ok b d _ Hw Hp). cbn [bind]. rewrite D. reflexivity.
Qed.

Lemma save_blocks_ok bs : (forall b, In b bs -> wf_sample b) -> 8 + zsum (map wire_size bs) < 2 ^ 31 ->
  exists m, save_blocks bs = Ok m /\ Zlen m = 8 + zsum (map wire_size bs) /\
    load_blocks m = Ok (map received bs, []).
Proof.
  intros H HS. destruct (save_all_ok bs H) as (x & E & L & D). unfold save_blocks. rewrite E. cbn [bind].
  eexists. split; [reflexivity|].
  assert (HZ : Zlen bs <= zsum (map wire_size bs)).
  { clear - H. induction bs as [|b bs IH]; [apply Z.le_refl|]. cbn [map zsum]. rewrite Zlen_cons.
    destruct (H b (or_introl eq_refl)) as (d & Hw & _). pose proof (pixels_len b d Hw) as HL. unfold pixels in HL.
    pose proof (Zlen_nonneg d). pose proof (Zlen_nonneg (image_numbers (hdr b))).
    assert (Zlen bs <= zsum (map wire_size bs)) by (apply IH; intros; apply H; now right).
    unfold wire_size at 1. lia. }
  split.
  - rewrite Zlen_app, L. unfold Zlen at 1. rewrite put_length. lia.
  - unfold load_blocks, get_list. rewrite get_put_small.
    + cbn [bind]. unfold Zlen. rewrite Nat2Z.id. rewrite <- (app_nil_r x). apply D.
    + pose proof (Zlen_nonneg bs). change (256 ^ Z.of_nat 8) with (2 ^ 64). lia.
Qed.

Lemma save_ranks_ok all : (forall bs b, In bs all -> In b bs -> wf_sample b) ->
  (forall bs, In bs all -> 8 + zsum (map wire_size bs) < 2 ^ 31) ->
  exists msgs, save_ranks all = Ok msgs /\
    map Zlen msgs = map (fun bs => 8 + zsum (map wire_size bs)) all /\
    Forall2 (fun m bs => load_blocks m = Ok (map received bs, [])) msgs all.
Proof.
  induction all as [|bs all IH]; intros H HS.
  - exists []. repeat split. constructor.
  - destruct (save_blocks_ok bs) as (m & E & L & D); [intros; eapply H; [now left|auto]|apply HS; now left|].
    destruct IH as (msgs & E' & L' & D'); [intros; eapply H; [right|]; eauto|intros; apply HS; now right|].
    cbn [save_ranks]. rewrite E, E'. cbn [bind]. exists (m :: msgs). split; auto. split.
    + cbn [map]. congruence.
    + now constructor.
Qed.

Lemma append_ranks_ok all recv : forall i dss bs, 0 < i ->
  List.length dss = List.length all ->
  (forall k x, nth_error all k = Some x ->
     load_blocks (view_of recv (fst (nth k dss (0, 0))) (snd (nth k dss (0, 0)))) = Ok (map received x, [])) ->
  append_ranks i recv dss bs = Ok (bs ++ map received (concat all)).
Proof.
  induction all as [|x all IH]; intros i dss bs Hi HL H.
  - destruct dss; [|discriminate]. cbn. now rewrite app_nil_r.
  - destruct dss as [|[d s] dss]; [discriminate|]. cbn [append_ranks].
    destruct (Z.eqb_spec i 0); [lia|]. rewrite (H 0%nat x eq_refl : load_blocks (view_of recv d s) = _). cbn [bind].
    rewrite IH; [|lia|cbn in HL; lia|].
    + cbn [concat]. now rewrite map_app, app_assoc.
    + intros k y Hy. apply (H (S k) y Hy).
Qed.

Lemma Forall2_nth {A B} (R : A -> B -> Prop) l m : Forall2 R l m -> forall k y, nth_error m k = Some y ->
  exists x, nth_error l k = Some x /\ R x y.
Proof. induction 1; intros [|k] z Hz; try discriminate; [injection Hz as <-; eexists; cbn; eauto|]. now apply IHForall2. Qed.

Lemma gather_blocks_ok own others : let all := own :: others in
  (forall bs b, In bs all -> In b bs -> wf_sample b) ->
  zsum (map (fun bs => 8 + zsum (map wire_size bs)) all) < 2 ^ 31 ->
  gather_blocks all = Ok (own ++ map received (concat others)).
Proof.
  intros all H HS.
  assert (HP : forall bs, In bs all -> 0 <= 8 + zsum (map wire_size bs)).
  { intros bs Hb. assert (0 <= zsum (map wire_size bs)); [|lia]. apply zsum_nonneg. intros y Hy.
    apply in_map_iff in Hy as (b & <- & Hy). destruct (H bs b Hb Hy) as (d & Hw & _). pose proof (pixels_len b d Hw) as HL.
    unfold pixels in HL. pose proof (Zlen_nonneg d). pose proof (Zlen_nonneg (image_numbers (hdr b))).
    unfold wire_size. lia. }
  destruct (save_ranks_ok all H) as (msgs & E & L & D).
  { intros bs Hb. eapply Z.le_lt_trans; [|exact HS]. apply zsum_in.
    - intros y Hy. apply in_map_iff in Hy as (x & <- & Hx). now apply HP.
    - apply in_map_iff. exists bs. auto. }
  unfold gather_blocks. rewrite E. cbn [bind]. rewrite <- L in HS.
  destruct (sizes_small msgs HS) as [HI HM]. rewrite HM.
  destruct (displacements_ok (map Zlen msgs) 0) as (ds & Ed & Ld & Hd); [|lia|].
  { intros s Hs. apply in_map_iff in Hs as (m & <- & _). apply Zlen_nonneg. }
  rewrite Ed. cbn [bind].
  assert (0 <= zsum (map Zlen msgs)).
  { apply zsum_nonneg. intros s Hs. apply in_map_iff in Hs as (m & <- & _). apply Zlen_nonneg. }
  unfold u64. rewrite Z.mod_small by lia.
  destruct (Z.ltb_spec (2 ^ 31 - 1) (zsum (map Zlen msgs))); [lia|].
  rewrite gatherv_ok by auto. cbn [bind]. cbn [hd].
  assert (LA : List.length msgs = List.length all).
  { transitivity (List.length (map (@Zlen Z) msgs)); [now rewrite map_length|]. rewrite L. apply map_length. }
  assert (LC : List.length (combine ds (map Zlen msgs)) = List.length all).
  { rewrite combine_length, Ld, Nat.min_id, map_length. exact LA. }
  assert (HK : forall k x, nth_error all k = Some x -> load_blocks (view_of (concat msgs)
     (fst (nth k (combine ds (map Zlen msgs)) (0, 0))) (snd (nth k (combine ds (map Zlen msgs)) (0, 0)))) = Ok (map received x, [])).
  { intros k x Hx. destruct (Forall2_nth _ _ _ D k x Hx) as (m & Hm & Hl).
    rewrite combine_nth by auto. cbn [fst snd].
    assert (Hk : (k < List.length msgs)%nat) by (apply nth_error_Some; congruence).
    assert (HD : nth_error ds k = Some (nth k ds 0)) by (apply nth_error_nth'; rewrite Ld, map_length; auto).
    apply Hd in HD. rewrite HD. rewrite (nth_error_nth (map Zlen msgs) k 0 (map_nth_error Zlen k msgs Hm)).
    rewrite Z.add_0_l, view_concat; auto. }
  unfold all in LC. cbn [List.length] in LC.
  destruct (combine ds (map Zlen msgs)) as [|[d s] dss] eqn:Ec; [discriminate|]. cbn [append_ranks].
  change (0 =? 0) with true. cbv iota. apply append_ranks_ok; [lia|cbn in LC; lia|].
  intros k x Hx. apply (HK (S k) x Hx).
Qed.

Lemma displacements_overflow sizes d : (forall s, In s sizes -> 0 <= s) -> d < 2 ^ 31 -> 2 ^ 31 <= d + zsum sizes ->
  displacements d sizes = UB "signed overflow".
Proof.
  revert d. induction sizes as [|s t IH]; intros d Hp Hd H; cbn [zsum displacements] in *; [lia|].
  destruct (Z.leb_spec (2 ^ 31) (d + s)); auto. rewrite IH; auto; [|lia]. intros; apply Hp; now right.
Qed.

Lemma gather_blocks_overflow all :
  (forall bs b, In bs all -> In b bs -> wf_sample b) ->
  (forall bs, In bs all -> 8 + zsum (map wire_size bs) < 2 ^ 31) ->
  2 ^ 31 <= zsum (map (fun bs => 8 + zsum (map wire_size bs)) all) ->
  gather_blocks all = UB "signed overflow".
Proof.
  intros H HS HO. destruct (save_ranks_ok all H HS) as (msgs & E & L & D).
  unfold gather_blocks. rewrite E. cbn [bind].
  assert (map int_size msgs = map Zlen msgs) as ->.
  { apply map_ext_in. intros m Hm. apply int_size_small.
    apply (in_map Zlen) in Hm. rewrite L in Hm. apply in_map_iff in Hm as (bs & <- & Hb). now apply HS. }
  rewrite displacements_overflow; auto; [|lia|rewrite L; lia].
  intros s Hs. apply in_map_iff in Hs as (m & <- & _). apply Zlen_nonneg.
Qed.
