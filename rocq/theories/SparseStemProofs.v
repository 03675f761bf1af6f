(** Lemmas about STEM images computed from electron events. *)
From Coq Require Import String ZArith List Lia Permutation Bool.
From Verif Require Import Base BaseFacts BlockModel PoolModel StemModel StemSpec StemProofs.
Import ListNotations.
Open Scope Z_scope.

Lemma occurrences_cons e x l :
  occurrences e (x :: l) = (if e =? x then 1 else 0) + occurrences e l.
Proof.
  unfold occurrences; simpl. destruct (Z.eq_dec x e), (Z.eqb_spec e x); subst; try lia.
Qed.

Lemma occurrences_app e l l' :
  occurrences e (l ++ l') = occurrences e l + occurrences e l'.
Proof. unfold occurrences. rewrite count_occ_app. lia. Qed.

Lemma zsum_by_value (f : Z -> Z) n l :
  Forall (fun e => 0 <= e < n) l ->
  zsum (map f l) = zsum (map (fun i => f i * occurrences i l) (zseq n)).
Proof.
  induction 1; cbn [map zsum].
  - symmetry. apply zsum_map_zero. intros. unfold occurrences; simpl. lia.
  - rewrite IHForall.
    rewrite (zsum_map_ext (fun i => f i * occurrences i (x :: l))
      (fun i => (if i =? x then f i else 0) + f i * occurrences i l)).
    + rewrite zsum_map_add, zsum_indicator by auto. reflexivity.
    + intros i _. rewrite occurrences_cons. destruct (i =? x); ring.
Qed.

Lemma event_values_ok mask events :
  Forall (fun e => 0 <= e < Zlen mask) events ->
  for_each events (fun pos acc => let* m := rd mask pos in Ok (u64 (acc + m))) 0 =
  Ok (u64 (zsum (map (zat mask) events))).
Proof.
  intros H.
  destruct (for_each_inv (fun pre a => a = u64 (zsum (map (zat mask) pre))) events
    (fun pos acc => let* m := rd mask pos in Ok (u64 (acc + m))) 0) as (a & E & ->); auto.
  intros pre x post s El ->. rewrite rd_zat.
  - cbn [bind]. eexists; split; [reflexivity|]. rewrite map_app, zsum_app. cbn [map zsum].
    rewrite u64_add_l. f_equal; lia.
  - rewrite Forall_forall in H. apply H. subst. apply in_or_app; right; left; auto.
Qed.

Lemma frames_values_ok mask frames image i :
  Forall (Forall (fun e => 0 <= e < Zlen mask)) frames ->
  0 <= i < Zlen image -> is_u64 (zat image i) ->
  for_each frames (fun events image =>
      let* values := for_each events (fun pos acc =>
        let* m := rd mask pos in Ok (u64 (acc + m))) 0 in
      let* old := rd image i in
      wr image i (u64 (old + values))) image =
  Ok (upd image (Z.to_nat i) (u64 (zat image i + zsum (map (zat mask) (concat frames))))).
Proof.
  intros H Hi Hu.
  set (body := fun events image => _).
  destruct (for_each_inv (fun pre im => im =
     upd image (Z.to_nat i) (u64 (zat image i + zsum (map (zat mask) (concat pre))))) frames
    body image) as (a & E & ->); auto.
  - simpl. rewrite u64_id; [|replace (zat image i + 0) with (zat image i) by lia; auto].
    apply list_eq_zat; [rewrite Zlen_upd; auto|]. intros j Hj.
    rewrite zat_upd by auto. destruct (Z.eqb_spec j i); subst; lia.
  - intros pre x post s El ->. unfold body.
    rewrite event_values_ok.
    2:{ rewrite Forall_forall in H. apply H. subst. apply in_or_app; right; left; auto. }
    cbn [bind]. rewrite rd_zat by (rewrite Zlen_upd; auto). cbn [bind].
    rewrite zat_upd, Z.eqb_refl by auto.
    rewrite wr_ok by (rewrite Zlen_upd; auto). eexists; split; [reflexivity|].
    rewrite u64_add_l, u64_add_r, concat_app, map_app, zsum_app. simpl concat.
    rewrite app_nil_r.
    apply list_eq_zat; [rewrite !Zlen_upd; auto|]. intros j Hj.
    rewrite !zat_upd by (rewrite ?Zlen_upd; auto).
    destruct (j =? i); auto. f_equal. lia.
Qed.

Lemma sparse_values_ok sparse mask P :
  0 <= P -> Zlen sparse <= P ->
  Forall (Forall (Forall (fun e => 0 <= e < Zlen mask))) sparse ->
  exists image, calculateSTEMValuesSparse sparse mask (repeat 0 (Z.to_nat P)) = Ok image /\
    Zlen image = P /\
    forall p, 0 <= p < P ->
      zat image p = u64 (zsum (map (zat mask) (concat (nth (Z.to_nat p) sparse [])))).
Proof.
  intros HP HL H. unfold calculateSTEMValuesSparse.
  destruct (for_loop_inv (fun i im => Zlen im = P /\
     (forall p, 0 <= p < P -> zat im p =
        if p <? i then u64 (zsum (map (zat mask) (concat (nth (Z.to_nat p) sparse [])))) else 0))
    (Zlen sparse) (fun i image =>
    let* frames := rd sparse i in
    for_each frames (fun events image =>
      let* values := for_each events (fun pos acc =>
        let* m := rd mask pos in Ok (u64 (acc + m))) 0 in
      let* old := rd image i in
      wr image i (u64 (old + values))) image) (repeat 0 (Z.to_nat P)))
    as (im & E & (L & V)).
  - apply Zlen_nonneg.
  - split; [rewrite Zlen_repeat; lia|]. intros p Hp. rewrite zat_repeat0.
    destruct (Z.ltb_spec p 0); auto; lia.
  - intros j im Hj (L & V). rewrite (rd_ok sparse j []) by lia. cbn [bind].
    assert (Hz : zat im j = 0).
    { rewrite V by lia. destruct (Z.ltb_spec j j); lia. }
    rewrite frames_values_ok.
    + eexists; split; [reflexivity|]. split; [rewrite Zlen_upd; auto|].
      intros p Hp. rewrite zat_upd by lia. rewrite Hz.
      destruct (Z.eqb_spec p j); destruct (Z.ltb_spec p (j + 1)); try lia.
      * subst. rewrite Z.add_0_l. reflexivity.
      * rewrite V by auto. destruct (Z.ltb_spec p j); auto; lia.
      * rewrite V by auto. destruct (Z.ltb_spec p j); try lia.
    + rewrite Forall_forall in H. apply H, nth_In. unfold Zlen in Hj; lia.
    + lia.
    + rewrite Hz. unfold is_u64; lia.
  - exists im. split; auto. split; auto. intros p Hp. rewrite V by auto.
    destruct (Z.ltb_spec p (Zlen sparse)); auto.
    rewrite nth_overflow by (unfold Zlen in *; lia). reflexivity.
Qed.

Lemma masked_events w h cx cy inner outer l :
  0 <= w -> 0 <= h ->
  Forall (fun e => 0 <= e < w * h) l ->
  zsum (map (zat (map (mask_value w cx cy inner outer) (zseq (w * h)))) l) =
  65535 * annulus_sum w h (fun x y => occurrences (y * w + x) l) cx cy inner outer.
Proof.
  intros Hw Hh H. rewrite (zsum_by_value _ (w * h)) by auto.
  rewrite zsum_grid by auto. unfold annulus_sum. rewrite <- zsum_map_scale.
  apply zsum_map_ext; intros y Hy. rewrite <- zsum_map_scale.
  apply zsum_map_ext; intros x Hx. apply in_zseq in Hx. apply in_zseq in Hy.
  rewrite zat_map_zseq by (apply row_index; auto). unfold mask_value.
  destruct (div_mod_unique_row w x y Hx) as (-> & ->).
  destruct (in_annulusb _ _ _ _ _ _); ring.
Qed.

Lemma masked_events_bound w h cx cy inner outer l :
  0 <= w -> 0 <= h ->
  Forall (fun e => 0 <= e < w * h) l ->
  0 <= zsum (map (zat (map (mask_value w cx cy inner outer) (zseq (w * h)))) l) <= 65535 * Zlen l.
Proof.
  intros Hw Hh H. set (m := map _ (zseq (w * h))).
  assert (G : forall x, In x (map (zat m) l) -> 0 <= x <= 65535).
  { intros x Hx. apply in_map_iff in Hx. destruct Hx as (e & <- & He).
    rewrite Forall_forall in H. specialize (H e He). unfold m.
    rewrite zat_map_zseq by auto. unfold mask_value. destruct (in_annulusb _ _ _ _ _ _); lia. }
  split.
  - apply zsum_nonneg. intros; apply G; auto.
  - rewrite <- (Zlen_map (zat m) l). apply zsum_bound. intros; apply G; auto.
Qed.

Lemma sparse_images_ok w h cx cy radii sparse P :
  0 <= w -> 0 <= h -> 0 <= P -> Zlen sparse <= P ->
  Forall (fun frames => Forall (Forall (fun e => 0 <= e < w * h)) frames /\
                        65535 * Zlen (concat frames) < 2 ^ 64) sparse ->
  exists imgs,
    sparse_images sparse (map (fun io => map (mask_value w cx cy (fst io) (snd io))
                                 (zseq (w * h))) radii) (repeat 0 (Z.to_nat P)) = Ok imgs /\
    List.length imgs = List.length radii /\
    forall k, (k < List.length radii)%nat ->
      Zlen (nth k imgs []) = P /\
      forall p, 0 <= p < P ->
        zat (nth k imgs []) p =
        65535 * annulus_sum w h (fun x y => occurrences (y * w + x)
                                   (concat (nth (Z.to_nat p) sparse [])))
                  cx cy (fst (nth k radii (0, 0))) (snd (nth k radii (0, 0))).
Proof.
  intros Hw Hh HP HL H. induction radii as [|(a, b) radii IH]; simpl map; simpl sparse_images.
  - exists []. repeat split; auto; simpl in *; lia.
  - destruct IH as (imgs & E & L & V).
    destruct (sparse_values_ok sparse (map (mask_value w cx cy a b) (zseq (w * h))) P)
      as (im & E1 & L1 & V1); auto.
    { rewrite Zlen_map, Zlen_zseq by nia. rewrite Forall_forall in *.
      intros f Hf. apply H; auto. }
    rewrite E1. cbn [bind]. rewrite E. cbn [bind].
    exists (im :: imgs). split; auto. split; [simpl; auto|].
    intros [|k] Hk.
    + split; auto. intros p Hp. simpl nth. rewrite V1 by auto. cbn [fst snd].
      rewrite <- masked_events; auto.
      * apply u64_id.
        destruct (nth_in_or_default (Z.to_nat p) sparse []) as [Hin|Hd].
        -- rewrite Forall_forall in H. destruct (H _ Hin) as (H1 & H2).
           destruct (masked_events_bound w h cx cy a b (concat (nth (Z.to_nat p) sparse []))) as (B1 & B2); auto.
           { apply Forall_concat; auto. }
           unfold is_u64; lia.
        -- rewrite Hd. simpl. unfold is_u64; lia.
      * destruct (nth_in_or_default (Z.to_nat p) sparse []) as [Hin|Hd].
        -- rewrite Forall_forall in H. apply Forall_concat. apply H; auto.
        -- rewrite Hd. constructor.
    + apply (V k). simpl in Hk; lia.
Qed.
