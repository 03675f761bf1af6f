(** Proofs about the image functions over a reader. *)
From Coq Require Import String ZArith List Lia Bool Reals Lra.
From Flocq Require Import Core.
From Verif Require Import Base BaseFacts BlockModel Double Float32 FloatConv PoolModel ImageModel ImageSpec ImageProofs ImageProps
  StemModel StemSpec StemProofs StemProps RadialModel RadialSpec RadialProps HistSpec HistProofs HistProps
  SparseModel HelperModel ClassicPyModel ClassicPySpec ClassicPyProofs ReaderImageModel ReaderImageSpec.
Import ListNotations.
Open Scope Z_scope.
Local Arguments Z.mul : simpl never.
Local Arguments Z.add : simpl never.
Local Arguments Z.sub : simpl never.
Local Arguments Z.pow : simpl never.

Section Iterate.
  Context {R : Type} (ops : reader_ops R) (r : R) (bs : list block).
  Hypothesis Hrd : reader_of ops r bs.
  Hypothesis Rb : forall b, In b bs -> real_block b.

  Lemma iterate_rest fuel cs : (List.length bs < fuel)%nat ->
    let k := since_reset cs in
    exists r', ro_iterate ops fuel (run_calls ops cs r) = (Ok (skipn k bs), r') /\ delivers ops r' [] /\
      r' = run_calls ops (cs ++ repeat CRead (S (List.length (skipn k bs)))) r.
  Proof.
    intros Hf k. pose proof (delivers_after ops r bs cs Hrd) as Dk. fold k in Dk.
    destruct (iterate_ok ops fuel _ _ Dk) as (r' & E & D & Q).
    - intros b Hin. apply Rb. rewrite <- (firstn_skipn k bs). apply in_or_app. now right.
    - rewrite skipn_length. lia.
    - exists r'. split; [exact E|]. split; [exact D|]. now rewrite run_calls_app.
  Qed.

  Lemma reset_run cs : ro_reset ops (run_calls ops cs r) = run_calls ops (cs ++ [CReset]) r.
  Proof. rewrite run_calls_app. reflexivity. Qed.

  Lemma iterate_reset fuel cs : (List.length bs < fuel)%nat ->
    fst (ro_iterate ops fuel (ro_reset ops (run_calls ops cs r))) = Ok bs.
  Proof.
    intros Hf. rewrite reset_run. destruct (iterate_rest fuel (cs ++ [CReset]) Hf) as (r' & E & _).
    rewrite since_reset_app in E by reflexivity. now rewrite E.
  Qed.

  Lemma iterate_new fuel : (List.length bs < fuel)%nat -> fst (ro_iterate ops fuel r) = Ok bs.
  Proof. intros Hf. destruct (iterate_rest fuel [] Hf) as (r' & E & _). cbn in E. now rewrite E. Qed.

  Lemma iterate_empty fuel r' : (0 < fuel)%nat -> delivers ops r' [] -> fst (ro_iterate ops fuel r') = Ok [].
  Proof.
    intros Hf D. destruct fuel as [|f]; [lia|]. cbn [ro_iterate]. destruct (delivers_nil ops r' D) as (r2 & -> & _).
    reflexivity.
  Qed.
End Iterate.

Lemma average_empty : calculateAverage [] = Ok ((0, 0), []).
Proof. reflexivity. Qed.

Lemma histograms_ok sw sh N : 0 < N < 2 ^ 31 -> forall imgs, (forall img, In img imgs -> image_ok sw sh img) ->
  exists bins freqs, histograms (sw, sh) N imgs = Ok (bins, freqs) /\
    List.length bins = List.length imgs /\ List.length freqs = List.length imgs /\
    forall k, (k < List.length imgs)%nat -> histogram_of (nth k imgs []) N (nth k bins []) (nth k freqs []).
Proof.
  intros HN imgs. induction imgs as [|img imgs IH]; intros Hi.
  - exists [], []. cbn. repeat split; auto. intros k Hk. lia.
  - destruct IH as (bins & freqs & E & L1 & L2 & V); [intros; apply Hi; now right|].
    assert (Him : image_ok sw sh img) by (apply Hi; now left).
    destruct (container_edges sw sh img N Him HN) as (mn & mx & b & Hmn & Hmx & Eb & Lb & Vb & _).
    destruct (histogram_ok b N _ (proj1 HN) Lb Vb sw sh img Him) as (freq & Ef & Lf & Vf).
    exists (b :: bins), (freq :: freqs). cbn [histograms]. rewrite Eb. cbn [bind]. rewrite Ef. cbn [bind].
    rewrite E. cbn [bind List.length]. repeat split; auto.
    intros [|k] Hk; cbn [nth]; [|apply V; cbn in Hk; lia].
    exists mn, mx. auto 10.
Qed.

(** Annulus sums fit 64 bits. *)
Lemma zsum_le (l : list Z) m : (forall v, In v l -> 0 <= v <= m) -> 0 <= zsum l <= m * Zlen l.
Proof.
  induction l as [|a l IH]; intros H; [cbn; lia|]. rewrite Zlen_cons. change (zsum (a :: l)) with (a + zsum l).
  specialize (IH (fun v Hv => H v (or_intror Hv))). specialize (H a (or_introl eq_refl)). lia.
Qed.

Lemma zat_u16 d i : Forall is_u16 d -> 0 <= zat d i <= 65535.
Proof.
  intros H. rewrite Forall_forall in H. unfold zat. destruct (i <? 0); [lia|].
  destruct (nth_in_or_default (Z.to_nat i) d 0) as [Hin| ->]; [|lia]. specialize (H _ Hin). unfold is_u16 in H. lia.
Qed.

Lemma annulus_range w h d i cx cy inner outer : 0 <= w -> 0 <= h -> Forall is_u16 d ->
  0 <= annulus_sum w h (frame_pixel d w h i) cx cy inner outer <= 65535 * (w * h).
Proof.
  intros Hw Hh Hd. unfold annulus_sum.
  pose proof (zsum_le (map (fun y => zsum (map (fun x =>
    if in_annulusb cx cy inner outer x y then frame_pixel d w h i x y else 0) (zseq w))) (zseq h)) (65535 * w)) as B.
  rewrite Zlen_map, Zlen_zseq in B by lia. assert (65535 * w * h = 65535 * (w * h)) by lia.
  assert (0 <= zsum (map (fun y => zsum (map (fun x =>
    if in_annulusb cx cy inner outer x y then frame_pixel d w h i x y else 0) (zseq w))) (zseq h)) <= 65535 * w * h); [|lia].
  apply B. intros v Hv. apply in_map_iff in Hv as (y & <- & _).
  pose proof (zsum_le (map (fun x => if in_annulusb cx cy inner outer x y then frame_pixel d w h i x y else 0) (zseq w)) 65535) as C.
  rewrite Zlen_map, Zlen_zseq in C by lia. apply C. intros v Hv. apply in_map_iff in Hv as (x & <- & _).
  destruct (in_annulusb _ _ _ _ _ _); [|lia]. now apply zat_u16.
Qed.

Lemma detector_u64 imgs bs inner outer scan w h sw sh cx cy k :
  stem_input bs inner outer scan w h sw sh -> sw * sh < 2 ^ 31 ->
  detector_images imgs bs inner outer w h sw sh cx cy -> (k < List.length inner)%nat -> image_ok sw sh (nth k imgs []).
Proof.
  intros Hin Hs (L & V) Hk. destruct (V k Hk) as (Ll & P). destruct Hin as [_ Hb (Fw & Fh & Fn) (_ & Sw & Sh & _) _ _ _].
  split; [lia|]. split; [lia|]. split; [nia|]. split; [exact Ll|].
  apply Forall_forall. intros v Hv. apply In_nth with (d := 0) in Hv as (n & Hn & <-).
  assert (Hp : 0 <= Z.of_nat n < sw * sh) by (unfold Zlen in Ll; lia). destruct (P _ Hp) as (P1 & P2).
  assert (Ez : nth n (nth k imgs []) 0 = zat (nth k imgs []) (Z.of_nat n)).
  { unfold zat. destruct (Z.ltb_spec (Z.of_nat n) 0); [lia|]. now rewrite Nat2Z.id. }
  rewrite Ez.
  destruct (existsb (fun b => existsb (Z.eqb (Z.of_nat n)) (image_numbers (hdr b))) bs) eqn:X.
  - apply existsb_exists in X as (b & Hbin & X). apply existsb_exists in X as (q & Hq & X). apply Z.eqb_eq in X. subst q.
    rewrite Forall_forall in Hb. destruct (Hb b Hbin) as (_ & d & Ed & _ & _ & Hu & _).
    apply In_nth_error in Hq as (i & Hi). rewrite (P1 b d i Hbin Ed Hi).
    pose proof (annulus_range w h d (Z.of_nat i) (axis_center w cx) (axis_center h cy) (nth k inner 0) (nth k outer 0)
      ltac:(lia) ltac:(lia) Hu) as B. unfold is_u64. change (2 ^ 64) with (2 ^ 32 * 2 ^ 32) in *. lia.
  - rewrite P2; [unfold is_u64; lia|]. intros b Hbin Hq.
    assert (existsb (fun b => existsb (Z.eqb (Z.of_nat n)) (image_numbers (hdr b))) bs = true); [|congruence].
    apply existsb_exists. exists b. split; [exact Hbin|]. apply existsb_exists. exists (Z.of_nat n). split; [exact Hq|apply Z.eqb_refl].
Qed.
