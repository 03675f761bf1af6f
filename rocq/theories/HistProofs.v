(** Lemmas about histograms. *)
From Coq Require Import String ZArith List Lia Bool Reals Lra.
From Flocq Require Import Core.
From Verif Require Import Base BaseFacts BlockModel StemProofs Double ImageModel ImageSpec ImageProofs HistSpec.
Import ListNotations.
Open Scope Z_scope.

Lemma min_max_ok pixels : pixels <> [] ->
  exists mn mx, min_max pixels (Zlen pixels) = Ok (mn, mx) /\ is_min pixels mn /\ is_max pixels mx.
Proof.
  intros Hne. pose proof (Zlen_nonneg pixels).
  assert (Hn : 0 < Zlen pixels) by (destruct pixels; [congruence|rewrite Zlen_cons; pose proof (Zlen_nonneg pixels); lia]).
  unfold min_max. destruct (Z.eqb_spec (Zlen pixels) 0); [lia|].
  rewrite rd_zat by lia. cbn [bind].
  destruct (for_loop_inv (fun k mm => In (fst mm) pixels /\ In (snd mm) pixels /\
      forall i, 0 <= i < k -> fst mm <= zat pixels i <= snd mm) (Zlen pixels)
     (fun i mm => let* v := rd pixels i in Ok (Z.min (fst mm) v, Z.max (snd mm) v))
     (zat pixels 0, zat pixels 0)) as ((mn, mx) & E & A & B & C); auto.
  - cbn [fst snd]. split; [apply zat_in; lia|split; [apply zat_in; lia|lia]].
  - intros j (a, b) Hj (A & B & C). cbn [fst snd] in *. rewrite rd_zat by auto. cbn [bind].
    eexists; split; [reflexivity|]. cbn [fst snd].
    split; [|split].
    + destruct (Z.min_spec a (zat pixels j)) as [(_ & ->)|(_ & ->)]; auto. apply zat_in; auto.
    + destruct (Z.max_spec b (zat pixels j)) as [(_ & ->)|(_ & ->)]; auto. apply zat_in; auto.
    + intros i Hi. destruct (Z.eq_dec i j) as [->|]; [lia|]. specialize (C i ltac:(lia)). lia.
  - exists mn, mx. split; auto. cbn [fst snd] in *.
    assert (D : forall v, In v pixels -> mn <= v <= mx).
    { intros v Hv. apply (In_nth _ _ 0) in Hv. destruct Hv as (k & Hk & <-).
      assert (Hr : 0 <= Z.of_nat k < Zlen pixels) by (unfold Zlen; lia).
      specialize (C _ Hr). unfold zat in C. destruct (Z.ltb_spec (Z.of_nat k) 0); [lia|].
      rewrite Nat2Z.id in C. exact C. }
    split; split; auto; intros v Hv; apply D in Hv; lia.
Qed.

Lemma map_zat {B} (g : Z -> B) l : map g l = map (fun q => g (zat l q)) (zseq (Zlen l)).
Proof. rewrite <- (map_map (zat l) g), <- list_as_map_zat. reflexivity. Qed.

Section Hist.
Variables (bins : list double) (N : Z) (e : Z -> R).
Hypothesis HN : 0 < N.
Hypothesis HL : Zlen bins = N + 1.
Hypothesis He : forall j, 0 <= j <= N -> dval (dat bins j) (e j).

(** Increment of bin k caused by a value. *)
Definition inc (r : R) (k : Z) : Z := if in_bin e N k r then 1 else 0.

Lemma bump_ok freq k : 0 <= k < Zlen freq -> zat freq k + 1 < 2 ^ 31 ->
  exists f', bump freq k = Ok f' /\ Zlen f' = Zlen freq /\
    forall i, 0 <= i < Zlen freq -> zat f' i = zat freq i + (if i =? k then 1 else 0).
Proof.
  intros Hk Hb. unfold bump. rewrite rd_zat by auto. cbn [bind].
  destruct (Z.ltb_spec (zat freq k + 1) (2 ^ 31)); [|lia]. rewrite wr_ok by auto.
  eexists; split; [reflexivity|]. split; [apply Zlen_upd|]. intros i Hi. rewrite zat_upd by auto.
  destruct (Z.eqb_spec i k) as [->|]; lia.
Qed.

Definition one_value (value : double) (freq : list Z) : outcome (list Z) :=
  let* freq := for_loop N (fun j freq =>
    let* lo := rd bins j in
    if d_le lo value then
      let* hi := rd bins (j + 1) in
      if d_lt value hi then bump freq j else Ok freq
    else Ok freq) freq in
  let* last := rd bins N in
  if d_eq value last then bump freq (N - 1) else Ok freq.

Lemma one_value_ok value r freq : dval value r -> Zlen freq = N ->
  (forall k, 0 <= k < N -> zat freq k + 1 < 2 ^ 31) ->
  exists f', one_value value freq = Ok f' /\ Zlen f' = N /\
    forall k, 0 <= k < N -> zat f' k = zat freq k + inc r k.
Proof.
  intros Hv HLf Hb. unfold one_value.
  set (hit := fun k => Rle_bool (e k) r && Rlt_bool r (e (k + 1))).
  destruct (for_loop_inv (fun j f' => Zlen f' = N /\ forall k, 0 <= k < N ->
      zat f' k = zat freq k + (if (k <? j) && hit k then 1 else 0)) N
    (fun j freq =>
    let* lo := rd bins j in
    if d_le lo value then
      let* hi := rd bins (j + 1) in
      if d_lt value hi then bump freq j else Ok freq
    else Ok freq) freq) as (f1 & E1 & L1 & V1); try lia.
  - split; auto. intros k Hk. destruct (Z.ltb_spec k 0); [lia|]. simpl. lia.
  - intros j f Hj (Lf & Vf). rewrite (rd_ok bins j (d_of_Z 0)) by lia. cbn [bind].
    fold (dat bins j). rewrite (dval_le _ _ (e j) r (He j ltac:(lia)) Hv).
    assert (STEP : forall b f', Zlen f' = N ->
       (forall k, 0 <= k < N -> zat f' k = zat f k + (if (k =? j) && b then 1 else 0)) ->
       b = hit j ->
       forall k, 0 <= k < N -> zat f' k = zat freq k + (if (k <? j + 1) && hit k then 1 else 0)).
    { intros b f' _ Hf' -> k Hk. rewrite Hf', Vf by auto.
      destruct (Z.eqb_spec k j) as [->|].
      - destruct (Z.ltb_spec j j); [lia|]. destruct (Z.ltb_spec j (j + 1)); [|lia].
        cbn [andb]. lia.
      - destruct (Z.ltb_spec k j), (Z.ltb_spec k (j + 1)); try lia; cbn [andb]; lia. }
    destruct (Rle_bool (e j) r) eqn:E1; cbn [bind].
    + rewrite (rd_ok bins (j + 1) (d_of_Z 0)) by lia. cbn [bind].
      fold (dat bins (j + 1)). rewrite (dval_lt _ _ r (e (j + 1)) Hv (He (j + 1) ltac:(lia))).
      destruct (Rlt_bool r (e (j + 1))) eqn:E2.
      * destruct (bump_ok f j) as (f' & E & Lf' & Vf'); [lia| |].
        { rewrite Vf by auto. destruct (Z.ltb_spec j j); [lia|]. cbn [andb].
          specialize (Hb j Hj). lia. }
        exists f'. split; auto. split; [congruence|]. apply (STEP true); [congruence| |].
        -- intros k Hk. rewrite Vf' by lia. rewrite andb_true_r. reflexivity.
        -- unfold hit. rewrite E1, E2. reflexivity.
      * exists f. split; auto. split; auto. apply (STEP false); auto.
        -- intros k Hk. rewrite andb_false_r. lia.
        -- unfold hit. rewrite E1, E2. reflexivity.
    + exists f. split; auto. split; auto. apply (STEP false); auto.
      * intros k Hk. rewrite andb_false_r. lia.
      * unfold hit. rewrite E1. reflexivity.
  - rewrite E1. cbn [bind]. rewrite (rd_ok bins N (d_of_Z 0)) by lia. cbn [bind].
    fold (dat bins N). rewrite (dval_eq _ _ r (e N) Hv (He N ltac:(lia))).
    assert (V2 : forall k, 0 <= k < N -> zat f1 k = zat freq k + (if hit k then 1 else 0)).
    { intros k Hk. rewrite V1 by auto. destruct (Z.ltb_spec k N); [|lia]. reflexivity. }
    destruct (Req_bool r (e N)) eqn:E2.
    + assert (Hl : hit (N - 1) = false).
      { unfold hit. replace (N - 1 + 1) with N by lia. pose proof (Req_bool_spec r (e N)) as RS. rewrite E2 in RS. inversion RS as [Hr|].
        rewrite (Rlt_bool_false r (e N)) by lra. apply andb_false_r. }
      destruct (bump_ok f1 (N - 1)) as (f' & E & Lf' & Vf'); [lia| |].
      { rewrite V2 by lia. rewrite Hl. specialize (Hb (N - 1) ltac:(lia)). lia. }
      exists f'. split; auto. split; [congruence|]. intros k Hk. rewrite Vf' by lia. rewrite V2 by auto.
      unfold inc, in_bin. fold (hit k). rewrite E2, andb_true_r.
      destruct (Z.eqb_spec k (N - 1)) as [->|]; [rewrite Hl; simpl; lia|].
      rewrite orb_false_r. lia.
    + exists f1. split; auto. split; auto. intros k Hk. rewrite V2 by auto.
      unfold inc, in_bin. fold (hit k). rewrite E2, andb_false_r, orb_false_r. reflexivity.
Qed.

Lemma inc_le r k : 0 <= inc r k <= 1.
Proof. unfold inc. destruct (in_bin e N k r); lia. Qed.

Lemma count_if_zsum {A} (f : A -> bool) l : count_if f l = zsum (map (fun x => if f x then 1 else 0) l).
Proof.
  unfold count_if. induction l as [|a l IH]; [reflexivity|]. simpl filter. cbn [map zsum].
  rewrite <- IH. destruct (f a); [rewrite Zlen_cons; lia|lia].
Qed.

Notation dv := as_double.

Lemma dval_u64 v : is_u64 v -> dval (d_of_Z v) (dv v).
Proof.
  intros H. apply dval_of_Z. unfold is_u64 in H.
  apply Rle_trans with (bpow radix2 64); [apply bpow_int_le; lia|apply bpow_le; lia].
Qed.

Lemma histogram_ok w h pixels : image_ok w h pixels ->
  exists freq, createSTEMHistogram (w, h) pixels N bins = Ok freq /\ Zlen freq = N /\
    forall k, 0 <= k < N -> zat freq k = count_if (fun v => in_bin e N k (dv v)) pixels.
Proof.
  intros (Hw & Hh & Hn & HLp & HU). unfold createSTEMHistogram. cbn [fst snd].
  destruct (Z.ltb_spec N 0); [lia|]. rewrite (u32_id (w * h)) by (unfold is_u32; lia).
  rewrite Forall_forall in HU.
  destruct (for_loop_inv (fun i f => Zlen f = N /\ forall k, 0 <= k < N ->
      zat f k = zsum (map (fun q => inc (dv (zat pixels q)) k) (zseq i))) (w * h)
    (fun i freq => let* v := rd pixels i in one_value (d_of_Z v) freq)
    (repeat 0 (Z.to_nat N))) as (f & E & Lf & Vf); try lia.
  - split; [rewrite Zlen_repeat; lia|]. intros k Hk. rewrite zat_repeat0. reflexivity.
  - intros i f Hi (Lf & Vf). rewrite rd_zat by lia. cbn [bind].
    assert (Hu : is_u64 (zat pixels i)) by (apply HU, zat_in; lia).
    destruct (one_value_ok _ _ f (dval_u64 _ Hu) Lf) as (f' & E & Lf' & Vf').
    { intros k Hk. rewrite Vf by auto.
      assert (zsum (map (fun q => inc (dv (zat pixels q)) k) (zseq i)) <= 1 * Zlen (map (fun q => inc (dv (zat pixels q)) k) (zseq i))).
      { apply zsum_bound. intros x Hx. apply in_map_iff in Hx. destruct Hx as (q & <- & _). apply inc_le. }
      rewrite Zlen_map, Zlen_zseq in * by lia. lia. }
    exists f'. split; auto. split; auto. intros k Hk. rewrite Vf', Vf by auto.
    rewrite zseq_succ by lia. rewrite map_app, zsum_app. cbn [map zsum]. lia.
  - exists f. split; [exact E|]. split; auto. intros k Hk. rewrite Vf by auto.
    rewrite count_if_zsum. rewrite <- HLp.
    rewrite (map_zat (fun v => if in_bin e N k (dv v) then 1 else 0) pixels). reflexivity.
Qed.

Lemma edge_mono j k : edges_sorted e N -> 0 <= j <= k -> k <= N -> (e j <= e k)%R.
Proof.
  intros Hs (Hj & Hjk) Hk. revert Hk. pattern k. apply (Zlt_lower_bound_ind _ j); auto.
  intros x IH Hx HxN. destruct (Z.eq_dec x j) as [->|]; [lra|].
  specialize (IH (x - 1) ltac:(lia) ltac:(lia)). specialize (Hs (x - 1) ltac:(lia)).
  replace (x - 1 + 1) with x in Hs by lia. lra.
Qed.

(** Sorted edges: a value between the first and the last edge is in exactly one
    bin, any other value in none. *)
Lemma one_bin r : edges_sorted e N ->
  zsum (map (inc r) (zseq N)) = if Rle_bool (e 0) r && Rle_bool r (e N) then 1 else 0.
Proof.
  intros Hs.
  destruct (Rle_bool_spec (e 0) r) as [H0|H0].
  2:{ cbn [andb]. apply zsum_map_zero. intros k Hk. apply in_zseq in Hk. unfold inc, in_bin.
      pose proof (edge_mono 0 k Hs ltac:(lia) ltac:(lia)).
      pose proof (edge_mono 0 N Hs ltac:(lia) ltac:(lia)).
      rewrite Rle_bool_false by lra. rewrite (Req_bool_false r (e N)) by lra.
      rewrite andb_false_r. reflexivity. }
  destruct (Rle_bool_spec r (e N)) as [H1|H1].
  2:{ cbn [andb]. apply zsum_map_zero. intros k Hk. apply in_zseq in Hk. unfold inc, in_bin.
      pose proof (edge_mono (k + 1) N Hs ltac:(lia) ltac:(lia)).
      rewrite (Rlt_bool_false r (e (k + 1))) by lra. rewrite (Req_bool_false r (e N)) by lra.
      rewrite !andb_false_r. reflexivity. }
  cbn [andb].
  assert (EX : exists k, 0 <= k < N /\ in_bin e N k r = true).
  { destruct (Req_dec r (e N)) as [E|Ne].
    - exists (N - 1). split; [lia|]. unfold in_bin. rewrite Z.eqb_refl, Req_bool_true by auto.
      apply orb_true_r.
    - assert (FIND : forall m, 0 <= m -> m <= N -> (r < e m)%R ->
                exists k, 0 <= k < m /\ (e k <= r < e (k + 1)%Z)%R).
      { intros m Hm. pattern m. apply natlike_ind; auto.
        - intros _ C. lra.
        - intros x Hx IH HxN C. unfold Z.succ in *. destruct (Rlt_dec r (e x)) as [L|L].
          + destruct (IH ltac:(lia) L) as (k & Hk & Hr). exists k. split; [lia|auto].
          + exists x. split; [lia|]. lra. }
      destruct (FIND N ltac:(lia) ltac:(lia) ltac:(lra)) as (k & Hk & Hr).
      exists k. split; auto. unfold in_bin. rewrite Rle_bool_true, Rlt_bool_true by lra. reflexivity. }
  destruct EX as (k0 & Hk0 & Hin0).
  assert (UN : forall k, 0 <= k < N -> in_bin e N k r = (k =? k0)).
  { intros k Hk. destruct (Z.eqb_spec k k0) as [->|Ne]; auto.
    unfold in_bin in *. apply not_true_is_false. intros Hc.
    apply orb_true_iff in Hc. apply orb_true_iff in Hin0.
    assert (P : forall i, 0 <= i < N -> (Rle_bool (e i) r && Rlt_bool r (e (i + 1)) = true \/
       (i =? N - 1) && Req_bool r (e N) = true) ->
       (e i <= r < e (i + 1)%Z)%R \/ (i = N - 1 /\ r = e N)).
    { intros i _ [C|C]; apply andb_true_iff in C; destruct C as (C1 & C2).
      - left. destruct (Rle_bool_spec (e i) r), (Rlt_bool_spec r (e (i + 1))); try discriminate. lra.
      - right. apply Z.eqb_eq in C1. destruct (Req_bool_spec r (e N)); try discriminate. auto. }
    apply P in Hc; auto. apply P in Hin0; auto.
    assert (Q : forall i i', 0 <= i < N -> 0 <= i' < N -> i < i' ->
       ((e i <= r < e (i + 1)%Z)%R \/ (i = N - 1 /\ r = e N)) ->
       ((e i' <= r < e (i' + 1)%Z)%R \/ (i' = N - 1 /\ r = e N)) -> False).
    { intros i i' Hi Hi' Hlt A B.
      destruct A as [A|(A & _)]; [|lia].
      pose proof (edge_mono (i + 1) i' Hs ltac:(lia) ltac:(lia)).
      pose proof (edge_mono (i + 1) N Hs ltac:(lia) ltac:(lia)).
      destruct B as [B|(_ & B)]; lra. }
    destruct (Z_lt_le_dec k k0).
    - apply (Q k k0); auto.
    - apply (Q k0 k); auto. lia. }
  rewrite <- (zsum_indicator (fun _ => 1) N k0 Hk0). apply zsum_map_ext.
  intros k Hk. apply in_zseq in Hk. unfold inc. rewrite UN by auto. reflexivity.
Qed.

Lemma histogram_sum freq pixels : edges_sorted e N -> Zlen freq = N ->
  (forall k, 0 <= k < N -> zat freq k = count_if (fun v => in_bin e N k (dv v)) pixels) ->
  zsum freq = count_if (fun v => Rle_bool (e 0) (dv v) && Rle_bool (dv v) (e N)) pixels.
Proof.
  intros Hs HLf Hf. rewrite (list_as_map_zat freq), HLf.
  rewrite (zsum_map_ext _ (fun k => zsum (map (fun v => inc (dv v) k) pixels))).
  - rewrite zsum_swap, count_if_zsum. apply zsum_map_ext. intros v _. apply one_bin; auto.
  - intros k Hk. apply in_zseq in Hk. rewrite Hf by auto. apply count_if_zsum.
Qed.
End Hist.
