(** Proofs about the centre of mass. *)
From Coq Require Import String ZArith List Bool Lia Reals Lra.
From Flocq Require Import Core.
From Flocq Require Import IEEE754.BinarySingleNaN IEEE754.Binary IEEE754.Bits.
From Verif Require Import Base BaseFacts Double Float32 FloatConv SparseMeanModel SparseModel
  SparseSpec SparseProofs SparseSlice SparseReduce SparseMean SparseBin ComModel ComSpec.
Import ListNotations.
Open Scope Z_scope.

Local Arguments Z.mul : simpl never.
Local Arguments Z.add : simpl never.
Local Arguments Z.sub : simpl never.
Local Arguments Z.pow : simpl never.

(** * Lists *)
Lemma combine_map2 {A B C} (f : A -> B) (g : A -> C) l :
  combine (map f l) (map g l) = map (fun x => (f x, g x)) l.
Proof. induction l as [|x t IH]; [reflexivity|]. cbn. now rewrite IH. Qed.

Lemma np_mask_map {A B} (m : A -> bool) (g : A -> B) l :
  np_mask (map m l) (map g l) = map g (filter m l).
Proof.
  unfold np_mask. rewrite combine_map2. induction l as [|x t IH]; [reflexivity|].
  cbn [map filter fst]. destruct (m x); cbn [map snd]; now rewrite IH.
Qed.

Lemma filter_flat_map {A B} (m : B -> bool) (f : A -> list B) l :
  filter m (flat_map f l) = flat_map (fun x => filter m (f x)) l.
Proof. induction l as [|x t IH]; [reflexivity|]. cbn. now rewrite filter_app, IH. Qed.

Lemma filter_map {A B} (m : B -> bool) (f : A -> B) l :
  filter m (map f l) = map f (filter (fun x => m (f x)) l).
Proof. induction l as [|x t IH]; [reflexivity|]. cbn. destruct (m (f x)); cbn; now rewrite IH. Qed.

Lemma filter_all {A} (m : A -> bool) l : (forall x, In x l -> m x = true) -> filter m l = l.
Proof.
  induction l as [|x t IH]; intros H; [reflexivity|]. cbn. rewrite H by now left.
  rewrite IH; auto. intros; apply H; now right.
Qed.

Lemma filter_none {A} (m : A -> bool) l : (forall x, In x l -> m x = false) -> filter m l = [].
Proof.
  induction l as [|x t IH]; intros H; [reflexivity|]. cbn. rewrite H by now left.
  apply IH; intros; apply H; now right.
Qed.

Lemma flat_map_ext' {A B} (f g : A -> list B) l :
  (forall x, In x l -> f x = g x) -> flat_map f l = flat_map g l.
Proof.
  induction l as [|x t IH]; intros H; [reflexivity|]. cbn. rewrite (H x) by now left.
  rewrite IH; auto. intros; apply H; now right.
Qed.

Lemma map_flat_map {A B C} (g : B -> C) (f : A -> list B) l :
  map g (flat_map f l) = flat_map (fun x => map g (f x)) l.
Proof. induction l as [|x t IH]; [reflexivity|]. cbn. now rewrite map_app, IH. Qed.

(** * bincount *)
Definition wsum (l : list (Z * Z)) (p : Z) : Z :=
  zsum (map snd (filter (fun q => fst q =? p) l)).

Lemma wsum_cons a w l p : wsum ((a, w) :: l) p = (if a =? p then w else 0) + wsum l p.
Proof. unfold wsum. cbn [filter fst]. destruct (a =? p); cbn [map zsum snd]; lia. Qed.

Lemma wsum_nonneg l p : (forall a w, In (a, w) l -> 0 <= w) -> 0 <= wsum l p.
Proof.
  intros H. unfold wsum. apply zsum_nonneg. intros x Hx. apply in_map_iff in Hx as ([a w] & <- & Hx).
  apply filter_In in Hx as [Hx _]. now apply H in Hx.
Qed.

Lemma rd_map_zseq {A} (f : Z -> A) n p : 0 <= p < n -> rd (map f (zseq n)) p = Ok (f p).
Proof.
  intros H. rewrite (rd_ok _ p (f 0)).
  - f_equal. rewrite (map_nth f (zseq n) 0). f_equal. pose proof (zat_zseq n p H) as Z0. unfold zat in Z0. destruct (Z.ltb_spec p 0); [lia|exact Z0].
  - rewrite Zlen_map, Zlen_zseq; lia.
Qed.

Lemma wr_map_zseq {A} (f g : Z -> A) n p v : 0 <= p < n -> v = g p ->
  (forall q, 0 <= q < n -> q <> p -> g q = f q) ->
  wr (map f (zseq n)) p v = Ok (map g (zseq n)).
Proof.
  intros H -> Hg. rewrite wr_ok by (rewrite Zlen_map, Zlen_zseq; lia). f_equal. now apply upd_map_zseq.
Qed.

Lemma d_add_int a b : 0 <= a -> 0 <= b -> a + b <= 2 ^ 53 ->
  d_add (d_of_Z a) (d_of_Z b) = d_of_Z (a + b).
Proof.
  intros Ha Hb H. apply dpos_eq; [lia|]. apply dpos_add; auto; apply dpos_of_Z; lia.
Qed.

Lemma repeat_map_zseq {A} (v : A) n : 0 <= n -> repeat v (Z.to_nat n) = map (fun _ => v) (zseq n).
Proof.
  intros H. unfold zseq. rewrite map_map. generalize (Z.to_nat n) as k. intros k. generalize O.
  induction k as [|k IH]; intros s; [reflexivity|]. cbn. now rewrite <- IH.
Qed.

Lemma bincount_w_ok n l : 0 <= n ->
  (forall a w, In (a, w) l -> 0 <= a < n /\ 0 <= w) ->
  (forall p, 0 <= p < n -> wsum l p <= 2 ^ 53) ->
  bincount_w (map fst l) (map (fun q => d_of_Z (snd q)) l) n = Ok (map (fun p => d_of_Z (wsum l p)) (zseq n)).
Proof.
  intros Hn Hl Hs. unfold bincount_w. rewrite combine_map2, repeat_map_zseq by exact Hn.
  assert (G : forall base, (forall p, 0 <= p < n -> 0 <= base p /\ base p + wsum l p <= 2 ^ 53) ->
    for_each (map (fun x : Z * Z => (fst x, d_of_Z (snd x))) l)
      (fun '(p, v) acc => let* a := rd acc p in wr acc p (d_add a v)) (map (fun p => d_of_Z (base p)) (zseq n)) =
    Ok (map (fun p => d_of_Z (base p + wsum l p)) (zseq n))).
  { clear Hs. induction l as [|[a w] t IH]; intros base Hb.
    - cbn [map for_each]. f_equal. apply map_ext. intros p. unfold wsum. cbn. f_equal. lia.
    - cbn [map for_each fst snd]. destruct (Hl a w (or_introl eq_refl)) as [Ha Hw].
      assert (Ht : forall b v, In (b, v) t -> 0 <= b < n /\ 0 <= v) by (intros; apply Hl; now right).
      assert (T0 : forall p, 0 <= wsum t p) by (intros; apply wsum_nonneg; intros ? ? X; now apply Ht in X).
      rewrite rd_map_zseq by exact Ha. cbn [bind].
      destruct (Hb a Ha) as [B1 B2]. rewrite wsum_cons, Z.eqb_refl in B2. specialize (T0 a) as T0a.
      rewrite d_add_int by lia.
      rewrite (wr_map_zseq _ (fun p => d_of_Z (base p + (if a =? p then w else 0))) n a).
      + cbn [bind]. rewrite (IH Ht (fun p => base p + (if a =? p then w else 0))).
        * f_equal. apply map_ext. intros p. f_equal. rewrite wsum_cons. lia.
        * intros p Hp. destruct (Hb p Hp) as [C1 C2]. rewrite wsum_cons in C2. destruct (a =? p); lia.
      + exact Ha.
      + now rewrite Z.eqb_refl.
      + intros q _ Hq. f_equal. destruct (Z.eqb_spec a q); [congruence|]. lia. }
  rewrite (G (fun _ => 0)); [reflexivity|]. intros p Hp. specialize (Hs p Hp). lia.
Qed.

Lemma bincount_ok n l : 0 <= n -> (forall a, In a l -> 0 <= a < n) ->
  bincount l n = Ok (map (cnt l) (zseq n)).
Proof.
  intros Hn Hl. unfold bincount. rewrite repeat_map_zseq by exact Hn.
  assert (G : forall base : Z -> Z,
    for_each l (fun p acc => let* a := rd acc p in wr acc p (a + 1)) (map base (zseq n)) =
    Ok (map (fun p => base p + cnt l p) (zseq n))).
  { induction l as [|a t IH]; intros base.
    - cbn [for_each]. f_equal. apply map_ext. intros p. unfold cnt. cbn. unfold Zlen. cbn. lia.
    - cbn [for_each]. assert (Ha : 0 <= a < n) by (apply Hl; now left).
      rewrite rd_map_zseq by exact Ha. cbn [bind].
      rewrite (wr_map_zseq _ (fun p => base p + (if p =? a then 1 else 0)) n a).
      + cbn [bind]. rewrite IH by (intros; apply Hl; now right).
        f_equal. apply map_ext. intros p. rewrite cnt_cons. lia.
      + exact Ha.
      + now rewrite Z.eqb_refl.
      + intros q _ Hq. destruct (Z.eqb_spec q a); [congruence|]. lia. }
  now rewrite (G (fun _ => 0)).
Qed.

(** * The list of (position, event) pairs *)
Definition tagged (P : Z) (ev : Z -> list Z) : list (Z * Z) :=
  flat_map (fun p => map (pair p) (ev p)) (zseq P).

Lemma in_tagged P ev p e : In (p, e) (tagged P ev) <-> 0 <= p < P /\ In e (ev p).
Proof.
  unfold tagged. rewrite in_flat_map. split.
  - intros (q & Hq & H). apply in_map_iff in H as (x & E & Hx). injection E as -> ->.
    apply in_zseq in Hq. auto.
  - intros [Hp He]. exists p. split; [now apply in_zseq|]. now apply in_map.
Qed.

Lemma filter_tagged P ev (m : Z -> bool) :
  filter (fun q => m (snd q)) (tagged P ev) = tagged P (fun p => filter m (ev p)).
Proof.
  unfold tagged. rewrite filter_flat_map. apply flat_map_ext'. intros p _.
  rewrite filter_map. reflexivity.
Qed.

Lemma flat_map_single {B} (f : Z -> list B) n p :
  0 <= p < n -> (forall q, 0 <= q < n -> q <> p -> f q = []) -> flat_map f (zseq n) = f p.
Proof.
  intros Hp H. assert (Hn : 0 <= n) by lia. revert p Hp H. pattern n. apply natlike_ind; [lia| |exact Hn].
  clear n Hn. intros n Hn IH p Hp H. unfold Z.succ in *. rewrite zseq_succ by lia.
  rewrite flat_map_app. cbn [flat_map]. rewrite app_nil_r.
  destruct (Z.eq_dec p n) as [->|Hne].
  - assert (E : flat_map f (zseq n) = []).
    { assert (X : forall q, In q (zseq n) -> f q = []) by (intros q Hq; apply in_zseq in Hq; apply H; lia).
      clear - X. induction (zseq n) as [|q t IHt]; [reflexivity|]. cbn. rewrite X by now left.
      apply IHt. intros; apply X; now right. }
    now rewrite E.
  - rewrite (IH p); [|lia|intros; apply H; lia]. rewrite (H n); [|lia|lia]. apply app_nil_r.
Qed.

Lemma wsum_tagged P ev g p : 0 <= p < P ->
  wsum (map (fun q => (fst q, g (snd q))) (tagged P ev)) p = zsum (map g (ev p)).
Proof.
  intros Hp. unfold wsum. rewrite filter_map, map_map. cbn [fst snd].
  unfold tagged. rewrite filter_flat_map, map_flat_map.
  rewrite (flat_map_single _ P p Hp).
  - rewrite filter_map, map_map. cbn [fst snd].
    rewrite filter_all by (intros; apply Z.eqb_refl). reflexivity.
  - intros q _ Hq. rewrite filter_map. cbn [fst].
    rewrite filter_none by (intros; now apply Z.eqb_neq). reflexivity.
Qed.

Lemma cnt_tagged P ev p : 0 <= p < P -> cnt (map fst (tagged P ev)) p = Zlen (ev p).
Proof.
  intros Hp. unfold cnt. rewrite filter_map. rewrite Zlen_map.
  unfold tagged. rewrite filter_flat_map.
  rewrite (flat_map_single _ P p Hp).
  - rewrite filter_map. rewrite Zlen_map. cbn [fst].
    rewrite filter_all by (intros; apply Z.eqb_refl). reflexivity.
  - intros q _ Hq. rewrite filter_map. cbn [fst].
    rewrite filter_none by (intros; apply Z.eqb_neq; congruence). reflexivity.
Qed.

(** * The common result *)
Definition com_entry (g : Z -> Z) (ev : list Z) : float32 :=
  if 0 <? Zlen ev then f_of_d (d_div (d_of_Z (zsum (map g ev))) (d_of_Z (Zlen ev))) else f_NaN.
Definition com_row (P : Z) (g : Z -> Z) (ev : Z -> list Z) : list float32 :=
  map (fun p => com_entry g (ev p)) (zseq P).

(** The last block of the kernel, 460-468. *)
Lemma final_block P ev X Y :
  0 <= P ->
  (forall p e, 0 <= p < P -> In e (ev p) -> 0 <= X e < 2 ^ 24 /\ 0 <= Y e < 2 ^ 24) ->
  (forall p, 0 <= p < P -> Zlen (ev p) <= 2 ^ 29) ->
  (if 0 <? Zlen (map fst (tagged P ev)) then
     let* sx := bincount_w (map fst (tagged P ev)) (map d_of_f (map (fun q => f_of_Z (X (snd q))) (tagged P ev))) P in
     let* sy := bincount_w (map fst (tagged P ev)) (map d_of_f (map (fun q => f_of_Z (Y (snd q))) (tagged P ev))) P in
     let* n := bincount (map fst (tagged P ev)) P in
     Ok (quotients f_NaN sy n, quotients f_NaN sx n)
   else Ok (repeat f_NaN (Z.to_nat P), repeat f_NaN (Z.to_nat P))) =
  Ok (com_row P Y ev, com_row P X ev).
Proof.
  intros HP HXY Hlen.
  assert (S : forall g, (forall p e, 0 <= p < P -> In e (ev p) -> 0 <= g e < 2 ^ 24) ->
    bincount_w (map fst (tagged P ev)) (map d_of_f (map (fun q => f_of_Z (g (snd q))) (tagged P ev))) P =
    Ok (map (fun p => d_of_Z (zsum (map g (ev p)))) (zseq P))).
  { intros g Hg. rewrite map_map.
    assert (E1 : map fst (tagged P ev) = map fst (map (fun q => (fst q, g (snd q))) (tagged P ev))).
    { rewrite map_map. apply map_ext. reflexivity. }
    assert (E2 : map (fun q => d_of_f (f_of_Z (g (snd q)))) (tagged P ev) =
                 map (fun q => d_of_Z (snd q)) (map (fun q => (fst q, g (snd q))) (tagged P ev))).
    { rewrite map_map. cbn [snd]. apply map_ext_in. intros [p e] H. apply in_tagged in H as [Hp He].
      cbn [snd]. apply widen_int. specialize (Hg p e Hp He). lia. }
    rewrite E1, E2, bincount_w_ok.
    - f_equal. apply map_ext_in. intros p Hp. apply in_zseq in Hp. now rewrite wsum_tagged.
    - exact HP.
    - intros a w H. apply in_map_iff in H as ([p e] & E & H). cbn [fst snd] in E. injection E as <- <-.
      apply in_tagged in H as [Hp He]. specialize (Hg p e Hp He). lia.
    - intros p Hp. rewrite wsum_tagged by exact Hp.
      assert (B : zsum (map g (ev p)) <= 2 ^ 24 * Zlen (map g (ev p))).
      { apply zsum_bound. intros x Hx. apply in_map_iff in Hx as (e & <- & He). specialize (Hg p e Hp He). lia. }
      rewrite Zlen_map in B. specialize (Hlen p Hp).
      change (2 ^ 53) with (2 ^ 24 * 2 ^ 29). nia. }
  destruct (0 <? Zlen (map fst (tagged P ev))) eqn:E.
  - rewrite (S X), (S Y); cbn [bind].
    2,3: intros p e Hp He; destruct (HXY p e Hp He); auto.
    rewrite bincount_ok; cbn [bind].
    2: exact HP.
    2:{ intros a H. apply in_map_iff in H as ([p e] & <- & H). apply in_tagged in H as [Hp _]. exact Hp. }
    unfold quotients, com_row. rewrite !combine_map2, !map_map. cbn [fst snd].
    f_equal. f_equal; apply map_ext_in; intros p Hp; apply in_zseq in Hp; rewrite cnt_tagged by exact Hp; reflexivity.
  - apply Z.ltb_ge in E. rewrite Zlen_map in E.
    assert (N : forall p, 0 <= p < P -> ev p = []).
    { intros p Hp. destruct (ev p) as [|x t] eqn:Ev; [reflexivity|]. exfalso.
      assert (I : In (p, x) (tagged P ev)) by (apply in_tagged; split; [exact Hp|rewrite Ev; now left]).
      destruct (tagged P ev) as [|q r]; [inversion I|]. rewrite Zlen_cons in E. pose proof (Zlen_nonneg r). lia. }
    rewrite repeat_map_zseq by exact HP. unfold com_row.
    f_equal. f_equal; apply map_ext_in; intros p Hp; apply in_zseq in Hp; rewrite N by exact Hp; reflexivity.
Qed.

(** * Decoding *)
Lemma power_of_two n : 0 < n -> Z.land n (n - 1) = 0 -> n = 2 ^ Z.log2 n.
Proof.
  intros Hn H. destruct (Z.log2_spec n Hn) as [L U].
  destruct (Z.eq_dec n (2 ^ Z.log2 n)) as [E|N]; [exact E|]. exfalso.
  assert (P : 0 <= Z.log2 n) by apply Z.log2_nonneg.
  assert (Q : 0 < 2 ^ Z.log2 n) by (apply Z.pow_pos_nonneg; lia).
  assert (E : Z.log2 (n - 1) = Z.log2 n) by (apply Z.log2_unique; lia).
  assert (T1 : Z.testbit n (Z.log2 n) = true) by (apply Z.bit_log2; lia).
  assert (T2 : Z.testbit (n - 1) (Z.log2 n) = true) by (rewrite <- E; apply Z.bit_log2; lia).
  assert (T : Z.testbit (Z.land n (n - 1)) (Z.log2 n) = true) by (rewrite Z.land_spec, T1, T2; reflexivity).
  rewrite H, Z.bits_0 in T. discriminate.
Qed.

Lemma decode_x_ok fx ev : 0 < fx -> decode_x fx ev = map (fun e => f_of_Z (e / fx)) ev.
Proof.
  intros H. unfold decode_x. destruct (Z.eqb_spec (Z.land fx (fx - 1)) 0) as [E|]; [|reflexivity].
  apply map_ext. intros e. rewrite Z.shiftr_div_pow2 by apply Z.log2_nonneg.
  now rewrite <- (power_of_two fx H E).
Qed.

Lemma decode_y_ok fy ev : 0 < fy -> decode_y fy ev = map (fun e => f_of_Z (e mod fy)) ev.
Proof.
  intros H. unfold decode_y. destruct (Z.eqb_spec (Z.land fy (fy - 1)) 0) as [E|]; [|reflexivity].
  apply map_ext. intros e. f_equal.
  assert (O : fy - 1 = Z.ones (Z.log2 fy)).
  { rewrite Z.ones_equiv, <- (power_of_two fy H E). lia. }
  rewrite O, Z.land_ones by apply Z.log2_nonneg. now rewrite <- (power_of_two fy H E).
Qed.

(** * Distances *)
Lemma abs_of_square a n : 0 <= n -> a * a <= n * n -> Z.abs a <= n.
Proof. intros Hn H. nia. Qed.

Lemma dist_parts a b c d n : 0 <= n -> dist2 a b c d <= n * n ->
  (a - c) * (a - c) <= n * n /\ (b - d) * (b - d) <= n * n /\ Z.abs (a - c) <= n /\ Z.abs (b - d) <= n.
Proof.
  unfold dist2. intros Hn H.
  assert (0 <= (a - c) * (a - c)) by apply Z.square_nonneg.
  assert (0 <= (b - d) * (b - d)) by apply Z.square_nonneg.
  repeat split; try lia; apply abs_of_square; lia.
Qed.

Lemma f_dist_ok x y cx cy r : 0 <= x < 2 ^ 24 -> 0 <= y < 2 ^ 24 -> 0 <= cx <= 2 ^ 24 -> 0 <= cy <= 2 ^ 24 ->
  0 <= r < 2 ^ 11 -> dist2 x y cx cy <= 2 ^ 24 ->
  f_le (f_dist (f_of_Z x) (f_of_Z y) (f_of_Z cx) (f_of_Z cy)) (f_of_Z r) = (dist2 x y cx cy <=? r * r).
Proof.
  intros Hx Hy Hcx Hcy Hr H. pose proof H as H'. change (2 ^ 24) with (4096 * 4096) in H'.
  apply dist_parts in H' as (A & B & A' & B'); [|lia]. change (4096 * 4096) with (2 ^ 24) in A, B.
  change (2 ^ 11) with 2048 in Hr.
  assert (M : 4096 <= 2 ^ 24) by (change (2 ^ 24) with 16777216; lia).
  assert (0 <= (x - cx) * (x - cx)) by apply Z.square_nonneg.
  assert (0 <= (y - cy) * (y - cy)) by apply Z.square_nonneg.
  unfold f_dist. apply f_sqrt_le.
  - unfold dist2 in *. apply fval_add_int; [| |lia].
    + assert (V : fval (f_sub (f_of_Z x) (f_of_Z cx)) (IZR (x - cx))).
      { apply fval_sub_int; [apply fval_exact; lia|apply fval_exact; lia|lia]. }
      apply fval_mul_int; auto. lia.
    + assert (V : fval (f_sub (f_of_Z y) (f_of_Z cy)) (IZR (y - cy))).
      { apply fval_sub_int; [apply fval_exact; lia|apply fval_exact; lia|lia]. }
      apply fval_mul_int; auto. lia.
  - apply fval_exact. lia.
  - change (2 ^ 11) with 2048. lia.
  - unfold dist2 in *. lia.
Qed.

Lemma u32_square a : u32 (u32 a * u32 a) = u32 (a * a).
Proof. unfold u32. now rewrite <- Zmult_mod. Qed.

Lemma u_dist_ok x y cx cy r : 0 <= r < 2 ^ 11 -> dist2 x y cx cy <= 2 ^ 24 ->
  d_le (u_dist x y cx cy) (d_of_Z r) = (dist2 x y cx cy <=? r * r).
Proof.
  intros Hr H. pose proof H as H'. change (2 ^ 24) with (4096 * 4096) in H'.
  apply dist_parts in H' as (A & B & _); [|lia].
  assert (0 <= (x - cx) * (x - cx)) by apply Z.square_nonneg.
  assert (0 <= (y - cy) * (y - cy)) by apply Z.square_nonneg.
  assert (E : u32 (u32 (u32 (x - cx) * u32 (x - cx)) + u32 (u32 (y - cy) * u32 (y - cy))) = dist2 x y cx cy).
  { rewrite !u32_square. unfold u32. rewrite <- Zplus_mod. unfold dist2. apply Z.mod_small.
    unfold dist2 in H. change (2 ^ 24) with 16777216 in H. change (2 ^ 32) with 4294967296. lia. }
  unfold u_dist. rewrite E. apply d_sqrt_le.
  - change (2 ^ 11) with 2048 in Hr. change (2 ^ 25) with 33554432. lia.
  - unfold dist2 in *. change (2 ^ 24) with 16777216 in H. change (2 ^ 53) with 9007199254740992. lia.
Qed.

(** * Version 1 *)
Lemma collect_ok (L : list (Z * list (list Z))) c v e :
  for_each L
    (fun '(p, frames) '(counts, (valid, evs)) =>
       if 0 <? Zlen frames then
         let* ev := np_concatenate frames in
         if 0 <? Zlen ev then Ok (counts ++ [Zlen ev], (valid ++ [p], evs ++ [ev]))
         else Ok (counts, (valid, evs))
       else Ok (counts, (valid, evs))) (c, (v, e)) =
  let L' := filter (fun q => 0 <? Zlen (concat (snd q))) L in
  Ok (c ++ map (fun q => Zlen (concat (snd q))) L', (v ++ map fst L', e ++ map (fun q => concat (snd q)) L')).
Proof.
  cbv zeta. revert c v e. induction L as [|[p frames] t IH]; intros c v e.
  - cbn. now rewrite !app_nil_r.
  - cbn [for_each filter snd]. destruct frames as [|fr rest].
    + change (0 <? Zlen (@nil (list Z))) with false. cbv iota. cbn [bind concat].
      change (0 <? Zlen (@nil Z)) with false. cbv iota. apply IH.
    + replace (0 <? Zlen (fr :: rest)) with true.
      2:{ symmetry. apply Z.ltb_lt. rewrite Zlen_cons. pose proof (Zlen_nonneg rest). lia. }
      cbn [np_concatenate bind].
      destruct (0 <? Zlen (concat (fr :: rest))); cbn [bind].
      * rewrite IH. cbn [map fst snd]. rewrite <- !app_assoc. reflexivity.
      * apply IH.
Qed.

Lemma flat_map_filter {A B} (m : A -> bool) (f : A -> list B) l :
  (forall x, In x l -> m x = false -> f x = []) -> flat_map f (filter m l) = flat_map f l.
Proof.
  induction l as [|x t IH]; intros H; [reflexivity|]. cbn [filter flat_map].
  destruct (m x) eqn:E; cbn [flat_map]; rewrite IH by (intros; apply H; auto; now right); auto.
  rewrite (H x (or_introl eq_refl) E). reflexivity.
Qed.

Lemma repeat_as_map {A B} (a : A) (l : list B) : repeat a (Z.to_nat (Zlen l)) = map (fun _ => a) l.
Proof.
  unfold Zlen. rewrite Nat2Z.id. induction l as [|x t IH]; [reflexivity|]. cbn. now rewrite IH.
Qed.

Lemma wf_shaped sa : wf sa -> shaped sa.
Proof.
  intros W. constructor; [apply W|apply W|apply W|].
  intros row fr e Hr Hf He. now apply (wf_frames sa W row fr Hr Hf).
Qed.

Lemma sh_row sa p : shaped sa -> 0 <= p < num_scans sa -> In (row_at sa p) (sp_data sa).
Proof.
  intros W H. unfold row_at. apply nth_In. rewrite <- (sh_len _ W) in H. unfold Zlen in H. lia.
Qed.

Lemma sh_data sa : shaped sa -> sp_data sa = map (row_at sa) (zseq (num_scans sa)).
Proof. intros W. unfold row_at. rewrite <- (sh_len _ W). apply list_as_nth. Qed.

Lemma sh_range sa row x : shaped sa -> In row (sp_data sa) -> In x (concat row) -> 0 <= x < frame_size sa.
Proof.
  intros W Hr Hx. apply in_concat in Hx as [fr [Hf Hx]]. now apply (sh_events sa W row fr).
Qed.

Lemma enumerate_rows sa : shaped sa ->
  enumerate (sp_data sa) = map (fun p => (p, row_at sa p)) (zseq (num_scans sa)).
Proof.
  intros W. unfold enumerate. rewrite (sh_len sa W).
  rewrite (sh_data sa W) at 1.
  rewrite <- (map_id (zseq (num_scans sa))) at 1. now rewrite combine_map2.
Qed.

Section com.
  Variables (sa : sparse) (fx fy : Z) (crop_to : option Z) (init : option (Z * Z)).
  Hypothesis W : shaped sa.
  Hypothesis Hargs : crop_to = None \/ init <> None.
  Variable crop : option (Z * (Z * Z)).
  Hypothesis Hcrop : crop = crop_args crop_to init.
  Hypothesis Lim : com_limits sa fx fy crop.
  Let P := num_scans sa.
  Let X e := e / fx.
  Let Y e := e mod fy.

  Lemma P_nonneg : 0 <= P.
  Proof. apply np_prod_nonneg, (sh_scan _ W). Qed.

  Lemma event_range p e : 0 <= p < P -> In e (events_at sa p) -> 0 <= X e < 2 ^ 24 /\ 0 <= Y e < 2 ^ 24.
  Proof.
    intros Hp He. pose proof (sh_range sa _ e W (sh_row sa p W Hp) He) as R.
    pose proof (cl_frame _ _ _ _ Lim) as F. pose proof (cl_fx _ _ _ _ Lim). pose proof (cl_fy _ _ _ _ Lim).
    unfold frame_size in R. rewrite F in R. cbn in R.
    rewrite Z.mul_1_r in R. unfold X, Y. split.
    - split; [apply Z.div_pos; lia|]. apply Z.lt_le_trans with fy; [|lia].
      apply Z.div_lt_upper_bound; lia.
    - pose proof (Z.mod_pos_bound e fy). lia.
  Qed.

  Let inside (e : Z) : bool :=
    match crop with
    | None => true
    | Some (r, (cx, cy)) => dist2 (X e) (Y e) cx cy <=? r * r
    end.

  Lemma kept_filter l : kept X Y crop l = filter inside l.
  Proof.
    unfold kept, inside. destruct crop as [[r [cx cy]]|]; [reflexivity|].
    symmetry. now apply filter_all.
  Qed.

  Let KE p := kept X Y crop (events_at sa p).

  Lemma KE_range p e : 0 <= p < P -> In e (KE p) -> 0 <= X e < 2 ^ 24 /\ 0 <= Y e < 2 ^ 24.
  Proof.
    unfold KE. rewrite kept_filter. intros Hp H. apply filter_In in H as [H _]. now apply (event_range p).
  Qed.

  Lemma KE_len p : 0 <= p < P -> Zlen (KE p) <= 2 ^ 29.
  Proof.
    intros Hp. unfold KE. rewrite kept_filter. pose proof (cl_events _ _ _ _ Lim p Hp).
    assert (Zlen (filter inside (events_at sa p)) <= Zlen (events_at sa p)); [|lia].
    unfold Zlen. apply inj_le. clear. induction (events_at sa p) as [|x t IH]; cbn; [lia|].
    destruct (inside x); cbn; lia.
  Qed.

  Lemma kernel_ok nanmean : tagged P (events_at sa) <> [] ->
    com_v1_kernel (map snd (tagged P (events_at sa))) (map fst (tagged P (events_at sa)))
      (sp_scan sa) (sp_frame sa) crop_to init nanmean =
    Ok (replace_nans_if nanmean (com_row P Y KE, com_row P X KE)).
  Proof.
    intros Hne. pose proof Lim as Lim'. destruct Lim' as [F Hfx Hfy [s0 [s1 S]] HP HE HC].
    unfold com_v1_kernel. rewrite S, F.
    assert (EP : s0 * s1 = P).
    { unfold P, num_scans. rewrite S. cbn. now rewrite Z.mul_1_r. }
    rewrite EP. cbv zeta.
    set (E := tagged P (events_at sa)) in *.
    replace (Zlen (map snd E) =? 0) with false.
    2:{ symmetry. apply Z.eqb_neq. rewrite Zlen_map. destruct E as [|q r]; [contradiction|].
        rewrite Zlen_cons. pose proof (Zlen_nonneg r). lia. }
    rewrite decode_x_ok, decode_y_ok by lia. rewrite !map_map.
    assert (M : filter (fun q => inside (snd q)) E = tagged P KE).
    { unfold E. rewrite filter_tagged. unfold tagged. apply flat_map_ext'. intros p _.
      unfold KE. now rewrite kept_filter. }
    match goal with |- bind ?m _ = _ => assert (B : m =
      Ok (map fst (tagged P KE), (map (fun q => f_of_Z (X (snd q))) (tagged P KE),
                                  map (fun q => f_of_Z (Y (snd q))) (tagged P KE)))) end.
    { rewrite <- M. unfold inside. pose proof event_range as ER. rewrite Hcrop in HC |- *.
      unfold crop_args in HC |- *. clear M. destruct crop_to as [c|].
      - destruct init as [[c0 c1]|]; [|destruct Hargs as [H|H]; congruence].
        cbv zeta. rewrite combine_map2, map_map. cbn [fst snd].
        destruct HC as (Hr & Hcx & Hcy & HD).
        rewrite (map_ext_in _ (fun q => dist2 (X (snd q)) (Y (snd q)) c0 c1 <=? c * c)).
        2:{ intros [p e] H. apply in_tagged in H as [Hp He]. cbn [snd].
            destruct (ER p e Hp He). apply f_dist_ok; auto. now apply (HD p). }
        now rewrite !np_mask_map.
      - rewrite filter_all by reflexivity. reflexivity. }
    rewrite B. cbn [bind].
    rewrite final_block; [reflexivity|apply P_nonneg| |].
    - intros p e Hp He. now apply (KE_range p).
    - apply KE_len.
  Qed.

  Lemma v1_ok nanmean :
    com_sparse_v1 sa crop_to init nanmean =
    Ok (match tagged P (events_at sa) with
        | [] => (com_row P Y KE, com_row P X KE)
        | _ => replace_nans_if nanmean (com_row P Y KE, com_row P X KE)
        end).
  Proof.
    unfold com_sparse_v1. rewrite (enumerate_rows sa W). fold P. rewrite collect_ok. cbv zeta. cbn [bind app].
    set (L := map (fun p => (p, row_at sa p)) (zseq P)).
    set (L' := filter (fun q => 0 <? Zlen (concat (snd q))) L).
    assert (T : flat_map (fun q => map (pair (fst q)) (concat (snd q))) L' = tagged P (events_at sa)).
    { unfold L'. rewrite flat_map_filter.
      - unfold L, tagged, events_at. rewrite flat_map_concat_map, map_map, <- flat_map_concat_map. reflexivity.
      - intros [p row] _ H. cbn [fst snd] in *. destruct (concat row) as [|x t]; [reflexivity|].
        apply Z.ltb_ge in H. rewrite Zlen_cons in H. pose proof (Zlen_nonneg t). lia. }
    assert (T1 : flat_map (fun p => repeat (fst p) (Z.to_nat (snd p)))
                   (combine (map fst L') (map (fun q => Zlen (concat (snd q))) L')) = map fst (tagged P (events_at sa))).
    { rewrite <- T, combine_map2, flat_map_concat_map, map_map. cbn [fst snd].
      rewrite map_flat_map, flat_map_concat_map. f_equal. apply map_ext. intros [p row]. cbn [fst snd].
      rewrite repeat_as_map, map_map. reflexivity. }
    assert (T2 : concat (map (fun q => concat (snd q)) L') = map snd (tagged P (events_at sa))).
    { rewrite <- T, map_flat_map, flat_map_concat_map. f_equal. apply map_ext. intros [p row]. cbn [fst snd].
      rewrite map_map, map_id. reflexivity. }
    destruct L' as [|q0 L''] eqn:EL.
    - cbn [map flat_map] in *. rewrite <- T.
      pose proof Lim as Lim'. destruct Lim' as [F Hfx Hfy [s0 [s1 S]] HP HE HC].
      unfold com_v1_kernel. rewrite S, F. change (Zlen (@nil Z) =? 0) with true. cbv iota zeta.
      assert (EP : s0 * s1 = P) by (unfold P, num_scans; rewrite S; cbn; now rewrite Z.mul_1_r).
      rewrite EP, repeat_map_zseq by apply P_nonneg.
      assert (N : forall p, 0 <= p < P -> KE p = []).
      { intros p Hp. unfold KE. rewrite kept_filter.
        destruct (events_at sa p) as [|x t] eqn:Ev; [reflexivity|]. exfalso.
        assert (I : In (p, x) (tagged P (events_at sa))) by (apply in_tagged; split; [exact Hp|rewrite Ev; now left]).
        rewrite <- T in I. inversion I. }
      unfold com_row. f_equal. f_equal; apply map_ext_in; intros p Hp; apply in_zseq in Hp; now rewrite N.
    - cbn [map]. change (Zlen (concat (snd q0)) :: map (fun q => Zlen (concat (snd q))) L'')
        with (map (fun q => Zlen (concat (snd q))) (q0 :: L'')).
      change (fst q0 :: map fst L'') with (map fst (q0 :: L'')).
      change (concat (snd q0) :: map (fun q => concat (snd q)) L'') with (map (fun q => concat (snd q)) (q0 :: L'')).
      rewrite <- EL in *.
      unfold np_i32. replace (forallb (fun p => p <? 2 ^ 31) (map fst L')) with true.
      2:{ symmetry. apply forallb_forall. intros p Hp. apply in_map_iff in Hp as (q & <- & Hq).
          unfold L' in Hq. apply filter_In in Hq as [Hq _]. unfold L in Hq. apply in_map_iff in Hq as (p & <- & Hp).
          apply in_zseq in Hp. cbn [fst]. apply Z.ltb_lt. pose proof (cl_positions _ _ _ _ Lim). fold P in H. lia. }
      cbn [bind]. rewrite T1.
      rewrite concat_ok by (rewrite EL; discriminate). cbn [bind]. rewrite T2.
      assert (Hne : tagged P (events_at sa) <> []).
      { rewrite <- T. assert (I : In q0 L') by (rewrite EL; now left).
        assert (I' := I). unfold L' in I'. apply filter_In in I' as [_ I']. apply Z.ltb_lt in I'.
        destruct (concat (snd q0)) as [|x t] eqn:Ec; [cbn in I'; lia|].
        intros Z0. assert (J : In (fst q0, x) []); [|inversion J].
        rewrite <- Z0. apply in_flat_map. exists q0. split; [exact I|]. rewrite Ec. now left. }
      rewrite kernel_ok by exact Hne. destruct (tagged P (events_at sa)); [contradiction|reflexivity].
  Qed.

  Lemma mean64_ok g p : 0 <= p < P -> (forall e, In e (KE p) -> 0 <= g e < 2 ^ 24) -> KE p <> [] ->
    f_of_d (mean64 (map g (KE p)) (Zlen (KE p))) = com_entry g (KE p).
  Proof.
    intros Hp Hg Hne. unfold com_entry, mean64.
    replace (0 <? Zlen (KE p)) with true.
    2:{ symmetry. apply Z.ltb_lt. destruct (KE p) as [|x t]; [contradiction|].
        rewrite Zlen_cons. pose proof (Zlen_nonneg t). lia. }
    do 3 f_equal. unfold u64. apply Z.mod_small. split.
    - apply zsum_nonneg. intros x Hx. apply in_map_iff in Hx as (e & <- & He). apply Hg in He. lia.
    - assert (B : zsum (map g (KE p)) <= 2 ^ 24 * Zlen (map g (KE p))).
      { apply zsum_bound. intros x Hx. apply in_map_iff in Hx as (e & <- & He). apply Hg in He. lia. }
      rewrite Zlen_map in B. pose proof (KE_len p Hp).
      change (2 ^ 64) with (2 ^ 24 * 2 ^ 40). assert (2 ^ 29 < 2 ^ 40) by (apply Z.pow_lt_mono_r; lia). nia.
  Qed.

  Lemma v0_position p : 0 < sp_F sa -> 0 <= p < P ->
    com_v0_position fx fy crop_to init (row_at sa p) = Ok (com_entry Y (KE p), com_entry X (KE p)).
  Proof.
    intros HF Hp. unfold com_v0_position.
    rewrite concat_ok.
    2:{ intros E. pose proof (sh_rows sa W _ (sh_row sa p W Hp)) as R. rewrite E in R. cbn in R. unfold Zlen in R. cbn in R. lia. }
    cbn [bind]. fold (events_at sa p).
    assert (RX : forall e, In e (KE p) -> 0 <= X e < 2 ^ 24) by (intros e He; now destruct (KE_range p e Hp He)).
    assert (RY : forall e, In e (KE p) -> 0 <= Y e < 2 ^ 24) by (intros e He; now destruct (KE_range p e Hp He)).
    pose proof (mean64_ok X p Hp RX) as MX. pose proof (mean64_ok Y p Hp RY) as MY.
    pose proof (fun e => event_range p e Hp) as ER.
    pose proof (cl_crop _ _ _ _ Lim) as HC.
    destruct (0 <? Zlen (events_at sa p)) eqn:E.
    - cbv zeta. assert (K : KE p = kept X Y crop (events_at sa p)) by reflexivity.
      rewrite kept_filter in K. unfold inside in K. rewrite Hcrop in HC, K. unfold crop_args in HC, K.
      destruct crop_to as [c|].
      + destruct init as [[c0 c1]|]; [|destruct Hargs as [H|H]; congruence].
        destruct HC as (Hr & Hcx & Hcy & HD).
        replace (fits_u32 c0 && fits_u32 c1) with true.
        2:{ symmetry. unfold fits_u32. change (2 ^ 24) with 16777216 in Hcx, Hcy. change (2 ^ 32) with 4294967296.
            rewrite !andb_true_iff, !Z.leb_le, !Z.ltb_lt. lia. }
        cbn [bind]. rewrite combine_map2, map_map. cbn [fst snd].
        rewrite (map_ext_in _ (fun e => dist2 (X e) (Y e) c0 c1 <=? c * c)).
        2:{ intros e He. apply u_dist_ok; auto. now apply (HD p). }
        rewrite !np_mask_map. rewrite <- K. rewrite Zlen_map.
        destruct (KE p) as [|x t] eqn:EK; [reflexivity|].
        replace (0 <? Zlen (x :: t)) with true.
        2:{ symmetry. apply Z.ltb_lt. rewrite Zlen_cons. pose proof (Zlen_nonneg t). lia. }
        unfold X, Y in MX, MY |- *. rewrite MX, MY by discriminate. reflexivity.
      + rewrite filter_all in K by reflexivity. rewrite <- K.
        assert (KE p <> []).
        { rewrite K. intros E0. rewrite E0 in E. discriminate. }
        unfold X, Y in MX, MY |- *. rewrite MX, MY by assumption. reflexivity.
    - assert (E0 : events_at sa p = []).
      { apply Z.ltb_ge in E. destruct (events_at sa p) as [|x t]; [reflexivity|].
        rewrite Zlen_cons in E. pose proof (Zlen_nonneg t). lia. }
      assert (K : KE p = []) by (unfold KE; rewrite kept_filter, E0; reflexivity).
      now rewrite K.
  Qed.

  Lemma v0_ok nanmean : 0 < sp_F sa ->
    com_sparse_v0 sa crop_to init nanmean =
    Ok (replace_nans_if nanmean (com_row P Y KE, com_row P X KE)).
  Proof.
    intros HF. unfold com_sparse_v0. rewrite (cl_frame _ _ _ _ Lim).
    rewrite (sh_data sa W). fold P.
    rewrite (mapM_ok _ (fun row => match com_v0_position fx fy crop_to init row with Ok v => v | _ => (f_NaN, f_NaN) end)).
    2:{ intros row Hr. apply in_map_iff in Hr as (p & <- & Hp). apply in_zseq in Hp.
        now rewrite v0_position. }
    cbn [bind]. rewrite !map_map. unfold com_row.
    do 2 f_equal. f_equal; apply map_ext_in; intros p Hp; apply in_zseq in Hp; now rewrite v0_position.
  Qed.

  Lemma entry_com_row g p : 0 <= p < P -> entry (com_row P g KE) p = Some (com_entry g (KE p)).
  Proof.
    intros Hp. unfold entry, com_row.
    rewrite (map_nth_error (fun p => com_entry g (KE p)) (Z.to_nat p) (zseq P) (d := p)); [reflexivity|].
    rewrite nth_error_zseq by lia. f_equal. lia.
  Qed.

  Lemma entry_mean g p : 0 <= p < P -> (forall e, In e (KE p) -> 0 <= g e < 2 ^ 24) ->
    is_mean g (KE p) (com_entry g (KE p)).
  Proof.
    intros Hp Hg. pose proof (KE_len p Hp) as HL. unfold com_entry. set (l := KE p) in *. clearbody l.
    unfold is_mean. destruct l as [|x t]; [reflexivity|].
    set (l := x :: t) in *. assert (L0 : 0 < Zlen l).
    { unfold l. rewrite Zlen_cons. pose proof (Zlen_nonneg t). lia. }
    clearbody l. replace (0 <? Zlen l) with true by (symmetry; now apply Z.ltb_lt).
    assert (B : 0 <= zsum (map g l) <= 2 ^ 24 * Zlen l).
    { split.
      - apply zsum_nonneg. intros y Hy. apply in_map_iff in Hy as (e & <- & He). apply Hg in He. lia.
      - rewrite <- (Zlen_map g l). apply zsum_bound. intros y Hy. apply in_map_iff in Hy as (e & <- & He). apply Hg in He. lia. }
    set (s := zsum (map g l)) in *. clearbody s. set (n := Zlen l) in *. clearbody n.
    assert (S53 : Z.abs s <= 2 ^ 53) by (change (2 ^ 53) with (2 ^ 24 * 2 ^ 29); nia).
    assert (N53 : Z.abs n <= 2 ^ 53).
    { assert (2 ^ 29 <= 2 ^ 53) by (apply Z.pow_le_mono_r; lia). lia. }
    assert (Rn : (0 < IZR n)%R) by (apply IZR_lt; lia).
    assert (Q : (0 <= IZR s / IZR n <= IZR (2 ^ 24))%R).
    { split.
      - apply Rmult_le_pos; [apply IZR_le; lia|]. left. now apply Rinv_0_lt_compat.
      - apply Rmult_le_reg_r with (IZR n); [exact Rn|].
        unfold Rdiv. rewrite Rmult_assoc, Rinv_l by lra. rewrite Rmult_1_r, <- mult_IZR. apply IZR_le. lia. }
    assert (Q24 : (Rabs (IZR s / IZR n) <= bpow radix2 24)%R).
    { rewrite Rabs_pos_eq by lra. change (bpow radix2 24) with (IZR (2 ^ 24)). lra. }
    assert (D : dval (d_div (d_of_Z s) (d_of_Z n)) (d_rnd (IZR s / IZR n))).
    { apply dval_div; try (apply dval_of_int; assumption); [lra|].
      apply Rle_trans with (1 := Q24). apply bpow_le. lia. }
    apply fval_of_d; [exact D|].
    apply Rle_trans with (bpow radix2 24); [|apply bpow_le; lia].
    apply d_rnd_bpow_bound; [lia|exact Q24].
  Qed.
End com.

(** * Against the dense frames *)
Lemma weighted_by_value (g : Z -> Z) N l : (forall e, In e l -> 0 <= e < N) ->
  zsum (map g l) = zsum (map (fun j => g j * cnt l j) (zseq N)).
Proof.
  induction l as [|x t IH]; intros H.
  - cbn [map zsum]. symmetry. apply zsum_map_zero. intros. unfold cnt. cbn. unfold Zlen. cbn. lia.
  - cbn [map zsum]. rewrite IH by (intros; apply H; now right).
    rewrite (zsum_map_ext (fun j => g j * cnt (x :: t) j) (fun j => (if j =? x then g j else 0) + g j * cnt t j)).
    2:{ intros j _. rewrite cnt_cons. destruct (j =? x); ring. }
    rewrite zsum_map_add. f_equal.
    symmetry. apply (zsum_indicator g). apply H. now left.
Qed.

Lemma com_dense_ok sa w p : wf sa -> sp_frame sa = [w; w] -> 0 < w -> 0 <= p < num_scans sa ->
  let dp := map (events (row_at sa p)) (zseq (frame_size sa)) in
  com_entry (fun e => e mod w) (events_at sa p) = f_of_d (fst (com_dense_frame w dp)) /\
  com_entry (fun e => e / w) (events_at sa p) = f_of_d (snd (com_dense_frame w dp)).
Proof.
  intros W F Hw Hp dp. set (N := frame_size sa) in *.
  assert (HN : 0 <= N) by (unfold N; now apply frame_size_nonneg).
  assert (R : forall e, In e (events_at sa p) -> 0 <= e < N).
  { intros e He. exact (row_range sa _ e W (wf_row sa p W Hp) He). }
  assert (C : forall j, events (row_at sa p) j = cnt (events_at sa p) j).
  { intros j. unfold events_at. now rewrite cnt_concat. }
  assert (EN : forall g : Z -> Z, zsum (map (fun q => g (fst q) * snd q) (enumerate dp)) = zsum (map g (events_at sa p))).
  { intros g. unfold enumerate, dp. rewrite Zlen_map, Zlen_zseq by exact HN.
    rewrite <- (map_id (zseq N)) at 1. rewrite combine_map2, map_map. cbn [fst snd].
    rewrite (weighted_by_value g N) by exact R. apply zsum_map_ext. intros j _. now rewrite C. }
  assert (EM : zsum dp = Zlen (events_at sa p)).
  { assert (X : zsum dp = zsum (map (fun q => 1 * snd q) (enumerate dp))).
    { unfold enumerate, dp. rewrite Zlen_map, Zlen_zseq by exact HN.
      rewrite <- (map_id (zseq N)) at 2. rewrite combine_map2, map_map. cbn [fst snd].
      apply zsum_map_ext. intros. lia. }
    rewrite X, (EN (fun _ => 1)). clear. induction (events_at sa p) as [|x t IH]; [reflexivity|].
    cbn [map zsum]. rewrite IH, Zlen_cons. lia. }
  unfold com_dense_frame. cbn [fst snd]. rewrite EM.
  rewrite (EN (fun e => e mod w)), (EN (fun e => e / w)). unfold com_entry.
  destruct (events_at sa p) as [|x t]; [split; reflexivity|].
  replace (0 <? Zlen (x :: t)) with true.
  2:{ symmetry. apply Z.ltb_lt. rewrite Zlen_cons. pose proof (Zlen_nonneg t). lia. }
  split; reflexivity.
Qed.
