(** Lemmas for the image helpers on sparse arrays. *)
From Coq Require Import String ZArith List Bool Lia Reals.
From Verif Require Import Base BaseFacts Double Float32 FloatConv SparseModel SparseSpec SparseProofs
  SparseSlice SparseReduce SparseMean ComModel HelperModel HelperSpec.
Import ListNotations.
Open Scope Z_scope.

Local Arguments Z.mul : simpl never.
Local Arguments Z.add : simpl never.
Local Arguments Z.pow : simpl never.

Lemma zsum_filter {A} (f : A -> Z) g l :
  zsum (map f (filter g l)) = zsum (map (fun x => if g x then f x else 0) l).
Proof.
  induction l as [|x t IH]; [reflexivity|]. cbn [filter map zsum].
  destruct (g x); cbn [map zsum]; lia.
Qed.

Lemma count_filter P fr N :
  (forall e, In e fr -> 0 <= e < N) ->
  Zlen (filter P fr) = zsum (map (fun j => if P j then cnt fr j else 0) (zseq N)).
Proof.
  induction fr as [|e t IH]; intros H.
  - cbn [filter]. rewrite zsum_map_zero; [reflexivity|]. intros j _. now destruct (P j).
  - transitivity (zsum (map (fun j => (if j =? e then (if P j then 1 else 0) else 0) +
                                      (if P j then cnt t j else 0)) (zseq N))).
    + rewrite zsum_map_add, (zsum_indicator (fun j => if P j then 1 else 0)) by (apply H; now left).
      rewrite <- IH by (intros; apply H; now right).
      cbn [filter]. destruct (P e); [apply Zlen_cons|reflexivity].
    + apply zsum_map_ext. intros j _. rewrite cnt_cons. destruct (P j), (j =? e); lia.
Qed.

Lemma count_events P row N :
  (forall fr e, In fr row -> In e fr -> 0 <= e < N) ->
  zsum (map (fun fr => Zlen (filter P fr)) row) =
  zsum (map (fun j => if P j then events row j else 0) (zseq N)).
Proof.
  induction row as [|fr t IH]; intros H.
  - cbn [map zsum]. rewrite zsum_map_zero; [reflexivity|]. intros j _. now destruct (P j).
  - cbn [map zsum]. rewrite IH by (intros f e Hf; apply (H f); now right).
    rewrite (count_filter P fr N) by (intros e; apply (H fr); now left).
    rewrite <- zsum_map_add. apply zsum_map_ext. intros j _. unfold events. cbn [map zsum].
    destruct (P j); lia.
Qed.

(** * Masked sums *)
Lemma take_rows sa mr :
  wf sa -> (forall p, In p mr -> 0 <= p < num_scans sa) ->
  np_take (sp_data sa) mr = Ok (map (row_at sa) mr).
Proof.
  intros W H. unfold row_at. apply np_take_ok. intros i Hi. specialize (H i Hi).
  rewrite (wf_len sa W). exact H.
Qed.

Lemma mask_real_space_ok sa s0 s1 mask :
  wf sa -> sp_scan sa = [s0; s1] -> Zlen mask = s0 * s1 ->
  mask_real_space sa [s0; s1] mask =
  Ok (map (fun j => wrapu (sp_bits sa)
         (zsum (map (fun p => if nth (Z.to_nat p) mask false then events (row_at sa p) j else 0)
            (zseq (num_scans sa))))) (zseq (frame_size sa))).
Proof.
  intros W S L. unfold mask_real_space. rewrite S, !Z.eqb_refl. cbn [andb].
  assert (NS : num_scans sa = Zlen mask).
  { unfold num_scans. rewrite S, L. unfold np_prod. cbn. now rewrite Z.mul_1_r. }
  assert (HN := frame_size_nonneg sa W).
  rewrite take_rows; [|exact W|rewrite NS; apply true_positions_range]. cbn [bind].
  destruct (inc_rows (sp_bits sa) (map (row_at sa) (true_positions mask))
              (repeat 0 (Z.to_nat (frame_size sa))) (fun _ => 0)) as [a [E [La V]]].
  { rewrite Zlen_repeat, Z2Nat.id by exact HN. intros row Hr. apply in_map_iff in Hr as (p & <- & Hp).
    apply true_positions_range in Hp. intros fr Hf.
    apply (wf_frames sa W (row_at sa p)); [|exact Hf]. apply wf_row; [exact W|lia]. }
  { intros j. rewrite zat_repeat0. unfold wrapu. now rewrite Zmod_0_l. }
  rewrite E. f_equal. rewrite Zlen_repeat, Z2Nat.id in La by exact HN.
  apply eq_map_zseq; [exact La|]. intros j _. rewrite V, Z.add_0_l. f_equal.
  rewrite map_map. unfold true_positions. rewrite zsum_filter, NS. reflexivity.
Qed.

(** * Sums of event lists *)
Lemma inc_one a e base :
  0 <= e < Zlen a -> (forall j, zat a j = wrapu 64 (base j)) ->
  exists a', (let* k := np_index (Zlen a) e in let* v := rd a k in wr a k (wrapu 64 (v + 1))) = Ok a' /\
    Zlen a' = Zlen a /\ forall j, zat a' j = wrapu 64 (base j + (if j =? e then 1 else 0)).
Proof.
  intros He Hb. rewrite np_index_ok by exact He. cbn [bind]. rewrite rd_zat by exact He. cbn [bind].
  rewrite wr_ok by exact He. eexists. split; [reflexivity|]. split; [apply Zlen_upd|].
  intros j. rewrite zat_upd by exact He. destruct (Z.eqb_spec j e) as [->|].
  - rewrite Hb. apply wrapu_add.
  - now rewrite Hb, Z.add_0_r.
Qed.

Lemma inc_list ev a base :
  (forall e, In e ev -> 0 <= e < Zlen a) -> (forall j, zat a j = wrapu 64 (base j)) ->
  exists a', for_each ev (fun ee dp => let* k := np_index (Zlen dp) ee in
                                       let* v := rd dp k in wr dp k (wrapu 64 (v + 1))) a = Ok a' /\
    Zlen a' = Zlen a /\ forall j, zat a' j = wrapu 64 (base j + cnt ev j).
Proof.
  revert a base. induction ev as [|e t IH]; intros a base H Hb.
  - exists a. split; [reflexivity|]. split; [reflexivity|]. intros j. rewrite Hb. f_equal. unfold cnt. cbn. lia.
  - cbn [for_each]. destruct (inc_one a e base) as (a1 & E & L & V); [apply H; now left|exact Hb|].
    rewrite E. cbn [bind].
    destruct (IH a1 (fun j => base j + (if j =? e then 1 else 0))) as (a' & E' & L' & V').
    { intros x Hx. rewrite L. apply H. now right. }
    { exact V. }
    exists a'. split; [exact E'|]. split; [lia|]. intros j. rewrite V', cnt_cons. f_equal. lia.
Qed.

Lemma sum_events_ok counts w h :
  0 <= w * h -> (forall ev e, In ev counts -> In e ev -> 0 <= e < w * h) ->
  calculate_sum_events counts (w, h) =
  Ok (map (fun j => wrapu 64 (cnt (concat counts) j)) (zseq (w * h))).
Proof.
  intros HN H. unfold calculate_sum_events. cbn [fst snd].
  assert (G : forall a base, Zlen a = w * h -> (forall j, zat a j = wrapu 64 (base j)) ->
    exists a', for_each counts
      (fun ev dp => for_each ev (fun ee dp => let* k := np_index (Zlen dp) ee in
                                 let* v := rd dp k in wr dp k (wrapu 64 (v + 1))) dp) a = Ok a' /\
      Zlen a' = w * h /\ forall j, zat a' j = wrapu 64 (base j + cnt (concat counts) j)).
  { induction counts as [|ev t IH]; intros a base L Hb.
    - exists a. split; [reflexivity|]. split; [exact L|]. intros j. rewrite Hb. f_equal. unfold cnt. cbn. lia.
    - cbn [for_each concat]. destruct (inc_list ev a base) as (a1 & E & L1 & V).
      { intros e He. rewrite L. apply (H ev); [now left|exact He]. }
      { exact Hb. }
      rewrite E. cbn [bind]. destruct (IH (fun ev' e Hv => H ev' e (or_intror Hv)) a1 (fun j => base j + cnt ev j))
        as (a' & E' & L' & V'); [lia|exact V|].
      exists a'. split; [exact E'|]. split; [exact L'|]. intros j. rewrite V', cnt_app. f_equal. lia. }
  destruct (G (repeat 0 (Z.to_nat (w * h))) (fun _ => 0)) as (a & E & L & V).
  { now rewrite Zlen_repeat, Z2Nat.id. }
  { intros j. rewrite zat_repeat0. unfold wrapu. now rewrite Zmod_0_l. }
  rewrite E. f_equal. apply eq_map_zseq; [exact L|]. intros j _. rewrite V. reflexivity.
Qed.

(** * Virtual dark field *)
Lemma u_dist_lt x y cx cy r :
  0 <= sqdist cx cy x y < 2 ^ 32 -> 0 <= r <= 2 ^ 25 ->
  d_lt (u_dist x y cx cy) (d_of_Z r) = disc cx cy r x y.
Proof.
  intros Hd Hr. unfold u_dist, disc. cbv zeta.
  assert (E : u32 (u32 (u32 (x - cx) * u32 (x - cx)) + u32 (u32 (y - cy) * u32 (y - cy))) = sqdist cx cy x y).
  { unfold u32. rewrite <- !Zmult_mod, <- Zplus_mod. apply Z.mod_small. exact Hd. }
  rewrite E. apply d_sqrt_lt; [exact Hr|].
  assert (2 ^ 32 <= 2 ^ 53) by (apply Z.pow_le_mono_r; lia). lia.
Qed.

Section vdf.
  Variables (bits fx fy : Z) (aps : list (Z * (Z * Z))) (N : Z).
  Hypothesis Hap : forall cc_0 cc_1 rr, In (cc_0, (cc_1, rr)) aps ->
    0 <= cc_0 < 2 ^ 32 /\ 0 <= cc_1 < 2 ^ 32 /\ 0 <= rr <= 2 ^ 25 /\
    forall e, 0 <= e < N -> sqdist cc_1 cc_0 (e / fx) (e mod fy) < 2 ^ 32.

  Definition in_ap (a : Z * (Z * Z)) (e : Z) : bool :=
    disc (fst (snd a)) (fst a) (snd (snd a)) (e / fx) (e mod fy).

  Lemma sqdist_nonneg a b c d : 0 <= sqdist a b c d.
  Proof.
    unfold sqdist. pose proof (Z.square_nonneg (c - a)). pose proof (Z.square_nonneg (d - b)). lia.
  Qed.

  Lemma vdf_frame_ok ev v :
    (forall e, In e ev -> 0 <= e < N) ->
    vdf_frame bits fx fy aps ev (wrapu bits v) =
    Ok (wrapu bits (v + zsum (map (fun a => Zlen (filter (in_ap a) ev)) aps))).
  Proof.
    intros He. unfold vdf_frame. revert v Hap. induction aps as [|[c0 [c1 r]] t IH]; intros v Hap'.
    - cbn. now rewrite Z.add_0_r.
    - cbn [for_each map zsum]. destruct (Hap' c0 c1 r) as (H0 & H1 & Hr & Hd); [now left|].
      assert (F0 : fits_u32 c1 && fits_u32 c0 = true).
      { unfold fits_u32. rewrite !andb_true_iff, !Z.leb_le, !Z.ltb_lt. lia. }
      rewrite F0. cbn [bind].
      assert (EL : Zlen (filter (fun d => d_lt d (d_of_Z r))
        (map (fun p => u_dist (fst p) (snd p) c1 c0)
           (combine (map (fun e => e / fx) ev) (map (fun e => e mod fy) ev)))) =
        Zlen (filter (in_ap (c0, (c1, r))) ev)).
      { clear - He Hr Hd. rewrite combine_map, map_map. induction ev as [|e s IHe]; [reflexivity|].
        cbn [map filter fst snd]. rewrite u_dist_lt; [|split; [apply sqdist_nonneg|apply Hd, He; now left]|exact Hr].
        unfold in_ap at 1. cbn [fst snd]. destruct (disc c1 c0 r (e / fx) (e mod fy)).
        - rewrite !Zlen_cons. f_equal. apply IHe. intros; apply He; now right.
        - apply IHe. intros; apply He; now right. }
      rewrite EL, wrapu_add. rewrite IH by (intros; apply Hap'; now right). do 2 f_equal. lia.
  Qed.

  Lemma vdf_row_ok row pre rest v :
    (forall fr e, In fr row -> In e fr -> 0 <= e < N) ->
    for_each row
      (fun ev img => let* v := rd img (Zlen pre) in
         let* v' := vdf_frame bits fx fy aps ev v in wr img (Zlen pre) v') (pre ++ wrapu bits v :: rest) =
    Ok (pre ++ wrapu bits (v + zsum (map (fun fr =>
          zsum (map (fun a => Zlen (filter (in_ap a) fr)) aps)) row)) :: rest).
  Proof.
    revert v. induction row as [|fr t IH]; intros v H.
    - cbn. now rewrite Z.add_0_r.
    - cbn [for_each map zsum]. rewrite rd_mid. cbn [bind].
      rewrite vdf_frame_ok by (intros e; apply (H fr); now left). cbn [bind]. rewrite wr_mid. cbn [bind].
      rewrite IH by (intros f e Hf; apply (H f); now right). do 4 f_equal. lia.
  Qed.
End vdf.

Lemma vdf_ok sa fx fy s0 s1 cxs cys rs :
  wf sa -> sp_scan sa = [s0; s1] -> sp_frame sa = [fx; fy] ->
  (forall cc_0 cc_1 rr, In (cc_0, (cc_1, rr)) (combine cxs (combine cys rs)) ->
    0 <= cc_0 < 2 ^ 32 /\ 0 <= cc_1 < 2 ^ 32 /\ 0 <= rr <= 2 ^ 25 /\
    forall e, 0 <= e < frame_size sa -> sqdist cc_1 cc_0 (e / fx) (e mod fy) < 2 ^ 32) ->
  virtual_darkfield sa cxs cys rs =
  Ok (map (fun row => wrapu (sp_bits sa)
        (zsum (map (fun a => zsum (map (fun j => if in_ap fx fy a j then events row j else 0)
                                      (zseq (frame_size sa)))) (combine cxs (combine cys rs))))) (sp_data sa)).
Proof.
  intros W S F Hap. unfold virtual_darkfield, sp_shape. rewrite F, S. cbn [app].
  assert (NS : num_scans sa = s0 * s1).
  { unfold num_scans. rewrite S. unfold np_prod. cbn. now rewrite Z.mul_1_r. }
  rewrite <- NS, data_length by exact W.
  rewrite (enum_fill (sp_data sa) _ (fun row => wrapu (sp_bits sa)
        (zsum (map (fun a => zsum (map (fun j => if in_ap fx fy a j then events row j else 0)
                                      (zseq (frame_size sa)))) (combine cxs (combine cys rs)))))).
  - cbn [bind]. rewrite Zlen_map, (wf_len sa W). fold (num_scans sa). now rewrite Z.eqb_refl.
  - intros row pre rest Hrow. assert (R : forall fr e, In fr row -> In e fr -> 0 <= e < frame_size sa).
    { intros fr e Hf He. exact (proj2 (wf_frames sa W row fr Hrow Hf) e He). }
    assert (Z0 : wrapu (sp_bits sa) 0 = 0) by (unfold wrapu; apply Zmod_0_l). rewrite <- Z0 at 1.
    rewrite (vdf_row_ok (sp_bits sa) fx fy (combine cxs (combine cys rs)) (frame_size sa) Hap row pre rest 0 R).
    rewrite Z.add_0_l. do 4 f_equal. rewrite zsum_swap. apply zsum_map_ext. intros a _.
    apply count_events. exact R.
Qed.

(** * Radial sums *)
Lemma filter_diff {A} (P Q R : A -> bool) l :
  (forall x, In x l -> (Q x = true -> P x = true) /\ R x = P x && negb (Q x)) ->
  Zlen (filter P l) - Zlen (filter Q l) = Zlen (filter R l).
Proof.
  induction l as [|x t IH]; intros H; [reflexivity|]. cbn [filter].
  destruct (H x) as [HQ HR]; [now left|]. rewrite HR.
  specialize (IH (fun y Hy => H y (or_intror Hy))).
  destruct (Q x); [rewrite HQ by reflexivity|destruct (P x)]; cbn [andb negb]; rewrite ?Zlen_cons; lia.
Qed.

Lemma filter_map {A B} (f : A -> B) (P : B -> bool) l : Zlen (filter P (map f l)) = Zlen (filter (fun x => P (f x)) l).
Proof.
  induction l as [|x t IH]; [reflexivity|]. cbn [map filter].
  destruct (P (f x)); rewrite ?Zlen_cons, IH; reflexivity.
Qed.

Lemma filter_ext_len {A} (P Q : A -> bool) l :
  (forall x, In x l -> P x = Q x) -> Zlen (filter P l) = Zlen (filter Q l).
Proof. intros H. now rewrite (filter_ext_in P Q l H). Qed.

Lemma histogram_ok (g : Z -> Z) (dist : Z -> double) ev n :
  0 <= n <= 2 ^ 25 ->
  (forall e, In e ev -> 0 <= g e <= 2 ^ 53 /\ dist e = d_sqrt (d_of_Z (g e))) ->
  np_histogram (map dist ev) n =
  map (fun k => Zlen (filter (fun e => (k * k <=? g e) &&
         (if k =? n - 1 then g e <=? n * n else g e <? (k + 1) * (k + 1))) ev)) (zseq n).
Proof.
  intros Hn H. unfold np_histogram. apply map_ext_in. intros k Hk. apply in_zseq in Hk.
  cbv zeta. rewrite !filter_map.
  destruct (Z.eqb_spec k n); [lia|].
  rewrite (filter_ext_len (fun x => d_lt (dist x) (d_of_Z k)) (fun e => g e <? k * k)).
  2:{ intros e He. destruct (H e He) as [Hg ->]. apply d_sqrt_lt; lia. }
  destruct (Z.eqb_spec (k + 1) n) as [E1|E1], (Z.eqb_spec k (n - 1)) as [E2|E2]; try lia.
  - rewrite (filter_ext_len (fun x => d_le (dist x) (d_of_Z (k + 1))) (fun e => g e <=? n * n)).
    2:{ intros e He. destruct (H e He) as [Hg ->]. replace (k + 1) with n by lia. apply d_sqrt_le; lia. }
    apply filter_diff. intros e He. split.
    + rewrite Z.ltb_lt, Z.leb_le. nia.
    + destruct (Z.ltb_spec (g e) (k * k)), (Z.leb_spec (k * k) (g e)), (g e <=? n * n); try lia; reflexivity.
  - rewrite (filter_ext_len (fun x => d_lt (dist x) (d_of_Z (k + 1))) (fun e => g e <? (k + 1) * (k + 1))).
    2:{ intros e He. destruct (H e He) as [Hg ->]. apply d_sqrt_lt; lia. }
    apply filter_diff. intros e He. split.
    + rewrite !Z.ltb_lt. nia.
    + destruct (Z.ltb_spec (g e) (k * k)), (Z.leb_spec (k * k) (g e)), (g e <? (k + 1) * (k + 1)); try lia; reflexivity.
Qed.

Lemma i64_id z : - 2 ^ 63 <= z < 2 ^ 63 -> i64 z = z.
Proof. intros H. unfold i64. change (2 ^ 64) with (2 ^ 63 + 2 ^ 63). rewrite Z.mod_small; lia. Qed.

Lemma i64_dist x y a b :
  Z.abs (x - a) <= 2 ^ 25 -> Z.abs (y - b) <= 2 ^ 25 ->
  let dx := i64 (x - a) in let dy := i64 (y - b) in
  i64 (i64 (dx * dx) + i64 (dy * dy)) = sqdist a b x y /\ 0 <= sqdist a b x y <= 2 ^ 53.
Proof.
  intros Hx Hy. change (2 ^ 25) with 33554432 in *. change (2 ^ 53) with 9007199254740992.
  cbv zeta. rewrite (i64_id (x - a)), (i64_id (y - b)) by (change (2 ^ 63) with 9223372036854775808; lia).
  unfold sqdist. revert Hx Hy. generalize (x - a) (y - b). intros u v Hu Hv.
  assert (0 <= u * u <= 33554432 * 33554432) by nia.
  assert (0 <= v * v <= 33554432 * 33554432) by nia.
  rewrite !i64_id; change (2 ^ 63) with 9223372036854775808; try lia.
  rewrite !i64_id; change (2 ^ 63) with 9223372036854775808; lia.
Qed.

Definition ring_of (n : Z) (center : Z * Z) (fy k e : Z) : bool :=
  ring n k (fst center) (snd center) (e / fy) (e mod fy).

Lemma radial_ok sa fx fy s0 s1 center :
  wf sa -> sp_scan sa = [s0; s1] -> sp_frame sa = [fx; fy] ->
  0 < fx <= 2 ^ 24 -> 0 < fy <= 2 ^ 24 ->
  Z.abs (fst center) <= 2 ^ 24 -> Z.abs (snd center) <= 2 ^ 24 ->
  let n := Z.max fx fy / 2 in
  radial_sum_sparse sa center =
  Ok (map (fun row => map (fun k =>
        zsum (map (fun j => if ring_of n center fy k j then events row j else 0) (zseq (frame_size sa))))
      (zseq n)) (sp_data sa)).
Proof.
  intros W S F Hfx Hfy H0 H1 n. unfold radial_sum_sparse. rewrite F, S. fold n.
  assert (FS : frame_size sa = fx * fy).
  { unfold frame_size. rewrite F. unfold np_prod. cbn. now rewrite Z.mul_1_r. }
  change (2 ^ 24) with 16777216 in *.
  assert (Hn : 0 <= n <= 8388608).
  { unfold n. split; [apply Z.div_pos; lia|apply Z.div_le_upper_bound; lia]. }
  rewrite data_length by exact W.
  rewrite (enum_fill_gen (sp_data sa) _ (fun row => map (fun k =>
        zsum (map (fun j => if ring_of n center fy k j then events row j else 0) (zseq (frame_size sa))))
      (zseq n))); [reflexivity|].
  intros row pre rest Hrow.
  assert (R : forall fr e, In fr row -> In e fr -> 0 <= e < frame_size sa).
  { intros fr e Hf He. exact (proj2 (wf_frames sa W row fr Hrow Hf) e He). }
  assert (G : forall (base : Z -> Z),
    for_each row
      (fun events r_sum =>
         if forallb (fun e => (0 <=? e) && (e <? fx * fy)) events then
           let r := map (fun e => let dx := i64 (e / fy - fst center) in
                                  let dy := i64 (e mod fy - snd center) in
                                  d_sqrt (d_of_Z (i64 (i64 (dx * dx) + i64 (dy * dy))))) events in
           let hh := np_histogram r n in
           let* row := rd r_sum (Zlen pre) in
           wr r_sum (Zlen pre) (map (fun p => fst p + snd p) (combine row hh))
         else value_error) (pre ++ map base (zseq n) :: rest) =
    Ok (pre ++ map (fun k => base k + zsum (map (fun fr => Zlen (filter (ring_of n center fy k) fr)) row)) (zseq n) :: rest)).
  { clear Hrow. induction row as [|fr t IH]; intros base.
    - cbn [for_each map zsum]. do 3 f_equal. apply map_ext. intros k. lia.
    - cbn [for_each].
      assert (A : forallb (fun e => (0 <=? e) && (e <? fx * fy)) fr = true).
      { apply forallb_forall. intros e He. specialize (R fr e (or_introl eq_refl) He). rewrite FS in R.
        rewrite andb_true_iff, Z.leb_le, Z.ltb_lt. exact R. }
      rewrite A. cbv zeta.
      rewrite (histogram_ok (fun e => sqdist (fst center) (snd center) (e / fy) (e mod fy))).
      2: lia.
      2:{ intros e He. specialize (R fr e (or_introl eq_refl) He). rewrite FS in R.
          assert (0 <= e / fy < fx).
          { split; [apply Z.div_pos; lia|apply Z.div_lt_upper_bound; [lia|]]. lia. }
          pose proof (Z.mod_pos_bound e fy ltac:(lia)).
          destruct (i64_dist (e / fy) (e mod fy) (fst center) (snd center)) as [E B];
            [change (2 ^ 25) with 33554432; lia|change (2 ^ 25) with 33554432; lia|].
          split; [exact B|]. cbv zeta in E. now rewrite E. }
      rewrite rd_mid. cbn [bind]. rewrite wr_mid. cbn [bind]. rewrite combine_map, map_map.
      etransitivity; [apply (IH (fun f e Hf => R f e (or_intror Hf))
        (fun k => base k + Zlen (filter (ring_of n center fy k) fr)))|].
      do 3 f_equal. apply map_ext. intros k. cbn [map zsum]. lia. }
  assert (E0 : repeat 0 (Z.to_nat n) = map (fun _ => 0) (zseq n)).
  { unfold zseq. rewrite map_map. generalize (Z.to_nat n) as m. intros m. generalize 0%nat.
    induction m as [|m IH]; intros k; [reflexivity|]. cbn [repeat seq map]. f_equal. apply IH. }
  rewrite E0. etransitivity; [apply (G (fun _ => 0))|].
  do 3 f_equal. apply map_ext. intros k. rewrite Z.add_0_l. now apply count_events.
Qed.
