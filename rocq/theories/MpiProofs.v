(** Merging the scan maps of the ranks. *)
From Coq Require Import String ZArith List Lia Bool Permutation Sorting.Sorted.
From Verif Require Import Base BaseFacts PermFacts BlockModel StemProofs StreamModel StreamSpec
  StreamProofs SectorModel SectorSpec SectorProofs ThreadedModel ThreadedSpec ThreadedProofs
  MultipassModel MultipassSpec MultipassProofs MultipassFrames MultipassReader MpiModel MpiCodec.
Import ListNotations.
Open Scope Z_scope.
Local Arguments skipn : simpl never.
Local Arguments firstn : simpl never.
Local Arguments Z.mul : simpl never.
Local Arguments Z.add : simpl never.
Local Arguments Z.pow : simpl never.

(** ** Shares *)

Lemma share_eq n W r : 0 <= n < 2 ^ 32 -> 0 < W -> 0 <= r < W ->
  share n W r = (r * (n / W), if r =? W - 1 then n - r * (n / W) else n / W).
Proof.
  intros Hn HW Hr. unfold share.
  assert (0 <= n / W <= n) by (split; [apply Z.div_pos; lia|apply Z.div_le_upper_bound; nia]).
  assert (H2 : 0 <= r * (n / W) <= n).
  { split; [nia|]. pose proof (Z.mul_div_le n W HW). nia. }
  assert (E1 : u32 (u64 (r * (n / W))) = r * (n / W)).
  { unfold u32, u64. rewrite (Z.mod_small _ (2 ^ 64)) by lia. apply Z.mod_small. lia. }
  rewrite E1. f_equal. destruct (r =? W - 1).
  - unfold u32, u64. rewrite (Z.mod_small _ (2 ^ 64)) by lia. apply Z.mod_small. lia.
  - unfold u32. apply Z.mod_small. lia.
Qed.

Definition first_of n W r := fst (share n W r).
Definition size_of n W r := snd (share n W r).

Lemma share_range n W r : 0 <= n < 2 ^ 32 -> 0 < W -> 0 <= r < W ->
  0 <= first_of n W r /\ 0 <= size_of n W r /\ first_of n W r + size_of n W r <= n.
Proof.
  intros Hn HW Hr. unfold first_of, size_of. rewrite share_eq by auto. cbn [fst snd].
  assert (0 <= n / W) by (apply Z.div_pos; lia). pose proof (Z.mul_div_le n W HW).
  destruct (Z.eqb_spec r (W - 1)); repeat split; nia.
Qed.

Lemma share_covers n W i : 0 <= n < 2 ^ 32 -> 0 < W -> 0 <= i < n ->
  exists r, 0 <= r < W /\ first_of n W r <= i < first_of n W r + size_of n W r.
Proof.
  intros Hn HW Hi. unfold first_of, size_of.
  assert (Hq : 0 <= n / W) by (apply Z.div_pos; lia).
  destruct (Z_lt_ge_dec i ((W - 1) * (n / W))) as [Hlt|Hge].
  - assert (0 < n / W) by nia. exists (i / (n / W)).
    assert (Hr : 0 <= i / (n / W) < W - 1).
    { split; [apply Z.div_pos; lia|]. apply Z.div_lt_upper_bound; lia. }
    split; [lia|]. rewrite share_eq by lia. cbn [fst snd].
    destruct (Z.eqb_spec (i / (n / W)) (W - 1)); [lia|].
    pose proof (Z.mul_div_le i (n / W) ltac:(lia)). pose proof (Z.mul_succ_div_gt i (n / W) ltac:(lia)). nia.
  - exists (W - 1). split; [lia|]. rewrite share_eq by lia. cbn [fst snd]. rewrite Z.eqb_refl. lia.
Qed.

Lemma share_unique n W i r r' : 0 <= n < 2 ^ 32 -> 0 < W -> 0 <= r < W -> 0 <= r' < W ->
  first_of n W r <= i < first_of n W r + size_of n W r ->
  first_of n W r' <= i < first_of n W r' + size_of n W r' -> r = r'.
Proof.
  intros Hn HW Hr Hr'. unfold first_of, size_of. rewrite !share_eq by auto. cbn [fst snd].
  assert (Hq : 0 <= n / W) by (apply Z.div_pos; lia).
  destruct (Z.eqb_spec r (W - 1)), (Z.eqb_spec r' (W - 1)); intros H1 H2; nia.
Qed.

(** ** Merging one frame *)

Definition orloc (s d : option loc) : option loc := match s with Some _ => s | None => d end.
Definition merge_fm (src dst : fmap) : fmap := map (fun x => orloc (fst x) (snd x)) (combine src dst).
Definition get_fm (fn : Z) (fr : list (Z * fmap)) : fmap :=
  match map_get fn fr with Some fm => fm | None => no_locs end.
Definition put_frame (fr : list (Z * fmap)) (x : Z * fmap) : list (Z * fmap) :=
  map_put (fst x) (merge_fm (snd x) (get_fm (fst x) fr)) fr.

Lemma map_put_put {A} k (a b : A) m : map_put k b (map_put k a m) = map_put k b m.
Proof.
  induction m as [|[k' c] m IH]; cbn [map_put].
  - rewrite Z.ltb_irrefl, Z.eqb_refl. reflexivity.
  - destruct (Z.ltb_spec k k') as [H|H].
    + cbn [map_put]. rewrite Z.ltb_irrefl, Z.eqb_refl. reflexivity.
    + destruct (Z.eqb_spec k k') as [->|Hne]; cbn [map_put].
      * rewrite Z.ltb_irrefl, Z.eqb_refl. reflexivity.
      * destruct (Z.ltb_spec k k'); [lia|]. destruct (Z.eqb_spec k k'); [contradiction|]. now rewrite IH.
Qed.

Lemma upd_upd {A} (l : list A) i x y : upd (upd l i x) i y = upd l i y.
Proof. revert i. induction l as [|a l IH]; intros [|i]; cbn [upd]; auto. now rewrite IH. Qed.

Lemma merge_loc_some ns p fn j l m fr : (Z.of_nat (l_stream l) < ns) ->
  nth_error m p = Some fr -> 0 <= j < Zlen (get_fm fn fr) ->
  merge_loc ns (Z.of_nat p) fn j (raw (Some l)) m =
  Ok (upd m p (map_put fn (upd (get_fm fn fr) (Z.to_nat j) (Some l)) fr)).
Proof.
  intros Hs Hp Hj. unfold merge_loc. cbn [raw].
  destruct (Z.eqb_spec (Z.of_nat (l_stream l)) (-1)); [lia|].
  destruct (Z.ltb_spec (Z.of_nat (l_stream l)) 0); [lia|]. destruct (Z.leb_spec ns (Z.of_nat (l_stream l))); [lia|].
  cbn [orb]. rewrite Nat2Z.id, Hp. fold (get_fm fn fr). unfold wr.
  destruct (Z.ltb_spec j 0); [lia|]. destruct (Z.leb_spec (Z.of_nat (List.length (get_fm fn fr))) j); [unfold Zlen in *; lia|].
  cbn [orb bind]. rewrite Nat2Z.id. destruct l; reflexivity.
Qed.

Lemma get_fm_put fn f fr : ordered fr -> get_fm fn (map_put fn f fr) = f.
Proof. intros H. unfold get_fm. rewrite map_get_put by auto. now rewrite Z.eqb_refl. Qed.

Lemma len4 {A} (l : list A) : Zlen l = 4 -> exists a b c d, l = [a; b; c; d].
Proof.
  intros H. destruct l as [|a [|b [|c [|d [|e l]]]]]; cbn in H; try discriminate; [eauto|].
  unfold Zlen in H. cbn [List.length] in H. lia.
Qed.

Lemma merge_frame_ok ns p fn fm m fr : nth_error m p = Some fr -> ordered fr ->
  Zlen fm = 4 -> Zlen (get_fm fn fr) = 4 -> (exists l, In (Some l) fm) ->
  (forall l, In (Some l) fm -> Z.of_nat (l_stream l) < ns) ->
  merge_frame ns (Z.of_nat p) (fn, map raw fm) m = Ok (upd m p (put_frame fr (fn, fm))).
Proof.
  intros Hp Ho Hf Hg [l0 Hl0] Hs. unfold merge_frame, for_loop. change (Z.to_nat 4) with 4%nat.
  cbn [for_from fst snd]. unfold put_frame. cbn [fst snd].
  destruct (len4 _ Hf) as (a & b & c & d & ->). destruct (len4 _ Hg) as (x & y & z & w & Eg).
  cbn [map]. unfold rd. change (0 + 1) with 1. change (1 + 1) with 2. change (2 + 1) with 3.
  cbn [Z.ltb Z.compare].
  change (Z.to_nat 0) with 0%nat. change (Z.to_nat 1) with 1%nat. change (Z.to_nat 2) with 2%nat. change (Z.to_nat 3) with 3%nat.
  cbn [nth_error bind]. rewrite Eg. unfold merge_fm. cbn [combine map fst snd].
  set (fin := map_put fn _ fr).
  (* state: nothing written yet, or the frame has slots f *)
  assert (HS : forall j l f, 0 <= j < 4 -> Zlen f = 4 -> Z.of_nat (l_stream l) < ns ->
    merge_loc ns (Z.of_nat p) fn j (raw (Some l)) (upd m p (map_put fn f fr)) =
    Ok (upd m p (map_put fn (upd f (Z.to_nat j) (Some l)) fr))).
  { intros j l f Hj Hlf Hls. rewrite (merge_loc_some ns p fn j l _ (map_put fn f fr)); auto.
    - now rewrite get_fm_put, map_put_put, upd_upd by auto.
    - erewrite nth_error_upd_same; eauto.
    - rewrite get_fm_put by auto. lia. }
  assert (H0 : forall j l, 0 <= j < 4 -> Z.of_nat (l_stream l) < ns ->
    merge_loc ns (Z.of_nat p) fn j (raw (Some l)) m =
    Ok (upd m p (map_put fn (upd [x; y; z; w] (Z.to_nat j) (Some l)) fr))).
  { intros j l Hj Hls. rewrite (merge_loc_some ns p fn j l m fr); auto; rewrite Eg; auto. }
  assert (HN : forall j mm, merge_loc ns (Z.of_nat p) fn j (raw None) mm = Ok mm) by reflexivity.
  destruct a as [a|], b as [b|], c as [c|], d as [d|];
    repeat (first [rewrite H0 by (first [lia | apply Hs; cbn [In]; tauto])
                  | rewrite HS by (first [lia | reflexivity | apply Hs; cbn [In]; tauto])
                  | rewrite HN ]; cbn [bind upd orloc Z.to_nat Pos.to_nat Pos.iter_op Init.Nat.add]);
    try reflexivity.
  cbn [In] in Hl0. exfalso. repeat (destruct Hl0 as [Hl0|Hl0]; [discriminate|]). auto.
Qed.

(** ** Merging a map *)

Definition fr_ok (fr : list (Z * fmap)) : Prop :=
  ordered fr /\ forall fn fm, map_get fn fr = Some fm -> Zlen fm = 4.
Definition src_ok (ns : Z) (s : list (Z * fmap)) : Prop :=
  ordered s /\ forall fn fm, In (fn, fm) s -> Zlen fm = 4 /\ (exists l, In (Some l) fm) /\
    forall l, In (Some l) fm -> Z.of_nat (l_stream l) < ns.

Lemma get_fm_len fn fr : fr_ok fr -> Zlen (get_fm fn fr) = 4.
Proof. intros [_ H]. unfold get_fm. destruct (map_get fn fr) eqn:E; [eauto|reflexivity]. Qed.

Lemma merge_fm_len a b : Zlen a = 4 -> Zlen b = 4 -> Zlen (merge_fm a b) = 4.
Proof. unfold merge_fm, Zlen. rewrite map_length, combine_length. lia. Qed.

Lemma put_frame_ok fr x : fr_ok fr -> Zlen (snd x) = 4 -> fr_ok (put_frame fr x).
Proof.
  intros H Hx. unfold put_frame. split; [apply map_put_ordered; apply H|].
  intros fn fm. rewrite map_get_put by apply H. destruct (_ =? fn).
  - intros E. injection E as <-. apply merge_fm_len; auto. apply get_fm_len; auto.
  - apply H.
Qed.

Lemma upd_same {A} (l : list A) i x : nth_error l i = Some x -> upd l i x = l.
Proof. revert i. induction l as [|a l IH]; intros [|i] H; cbn in *; try congruence. now rewrite IH. Qed.

Lemma src_tail ns x s : src_ok ns (x :: s) -> src_ok ns s.
Proof.
  intros [Ho H]. split; [unfold ordered in *; cbn [map] in Ho; apply StronglySorted_inv in Ho; apply Ho|].
  intros fn fm Hin. exact (H fn fm (or_intror Hin)).
Qed.

Lemma merge_pos_ok ns p s : src_ok ns s -> forall m fr, nth_error m p = Some fr -> fr_ok fr ->
  for_each (raw_frames s) (merge_frame ns (Z.of_nat p)) m = Ok (upd m p (fold_left put_frame s fr)).
Proof.
  induction s as [|[fn fm] s IH]; intros Hs m fr Hp Hf; cbn [raw_frames map for_each fold_left].
  - now rewrite upd_same.
  - destruct (proj2 Hs fn fm (or_introl eq_refl)) as (H4 & Hex & Hst). cbn [fst snd].
    rewrite (merge_frame_ok ns p fn fm m fr); auto; [|apply Hf|apply get_fm_len; auto].
    cbn [bind]. unfold raw_frames in IH.
    rewrite (IH (src_tail _ _ _ Hs) _ (put_frame fr (fn, fm))).
    + now rewrite upd_upd.
    + eapply nth_error_upd_same; eauto.
    + apply put_frame_ok; auto.
Qed.

Lemma fold_ok ns s : src_ok ns s -> forall fr, fr_ok fr -> fr_ok (fold_left put_frame s fr).
Proof.
  induction s as [|[fn fm] s IH]; intros Hs fr Hf; cbn [fold_left]; auto. apply IH; [eapply src_tail; eauto|].
  apply put_frame_ok; auto. apply (proj2 Hs fn fm). now left.
Qed.

Lemma map_get_cons {A} fn k (a : A) s : map_get fn ((k, a) :: s) = if k =? fn then Some a else map_get fn s.
Proof. reflexivity. Qed.

Lemma fold_get ns s : src_ok ns s -> forall fr, fr_ok fr -> forall fn,
  map_get fn (fold_left put_frame s fr) =
  match map_get fn s with Some fm => Some (merge_fm fm (get_fm fn fr)) | None => map_get fn fr end.
Proof.
  induction s as [|[k fm] s IH]; intros Hs fr Hf fn; cbn [fold_left]; auto.
  assert (H4 : Zlen fm = 4) by (apply (proj2 Hs k fm); now left).
  rewrite (IH (src_tail _ _ _ Hs) _ (put_frame_ok _ (k, fm) Hf H4)).
  rewrite map_get_cons. destruct (Z.eqb_spec k fn) as [->|Hne].
  - assert (map_get fn s = None) as ->.
    { apply map_get_none. intros Hin. destruct Hs as [Ho _]. unfold ordered in Ho. cbn [map fst] in Ho.
      apply StronglySorted_inv in Ho as [_ Ho]. rewrite Forall_forall in Ho. specialize (Ho _ Hin). lia. }
    unfold put_frame. cbn [fst snd]. rewrite map_get_put by apply Hf. now rewrite Z.eqb_refl.
  - assert (E : map_get fn (put_frame fr (k, fm)) = map_get fn fr).
    { unfold put_frame. cbn [fst snd]. rewrite map_get_put by apply Hf. destruct (Z.eqb_spec k fn); [contradiction|reflexivity]. }
    unfold get_fm. rewrite E. reflexivity.
Qed.

Lemma merge_map_ok ns src : (forall s, In s src -> src_ok ns s) -> forall i m,
  (i + List.length src <= List.length m)%nat -> (forall fr, In fr m -> fr_ok fr) ->
  exists m', merge_map ns (raw_map (partial_map (Z.of_nat i) src)) m = Ok m' /\
    List.length m' = List.length m /\
    forall p fr, nth_error m p = Some fr ->
      nth_error m' p = Some (if (i <=? p)%nat then fold_left put_frame (nth (p - i) src []) fr else fr).
Proof.
  induction src as [|s src IH]; intros Hs i m HL Hm.
  - exists m. cbn [partial_map raw_map map]. split; [reflexivity|]. split; auto. intros p fr Hp.
    destruct (Nat.leb_spec i p); auto. destruct (p - i)%nat; exact Hp.
  - cbn [List.length] in HL.
    assert (Ht : exists fr, nth_error m i = Some fr) by (destruct (nth_error m i) eqn:E; eauto; apply nth_error_None in E; lia).
    destruct Ht as [fr Hfr]. pose proof (Hm _ (nth_error_In _ _ Hfr)) as Hfo.
    pose proof (Hs s (or_introl eq_refl)) as Hso.
    set (m1 := upd m i (fold_left put_frame s fr)).
    assert (H1 : merge_map ns (raw_map (partial_map (Z.of_nat i) (s :: src))) m =
                 merge_map ns (raw_map (partial_map (Z.of_nat (S i)) src)) m1).
    { cbn [partial_map]. replace (Z.of_nat i + 1) with (Z.of_nat (S i)) by lia. destruct s as [|x s].
      - unfold m1. cbn [fold_left]. now rewrite upd_same.
      - cbn [raw_map map]. unfold merge_map at 1. cbn [for_each fst snd].
        rewrite (merge_pos_ok ns i (x :: s) Hso m fr Hfr Hfo). reflexivity. }
    rewrite H1. destruct (IH (fun s' H => Hs s' (or_intror H)) (S i) m1) as (m' & E & L & H).
    + unfold m1. rewrite upd_length. lia.
    + intros f Hf. apply In_nth_error in Hf as [q Hq]. unfold m1 in Hq. rewrite (nth_error_upd _ _ _ _ _ Hfr) in Hq.
      destruct (Nat.eqb_spec q i); [injection Hq as <-; eapply fold_ok; eauto|]. eapply Hm, nth_error_In; eauto.
    + exists m'. split; auto. split; [rewrite L; unfold m1; apply upd_length|]. intros p f Hp.
      destruct (Nat.eqb_spec p i) as [->|Hne].
      * assert (f = fr) by congruence. subst f.
        rewrite (H i (fold_left put_frame s fr)) by (unfold m1; eapply nth_error_upd_same; eauto).
        destruct (Nat.leb_spec (S i) i); [lia|]. rewrite Nat.leb_refl, Nat.sub_diag. reflexivity.
      * rewrite (H p f) by (unfold m1; rewrite (nth_error_upd _ _ _ _ _ Hfr); destruct (Nat.eqb_spec p i); congruence).
        destruct (Nat.leb_spec (S i) p), (Nat.leb_spec i p); try lia; auto.
        replace (p - i)%nat with (S (p - S i)) by lia. reflexivity.
Qed.

(** ** Maps of parts of the files *)

Section Parts.
Variables (g : geom) (fs : list sfile) (N : Z).
Hypothesis Hg : wf_geom g.
Hypothesis HW : wf_mfiles g N fs.

(** The map of the records in the files of [P]. *)
Definition map_of (P : nat -> Prop) (m : scanmap) : Prop :=
  Zlen m = N /\ forall p fms, nth_error m p = Some fms -> ordered fms /\
    (forall fn, (exists fm, map_get fn fms = Some fm) <->
       exists i k e, P i /\ record_at fs i k = Some e /\ s_pos (snd e) = Z.of_nat p /\ s_frame (snd e) = fn) /\
    forall fn fm, map_get fn fms = Some fm -> Zlen fm = 4 /\
      forall j l, 0 <= j < 4 -> (nth_error fm (Z.to_nat j) = Some (Some l) <->
        exists i k r, P i /\ record_at fs i k = Some (j, r) /\
          s_pos r = Z.of_nat p /\ s_frame r = fn /\
          l = mkLoc j i (Z.of_nat k * record_bytes g + 16)).

Lemma map_of_part lo lim m : map_part g fs N lo lim m <-> map_of (fun i => lo <= Z.of_nat i < lim) m.
Proof. reflexivity. Qed.

Lemma map_of_ext P Q m : (forall i, (i < List.length fs)%nat -> (P i <-> Q i)) -> map_of P m -> map_of Q m.
Proof.
  intros H [L M]. split; auto. intros p fms Hp. destruct (M p fms Hp) as (A & B & C). split; auto.
  assert (HQ : forall i k e, record_at fs i k = Some e -> (P i <-> Q i)).
  { intros i k e Hr. apply H. apply record_at_lt in Hr. unfold Zlen in Hr. lia. }
  split.
  - intros fn. rewrite B. split; intros (i & k & e & X & Y & Z'); exists i, k, e; split; auto; eapply HQ; eauto.
  - intros fn fm Hf. destruct (C fn fm Hf) as [D E]. split; auto. intros j l Hj. rewrite (E j l Hj).
    split; intros (i & k & e & X & Y & Z'); exists i, k, e; split; auto; eapply HQ; eauto.
Qed.

Lemma map_of_all m : map_of (fun _ => True) m -> map_final g fs N m.
Proof.
  intros [L M]. split; auto. intros p fms Hp. destruct (M p fms Hp) as (A & B & C). split; auto. split.
  - intros fn. rewrite B. split; [intros (i & k & e & _ & X)|intros (i & k & e & X)]; exists i, k, e; auto.
  - intros fn fm Hf. destruct (C fn fm Hf) as [D E]. split; auto. intros j l Hj. rewrite (E j l Hj).
    split; [intros (i & k & e & _ & X)|intros (i & k & e & X)]; exists i, k, e; auto.
Qed.

Lemma map_of_fr_ok P m fr : map_of P m -> In fr m -> fr_ok fr.
Proof.
  intros [_ M] Hin. apply In_nth_error in Hin as [p Hp]. destruct (M p fr Hp) as (A & _ & C).
  split; auto. intros fn fm Hf. apply (C fn fm Hf).
Qed.

Lemma in_slots (fm : fmap) l : Zlen fm = 4 -> In (Some l) fm -> exists j, 0 <= j < 4 /\ nth_error fm (Z.to_nat j) = Some (Some l).
Proof.
  intros H4 H. apply In_nth_error in H as [n Hn]. exists (Z.of_nat n). rewrite Nat2Z.id. split; auto.
  assert (n < List.length fm)%nat by (apply nth_error_Some; congruence). unfold Zlen in H4. lia.
Qed.

Lemma map_of_src_ok P m fr : map_of P m -> In fr m -> src_ok (Zlen fs) fr.
Proof.
  intros [_ M] Hin. apply In_nth_error in Hin as [p Hp]. destruct (M p fr Hp) as (A & B & C).
  split; auto. intros fn fm Hf. apply map_get_in in Hf; auto. destruct (C fn fm Hf) as [H4 D]. split; auto. split.
  - destruct (proj1 (B fn) (ex_intro _ fm Hf)) as (i & k & [j r] & X & Y & Z' & W). cbn [snd] in *.
    destruct (wf_rec g fs N HW _ _ _ Y) as (_ & Hj & _). cbn [fst] in Hj.
    exists (mkLoc j i (Z.of_nat k * record_bytes g + 16)). apply (nth_error_In fm (Z.to_nat j)). apply (D j); auto.
    exists i, k, r. auto.
  - intros l Hl. apply in_slots in Hl as (j & Hj & Hn); auto. apply D in Hn as (i & k & r & _ & Y & _ & _ & ->); auto.
    cbn [l_stream]. apply record_at_lt in Y. lia.
Qed.

Lemma nth_merge a b j : Zlen a = 4 -> Zlen b = 4 -> 0 <= j < 4 ->
  nth_error (merge_fm a b) (Z.to_nat j) =
  match nth_error a (Z.to_nat j), nth_error b (Z.to_nat j) with
  | Some x, Some y => Some (orloc x y) | _, _ => None end.
Proof.
  intros Ha Hb Hj. destruct (len4 _ Ha) as (a0 & a1 & a2 & a3 & ->). destruct (len4 _ Hb) as (b0 & b1 & b2 & b3 & ->).
  assert (j = 0 \/ j = 1 \/ j = 2 \/ j = 3) as [->|[->|[->| ->]]] by lia; reflexivity.
Qed.

Lemma merge_parts P Q m src : map_of P m -> map_of Q src ->
  exists m', merge_map (Zlen fs) (raw_map (partial_map 0 src)) m = Ok m' /\ map_of (fun i => P i \/ Q i) m'.
Proof.
  intros HP HQ. pose proof (proj1 HP) as LP. pose proof (proj1 HQ) as LQ.
  destruct (merge_map_ok (Zlen fs) src (fun s => map_of_src_ok Q src s HQ) 0 m) as (m' & E & L & H).
  { unfold Zlen in *. lia. }
  { intros fr. eapply map_of_fr_ok; eauto. }
  exists m'. split; [exact E|]. split; [unfold Zlen in *; lia|]. intros p res Hp.
  destruct (nth_error m p) as [fr|] eqn:Em.
  2: { apply nth_error_None in Em. assert (p < List.length m')%nat by (apply nth_error_Some; congruence). lia. }
  destruct (nth_error src p) as [s|] eqn:Es.
  2: { apply nth_error_None in Es. assert (p < List.length m)%nat by (apply nth_error_Some; congruence). unfold Zlen in *; lia. }
  specialize (H p fr Em). cbn [Nat.leb] in H. rewrite Nat.sub_0_r, (nth_error_nth _ _ _ Es) in H.
  rewrite H in Hp. injection Hp as <-.
  pose proof (map_of_src_ok _ _ _ HQ (nth_error_In _ _ Es)) as Hso.
  pose proof (map_of_fr_ok _ _ _ HP (nth_error_In _ _ Em)) as Hfo.
  destruct (proj2 HP p fr Em) as (A1 & B1 & C1). destruct (proj2 HQ p s Es) as (A2 & B2 & C2).
  split; [apply (fold_ok _ _ Hso _ Hfo)|]. split.
  - intros fn. rewrite (fold_get _ _ Hso _ Hfo). split.
    + intros [fm Hf]. destruct (map_get fn s) as [sf|] eqn:Eg.
      * destruct (proj1 (B2 fn) (ex_intro _ sf Eg)) as (i & k & e & X & Y). exists i, k, e. auto.
      * destruct (proj1 (B1 fn) (ex_intro _ fm Hf)) as (i & k & e & X & Y). exists i, k, e. auto.
    + intros (i & k & e & [X|X] & Y).
      * destruct (map_get fn s); [eauto|]. apply B1. exists i, k, e. auto.
      * destruct (proj2 (B2 fn)) as [sf Hsf]; [exists i, k, e; auto|]. rewrite Hsf. eauto.
  - intros fn fm. rewrite (fold_get _ _ Hso _ Hfo). destruct (map_get fn s) as [sf|] eqn:Eg.
    + intros Hf. injection Hf as <-. destruct (C2 fn sf Eg) as [L2 D2].
      assert (D1 : Zlen (get_fm fn fr) = 4) by (apply get_fm_len; auto).
      assert (S1 : forall j l, 0 <= j < 4 -> (nth_error (get_fm fn fr) (Z.to_nat j) = Some (Some l) <->
        exists i k r, P i /\ record_at fs i k = Some (j, r) /\ s_pos r = Z.of_nat p /\ s_frame r = fn /\
          l = mkLoc j i (Z.of_nat k * record_bytes g + 16))).
      { intros j l Hj. unfold get_fm. destruct (map_get fn fr) as [df|] eqn:Ed; [apply C1; auto|]. split.
        - assert (j = 0 \/ j = 1 \/ j = 2 \/ j = 3) as [->|[->|[->| ->]]] by lia; discriminate.
        - intros (i & k & r & X & Y & Z' & W & _). destruct (proj2 (B1 fn)) as [x Hx]; [|congruence].
          exists i, k, (j, r). auto. }
      split; [apply merge_fm_len; auto|]. intros j l Hj. rewrite nth_merge by auto.
      assert (exists x, nth_error sf (Z.to_nat j) = Some x) as [x Hx].
      { destruct (nth_error sf (Z.to_nat j)) eqn:En; eauto. apply nth_error_None in En. unfold Zlen in L2. lia. }
      assert (exists y, nth_error (get_fm fn fr) (Z.to_nat j) = Some y) as [y Hy].
      { destruct (nth_error (get_fm fn fr) (Z.to_nat j)) eqn:En; eauto. apply nth_error_None in En. unfold Zlen in D1. lia. }
      rewrite Hx, Hy. split.
      * intros Hl. injection Hl as Hl. destruct x as [x|]; cbn [orloc] in Hl.
        -- injection Hl as ->. apply D2 in Hx as (i & k & r & X & Y); auto. exists i, k, r. auto.
        -- subst. apply S1 in Hy as (i & k & r & X & Y); auto. exists i, k, r. auto.
      * intros (i & k & r & [X|X] & Y1 & Y2 & Y3 & ->).
        -- assert (Hy' : nth_error (get_fm fn fr) (Z.to_nat j) = Some (Some (mkLoc j i (Z.of_nat k * record_bytes g + 16)))).
           { apply S1; auto. exists i, k, r. auto. }
           rewrite Hy in Hy'. injection Hy' as ->. destruct x as [x|]; cbn [orloc]; auto.
           apply D2 in Hx as (i' & k' & r' & X' & Y1' & Y2' & Y3' & ->); auto.
           assert (Hk : mkey (j, r) = mkey (j, r')) by (unfold mkey; cbn [fst snd]; congruence).
           destruct (rec_unique g fs N HW _ _ _ _ _ _ Y1 Y1' Hk) as [-> ->]. reflexivity.
        -- assert (Hx' : nth_error sf (Z.to_nat j) = Some (Some (mkLoc j i (Z.of_nat k * record_bytes g + 16)))).
           { apply D2; auto. exists i, k, r. auto. }
           rewrite Hx in Hx'. injection Hx' as ->. reflexivity.
    + intros Hf. destruct (C1 fn fm Hf) as [L1 D1]. split; auto. intros j l Hj. rewrite (D1 j l Hj). split.
      * intros (i & k & r & X & Y). exists i, k, r. auto.
      * intros (i & k & r & [X|X] & Y1 & Y2 & Y3 & Y4); [exists i, k, r; auto|].
        destruct (proj2 (B2 fn)) as [x Hx]; [|congruence]. exists i, k, (j, r). auto.
Qed.

End Parts.
