(** The ranks together. *)
From Coq Require Import String ZArith List Lia Bool Permutation Sorting.Sorted.
From Verif Require Import Base BaseFacts PermFacts BlockModel StemProofs StreamModel StreamSpec
  StreamProofs SectorModel SectorSpec SectorProofs ThreadedModel ThreadedSpec ThreadedProofs
  MultipassModel MultipassSpec MultipassProofs MultipassFrames MultipassReader MpiModel MpiSpec
  MpiCodec MpiProofs.
Import ListNotations.
Open Scope Z_scope.
Local Arguments skipn : simpl never.
Local Arguments firstn : simpl never.
Local Arguments Z.mul : simpl never.
Local Arguments Z.add : simpl never.
Local Arguments Z.pow : simpl never.

(** ** Concatenated messages *)

Lemma displacements_ok sizes d : (forall s, In s sizes -> 0 <= s) -> d + zsum sizes < 2 ^ 31 ->
  exists ds, displacements d sizes = Ok ds /\ List.length ds = List.length sizes /\
    forall i x, nth_error ds i = Some x -> x = d + zsum (firstn i sizes).
Proof.
  revert d. induction sizes as [|s t IH]; intros d Hp Hd; cbn [displacements].
  - exists []. split; auto. split; auto. intros [|i] x H; discriminate.
  - change (zsum (s :: t)) with (s + zsum t) in Hd.
    assert (0 <= zsum t) by (apply zsum_nonneg; intros; apply Hp; now right).
    destruct (Z.leb_spec (2 ^ 31) (d + s)); [lia|].
    destruct (IH (d + s)) as (ds & E & L & H1); [intros; apply Hp; now right|lia|].
    rewrite E. cbn [bind]. exists (d :: ds). split; auto. split; [cbn [List.length]; lia|].
    intros [|i] x Hx; cbn in Hx.
    + injection Hx as <-. change (firstn 0 (s :: t)) with (@nil Z). cbn [zsum]. lia.
    + apply H1 in Hx. change (firstn (S i) (s :: t)) with (s :: firstn i t).
      change (zsum (s :: firstn i t)) with (s + zsum (firstn i t)). lia.
Qed.

Lemma view_concat msgs i m : nth_error msgs i = Some m ->
  view_of (concat msgs) (zsum (firstn i (map Zlen msgs))) (Zlen m) = m.
Proof.
  revert i. induction msgs as [|x msgs IH]; intros [|i] H; try discriminate.
  - injection H as ->. unfold view_of. change (firstn 0 (map Zlen (m :: msgs))) with (@nil Z).
    cbn [zsum concat]. change (Z.to_nat 0) with 0%nat. rewrite skipn_O. unfold Zlen. rewrite Nat2Z.id.
    rewrite firstn_app, Nat.sub_diag, firstn_all. change (firstn 0 (concat msgs)) with (@nil Z). apply app_nil_r.
  - cbn [nth_error] in H. specialize (IH i H). cbn [map concat].
    change (firstn (S i) (Zlen x :: map Zlen msgs)) with (Zlen x :: firstn i (map Zlen msgs)).
    cbn [zsum]. unfold view_of in *. rewrite <- IH at 2. f_equal.
    assert (0 <= zsum (firstn i (map Zlen msgs))).
    { apply zsum_nonneg. intros y Hy. apply In_nth_error in Hy as [k Hk].
      assert (In y (map Zlen msgs)).
      { apply nth_error_In with (n := k). rewrite <- Hk. clear - Hk. revert k Hk. generalize (map Zlen msgs) as l.
        induction i as [|i IH]; intros [|a l] [|k] Hk; try discriminate; auto. change (firstn (S i) (a :: l)) with (a :: firstn i l) in *. cbn in *. now apply IH. }
      apply in_map_iff in H0 as (z & <- & _). apply Zlen_nonneg. }
    rewrite Z2Nat.inj_add by (auto using Zlen_nonneg).
    unfold Zlen at 1. rewrite Nat2Z.id. rewrite skipn_app.
    rewrite skipn_all2 by lia. cbn [app]. f_equal. lia.
Qed.

Lemma int_size_small m : Zlen m < 2 ^ 31 -> int_size m = Zlen m.
Proof.
  intros H. pose proof (Zlen_nonneg m). unfold int_size, i32_of_u32, u32. rewrite (Z.mod_small _ (2 ^ 32)) by lia.
  destruct (Z.ltb_spec (Zlen m) (2 ^ 31)); lia.
Qed.

Lemma zsum_in (l : list Z) x : (forall y, In y l -> 0 <= y) -> In x l -> x <= zsum l.
Proof.
  intros Hp H. induction l as [|a l IH]; [contradiction|]. change (zsum (a :: l)) with (a + zsum l).
  assert (0 <= zsum l) by (apply zsum_nonneg; intros; apply Hp; now right).
  destruct H as [->|H]; [lia|]. assert (0 <= a) by (apply Hp; now left).
  assert (x <= zsum l) by (apply IH; auto; intros; apply Hp; now right). lia.
Qed.

Lemma sizes_small msgs : zsum (map Zlen msgs) < 2 ^ 31 ->
  (forall m, In m msgs -> int_size m = Zlen m) /\ map int_size msgs = map Zlen msgs.
Proof.
  intros H. assert (HI : forall m, In m msgs -> int_size m = Zlen m).
  { intros m Hm. apply int_size_small.
    assert (Zlen m <= zsum (map Zlen msgs)); [|lia].
    apply zsum_in; [|now apply in_map]. intros y Hy. apply in_map_iff in Hy as (z & <- & _). apply Zlen_nonneg. }
  split; auto. apply map_ext_in. auto.
Qed.

Lemma gatherv_ok msgs : zsum (map Zlen msgs) < 2 ^ 31 -> gatherv msgs = Ok (concat msgs).
Proof.
  intros H. destruct (sizes_small msgs H) as [HI _]. unfold gatherv.
  replace (existsb (fun m => int_size m <? 0) msgs) with false; auto. symmetry.
  destruct (existsb (fun m => int_size m <? 0) msgs) eqn:E; auto. apply existsb_exists in E as (m & Hm & Hl).
  rewrite HI in Hl by auto. pose proof (Zlen_nonneg m). destruct (Z.ltb_spec (Zlen m) 0); [lia|discriminate].
Qed.

(** ** Merging all ranks *)

Section Merge.
Variables (g : geom) (fs : list sfile) (N : Z).
Hypothesis Hg : wf_geom g.
Hypothesis HW : wf_mfiles g N fs.
Variable part : nat -> nat -> Prop.

Lemma merge_ranks_ok rank recv maps : forall i dss m P,
  List.length dss = List.length maps ->
  (forall k mk, nth_error maps k = Some mk -> map_of g fs N (part (i + k)) mk /\
     get_map (get_map get_locs) (view_of recv (fst (nth k dss (0, 0))) (snd (nth k dss (0, 0)))) =
       Ok (raw_map (partial_map 0 mk), [])) ->
  map_of g fs N P m ->
  exists m', merge_ranks (Zlen fs) rank (Z.of_nat i) recv dss m = Ok m' /\
    map_of g fs N (fun f => P f \/ exists k, (k < List.length maps)%nat /\ Z.of_nat (i + k) <> rank /\ part (i + k) f) m'.
Proof.
  induction maps as [|mk maps IH]; intros i dss m P HL HM HP.
  - destruct dss; [|discriminate]. exists m. split; auto. eapply map_of_ext; [|exact HP].
    intros f _. split; auto. intros [H|(k & Hk & _)]; auto. cbn in Hk. lia.
  - destruct dss as [|[d s] dss]; [discriminate|]. cbn [merge_ranks].
    assert (Hrest : forall k mk', nth_error maps k = Some mk' -> map_of g fs N (part (S i + k)) mk' /\
       get_map (get_map get_locs) (view_of recv (fst (nth k dss (0, 0))) (snd (nth k dss (0, 0)))) =
       Ok (raw_map (partial_map 0 mk'), [])).
    { intros k mk' Hk. destruct (HM (S k) mk' Hk) as [A B]. replace (S i + k)%nat with (i + S k)%nat by lia. auto. }
    replace (Z.of_nat i + 1) with (Z.of_nat (S i)) by lia.
    assert (HL' : List.length dss = List.length maps) by (cbn in HL; lia).
    destruct (Z.eqb_spec (Z.of_nat i) rank) as [E|Hne].
    + destruct (IH (S i) dss m P HL' Hrest HP) as (m' & E' & HM'). exists m'. split; auto.
      eapply map_of_ext; [|exact HM']. intros f _. split.
      * intros [H|(k & Hk & Hr & Hf)]; auto. right. exists (S k). replace (i + S k)%nat with (S i + k)%nat by lia.
        cbn [List.length]. split; auto. lia.
      * intros [H|(k & Hk & Hr & Hf)]; auto. destruct k as [|k]; [rewrite Nat.add_0_r in Hr; congruence|].
        right. exists k. replace (S i + k)%nat with (i + S k)%nat by lia. cbn [List.length] in Hk. split; auto. lia.
    + destruct (HM 0%nat mk eq_refl) as [A B]. cbn [nth fst snd] in B. rewrite Nat.add_0_r in A. rewrite B. cbn [bind].
      destruct (merge_parts g fs N HW P (part i) m mk HP A) as (m1 & E1 & H1). rewrite E1. cbn [bind].
      destruct (IH (S i) dss m1 _ HL' Hrest H1) as (m' & E' & HM'). exists m'. split; auto.
      eapply map_of_ext; [|exact HM']. intros f _. split.
      * intros [[H|H]|(k & Hk & Hr & Hf)]; auto.
        -- right. exists 0%nat. rewrite Nat.add_0_r. cbn [List.length]. split; auto. lia.
        -- right. exists (S k). replace (i + S k)%nat with (S i + k)%nat by lia. cbn [List.length]. split; auto. lia.
      * intros [H|(k & Hk & Hr & Hf)]; auto. destruct k as [|k]; [rewrite Nat.add_0_r in *; auto|].
        right. exists k. replace (S i + k)%nat with (i + S k)%nat by lia. cbn [List.length] in Hk. split; auto. lia.
Qed.

Lemma gather_ok maps rank m : zsum (map Zlen (map serialize_scan_map maps)) < 2 ^ 31 ->
  (forall k mk, nth_error maps k = Some mk -> map_of g fs N (part k) mk /\ small_map mk) ->
  nth_error maps rank = Some m ->
  exists m', gather_scan_map (Z.of_nat rank) (map serialize_scan_map maps) (Zlen fs) m = Ok m' /\
    map_of g fs N (fun f => exists k, (k < List.length maps)%nat /\ part k f) m'.
Proof.
  intros Hsz HM Hr. unfold gather_scan_map. set (msgs := map serialize_scan_map maps) in *.
  destruct (sizes_small msgs Hsz) as [_ ->].
  destruct (displacements_ok (map Zlen msgs) 0) as (ds & E & L & Hds).
  { intros s Hs. apply in_map_iff in Hs as (z & <- & _). apply Zlen_nonneg. }
  { lia. }
  rewrite E. cbn [bind]. rewrite gatherv_ok by auto. cbn [bind].
  assert (Lm : List.length (map Zlen msgs) = List.length maps) by (unfold msgs; now rewrite !map_length).
  destruct (merge_ranks_ok (Z.of_nat rank) (concat msgs) maps 0 (combine ds (map Zlen msgs)) m (part rank)) as (m' & E' & H').
  - rewrite combine_length. lia.
  - intros k mk Hk. destruct (HM k mk Hk) as [A B]. split; auto.
    rewrite combine_nth by lia. cbn [fst snd].
    assert (Hmk : nth_error msgs k = Some (serialize_scan_map mk)) by (unfold msgs; now rewrite nth_error_map', Hk).
    assert (Hk' : (k < List.length maps)%nat) by (apply nth_error_Some; congruence).
    assert (nth k ds 0 = zsum (firstn k (map Zlen msgs))) as ->.
    { specialize (Hds k (nth k ds 0)). rewrite Hds; [lia|]. apply nth_error_nth'. lia. }
    assert (nth k (map Zlen msgs) 0 = Zlen (serialize_scan_map mk)) as ->.
    { apply nth_error_nth. exact (map_nth_error Zlen _ _ Hmk). }
    rewrite view_concat by auto. rewrite <- (app_nil_r (serialize_scan_map mk)). apply scan_map_ok; auto.
  - apply HM; auto.
  - exists m'. split; auto. eapply map_of_ext; [|exact H']. intros f _. split.
    + intros [H|(k & Hk & _ & Hf)]; [|eauto]. exists rank. split; auto. apply nth_error_Some. congruence.
    + intros (k & Hk & Hf). destruct (Nat.eq_dec k rank) as [->|Hne]; auto. right. exists k. split; auto. split; auto.
      lia.
Qed.

(** ** Sizes of the messages *)

Lemma small_of P m : N < 2 ^ 32 -> Zlen (all_records fs) < 2 ^ 25 -> Zlen fs < 2 ^ 31 ->
  map_of g fs N P m -> small_map m.
Proof.
  intros HN Hrec Hfs HP. pose proof HP as [L M]. split; [lia|]. intros fr Hin.
  pose proof (map_of_src_ok g fs N HW P m fr HP Hin) as [Ho Hs].
  apply In_nth_error in Hin as [p Hp]. destruct (M p fr Hp) as (_ & B & C).
  assert (Hk : forall fn fm, In (fn, fm) fr -> 0 <= fn < 2 ^ 32).
  { intros fn fm Hf. apply map_get_in in Hf; auto. destruct (proj1 (B fn) (ex_intro _ fm Hf)) as (i & k & e & _ & Y & _ & <-).
    destruct (wf_rec g fs N HW _ _ _ Y) as ((_ & H & _) & _). exact H. }
  split; [|split; auto].
  - assert (Hnd : NoDup (map fst fr)).
    { clear - Ho. unfold ordered in Ho. induction Ho as [|a l Ho IH Hf]; constructor; auto.
      intros Hin. rewrite Forall_forall in Hf. specialize (Hf _ Hin). lia. }
    assert (Hi : incl (map fst fr) (map (fun e => s_frame (snd e)) (all_records fs))).
    { intros fn Hfn. apply in_map_iff in Hfn as ([fn' fm] & <- & Hf). apply map_get_in in Hf; auto.
      destruct (proj1 (B fn') (ex_intro _ fm Hf)) as (i & k & e & _ & Y & _ & E). cbn [fst]. rewrite <- E.
      apply (in_map (fun e => s_frame (snd e))). apply record_at_in. eauto. }
    pose proof (NoDup_incl_length Hnd Hi) as Hle. rewrite !map_length in Hle. unfold Zlen in *. lia.
  - intros fn fm Hf. split; [eauto|]. destruct (Hs fn fm Hf) as (H4 & _ & Hst). split; auto.
    intros l Hl. pose proof (Hst l Hl) as Hsl. apply map_get_in in Hf; auto. destruct (C fn fm Hf) as [_ D].
    apply in_slots in Hl as (j & Hj & Hn); auto. apply D in Hn as (i & k & r & _ & Y & _ & _ & ->); auto.
    cbn [l_stream] in Hsl. unfold small_loc. cbn [l_sector l_stream l_offset]. split; [lia|]. split; [lia|].
    assert (Hkb : Z.of_nat k < 2 ^ 25).
    { unfold record_at in Y. destruct (nth_error fs i) as [f|] eqn:Ef; [|discriminate].
      destruct (nth_error (snd f) k) as [r'|] eqn:Ek; [|discriminate].
      assert (k < List.length (snd f))%nat by (apply nth_error_Some; congruence).
      assert (Zlen (snd f) <= Zlen (all_records fs)); [|unfold Zlen in *; lia].
      apply nth_error_split in Ef as (l1 & l2 & -> & _). unfold all_records, Zlen.
      rewrite flat_map_app. cbn [flat_map]. rewrite !app_length, map_length. lia. }
    destruct Hg as (Hw1 & Hh1 & _ & _ & Hb). unfold record_bytes.
    assert (0 <= g_w g * g_h g / 4 <= g_w g * g_h g) by (split; [apply Z.div_pos; nia|apply Z.div_le_upper_bound; nia]).
    set (q := g_w g * g_h g / 4) in *. assert (q < 2 ^ 32) by lia.
    assert (0 <= Z.of_nat k * (16 + 2 * q) <= 2 ^ 25 * (16 + 2 * q)) by (split; [nia|apply Z.mul_le_mono_nonneg_r; lia]).
    lia.
Qed.

Lemma put_Zlen k v : Zlen (put k v) = Z.of_nat k.
Proof. unfold Zlen. now rewrite put_length. Qed.

Lemma put_list_len {A} (e : A -> bytes) l : Zlen (put_list e l) = 8 + zsum (map (fun x => Zlen (e x)) l).
Proof.
  unfold put_list. rewrite Zlen_app, put_Zlen. f_equal. induction l as [|x l IH]; cbn [flat_map map zsum]; [reflexivity|].
  rewrite Zlen_app. lia.
Qed.

Lemma locs_len fm : Zlen fm = 4 -> Zlen (put_locs fm) = 56.
Proof.
  intros H. destruct (len4 _ H) as (a & b & c & d & ->). unfold put_locs. cbn [flat_map].
  assert (HL : forall l, Zlen (put_loc l) = 14).
  { intros [l|]; cbn [put_loc]; rewrite !Zlen_app, !put_Zlen; reflexivity. }
  rewrite !Zlen_app, !HL. reflexivity.
Qed.

Lemma frames_len fr : (forall fn fm, In (fn, fm) fr -> Zlen fm = 4) ->
  Zlen (put_map put_locs fr) = 8 + 60 * Zlen fr.
Proof.
  intros H. unfold put_map. rewrite put_list_len. f_equal. induction fr as [|[fn fm] fr IH]; [reflexivity|].
  cbn [map zsum]. rewrite IH by (intros; apply (H fn0); now right). unfold put_pair. cbn [fst snd].
  rewrite Zlen_app, put_Zlen, locs_len by (apply (H fn); now left). rewrite Zlen_cons. lia.
Qed.

Lemma serialize_len m i : (forall fr, In fr m -> forall fn fm, In (fn, fm) fr -> Zlen fm = 4) ->
  zsum (map (fun x => Zlen (put_pair (put_map put_locs) x)) (partial_map i m)) <= 72 * zsum (map Zlen m).
Proof.
  revert i. induction m as [|fr m IH]; intros i H; cbn [partial_map map zsum]; [lia|].
  specialize (IH (i + 1) (fun fr' Hin => H fr' (or_intror Hin))).
  destruct fr as [|x fr]; [exact IH|]. cbn [map zsum]. unfold put_pair at 1. cbn [fst snd].
  rewrite Zlen_app, put_Zlen, frames_len by (apply H; now left). rewrite Zlen_cons. pose proof (Zlen_nonneg fr). lia.
Qed.

(** The frames of a map are no more than the records it was made of. *)
Definition slice (lo lim : Z) : list sfile := firstn (Z.to_nat (lim - lo)) (skipn (Z.to_nat lo) fs).

Lemma slice_nth lo lim i : 0 <= lo -> lo <= Z.of_nat i < lim ->
  nth_error (slice lo lim) (i - Z.to_nat lo) = nth_error fs i.
Proof.
  intros Hlo Hi. unfold slice.
  assert (HF : forall n (l : list sfile) k, (k < n)%nat -> nth_error (firstn n l) k = nth_error l k).
  { induction n as [|n IHn]; intros [|a l] [|k] Hk; try lia; auto. change (firstn (S n) (a :: l)) with (a :: firstn n l). cbn. apply IHn. lia. }
  rewrite HF by lia.
  assert (HS : forall n (l : list sfile) k, nth_error (skipn n l) k = nth_error l (n + k)).
  { induction n as [|n IHn]; intros l k; auto. destruct l as [|a l]; [change (skipn (S n) (@nil sfile)) with (@nil sfile); destruct k; reflexivity|].
    change (skipn (S n) (a :: l)) with (skipn n l). cbn. apply IHn. }
  rewrite HS. f_equal. lia.
Qed.

Fixpoint frame_keys (p : Z) (m : scanmap) : list (Z * Z) :=
  match m with
  | [] => []
  | fr :: t => map (pair p) (map fst fr) ++ frame_keys (p + 1) t
  end.

Lemma frame_keys_len p m : Zlen (frame_keys p m) = zsum (map Zlen m).
Proof.
  revert p. induction m as [|fr m IH]; intros p; cbn [frame_keys map zsum]; [reflexivity|].
  rewrite Zlen_app, IH. unfold Zlen at 1. rewrite !map_length. reflexivity.
Qed.

Lemma frame_keys_in p m q fn : In (q, fn) (frame_keys p m) ->
  p <= q /\ exists fr, nth_error m (Z.to_nat (q - p)) = Some fr /\ In fn (map fst fr).
Proof.
  revert p. induction m as [|fr m IH]; intros p H; [contradiction|]. cbn [frame_keys] in H.
  apply in_app_iff in H as [H|H].
  - apply in_map_iff in H as (x & E & H). injection E as <- <-. split; [lia|]. rewrite Z.sub_diag. exists fr. auto.
  - apply IH in H as (H1 & fr' & H2 & H3). split; [lia|]. exists fr'. split; auto.
    replace (Z.to_nat (q - p)) with (S (Z.to_nat (q - (p + 1)))) by lia. exact H2.
Qed.

Lemma frame_keys_nodup p m : (forall fr, In fr m -> NoDup (map fst fr)) -> NoDup (frame_keys p m).
Proof.
  revert p. induction m as [|fr m IH]; intros p H; cbn [frame_keys]; [constructor|].
  apply NoDup_app_intro.
  - apply FinFun.Injective_map_NoDup; [intros x y E; congruence|]. apply H. now left.
  - apply IH. intros fr' Hin. apply H. now right.
  - intros [q fn] H1 H2. apply in_map_iff in H1 as (x & E & _). injection E as <- <-.
    apply frame_keys_in in H2 as [H2 _]. lia.
Qed.

Lemma count_le lo lim m : 0 <= lo -> map_of g fs N (fun i => lo <= Z.of_nat i < lim) m ->
  zsum (map Zlen m) <= Zlen (all_records (slice lo lim)).
Proof.
  intros Hlo HP. pose proof HP as [L M]. rewrite <- (frame_keys_len 0).
  assert (Hnd : NoDup (frame_keys 0 m)).
  { apply frame_keys_nodup. intros fr Hin. apply In_nth_error in Hin as [p Hp]. destruct (M p fr Hp) as (Ho & _).
    clear - Ho. unfold ordered in Ho. induction Ho as [|a l Ho IH Hf]; constructor; auto.
    intros Hin. rewrite Forall_forall in Hf. specialize (Hf _ Hin). lia. }
  assert (Hi : incl (frame_keys 0 m) (map (fun e => (s_pos (snd e), s_frame (snd e))) (all_records (slice lo lim)))).
  { intros [q fn] H. apply frame_keys_in in H as (Hq & fr & Hn & Hin). rewrite Z.sub_0_r in Hn.
    destruct (M _ fr Hn) as (Ho & B & _). apply in_map_iff in Hin as ([fn' fm] & <- & Hin). apply map_get_in in Hin; auto. cbn [fst].
    destruct (proj1 (B fn') (ex_intro _ fm Hin)) as (i & k & e & Hr & Y & E1 & E2).
    apply in_map_iff. exists e. split; [f_equal; lia|]. apply record_at_in. exists (i - Z.to_nat lo)%nat, k.
    unfold record_at in *. now rewrite slice_nth. }
  pose proof (NoDup_incl_length Hnd Hi) as H. rewrite map_length in H. unfold Zlen. lia.
Qed.

Lemma message_len lo lim m : 0 <= lo -> map_of g fs N (fun i => lo <= Z.of_nat i < lim) m ->
  Zlen (serialize_scan_map m) <= 8 + 72 * Zlen (all_records (slice lo lim)).
Proof.
  intros Hlo HP. unfold serialize_scan_map, put_map at 1. rewrite put_list_len.
  pose proof (count_le lo lim m Hlo HP).
  assert (zsum (map (fun x => Zlen (put_pair (put_map put_locs) x)) (partial_map 0 m)) <= 72 * zsum (map Zlen m)); [|lia].
  apply serialize_len. intros fr Hin fn fm Hf. apply (proj2 (map_of_src_ok g fs N HW _ _ _ HP Hin) fn fm Hf).
Qed.
End Merge.

Lemma firstn_plus {A} a b (l : list A) : firstn (a + b) l = firstn a l ++ firstn b (skipn a l).
Proof.
  revert l. induction a as [|a IH]; intros l; [reflexivity|]. destruct l as [|x l].
  - change (skipn (S a) (@nil A)) with (@nil A). rewrite !firstn_nil. reflexivity.
  - change (skipn (S a) (x :: l)) with (skipn a l). change (firstn (S a + b) (x :: l)) with (x :: firstn (a + b) l).
    change (firstn (S a) (x :: l)) with (x :: firstn a l). cbn [app]. now rewrite IH.
Qed.

Lemma all_records_app a b : all_records (a ++ b) = all_records a ++ all_records b.
Proof. unfold all_records. apply flat_map_app. Qed.

Section Shares.
Variables (fs : list sfile) (W : nat).
Hypothesis HF : Zlen fs < 2 ^ 32.
Hypothesis HW0 : (0 < W)%nat.

Definition lo_of (k : nat) : Z := first_of (Zlen fs) (Z.of_nat W) (Z.of_nat k).
Definition lim_of (k : nat) : Z := lo_of k + size_of (Zlen fs) (Z.of_nat W) (Z.of_nat k).
Definition share_files (k : nat) : list sfile := slice fs (lo_of k) (lim_of k).

Lemma shares_total : zsum (map (fun k => Zlen (all_records (share_files k))) (seq 0 W)) = Zlen (all_records fs).
Proof.
  pose proof (Zlen_nonneg fs) as Hnn. set (per := Zlen fs / Z.of_nat W).
  assert (Hper : 0 <= per) by (apply Z.div_pos; lia).
  assert (HpW : Z.of_nat W * per <= Zlen fs) by (apply Z.mul_div_le; lia).
  assert (Hlo : forall k, (k < W)%nat -> lo_of k = Z.of_nat k * per).
  { intros k Hk. unfold lo_of, first_of. rewrite share_eq by lia. reflexivity. }
  assert (Hpre : forall k, (k <= W - 1)%nat ->
    zsum (map (fun k => Zlen (all_records (share_files k))) (seq 0 k)) = Zlen (all_records (firstn (Z.to_nat (Z.of_nat k * per)) fs))).
  { induction k as [|k IH]; intros Hk; [reflexivity|].
    rewrite seq_S, map_app, zsum_app, IH by lia. cbn [map zsum Nat.add].
    replace (Z.to_nat (Z.of_nat (S k) * per)) with (Z.to_nat (Z.of_nat k * per) + Z.to_nat per)%nat by nia.
    rewrite firstn_plus, all_records_app, Zlen_app. unfold share_files, slice.
    assert (lim_of k - lo_of k = per) as ->.
    { unfold lim_of, size_of. rewrite share_eq by lia. cbn [snd]. destruct (Z.eqb_spec (Z.of_nat k) (Z.of_nat W - 1)); lia. }
    rewrite Hlo by lia. lia. }
  replace W with (S (W - 1)) at 1 by lia. rewrite seq_S, map_app, zsum_app, Hpre by lia. cbn [map zsum Nat.add].
  unfold share_files, slice. rewrite Hlo by lia.
  assert (lim_of (W - 1) - Z.of_nat (W - 1) * per = Zlen fs - Z.of_nat (W - 1) * per) as ->.
  { unfold lim_of, size_of. rewrite Hlo by lia. rewrite share_eq by lia. cbn [snd].
    destruct (Z.eqb_spec (Z.of_nat (W - 1)) (Z.of_nat W - 1)); [|lia]. fold per. lia. }
  assert (Hb : Z.of_nat (W - 1) * per <= Zlen fs) by nia.
  assert (E : firstn (Z.to_nat (Zlen fs - Z.of_nat (W - 1) * per)) (skipn (Z.to_nat (Z.of_nat (W - 1) * per)) fs) =
              skipn (Z.to_nat (Z.of_nat (W - 1) * per)) fs).
  { apply firstn_all2. rewrite skipn_length. unfold Zlen in *. lia. }
  rewrite E, Z.add_0_r, <- Zlen_app, <- all_records_app, firstn_skipn. reflexivity.
Qed.
End Shares.

Lemma zsum_index {A} (f : A -> Z) (h : nat -> Z) l :
  (forall i x, nth_error l i = Some x -> f x <= h i) ->
  zsum (map f l) <= zsum (map h (seq 0 (List.length l))).
Proof.
  revert h. induction l as [|a l IH]; intros h H; cbn [map zsum List.length seq]; [lia|].
  pose proof (H 0%nat a eq_refl). specialize (IH (fun i => h (S i)) (fun i x Hx => H (S i) x Hx)).
  rewrite <- seq_shift, map_map. lia.
Qed.

Lemma zip_run_ok {A B C} (f : A -> B -> option (outcome C)) l : forall (Q : nat -> C -> Prop) m res,
  zip_run f l m = Some res ->
  (forall i a b o, nth_error l i = Some a -> nth_error m i = Some b -> f a b = Some o ->
     exists c, o = Ok c /\ Q i c) ->
  exists cs, res = Ok cs /\ List.length cs = List.length m /\ forall i c, nth_error cs i = Some c -> Q i c.
Proof.
  induction l as [|a l IH]; intros Q [|b m] res H HQ; cbn [zip_run] in H; try discriminate.
  - injection H as <-. exists []. split; auto. split; auto. intros [|i] c Hc; discriminate.
  - destruct (f a b) as [o|] eqn:Ef; [|discriminate].
    destruct (HQ 0%nat a b o eq_refl eq_refl Ef) as (c & -> & Hc).
    destruct (zip_run f l m) as [o|] eqn:Er; [|discriminate].
    destruct (IH (fun i => Q (S i)) m o Er (fun i => HQ (S i))) as (cs & -> & L & Hcs).
    injection H as <-. exists (c :: cs). split; auto. split; [cbn; lia|].
    intros [|i] x Hx; [now injection Hx as <-|eauto].
Qed.

Lemma zip_run_can {A B C} (f : A -> B -> option (outcome C)) m :
  (forall b, In b m -> exists a c, f a b = Some (Ok c)) ->
  exists l cs, zip_run f l m = Some (Ok cs).
Proof.
  induction m as [|b m IH]; intros H; [exists [], []; reflexivity|].
  destruct (H b (or_introl eq_refl)) as (a & c & E). destruct IH as (l & cs & El); [intros; apply H; now right|].
  exists (a :: l), (c :: cs). cbn [zip_run]. now rewrite E, El.
Qed.

(** ** One rank *)

Section World.
Variables (g : geom) (fs : list sfile) (r0 : srec) (ws : list Z).
Hypothesis HG : good_world g fs r0 ws.
Let N := s_sw r0 * s_sh r0.
Let W := List.length ws.

Lemma W_pos : (0 < W)%nat.
Proof. destruct HG as (H & _). unfold W. destruct ws; [congruence|cbn; lia]. Qed.

Let Hg : wf_geom g.
Proof. destruct HG as (Hne & H & _). destruct ws as [|w t]; [congruence|]. apply (H w). now left. Qed.
Let HW : wf_mfiles g N fs.
Proof. destruct HG as (Hne & H & _). destruct ws as [|w t]; [congruence|]. apply (H w). now left. Qed.
Let HF : Zlen fs < 2 ^ 31.
Proof. destruct HG as (Hne & H & _). destruct ws as [|w t]; [congruence|]. apply (H w). now left. Qed.
Let HNb : 0 < N < 2 ^ 32 - 2 ^ 17 + 2.
Proof. destruct HG as (Hne & H & _). destruct ws as [|w t] eqn:E; [congruence|]. apply (N_bound g fs r0 w). apply H. now left. Qed.

Definition flo (k : nat) := lo_of fs W k.
Definition flim (k : nat) := lim_of fs W k.
Definition plo (k : nat) := first_of N (Z.of_nat W) (Z.of_nat k).
Definition plim (k : nat) := plo k + size_of N (Z.of_nat W) (Z.of_nat k).
Definition fpart (k i : nat) : Prop := flo k <= Z.of_nat i < flim k.

Lemma flo_range k : (k < W)%nat -> 0 <= flo k <= flim k /\ flim k <= Zlen fs.
Proof.
  intros Hk. unfold flo, flim, lim_of, lo_of. pose proof (Zlen_nonneg fs).
  destruct (share_range (Zlen fs) (Z.of_nat W) (Z.of_nat k)) as (A & B & C); lia.
Qed.
Lemma plo_range k : (k < W)%nat -> 0 <= plo k <= plim k /\ plim k <= N.
Proof.
  intros Hk. unfold plim, plo.
  destruct (share_range N (Z.of_nat W) (Z.of_nat k)) as (A & B & C); lia.
Qed.

Definition rinit (k : nat) (w : Z) : mreader :=
  mkMR (map (fun f => mkMS (fst f) (snd f) 0 false) (map encode_sfile fs)) [] 0 0 0 (flo k)
       (flim k - flo k) 0 (0, 0) 0 (Z.to_nat w) [].

Lemma mpi_reader_init threads hw k : (k < W)%nat -> In (init_threads threads hw) ws ->
  mpi_reader (map encode_sfile fs) threads hw (Z.of_nat W) (Z.of_nat k) = Ok (rinit k (init_threads threads hw)).
Proof.
  intros Hk Hin. unfold mpi_reader.
  rewrite (init_opens g fs r0 (init_threads threads hw) (proj1 (proj2 HG) _ Hin)) by reflexivity.
  cbn [bind]. unfold init. cbn [mr_streams].
  assert (Zlen (map (fun f => mkMS (fst f) (snd f) 0 false) (map encode_sfile fs)) = Zlen fs) as -> by (unfold Zlen; now rewrite !map_length).
  destruct (share (Zlen fs) (Z.of_nat W) (Z.of_nat k)) as [o s] eqn:E.
  unfold rinit, flim, flo, lim_of, lo_of, first_of, size_of. rewrite E. cbn [fst snd].
  f_equal. cbn [mr_map mr_scan mr_offset mr_size mr_nframes mr_dims mr_processed mr_threads mr_futures]. f_equal. lia.
Qed.

(** A rank after its header pass, before the exchange. *)
Record rpart (k : nat) (w : Z) (r : mreader) : Prop := {
  rp_str : streams_ok fs (mr_streams r);
  rp_map : map_of g fs N (fpart k) (mr_map r);
  rp_dims : mr_dims r = (s_sw r0, s_sh r0);
  rp_scan : mr_scan r = s_scan r0;
  rp_thr : mr_threads r = Z.to_nat w;
  rp_frames : mr_nframes r = 0;
  rp_fut : mr_futures r = [] }.

Lemma rank_scan k w cs o : nth_error ws k = Some w -> initialize_scan_map g cs (rinit k w) = Some o ->
  exists r, o = Ok r /\ rpart k w r.
Proof.
  intros Hk H. assert (Hw : good_scan g fs r0 w) by (apply HG; eapply nth_error_In; eauto).
  assert (Hkw : (k < W)%nat) by (apply nth_error_Some; congruence).
  destruct (flo_range k Hkw) as [HO HL].
  unfold initialize_scan_map in H.
  assert (E1 : read_first_header (rinit k w) =
    Ok (mkMR (map (fun f => mkMS (fst f) (snd f) 0 false) (map encode_sfile fs)) [] (s_scan r0) 0 N (flo k)
       (flim k - flo k) 0 (s_sw r0, s_sh r0) 0 (Z.to_nat w) [])).
  { pose proof (read_first_ok g fs r0 w Hw) as E. unfold read_first_header, init, first, rinit in *.
    cbn [mr_size mr_streams mr_map mr_scan mr_offset mr_soffset mr_ssize mr_nframes mr_dims mr_processed mr_threads mr_futures] in *.
    change (negb (0 =? 0)) with false in *. cbv iota in *.
    destruct (map (fun f => mkMS (fst f) (snd f) 0 false) (map encode_sfile fs)) as [|st t]; [discriminate|].
    destruct (sector_header (ms_rest st)) as [[h rest]| | |]; try discriminate. cbn [bind] in *.
    injection E as E1 E2 E3 E4. rewrite E1, E2, E3, E4. reflexivity. }
  rewrite E1 in H. cbn [mr_map mr_soffset mr_ssize mr_streams mr_size mr_threads mr_futures] in H.
  assert (u32 (flo k + (flim k - flo k)) = flim k) as E2 by (unfold u32; rewrite Z.mod_small; lia).
  rewrite E2 in H.
  replace (mkHS (map (fun f => mkMS (fst f) (snd f) 0 false) (map encode_sfile fs)) (flo k) (repeat [] (Z.to_nat N)) (repeat HCheck (Z.to_nat w)))
    with (hstart fs N (flo k) (Z.to_nat w)) in H by (unfold hstart; rewrite map_map; reflexivity).
  destruct (hrun g (flim k) cs (hstart fs N (flo k) (Z.to_nat w))) as [o'|] eqn:E; [|discriminate].
  assert (Hb : flim k + Z.of_nat (Z.to_nat w) < 2 ^ 32) by (destruct Hw as (_ & _ & _ & _ & Hw); lia).
  destruct (hrun_ok g fs N Hg HW (flo k) (flim k) HO HL (Z.to_nat w) cs Hb _ _ _
     (hstart_ok g fs N (flo k) (flim k) HO (Z.to_nat w) ltac:(lia)) E) as (s & dn & -> & I).
  destruct (hfinished s) eqn:Ef; [|discriminate]. cbn [app] in H. rewrite get_all_true in H. cbn [bind] in H. unfold lift in H.
  injection H as <-. eexists. split; [reflexivity|].
  constructor; cbn [mr_streams mr_map mr_dims mr_scan mr_threads mr_nframes mr_futures]; auto.
  - split; [rewrite map_length; apply (h_ns _ _ _ _ _ _ _ _ I)|]. intros n f Hn.
    destruct (h_str _ _ _ _ _ _ _ _ I n f Hn) as [p Hp]. exists 0. unfold stream_is in *. rewrite nth_error_map', Hp. reflexivity.
  - apply (hfinal g fs N (flo k) (flim k) (Z.to_nat w) dn s); auto. destruct Hw as (_ & _ & _ & _ & Hw). lia.
Qed.

Lemma rank_can_scan k w : nth_error ws k = Some w -> exists cs r, initialize_scan_map g cs (rinit k w) = Some (Ok r).
Proof.
  intros Hk. assert (Hw : good_scan g fs r0 w) by (apply HG; eapply nth_error_In; eauto).
  assert (Hkw : (k < W)%nat) by (apply nth_error_Some; congruence).
  destruct (flo_range k Hkw) as [HO HL].
  destruct (hrun_can_finish g fs r0 w Hw (flo k) (flim k) HO HL _ _
     (hstart_ok g fs N (flo k) (flim k) HO (Z.to_nat w) ltac:(lia))) as (cs & s & Hr & Hf).
  exists cs. unfold initialize_scan_map.
  assert (E1 : read_first_header (rinit k w) =
    Ok (mkMR (map (fun f => mkMS (fst f) (snd f) 0 false) (map encode_sfile fs)) [] (s_scan r0) 0 N (flo k)
       (flim k - flo k) 0 (s_sw r0, s_sh r0) 0 (Z.to_nat w) [])).
  { pose proof (read_first_ok g fs r0 w Hw) as E. unfold read_first_header, init, first, rinit in *.
    cbn [mr_size mr_streams mr_map mr_scan mr_offset mr_soffset mr_ssize mr_nframes mr_dims mr_processed mr_threads mr_futures] in *.
    change (negb (0 =? 0)) with false in *. cbv iota in *.
    destruct (map (fun f => mkMS (fst f) (snd f) 0 false) (map encode_sfile fs)) as [|st t]; [discriminate|].
    destruct (sector_header (ms_rest st)) as [[h rest]| | |]; try discriminate. cbn [bind] in *.
    injection E as E1 E2 E3 E4. rewrite E1, E2, E3, E4. reflexivity. }
  rewrite E1. cbn [mr_map mr_soffset mr_ssize mr_streams mr_size mr_threads mr_futures].
  assert (u32 (flo k + (flim k - flo k)) = flim k) as E2 by (unfold u32; rewrite Z.mod_small; lia).
  rewrite E2.
  replace (mkHS (map (fun f => mkMS (fst f) (snd f) 0 false) (map encode_sfile fs)) (flo k) (repeat [] (Z.to_nat N)) (repeat HCheck (Z.to_nat w)))
    with (hstart fs N (flo k) (Z.to_nat w)) by (unfold hstart; rewrite map_map; reflexivity).
  rewrite Hr, Hf. cbn [app]. rewrite get_all_true. cbn [bind]. eexists. reflexivity.
Qed.

(** A rank after the exchange. *)
Record rready (k : nat) (w : Z) (r : mreader) : Prop := {
  rr_str : streams_ok fs (mr_streams r);
  rr_map : map_final g fs N (mr_map r);
  rr_off : mr_offset r = plo k;
  rr_size : mr_size r = plim k - plo k;
  rr_dims : mr_dims r = (s_sw r0, s_sh r0);
  rr_scan : mr_scan r = s_scan r0;
  rr_thr : mr_threads r = Z.to_nat w;
  rr_frames : mr_nframes r = 0 \/ mr_nframes r = max_frames (mr_map r);
  rr_fut : mr_futures r = [];
  rr_proc : mr_processed r = plo k }.

Lemma collect_all_ok world msgs rs : forall k (Q : nat -> mreader -> Prop),
  (forall i r, nth_error rs i = Some r -> exists r', mpi_collect world (k + Z.of_nat i) msgs r = Ok r' /\ Q i r') ->
  exists rs', collect_all world k msgs rs = Ok rs' /\ List.length rs' = List.length rs /\
    forall i r', nth_error rs' i = Some r' -> Q i r'.
Proof.
  induction rs as [|r rs IH]; intros k Q H; cbn [collect_all].
  - exists []. split; auto. split; auto. intros [|i] r' Hr; discriminate.
  - destruct (H 0%nat r eq_refl) as (r' & E & Hq). rewrite Z.add_0_r in E. rewrite E. cbn [bind].
    destruct (IH (k + 1) (fun i => Q (S i))) as (rs' & E' & L & H').
    { intros i x Hx. destruct (H (S i) x Hx) as (x' & Ex & Hqx). exists x'. split; auto. rewrite <- Ex. f_equal. lia. }
    rewrite E'. cbn [bind]. exists (r' :: rs'). split; auto. split; [cbn; lia|].
    intros [|i] x Hx; [now injection Hx as <-|eauto].
Qed.

Lemma collected rs1 : List.length rs1 = W ->
  (forall k r, nth_error rs1 k = Some r -> exists w, nth_error ws k = Some w /\ rpart k w r) ->
  exists rs', collect_all (Z.of_nat W) 0 (map (fun r => serialize_scan_map (mr_map r)) rs1) rs1 = Ok rs' /\
    List.length rs' = W /\ forall k r, nth_error rs' k = Some r -> exists w, nth_error ws k = Some w /\ rready k w r.
Proof.
  intros HL H. set (maps := map mr_map rs1).
  assert (Em : map (fun r => serialize_scan_map (mr_map r)) rs1 = map serialize_scan_map maps) by (unfold maps; now rewrite map_map).
  rewrite Em. pose proof W_pos as HWp.
  assert (Hrec : Zlen (all_records fs) < 2 ^ 25).
  { destruct HG as (_ & _ & Hz). pose proof (Zlen_nonneg ws). lia. }
  assert (Hparts : forall k mk, nth_error maps k = Some mk -> map_of g fs N (fpart k) mk /\ small_map mk).
  { intros k mk Hk. unfold maps in Hk. rewrite nth_error_map' in Hk. destruct (nth_error rs1 k) as [r|] eqn:Er; [|discriminate].
    injection Hk as <-. destruct (H k r Er) as (w & _ & P). pose proof (rp_map _ _ _ P) as HM. split; auto.
    eapply small_of; eauto. lia. }
  assert (Lmaps : List.length maps = W) by (unfold maps; now rewrite map_length).
  assert (Hsz : zsum (map Zlen (map serialize_scan_map maps)) < 2 ^ 31).
  { rewrite map_map.
    assert (Hle : zsum (map (fun m => Zlen (serialize_scan_map m)) maps) <=
            zsum (map (fun k => 8 + 72 * Zlen (all_records (share_files fs W k))) (seq 0 (List.length maps)))).
    { apply zsum_index. intros k mk Hk. destruct (Hparts k mk Hk) as [A _].
      assert (k < W)%nat by (rewrite <- Lmaps; apply nth_error_Some; congruence).
      destruct (flo_range k H0) as [B _]. unfold share_files.
      exact (message_len g fs N HW (flo k) (flim k) mk (proj1 B) A). }
    rewrite Lmaps in Hle.
    assert (E : zsum (map (fun k => 8 + 72 * Zlen (all_records (share_files fs W k))) (seq 0 W)) =
            8 * Z.of_nat W + 72 * zsum (map (fun k => Zlen (all_records (share_files fs W k))) (seq 0 W))).
    { assert (Hgen : forall (f : nat -> Z) l, zsum (map (fun k => 8 + 72 * f k) l) = 8 * Z.of_nat (List.length l) + 72 * zsum (map f l)).
      { intros f l. induction l as [|a l IH]; cbn [map zsum List.length]; lia. }
      rewrite (Hgen (fun k => Zlen (all_records (share_files fs W k))) (seq 0 W)), seq_length. reflexivity. }
    rewrite E, shares_total in Hle by lia. destruct HG as (_ & _ & Hz). unfold Zlen in Hz at 1. fold W in Hz. lia. }
  destruct (collect_all_ok (Z.of_nat W) (map serialize_scan_map maps) rs1 0
      (fun k r => exists w, nth_error ws k = Some w /\ rready k w r)) as (rs' & E' & L' & H').
  - intros k r Hk. destruct (H k r Hk) as (w & Hkw & P). unfold mpi_collect. rewrite Z.add_0_l.
    assert (Hmk : nth_error maps k = Some (mr_map r)) by (unfold maps; now rewrite nth_error_map', Hk).
    assert (Hkb : (k < W)%nat) by (rewrite <- HL; apply nth_error_Some; congruence).
    assert (Zlen (mr_streams r) = Zlen fs) as -> by (unfold Zlen; now rewrite (proj1 (rp_str _ _ _ P))).
    destruct (gather_ok g fs N HW fpart maps k (mr_map r) Hsz Hparts Hmk) as (m' & -> & Hm'). cbn [bind].
    destruct (share (Zlen m') (Z.of_nat W) (Z.of_nat k)) as [o s] eqn:Es.
    assert (Hfin : map_final g fs N m').
    { apply map_of_all. eapply map_of_ext; [|exact Hm']. intros i Hi. split; auto. intros _.
      destruct (share_covers (Zlen fs) (Z.of_nat W) (Z.of_nat i)) as (x & Hx & Hr); try (unfold Zlen in *; lia).
      exists (Z.to_nat x). rewrite Lmaps. split; [lia|]. unfold fpart, flim, flo, lim_of, lo_of. rewrite Z2Nat.id by lia. auto. }
    rewrite (proj1 Hfin) in Es.
    eexists. split; [reflexivity|]. exists w. split; auto.
    assert (plo k = o /\ plim k - plo k = s) as [E1 E2].
    { unfold plim, plo, first_of, size_of. fold N. rewrite Es. cbn [fst snd]. lia. }
    constructor; cbn [mr_streams mr_map mr_offset mr_size mr_dims mr_scan mr_threads mr_nframes mr_futures mr_processed]; auto; try apply P.
    left. apply P.
  - exists rs'. rewrite L'. auto.
Qed.

Definition world_init (rs : list mreader) : Prop :=
  List.length rs = W /\ forall k r, nth_error rs k = Some r -> exists w, nth_error ws k = Some w /\ r = rinit k w.
Definition world_ready (rs : list mreader) : Prop :=
  List.length rs = W /\ forall k r, nth_error rs k = Some r -> exists w, nth_error ws k = Some w /\ rready k w r.

Lemma forallb_false {A} (f : A -> bool) l : l <> [] -> (forall x, In x l -> f x = false) -> forallb f l = false.
Proof. intros Hne H. destruct l as [|a l]; [congruence|]. cbn [forallb]. rewrite H by now left. reflexivity. Qed.
Lemma forallb_true {A} (f : A -> bool) l : (forall x, In x l -> f x = true) -> forallb f l = true.
Proof. intros H. apply forallb_forall. auto. Qed.

Lemma ready_nonempty m : map_final g fs N m -> m <> [].
Proof. intros [H _] ->. unfold Zlen in H. cbn in H. lia. Qed.

Lemma rs_nonempty {A} (rs : list A) : List.length rs = W -> rs <> [].
Proof. intros H ->. pose proof W_pos. cbn in H. lia. Qed.

Lemma world_scan css rs res : world_init rs -> mpi_initialize g css rs = Some res ->
  exists rs', res = Ok rs' /\ world_ready rs'.
Proof.
  intros [HL HR] H. unfold mpi_initialize in H.
  destruct (zip_run (initialize_scan_map g) css rs) as [o|] eqn:E; [|discriminate].
  destruct (zip_run_ok (initialize_scan_map g) css (fun k r => exists w, nth_error ws k = Some w /\ rpart k w r) rs o E) as (rs1 & -> & L1 & H1).
  { intros k cs r o' Hcs Hr Ho. destruct (HR k r Hr) as (w & Hw & ->).
    destruct (rank_scan k w cs o' Hw Ho) as (r' & -> & P). exists r'. eauto. }
  rewrite forallb_false in H.
  2: { intros C. apply map_eq_nil in C. revert C. now apply rs_nonempty. }
  2: { intros b Hb. apply in_map_iff in Hb as (r & <- & Hr). apply In_nth_error in Hr as [k Hk].
       destruct (HR k r Hk) as (w & _ & ->). reflexivity. }
  rewrite forallb_true in H.
  2: { intros b Hb. apply in_map_iff in Hb as (r & <- & Hr). apply In_nth_error in Hr as [k Hk].
       destruct (HR k r Hk) as (w & _ & ->). reflexivity. }
  assert (Zlen rs = Z.of_nat W) as EW by (unfold Zlen; now rewrite HL). rewrite EW in H.
  destruct (collected rs1 ltac:(lia) H1) as (rs' & E' & L' & H'). rewrite E' in H. injection H as <-.
  exists rs'. split; auto. split; auto.
Qed.

Lemma world_can_scan rs : world_init rs -> exists css rs', mpi_initialize g css rs = Some (Ok rs').
Proof.
  intros [HL HR]. destruct (zip_run_can (initialize_scan_map g) rs) as (css & rs1 & E).
  { intros r Hin. apply In_nth_error in Hin as [k Hk]. destruct (HR k r Hk) as (w & Hw & ->). now apply rank_can_scan. }
  exists css.
  destruct (mpi_initialize g css rs) as [o|] eqn:Em.
  - destruct (world_scan css rs o (conj HL HR) Em) as (rs' & -> & _). eauto.
  - exfalso. unfold mpi_initialize in Em. rewrite E in Em. rewrite forallb_false in Em.
    2: { intros C. apply map_eq_nil in C. revert C. now apply rs_nonempty. }
    2: { intros b Hb. apply in_map_iff in Hb as (r & <- & Hr). apply In_nth_error in Hr as [k Hk].
         destruct (HR k r Hk) as (w & _ & ->). reflexivity. }
    rewrite forallb_true in Em; [discriminate|].
    intros b Hb. apply in_map_iff in Hb as (r & <- & Hr). apply In_nth_error in Hr as [k Hk].
    destruct (HR k r Hk) as (w & _ & ->). reflexivity.
Qed.

(** ** The second pass of a rank *)

Definition delivered_by (k : nat) (bs : list block) : Prop :=
  exists ks, NoDup ks /\ (forall x, In x ks <-> plo k <= fst x < plim k /\ has_frame fs (fst x) (snd x)) /\
    Permutation bs (map (fun x => multi_block g r0 fs (fst x) (snd x)) ks).

Lemma rank_env k w r : (k < W)%nat -> rready k w r ->
  mkPE (mr_map r) (mr_dims r) (mr_scan r) (u32 (mr_offset r + mr_size r)) = env r0 (mr_map r) (plim k).
Proof.
  intros Hk Y. rewrite (rr_off _ _ _ Y), (rr_size _ _ _ Y), (rr_dims _ _ _ Y), (rr_scan _ _ _ Y).
  destruct (plo_range k Hk). replace (plo k + (plim k - plo k)) with (plim k) by lia.
  unfold u32. rewrite Z.mod_small by lia. reflexivity.
Qed.

Lemma rank_pass k w r cs o : nth_error ws k = Some w -> rready k w r -> second_pass g cs r = Some o ->
  exists bs l r', o = Ok (bs, Ok l, r') /\ delivered_by k bs.
Proof.
  intros Hw Y H. assert (Hk : (k < W)%nat) by (apply nth_error_Some; congruence).
  assert (HS : good_scan g fs r0 w) by (apply HG; eapply nth_error_In; eauto).
  destruct (plo_range k Hk) as [HO HL].
  unfold second_pass in H. rewrite (rank_env k w r Hk Y), (rr_thr _ _ _ Y), (rr_proc _ _ _ Y), (rr_fut _ _ _ Y) in H.
  destruct (prun g (env r0 (mr_map r) (plim k)) cs _) as [o'|] eqn:E; [|discriminate].
  assert (Hb : Z.max (plim k) (plo k) + Z.of_nat (Z.to_nat w) < 2 ^ 32) by (destruct HS as (_ & _ & _ & _ & HS); lia).
  destruct (prun_ok g fs N r0 Hg HW (mr_map r) (rr_map _ _ _ Y) (plim k) HL (Z.to_nat w) (plo k) cs (proj1 HO) Hb _ _
     (pstart_ok g fs N r0 (mr_map r) (plim k) (Z.to_nat w) (plo k) _ (rr_str _ _ _ Y)) E) as (s & -> & I).
  destruct (pfinished s) eqn:Ef; [|discriminate]. cbn [app] in H. rewrite get_all_true in H. injection H as <-.
  destruct (pfinal g fs N r0 (mr_map r) (plim k) (Z.to_nat w) (plo k) s) as (_ & _ & Hperm); auto.
  { destruct HS as (_ & _ & _ & _ & HS). lia. }
  do 3 eexists. split; [reflexivity|]. exists (flat_map (frames_of (mr_map r)) (range (plo k) (plim k))).
  split; [apply (all_frames_nodup g fs N _ (rr_map _ _ _ Y))|]. split; auto.
  intros x. apply (all_frames g fs N (mr_map r) (rr_map _ _ _ Y) (plim k) HL (plo k) x (proj1 HO)).
Qed.

Lemma rank_can_pass k w r : nth_error ws k = Some w -> rready k w r -> exists cs x, second_pass g cs r = Some (Ok x).
Proof.
  intros Hw Y. assert (Hk : (k < W)%nat) by (apply nth_error_Some; congruence).
  assert (HS : good_scan g fs r0 w) by (apply HG; eapply nth_error_In; eauto).
  destruct (plo_range k Hk) as [HO HL].
  assert (Hq : 0 <= plo k <= N) by lia.
  destruct (prun_can_finish g fs r0 w HS (mr_map r) (plo k) (plim k) _ Hq HL (rr_map _ _ _ Y)
     (pstart_ok g fs N r0 (mr_map r) (plim k) (Z.to_nat w) (plo k) _ (rr_str _ _ _ Y))) as (cs & s & Hr & Hf).
  exists cs. unfold second_pass. rewrite (rank_env k w r Hk Y), (rr_thr _ _ _ Y), (rr_proc _ _ _ Y), Hr, Hf.
  eexists. reflexivity.
Qed.

Lemma collect_delivered (outs : list (list block * outcome (list bool) * mreader)) : forall i,
  (i + List.length outs <= W)%nat ->
  (forall k x, nth_error outs k = Some x -> delivered_by (i + k) (fst (fst x))) ->
  exists ks, NoDup ks /\
    (forall k, In k ks <-> has_frame fs (fst k) (snd k) /\ exists j, (j < List.length outs)%nat /\ plo (i + j) <= fst k < plim (i + j)) /\
    Permutation (flat_map (fun x => fst (fst x)) outs) (map (fun k => multi_block g r0 fs (fst k) (snd k)) ks).
Proof.
  induction outs as [|x outs IH]; intros i Hi H.
  - exists []. split; [constructor|]. split; [|constructor]. intros k. split; [contradiction|].
    intros (_ & j & Hj & _). cbn in Hj. lia.
  - cbn [List.length] in Hi. destruct (H 0%nat x eq_refl) as (k0 & N0 & I0 & P0). rewrite Nat.add_0_r in I0.
    destruct (IH (S i)) as (k1 & N1 & I1 & P1); [lia| |].
    { intros k y Hy. replace (S i + k)%nat with (i + S k)%nat by lia. apply H. exact Hy. }
    exists (k0 ++ k1). split; [|split].
    + apply NoDup_app_intro; auto. intros k Hk0 Hk1. apply I0 in Hk0 as [Hr0 _]. apply I1 in Hk1 as (_ & j & Hj & Hr1).
      assert (Z.of_nat i = Z.of_nat (S i + j)); [|lia].
      apply (share_unique N (Z.of_nat W) (fst k)); try lia.
      * unfold plim, plo in Hr0. exact Hr0.
      * unfold plim, plo in Hr1. exact Hr1.
    + intros k. rewrite in_app_iff, I0, I1. cbn [List.length]. split.
      * intros [[A B]|(A & j & Hj & B)].
        -- split; auto. exists 0%nat. rewrite Nat.add_0_r. split; auto. lia.
        -- split; auto. exists (S j). replace (i + S j)%nat with (S i + j)%nat by lia. split; auto. lia.
      * intros (A & [|j] & Hj & B); [rewrite Nat.add_0_r in B; auto|]. right. split; auto. exists j.
        replace (S i + j)%nat with (i + S j)%nat by lia. split; auto. lia.
    + cbn [flat_map]. rewrite map_app. apply Permutation_app; auto.
Qed.

Definition delivered_all (bs : list block) : Prop :=
  exists ks, NoDup ks /\ (forall k, In k ks <-> has_frame fs (fst k) (snd k)) /\
    Permutation bs (map (fun k => multi_block g r0 fs (fst k) (snd k)) ks).

Lemma world_pass css rs res : world_ready rs -> zip_run (second_pass g) css rs = Some res ->
  exists outs, res = Ok outs /\ List.length outs = W /\
    (forall k x, nth_error outs k = Some x -> (exists l, snd (fst x) = Ok l) /\ delivered_by k (fst (fst x))) /\
    delivered_all (flat_map (fun x => fst (fst x)) outs).
Proof.
  intros [HL HR] H.
  destruct (zip_run_ok (second_pass g) css (fun k x => (exists l, snd (fst x) = Ok l) /\ delivered_by k (fst (fst x))) rs res H) as (outs & -> & Lo & Ho).
  { intros k cs r o Hcs Hr Ho. destruct (HR k r Hr) as (w & Hw & Y).
    destruct (rank_pass k w r cs o Hw Y Ho) as (bs & l & r' & -> & D). eexists. split; [reflexivity|]. cbn [fst snd]. eauto. }
  exists outs. split; auto. split; [lia|]. split; auto.
  destruct (collect_delivered outs 0) as (ks & A & B & C); [lia|intros k x Hx; apply (Ho k x Hx)|].
  exists ks. split; auto. split; auto. intros k. rewrite B. split; [tauto|]. intros Hk. split; auto.
  pose proof W_pos as HWp.
  destruct (nth_error ws 0) as [w0|] eqn:E0; [|apply nth_error_None in E0; unfold W in HWp; lia].
  assert (HS : good_scan g fs r0 w0) by (apply HG; eapply nth_error_In; eauto).
  pose proof (has_frame_range g fs r0 w0 HS _ _ Hk) as Hr. fold N in Hr.
  destruct (share_covers N (Z.of_nat W) (fst k)) as (x & Hx & Hrx); try lia.
  exists (Z.to_nat x). split; [lia|]. cbn [Nat.add]. unfold plim, plo. rewrite Z2Nat.id by lia. exact Hrx.
Qed.

(** ** Calls on ranks that are ready *)

Lemma ready_scan k w r cs : Z.of_nat W <= N -> (k < W)%nat -> rready k w r -> initialize_scan_map g cs r = Some (Ok r).
Proof.
  intros HWN Hk Y. unfold initialize_scan_map, read_first_header.
  assert (mr_size r <> 0) as Hs.
  { rewrite (rr_size _ _ _ Y). unfold plim, plo, size_of. rewrite share_eq by lia. cbn [snd].
    assert (1 <= N / Z.of_nat W) by (apply Z.div_le_lower_bound; lia).
    assert (Z.of_nat W * (N / Z.of_nat W) <= N) by (apply Z.mul_div_le; lia).
    destruct (Z.eqb_spec (Z.of_nat k) (Z.of_nat W - 1)); nia. }
  destruct (Z.eqb_spec (mr_size r) 0); [contradiction|]. cbn [negb].
  destruct (mr_map r) eqn:E; [|reflexivity]. exfalso. apply (ready_nonempty _ (rr_map _ _ _ Y)). auto.
Qed.

Lemma world_rescan css rs res : Z.of_nat W <= N -> world_ready rs -> mpi_initialize g css rs = Some res -> res = Ok rs.
Proof.
  intros HWN [HL HR] H. unfold mpi_initialize in H.
  destruct (zip_run (initialize_scan_map g) css rs) as [o|] eqn:E; [|discriminate].
  destruct (zip_run_ok (initialize_scan_map g) css (fun k r => nth_error rs k = Some r) rs o E) as (rs1 & -> & L1 & H1).
  { intros k cs r o' Hcs Hr Ho. destruct (HR k r Hr) as (w & Hw & Y).
    assert (Hk : (k < W)%nat) by (apply nth_error_Some; congruence).
    rewrite (ready_scan k w r cs HWN Hk Y) in Ho. injection Ho as <-. eauto. }
  assert (rs1 = rs) as ->.
  { apply nth_error_ext. intros k. destruct (nth_error rs1 k) as [r|] eqn:Ek; [symmetry; auto|].
    symmetry. apply nth_error_None. apply nth_error_None in Ek. lia. }
  rewrite forallb_true in H; [now injection H as <-|].
  intros b Hb. apply in_map_iff in Hb as (r & <- & Hr). apply In_nth_error in Hr as [k Hk].
  destruct (HR k r Hk) as (w & _ & Y). destruct (mr_map r) eqn:Em; auto. exfalso. apply (ready_nonempty _ (rr_map _ _ _ Y)). auto.
Qed.
End World.
