(** Second pass of the multi-pass reader and loadFrames. *)
From Coq Require Import String ZArith List Lia Bool Permutation Sorting.Sorted.
From Verif Require Import Base BaseFacts PermFacts BlockModel StemProofs StreamModel StreamSpec
  StreamProofs SectorModel SectorSpec SectorProofs ThreadedModel ThreadedSpec ThreadedProofs
  MultipassModel MultipassSpec MultipassProofs.
Import ListNotations.
Open Scope Z_scope.
Local Arguments skipn : simpl never.
Local Arguments firstn : simpl never.
Local Arguments Z.mul : simpl never.
Local Arguments Z.add : simpl never.

Definition below (j : Z) (rs : list (Z * srec)) := filter (fun e => fst e <? j) rs.

Definition range (a b : Z) : list Z := map (Z.add a) (zseq (b - a)).

Lemma in_range a b x : In x (range a b) <-> a <= x < b.
Proof.
  unfold range. rewrite in_map_iff. split.
  - intros (i & <- & H). apply in_zseq in H. lia.
  - intros H. exists (x - a). split; [lia|]. apply in_zseq. lia.
Qed.

Lemma NoDup_range a b : NoDup (range a b).
Proof.
  unfold range. apply FinFun.Injective_map_NoDup; [intros x y; lia|apply NoDup_zseq].
Qed.

Lemma range_nil a b : b <= a -> range a b = [].
Proof. intros H. unfold range, zseq. replace (Z.to_nat (b - a)) with O by lia. reflexivity. Qed.

Lemma range_snoc a b : a <= b -> range a (b + 1) = range a b ++ [b].
Proof.
  intros H. unfold range. replace (b + 1 - a) with (b - a + 1) by lia.
  rewrite zseq_succ by lia. rewrite map_app. simpl. do 2 f_equal. lia.
Qed.

Lemma range_cons a b : a < b -> range a b = a :: range (a + 1) b.
Proof.
  intros H. unfold range, zseq. replace (Z.to_nat (b - a)) with (S (Z.to_nat (b - (a + 1)))) by lia.
  cbn [seq map]. f_equal; [lia|]. rewrite <- seq_shift, !map_map. apply map_ext. intros x. lia.
Qed.

Lemma NoDup_map_filter {A B} (f : A -> B) P l : NoDup (map f l) -> NoDup (map f (filter P l)).
Proof.
  induction l as [|a l IH]; simpl; intros H; [constructor|]. inversion H; subst.
  destruct (P a); auto. simpl. constructor; auto. intros Hin. apply H2.
  apply in_map_iff in Hin as (x & Hx & Hi). apply filter_In in Hi as [Hi _]. rewrite <- Hx. apply in_map. auto.
Qed.

Lemma skipn_skipn' {A} n m (l : list A) : skipn n (skipn m l) = skipn (n + m) l.
Proof.
  revert l. induction m as [|m IH]; intros l; [now rewrite Nat.add_0_r|].
  replace (n + S m)%nat with (S (n + m)) by lia. destruct l as [|a l].
  - unfold skipn. destruct n; reflexivity.
  - exact (IH l).
Qed.

Section Pass2.
Variables (g : geom) (fs : list sfile) (N : Z) (r0 : srec).
Hypothesis Hg : wf_geom g.
Hypothesis HW : wf_mfiles g N fs.

Definition streams_ok (ss : list mstream) : Prop :=
  List.length ss = List.length fs /\
  forall n f, nth_error fs n = Some f -> exists p, stream_is ss n f p.

Lemma frame_records_in p fn e :
  In e (frame_records fs p fn) <-> In e (all_records fs) /\ s_pos (snd e) = p /\ s_frame (snd e) = fn.
Proof. unfold frame_records. rewrite filter_In, andb_true_iff, !Z.eqb_eq. tauto. Qed.

Lemma frame_sectors_nodup p fn : NoDup (map fst (frame_records fs p fn)).
Proof.
  apply (NoDup_map_inv (fun s => (p, fn, s))). rewrite map_map.
  rewrite (map_ext_in _ mkey).
  - unfold frame_records. apply NoDup_map_filter. apply HW.
  - intros e He. apply frame_records_in in He as (_ & <- & <-). reflexivity.
Qed.

Lemma frame_records_nodup p fn : NoDup (frame_records fs p fn).
Proof. eapply NoDup_map_inv. apply frame_sectors_nodup. Qed.

Lemma below_in j rs e : In e (below j rs) <-> In e rs /\ fst e < j.
Proof. unfold below. rewrite filter_In, Z.ltb_lt. tauto. Qed.

Lemma below_0 p fn : below 0 (frame_records fs p fn) = [].
Proof.
  destruct (below 0 (frame_records fs p fn)) as [|e l] eqn:E; auto. exfalso.
  assert (H : In e (below 0 (frame_records fs p fn))) by (rewrite E; now left).
  apply below_in in H as [H Hlt]. apply frame_records_in in H as (H & _). apply HW in H. lia.
Qed.

Lemma below_4 p fn : below 4 (frame_records fs p fn) = frame_records fs p fn.
Proof.
  unfold below. assert (H : forall e, In e (frame_records fs p fn) -> (fst e <? 4) = true).
  { intros e He. apply frame_records_in in He as (H & _). apply HW in H. apply Z.ltb_lt. lia. }
  clear - H. induction (frame_records fs p fn) as [|a l IH]; simpl; auto.
  rewrite (H a (or_introl eq_refl)). f_equal. apply IH. intros e He. apply H. now right.
Qed.

Lemma below_nodup j p fn : NoDup (below j (frame_records fs p fn)).
Proof. apply NoDup_filter. apply frame_records_nodup. Qed.

Lemma below_step_some j p fn r : In (j, r) (frame_records fs p fn) ->
  Permutation (below j (frame_records fs p fn) ++ [(j, r)]) (below (j + 1) (frame_records fs p fn)).
Proof.
  intros Hin. apply NoDup_Permutation.
  - apply NoDup_app_intro; [apply below_nodup|repeat constructor; auto|].
    intros x Hx [<-|[]]. apply below_in in Hx. simpl in Hx. lia.
  - apply below_nodup.
  - intros e. rewrite in_app_iff, !below_in. split.
    + intros [[H1 H2]|[<-|[]]]; split; auto; simpl; lia.
    + intros [H1 H2]. destruct (Z.eq_dec (fst e) j) as [E|E]; [|left; split; auto; lia].
      right. left. clear - Hin H1 E HW.
      pose proof (frame_sectors_nodup p fn) as HN. apply In_nth_error in Hin as [a Ha]. apply In_nth_error in H1 as [b Hb].
      assert (a = b).
      { eapply (proj1 (NoDup_nth_error _) HN).
        - rewrite map_length. apply nth_error_Some. congruence.
        - rewrite !nth_error_map', Ha, Hb. simpl. congruence. }
      congruence.
Qed.

Lemma below_step_none j p fn : (forall r, ~ In (j, r) (frame_records fs p fn)) ->
  below (j + 1) (frame_records fs p fn) = below j (frame_records fs p fn).
Proof.
  intros H. unfold below. apply filter_ext_in. intros [s r] He. cbn [fst].
  destruct (Z.eq_dec s j) as [->|E]; [now elim (H r)|].
  destruct (Z.ltb_spec s (j + 1)), (Z.ltb_spec s j); auto; lia.
Qed.

Lemma below_not_in j p fn : ~ In j (map fst (below j (frame_records fs p fn))).
Proof. intros H. apply in_map_iff in H as (e & E & H). apply below_in in H. lia. Qed.

Lemma below_map_nodup j p fn : NoDup (map fst (below j (frame_records fs p fn))).
Proof. apply NoDup_map_filter. apply frame_sectors_nodup. Qed.

Lemma blank_eq p fn : blank g = assembled g 5 (below 0 (frame_records fs p fn)).
Proof.
  rewrite below_0, assembled_nil by auto. unfold blank. f_equal. f_equal.
  apply Z.mod_small. destruct Hg as (? & ? & ? & ? & ?). lia.
Qed.

(** The map that the first pass leaves. *)
Variable M : scanmap.
Hypothesis HM : map_final g fs N M.

Definition keys (p : Z) : list Z := map fst (nth (Z.to_nat p) M []).

Lemma read_slot_ok p fn fms fm j ss : 0 <= j < 4 -> 0 <= p ->
  nth_error M (Z.to_nat p) = Some fms -> map_get fn fms = Some fm -> streams_ok ss ->
  exists ss', read_slot g 5 fm j (assembled g 5 (below j (frame_records fs p fn)), Zlen (below j (frame_records fs p fn)), ss) =
    Ok (assembled g 5 (below (j + 1) (frame_records fs p fn)), Zlen (below (j + 1) (frame_records fs p fn)), ss') /\
    streams_ok ss'.
Proof.
  intros Hj Hp Hfms Hfm [Hsl Hss]. destruct HM as [HL HMp]. destruct (HMp _ _ Hfms) as (Ho & _ & Hs).
  destruct (Hs _ _ Hfm) as [L4 Hslot]. rewrite Z2Nat.id in Hslot by auto.
  unfold read_slot. rewrite (rd_ok fm j None) by lia. cbn [bind].
  assert (Hn : nth_error fm (Z.to_nat j) = Some (nth (Z.to_nat j) fm None)).
  { apply nth_error_nth'. unfold Zlen in L4. lia. }
  destruct (nth (Z.to_nat j) fm None) as [l|] eqn:El.
  - apply (Hslot j l Hj) in Hn as (i & k & r & Hrec & Hpr & Hfr & ->). cbn [l_stream l_offset].
    pose proof (wf_rec g fs N HW _ _ _ Hrec) as (Hwr & _). cbn [snd fst] in Hwr.
    assert (Hf : exists f, nth_error fs i = Some f /\ fst f = j /\ nth_error (snd f) k = Some r).
    { unfold record_at in Hrec. destruct (nth_error fs i) as [f|] eqn:E; [|discriminate].
      destruct (nth_error (snd f) k) eqn:E2; [|discriminate]. injection Hrec as <- <-. eauto. }
    destruct Hf as (f & Hf & Hfj & Hkr).
    destruct (Hss _ _ Hf) as [q Hq]. pose proof Hq as Hq'. unfold stream_is in Hq'. rewrite Hq'.
    unfold read_at. cbn [ms_fail ms_content ms_sector].
    assert (Hrest : skipn (Z.to_nat (Z.of_nat k * record_bytes g + 16)) (content f) =
                    flat_map (le_bytes 2) (s_px r) ++ flat_map encode_srec (skipn (S k) (snd f))).
    { assert (0 <= record_bytes g).
      { rewrite <- (encode_srec_bytes g r Hg Hwr). apply Zlen_nonneg. }
      replace (Z.to_nat (Z.of_nat k * record_bytes g + 16)) with (16 + Z.to_nat (Z.of_nat k * record_bytes g))%nat by lia.
      rewrite <- skipn_skipn'. unfold content. rewrite (skip_records g).
      - rewrite (skipn_at _ _ _ Hkr). cbn [flat_map]. apply encode_data_at.
      - auto.
      - eapply file_wf; eauto.
      - apply Nat.lt_le_incl. apply nth_error_Some. congruence. }
    rewrite Hrest.
    rewrite read_sector_data_ok; auto; [|apply below_not_in]. cbn [bind].
    assert (Hin : In (j, r) (frame_records fs p fn)).
    { apply frame_records_in. cbn [snd]. split; auto. apply record_at_in. eauto. }
    pose proof (below_step_some j p fn r Hin) as HP.
    eexists. split.
    + do 2 f_equal. f_equal.
      * apply assembled_perm; auto. rewrite map_app. simpl. apply NoDup_app_intro; [apply below_map_nodup|repeat constructor; auto|].
        intros x Hx [<-|[]]. apply (below_not_in j p fn). exact Hx.
      * apply Permutation_length in HP. rewrite app_length in HP. simpl in HP. unfold Zlen. lia.
    + split; [now rewrite upd_length|]. intros n f' Hf'.
      destruct (Nat.eq_dec n i) as [->|Hne].
      * rewrite Hf in Hf'. injection Hf' as <-. eexists. unfold stream_is.
        rewrite (nth_error_upd _ _ _ _ _ Hq'), Nat.eqb_refl. do 2 f_equal.
        apply Z.ltb_ge. unfold Zlen. rewrite app_length, flat_le_length.
        rewrite (sector_size_5 g Hg). pose proof (npix_sector_4 g Hg). destruct Hwr as (_ & _ & _ & _ & _ & _ & Hl & _).
        unfold Zlen in Hl. lia.
      * destruct (Hss _ _ Hf') as [q2 Hq2]. exists q2. unfold stream_is. rewrite (nth_error_upd _ _ _ _ _ Hq').
        destruct (Nat.eqb_spec n i); [congruence|exact Hq2].
  - exists ss. rewrite below_step_none; [split; [reflexivity|split; auto]|].
    intros r Hin. apply frame_records_in in Hin as (Hin & Hpr & Hfr). cbn [snd] in *.
    apply record_at_in in Hin as (i & k & Hrec).
    assert (Hsome : nth_error fm (Z.to_nat j) = Some (Some (mkLoc j i (Z.of_nat k * record_bytes g + 16)))).
    { apply (Hslot j _ Hj). exists i, k, r. auto. }
    congruence.
Qed.

Definition blk (p fn : Z) : block := multi_block g r0 fs p fn.

Lemma mp_block_eq p fn : mp_block g 5 (s_sw r0, s_sh r0) (s_scan r0) p fn
    (assembled g 5 (below 4 (frame_records fs p fn))) (Zlen (below 4 (frame_records fs p fn))) = blk p fn.
Proof. rewrite below_4. reflexivity. Qed.

Lemma process_frame_ok p fn fms fm ss : 0 <= p ->
  nth_error M (Z.to_nat p) = Some fms -> map_get fn fms = Some fm -> streams_ok ss ->
  exists ss', process_frame g 5 (s_sw r0, s_sh r0) (s_scan r0) p fn fm ss = Ok (blk p fn, ss') /\ streams_ok ss'.
Proof.
  intros Hp Hfms Hfm Hss. unfold process_frame.
  destruct (for_loop_inv (fun j acc => exists ss, acc = (assembled g 5 (below j (frame_records fs p fn)), Zlen (below j (frame_records fs p fn)), ss) /\ streams_ok ss)
              4 (read_slot g 5 fm) (blank g, 0, ss)) as (acc & E & ss' & -> & Hss').
  - lia.
  - exists ss. split; auto. rewrite (blank_eq p fn), below_0. reflexivity.
  - intros j acc Hj (ss1 & -> & Hss1). destruct (read_slot_ok p fn fms fm j ss1 Hj Hp Hfms Hfm Hss1) as (ss2 & E & H2). eauto.
  - rewrite E. cbn [bind fst snd]. rewrite mp_block_eq. eauto.
Qed.

Lemma in_keys p fn : 0 <= p < N -> (In fn (keys p) <-> exists fms fm, nth_error M (Z.to_nat p) = Some fms /\ map_get fn fms = Some fm).
Proof.
  intros Hp. destruct HM as [HL HMp]. unfold keys.
  assert (exists fms, nth_error M (Z.to_nat p) = Some fms) as [fms Hfms].
  { destruct (nth_error M (Z.to_nat p)) eqn:E; eauto. apply nth_error_None in E. unfold Zlen in HL. lia. }
  rewrite (nth_error_nth _ _ _ Hfms). destruct (HMp _ _ Hfms) as (Ho & _). rewrite in_map_iff. split.
  - intros ([k fm] & <- & Hin). exists fms, fm. split; auto. apply map_get_in; auto.
  - intros (fms' & fm & E & Hg'). rewrite Hfms in E. injection E as <-. exists (fn, fm). split; auto. apply map_get_in; auto.
Qed.

Lemma keys_iff p fn : 0 <= p < N -> (In fn (keys p) <-> has_frame fs p fn).
Proof.
  intros Hp. rewrite in_keys by auto. destruct HM as [HL HMp].
  assert (exists fms, nth_error M (Z.to_nat p) = Some fms) as [fms Hfms].
  { destruct (nth_error M (Z.to_nat p)) eqn:E; eauto. apply nth_error_None in E. unfold Zlen in HL. lia. }
  destruct (HMp _ _ Hfms) as (Ho & Hk & _). rewrite Z2Nat.id in Hk by lia. unfold has_frame. split.
  - intros (fms' & fm & E & Hg'). rewrite Hfms in E. injection E as <-.
    destruct (proj1 (Hk fn) (ex_intro _ fm Hg')) as (i & k & e & He & H1 & H2).
    intros E. assert (Hin : In e (frame_records fs p fn)); [|rewrite E in Hin; auto].
    apply frame_records_in. split; auto. apply record_at_in. eauto.
  - intros Hne. destruct (frame_records fs p fn) as [|e l] eqn:E; [congruence|].
    assert (Hin : In e (frame_records fs p fn)) by (rewrite E; now left).
    apply frame_records_in in Hin as (Hin & H1 & H2). apply record_at_in in Hin as (i & k & He).
    destruct (proj2 (Hk fn)) as [fm Hfm]; eauto 6.
Qed.

Lemma keys_sorted p : StronglySorted Z.lt (keys p).
Proof.
  unfold keys. destruct HM as [HL HMp].
  destruct (nth_error M (Z.to_nat p)) as [fms|] eqn:E.
  - rewrite (nth_error_nth _ _ _ E). apply (HMp _ _ E).
  - apply nth_error_None in E. rewrite nth_overflow by auto. constructor.
Qed.

Lemma keys_nodup p : NoDup (keys p).
Proof.
  pose proof (keys_sorted p) as H. induction H; constructor; auto.
  intros Hin. rewrite Forall_forall in H0. specialize (H0 _ Hin). lia.
Qed.

(** *** The second pass *)

Definition frames_of (p : Z) : list (Z * Z) := map (pair p) (keys p).
Definition keyof (b : block) : Z * Z := (zat (image_numbers (hdr b)) 0, frame_number (hdr b)).

Lemma keyof_blk p fn : keyof (blk p fn) = (p, fn).
Proof. reflexivity. Qed.

Definition todo (w : pworker) : list (Z * Z) :=
  match w with
  | PFrame img fns => map (pair img) fns
  | PSector img fns fn _ _ _ => (img, fn) :: map (pair img) fns
  | PCall img fns b => keyof b :: map (pair img) fns
  | _ => []
  end.

Variable lim : Z.
Hypothesis Hlim : lim <= N.
Definition env : penv := mkPE M (s_sw r0, s_sh r0) (s_scan r0) lim.

Definition pok (s : pstate) (w : pworker) : Prop :=
  match w with
  | PFrame img fns => 0 <= img < N /\ incl fns (keys img)
  | PSector img fns fn j d cnt => 0 <= img < N /\ incl fns (keys img) /\ In fn (keys img) /\ 0 <= j <= 4 /\
      d = assembled g 5 (below j (frame_records fs img fn)) /\ cnt = Zlen (below j (frame_records fs img fn))
  | PCall img fns b => 0 <= img < N /\ incl fns (keys img) /\ exists fn, b = blk img fn
  | PDone => lim <= ps_processed s
  | _ => True
  end.

Definition npdone (ws : list pworker) : Z := zsum (map (fun w => if p_is_done w then 1 else 0) ws).

Lemma npdone_le ws : 0 <= npdone ws <= Z.of_nat (List.length ws).
Proof.
  unfold npdone. induction ws as [|w ws IH]; simpl; [lia|]. destruct (p_is_done w); lia.
Qed.
Lemma npdone_upd ws i w w' : nth_error ws i = Some w ->
  npdone (upd ws i w') = npdone ws - (if p_is_done w then 1 else 0) + (if p_is_done w' then 1 else 0).
Proof. intros H. apply (zsum_upd (fun w => if p_is_done w then 1 else 0) _ _ _ _ H). Qed.
Lemma npdone_lt ws i w : nth_error ws i = Some w -> p_is_done w = false -> npdone ws < Z.of_nat (List.length ws).
Proof.
  intros H Hw. pose proof (npdone_upd ws i w PDone H) as E. rewrite Hw in E. simpl in E.
  pose proof (npdone_le (upd ws i PDone)) as E2. rewrite upd_length in E2. lia.
Qed.

Record PInv (threads : nat) (q : Z) (s : pstate) : Prop := {
  p_nw : List.length (ps_workers s) = threads;
  p_str : streams_ok (ps_streams s);
  p_w : forall i w, nth_error (ps_workers s) i = Some w -> pok s w;
  p_proc : q <= ps_processed s <= Z.max lim q + npdone (ps_workers s);
  p_out : forall b, In b (ps_out s) -> b = blk (fst (keyof b)) (snd (keyof b));
  p_perm : Permutation (map keyof (ps_out s) ++ flat_map todo (ps_workers s) ++ flat_map frames_of (range (ps_processed s) lim))
                       (flat_map frames_of (range q lim));
  p_claimed : ps_claimed s = range q (Z.min (ps_processed s) lim)
}.

Lemma pstep_ok threads q s i o : 0 <= q -> Z.max lim q + Z.of_nat threads < 2 ^ 32 ->
  PInv threads q s -> pstep g env i s = Some o -> exists s', o = Ok s' /\ PInv threads q s'.
Proof.
  intros Hq Hb I Hs. unfold pstep in Hs. cbn [pe_map pe_dims pe_scan pe_lim env] in Hs.
  destruct (nth_error (ps_workers s) i) as [w|] eqn:Ew; [|discriminate].
  pose proof (p_w _ _ _ I _ _ Ew) as Hw.
  assert (Hwup : forall w' j wj, nth_error (upd (ps_workers s) i w') j = Some wj ->
            (j = i /\ wj = w') \/ (j <> i /\ nth_error (ps_workers s) j = Some wj)).
  { intros w' j wj H. rewrite (nth_error_upd _ _ _ _ _ Ew) in H.
    destruct (Nat.eqb_spec j i); [left|right]; split; auto; congruence. }
  destruct (flat_map_upd todo _ _ _ Ew) as (R & HR1 & HR2).
  (* steps that leave the counter *)
  assert (Hstep : forall ss w' out', streams_ok ss -> p_is_done w = false -> p_is_done w' = false ->
            pok s w' -> (forall b, In b out' -> b = blk (fst (keyof b)) (snd (keyof b))) ->
            Permutation (map keyof out' ++ todo w') (map keyof (ps_out s) ++ todo w) ->
            PInv threads q (mkPS ss (ps_processed s) (ps_claimed s) (upd (ps_workers s) i w') out')).
  { intros ss w' out' H1 H2 H3 H4 H5 H6. destruct I.
    constructor; cbn [ps_streams ps_processed ps_claimed ps_workers ps_out]; auto.
    - now rewrite upd_length.
    - intros j wj Hj. destruct (Hwup _ _ _ Hj) as [[-> ->]|[Hne Hj']].
      + destruct w'; simpl in *; auto.
      + specialize (p_w0 _ _ Hj'). destruct wj; simpl in *; auto.
    - rewrite (npdone_upd _ _ _ _ Ew), H2, H3. lia.
    - rewrite <- p_perm0. rewrite HR2, HR1. rewrite !app_assoc. apply Permutation_app_tail. apply Permutation_app_tail. exact H6. }
  destruct w as [| |img fns|img fns fn j d cnt|img fns b|].
  - (* PCheck *)
    injection Hs as <-. eexists. split; [reflexivity|]. unfold set_pworker.
    destruct (Z.ltb_spec (ps_processed s) lim) as [H|H].
    + apply Hstep; simpl; auto; apply I.
    + destruct I. constructor; cbn [ps_streams ps_processed ps_claimed ps_workers ps_out]; auto.
      * now rewrite upd_length.
      * intros j wj Hj. destruct (Hwup _ _ _ Hj) as [[-> ->]|[Hne Hj']].
        -- simpl. auto.
        -- specialize (p_w0 _ _ Hj'). destruct wj; simpl in *; auto.
      * rewrite (npdone_upd _ _ _ _ Ew). cbn [p_is_done]. lia.
      * rewrite <- p_perm0. rewrite HR2, HR1. reflexivity.
  - (* PClaim *)
    pose proof (npdone_lt _ _ _ Ew eq_refl) as Hnd. pose proof (p_proc _ _ _ I) as Hp0. rewrite (p_nw _ _ _ I) in Hnd.
    assert (Hu : u32 (ps_processed s + 1) = ps_processed s + 1) by (apply Z.mod_small; lia).
    rewrite Hu in Hs.
    destruct (Z.leb_spec lim (ps_processed s)) as [Hle|Hgt].
    + injection Hs as <-. eexists. split; [reflexivity|]. unfold set_pworker.
      destruct I. constructor; cbn [ps_streams ps_processed ps_claimed ps_workers ps_out]; auto.
      * now rewrite upd_length.
      * intros j wj Hj. destruct (Hwup _ _ _ Hj) as [[-> ->]|[Hne Hj']].
        -- simpl. lia.
        -- specialize (p_w0 _ _ Hj'). destruct wj; simpl in *; auto. lia.
      * rewrite (npdone_upd _ _ _ _ Ew). cbn [p_is_done]. lia.
      * rewrite <- p_perm0. rewrite HR2, HR1. rewrite !range_nil by lia. reflexivity.
      * rewrite p_claimed0. f_equal. lia.
    + assert (HL : Zlen M = N) by apply HM.
      destruct (nth_error M (Z.to_nat (ps_processed s))) as [m|] eqn:Em.
      2: { exfalso. apply nth_error_None in Em. unfold Zlen in HL. lia. }
      injection Hs as <-. eexists. split; [reflexivity|]. unfold set_pworker.
      assert (Hk : map fst m = keys (ps_processed s)) by (unfold keys; now rewrite (nth_error_nth _ _ _ Em)).
      rewrite Hk.
      destruct I. constructor; cbn [ps_streams ps_processed ps_claimed ps_workers ps_out]; auto.
      * now rewrite upd_length.
      * intros j wj Hj. destruct (Hwup _ _ _ Hj) as [[-> ->]|[Hne Hj']].
        -- simpl. split; [lia|]. apply incl_refl.
        -- specialize (p_w0 _ _ Hj'). destruct wj; simpl in *; auto. lia.
      * rewrite (npdone_upd _ _ _ _ Ew). cbn [p_is_done]. pose proof (npdone_le (ps_workers s)). lia.
      * rewrite <- p_perm0. rewrite HR2, HR1. rewrite (range_cons (ps_processed s) lim) by auto. cbn [flat_map todo].
        unfold frames_of at 2. apply Permutation_app_head. cbn [app]. rewrite <- app_assoc.
        rewrite Permutation_app_swap_app. reflexivity.
      * rewrite p_claimed0. rewrite !Z.min_l by lia. symmetry. apply range_snoc. lia.
  - (* PFrame *)
    destruct fns as [|fn r].
    + injection Hs as <-. eexists. split; [reflexivity|]. apply Hstep; simpl; auto; apply I.
    + injection Hs as <-. eexists. split; [reflexivity|]. destruct Hw as [Hi Hincl].
      apply Hstep; auto; try apply I. cbn [pok]. split; auto. split; [|split; [|split; [|split]]].
      * intros x Hx. apply Hincl. now right.
      * apply Hincl. now left.
      * lia.
      * apply blank_eq.
      * rewrite below_0. reflexivity.
  - (* PSector *)
    destruct Hw as (Hi & Hincl & Hfn & Hj & -> & ->).
    destruct (Z.ltb_spec j 4) as [Hj4|Hj4].
    + apply in_keys in Hfn as (fms & fm & Hfms & Hfm); auto. rewrite Hfms, Hfm in Hs.
      destruct (read_slot_ok img fn fms fm j (ps_streams s) ltac:(lia) ltac:(lia) Hfms Hfm) as (ss' & E & Hss'); [apply I|].
      rewrite E in Hs. cbn [bind fst snd] in Hs. unfold lift in Hs. injection Hs as <-. eexists. split; [reflexivity|].
      apply Hstep; auto; try apply I. cbn [pok]. split; auto. split; auto. split; [apply in_keys; eauto|].
      split; [lia|]. auto.
    + assert (j = 4) as -> by lia. rewrite mp_block_eq in Hs. injection Hs as <-. eexists. split; [reflexivity|].
      apply Hstep; auto; try apply I. cbn [pok]. split; auto. split; auto. eauto.
  - (* PCall *)
    destruct Hw as (Hi & Hincl & fn & ->). injection Hs as <-. eexists. split; [reflexivity|].
    apply Hstep; auto; try apply I.
    + cbn [pok]. auto.
    + intros b' Hin. apply in_app_iff in Hin as [Hin|[<-|[]]]; [apply I; auto|]. now rewrite keyof_blk.
    + cbn [todo ps_out]. rewrite map_app, <- app_assoc. reflexivity.
  - discriminate.
Qed.

Lemma prun_ok threads q cs : 0 <= q -> Z.max lim q + Z.of_nat threads < 2 ^ 32 -> forall s res,
  PInv threads q s -> prun g env cs s = Some res -> exists s', res = Ok s' /\ PInv threads q s'.
Proof.
  intros Hq Hb. induction cs as [|c cs IH]; simpl; intros s res I H.
  - injection H as <-. eauto.
  - destruct (pstep g env c s) as [o|] eqn:E; [|discriminate].
    destruct (pstep_ok _ _ _ _ _ Hq Hb I E) as (s1 & -> & I1). eauto.
Qed.

Lemma pstart_ok threads q ss : streams_ok ss ->
  PInv threads q (mkPS ss q [] (repeat PCheck threads) []).
Proof.
  intros Hss. constructor; cbn [ps_streams ps_processed ps_claimed ps_workers ps_out]; auto.
  - apply repeat_length.
  - intros i w H. apply nth_error_In, repeat_spec in H. subst. exact I.
  - pose proof (npdone_le (repeat PCheck threads)). lia.
  - contradiction.
  - assert (flat_map todo (repeat PCheck threads) = []) as ->; [|reflexivity].
    induction threads; simpl; auto.
  - symmetry. apply range_nil. lia.
Qed.

Lemma pfinal threads q s : (0 < threads)%nat -> PInv threads q s -> pfinished s = true ->
  lim <= ps_processed s /\
  ps_claimed s = range q lim /\
  Permutation (ps_out s) (map (fun k => blk (fst k) (snd k)) (flat_map frames_of (range q lim))).
Proof.
  intros Ht I Hf.
  assert (Hd : forall w, In w (ps_workers s) -> w = PDone).
  { intros w H. unfold pfinished in Hf. rewrite forallb_forall in Hf. specialize (Hf w H). destruct w; auto; discriminate. }
  assert (Hp : lim <= ps_processed s).
  { destruct (ps_workers s) as [|w ws] eqn:E.
    - pose proof (p_nw _ _ _ I). rewrite E in H. simpl in H. lia.
    - pose proof (p_w _ _ _ I O w) as H. rewrite E in H. specialize (H eq_refl).
      rewrite (Hd w (or_introl eq_refl)) in H. exact H. }
  split; auto. split.
  - rewrite (p_claimed _ _ _ I). f_equal. lia.
  - rewrite <- (p_perm _ _ _ I).
    assert (flat_map todo (ps_workers s) = []) as ->.
    { clear - Hd. induction (ps_workers s) as [|w l IH]; auto. simpl. rewrite (Hd w (or_introl eq_refl)). simpl.
      apply IH. intros x Hx. apply Hd. now right. }
    rewrite (range_nil (ps_processed s)) by auto. simpl. rewrite !app_nil_r, map_map.
    rewrite <- (map_id (ps_out s)) at 1. erewrite map_ext_in; [reflexivity|].
    intros b Hb. apply (p_out _ _ _ I b Hb).
Qed.

Lemma all_frames q k : 0 <= q -> (In k (flat_map frames_of (range q lim)) <-> q <= fst k < lim /\ has_frame fs (fst k) (snd k)).
Proof.
  intros Hq. destruct k as [p fn]. cbn [fst snd]. rewrite in_flat_map. split.
  - intros (p' & Hp' & Hin). apply in_range in Hp'. unfold frames_of in Hin. apply in_map_iff in Hin as (fn' & E & Hin).
    injection E as -> ->. split; auto. apply keys_iff in Hin; auto. lia.
  - intros [Hp Hh]. exists p. split; [apply in_range; auto|]. unfold frames_of. apply in_map. apply keys_iff; auto. lia.
Qed.

Lemma all_frames_nodup q : NoDup (flat_map frames_of (range q lim)).
Proof.
  pose proof (NoDup_range q lim) as HN. induction (range q lim) as [|p l IH]; simpl; [constructor|].
  inversion HN; subst. apply NoDup_app_intro; auto.
  - unfold frames_of. apply FinFun.Injective_map_NoDup; [intros x y; congruence|apply keys_nodup].
  - intros [p' fn] H H'. unfold frames_of in H. apply in_map_iff in H as (? & E & _). injection E as <- <-.
    apply in_flat_map in H' as (p2 & Hp2 & H'). unfold frames_of in H'. apply in_map_iff in H' as (? & E & _). congruence.
Qed.

(** Termination. *)
Definition per_frame (fns : list Z) : Z := 7 * Zlen fns.
Definition pweight (w : pworker) : Z :=
  match w with
  | PDone => 0 | PClaim => 1 | PCheck => 2
  | PFrame _ fns => 3 + per_frame fns
  | PSector _ fns _ j _ _ => 9 - j + per_frame fns
  | PCall _ fns _ => 4 + per_frame fns
  end.
Definition pmeasure (s : pstate) : Z :=
  zsum (map (fun p => 3 + per_frame (keys p)) (range (ps_processed s) lim)) + zsum (map pweight (ps_workers s)).

Lemma pmeasure_step threads q s i s' : 0 <= q -> Z.max lim q + Z.of_nat threads < 2 ^ 32 ->
  PInv threads q s -> pstep g env i s = Some (Ok s') -> pmeasure s' < pmeasure s.
Proof.
  intros Hq Hb I Hs. unfold pstep in Hs. cbn [pe_map pe_dims pe_scan pe_lim env] in Hs.
  destruct (nth_error (ps_workers s) i) as [w|] eqn:Ew; [|discriminate].
  assert (Hws : forall w', zsum (map pweight (upd (ps_workers s) i w')) = zsum (map pweight (ps_workers s)) - pweight w + pweight w')
    by (intros; apply zsum_upd; auto).
  pose proof (p_w _ _ _ I _ _ Ew) as Hw.
  unfold pmeasure. destruct w as [| |img fns|img fns fn j d cnt|img fns b|].
  - injection Hs as <-. cbn [ps_processed ps_workers set_pworker]. rewrite Hws. destruct (_ <? _); cbn [pweight]; lia.
  - pose proof (npdone_lt _ _ _ Ew eq_refl) as Hnd. pose proof (p_proc _ _ _ I) as Hp0. rewrite (p_nw _ _ _ I) in Hnd.
    assert (Hu : u32 (ps_processed s + 1) = ps_processed s + 1) by (apply Z.mod_small; lia).
    rewrite Hu in Hs.
    destruct (Z.leb_spec lim (ps_processed s)) as [Hle|Hgt].
    + injection Hs as <-. cbn [ps_processed ps_workers set_pworker]. rewrite Hws. rewrite !range_nil by lia. cbn [pweight]. lia.
    + destruct (nth_error M (Z.to_nat (ps_processed s))) as [m|] eqn:Em; [|discriminate].
      injection Hs as <-. cbn [ps_processed ps_workers set_pworker]. rewrite Hws.
      assert (Hk : map fst m = keys (ps_processed s)) by (unfold keys; now rewrite (nth_error_nth _ _ _ Em)).
      rewrite Hk. rewrite (range_cons (ps_processed s) lim) by auto. cbn [map zsum fold_right pweight].
      unfold zsum. cbn [fold_right]. fold (zsum (map (fun p => 3 + per_frame (keys p)) (range (ps_processed s + 1) lim))). lia.
  - destruct fns as [|fn r]; injection Hs as <-; cbn [ps_processed ps_workers set_pworker]; rewrite Hws; cbn [pweight]; unfold per_frame, Zlen; simpl List.length; lia.
  - destruct (Z.ltb_spec j 4) as [Hj4|Hj4].
    + destruct (nth_error M (Z.to_nat img)) as [m|]; [|discriminate]. destruct (map_get fn m) as [fm|]; [|discriminate].
      unfold lift in Hs. destruct (read_slot g 5 fm j (d, cnt, ps_streams s)) as [[dc ss']| | |]; cbn [bind] in Hs; try discriminate.
      injection Hs as <-. cbn [ps_processed ps_workers set_pworker]; rewrite Hws; cbn [pweight]. lia.
    + injection Hs as <-. cbn [ps_processed ps_workers set_pworker]; rewrite Hws; cbn [pweight].
      destruct Hw as (_ & _ & _ & Hj & _). lia.
  - injection Hs as <-. cbn [ps_processed ps_workers set_pworker]; rewrite Hws; cbn [pweight]. lia.
  - discriminate.
Qed.

Lemma pmeasure_nonneg threads q s : PInv threads q s -> 0 <= pmeasure s.
Proof.
  intros I. unfold pmeasure.
  assert (H1 : forall l, 0 <= zsum (map (fun p => 3 + per_frame (keys p)) l)).
  { induction l as [|a l IH]; [simpl; lia|]. cbn [map]. unfold zsum. cbn [fold_right]. fold (zsum (map (fun p => 3 + per_frame (keys p)) l)).
    assert (0 <= per_frame (keys a)) by (unfold per_frame; pose proof (Zlen_nonneg (keys a)); lia). lia. }
  specialize (H1 (range (ps_processed s) lim)).
  assert (H2 : forall l, (forall w, In w l -> 0 <= pweight w) -> 0 <= zsum (map pweight l)).
  { induction l as [|a l IH]; intros H; [simpl; lia|]. cbn [map]. unfold zsum. cbn [fold_right]. fold (zsum (map pweight l)).
    pose proof (H a (or_introl eq_refl)). assert (forall w, In w l -> 0 <= pweight w) by (intros; apply H; now right). specialize (IH H2). lia. }
  specialize (H2 (ps_workers s)).
  assert (0 <= zsum (map pweight (ps_workers s))); [|lia]. apply H2.
  intros w Hw. apply In_nth_error in Hw as [i Hi]. pose proof (p_w _ _ _ I _ _ Hi) as Hok.
  destruct w as [| |img fns|img fns fn j d cnt|img fns b|]; cbn [pweight]; try lia; unfold per_frame; pose proof (Zlen_nonneg fns); try lia.
  destruct Hok as (_ & _ & _ & Hj & _). lia.
Qed.

Lemma prun_length threads q cs : 0 <= q -> Z.max lim q + Z.of_nat threads < 2 ^ 32 -> forall s s',
  PInv threads q s -> prun g env cs s = Some (Ok s') -> Zlen cs <= pmeasure s - pmeasure s'.
Proof.
  intros Hq Hb. induction cs as [|c cs IH]; simpl; intros s s' I H.
  - injection H as <-. unfold Zlen. simpl. lia.
  - destruct (pstep g env c s) as [o|] eqn:E; [|discriminate].
    destruct (pstep_ok _ _ _ _ _ Hq Hb I E) as (s1 & -> & I1).
    specialize (IH _ _ I1 H). pose proof (pmeasure_step _ _ _ _ _ Hq Hb I E).
    assert (Zlen (c :: cs) = 1 + Zlen cs) by (unfold Zlen; simpl; lia). lia.
Qed.

Lemma pstep_enabled threads q s i w : 0 <= q -> Z.max lim q + Z.of_nat threads < 2 ^ 32 ->
  PInv threads q s -> nth_error (ps_workers s) i = Some w -> w <> PDone ->
  exists s', pstep g env i s = Some (Ok s').
Proof.
  intros Hq Hb I Hw Hnd. destruct (pstep g env i s) as [o|] eqn:E.
  - destruct (pstep_ok _ _ _ _ _ Hq Hb I E) as (s1 & -> & _). eauto.
  - exfalso. unfold pstep in E. rewrite Hw in E. destruct w as [| |img fns|img fns fn j d cnt|img fns b|]; try discriminate; try congruence.
    + destruct (_ <=? _); [discriminate|]. destruct (nth_error (pe_map env) _); discriminate.
    + destruct fns; discriminate.
    + destruct (_ <? _); [|discriminate]. destruct (nth_error (pe_map env) _); [|discriminate]. destruct (map_get _ _); discriminate.
Qed.

(** *** loadFrames *)
Lemma load_loop_ok r img idxs : mr_dims r = (s_sw r0, s_sh r0) -> mr_scan r = s_scan r0 ->
  0 <= img < N -> Forall (fun i => 0 <= i) idxs -> forall ss, streams_ok ss ->
  exists ss', streams_ok ss' /\
    load_loop g r img (nth (Z.to_nat img) M []) idxs ss =
    (if forallb (fun i => i <? Zlen (keys img)) idxs then Ok (map (fun i => blk img (zat (keys img) i)) idxs)
     else Throw "Frame index is out of bounds!"%string, ss').
Proof.
  intros Hd Hsc Himg. destruct HM as [HL HMp].
  assert (exists fms, nth_error M (Z.to_nat img) = Some fms) as [fms Hfms].
  { destruct (nth_error M (Z.to_nat img)) eqn:E; eauto. apply nth_error_None in E. unfold Zlen in HL. lia. }
  destruct (HMp _ _ Hfms) as (Ho & _). unfold keys. rewrite (nth_error_nth _ _ _ Hfms).
  assert (HZ : Zlen (map fst fms) = Zlen fms) by (unfold Zlen; now rewrite map_length).
  rewrite HZ. induction idxs as [|idx idxs IH]; intros Hnn ss Hss; [exists ss; auto|].
  apply Forall_cons_iff in Hnn as [H1 H2]. cbn [load_loop forallb].
  destruct (Z.leb_spec (Zlen fms) idx) as [Hle|Hlt].
  - assert ((idx <? Zlen fms) = false) as -> by (apply Z.ltb_ge; auto). exists ss. auto.
  - assert ((idx <? Zlen fms) = true) as -> by (apply Z.ltb_lt; auto). cbn [andb].
    destruct (nth_error fms (Z.to_nat idx)) as [[fn fm]|] eqn:En.
    2: { exfalso. apply nth_error_None in En. unfold Zlen in Hlt. lia. }
    assert (Hfm : map_get fn fms = Some fm) by (apply map_get_in; auto; eapply nth_error_In; eauto).
    rewrite Hd, Hsc.
    destruct (process_frame_ok img fn fms fm ss ltac:(lia) Hfms Hfm Hss) as (ss1 & E & Hss1). rewrite E.
    destruct (IH H2 ss1 Hss1) as (ss2 & Hss2 & E2). rewrite E2. exists ss2. split; auto. f_equal.
    destruct (forallb _ idxs); cbn [bind map]; auto. 
    assert (zat (map fst fms) idx = fn) as ->; auto.
    unfold zat. destruct (Z.ltb_spec idx 0); [lia|].
    erewrite nth_error_nth; [reflexivity|]. now rewrite nth_error_map', En.
Qed.
End Pass2.
