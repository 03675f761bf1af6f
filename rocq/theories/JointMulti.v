(** Counting from the multi-pass reader: proofs. *)
From Coq Require Import String ZArith List Lia Bool Permutation.
From Verif Require Import Base BaseFacts BlockModel PermFacts StemProofs StreamModel SectorModel SectorSpec SectorProofs
  ThreadedModel MultipassModel MultipassSpec MultipassProofs MultipassFrames MultipassReader MultipassProps
  CountModel CountSpec CountProofs CountLive CountProps JointModel JointSpec JointProofs.
Import ListNotations.
Open Scope Z_scope.
Local Arguments Z.mul : simpl never.
Local Arguments Z.add : simpl never.

(** ** Blocks of a scan *)

Lemma scan_blocks_perm g r0 fs bs bs' :
  scan_blocks g r0 fs bs -> scan_blocks g r0 fs bs' -> Permutation bs bs'.
Proof.
  intros (k1 & N1 & H1 & ->) (k2 & N2 & H2 & ->). apply Permutation_map. apply NoDup_Permutation; auto.
  intros x. rewrite H1, H2. reflexivity.
Qed.

Lemma frames_of_multi g r0 fs p fn : wf_geom g ->
  CountSpec.frames_of (multi_block g r0 fs p fn) =
  [(p, ((g_w g, g_h g), assembled g 5 (frame_records fs p fn)))].
Proof.
  intros Hg. unfold CountSpec.frames_of, multi_block. cbn [data hdr image_numbers frame_dims fst snd].
  change (Zlen [p]) with 1. change (zseq 1) with [0]. cbn [map]. change (zat [p] 0) with p.
  unfold image. rewrite Z.mul_0_l. change (Z.to_nat 0) with O. cbn [skipn].
  rewrite firstn_all2; [reflexivity|]. pose proof (assembled_length g 5 (frame_records fs p fn) Hg). unfold Zlen in H. lia.
Qed.

Lemma multi_block_ok g r0 fs p fn : wf_geom g -> block_ok (multi_block g r0 fs p fn).
Proof.
  intros Hg. destruct Hg as (Hw & Hh & H3 & H4 & Hb).
  assert (HL : Zlen (assembled g 5 (frame_records fs p fn)) = g_w g * g_h g)
    by (apply assembled_length; repeat split; auto).
  constructor; cbn [multi_block hdr frame_dims image_numbers images_in_block data fst snd]; try lia; try reflexivity.
  eexists. split; [reflexivity|]. change (Zlen [p]) with 1. nia.
Qed.

Lemma scan_frames g r0 fs bs f : wf_geom g -> scan_blocks g r0 fs bs ->
  (In f (flat_map CountSpec.frames_of bs) <->
   exists fn, has_frame fs (fst f) fn /\ snd f = ((g_w g, g_h g), assembled g 5 (frame_records fs (fst f) fn))).
Proof.
  intros Hg (ks & _ & Hk & ->). rewrite in_flat_map. split.
  - intros (b & Hb & Hf). apply in_map_iff in Hb as ([p fn] & <- & Hin). cbn [fst snd] in *.
    rewrite frames_of_multi in Hf by auto. destruct Hf as [<-|[]]. cbn [fst snd]. exists fn. split; auto. now apply Hk in Hin.
  - intros (fn & Hf & E). destruct f as [p x]. cbn [fst snd] in *. subst x.
    exists (multi_block g r0 fs p fn). split; [apply in_map_iff; exists (p, fn); split; auto; now apply Hk|].
    rewrite frames_of_multi by auto. now left.
Qed.

Lemma scan_effect g r0 fs scan_opt p fn :
  fst (scan_in_effect scan_opt (multi_block g r0 fs p fn)) *
  snd (scan_in_effect scan_opt (multi_block g r0 fs p fn)) = scan_size scan_opt r0.
Proof. unfold scan_in_effect, scan_size. destruct (_ || _); reflexivity. Qed.

Lemma scan_delivery_ok g r0 fs w scan_opt bs : good_scan g fs r0 w -> scan_blocks g r0 fs bs ->
  one_frame_per_position fs -> s_sw r0 * s_sh r0 <= scan_size scan_opt r0 < 2 ^ 32 ->
  delivery_ok scan_opt (scan_size scan_opt r0) bs.
Proof.
  intros HG HB H1 HS. assert (Hg : wf_geom g) by apply HG.
  pose proof HB as (ks & Hn & Hk & E).
  assert (HIn : forall b, In b bs -> exists p fn, b = multi_block g r0 fs p fn).
  { intros b Hb. rewrite E in Hb. apply in_map_iff in Hb as ([p fn] & <- & _). eauto. }
  constructor.
  - intros b Hb. destruct (HIn b Hb) as (p & fn & ->). now apply multi_block_ok.
  - intros b Hb. destruct (HIn b Hb) as (p & fn & ->). discriminate.
  - intros b Hb. destruct (HIn b Hb) as (p & fn & ->). apply scan_effect.
  - lia.
  - intros f Hf. apply (scan_frames g r0 fs bs f Hg HB) in Hf as (fn & Hf & _).
    apply (has_frame_range g fs r0 w HG) in Hf. lia.
  - rewrite E. assert (E2 : map fst (flat_map CountSpec.frames_of (map (fun k => multi_block g r0 fs (fst k) (snd k)) ks)) = map fst ks).
    { clear - Hg. induction ks as [|[p fn] ks IH]; [reflexivity|]. cbn [map flat_map fst snd].
      rewrite frames_of_multi by auto. cbn [app map fst]. now f_equal. }
    rewrite E2. assert (HI : forall k, In k ks -> has_frame fs (fst k) (snd k)) by (intros; now apply Hk).
    clear - Hn HI H1. induction ks as [|[p fn] ks IH]; [constructor|]. inversion Hn; subst. cbn [map fst].
    constructor; [|apply IH; auto; intros; apply HI; now right].
    intros Hin. apply in_map_iff in Hin as ([p' fn'] & Ep & Hin). cbn [fst] in Ep. subst p'.
    pose proof (HI (p, fn) (or_introl eq_refl)) as A. pose proof (HI (p, fn') (or_intror Hin)) as A'. cbn [fst snd] in *.
    rewrite (H1 p fn fn' A A') in H2. contradiction.
Qed.

(** Part of a delivery. *)
Lemma delivery_ok_sub scan_opt n bs B more : Permutation bs (B ++ more) ->
  delivery_ok scan_opt n bs -> delivery_ok scan_opt n B.
Proof.
  intros HP D.
  assert (HI : forall b, In b B -> In b bs)
    by (intros b Hb; eapply Permutation_in; [symmetry; exact HP|]; apply in_or_app; now left).
  constructor; try (intros b Hb; apply HI in Hb; now apply D).
  - apply (dl_npos _ _ _ D).
  - intros f Hf. apply (dl_pos _ _ _ D). apply in_flat_map in Hf as (b & Hb & Hf). apply in_flat_map. eauto.
  - pose proof (dl_distinct _ _ _ D) as HD.
    assert (HP2 : Permutation (map fst (flat_map CountSpec.frames_of bs))
              (map fst (flat_map CountSpec.frames_of B) ++ map fst (flat_map CountSpec.frames_of more))).
    { rewrite <- map_app, <- flat_map_app. apply Permutation_map. now apply Permutation_flat_map. }
    apply (Permutation_NoDup HP2) in HD. now apply NoDup_app_inv in HD.
Qed.

Lemma counting_total_sub {Th} (thresholds_of : list block -> outcome Th) count n bs B more :
  Permutation bs (B ++ more) -> counting_total thresholds_of count n bs -> counting_total thresholds_of count n B.
Proof.
  intros HP T samples rest HS HL HC.
  destruct (T samples (rest ++ more)) as (t & Ht & Hc); auto.
  { rewrite HP, HS. now rewrite app_assoc. }
  exists t. split; auto. intros f Hf. apply Hc. apply in_flat_map in Hf as (b & Hb & Hf). apply in_flat_map.
  exists b. split; auto. eapply Permutation_in; [symmetry; exact HP|]. apply in_or_app. now left.
Qed.

Lemma complete_blocks_perm bs bs' : Permutation bs bs' -> complete_blocks bs = complete_blocks bs'.
Proof.
  intros H. apply (Permutation_filter is_complete) in H. apply Permutation_length in H. unfold complete_blocks, Zlen. lia.
Qed.

Lemma counted_once_perm count n bs bs' r : Permutation bs bs' -> counted_once count n bs r -> counted_once count n bs' r.
Proof.
  intros HP (H1 & H2 & m & Hm & H3).
  assert (HF : Permutation (flat_map CountSpec.frames_of bs) (flat_map CountSpec.frames_of bs')) by now apply Permutation_flat_map.
  assert (HA : forall p, Permutation (frames_at p bs) (frames_at p bs')).
  { intros p. unfold frames_at. apply Permutation_map. now apply Permutation_filter. }
  assert (HL : forall p, Zlen (frames_at p bs) = Zlen (frames_at p bs')).
  { intros p. unfold Zlen. now rewrite (Permutation_length (HA p)). }
  split; auto. split.
  - intros f Hf. apply H2. eapply Permutation_in; [symmetry; exact HF|auto].
  - exists m. split.
    + destruct Hm as [M1 M2]. split.
      * intros p Hp. rewrite <- HL. auto.
      * destruct M2 as [M2|(p & Hp & M2)]; auto. right. exists p. now rewrite <- HL.
    + intros p Hp. destruct (H3 p Hp) as (evs & E & P). exists evs. rewrite <- HL. split; auto.
      rewrite P. now apply Permutation_map.
Qed.

Lemma complete_frames_blocks g r0 fs n bs : scan_blocks g r0 fs bs -> has_complete_frames fs n -> n <= complete_blocks bs.
Proof.
  intros (ks & Hn & Hk & ->) (cs & Hc & HL & H4). rewrite <- HL. unfold complete_blocks.
  assert (E : Zlen (filter is_complete (map (fun k => multi_block g r0 fs (fst k) (snd k)) ks)) =
              Zlen (filter (fun k => Zlen (frame_records fs (fst k) (snd k)) =? 4) ks)).
  { clear. induction ks as [|k ks IH]; [reflexivity|]. cbn [map filter].
    unfold is_complete at 1. cbn [multi_block hdr complete]. destruct (_ =? 4); rewrite ?Zlen_cons; now rewrite IH. }
  rewrite E. unfold Zlen. apply inj_le. apply NoDup_incl_length; auto.
  intros k Hin. apply filter_In. pose proof (H4 k Hin) as H. split.
  - apply Hk. unfold has_frame. intros E2. rewrite E2 in H. discriminate.
  - now apply Z.eqb_eq.
Qed.

(** ** The reader as a source *)

Lemma multi_out_step g e c s s' : src_step (multipass_source g e) c s = Some (Ok s') ->
  ps_out s' = ps_out s ++ match src_call (multipass_source g e) c s with Some b => [b] | None => [] end.
Proof.
  cbn [multipass_source src_step src_call]. unfold pstep.
  destruct (nth_error (ps_workers s) c) as [w|]; [|discriminate].
  destruct w as [| |img fns|img fns fn j d cnt|img fns b|]; intros H; try discriminate.
  - injection H as <-. cbn [set_pworker ps_out]. now rewrite app_nil_r.
  - destruct (_ <=? _); [injection H as <-; cbn [set_pworker ps_out]; now rewrite app_nil_r|].
    destruct (nth_error (pe_map e) _); [|discriminate]. injection H as <-. cbn [set_pworker ps_out]. now rewrite app_nil_r.
  - destruct fns; injection H as <-; cbn [set_pworker ps_out]; now rewrite app_nil_r.
  - destruct (_ <? _); [|injection H as <-; cbn [set_pworker ps_out]; now rewrite app_nil_r].
    destruct (nth_error (pe_map e) _); [|discriminate]. destruct (map_get _ _); [|discriminate].
    unfold lift in H. injection H as H. apply bind_ok in H as ([dc ss'] & _ & H). injection H as <-.
    cbn [set_pworker ps_out]. now rewrite app_nil_r.
  - injection H as <-. reflexivity.
Qed.

Lemma multi_ended_stuck g e c s : src_ended (multipass_source g e) s = true -> src_step (multipass_source g e) c s = None.
Proof.
  cbn [multipass_source src_step src_ended]. unfold pfinished, pstep. intros H. rewrite forallb_forall in H.
  destruct (nth_error (ps_workers s) c) as [w|] eqn:E; [|reflexivity].
  specialize (H w (nth_error_In _ _ E)). destruct w; try discriminate. reflexivity.
Qed.

Lemma multi_srun g e cs : forall s, srun (multipass_source g e) cs s = prun g e cs s.
Proof.
  induction cs as [|c cs IH]; intros s; [reflexivity|]. cbn [srun prun].
  change (src_step (multipass_source g e) c s) with (pstep g e c s).
  destruct (pstep g e c s) as [[]|]; auto.
Qed.

Section Counting.
Variables (g : geom) (fs : list sfile) (r0 : srec) (workers : Z).
Hypothesis HG : good_scan g fs r0 workers.
Variable r : mreader.
Hypothesis Y : ready g fs r0 workers r.
Let N := s_sw r0 * s_sh r0.
Let T := Z.to_nat workers.
Notation src := (multipass_source g (multipass_env r)).

Context {Th : Type}.
Variable thresholds_of : list block -> outcome Th.
Variable count : Th -> (Z * Z) -> list Z -> outcome (list Z).
Variable nsamples : Z.
Variable scan_opt : Z * Z.
Notation counting := (multi_counting thresholds_of count nsamples scan_opt g r).
Notation jstep := (joint_step src thresholds_of count nsamples scan_opt).

Lemma env_is : multipass_env r = env r0 (mr_map r) N.
Proof. apply (env_ok g fs r0 workers HG r Y). Qed.

Lemma env_run rs x : prun g (multipass_env r) rs x = prun g (env r0 (mr_map r) N) rs x.
Proof. now rewrite env_is. Qed.
Lemma env_step i x : pstep g (multipass_env r) i x = pstep g (env r0 (mr_map r) N) i x.
Proof. now rewrite env_is. Qed.

Lemma counting_split cs s : counting cs = Some (Ok s) ->
  c_todo (j_cnt s) = [] /\
  exists rs ks, prun g (env r0 (mr_map r) N) rs (mkPS (mr_streams r) (mr_processed r) [] (repeat PCheck T) []) = Some (Ok (j_src s)) /\
    Zlen cs <= Zlen rs + Zlen ks /\
    count_run thresholds_of count nsamples scan_opt ks (count_init T (ps_out (j_src s))) = Some (Ok (j_cnt s)).
Proof.
  intros H. unfold multi_counting in H.
  destruct (jrun_counter src ps_out (multi_out_step g _) (multi_ended_stuck g _) thresholds_of count nsamples scan_opt
              cs (mr_threads r) (multipass_start r) s eq_refl H) as (H0 & rs & ks & R & L & C).
  split; auto. exists rs, ks. rewrite multi_srun in R. unfold multipass_start in R. rewrite env_run in R.
  rewrite (y_thr _ _ _ _ _ Y) in *. auto.
Qed.

Section Fresh.
Hypothesis H0 : mr_processed r = 0.

Lemma counting_inv cs s : counting cs = Some (Ok s) -> PInv g fs N r0 (mr_map r) N T 0 (j_src s).
Proof.
  intros H. destruct (counting_split cs s H) as (_ & rs & _ & R & _).
  destruct (first_pass_two g fs r0 workers HG r rs _ Y H0 R) as (s' & E & I). injection E as <-. exact I.
Qed.

Lemma inv_prefix bs s : scan_blocks g r0 fs bs -> PInv g fs N r0 (mr_map r) N T 0 s ->
  exists more, Permutation bs (ps_out s ++ more).
Proof.
  intros HB I. pose proof (y_map _ _ _ _ _ Y) as HM. pose proof (N_bound g fs r0 workers HG) as HN. cbv zeta in HN.
  set (ks := flat_map (MultipassFrames.frames_of (mr_map r)) (range 0 N)).
  assert (HB2 : scan_blocks g r0 fs (map (fun k => multi_block g r0 fs (fst k) (snd k)) ks)).
  { exists ks. split; [apply (all_frames_nodup g fs N _ HM)|]. split; auto. intros k. unfold ks.
    rewrite (all_frames g fs N (mr_map r) HM N (Z.le_refl _) 0 k (Z.le_refl _)).
    split; [tauto|]. intros Hk. split; auto. eapply has_frame_range; eauto. }
  pose proof (p_perm _ _ _ _ _ _ _ _ _ I) as HP. fold ks in HP.
  exists (map (fun k => multi_block g r0 fs (fst k) (snd k))
           (flat_map todo (ps_workers s) ++ flat_map (MultipassFrames.frames_of (mr_map r)) (range (ps_processed s) N))).
  rewrite (scan_blocks_perm _ _ _ _ _ HB HB2). rewrite <- HP, map_app, map_map.
  apply Permutation_app_tail. erewrite map_ext_in; [rewrite map_id; reflexivity|].
  intros b Hb. symmetry. apply (p_out _ _ _ _ _ _ _ _ _ I b Hb).
Qed.

Lemma inv_ended bs s : scan_blocks g r0 fs bs -> PInv g fs N r0 (mr_map r) N T 0 s -> pfinished s = true ->
  Permutation bs (ps_out s).
Proof.
  intros HB I Hf. assert (HT : (0 < T)%nat) by (destruct HG as (_ & _ & _ & _ & ?); unfold T; lia).
  destruct (pfinal g fs N r0 (mr_map r) N T 0 s HT I Hf) as (_ & _ & HP). rewrite HP.
  apply (scan_blocks_perm g r0 fs); auto.
  exists (flat_map (MultipassFrames.frames_of (mr_map r)) (range 0 N)).
  pose proof (y_map _ _ _ _ _ Y) as HM.
  split; [apply (all_frames_nodup g fs N _ HM)|]. split; auto. intros k.
  rewrite (all_frames g fs N (mr_map r) HM N (Z.le_refl _) 0 k (Z.le_refl _)).
  split; [tauto|]. intros Hk. split; auto. eapply has_frame_range; eauto.
Qed.

Lemma counting_final cs s ev bs : counting cs = Some (Ok s) -> c_main (j_cnt s) = MDone ev ->
  scan_blocks g r0 fs bs ->
  exists rest t p fn, let samples := c_samples (j_cnt s) in
    Permutation bs (samples ++ rest) /\ Zlen samples = u32 nsamples /\
    (forall b, In b samples -> is_complete b = true) /\ c_thr (j_cnt s) = Some t /\ thresholds_of samples = Ok t /\
    nth_error samples 0 = Some (multi_block g r0 fs p fn) /\
    counted_once (count t) (u32 (scan_size scan_opt r0)) bs ev.
Proof.
  intros H Hm HB. pose proof (counting_inv cs s H) as I.
  assert (Hend : pfinished (j_src s) = true).
  { unfold multi_counting in H.
    refine (jrun_done_ended src (multi_ended_stuck g _) thresholds_of count nsamples scan_opt cs _ s ev _ H Hm).
    cbn [joint_init j_cnt count_init c_main]. discriminate. }
  pose proof (inv_ended bs _ HB I Hend) as HP.
  destruct (counting_split cs s H) as (_ & rs & ks & _ & _ & C).
  assert (Hg : wf_geom g) by apply HG.
  assert (HIn : forall b, In b (ps_out (j_src s)) -> exists p fn, b = multi_block g r0 fs p fn).
  { intros b Hb. exists (fst (keyof b)), (snd (keyof b)). apply (p_out _ _ _ _ _ _ _ _ _ I b Hb). }
  destruct (threaded_count_final thresholds_of count nsamples scan_opt T (ps_out (j_src s)) ks (j_cnt s) ev) as
    (rest & t & b0 & P1 & P2 & P3 & P4 & P4' & P5 & P6); auto.
  { intros b Hb. destruct (HIn b Hb) as (p & fn & ->). now apply multi_block_ok. }
  assert (Hb0 : In b0 (ps_out (j_src s))).
  { eapply Permutation_in; [symmetry; exact P1|]. apply in_or_app. left. eapply nth_error_In; eauto. }
  destruct (HIn b0 Hb0) as (p & fn & ->). rewrite scan_effect in P6.
  exists rest, t, p, fn. cbv zeta. split; [now rewrite HP|]. do 5 (split; [assumption|]).
  eapply counted_once_perm; [symmetry; exact HP|exact P6].
Qed.

Lemma counting_correct cs s ev bs : counting cs = Some (Ok s) -> c_main (j_cnt s) = MDone ev ->
  scan_blocks g r0 fs bs ->
  exists samples rest t, Permutation bs (samples ++ rest) /\ Zlen samples = u32 nsamples /\
    (forall b, In b samples -> is_complete b = true) /\ thresholds_of samples = Ok t /\
    counted_once (count t) (u32 (scan_size scan_opt r0)) bs ev.
Proof.
  intros H Hm HB. destruct (counting_final cs s ev bs H Hm HB) as (rest & t & p & fn & P1 & P2 & P3 & _ & P4 & _ & P5).
  exists (c_samples (j_cnt s)), rest, t. auto.
Qed.

Lemma counting_safe cs bs o : counting cs = Some o -> scan_blocks g r0 fs bs ->
  one_frame_per_position fs -> s_sw r0 * s_sh r0 <= scan_size scan_opt r0 < 2 ^ 32 ->
  counting_total thresholds_of count (u32 nsamples) bs -> 1 <= u32 nsamples ->
  exists s, o = Ok s.
Proof.
  intros H HB H1 HS HC HN.
  assert (D : (exists s, o = Ok s) \/ forall s, o <> Ok s) by (destruct o; eauto; right; congruence).
  destruct D as [D|D]; auto. exfalso. unfold multi_counting in H.
  destruct (jrun_fail src ps_out (multi_out_step g _) (multi_ended_stuck g _) thresholds_of count nsamples scan_opt
              cs (mr_threads r) (multipass_start r) o eq_refl H D) as (cs1 & s & Hs & [(c & o' & Hc & Ho)|(ks & o' & Hc & Ho)]).
  - pose proof (counting_inv cs1 s Hs) as I.
    assert (Hg : wf_geom g) by apply HG. assert (HW : wf_mfiles g N fs) by apply HG.
    pose proof (N_bound g fs r0 workers HG) as HNb. cbv zeta in HNb. fold N in HNb.
    pose proof (bound3 g fs r0 workers HG 0 ltac:(lia)) as Hb. cbv zeta in Hb. fold N T in Hb.
    cbn [multipass_source src_step] in Hc. rewrite env_step in Hc.
    destruct (pstep_ok g fs N r0 Hg HW (mr_map r) (y_map _ _ _ _ _ Y) N (Z.le_refl _) T 0 (j_src s) c o' (Z.le_refl _) Hb I Hc)
      as (s' & -> & _). eapply Ho; reflexivity.
  - pose proof (counting_inv cs1 s Hs) as I. destruct (inv_prefix bs _ HB I) as (more & HP).
    destruct (threaded_count_safe thresholds_of count nsamples scan_opt (mr_threads r) (ps_out (j_src s)) (scan_size scan_opt r0) ks o')
      as (s' & ->); auto.
    + eapply delivery_ok_sub; [exact HP|]. eapply scan_delivery_ok; eauto.
    + eapply counting_total_sub; eauto.
    + eapply Ho; reflexivity.
Qed.

Lemma counting_progress cs bs s : counting cs = Some (Ok s) -> scan_blocks g r0 fs bs ->
  u32 nsamples <= complete_blocks bs -> (forall ev, c_main (j_cnt s) <> MDone ev) ->
  exists c, jstep c s <> None.
Proof.
  intros H HB HN HD. pose proof (counting_inv cs s H) as I.
  assert (HT : (0 < T)%nat) by (destruct HG as (_ & _ & _ & _ & ?); unfold T; lia).
  pose proof (p_nw _ _ _ _ _ _ _ _ _ I) as HL.
  eapply (jprogress src ps_out (multi_out_step g _) (multi_ended_stuck g _) thresholds_of count nsamples scan_opt
           (mr_threads r) cs (multipass_start r) s
           (fun i => match nth_error (ps_workers (j_src s)) i with Some w => p_is_done w | None => true end)); auto.
  - rewrite (y_thr _ _ _ _ _ Y). auto.
  - intros i Hi Hd. exists i. split; [reflexivity|]. cbn [multipass_source src_step]. rewrite env_step.
    destruct (nth_error (ps_workers (j_src s)) i) as [w|] eqn:Ew; [|discriminate].
    assert (Hg : wf_geom g) by apply HG. assert (HW : wf_mfiles g N fs) by apply HG.
    pose proof (N_bound g fs r0 workers HG) as HNb. cbv zeta in HNb. fold N in HNb.
    pose proof (bound3 g fs r0 workers HG 0 ltac:(lia)) as Hb. cbv zeta in Hb. fold N T in Hb.
    destruct (pstep_enabled g fs N r0 Hg HW (mr_map r) (y_map _ _ _ _ _ Y) N (Z.le_refl _) T 0 (j_src s) i w (Z.le_refl _) Hb I Ew)
      as (s' & E); [intros ->; discriminate|]. rewrite E. discriminate.
  - intros Hall. cbn [multipass_source src_ended]. unfold pfinished. apply forallb_forall. intros w Hw.
    apply In_nth_error in Hw as [i Hi].
    assert (Hlt : (i < mr_threads r)%nat).
    { rewrite (y_thr _ _ _ _ _ Y). fold T. rewrite <- HL. apply nth_error_Some. congruence. }
    specialize (Hall i Hlt). rewrite Hi in Hall. exact Hall.
  - cbn [multipass_source src_ended]. intros He. pose proof (inv_ended bs _ HB I He) as HP.
    rewrite <- (complete_blocks_perm _ _ HP). exact HN.
Qed.

Lemma counting_bounded bs : scan_blocks g r0 fs bs ->
  exists bound, forall cs s, counting cs = Some (Ok s) -> Zlen cs <= bound.
Proof.
  intros HB. set (W := Z.of_nat T).
  exists (pmeasure (mr_map r) N (mkPS (mr_streams r) 0 [] (repeat PCheck T) []) +
          measure W (count_init (Th:=Th) T bs)).
  intros cs s H. destruct (counting_split cs s H) as (_ & rs & ks & R & L & C). rewrite H0 in R.
  assert (Hg : wf_geom g) by apply HG. assert (HW : wf_mfiles g N fs) by apply HG.
  pose proof (N_bound g fs r0 workers HG) as HNb. cbv zeta in HNb. fold N in HNb.
  pose proof (bound3 g fs r0 workers HG 0 ltac:(lia)) as Hb. cbv zeta in Hb. fold N T in Hb.
  pose proof (prun_length g fs N r0 Hg HW (mr_map r) (y_map _ _ _ _ _ Y) N (Z.le_refl _) T 0 rs (Z.le_refl _) Hb _ _
               (pstart_ok g fs N r0 (mr_map r) N T 0 _ (y_str _ _ _ _ _ Y)) R) as H1.
  pose proof (counting_inv cs s H) as I.
  pose proof (pmeasure_nonneg g fs N r0 (mr_map r) N T 0 (j_src s) I) as H2.
  assert (Hw : Zlen (c_workers (count_init (Th:=Th) T (ps_out (j_src s)))) <= W)
    by (unfold count_init; simpl; rewrite Zlen_repeat; unfold W; lia).
  pose proof (run_bounded thresholds_of count nsamples scan_opt W ks _ _ ltac:(unfold W; lia) Hw C) as H3.
  pose proof (measure_nonneg (Th:=Th) W ltac:(unfold W; lia) (j_cnt s)) as H4.
  destruct (inv_prefix bs _ HB I) as (more & HP).
  assert (H5 : measure W (count_init (Th:=Th) T (ps_out (j_src s))) <= measure W (count_init (Th:=Th) T bs)).
  { unfold measure, count_init. cbn [c_todo c_workers c_samples c_incomplete c_main].
    apply (Permutation_map (todo_wt W)) in HP. apply zsum_perm in HP. rewrite HP, map_app, zsum_app.
    assert (0 <= zsum (map (todo_wt W) more)); [|lia].
    apply zsum_nonneg. intros x Hx. apply in_map_iff in Hx as (b & <- & _). unfold todo_wt.
    pose proof (jlen_nonneg b). unfold W. lia. }
  lia.
Qed.

Lemma counting_hangs cs bs s : counting cs = Some (Ok s) -> scan_blocks g r0 fs bs ->
  complete_blocks bs < u32 nsamples -> forall ev, c_main (j_cnt s) <> MDone ev.
Proof.
  intros H HB HN. pose proof (counting_inv cs s H) as I. destruct (inv_prefix bs _ HB I) as (more & HP).
  destruct (counting_split cs s H) as (_ & rs & ks & _ & _ & C).
  apply (threaded_count_hangs thresholds_of count nsamples scan_opt T (ps_out (j_src s)) ks (j_cnt s)); auto.
  rewrite (complete_blocks_perm _ _ HP) in HN. unfold complete_blocks in *. rewrite filter_app, Zlen_app in HN.
  pose proof (Zlen_nonneg (filter is_complete more)). lia.
Qed.
End Fresh.

(** A reader whose scan was read: its threads deliver nothing. *)
Lemma counting_used cs s : N <= mr_processed r -> counting cs = Some (Ok s) -> 1 <= u32 nsamples ->
  forall ev, c_main (j_cnt s) <> MDone ev.
Proof.
  intros Hp H HN. destruct (counting_split cs s H) as (_ & rs & ks & R & _ & C).
  destruct (idle_run g r0 (mr_map r) (mr_processed r) (mr_streams r) rs Hp _ _ (idle_start workers _ _) R) as (s' & E & I).
  injection E as <-. rewrite (i_out _ _ _ I) in C.
  apply (threaded_count_hangs thresholds_of count nsamples scan_opt T [] ks (j_cnt s)); auto.
  unfold complete_blocks. simpl. unfold Zlen. simpl. lia.
Qed.
End Counting.
