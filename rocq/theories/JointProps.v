(** C60: electron counting straight from the files of a scan, for every
    recorded scan, number of threads and interleaving of the reader's threads,
    the counting and the calling thread. *)
From Coq Require Import String ZArith List Lia Bool Permutation QArith.
From Verif Require MultipassProofs.
From Verif Require Import Base BaseFacts BlockModel PermFacts StreamModel SectorModel SectorSpec SectorProofs SectorProps
  ThreadedModel ThreadedSpec ThreadedProps MultipassModel MultipassSpec MultipassReader MultipassProps
  SparseModel SparseSpec CountedModel CountedSpec CountedProps
  CountModel CountSpec CountProps JointModel JointSpec JointProofs JointMulti.
Import ListNotations.
Open Scope Z_scope.

Lemma NoDup_map_in {A B} (f : A -> B) l :
  (forall a b, In a l -> In b l -> f a = f b -> a = b) -> NoDup l -> NoDup (map f l).
Proof.
  intros H HN. induction HN as [|a l Ha HN IH]; cbn [map]; constructor.
  - intros Hin. apply in_map_iff in Hin as (b & E & Hb). rewrite (H b a) in Hb; auto; simpl; auto.
  - apply IH. intros; apply H; simpl; auto.
Qed.

Lemma prepared g fs r0 w r1 r2 cs1 : good_scan g fs r0 w -> loads g (init fs w) r1 ->
  initialize_scan_map g cs1 r1 = Some (Ok r2) -> ready g fs r0 w r2 /\ mr_processed r2 = 0.
Proof.
  intros HG HL HI. destruct (loads_inv _ _ _ _ _ HG HL) as [F|[Y H0]].
  - rewrite (scan_fresh g fs r0 w HG cs1 r1 F) in HI. destruct (scan_init g fs r0 w HG cs1 _ HI) as (r' & E & Y & H0). injection E as <-. auto.
  - rewrite (scan_ready g fs r0 w HG cs1 r1 Y) in HI. injection HI as <-. auto.
Qed.

(** There are such blocks for every recorded scan. *)
Theorem scan_blocks_exist : forall g fs r0 w, good_scan g fs r0 w -> exists bs, scan_blocks g r0 fs bs.
Proof.
  intros g fs r0 w HG. destruct (scan_can_init g fs r0 w HG) as (cs1 & r1 & Hi).
  destruct (scan_init g fs r0 _ HG cs1 _ Hi) as (x & E & Y & H0). injection E as <-.
  destruct (read_all_can _ _ _ _ _ HG Y H0) as (cs2 & [[bs f] r2] & H).
  destruct (read_all_ready g fs r0 _ HG [] cs2 r1 _ Y H) as (bs' & f' & r' & E & _ & _ & _ & Hd & _).
  injection E as <- <- <-. destruct (Hd H0) as ((ks & Hn & Hk & _) & _). eexists. exists ks. eauto.
Qed.

Section Top.
Context {Th : Type}.
Variable thresholds_of : list block -> outcome Th.
Variable count : Th -> (Z * Z) -> list Z -> outcome (list Z).
Variable nsamples : Z.
Variable scan_opt : Z * Z.
Notation counting := (multi_counting thresholds_of count nsamples scan_opt).

(** C60: a count that ends has computed the thresholds from the asked number of
    complete recorded frames and reports, at its own position, one list of
    events for every recorded frame. *)
Theorem multipass_count_correct : forall g fs r0 threads hw r r1 cs1 r2 cs s ev bs,
  good_scan g fs r0 (init_threads threads hw) ->
  multi_reader (map encode_sfile fs) threads hw = Ok r -> loads g r r1 ->
  initialize_scan_map g cs1 r1 = Some (Ok r2) ->
  counting g r2 cs = Some (Ok s) -> c_main (j_cnt s) = MDone ev ->
  scan_blocks g r0 fs bs ->
  exists samples rest t, Permutation bs (samples ++ rest) /\ Zlen samples = u32 nsamples /\
    (forall b, In b samples -> is_complete b = true) /\ thresholds_of samples = Ok t /\
    counted_once (count t) (u32 (scan_size scan_opt r0)) bs ev.
Proof.
  intros g fs r0 threads hw r r1 cs1 r2 cs s ev bs HG Hr HL HI HC HD HB.
  rewrite (multi_reader_init g fs r0 _ HG threads hw r eq_refl Hr) in HL.
  destruct (prepared _ _ _ _ _ _ _ HG HL HI) as [Y H0].
  eapply counting_correct; eauto.
Qed.

(** C60: for one frame per position no schedule of all these threads reaches
    undefined behaviour or an exception. *)
Theorem multipass_count_safe : forall g fs r0 threads hw r r1 cs1 r2 cs o bs,
  good_scan g fs r0 (init_threads threads hw) ->
  multi_reader (map encode_sfile fs) threads hw = Ok r -> loads g r r1 ->
  initialize_scan_map g cs1 r1 = Some (Ok r2) ->
  scan_blocks g r0 fs bs -> one_frame_per_position fs ->
  s_sw r0 * s_sh r0 <= scan_size scan_opt r0 < 2 ^ 32 ->
  counting_total thresholds_of count (u32 nsamples) bs -> 1 <= u32 nsamples ->
  counting g r2 cs = Some o -> exists s, o = Ok s.
Proof.
  intros g fs r0 threads hw r r1 cs1 r2 cs o bs HG Hr HL HI HB H1 HS HT HN HC.
  rewrite (multi_reader_init g fs r0 _ HG threads hw r eq_refl Hr) in HL.
  destruct (prepared _ _ _ _ _ _ _ HG HL HI) as [Y H0].
  eapply counting_safe; eauto.
Qed.

(** C60: with enough complete frames in the files, every schedule is bounded
    and can stop only when the result has been returned. *)
Theorem multipass_count_terminates : forall g fs r0 threads hw r r1 cs1 r2 bs,
  good_scan g fs r0 (init_threads threads hw) ->
  multi_reader (map encode_sfile fs) threads hw = Ok r -> loads g r r1 ->
  initialize_scan_map g cs1 r1 = Some (Ok r2) ->
  scan_blocks g r0 fs bs -> one_frame_per_position fs ->
  s_sw r0 * s_sh r0 <= scan_size scan_opt r0 < 2 ^ 32 ->
  counting_total thresholds_of count (u32 nsamples) bs ->
  1 <= u32 nsamples -> has_complete_frames fs (u32 nsamples) ->
  exists bound, forall cs o, counting g r2 cs = Some o ->
    exists s, o = Ok s /\ Zlen cs <= bound /\
      ((exists ev, c_main (j_cnt s) = MDone ev) \/
       exists c s', joint_step _ thresholds_of count nsamples scan_opt c s = Some (Ok s')).
Proof.
  intros g fs r0 threads hw r r1 cs1 r2 bs HG Hr HL HI HB H1 HS HT HN HF.
  rewrite (multi_reader_init g fs r0 _ HG threads hw r eq_refl Hr) in HL.
  destruct (prepared _ _ _ _ _ _ _ HG HL HI) as [Y H0].
  destruct (counting_bounded g fs r0 _ HG r2 Y thresholds_of count nsamples scan_opt H0 bs HB) as (bound & Hb).
  exists bound. intros cs o HC.
  destruct (counting_safe g fs r0 _ HG r2 Y thresholds_of count nsamples scan_opt H0 cs bs o HC HB H1 HS HT HN) as (s & ->).
  exists s. split; auto. split; [eauto|].
  assert (D : (exists ev, c_main (j_cnt s) = MDone ev) \/ forall ev, c_main (j_cnt s) <> MDone ev)
    by (destruct (c_main (j_cnt s)); eauto; right; congruence).
  destruct D as [D|D]; auto. right.
  pose proof (complete_frames_blocks _ _ _ _ _ HB HF) as HCB.
  destruct (counting_progress g fs r0 _ HG r2 Y thresholds_of count nsamples scan_opt H0 cs bs s HC HB HCB D) as (c & Hc).
  destruct (joint_step _ thresholds_of count nsamples scan_opt c s) as [o|] eqn:E; [|congruence].
  assert (HC2 : counting g r2 (cs ++ [c]) = Some o) by (unfold multi_counting in *; erewrite jrun_snoc; eauto).
  destruct (counting_safe g fs r0 _ HG r2 Y thresholds_of count nsamples scan_opt H0 _ bs o HC2 HB H1 HS HT HN) as (s' & ->).
  exists c, s'. exact E.
Qed.

(** C60: with fewer complete frames than asked samples no schedule returns. *)
Theorem multipass_count_hangs : forall g fs r0 threads hw r r1 cs1 r2 cs s bs,
  good_scan g fs r0 (init_threads threads hw) ->
  multi_reader (map encode_sfile fs) threads hw = Ok r -> loads g r r1 ->
  initialize_scan_map g cs1 r1 = Some (Ok r2) ->
  scan_blocks g r0 fs bs -> complete_blocks bs < u32 nsamples ->
  counting g r2 cs = Some (Ok s) -> forall ev, c_main (j_cnt s) <> MDone ev.
Proof.
  intros g fs r0 threads hw r r1 cs1 r2 cs s bs HG Hr HL HI HB HN HC.
  rewrite (multi_reader_init g fs r0 _ HG threads hw r eq_refl Hr) in HL.
  destruct (prepared _ _ _ _ _ _ _ HG HL HI) as [Y H0].
  eapply counting_hangs; eauto.
Qed.

(** Counting a second time with one reader never returns, whatever the scan. *)
Theorem multipass_count_twice_refuted : forall g fs r0 threads hw r r1 cs1 r2 cs s ev cs1' r3 cs' s',
  good_scan g fs r0 (init_threads threads hw) ->
  multi_reader (map encode_sfile fs) threads hw = Ok r -> loads g r r1 ->
  initialize_scan_map g cs1 r1 = Some (Ok r2) -> 1 <= u32 nsamples ->
  counting g r2 cs = Some (Ok s) -> c_main (j_cnt s) = MDone ev ->
  initialize_scan_map g cs1' (reader_after r2 s) = Some (Ok r3) ->
  counting g r3 cs' = Some (Ok s') -> forall ev', c_main (j_cnt s') <> MDone ev'.
Proof.
  intros g fs r0 threads hw r r1 cs1 r2 cs s ev cs1' r3 cs' s' HG Hr HL HI HN HC HD HI2 HC2.
  rewrite (multi_reader_init g fs r0 _ HG threads hw r eq_refl Hr) in HL.
  destruct (prepared _ _ _ _ _ _ _ HG HL HI) as [Y H0].
  destruct (counting_split g fs r0 _ HG r2 Y thresholds_of count nsamples scan_opt cs s HC) as (_ & rs & _ & R & _).
  assert (He : pfinished (j_src s) = true).
  { unfold multi_counting in HC.
    refine (jrun_done_ended (multipass_source g (multipass_env r2)) (multi_ended_stuck g _) thresholds_of count nsamples scan_opt cs _ s ev _ HC HD).
    cbn [joint_init j_cnt count_init c_main]. discriminate. }
  assert (HA : mp_read_all g [] rs r2 = Some (Ok (ps_out (j_src s), get_all (mr_futures r2 ++ repeat true (mr_threads r2)), reader_after r2 s))).
  { unfold mp_read_all. rewrite (scan_ready g fs r0 _ HG [] r2 Y). unfold second_pass.
    rewrite (env_ok g fs r0 _ HG r2 Y), (y_thr _ _ _ _ _ Y). rewrite R, He. unfold reader_after. now rewrite (y_thr _ _ _ _ _ Y). }
  destruct (read_all_ready g fs r0 _ HG [] rs r2 _ Y HA) as (bs & f & r' & E & Y' & _ & Hp & _). injection E as _ _ <-.
  rewrite (scan_ready g fs r0 _ HG cs1' _ Y') in HI2. injection HI2 as <-.
  eapply (counting_used g fs r0 _ HG (reader_after r2 s) Y'); eauto.
Qed.

End Top.

(** Two executions that end with the same thresholds report the same events,
    whatever the numbers of threads and the schedules. *)
Lemma most_frames_unique n blocks m m' : most_frames n blocks m -> most_frames n blocks m' -> 0 < n -> m = m'.
Proof.
  intros [A B] [A' B'] Hn. pose proof (A 0 ltac:(lia)). pose proof (A' 0 ltac:(lia)). pose proof (Zlen_nonneg (frames_at 0 blocks)).
  destruct B as [->|(p & Hp & E)], B' as [->|(p' & Hp' & E')]; try lia.
  - pose proof (A p' Hp'). lia.
  - pose proof (A' p Hp). lia.
  - pose proof (A p' Hp'). pose proof (A' p Hp). lia.
Qed.

Lemma counted_once_unique count n blocks r r' : NoDup (map fst (flat_map frames_of blocks)) ->
  counted_once count n blocks r -> counted_once count n blocks r' -> r = r'.
Proof.
  intros HN (L & _ & m & Hm & H) (L' & _ & m' & Hm' & H').
  apply MultipassProofs.nth_error_ext. intros i.
  destruct (le_lt_dec (List.length r) i) as [Hi|Hi].
  { assert (nth_error r i = None) by now apply nth_error_None.
    assert (nth_error r' i = None) by (apply nth_error_None; unfold Zlen in *; lia). congruence. }
  assert (Hp : 0 <= Z.of_nat i < n) by (unfold Zlen in *; lia).
  rewrite (most_frames_unique n blocks m m' Hm Hm' ltac:(lia)) in H.
  destruct (H _ Hp) as (e & E & P). destruct (H' _ Hp) as (e' & E' & P'). rewrite Nat2Z.id in *.
  rewrite E, E'. f_equal. f_equal.
  assert (HL : (List.length (frames_at (Z.of_nat i) blocks) <= 1)%nat).
  { unfold frames_at. rewrite map_length. clear - HN. induction (flat_map frames_of blocks) as [|f l IH]; [simpl; lia|].
    cbn [map] in HN. inversion HN as [|? ? Hin Hn]; subst. cbn [filter]. destruct (Z.eqb_spec (fst f) (Z.of_nat i)) as [Ef|Ef]; [|auto].
    assert (filter (fun f => fst f =? Z.of_nat i) l = []) as ->; [|simpl; lia].
    destruct (filter (fun f => fst f =? Z.of_nat i) l) as [|f' l'] eqn:E; auto. exfalso. apply Hin.
    assert (In f' (filter (fun f => fst f =? Z.of_nat i) l)) by (rewrite E; now left).
    apply filter_In in H as [H1 H2]. apply Z.eqb_eq in H2. rewrite Ef, <- H2. now apply in_map. }
  rewrite <- P' in P. pose proof (Permutation_length P) as PL. pose proof (Permutation_length P') as PL'. rewrite !map_length in *.
  destruct e as [|a [|b e]], e' as [|a' [|b' e']]; cbn in *; try lia; auto.
  apply Permutation_length_1 in P. congruence.
Qed.

(** C60: the events do not depend on the schedule: for one frame per position,
    two counts of one scan that got the same thresholds return the same events,
    whatever the numbers of threads, the readers and the interleavings. *)
Theorem multipass_count_schedule_independent : forall {Th} (t : Th) count nsamples nsamples' scan_opt g fs r0
    threads hw r r1 cs1 r2 cs s ev threads' hw' r' r1' cs1' r2' cs' s' ev',
  good_scan g fs r0 (init_threads threads hw) -> good_scan g fs r0 (init_threads threads' hw') ->
  one_frame_per_position fs ->
  multi_reader (map encode_sfile fs) threads hw = Ok r -> loads g r r1 ->
  initialize_scan_map g cs1 r1 = Some (Ok r2) ->
  multi_reader (map encode_sfile fs) threads' hw' = Ok r' -> loads g r' r1' ->
  initialize_scan_map g cs1' r1' = Some (Ok r2') ->
  multi_counting (fun _ => Ok t) count nsamples scan_opt g r2 cs = Some (Ok s) ->
  c_main (j_cnt s) = MDone ev ->
  multi_counting (fun _ => Ok t) count nsamples' scan_opt g r2' cs' = Some (Ok s') ->
  c_main (j_cnt s') = MDone ev' ->
  ev = ev'.
Proof.
  intros Th t count ns ns' so g fs r0 th hw r r1 cs1 r2 cs s ev th' hw' r' r1' cs1' r2' cs' s' ev'
    HG HG' H1 Hr HL HI Hr' HL' HI' HC HD HC' HD'.
  destruct (scan_blocks_exist _ _ _ _ HG) as (bs & HB).
  destruct (multipass_count_correct _ _ _ _ _ _ _ _ _ _ _ _ _ _ _ _ _ HG Hr HL HI HC HD HB) as (_ & _ & t1 & _ & _ & _ & E1 & R1).
  destruct (multipass_count_correct _ _ _ _ _ _ _ _ _ _ _ _ _ _ _ _ _ HG' Hr' HL' HI' HC' HD' HB) as (_ & _ & t2 & _ & _ & _ & E2 & R2).
  injection E1 as <-. injection E2 as <-. eapply counted_once_unique; eauto.
  assert (Hg : wf_geom g) by apply HG. destruct HB as (ks & Hn & Hk & ->). clear - Hn Hk Hg H1.
  assert (E : map fst (flat_map frames_of (map (fun k => multi_block g r0 fs (fst k) (snd k)) ks)) = map fst ks).
  { clear - Hg. induction ks as [|k ks IH]; [reflexivity|]. cbn [map flat_map]. rewrite frames_of_multi by auto.
    cbn [app map fst]. now rewrite IH. }
  rewrite E. apply NoDup_map_in; auto. intros [p fn] [p' fn'] Ha Hb. cbn [fst]. intros <-.
  apply Hk in Ha, Hb. cbn [fst snd] in *. now rewrite (H1 p fn fn' Ha Hb).
Qed.

(** C60: end to end, from the bytes of the files to the array the user gets: the
    thresholds are those of the asked number of different four-sector frames,
    and entry (position, y, x) is the number of frames recorded at that position
    whose assembled image has a peak there. *)
Theorem multipass_count_sparse : forall (thresholds_of : list block -> outcome (Q * Q)) nsamples scan_opt dark
    g fs r0 threads hw r r1 cs1 r2 cs s ev,
  good_scan g fs r0 (init_threads threads hw) ->
  multi_reader (map encode_sfile fs) threads hw = Ok r -> loads g r r1 ->
  initialize_scan_map g cs1 r1 = Some (Ok r2) ->
  let w := g_w g in let h := g_h g in
  let sw := fst (scan_used scan_opt r0) in let sh := snd (scan_used scan_opt r0) in
  w < 65536 -> h < 65536 -> w * h < 2 ^ 32 -> dark_ok dark (w * h) ->
  0 < sw -> 0 < sh -> sw * sh < 2 ^ 32 -> Zlen (all_records fs) < 2 ^ 32 ->
  multi_counting thresholds_of (u16_count dark) nsamples scan_opt g r2 cs = Some (Ok s) ->
  c_main (j_cnt s) = MDone ev ->
  exists ks bg xray sa D,
    NoDup ks /\ Zlen ks = u32 nsamples /\
    (forall k, In k ks -> Zlen (frame_records fs (fst k) (snd k)) = 4) /\
    thresholds_of (map (fun k => multi_block g r0 fs (fst k) (snd k)) ks) = Ok (bg, xray) /\
    wrap_counted ev (sw, sh) (w, h) = Ok sa /\ wf sa /\
    to_dense sa = Ok (Dense [sh; sw; w; h] D) /\
    forall p x y, 0 <= p < sw * sh -> 0 <= x < w -> 0 <= y < h ->
      exists fns, recorded_at fs p fns /\
        zat D (p * (w * h) + (y * w + x)) =
        Zlen (filter (fun fn => peak dark bg xray w h (assembled g 5 (frame_records fs p fn)) x y) fns).
Proof.
  intros thresholds_of nsamples scan_opt dark g fs r0 threads hw r r1 cs1 r2 cs s ev HG Hr HL HI w h sw sh
    Hw Hh Hwh Hd Hsw Hsh Hss Hrec HC HM.
  assert (Hg : wf_geom g) by apply HG.
  assert (Hwp : 1 <= w /\ 1 <= h).
  { destruct Hg as (A & B & C & D & _). fold w h in A, B, C, D. lia. }
  destruct (scan_blocks_exist _ _ _ _ HG) as (bs & HB).
  destruct (multipass_count_correct _ _ _ _ _ _ _ _ _ _ _ _ _ _ _ _ _ HG Hr HL HI HC HM HB)
    as (samples & rest & [bg xray] & HP & HN & HS & HT & HR).
  assert (Es : scan_size scan_opt r0 = sw * sh) by (unfold scan_size, sw, sh, scan_used; destruct (_ || _); reflexivity).
  rewrite Es, u32_id in HR by (unfold is_u32; nia).
  pose proof (scan_frames g r0 fs bs) as SF.
  assert (HU : forall p fn, Forall is_u16 (assembled g 5 (frame_records fs p fn))).
  { intros p fn. apply Forall_forall. intros v Hv. unfold assembled in Hv. apply in_map_iff in Hv as (i & <- & _).
    destruct (find _ _) as [e|] eqn:Ef; [|unfold is_u16; lia]. apply find_some in Ef as [Ef _].
    apply filter_In in Ef as [Ef _]. destruct HG as (_ & _ & (HW & _) & _). destruct (HW e Ef) as ((_ & _ & _ & _ & _ & _ & _ & HF) & _).
    unfold zat. destruct (_ <? _); [unfold is_u16; lia|].
    set (l := s_px (snd e)) in *. clear - HF. rewrite Forall_forall in HF.
    destruct (nth_in_or_default (Z.to_nat (snd (pixel_source g 5 i))) l 0) as [H| ->]; [auto|unfold is_u16; lia]. }
  assert (FR : forall f, In f (flat_map frames_of bs) ->
    fst (snd f) = (w, h) /\ Zlen (snd (snd f)) = w * h /\ Forall is_u16 (snd (snd f))).
  { intros f Hf. apply SF in Hf as (fn & _ & ->); auto. cbn [fst snd]. split; [reflexivity|].
    split; [now apply assembled_length|apply HU]. }
  assert (G := fun f (Hf : In f (flat_map frames_of bs)) =>
    u16_count_ok dark bg xray w h (snd (snd f)) ltac:(lia) ltac:(lia) Hwh (proj1 (proj2 (FR f Hf))) (proj2 (proj2 (FR f Hf))) Hd).
  pose proof HB as (ks & Hn & Hk & Ebs).
  assert (few : Zlen (flat_map frames_of bs) < 2 ^ 32).
  { apply Z.le_lt_trans with (2 := Hrec).
    assert (E : Zlen (flat_map frames_of bs) = Zlen ks).
    { rewrite Ebs. clear - Hg. induction ks as [|k ks IH]; [reflexivity|]. cbn [map flat_map]. rewrite frames_of_multi by auto.
      cbn [app]. rewrite !Zlen_cons. lia. }
    rewrite E. unfold Zlen. apply inj_le.
    rewrite <- (map_length (fun e => (s_pos (snd e), s_frame (snd e))) (all_records fs)).
    apply NoDup_incl_length; auto. intros k Hin. apply Hk in Hin. unfold has_frame in Hin.
    destruct (frame_records fs (fst k) (snd k)) as [|e l] eqn:E2; [congruence|].
    assert (Hi : In e (frame_records fs (fst k) (snd k))) by (rewrite E2; now left).
    apply filter_In in Hi as [Hi E3]. apply andb_true_iff in E3 as [E3 E4]. apply Z.eqb_eq in E3, E4.
    apply in_map_iff. exists e. split; auto. destruct k; cbn [fst snd] in *; congruence. }
  destruct (C56_sparse_array (u16_count dark (bg, xray)) bs ev sw sh w h) as (sa & E & W & _ & _ & D & ED & V);
    try lia; auto.
  { intros f ev' Hf Ev. destruct (G f Hf) as (ev2 & E' & N & B & _). rewrite (proj1 (FR f Hf)) in Ev.
    rewrite E' in Ev. injection Ev as <-. auto. }
  (* the samples as frames *)
  rewrite Ebs in HP. destruct (Permutation_map_inv _ _ (Permutation_sym HP)) as (l & El & Hl).
  symmetry in El; apply map_eq_app in El as (k1 & k2 & -> & E1 & E2).
  exists k1, bg, xray, sa, D.
  assert (NL : NoDup (k1 ++ k2)) by (eapply Permutation_NoDup; eauto).
  split; [apply StemProofs.NoDup_app_inv in NL; apply NL|].
  split; [rewrite <- HN, <- E1; unfold Zlen; now rewrite map_length|]. split.
  { intros k Hin. assert (In (multi_block g r0 fs (fst k) (snd k)) samples) as Hs by (rewrite <- E1; now apply (in_map (fun k => multi_block g r0 fs (fst k) (snd k)))).
    apply HS in Hs. unfold is_complete, multi_block in Hs. cbn [hdr complete] in Hs. now apply Z.eqb_eq in Hs. }
  split; [now rewrite E1|]. split; [exact E|]. split; [exact W|]. split; [exact ED|].
  intros p x y Hp Hx Hy. exists (map snd (filter (fun k => fst k =? p) ks)). split.
  { split.
    - apply NoDup_map_in; [|now apply NoDup_filter]. intros [a b] [a' b'] Ha Hb. cbn [snd]. intros <-.
      apply filter_In in Ha as [_ Ha], Hb as [_ Hb]. apply Z.eqb_eq in Ha, Hb. cbn [fst] in *. congruence.
    - intros fn. rewrite in_map_iff. split.
      + intros ([a b] & <- & Hin). apply filter_In in Hin as [Hin Ea]. apply Z.eqb_eq in Ea. cbn [fst snd] in *. subst a.
        now apply Hk in Hin.
      + intros Hf. exists (p, fn). split; auto. apply filter_In. split; [now apply Hk|cbn; apply Z.eqb_refl]. }
  rewrite V by (auto; nia). unfold frames_hitting.
  assert (EF : frames_at p bs = map (fun k => ((w, h), assembled g 5 (frame_records fs (fst k) (snd k)))) (filter (fun k => fst k =? p) ks)).
  { unfold frames_at. rewrite Ebs. clear - Hg. induction ks as [|k ks IH]; [reflexivity|]. cbn [map flat_map filter].
    rewrite frames_of_multi by auto. cbn [app filter fst]. destruct (fst k =? p); cbn [map snd]; now rewrite IH. }
  assert (QQ : forall f, In f (frames_at p bs) ->
    existsb (Z.eqb (y * w + x)) (reported (u16_count dark (bg, xray)) f) = peak dark bg xray w h (snd f) x y).
  { intros f Hf. apply frames_at_in in Hf. destruct (G (p, f) Hf) as (ev' & Ev & _ & _ & S). unfold reported.
    pose proof (proj1 (FR (p, f) Hf)) as Ef. cbn [fst snd] in *. rewrite Ef, Ev. now apply S. }
  rewrite (filter_ext_in _ _ _ QQ), EF. clear. induction ks as [|k ks IH]; [reflexivity|].
  cbn [filter]. destruct (Z.eqb_spec (fst k) p) as [<-|]; [|exact IH].
  cbn [map filter snd]. destruct (peak _ _ _ _ _ _ _ _); [rewrite !Zlen_cons, IH; reflexivity|exact IH].
Qed.

(** ** Counting from the threaded reader *)

Lemma threaded_out_step g v c s s' : src_step (threaded_source g v) c s = Some (Ok s') ->
  t_out s' = t_out s ++ match src_call (threaded_source g v) c s with Some b => [b] | None => [] end.
Proof.
  destruct c as [i j]. cbn [threaded_source src_step src_call fst]. unfold tstep.
  destruct (nth_error (t_workers s) i) as [w|]; [|discriminate].
  destruct w as [| |e|e|e|e h|st e h id|e b|b|]; intros H; try discriminate;
    try (rewrite app_nil_r).
  - destruct (t_open s); injection H as <-; reflexivity.
  - destruct (t_queue s) as [|q l]; [injection H as <-; reflexivity|].
    destruct (nth_error (q :: l) j); [|discriminate]. destruct (existsb _ _); [discriminate|]. injection H as <-; reflexivity.
  - destruct (nth_error (t_files s) (fst e)) as [[? [|? ?]]|]; try discriminate; injection H as <-; reflexivity.
  - destruct (existsb _ _); [|discriminate]. injection H as <-; reflexivity.
  - destruct (nth_error (t_files s) (fst e)) as [[? ?]|]; try discriminate.
    destruct (sector_header _) as [[? ?]| | |]; try discriminate. injection H as <-; reflexivity.
  - destruct (map_get _ _); injection H as <-; reflexivity.
  - unfold frame_step in H. destruct (use_frame s h id) as [fr| | |]; try discriminate.
    destruct st.
    + destruct (data _); injection H as <-; reflexivity.
    + destruct (tf_locked fr); [discriminate|]. injection H as <-; reflexivity.
    + destruct (data _); injection H as <-; reflexivity.
    + injection H as <-; reflexivity.
    + destruct (nth_error (t_files s) (fst e)) as [[sec rem]|]; [|discriminate].
      destruct (_ <=? _); [injection H as <-; reflexivity|].
      destruct rem as [|b0 t]; [injection H as <-; reflexivity|].
      destruct (existsb _ _); [discriminate|].
      match type of H with match ?m with _ => _ end = _ => destruct m end; try discriminate.
      injection H as <-; reflexivity.
    + destruct (_ =? 4); injection H as <-; reflexivity.
    + destruct (existsb _ _); [discriminate|]. injection H as <-; reflexivity.
  - injection H as <-. reflexivity.
  - injection H as <-. reflexivity.
Qed.

Lemma threaded_ended_stuck g v c s : src_ended (threaded_source g v) s = true -> src_step (threaded_source g v) c s = None.
Proof.
  destruct c as [i j]. cbn [threaded_source src_step src_ended]. unfold tfinished, tstep. intros H. rewrite forallb_forall in H.
  destruct (nth_error (t_workers s) i) as [w|] eqn:E; [|reflexivity].
  specialize (H w (nth_error_In _ _ E)). destruct w; try discriminate. reflexivity.
Qed.

Lemma threaded_srun g v cs : forall s, srun (threaded_source g v) cs s = trun g v cs s.
Proof.
  induction cs as [|c cs IH]; intros s; [reflexivity|]. cbn [srun trun].
  change (src_step (threaded_source g v) c s) with (tstep g v c s).
  destruct (tstep g v c s) as [[]|]; auto.
Qed.

Lemma threaded_no_flag g v fs threads s b : wf_geom g -> v = 4 \/ v = 5 -> wf_tfiles g fs -> same_frame fs ->
  treachable g v fs threads s -> In b (t_out s) -> complete (hdr b) = [].
Proof.
  intros Hg Hv Hw Hs Hr Hb. destruct (threaded_delivers_only_complete g v fs threads s Hg Hv Hw Hs Hr) as (ns & _ & _ & HP).
  apply (Permutation_in _ HP) in Hb. apply in_map_iff in Hb as (n & <- & _). unfold numbered_block.
  destruct (records_of n (all_records fs)) as [|[? ?] ?]; reflexivity.
Qed.

(** Finding: the threaded reader sets no completeness flag, so electron counting
    with it never returns, for any recording, number of threads and schedule. *)
Theorem threaded_reader_count_never_returns : forall {Th} (thresholds_of : list block -> outcome Th) count nsamples scan_opt
    g v fs threads cs s ev,
  wf_geom g -> v = 4 \/ v = 5 -> wf_tfiles g fs -> same_frame fs -> 1 <= u32 nsamples ->
  threaded_counting thresholds_of count nsamples scan_opt g v threads (map encode_sfile fs) cs = Some (Ok s) ->
  c_main (j_cnt s) <> MDone ev.
Proof.
  intros Th th count ns so g v fs threads cs s ev Hg Hv Hw Hs HN H. unfold threaded_counting in H.
  destruct (jrun_counter (threaded_source g v) t_out (threaded_out_step g v) (threaded_ended_stuck g v) th count ns so
              cs threads (tinit threads (map encode_sfile fs)) s eq_refl H) as (_ & rs & ks & R & _ & C).
  rewrite threaded_srun in R.
  refine (threaded_count_hangs th count ns so threads _ ks (j_cnt s) _ C ev).
  assert (E : filter is_complete (t_out (j_src s)) = []).
  { assert (X : forall b, In b (t_out (j_src s)) -> is_complete b = false).
    { intros b Hb. unfold is_complete. rewrite (threaded_no_flag g v fs threads (j_src s) b); auto. exists rs. exact R. }
    revert X. generalize (t_out (j_src s)). intros l X. induction l as [|b l IH]; [reflexivity|]. cbn [filter].
    rewrite X by (now left). apply IH. intros; apply X; now right. }
  unfold complete_blocks. rewrite E. unfold Zlen; simpl; lia.
Qed.

(** An execution of a reader up to its first call of the functor. *)
Lemma first_call (S : source) (out : src_state S -> list block)
  (out_step : forall c s s', src_step S c s = Some (Ok s') ->
     out s' = out s ++ match src_call S c s with Some b => [b] | None => [] end) rs :
  forall s s', srun S rs s = Some (Ok s') -> out s = [] -> out s' <> [] ->
  exists rs1 c s1 s2 b, srun S rs1 s = Some (Ok s1) /\ src_step S c s1 = Some (Ok s2) /\
    src_call S c s1 = Some b /\ out s1 = [].
Proof.
  induction rs as [|c rs IH]; intros s s' H H0 H1; cbn [srun] in H.
  - injection H as <-. contradiction.
  - destruct (src_step S c s) as [[s1| | |]|] eqn:E; try discriminate.
    pose proof (out_step c s s1 E) as HO. destruct (src_call S c s) as [b|] eqn:Ec.
    + exists [], c, s, s1, b. auto.
    + rewrite H0 in HO. destruct (IH s1 s' H HO H1) as (rs1 & c' & sa & sb & b & A & B & C & D).
      exists (c :: rs1), c', sa, sb, b. cbn [srun]. rewrite E. auto.
Qed.

Lemma quiet_run (S : source) {Th} (th : list block -> outcome Th) count ns so out
  (out_step : forall c s s', src_step S c s = Some (Ok s') ->
     out s' = out s ++ match src_call S c s with Some b => [b] | None => [] end) nw (P : src_state S -> Prop)
  (HP : forall c s s', P s -> src_step S c s = Some (Ok s') -> P s' /\ (src_who S c < nw)%nat) rs :
  forall s s', P s -> srun S rs s = Some (Ok s') -> out s' = [] ->
  joint_run S th count ns so (map JRead rs) (mkJ s (count_init nw [])) = Some (Ok (mkJ s' (count_init nw []))).
Proof.
  induction rs as [|c rs IH]; intros s s' Ps H H0; cbn [srun] in H.
  - injection H as <-. reflexivity.
  - destruct (src_step S c s) as [[s1| | |]|] eqn:E; try discriminate.
    cbn [map joint_run joint_step j_cnt count_init c_workers j_src].
    rewrite (nth_error_nth' _ WIdle) by (rewrite repeat_length; eapply HP; eauto).
    assert (En : nth (src_who S c) (repeat WIdle nw) WIdle = WIdle) by (clear; generalize (src_who S c); induction nw; destruct n; simpl; auto).
    rewrite En, E. cbn [bind].
    assert (Ec : src_call S c s = None).
    { pose proof (out_step c s s1 E) as HO. destruct (src_call S c s) as [b|]; auto. exfalso.
      destruct (srun_out S out out_step rs s1 s' H) as (d & HD). rewrite H0, HO in HD.
      destruct (out s); discriminate. }
    rewrite Ec. apply IH; auto. eapply HP; eauto.
Qed.

(** ... and reading the missing flag is undefined behaviour that some schedule
    reaches, for every recording with a frame that has all four sectors. *)
Theorem threaded_reader_count_defined_refuted : forall {Th} (thresholds_of : list block -> outcome Th) count nsamples scan_opt
    g v fs threads n,
  wf_geom g -> v = 4 \/ v = 5 -> wf_tfiles g fs -> same_frame fs -> (0 < threads)%nat -> 1 <= u32 nsamples ->
  nsec n (all_records fs) = 4 ->
  exists cs, threaded_counting thresholds_of count nsamples scan_opt g v threads (map encode_sfile fs) cs =
    Some (UB "index past the end").
Proof.
  intros Th th count ns so g v fs threads n Hg Hv Hw Hs Ht HN Hn.
  set (s0 := tinit threads (map encode_sfile fs)).
  destruct (threaded_can_finish g v fs threads s0 Hg Hv Hw Hs) as (rs & s' & R & F); [exists []; reflexivity|].
  assert (HO : t_out s' <> []).
  { destruct (threaded_exactly_once g v fs threads rs s' Hg Hv Hw Hs Ht R F) as (l & _ & Hl & HP).
    apply Hl in Hn. intros E. rewrite E in HP. apply Permutation_nil in HP. destruct l; [contradiction|discriminate]. }
  rewrite <- threaded_srun in R.
  destruct (first_call (threaded_source g v) t_out (threaded_out_step g v) rs s0 s' R eq_refl HO)
    as (rs1 & c & s1 & s2 & b & R1 & Hc & Hb & O1).
  assert (HP : forall c s s', List.length (t_workers s) = threads -> src_step (threaded_source g v) c s = Some (Ok s') ->
     List.length (t_workers s') = threads /\ (src_who (threaded_source g v) c < threads)%nat).
  { intros [i j] x x' L E. cbn [threaded_source src_step src_who fst] in *. split.
    - rewrite <- L. apply (ThreadedProofs.trun_workers g v [(i, j)] x x'). cbn [trun]. now rewrite E.
    - rewrite <- L. apply nth_error_Some. unfold tstep in E. intros E2. rewrite E2 in E. discriminate. }
  assert (L0 : List.length (t_workers s0) = threads) by (unfold s0, tinit; cbn [t_workers]; apply repeat_length).
  pose proof (quiet_run (threaded_source g v) th count ns so t_out (threaded_out_step g v) threads
               (fun s => List.length (t_workers s) = threads) HP rs1 s0 s1 L0 R1 O1) as Q.
  assert (L1 : List.length (t_workers s1) = threads).
  { rewrite <- L0. apply (ThreadedProofs.trun_workers g v rs1 s0 s1). now rewrite <- threaded_srun. }
  destruct (HP c s1 s2 L1 Hc) as [_ Hlt]. set (i := src_who (threaded_source g v) c) in *.
  assert (Eb : complete (hdr b) = []).
  { apply (threaded_no_flag g v fs threads s2 b Hg Hv Hw Hs).
    - exists (rs1 ++ [c]). rewrite <- threaded_srun, (srun_app _ _ _ _ _ R1). cbn [srun]. now rewrite Hc.
    - rewrite (threaded_out_step g v c s1 s2 Hc), Hb, O1. now left. }
  exists (map JRead rs1 ++ [JRead c; JWork i; JWork i]).
  unfold threaded_counting, joint_init. fold s0. rewrite (jrun_app _ _ _ _ _ _ _ _ _ Q).
  cbn [joint_run joint_step j_cnt j_src count_init c_workers]. fold i.
  assert (Er : forall m k, (k < m)%nat -> nth_error (repeat (@WIdle) m) k = Some WIdle).
  { induction m as [|m IH]; intros [|k] H; simpl; try lia; auto. apply IH. lia. }
  rewrite Er by auto. rewrite Hc, Hb. cbn [bind].
  cbn [joint_run joint_step j_cnt j_src count_init c_workers set_worker from_counter count_step].
  assert (Eu : forall {A} (l : list A) k x, (k < List.length l)%nat -> nth_error (upd l k x) k = Some x).
  { intros A l. induction l as [|y l IH]; intros [|k] x H; simpl in *; try lia; auto. apply IH. lia. }
  rewrite Eu by (rewrite repeat_length; auto).
  cbn [worker_step c_counting count_init bind joint_run joint_step j_cnt j_src set_worker c_workers from_counter count_step].
  rewrite Eu by (rewrite BaseFacts.upd_length, repeat_length; auto).
  cbn [worker_step c_samples].
  assert (Em : forall l, Forall (fun w => holds w = false) l -> forall k w, holds w = false -> Forall (fun w => holds w = false) (upd l k w)).
  { intros l Hl. induction Hl; intros [|k] w0 H0; simpl; constructor; auto. }
  unfold mutex_free. cbn [c_workers].
  assert (Eh : forall l, Forall (fun w => holds w = false) l -> existsb holds l = false).
  { intros l Hl. induction Hl as [|w l Hw0 Hl IH]; [reflexivity|]. cbn [existsb]. now rewrite Hw0. }
  rewrite Eh; [|apply Em; [apply Em|]; auto; clear; induction threads; simpl; constructor; auto].
  cbn [negb set_worker count_init c_samples]. change (Zlen (@nil block)) with 0. destruct (Z.ltb_spec 0 (u32 ns)); [|lia]. rewrite Eb. reflexivity.
Qed.

(** ** Witnesses *)

(** A schedule: the threads in turn, those that cannot move are left out. *)
Fixpoint jrobin {S Th} (th : list block -> outcome Th) count ns so (n : nat) (all cs : list (jchoice S)) (s : jsys S (Th:=Th))
  : list (jchoice S) :=
  match n with
  | O => []
  | Datatypes.S m =>
    match cs with
    | [] => jrobin th count ns so m all all s
    | c :: cs' => match joint_step S th count ns so c s with
                  | Some (Ok s') => c :: jrobin th count ns so m all cs' s'
                  | _ => jrobin th count ns so m all cs' s
                  end
    end
  end.

Definition turns44 g e : list (jchoice (multipass_source g e)) :=
  let rd i := @JRead (multipass_source g e) i in
  [rd 0%nat; JWork 0; rd 1%nat; JWork 1; JMain; rd 2%nat; JWork 2].

(** Three threads, two samples, the scan size of the files: frames 0 and 1 are
    complete, position 2 has an incomplete frame. *)
Example files44_counted :
  match initialize_scan_map g44 sched44 reader44 with
  | Some (Ok r) =>
      let cs := jrobin ex_thresholds (u16_count None) 2 (0, 0) 600 (turns44 g44 (multipass_env r)) []
                  (joint_init (multipass_source g44 (multipass_env r)) 3 (multipass_start r)) in
      match multi_counting ex_thresholds (u16_count None) 2 (0, 0) g44 r cs with
      | Some (Ok s) => c_main (j_cnt s) = MDone [[[15]]; [[15]]; [[3]]]
      | _ => False
      end
  | _ => False
  end.
Proof. vm_compute. reflexivity. Qed.

Lemma cases44 p fn : has_frame files44 p fn -> In (p, fn) [(0, 0); (1, 1); (2, 2)].
Proof.
  unfold has_frame. intros H. destruct (frame_records files44 p fn) as [|e l] eqn:E; [congruence|].
  assert (Hin : In e (frame_records files44 p fn)) by (rewrite E; now left).
  apply filter_In in Hin as [Hin E2]. apply andb_true_iff in E2 as [E2 E3]. apply Z.eqb_eq in E2, E3.
  rewrite <- E2, <- E3. cbn in Hin.
  repeat destruct Hin as [<-|Hin]; try contradiction; vm_compute; auto.
Qed.

(** The hypotheses of the theorems above are met by these files. *)
Example files44_hypotheses :
  one_frame_per_position files44 /\ has_complete_frames files44 (u32 2) /\
  s_sw (rec44 0 0 20) * s_sh (rec44 0 0 20) <= scan_size (0, 0) (rec44 0 0 20) < 2 ^ 32 /\
  multi_reader (map encode_sfile files44) 3 8 = Ok reader44 /\ loads g44 reader44 reader44 /\
  (exists r, initialize_scan_map g44 sched44 reader44 = Some (Ok r)) /\
  (forall bs, scan_blocks g44 (rec44 0 0 20) files44 bs -> counting_total ex_thresholds (u16_count None) (u32 2) bs) /\
  Zlen (all_records files44) < 2 ^ 32 /\ nsec 0 (all_records files44) = 4.
Proof.
  split; [|split; [|split; [|split; [|split; [|split; [|split; [|split]]]]]]].
  - intros p fn fn' H H'. apply cases44 in H, H'. cbn in H, H'.
    repeat destruct H as [H|H]; try contradiction; repeat destruct H' as [H'|H']; try contradiction; congruence.
  - exists [(0, 0); (1, 1)]. split; [|split; [reflexivity|]].
    + repeat constructor; simpl; intuition discriminate.
    + intros k [<-|[<-|[]]]; reflexivity.
  - cbn. lia.
  - reflexivity.
  - constructor.
  - destruct (initialize_scan_map g44 sched44 reader44) as [[r| | |]|] eqn:E;
      pose proof files44_scan_map as X; rewrite E in X; try contradiction. eauto.
  - intros bs HB samples rest _ _ _. exists (inject_Z 5, inject_Z 100). split; [reflexivity|].
    intros f Hf. apply (scan_frames _ _ _ _ _ g44_wf HB) in Hf as (fn & Hfn & ->). cbn [fst snd].
    apply cases44 in Hfn. destruct f as [p x]. cbn [fst] in *. cbn in Hfn.
    repeat destruct Hfn as [Hfn|Hfn]; try contradiction; injection Hfn as <- <-; eexists; vm_compute; reflexivity.
  - reflexivity.
  - reflexivity.
Qed.

Print Assumptions scan_blocks_exist.
Print Assumptions multipass_count_correct.
Print Assumptions multipass_count_safe.
Print Assumptions multipass_count_terminates.
Print Assumptions multipass_count_hangs.
Print Assumptions multipass_count_twice_refuted.
Print Assumptions multipass_count_schedule_independent.
Print Assumptions multipass_count_sparse.
Print Assumptions threaded_reader_count_never_returns.
Print Assumptions threaded_reader_count_defined_refuted.
