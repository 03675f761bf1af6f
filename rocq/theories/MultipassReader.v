(** The multi-pass reader as a whole: what holds after any sequence of calls. *)
From Coq Require Import String ZArith List Lia Bool Permutation Sorting.Sorted.
From Verif Require Import Base BaseFacts PermFacts BlockModel StemProofs StreamModel StreamSpec
  StreamProofs SectorModel SectorSpec SectorProofs ThreadedModel ThreadedSpec ThreadedProofs
  MultipassModel MultipassSpec MultipassProofs MultipassFrames.
Import ListNotations.
Open Scope Z_scope.
Local Arguments skipn : simpl never.
Local Arguments firstn : simpl never.
Local Arguments Z.mul : simpl never.
Local Arguments Z.add : simpl never.

Lemma all_files {A} (fs : list A) : 0 <= 0 <= Zlen fs.
Proof. pose proof (Zlen_nonneg fs). lia. Qed.

Section Reader.
Variables (g : geom) (fs : list sfile) (r0 : srec) (workers : Z).
Hypothesis HG : good_scan g fs r0 workers.
Let N := s_sw r0 * s_sh r0.
Let T := Z.to_nat workers.

Let Hg : wf_geom g. Proof. apply HG. Qed.
Let HW : wf_mfiles g N fs. Proof. apply HG. Qed.
Let HT : 0 < workers <= 2 ^ 16. Proof. apply HG. Qed.
Let HTn : (0 < T)%nat. Proof. unfold T. lia. Qed.
Let HF : Zlen fs < 2 ^ 31. Proof. apply HG. Qed.

Lemma r0_in : exists sec, In (sec, r0) (all_records fs).
Proof.
  destruct HG as (_ & (sec & recs & t & ->) & _). exists sec. unfold all_records. simpl. now left.
Qed.

Lemma N_bound : 0 < N < 2 ^ 32 - 2 ^ 17 + 2.
Proof.
  destruct r0_in as (sec & Hin). destruct HW as [H _]. specialize (H _ Hin) as (Hw & _ & Hp). cbn [snd] in *.
  destruct Hw as (_ & _ & H3 & H4 & H5 & H6 & _). unfold is_u16 in *. unfold N, s_pos in *. nia.
Qed.

Lemma bound1 : Zlen fs + Z.of_nat T < 2 ^ 32. Proof. unfold T. lia. Qed.

Definition init : mreader :=
  mkMR (map (fun f => mkMS (fst f) (snd f) 0 false) (map encode_sfile fs)) [] 0 0 0 0
       (Zlen fs) 0 (0, 0) 0 T [].

Lemma multi_reader_init threads hw r : init_threads threads hw = workers ->
  multi_reader (map encode_sfile fs) threads hw = Ok r -> r = init.
Proof.
  intros Ht H. unfold multi_reader in H. destruct HG as (_ & (sec & recs & t & E) & _).
  pose proof (Zlen_nonneg fs). unfold init, T. rewrite <- Ht.
  destruct (map encode_sfile fs) as [|f l] eqn:Ef; [discriminate|]. injection H as <-.
  f_equal. unfold u32. rewrite Z.mod_small; [|].
  - rewrite <- Ef. unfold Zlen. now rewrite map_length.
  - rewrite <- Ef. unfold Zlen in *. rewrite map_length. lia.
Qed.

Lemma init_opens threads hw : init_threads threads hw = workers ->
  multi_reader (map encode_sfile fs) threads hw = Ok init.
Proof.
  intros Ht. destruct (multi_reader (map encode_sfile fs) threads hw) eqn:E.
  - f_equal. eapply multi_reader_init; eauto.
  - unfold multi_reader in E. destruct HG as (_ & (sec & recs & t & Ef) & _). rewrite Ef in E. discriminate.
  - unfold multi_reader in E. destruct (map _ _); discriminate.
  - unfold multi_reader in E. destruct (map _ _); discriminate.
Qed.

Definition first : mreader :=
  mkMR (map (fun f => mkMS (fst f) (snd f) 0 false) (map encode_sfile fs)) [] (s_scan r0) 0 N 0
       (Zlen fs) 0 (s_sw r0, s_sh r0) 0 T [].

Lemma read_first_ok : read_first_header init = Ok first.
Proof.
  unfold read_first_header, init, first. cbn [mr_size]. rewrite Z.eqb_refl. cbn [negb mr_streams].
  destruct r0_in as (s0 & Hin). destruct HW as [H _]. specialize (H _ Hin) as (Hw & _ & _). cbn [snd] in Hw.
  destruct HG as (_ & (sec & recs & t & E) & _). rewrite E. cbn [map encode_sfile fst snd flat_map].
  unfold ms_rest. cbn [ms_pos ms_content]. change (Z.to_nat 0) with O. rewrite skipn_O.
  rewrite (sector_header_ok g) by auto. cbn [bind mr_scan mr_map mr_offset mr_soffset mr_ssize mr_nframes mr_dims mr_processed mr_threads mr_futures sh_scan sh_dims fst snd].
  unfold ms_seek. cbn [ms_fail ms_sector ms_content].
  assert (u32 (s_sw r0 * s_sh r0) = N) as ->; [|reflexivity].
  unfold u32, N. rewrite Z.mod_small; auto. pose proof N_bound. unfold N in *. lia.
Qed.

Record ready (r : mreader) : Prop := {
  y_str : streams_ok fs (mr_streams r);
  y_map : map_final g fs N (mr_map r);
  y_size : mr_size r = N;
  y_off : mr_offset r = 0;
  y_dims : mr_dims r = (s_sw r0, s_sh r0);
  y_scan : mr_scan r = s_scan r0;
  y_thr : mr_threads r = T;
  y_frames : mr_nframes r = 0 \/ mr_nframes r = max_frames (mr_map r);
  y_proc : mr_processed r = 0 /\ mr_futures r = [] \/
           N <= mr_processed r <= N + Z.of_nat T /\ exists l, mr_futures r = false :: l
}.

Lemma map_nonempty m : map_final g fs N m -> m <> [].
Proof. intros [H _] ->. unfold Zlen in H. simpl in H. pose proof N_bound. lia. Qed.

Lemma get_all_true n : get_all (repeat true n) = Ok (repeat false n).
Proof. induction n; simpl; [reflexivity|]. now rewrite IHn. Qed.

Lemma scan_ready cs r : ready r -> initialize_scan_map g cs r = Some (Ok r).
Proof.
  intros Y. unfold initialize_scan_map, read_first_header.
  assert (negb (mr_size r =? 0) = true) as ->.
  { rewrite (y_size _ Y). pose proof N_bound. destruct (Z.eqb_spec N 0); [lia|reflexivity]. }
  destruct (mr_map r) eqn:E; [|reflexivity]. exfalso. apply (map_nonempty _ (y_map _ Y)). auto.
Qed.

Lemma hstart_eq : mkHS (mr_streams first) 0 (repeat [] (Z.to_nat N)) (repeat HCheck T) = hstart fs N 0 T.
Proof. unfold hstart, first. cbn [mr_streams]. rewrite map_map. reflexivity. Qed.

Lemma scan_init cs res : initialize_scan_map g cs init = Some res ->
  exists r', res = Ok r' /\ ready r' /\ mr_processed r' = 0.
Proof.
  unfold initialize_scan_map. rewrite read_first_ok. cbn [mr_map first mr_soffset mr_ssize mr_size mr_threads mr_futures].
  replace (mkHS (mr_streams first) 0 (repeat [] (Z.to_nat N)) (repeat HCheck T)) with (hstart fs N 0 T) by (symmetry; apply hstart_eq).
  assert (u32 (0 + Zlen fs) = Zlen fs) as ->.
  { unfold u32. pose proof (Zlen_nonneg fs). apply Z.mod_small. lia. }
  destruct (hrun g (Zlen fs) cs (hstart fs N 0 T)) as [o|] eqn:E; [|discriminate].
  assert (HN : 0 <= N) by (pose proof N_bound; lia).
  destruct (hrun_ok g fs N Hg HW 0 (Zlen fs) (all_files fs) (Z.le_refl _) T cs bound1 _ _ _ (hstart_ok g fs N 0 (Zlen fs) (all_files fs) T HN) E) as (s & dn & -> & I).
  destruct (hfinished s) eqn:Ef; [|discriminate].
  cbn [app]. rewrite get_all_true. cbn [bind lift]. intros H. injection H as <-. eexists. split; [reflexivity|].
  split; [|reflexivity].
  constructor; cbn [mr_streams mr_map mr_size mr_offset mr_dims mr_scan mr_threads mr_nframes mr_processed mr_futures first]; auto.
  - split; [rewrite map_length; apply (h_ns _ _ _ _ _ _ _ _ I)|]. intros n f Hn.
    destruct (h_str _ _ _ _ _ _ _ _ I n f Hn) as [p Hp]. exists 0. unfold stream_is in *. rewrite nth_error_map', Hp. reflexivity.
  - apply (map_part_final g fs N 0 (Zlen fs) (all_files fs) (Z.le_refl _)); auto. eapply hfinal; eauto.
Qed.

(** Every execution of the first pass can be carried to its end. *)
Lemma hrun_app cs1 cs2 s s1 lim : hrun g lim cs1 s = Some (Ok s1) -> hrun g lim (cs1 ++ cs2) s = hrun g lim cs2 s1.
Proof.
  revert s. induction cs1 as [|c cs1 IH]; cbn [hrun app]; intros s H; [now injection H as ->|].
  destruct (hstep g lim c s) as [[s2| | |]|]; try discriminate. auto.
Qed.

Lemma hrun_can_finish lo lim (HO : 0 <= lo <= lim) (HL : lim <= Zlen fs) dn s : HInv g fs N lo lim T dn s ->
  exists cs s', hrun g lim cs s = Some (Ok s') /\ hfinished s' = true.
Proof.
  assert (Hb : lim + Z.of_nat T < 2 ^ 32) by (pose proof bound1; lia).
  remember (Z.to_nat (hmeasure lim s)) as n eqn:En. revert dn s En.
  induction n as [n IH] using lt_wf_ind. intros dn s En I.
  destruct (hfinished s) eqn:Ef; [exists [], s; auto|].
  assert (exists i w, nth_error (hs_workers s) i = Some w /\ w <> HDone) as (i & w & Hi & Hw).
  { unfold hfinished in Ef. clear - Ef. induction (hs_workers s) as [|w l IHl]; [discriminate|].
    simpl in Ef. destruct (h_is_done w) eqn:Ew.
    - destruct (IHl Ef) as (i & w' & H & H'). exists (S i), w'. auto.
    - exists O, w. split; auto. intros ->. discriminate. }
  destruct (hstep_enabled g fs N Hg HW lo lim HO HL T dn s i w Hb I Hi Hw) as (s1 & Hs).
  destruct (hstep_ok g fs N Hg HW lo lim HO HL T dn s i _ Hb I Hs) as (s1' & dn1 & E & I1). injection E as <-.
  pose proof (hmeasure_step g fs N Hg lo lim HO T dn s i s1 Hb I Hs). pose proof (hmeasure_nonneg lim s1).
  destruct (IH (Z.to_nat (hmeasure lim s1)) ltac:(lia) dn1 s1 eq_refl I1) as (cs & s' & Hr & Hf).
  exists (i :: cs), s'. split; auto. cbn [hrun]. now rewrite Hs.
Qed.

Lemma scan_can_init : exists cs r', initialize_scan_map g cs init = Some (Ok r').
Proof.
  assert (HN : 0 <= N) by (pose proof N_bound; lia).
  destruct (hrun_can_finish 0 (Zlen fs) (all_files fs) (Z.le_refl _) _ _ (hstart_ok g fs N 0 (Zlen fs) (all_files fs) T HN)) as (cs & s & Hr & Hf). exists cs.
  unfold initialize_scan_map. rewrite read_first_ok. cbn [mr_map first mr_soffset mr_ssize mr_size mr_threads mr_futures].
  replace (mkHS (mr_streams first) 0 (repeat [] (Z.to_nat N)) (repeat HCheck T)) with (hstart fs N 0 T) by (symmetry; apply hstart_eq).
  assert (u32 (0 + Zlen fs) = Zlen fs) as ->.
  { unfold u32. pose proof (Zlen_nonneg fs). apply Z.mod_small. lia. }
  rewrite Hr, Hf. cbn [app]. rewrite get_all_true. cbn [bind]. eexists. reflexivity.
Qed.

(** *** Second pass on a prepared reader *)

Lemma lim_ok r : ready r -> u32 (mr_offset r + mr_size r) = N.
Proof.
  intros Y. rewrite (y_off _ Y), (y_size _ Y). unfold u32. pose proof N_bound. rewrite Z.mod_small; lia.
Qed.

Lemma env_ok r : ready r ->
  mkPE (mr_map r) (mr_dims r) (mr_scan r) (u32 (mr_offset r + mr_size r)) = env r0 (mr_map r) N.
Proof. intros Y. rewrite (lim_ok r Y), (y_dims _ Y), (y_scan _ Y). reflexivity. Qed.

Lemma bound3 q : 0 <= q <= N -> Z.max N q + Z.of_nat T < 2 ^ 32.
Proof. intros H. pose proof N_bound. unfold T. lia. Qed.

Definition delivered (bs : list block) : Prop :=
  exists ks, NoDup ks /\ (forall k, In k ks <-> has_frame fs (fst k) (snd k)) /\
    Permutation bs (map (fun k => multi_block g r0 fs (fst k) (snd k)) ks).

Lemma has_frame_range p fn : has_frame fs p fn -> 0 <= p < N.
Proof.
  unfold has_frame. intros H. destruct (frame_records fs p fn) as [|e l] eqn:E; [congruence|].
  assert (Hin : In e (frame_records fs p fn)) by (rewrite E; now left).
  apply frame_records_in in Hin as (Hin & <- & _). destruct HW as [Hw _]. destruct (Hw _ Hin) as (Hr & _ & Hp).
  split; auto. eapply pos_nonneg; eauto.
Qed.

Lemma first_pass_two r cs res : ready r -> mr_processed r = 0 ->
  prun g (env r0 (mr_map r) N) cs (mkPS (mr_streams r) (mr_processed r) [] (repeat PCheck T) []) = Some res ->
  exists s, res = Ok s /\ PInv g fs N r0 (mr_map r) N T 0 s.
Proof.
  intros Y H0 H. rewrite H0 in H.
  exact (prun_ok g fs N r0 Hg HW (mr_map r) (y_map _ Y) N (Z.le_refl _) T 0 cs (Z.le_refl _)
           (bound3 0 ltac:(pose proof N_bound; lia)) _ _ (pstart_ok g fs N r0 (mr_map r) N T 0 _ (y_str _ Y)) H).
Qed.

(** After the counter has passed the end nothing more happens. *)
Record idle (q : Z) (ss : list mstream) (s : pstate) : Prop := {
  i_str : ps_streams s = ss; i_proc : ps_processed s = q; i_claim : ps_claimed s = []; i_out : ps_out s = [];
  i_w : forall w, In w (ps_workers s) -> w = PCheck \/ w = PDone }.

Lemma idle_run M q ss cs : N <= q -> forall s res, idle q ss s ->
  prun g (env r0 M N) cs s = Some res -> exists s', res = Ok s' /\ idle q ss s'.
Proof.
  intros Hq. induction cs as [|c cs IH]; cbn [prun]; intros s res I H; [injection H as <-; eauto|].
  destruct (pstep g (env r0 M N) c s) as [o|] eqn:E; [|discriminate].
  unfold pstep in E. destruct (nth_error (ps_workers s) c) as [w|] eqn:Ew; [|discriminate].
  destruct (i_w _ _ _ I w (nth_error_In _ _ Ew)) as [-> | ->]; [|discriminate].
  injection E as <-. cbn [pe_lim env] in H. rewrite (i_proc _ _ _ I) in H.
  assert ((q <? N) = false) as Eq by (apply Z.ltb_ge; auto). rewrite Eq in H.
  apply (IH _ _) in H; auto. destruct I. constructor; cbn [set_pworker ps_streams ps_processed ps_claimed ps_out ps_workers]; auto.
  intros w Hw. apply In_nth_error in Hw as [j Hj]. rewrite (nth_error_upd _ _ _ _ _ Ew) in Hj.
  destruct (Nat.eqb_spec j c); [injection Hj as <-; auto|]. apply i_w0. eapply nth_error_In; eauto.
Qed.

Lemma idle_start q ss : idle q ss (mkPS ss q [] (repeat PCheck T) []).
Proof. constructor; auto. cbn [ps_workers]. intros w Hw. apply repeat_spec in Hw. auto. Qed.

Lemma prun_can_finish M q lim s : 0 <= q <= N -> lim <= N -> map_final g fs N M -> PInv g fs N r0 M lim T q s ->
  exists cs s', prun g (env r0 M lim) cs s = Some (Ok s') /\ pfinished s' = true.
Proof.
  intros Hq Hl HM. pose proof N_bound as HN.
  assert (Hb : Z.max lim q + Z.of_nat T < 2 ^ 32) by (pose proof (bound3 q Hq); lia).
  remember (Z.to_nat (pmeasure M lim s)) as n eqn:En. revert s En.
  induction n as [n IH] using lt_wf_ind. intros s En I.
  destruct (pfinished s) eqn:Ef; [exists [], s; auto|].
  assert (exists i w, nth_error (ps_workers s) i = Some w /\ w <> PDone) as (i & w & Hi & Hw).
  { unfold pfinished in Ef. clear - Ef. induction (ps_workers s) as [|w l IHl]; [discriminate|].
    simpl in Ef. destruct (p_is_done w) eqn:Ew.
    - destruct (IHl Ef) as (i & w' & H & H'). exists (S i), w'. auto.
    - exists O, w. split; auto. intros ->. discriminate. }
  destruct (pstep_enabled g fs N r0 Hg HW M HM lim Hl T q s i w (proj1 Hq) Hb I Hi Hw) as (s1 & Hs).
  destruct (pstep_ok g fs N r0 Hg HW M HM lim Hl T q s i _ (proj1 Hq) Hb I Hs) as (s1' & E & I1). injection E as <-.
  pose proof (pmeasure_step g fs N r0 M lim T q s i s1 (proj1 Hq) Hb I Hs).
  pose proof (pmeasure_nonneg g fs N r0 M lim T q s1 I1).
  destruct (IH (Z.to_nat (pmeasure M lim s1)) ltac:(lia) s1 eq_refl I1) as (cs & s' & Hr & Hf).
  exists (i :: cs), s'. split; auto. cbn [prun]. now rewrite Hs.
Qed.

(** readAll on a prepared reader. *)
Lemma read_all_ready cs1 cs2 r res : ready r -> mp_read_all g cs1 cs2 r = Some res ->
  exists bs f r', res = Ok (bs, f, r') /\ ready r' /\ mr_map r' = mr_map r /\ N <= mr_processed r' /\
    (mr_processed r = 0 -> delivered bs /\ exists l, f = Ok l) /\
    (mr_processed r <> 0 -> bs = [] /\ exists m, f = Throw m).
Proof.
  intros Y H. unfold mp_read_all in H. rewrite (scan_ready cs1 r Y) in H. unfold second_pass in H. rewrite (env_ok r Y), (y_thr _ Y) in H.
  pose proof N_bound as HN.
  destruct (prun g (env r0 (mr_map r) N) cs2 _) as [o|] eqn:E; [|discriminate].
  destruct (y_proc _ Y) as [[H0 Hfu]|[Hp [l Hfu]]].
  - destruct (first_pass_two r cs2 o Y H0 E) as (s & -> & I).
    destruct (pfinished s) eqn:Ef; [|discriminate]. injection H as <-.
    destruct (pfinal g fs N r0 (mr_map r) N T 0 s HTn I Ef) as (Hl & Hc & Hperm).
    do 3 eexists. split; [reflexivity|]. rewrite Hfu. cbn [app]. rewrite get_all_true.
    pose proof (p_proc _ _ _ _ _ _ _ _ _ I) as Hpr. pose proof (npdone_le (ps_workers s)) as Hnd.
    rewrite (p_nw _ _ _ _ _ _ _ _ _ I) in Hnd.
    split; [|split; [|split; [|split]]]; auto.
    + constructor; cbn [mr_streams mr_map mr_size mr_offset mr_dims mr_scan mr_threads mr_nframes mr_processed mr_futures]; auto; try apply Y.
      * apply (p_str _ _ _ _ _ _ _ _ _ I).
      * right. split; [lia|]. destruct T as [|t] eqn:Et; [lia|]. cbn [repeat map]. eauto.
    + intros _. split; [|eauto]. exists (flat_map (frames_of (mr_map r)) (range 0 N)).
      split; [apply (all_frames_nodup g fs N _ (y_map _ Y))|]. split; auto.
      intros k. rewrite (all_frames g fs N (mr_map r) (y_map _ Y) N (Z.le_refl _) 0 k (Z.le_refl _)).
      split; [tauto|]. intros Hk. split; auto. eapply has_frame_range; eauto.
    + intros Hne. contradiction.
  - destruct (idle_run (mr_map r) (mr_processed r) (mr_streams r) cs2 ltac:(lia) _ _ (idle_start _ _) E) as (s & -> & I).
    destruct (pfinished s) eqn:Ef; [|discriminate]. injection H as <-.
    do 3 eexists. split; [reflexivity|]. rewrite Hfu. cbn [app get_all]. rewrite (i_proc _ _ _ I), (i_str _ _ _ I), (i_out _ _ _ I).
    split; [|split; [|split; [|split]]]; auto; try lia.
    + constructor; cbn [mr_streams mr_map mr_size mr_offset mr_dims mr_scan mr_threads mr_nframes mr_processed mr_futures]; auto; try apply Y.
      right. split; auto. cbn [map]. eauto.
    + cbn [mr_processed]. lia.
    + intros _. split; eauto.
Qed.

(** loadFrames on a prepared reader. *)
Lemma load_ready cs img idxs r : ready r -> 0 <= img -> Forall (fun i => 0 <= i) idxs ->
  exists r', ready r' /\ mr_map r' = mr_map r /\ mr_processed r' = mr_processed r /\
  load_frames g cs img idxs r =
  Some (if N <=? img then Throw "Image number is out of bounds!"%string
        else if forallb (fun i => i <? Zlen (keys (mr_map r) img)) idxs
             then Ok (map (fun i => blk g fs r0 img (zat (keys (mr_map r) img) i)) idxs)
             else Throw "Frame index is out of bounds!"%string, r').
Proof.
  intros Y Himg Hidx. unfold load_frames. rewrite (scan_ready cs r Y).
  pose proof (proj1 (y_map _ Y)) as HL. rewrite HL.
  destruct (Z.leb_spec N img) as [Hle|Hlt]; [exists r; auto|].
  destruct (nth_error (mr_map r) (Z.to_nat img)) as [m|] eqn:Em.
  2: { exfalso. apply nth_error_None in Em. unfold Zlen in HL. lia. }
  destruct (load_loop_ok g fs N r0 Hg HW (mr_map r) (y_map _ Y) r img idxs (y_dims _ Y) (y_scan _ Y) ltac:(lia) Hidx
              (mr_streams r) (y_str _ Y)) as (ss & Hss & E).
  rewrite (nth_error_nth _ _ _ Em) in E. rewrite E. eexists. split; [|split; [|split; [|reflexivity]]]; auto.
  constructor; cbn [mr_streams mr_map mr_size mr_offset mr_dims mr_scan mr_threads mr_nframes mr_processed mr_futures]; auto; apply Y.
Qed.

Lemma frames_ready cs r : ready r ->
  exists r', ready r' /\ mr_map r' = mr_map r /\ mr_processed r' = mr_processed r /\
    num_frames_per_scan g cs r = Some (Ok (max_frames (mr_map r), r')).
Proof.
  intros Y. unfold num_frames_per_scan. destruct (Z.eqb_spec (mr_nframes r) 0) as [E|E]; cbn [negb].
  - rewrite (scan_ready cs r Y). eexists. split; [|split; [|split; [|reflexivity]]]; auto.
    constructor; cbn [mr_streams mr_map mr_size mr_offset mr_dims mr_scan mr_threads mr_nframes mr_processed mr_futures]; auto; apply Y.
  - destruct (y_frames _ Y) as [E'|E']; [contradiction|]. rewrite E'. eexists. eauto.
Qed.

(** A reader that has read no more than the first header. *)
Definition fresh (r : mreader) : Prop := r = init \/ r = first.

Lemma read_first_fresh r : fresh r -> read_first_header r = Ok first.
Proof.
  intros [->| ->]; [apply read_first_ok|]. unfold read_first_header, first. cbn [mr_size].
  pose proof N_bound. destruct (Z.eqb_spec N 0); [lia|reflexivity].
Qed.

Lemma scan_fresh cs r : fresh r -> initialize_scan_map g cs r = initialize_scan_map g cs init.
Proof. intros F. unfold initialize_scan_map. now rewrite (read_first_fresh r F), read_first_ok. Qed.

Lemma dims_fresh r : fresh r -> scan_dimensions r = Ok ((s_sw r0, s_sh r0), first).
Proof. intros F. unfold scan_dimensions. now rewrite (read_first_fresh r F). Qed.

Lemma dims_ready r : ready r -> scan_dimensions r = Ok ((s_sw r0, s_sh r0), r).
Proof.
  intros Y. unfold scan_dimensions, read_first_header. rewrite (y_size _ Y).
  pose proof N_bound. destruct (Z.eqb_spec N 0); [lia|]. cbn [negb bind]. now rewrite (y_dims _ Y).
Qed.

(** On a reader nothing was loaded with, every call first prepares it. *)
Lemma read_all_init r cs1 cs2 res : fresh r -> mp_read_all g cs1 cs2 r = Some res ->
  exists r1, ready r1 /\ mr_processed r1 = 0 /\ mp_read_all g cs1 cs2 r1 = Some res.
Proof.
  intros F H. unfold mp_read_all in *. rewrite (scan_fresh cs1 r F) in H. destruct (initialize_scan_map g cs1 init) as [o|] eqn:E; [|discriminate].
  destruct (scan_init cs1 o E) as (r1 & -> & Y & H0). exists r1. split; auto. split; auto.
  rewrite (scan_ready cs1 r1 Y). exact H.
Qed.

Lemma load_init r cs img idxs x : fresh r -> load_frames g cs img idxs r = Some x ->
  exists r1, ready r1 /\ mr_processed r1 = 0 /\ load_frames g cs img idxs r1 = Some x.
Proof.
  intros F H. unfold load_frames in *. rewrite (scan_fresh cs r F) in H. destruct (initialize_scan_map g cs init) as [o|] eqn:E; [|discriminate].
  destruct (scan_init cs o E) as (r1 & -> & Y & H0). exists r1. split; auto. split; auto.
  rewrite (scan_ready cs r1 Y). exact H.
Qed.

Lemma frames_init r cs x : fresh r -> num_frames_per_scan g cs r = Some x ->
  exists r1, ready r1 /\ mr_processed r1 = 0 /\ num_frames_per_scan g cs r1 = Some x.
Proof.
  intros F H. unfold num_frames_per_scan in H. assert (mr_nframes r = 0) as E0 by (now destruct F as [->| ->]).
  rewrite E0 in H. change (negb (0 =? 0)) with false in H. cbv iota in H. rewrite (scan_fresh cs r F) in H.
  destruct (initialize_scan_map g cs init) as [o|] eqn:E; [|discriminate].
  destruct (scan_init cs o E) as (r1 & -> & Y & H0). exists r1. split; auto. split; auto.
  destruct (frames_ready cs r1 Y) as (r' & _ & _ & _ & E').
  unfold num_frames_per_scan in *. destruct (Z.eqb_spec (mr_nframes r1) 0) as [En|En]; cbn [negb] in *.
  - rewrite (scan_ready cs r1 Y). exact H.
  - exfalso. unfold initialize_scan_map in E. rewrite read_first_ok in E. cbn [mr_map first] in E.
    destruct (hrun _ _ _ _) as [[s| | |]|]; try discriminate. destruct (hfinished s); [|discriminate].
    cbn [mr_futures first app mr_threads] in E. rewrite get_all_true in E. cbn [bind lift] in E. unfold lift in E. injection E as <-. apply En. reflexivity.
Qed.

Lemma call_inv r r' : fresh r \/ ready r -> mcall g r r' -> fresh r' \/ ready r'.
Proof.
  intros HI H. destruct H as [cs1 cs2 r bs f r' H|cs img idxs r res r' Hi Hx H|cs r n r' H|r d r' H]; [right|right|right|].
  - assert (exists r1, ready r1 /\ mp_read_all g cs1 cs2 r1 = Some (Ok (bs, f, r'))) as (r1 & Y & H1).
    { destruct HI as [F|Y]; [|eauto]. destruct (read_all_init _ _ _ _ F H) as (r1 & Y & _ & H1). eauto. }
    destruct (read_all_ready _ _ _ _ Y H1) as (bs' & f' & r'' & E & Y' & _). injection E as <- <- <-. auto.
  - assert (exists r1, ready r1 /\ load_frames g cs img idxs r1 = Some (res, r')) as (r1 & Y & H1).
    { destruct HI as [F|Y]; [|eauto]. destruct (load_init _ _ _ _ _ F H) as (r1 & Y & _ & H1). eauto. }
    destruct (load_ready cs img idxs r1 Y Hi Hx) as (r'' & Y' & _ & _ & E). rewrite E in H1. injection H1 as _ <-. auto.
  - assert (exists r1, ready r1 /\ num_frames_per_scan g cs r1 = Some (Ok (n, r'))) as (r1 & Y & H1).
    { destruct HI as [F|Y]; [|eauto]. destruct (frames_init _ _ _ F H) as (r1 & Y & _ & H1). eauto. }
    destruct (frames_ready cs r1 Y) as (r'' & Y' & _ & _ & E). rewrite E in H1. injection H1 as _ <-. auto.
  - destruct HI as [F|Y].
    + rewrite (dims_fresh r F) in H. injection H as _ <-. left. now right.
    + rewrite (dims_ready r Y) in H. injection H as _ <-. now right.
Qed.

Lemma calls_inv r : mcalls g init r -> fresh r \/ ready r.
Proof.
  intros H. remember init as i eqn:Ei. induction H; subst; [left; now left|]. eapply call_inv; eauto.
Qed.
End Reader.
