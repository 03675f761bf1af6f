(** C20-C23: what SectorStreamMultiPassThreadedReader guarantees for every
    recorded scan, number of threads, interleaving and sequence of calls. *)
From Coq Require Import String ZArith List Lia Bool Permutation Sorting.Sorted.
From Verif Require Import Base BaseFacts PermFacts BlockModel StreamModel StreamSpec SectorModel
  SectorSpec SectorProofs SectorProps ThreadedModel MultipassModel MultipassSpec MultipassProofs
  MultipassFrames MultipassReader.
Import ListNotations.
Open Scope Z_scope.

(** ** C20: the scan map *)

Lemma lookup_get m p fn sec : lookup m p fn sec =
  match nth_error m (Z.to_nat p) with
  | Some fms => match map_get fn fms with
                | Some fm => match nth_error fm (Z.to_nat sec) with
                             | Some (Some l) => Some (l_stream l, l_offset l)
                             | _ => None
                             end
                | None => None
                end
  | None => None
  end.
Proof.
  unfold lookup. destruct (nth_error m _) as [fms|]; auto.
  assert (map_get fn fms = option_map snd (find (fun e => fst e =? fn) fms)) as ->.
  { induction fms as [|[k a] t IH]; simpl; auto. destruct (k =? fn); auto. }
  destruct (find _ fms); reflexivity.
Qed.

Lemma map_final_lookup g fs N m p fn sec i off : map_final g fs N m ->
  0 <= p < N -> 0 <= sec < 4 ->
  (lookup m p fn sec = Some (i, off) <-> located g fs p fn sec i off).
Proof.
  intros [HL HM] Hp Hsec. rewrite lookup_get. unfold located.
  destruct (nth_error m (Z.to_nat p)) as [fms|] eqn:E.
  2: { exfalso. apply nth_error_None in E. unfold Zlen in HL. lia. }
  destruct (HM _ _ E) as (_ & Hk & Hs). rewrite Z2Nat.id in * by lia. split.
  - destruct (map_get fn fms) as [fm|] eqn:Eg; [|discriminate].
    destruct (nth_error fm (Z.to_nat sec)) as [[l|]|] eqn:En; try discriminate.
    intros H. injection H as <- <-. apply (Hs _ _ Eg) in En as (i & k & r & H1 & H2 & H3 & ->); auto.
    exists k, r. auto.
  - intros (k & r & H1 & H2 & H3 & ->).
    destruct (proj2 (Hk fn)) as [fm Eg]; [exists i, k, (sec, r); auto|]. rewrite Eg.
    assert (En : nth_error fm (Z.to_nat sec) = Some (Some (mkLoc sec i (Z.of_nat k * record_bytes g + 16)))).
    { apply (Hs _ _ Eg); auto. exists i, k, r. auto. }
    rewrite En. reflexivity.
Qed.

Lemma map_final_keys g fs N m p : map_final g fs N m -> 0 <= p < N ->
  frame_numbers fs p (map fst (nth (Z.to_nat p) m [])).
Proof.
  intros HM Hp. split; [apply (keys_sorted g fs N m HM)|]. intros fn. apply (keys_iff g fs N m HM p fn Hp).
Qed.

(** C20: whatever the interleaving of the header pass, it ends without
    undefined behaviour or exception, and the map has an entry for exactly the
    sectors in the files, with the file they are in and the offset of their data. *)
Theorem multipass_scan_map : forall g fs r0 threads hw r cs res,
  good_scan g fs r0 (init_threads threads hw) ->
  multi_reader (map encode_sfile fs) threads hw = Ok r ->
  initialize_scan_map g cs r = Some res ->
  exists r', res = Ok r' /\ Zlen (mr_map r') = s_sw r0 * s_sh r0 /\
    forall p, 0 <= p < s_sw r0 * s_sh r0 ->
      frame_numbers fs p (map fst (nth (Z.to_nat p) (mr_map r') [])) /\
      forall fn sec i off, 0 <= sec < 4 ->
        (lookup (mr_map r') p fn sec = Some (i, off) <-> located g fs p fn sec i off).
Proof.
  intros g fs r0 threads hw r cs res HG Hr H.
  rewrite (multi_reader_init g fs r0 _ HG threads hw r eq_refl Hr) in H.
  destruct (scan_init g fs r0 _ HG cs res H) as (r' & -> & Y & _). exists r'. split; auto.
  pose proof (y_map _ _ _ _ _ Y) as HM. split; [apply HM|]. intros p Hp.
  split; [eapply map_final_keys; eauto|]. intros. eapply map_final_lookup; eauto.
Qed.

(** C20: the map does not depend on the interleaving or the number of threads. *)
Theorem multipass_scan_map_deterministic : forall g fs r0 t1 hw1 r1 cs1 r1' t2 hw2 r2 cs2 r2',
  good_scan g fs r0 (init_threads t1 hw1) -> good_scan g fs r0 (init_threads t2 hw2) ->
  multi_reader (map encode_sfile fs) t1 hw1 = Ok r1 ->
  multi_reader (map encode_sfile fs) t2 hw2 = Ok r2 ->
  initialize_scan_map g cs1 r1 = Some (Ok r1') ->
  initialize_scan_map g cs2 r2 = Some (Ok r2') ->
  mr_map r1' = mr_map r2'.
Proof.
  intros g fs r0 t1 hw1 r1 cs1 r1' t2 hw2 r2 cs2 r2' G1 G2 H1 H2 I1 I2.
  rewrite (multi_reader_init g fs r0 _ G1 t1 hw1 r1 eq_refl H1) in I1.
  rewrite (multi_reader_init g fs r0 _ G2 t2 hw2 r2 eq_refl H2) in I2.
  destruct (scan_init g fs r0 _ G1 cs1 _ I1) as (x1 & E1 & Y1 & _). injection E1 as <-.
  destruct (scan_init g fs r0 _ G2 cs2 _ I2) as (x2 & E2 & Y2 & _). injection E2 as <-.
  eapply map_final_unique; [apply (y_map _ _ _ _ _ Y1)|apply (y_map _ _ _ _ _ Y2)].
Qed.

(** The header pass: a state the workers can reach. *)
Definition hreachable (g : geom) (fs : list sfile) (n : Z) (workers : nat) (s : hstate) : Prop :=
  exists cs, hrun g (Zlen fs) cs (hstart fs n 0 workers) = Some (Ok s).

(** Progress of the header pass: a worker that is not done can always move, ... *)
Theorem multipass_headers_progress : forall g fs r0 workers s i w,
  good_scan g fs r0 workers ->
  hreachable g fs (s_sw r0 * s_sh r0) (Z.to_nat workers) s ->
  nth_error (hs_workers s) i = Some w -> w <> HDone ->
  exists s', hstep g (Zlen fs) i s = Some (Ok s').
Proof.
  intros g fs r0 workers s i w HG (cs & Hr) Hi Hw.
  pose proof (bound1 g fs r0 workers HG) as Hb. pose proof (N_bound g fs r0 workers HG) as HN. cbv zeta in HN.
  destruct HG as (Hg & _ & HW & _).
  destruct (hrun_ok g fs _ Hg HW 0 (Zlen fs) (all_files fs) (Z.le_refl _) _ cs Hb _ _ _ (hstart_ok g fs (s_sw r0 * s_sh r0) 0 (Zlen fs) (all_files fs) (Z.to_nat workers) ltac:(lia)) Hr)
    as (s' & dn & E & I). injection E as <-.
  exact (hstep_enabled g fs _ Hg HW 0 (Zlen fs) (all_files fs) (Z.le_refl _) _ _ s i w Hb I Hi Hw).
Qed.

(** ... and the workers together take at most (bytes + 4 files + 2 threads) steps. *)
Theorem multipass_headers_bounded : forall g fs r0 workers cs s,
  good_scan g fs r0 workers ->
  hrun g (Zlen fs) cs (hstart fs (s_sw r0 * s_sh r0) 0 (Z.to_nat workers)) = Some (Ok s) ->
  Zlen cs <= zsum (map (fun f => Zlen (snd (encode_sfile f))) fs) + 4 * Zlen fs + 2 * workers.
Proof.
  intros g fs r0 workers cs s HG Hr.
  pose proof (bound1 g fs r0 workers HG) as Hb. pose proof (N_bound g fs r0 workers HG) as HN. cbv zeta in HN.
  destruct HG as (Hg & _ & HW & _ & HT).
  pose proof (hrun_length g fs _ Hg HW 0 (Zlen fs) (all_files fs) (Z.le_refl _) _ cs Hb _ _ _ (hstart_ok g fs (s_sw r0 * s_sh r0) 0 (Zlen fs) (all_files fs) (Z.to_nat workers) ltac:(lia)) Hr) as HL.
  pose proof (hmeasure_nonneg (Zlen fs) s).
  assert (hmeasure (Zlen fs) (hstart fs (s_sw r0 * s_sh r0) 0 (Z.to_nat workers)) =
    zsum (map (fun f => Zlen (snd (encode_sfile f))) fs) + 4 * Zlen fs + 2 * workers) as <-; [|lia].
  unfold hmeasure, hstart. cbn [hs_streams hs_processed hs_workers]. pose proof (Zlen_nonneg fs).
  rewrite map_map. f_equal; [f_equal|].
  - f_equal. apply map_ext. intros f. unfold left_bytes. cbn [ms_content ms_pos].
    pose proof (Zlen_nonneg (content f)). unfold content, encode_sfile in *. cbn [snd]. lia.
  - lia.
  - assert (forall n, zsum (map hweight (repeat HCheck n)) = 2 * Z.of_nat n) as ->; [|lia].
    induction n; [reflexivity|]. cbn [repeat map]. unfold zsum. cbn [fold_right].
    fold (zsum (map hweight (repeat HCheck n))). rewrite IHn. cbn [hweight]. lia.
Qed.

(** ** C21: the second pass *)

(** A prepared reader: what initialize_scan_map leaves (see multipass_scan_map);
    workers that start at position [q] and stop before [lim], as readAll does
    with the range of the reader. *)
Definition preachable (g : geom) (r0 : srec) (r : mreader) (lim q : Z) (workers : nat) (s : pstate) : Prop :=
  exists cs, prun g (mkPE (mr_map r) (s_sw r0, s_sh r0) (s_scan r0) lim) cs
                  (mkPS (mr_streams r) q [] (repeat PCheck workers) []) = Some (Ok s).

Lemma preachable_inv g fs r0 w r lim q s : good_scan g fs r0 w -> ready g fs r0 w r ->
  0 <= q -> q <= s_sw r0 * s_sh r0 -> lim <= s_sw r0 * s_sh r0 ->
  preachable g r0 r lim q (Z.to_nat w) s -> PInv g fs (s_sw r0 * s_sh r0) r0 (mr_map r) lim (Z.to_nat w) q s.
Proof.
  intros HG Y H0 Hq Hl (cs & Hr). pose proof (N_bound g fs r0 w HG) as HN. cbv zeta in HN.
  assert (Hb : Z.max lim q + Z.of_nat (Z.to_nat w) < 2 ^ 32).
  { destruct HG as (_ & _ & _ & _ & HT). lia. }
  destruct HG as (Hg & _ & HW & _).
  destruct (prun_ok g fs _ r0 Hg HW (mr_map r) (y_map _ _ _ _ _ Y) lim Hl (Z.to_nat w) q cs H0 Hb _ _
             (pstart_ok g fs _ r0 (mr_map r) lim (Z.to_nat w) q _ (y_str _ _ _ _ _ Y)) Hr) as (s' & E & I).
  injection E as <-. exact I.
Qed.

(** C21: at any moment of any execution the positions claimed so far are the
    first ones of the range, each claimed once; in the end, all of them. *)
Theorem multipass_claims_once : forall g fs r0 threads hw r cs r' lim q s,
  good_scan g fs r0 (init_threads threads hw) ->
  multi_reader (map encode_sfile fs) threads hw = Ok r ->
  initialize_scan_map g cs r = Some (Ok r') ->
  0 <= q <= s_sw r0 * s_sh r0 -> lim <= s_sw r0 * s_sh r0 ->
  preachable g r0 r' lim q (Z.to_nat (init_threads threads hw)) s ->
  NoDup (ps_claimed s) /\
  (forall p, In p (ps_claimed s) <-> q <= p < Z.min (ps_processed s) lim) /\
  (pfinished s = true -> forall p, In p (ps_claimed s) <-> q <= p < lim).
Proof.
  intros g fs r0 threads hw r cs r' lim q s HG Hr Hi Hq Hl Hs.
  rewrite (multi_reader_init g fs r0 _ HG threads hw r eq_refl Hr) in Hi.
  destruct (scan_init g fs r0 _ HG cs _ Hi) as (x & E & Y & _). injection E as <-.
  pose proof (preachable_inv _ _ _ _ _ _ _ _ HG Y (proj1 Hq) (proj2 Hq) Hl Hs) as I.
  rewrite (p_claimed _ _ _ _ _ _ _ _ _ I). split; [apply NoDup_range|]. split.
  - intros p. apply in_range.
  - intros Hf. assert (Ht : (0 < Z.to_nat (init_threads threads hw))%nat) by (destruct HG as (_ & _ & _ & _ & HT); lia).
    destruct (pfinal _ _ _ _ _ _ _ _ _ Ht I Hf) as (H & _). intros p. rewrite in_range. lia.
Qed.

(** C21: the second pass never misbehaves and ends: a worker that is not done
    can always move, and the pass can be carried to its end from every
    reachable state. *)
Theorem multipass_frames_progress : forall g fs r0 threads hw r cs r' s i w,
  good_scan g fs r0 (init_threads threads hw) ->
  multi_reader (map encode_sfile fs) threads hw = Ok r ->
  initialize_scan_map g cs r = Some (Ok r') ->
  preachable g r0 r' (s_sw r0 * s_sh r0) 0 (Z.to_nat (init_threads threads hw)) s ->
  nth_error (ps_workers s) i = Some w -> w <> PDone ->
  exists s', pstep g (mkPE (mr_map r') (s_sw r0, s_sh r0) (s_scan r0) (s_sw r0 * s_sh r0)) i s = Some (Ok s').
Proof.
  intros g fs r0 threads hw r cs r' s i w HG Hr Hi Hs Hw Hd.
  rewrite (multi_reader_init g fs r0 _ HG threads hw r eq_refl Hr) in Hi.
  destruct (scan_init g fs r0 _ HG cs _ Hi) as (x & E & Y & _). injection E as <-.
  pose proof (N_bound g fs r0 _ HG) as HN. cbv zeta in HN.
  pose proof (preachable_inv _ _ _ _ _ _ _ _ HG Y (Z.le_refl 0) ltac:(lia) (Z.le_refl _) Hs) as I.
  pose proof (bound3 g fs r0 _ HG 0 ltac:(lia)) as Hb. cbv zeta in Hb.
  destruct HG as (Hg & _ & HW & _).
  eapply (pstep_enabled g fs _ r0 Hg HW (mr_map r') (y_map _ _ _ _ _ Y) _ (Z.le_refl _)); eauto. lia.
Qed.

Lemma read_all_can g fs r0 w r : good_scan g fs r0 w -> ready g fs r0 w r -> mr_processed r = 0 ->
  exists cs x, mp_read_all g [] cs r = Some (Ok x).
Proof.
  intros HG Y H0. pose proof (N_bound g fs r0 _ HG) as HN. cbv zeta in HN.
  destruct (prun_can_finish g fs r0 w HG (mr_map r) 0 _ _ ltac:(lia) (Z.le_refl _) (y_map _ _ _ _ _ Y)
             (pstart_ok g fs _ r0 (mr_map r) _ _ 0 _ (y_str _ _ _ _ _ Y))) as (cs & s & Hr & Hf).
  exists cs. eexists. unfold mp_read_all. rewrite (scan_ready g fs r0 w HG [] r Y).
  unfold second_pass. rewrite (env_ok g fs r0 w HG r Y), (y_thr _ _ _ _ _ Y), H0. rewrite Hr, Hf. reflexivity.
Qed.

Theorem multipass_read_all_can_finish : forall g fs r0 threads hw r,
  good_scan g fs r0 (init_threads threads hw) ->
  multi_reader (map encode_sfile fs) threads hw = Ok r ->
  exists cs1 cs2 x, mp_read_all g cs1 cs2 r = Some (Ok x).
Proof.
  intros g fs r0 threads hw r HG Hr.
  rewrite (multi_reader_init g fs r0 _ HG threads hw r eq_refl Hr).
  destruct (scan_can_init g fs r0 _ HG) as (cs1 & r1 & Hi).
  destruct (scan_init g fs r0 _ HG cs1 _ Hi) as (x & E & Y & H0). injection E as <-.
  destruct (read_all_can _ _ _ _ _ HG Y H0) as (cs2 & x & H). exists cs1, cs2, x.
  unfold mp_read_all in *. rewrite Hi. rewrite (scan_ready g fs r0 _ HG [] r1 Y) in H. exact H.
Qed.

(** C21, C22: the first readAll of a reader, whatever was loaded before it and
    whatever the interleaving, delivers exactly once the block of every recorded
    frame of every position, and waiting for it succeeds. *)
Inductive loads (g : geom) : mreader -> mreader -> Prop :=
| loads_none r : loads g r r
| loads_load r r1 cs img idxs res r2 : loads g r r1 -> 0 <= img -> Forall (fun i => 0 <= i) idxs ->
    load_frames g cs img idxs r1 = Some (res, r2) -> loads g r r2
| loads_frames r r1 cs n r2 : loads g r r1 -> num_frames_per_scan g cs r1 = Some (Ok (n, r2)) -> loads g r r2
| loads_dims r r1 d r2 : loads g r r1 -> scan_dimensions r1 = Ok (d, r2) -> loads g r r2.

Lemma loads_inv g fs r0 w r : good_scan g fs r0 w -> loads g (init fs w) r ->
  fresh fs r0 w r \/ ready g fs r0 w r /\ mr_processed r = 0.
Proof.
  intros HG H. remember (init fs w) as i eqn:Ei.
  induction H as [r|r r1 cs img idxs res r2 Hl IH Hi Hx H|r r1 cs n r2 Hl IH H|r r1 d r2 Hl IH H];
    [left; now left|right; specialize (IH Ei)|right; specialize (IH Ei)|specialize (IH Ei)].
  - assert (exists r3, ready g fs r0 w r3 /\ mr_processed r3 = 0 /\ load_frames g cs img idxs r3 = Some (res, r2)) as (r3 & Y & H0 & H3).
    { destruct IH as [F|[Y H0]]; [|eauto]. eapply load_init; eauto. }
    destruct (load_ready g fs r0 w HG cs img idxs r3 Y Hi Hx) as (r4 & Y4 & _ & E4 & E). rewrite E in H3.
    injection H3 as _ <-. split; auto. congruence.
  - assert (exists r3, ready g fs r0 w r3 /\ mr_processed r3 = 0 /\ num_frames_per_scan g cs r3 = Some (Ok (n, r2))) as (r3 & Y & H0 & H3).
    { destruct IH as [F|[Y H0]]; [|eauto]. eapply frames_init; eauto. }
    destruct (frames_ready g fs r0 w HG cs r3 Y) as (r4 & Y4 & _ & E4 & E). rewrite E in H3.
    injection H3 as _ <-. split; auto. congruence.
  - destruct IH as [F|[Y H0]].
    + rewrite (dims_fresh g fs r0 w HG r1 F) in H. injection H as _ <-. left. now right.
    + rewrite (dims_ready g fs r0 w HG r1 Y) in H. injection H as _ <-. now right.
Qed.

Theorem multipass_read_all_exactly_once : forall g fs r0 threads hw r r1 cs1 cs2 res,
  good_scan g fs r0 (init_threads threads hw) ->
  multi_reader (map encode_sfile fs) threads hw = Ok r ->
  loads g r r1 ->
  mp_read_all g cs1 cs2 r1 = Some res ->
  exists bs l r2, res = Ok (bs, Ok l, r2) /\
    exists ks, NoDup ks /\ (forall k, In k ks <-> has_frame fs (fst k) (snd k)) /\
      Permutation bs (map (fun k => multi_block g r0 fs (fst k) (snd k)) ks).
Proof.
  intros g fs r0 threads hw r r1 cs1 cs2 res HG Hr Hl H.
  rewrite (multi_reader_init g fs r0 _ HG threads hw r eq_refl Hr) in Hl.
  assert (exists r3, ready g fs r0 (init_threads threads hw) r3 /\ mr_processed r3 = 0 /\ mp_read_all g cs1 cs2 r3 = Some res)
    as (r3 & Y & H0 & H3).
  { destruct (loads_inv _ _ _ _ _ HG Hl) as [F|[Y H0]]; [|eauto]. eapply read_all_init; eauto. }
  destruct (read_all_ready g fs r0 _ HG cs1 cs2 r3 res Y H3) as (bs & f & r' & -> & _ & _ & _ & Hd & _).
  destruct (Hd H0) as (Hd' & l & ->). exists bs, l, r'. split; auto.
Qed.

(** ** C22: the assembled block *)

(** C22: what processFrame hands over for a frame of a position, reading
    through the streams in whatever state earlier calls left them. *)
Theorem multipass_frame_assembled : forall g fs r0 threads hw r r1 p fn fms fm,
  good_scan g fs r0 (init_threads threads hw) ->
  multi_reader (map encode_sfile fs) threads hw = Ok r ->
  mcalls g r r1 -> 0 <= p ->
  nth_error (mr_map r1) (Z.to_nat p) = Some fms -> In (fn, fm) fms ->
  exists ss, process_frame g 5 (mr_dims r1) (mr_scan r1) p fn fm (mr_streams r1) =
             Ok (multi_block g r0 fs p fn, ss).
Proof.
  intros g fs r0 threads hw r r1 p fn fms fm HG Hr Hc Hp Hm Hf.
  rewrite (multi_reader_init g fs r0 _ HG threads hw r eq_refl Hr) in Hc.
  destruct (calls_inv g fs r0 _ HG r1 Hc) as [[->| ->]|Y].
  1, 2: simpl in Hm; destruct (Z.to_nat p); discriminate.
  - rewrite (y_dims _ _ _ _ _ Y), (y_scan _ _ _ _ _ Y).
    assert (Hg' : map_get fn fms = Some fm).
    { apply map_get_in; auto. apply (proj2 (y_map _ _ _ _ _ Y) _ _ Hm). }
    destruct HG as (Hg & _ & HW & _).
    destruct (process_frame_ok g fs _ r0 Hg HW (mr_map r1) (y_map _ _ _ _ _ Y) p fn fms fm _ Hp Hm Hg' (y_str _ _ _ _ _ Y))
      as (ss & E & _). eauto.
Qed.

Lemma in_4_complete (rs : list Z) : NoDup rs -> (forall j, In j rs -> 0 <= j < 4) ->
  (Zlen rs = 4 <-> forall j, 0 <= j < 4 -> In j rs).
Proof.
  intros Hnd Hr. split.
  - intros HL j Hj.
    assert (Hi : incl rs (zseq 4)) by (intros x Hx; apply in_zseq; auto).
    assert (incl (zseq 4) rs).
    { apply NoDup_length_incl; auto. unfold Zlen in HL. replace (List.length (zseq 4)) with 4%nat by reflexivity. lia. }
    apply H. apply in_zseq. auto.
  - intros H. assert (incl (zseq 4) rs) by (intros x Hx; apply H; now apply in_zseq).
    assert (Hi : incl rs (zseq 4)) by (intros x Hx; apply in_zseq; auto).
    pose proof (NoDup_incl_length Hnd Hi). pose proof (NoDup_incl_length (NoDup_zseq 4) H0).
    replace (List.length (zseq 4)) with 4%nat in * by reflexivity. unfold Zlen. lia.
Qed.

(** C22, in terms of pixels: the block of frame [fn] at position [p] has the
    pixels of every recorded sector in the rows of that sector and zero in the
    rows of the others; it is flagged complete iff all four sectors are there. *)
Theorem multipass_block_pixels : forall g fs r0 w p fn,
  good_scan g fs r0 w ->
  let b := multi_block g r0 fs p fn in
  exists d, data b = Some d /\
  Zlen d = g_w g * g_h g /\
  (forall i k sec r, record_at fs i k = Some (sec, r) -> s_pos r = p -> s_frame r = fn ->
     forall x, 0 <= x < g_w g * (g_h g / 4) ->
       zat d (sec * (g_w g * (g_h g / 4)) + x) = zat (s_px r) x) /\
  (forall sec, 0 <= sec < 4 ->
     (forall i k r, record_at fs i k = Some (sec, r) -> ~ (s_pos r = p /\ s_frame r = fn)) ->
     forall x, 0 <= x < g_w g * (g_h g / 4) ->
       zat d (sec * (g_w g * (g_h g / 4)) + x) = 0) /\
  (complete (hdr b) = [true] <->
     forall sec, 0 <= sec < 4 -> exists i k r, record_at fs i k = Some (sec, r) /\ s_pos r = p /\ s_frame r = fn) /\
  (complete (hdr b) = [true] \/ complete (hdr b) = [false]).
Proof.
  intros g fs r0 w p fn HG b.
  destruct HG as (Hg & _ & HW & _). destruct Hg as (Hw & Hh & Hmw & Hmh & Hbd).
  exists (assembled g 5 (frame_records fs p fn)). set (d := assembled g 5 (frame_records fs p fn)).
  assert (Hbd' : d = assembled g 5 (frame_records fs p fn)) by reflexivity. split; [reflexivity|].
  assert (Hq : g_w g * g_h g = 4 * (g_w g * (g_h g / 4))).
  { assert (g_h g = 4 * (g_h g / 4)) by (pose proof (Z_div_mod_eq_full (g_h g) 4); lia). nia. }
  pose proof (frame_sectors_nodup g fs _ HW p fn) as Hnd.
  set (Q := g_w g * (g_h g / 4)) in *.
  assert (Hsrc : forall sec x, 0 <= x < Q -> pixel_source g 5 (sec * Q + x) = (sec, x)).
  { intros sec x Hx. unfold pixel_source. replace (5 =? 4) with false by reflexivity. fold Q.
    f_equal; [rewrite Z.div_add_l by lia; rewrite Z.div_small by lia; lia|].
    rewrite Z.add_comm, Z_mod_plus_full. apply Z.mod_small. lia. }
  assert (Hat : forall sec x, 0 <= sec < 4 -> 0 <= x < Q -> zat d (sec * Q + x) =
     match find (fun e => fst e =? sec) (frame_records fs p fn) with Some e => zat (s_px (snd e)) x | None => 0 end).
  { intros sec x Hs Hx. rewrite Hbd'. unfold assembled. rewrite zat_map_zseq by nia. rewrite Hsrc by auto. reflexivity. }
  split; [rewrite Hbd'; unfold assembled, Zlen; rewrite map_length; fold (Zlen (zseq (g_w g * g_h g))); rewrite Zlen_zseq; nia|].
  split; [|split; [|split]].
  - intros i k sec r Hr Hp Hf x Hx.
    assert (Hin : In (sec, r) (frame_records fs p fn)).
    { apply frame_records_in. split; auto. apply record_at_in. eauto. }
    assert (Hs : 0 <= sec < 4).
    { apply frame_records_in in Hin as [Hin _]. destruct HW as [HW1 _]. apply (HW1 _ Hin). }
    rewrite Hat by auto.
    assert (find (fun e => fst e =? sec) (frame_records fs p fn) = Some (sec, r)) as ->; [|reflexivity].
    clear - Hin Hnd. induction (frame_records fs p fn) as [|[s' r'] l IH]; [contradiction|]. simpl in *.
    inversion Hnd as [|? ? Hni Hnd']; subst. destruct (Z.eqb_spec s' sec) as [->|Hne].
    + destruct Hin as [E|Hin]; [congruence|]. exfalso. apply Hni. apply in_map_iff. exists (sec, r). auto.
    + destruct Hin as [E|Hin]; [congruence|auto].
  - intros sec Hs Hno x Hx. rewrite Hat by auto.
    destruct (find _ _) as [[s' r']|] eqn:E; auto. exfalso.
    apply find_some in E as [Hin E]. cbn [fst] in E. apply Z.eqb_eq in E. subst s'.
    apply frame_records_in in Hin as (Hin & H1 & H2). apply record_at_in in Hin as (i & k & Hr).
    apply (Hno _ _ _ Hr). auto.
  - assert (complete (hdr b) = [Zlen (frame_records fs p fn) =? 4]) as -> by reflexivity.
    assert (Hz : Zlen (frame_records fs p fn) = Zlen (map fst (frame_records fs p fn))) by (unfold Zlen; now rewrite map_length).
    rewrite Hz.
    assert (Hr : forall j, In j (map fst (frame_records fs p fn)) -> 0 <= j < 4).
    { intros j Hj. apply in_map_iff in Hj as (e & <- & He). apply frame_records_in in He as [He _].
      destruct HW as [HW1 _]. apply (HW1 _ He). }
    pose proof (in_4_complete _ Hnd Hr) as Hc.
    assert (Hiff : forall sec, In sec (map fst (frame_records fs p fn)) <->
              exists i k r, record_at fs i k = Some (sec, r) /\ s_pos r = p /\ s_frame r = fn).
    { intros sec. rewrite in_map_iff. split.
      - intros ([s' r'] & <- & He). apply frame_records_in in He as (He & H1 & H2).
        apply record_at_in in He as (i & k & He). exists i, k, r'. auto.
      - intros (i & k & r & Hr' & H1 & H2). exists (sec, r). split; auto. apply frame_records_in. split; auto.
        apply record_at_in. eauto. }
    split.
    + intros E. injection E as E. apply Z.eqb_eq in E. intros sec Hs. apply Hiff. apply Hc; auto.
    + intros H. f_equal. apply Z.eqb_eq. apply Hc. intros j Hj. apply Hiff. auto.
  - unfold b. cbn [hdr multi_block complete]. destruct (_ =? 4); auto.
Qed.

(** ** C23: loading frames *)

(** C23: after any sequence of calls, loadFrames returns the requested frames
    in the requested order (index [i] is the [i]-th smallest frame number
    recorded at the position), and raises for a position outside the scan or an
    index beyond the recorded frames. *)
Theorem multipass_load_frames : forall g fs r0 threads hw r r1 cs img idxs res r2,
  good_scan g fs r0 (init_threads threads hw) ->
  multi_reader (map encode_sfile fs) threads hw = Ok r ->
  mcalls g r r1 -> 0 <= img -> Forall (fun i => 0 <= i) idxs ->
  load_frames g cs img idxs r1 = Some (res, r2) ->
  (s_sw r0 * s_sh r0 <= img -> exists m, res = Throw m) /\
  (img < s_sw r0 * s_sh r0 -> exists ks, frame_numbers fs img ks /\
     ((exists i, In i idxs /\ Zlen ks <= i) -> exists m, res = Throw m) /\
     ((forall i, In i idxs -> i < Zlen ks) ->
        res = Ok (map (fun i => multi_block g r0 fs img (zat ks i)) idxs))).
Proof.
  intros g fs r0 threads hw r r1 cs img idxs res r2 HG Hr Hc Hi Hx H.
  rewrite (multi_reader_init g fs r0 _ HG threads hw r eq_refl Hr) in Hc.
  assert (exists r3, ready g fs r0 (init_threads threads hw) r3 /\ load_frames g cs img idxs r3 = Some (res, r2)) as (r3 & Y & H3).
  { destruct (calls_inv g fs r0 _ HG r1 Hc) as [F|Y]; [|eauto].
    destruct (load_init g fs r0 _ HG _ _ _ _ _ F H) as (r3 & Y & _ & H3). eauto. }
  destruct (load_ready g fs r0 _ HG cs img idxs r3 Y Hi Hx) as (r4 & _ & _ & _ & E). rewrite E in H3.
  injection H3 as Hres _. subst res. split.
  - intros Hle. destruct (Z.leb_spec (s_sw r0 * s_sh r0) img); [eauto|lia].
  - intros Hlt. destruct (Z.leb_spec (s_sw r0 * s_sh r0) img); [lia|].
    exists (keys (mr_map r3) img). split; [|split].
    + apply (map_final_keys g fs _ (mr_map r3) img (y_map _ _ _ _ _ Y)). lia.
    + intros (i & Hin & Hge). destruct (forallb _ idxs) eqn:Ef; [|eauto].
      rewrite forallb_forall in Ef. specialize (Ef _ Hin). apply Z.ltb_lt in Ef. lia.
    + intros Hall. assert (forallb (fun i => i <? Zlen (keys (mr_map r3) img)) idxs = true) as ->; [|reflexivity].
      apply forallb_forall. intros i Hin. apply Z.ltb_lt. auto.
Qed.

(** Frame index and frame number determine each other: the list of
    [frame_numbers] is unique. *)
Theorem multipass_frame_numbers_unique : forall fs p k1 k2,
  frame_numbers fs p k1 -> frame_numbers fs p k2 -> k1 = k2.
Proof.
  intros fs p k1 k2 [S1 I1] [S2 I2].
  assert (Hin : forall x, In x k1 <-> In x k2) by (intros; rewrite I1, I2; tauto). clear I1 I2.
  revert k2 S2 Hin. induction S1 as [|a l S IH Ha]; intros k2 S2 Hin.
  - destruct k2 as [|b k2]; auto. exfalso. apply (proj2 (Hin b)). now left.
  - destruct S2 as [|b m S2 Hb]; [exfalso; apply (proj1 (Hin a)); now left|].
    rewrite Forall_forall in Ha, Hb.
    assert (a = b).
    { pose proof (proj1 (Hin a) (or_introl eq_refl)) as [E|E]; auto.
      pose proof (proj2 (Hin b) (or_introl eq_refl)) as [E'|E']; auto. specialize (Hb _ E). specialize (Ha _ E'). lia. }
    subst b. f_equal. apply IH; auto. intros x. split; intros Hx.
    + destruct (proj1 (Hin x) (or_intror Hx)) as [<-|]; auto. specialize (Ha _ Hx). lia.
    + destruct (proj2 (Hin x) (or_intror Hx)) as [<-|]; auto. specialize (Hb _ Hx). lia.
Qed.

(** numFramesPerScan is the largest number of frames recorded at a position. *)
Lemma max_frames_ok (m : scanmap) : (forall x, In x m -> Zlen x < 2 ^ 32) -> m <> [] ->
  (forall x, In x m -> Zlen x <= max_frames m) /\ exists x, In x m /\ Zlen x = max_frames m.
Proof.
  intros Hb Hne. unfold max_frames.
  assert (H : forall l a, (forall x, In x l -> Zlen x < 2 ^ 32) ->
    let v := fold_left (fun acc (x : list (Z * list (option loc))) => if acc <? Zlen x then u32 (Zlen x) else acc) l a in
    a <= v /\ (forall x, In x l -> Zlen x <= v) /\ (v = a \/ exists x, In x l /\ Zlen x = v)).
  { induction l as [|x l IH]; intros a Hb'; cbn [fold_left].
    - split; [lia|]. split; [contradiction|auto].
    - specialize (IH (if a <? Zlen x then u32 (Zlen x) else a) ltac:(intros; apply Hb'; now right)).
      assert (Hu : u32 (Zlen x) = Zlen x).
      { unfold u32. apply Z.mod_small. pose proof (Zlen_nonneg x). specialize (Hb' x (or_introl eq_refl)). lia. }
      rewrite Hu in *. cbv zeta in *. set (v := fold_left _ l _) in *. destruct IH as (I1 & I2 & I3).
      destruct (Z.ltb_spec a (Zlen x)).
      + split; [lia|]. split.
        * intros y [<-|Hy]; [lia|auto].
        * right. destruct I3 as [->|(y & Hy & E)]; [exists x|exists y]; split; auto; [now left|now right].
      + split; [lia|]. split.
        * intros y [<-|Hy]; [lia|auto].
        * destruct I3 as [->|(y & Hy & E)]; [now left|right; exists y; split; auto; now right]. }
  destruct (H m 0 Hb) as (H1 & H2 & H3). split; auto. destruct H3 as [E|E]; auto.
  rewrite E in *. destruct m as [|x m]; [congruence|]. exists x. split; [now left|].
  specialize (H2 x (or_introl eq_refl)). pose proof (Zlen_nonneg x). lia.
Qed.

Theorem multipass_num_frames : forall g fs r0 threads hw r r1 cs res,
  good_scan g fs r0 (init_threads threads hw) -> Zlen (all_records fs) < 2 ^ 32 ->
  multi_reader (map encode_sfile fs) threads hw = Ok r ->
  mcalls g r r1 ->
  num_frames_per_scan g cs r1 = Some res ->
  exists n r2, res = Ok (n, r2) /\
    (forall p ks, 0 <= p < s_sw r0 * s_sh r0 -> frame_numbers fs p ks -> Zlen ks <= n) /\
    exists p ks, 0 <= p < s_sw r0 * s_sh r0 /\ frame_numbers fs p ks /\ Zlen ks = n.
Proof.
  intros g fs r0 threads hw r r1 cs res HG Hrec Hr Hc H.
  rewrite (multi_reader_init g fs r0 _ HG threads hw r eq_refl Hr) in Hc.
  assert (exists r3, ready g fs r0 (init_threads threads hw) r3 /\ num_frames_per_scan g cs r3 = Some res) as (r3 & Y & H3).
  { destruct (calls_inv g fs r0 _ HG r1 Hc) as [F|Y]; [|eauto].
    destruct (frames_init g fs r0 _ HG _ _ _ F H) as (r3 & Y & _ & H3). eauto. }
  destruct (frames_ready g fs r0 _ HG cs r3 Y) as (r4 & _ & _ & _ & E). rewrite E in H3. injection H3 as <-.
  exists (max_frames (mr_map r3)), r4. split; auto.
  pose proof (y_map _ _ _ _ _ Y) as HM. pose proof (map_nonempty g fs r0 _ HG _ HM) as Hne.
  assert (Hkeys : forall p x, nth_error (mr_map r3) p = Some x -> frame_numbers fs (Z.of_nat p) (map fst x) /\ 0 <= Z.of_nat p < s_sw r0 * s_sh r0).
  { intros p x Hx. assert (p < List.length (mr_map r3))%nat by (apply nth_error_Some; congruence).
    assert (Hp : 0 <= Z.of_nat p < s_sw r0 * s_sh r0) by (destruct HM as [HL _]; unfold Zlen in HL; lia).
    split; auto. pose proof (map_final_keys g fs _ (mr_map r3) (Z.of_nat p) HM Hp) as Hf.
    rewrite Nat2Z.id in Hf. now rewrite (nth_error_nth _ _ _ Hx) in Hf. }
  assert (Hlen : forall x : list (Z * list (option loc)), Zlen (map fst x) = Zlen x) by (intros; unfold Zlen; now rewrite map_length).
  destruct (max_frames_ok (mr_map r3)) as (H1 & x & Hx & H2); auto.
  { intros x Hx. apply In_nth_error in Hx as [p Hp]. destruct (Hkeys p x Hp) as [[Hs Hin] _].
    rewrite <- Hlen.
    assert (Hnd : NoDup (map fst x)).
    { clear - Hs. induction Hs; constructor; auto. intros Hin. rewrite Forall_forall in H. specialize (H _ Hin). lia. }
    assert (Hincl : incl (map fst x) (map (fun e => s_frame (snd e)) (all_records fs))).
    { intros fn Hfn. apply Hin in Hfn. unfold has_frame in Hfn.
      destruct (frame_records fs (Z.of_nat p) fn) as [|e l] eqn:Ee; [congruence|].
      assert (He : In e (frame_records fs (Z.of_nat p) fn)) by (rewrite Ee; now left).
      apply frame_records_in in He as (He & _ & <-). apply in_map_iff. eauto. }
    pose proof (NoDup_incl_length Hnd Hincl) as HL. rewrite (map_length (fun e => s_frame (snd e))) in HL. unfold Zlen in *. lia. }
  split.
  - intros p ks Hp Hks. destruct (nth_error (mr_map r3) (Z.to_nat p)) as [y|] eqn:Ey.
    2: { exfalso. apply nth_error_None in Ey. destruct HM as [HL _]. unfold Zlen in HL. lia. }
    destruct (Hkeys _ _ Ey) as [Hf _]. rewrite Z2Nat.id in Hf by lia.
    rewrite (multipass_frame_numbers_unique _ _ _ _ Hks Hf), Hlen. apply H1. eapply nth_error_In; eauto.
  - apply In_nth_error in Hx as [p Hp]. destruct (Hkeys _ _ Hp) as [Hf Hr']. exists (Z.of_nat p), (map fst x).
    split; auto. split; auto. now rewrite Hlen.
Qed.

(** ** Findings *)

(** readAll works once per reader: every later one delivers nothing and its
    future raises. *)
Theorem multipass_second_read_all_refuted : forall g fs r0 threads hw r r1 cs1 cs2 bs f r2 r3 cs3 cs4 res,
  good_scan g fs r0 (init_threads threads hw) ->
  multi_reader (map encode_sfile fs) threads hw = Ok r ->
  mcalls g r r1 -> mp_read_all g cs1 cs2 r1 = Some (Ok (bs, f, r2)) ->
  mcalls g r2 r3 -> mp_read_all g cs3 cs4 r3 = Some res ->
  exists m r4, res = Ok ([], Throw m, r4).
Proof.
  intros g fs r0 threads hw r r1 cs1 cs2 bs f r2 r3 cs3 cs4 res HG Hr Hc H1 Hc2 H2.
  rewrite (multi_reader_init g fs r0 _ HG threads hw r eq_refl Hr) in Hc.
  pose proof (N_bound g fs r0 _ HG) as HN. cbv zeta in HN.
  assert (Hr2 : ready g fs r0 (init_threads threads hw) r2 /\ s_sw r0 * s_sh r0 <= mr_processed r2).
  { assert (exists ra, ready g fs r0 (init_threads threads hw) ra /\ mp_read_all g cs1 cs2 ra = Some (Ok (bs, f, r2))) as (ra & Y & H3).
    { destruct (calls_inv g fs r0 _ HG r1 Hc) as [F|Y]; [|eauto].
      destruct (read_all_init g fs r0 _ HG _ _ _ _ F H1) as (ra & Y & _ & H3). eauto. }
    destruct (read_all_ready g fs r0 _ HG cs1 cs2 ra _ Y H3) as (bs' & f' & r' & E & Y' & _ & Hp & _).
    injection E as <- <- <-. auto. }
  assert (Hr3 : ready g fs r0 (init_threads threads hw) r3 /\ s_sw r0 * s_sh r0 <= mr_processed r3).
  { clear H1 H2. induction Hc2 as [r2|ra rb rc Hab IH Hbc]; auto. specialize (IH Hr2) as [Y Hp].
    destruct Hbc as [c1 c2 rb bs' f' r' H|c img idxs rb res' r' Hi Hx H|c rb n r' H|rb d r' H].
    - destruct (read_all_ready g fs r0 _ HG _ _ _ _ Y H) as (b2 & f2 & r4 & E & Y' & _ & Hp' & _).
      injection E as <- <- <-. auto.
    - destruct (load_ready g fs r0 _ HG c img idxs rb Y Hi Hx) as (r4 & Y' & _ & Hp' & E). rewrite E in H.
      injection H as _ <-. split; auto. lia.
    - destruct (frames_ready g fs r0 _ HG c rb Y) as (r4 & Y' & _ & Hp' & E). rewrite E in H.
      injection H as _ <-. split; auto. lia.
    - rewrite (dims_ready g fs r0 _ HG rb Y) in H. injection H as _ <-. auto. }
  destruct Hr3 as [Y Hp].
  destruct (read_all_ready g fs r0 _ HG cs3 cs4 r3 res Y H2) as (bs' & f' & r' & -> & _ & _ & _ & _ & H).
  destruct H as (-> & m & ->); [lia|]. eauto.
Qed.

(** ** Witnesses *)

Fixpoint hrobin (g : geom) (lim : Z) (n i workers : nat) (s : hstate) : list nat :=
  match n with
  | O => []
  | S m => let i' := if Nat.eqb (S i) workers then O else S i in
           match hstep g lim i s with
           | Some (Ok s') => i :: hrobin g lim m i' workers s'
           | _ => hrobin g lim m i' workers s
           end
  end.
Fixpoint probin (g : geom) (e : penv) (n i workers : nat) (s : pstate) : list nat :=
  match n with
  | O => []
  | S m => let i' := if Nat.eqb (S i) workers then O else S i in
           match pstep g e i s with
           | Some (Ok s') => i :: probin g e m i' workers s'
           | _ => probin g e m i' workers s
           end
  end.

Example files44_good : good_scan g44 files44 (rec44 0 0 20) 3.
Proof.
  split; [apply g44_wf|]. split; [do 3 eexists; reflexivity|]. split; [|split; [reflexivity|lia]].
  split.
  - intros e He. split; [|split].
    + apply (proj1 (proj1 files44_ok) e He).
    + apply (proj1 (proj1 files44_ok) e He).
    + cbn in He. repeat destruct He as [<-|He]; try contradiction; reflexivity.
  - cbn. repeat constructor; simpl; intuition discriminate.
Qed.

Definition reader44 : mreader :=
  match multi_reader (map encode_sfile files44) 3 8 with Ok r => r | _ => mkMR [] [] 0 0 0 0 0 0 (0, 0) 0 0 [] end.
Definition sched44 : list nat := hrobin g44 4 200 0 3 (hstart files44 3 0 3).

Example files44_scan_map :
  match initialize_scan_map g44 sched44 reader44 with
  | Some (Ok r) => lookup (mr_map r) 0 0 0 = Some (1%nat, 40) /\ lookup (mr_map r) 2 2 0 = Some (1%nat, 64) /\
                   lookup (mr_map r) 2 2 1 = None /\ map (map fst) (mr_map r) = [[0]; [1]; [2]]
  | _ => False
  end.
Proof. vm_compute. repeat split. Qed.

Example files44_read_all :
  match initialize_scan_map g44 sched44 reader44 with
  | Some (Ok r) =>
      let cs2 := probin g44 (mkPE (mr_map r) (3, 1) 9 3) 200 0 3
                        (mkPS (mr_streams r) 0 [] (repeat PCheck 3) []) in
      match mp_read_all g44 sched44 cs2 reader44 with
      | Some (Ok (bs, Ok _, _)) =>
          map (fun b => (image_numbers (hdr b), frame_number (hdr b), complete (hdr b), data b)) bs =
          [([0], 0, [true], Some [0; 1; 2; 3; 10; 11; 12; 13; 20; 21; 22; 23; 30; 31; 32; 33]);
           ([1], 1, [true], Some [40; 41; 42; 43; 50; 51; 52; 53; 60; 61; 62; 63; 80; 81; 82; 83]);
           ([2], 2, [false], Some [70; 71; 72; 73; 0; 0; 0; 0; 0; 0; 0; 0; 0; 0; 0; 0])]
      | _ => False
      end
  | _ => False
  end.
Proof. vm_compute. reflexivity. Qed.

Example files44_load :
  match load_frames g44 sched44 2 [0] reader44, load_frames g44 sched44 2 [1] reader44,
        load_frames g44 sched44 3 [] reader44 with
  | Some (Ok [b], _), Some (Throw _, _), Some (Throw _, _) =>
      frame_number (hdr b) = 2 /\ complete (hdr b) = [false]
  | _, _, _ => False
  end.
Proof. vm_compute. split; reflexivity. Qed.

(** Two frames at one position are told apart (frame numbers 4 and 7). *)
Definition twice : list sfile :=
  [(0, [rec44 7 0 0; rec44 4 0 100]); (1, [rec44 4 0 110; rec44 7 0 10])].
Example twice_good : good_scan g44 twice (rec44 7 0 0) 1.
Proof.
  split; [apply g44_wf|]. split; [do 3 eexists; reflexivity|]. split; [|split; [reflexivity|lia]].
  split.
  - intros e He. cbn in He. repeat destruct He as [<-|He]; try contradiction;
      (split; [|split; [simpl; lia|reflexivity]]);
      unfold wf_srec, is_u32, is_u16; cbn; repeat split; try lia; repeat constructor; lia.
  - cbn. repeat constructor; simpl; intuition discriminate.
Qed.
Example twice_load :
  match multi_reader (map encode_sfile twice) 1 8 with
  | Ok r =>
      match load_frames g44 (hrobin g44 2 100 0 1 (hstart twice 3 0 1)) 0 [1; 0; 1] r with
      | Some (Ok bs, _) => map (fun b => (frame_number (hdr b), option_map (firstn 8) (data b))) bs =
          [(7, Some [0; 1; 2; 3; 10; 11; 12; 13]); (4, Some [100; 101; 102; 103; 110; 111; 112; 113]);
           (7, Some [0; 1; 2; 3; 10; 11; 12; 13])]
      | _ => False
      end
  | _ => False
  end.
Proof. vm_compute. reflexivity. Qed.

(** A file whose last record is cut off: loading that record sets the failbit
    of the stream, and every frame that is loaded later gets zeros instead of
    the pixels of that file, and is still flagged complete. *)
Definition cut : list (Z * bytes) :=
  let f := map encode_sfile [(0, [rec44 0 0 20; rec44 1 1 60])] in
  match f with
  | [(s, l)] => [(s, firstn 43 l)]
  | _ => []
  end ++ map encode_sfile [(1, [rec44 0 0 0]); (2, [rec44 0 0 40]); (3, [rec44 0 0 50])].
Theorem multipass_cut_file_refuted :
  match multi_reader cut 1 8 with
  | Ok r =>
      let cs := hrobin g44 4 100 0 1 (mkHS (mr_streams r) 0 (repeat [] 3) [HCheck]) in
      match load_frames g44 cs 0 [0] r with
      | Some (Ok [good], r1) =>
          match load_frames g44 [] 1 [0] r1 with
          | Some (Ok [_], r2) =>
              match load_frames g44 [] 0 [0] r2 with
              | Some (Ok [bad], _) =>
                  option_map (firstn 4) (data good) = Some [20; 21; 22; 23] /\
                  option_map (firstn 4) (data bad) = Some [0; 0; 0; 0] /\ complete (hdr bad) = [true]
              | _ => False
              end
          | _ => False
          end
      | _ => False
      end
  | _ => False
  end.
Proof. vm_compute. repeat split. Qed.

(** A position outside the scan, or no complete header in the first file, is
    undefined behaviour. *)
Theorem multipass_bad_files_refuted :
  (exists cs why, match multi_reader (map encode_sfile [(0, [rec44 0 3 0])]) 1 8 with
                  | Ok r => initialize_scan_map g44 cs r = Some (UB why)
                  | _ => False
                  end) /\
  (exists why, match multi_reader [(0, repeat 0 15)] 1 8 with
               | Ok r => read_first_header r = UB why
               | _ => False
               end).
Proof. split; [exists (repeat 0%nat 4)|]; eexists; vm_compute; reflexivity. Qed.

(** The same sector of a frame in two files: two threads can store its location
    at the same time. *)
Theorem multipass_duplicate_sector_refuted : exists cs why,
  hrun g44 2 cs (hstart [(0, [rec44 0 0 0]); (0, [rec44 0 0 50])] 3 0 2) = Some (UB why).
Proof. exists [0; 0; 0; 0; 1; 1; 1; 1; 0]%nat. eexists. vm_compute. reflexivity. Qed.

Print Assumptions multipass_scan_map.
Print Assumptions multipass_scan_map_deterministic.
Print Assumptions multipass_headers_progress.
Print Assumptions multipass_headers_bounded.
Print Assumptions multipass_claims_once.
Print Assumptions multipass_frames_progress.
Print Assumptions multipass_read_all_can_finish.
Print Assumptions multipass_read_all_exactly_once.
Print Assumptions multipass_frame_assembled.
Print Assumptions multipass_block_pixels.
Print Assumptions multipass_load_frames.
Print Assumptions multipass_frame_numbers_unique.
Print Assumptions multipass_num_frames.
Print Assumptions multipass_second_read_all_refuted.
Print Assumptions multipass_cut_file_refuted.
Print Assumptions multipass_bad_files_refuted.
Print Assumptions multipass_duplicate_sector_refuted.
Print Assumptions files44_good.
Print Assumptions files44_read_all.
Print Assumptions twice_load.
