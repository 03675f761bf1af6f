(** C32-C35: what the MPI build guarantees for every recorded scan, number of
    ranks and threads, and interleaving. *)
From Coq Require Import String ZArith List Lia Bool Permutation.
From Verif Require Import Base BaseFacts PermFacts BlockModel StemProofs StreamModel StreamSpec
  StreamProofs SectorModel SectorSpec SectorProofs SectorProps ThreadedModel ThreadedSpec ThreadedProofs
  MultipassModel MultipassSpec MultipassProofs MultipassFrames MultipassReader MultipassProps
  MpiModel MpiSpec MpiCodec MpiProofs MpiWorld MpiGather MpiEvents.
Import ListNotations.
Open Scope Z_scope.

(** ** C32: shares of the ranks *)

Lemma belongs_range n world rank i : belongs n world rank i <->
  first_of n world rank <= i < first_of n world rank + size_of n world rank.
Proof. unfold belongs, first_of, size_of. destruct (share n world rank). reflexivity. Qed.

(** C32: of fewer than 2^32 files or scan positions, each belongs to exactly
    one rank, and a rank's share has nothing else in it. *)
Theorem mpi_share_partition : forall n world,
  0 <= n < 2 ^ 32 -> 0 < world ->
  (forall i, 0 <= i < n -> exists rank, 0 <= rank < world /\ belongs n world rank i /\
     forall rank', 0 <= rank' < world -> belongs n world rank' i -> rank' = rank) /\
  (forall rank i, 0 <= rank < world -> belongs n world rank i -> 0 <= i < n).
Proof.
  intros n world Hn Hw. split.
  - intros i Hi. destruct (share_covers n world i Hn Hw Hi) as (rank & Hr & H). exists rank.
    split; auto. split; [now apply belongs_range|]. intros rank' Hr' H'. rewrite belongs_range in H'.
    exact (share_unique n world i rank' rank Hn Hw Hr' Hr H' H).
  - intros rank i Hr H. rewrite belongs_range in H. destruct (share_range n world rank) as (A & B & C); auto. lia.
Qed.

(** ** C33: samples *)

Definition rank_samples (world total : Z) : list Z :=
  map (fun r => sample_share world (Z.of_nat r) total) (seq 0 (Z.to_nat world)).

Lemma zsum_const {A} (l : list A) v : zsum (map (fun _ => v) l) = Zlen l * v.
Proof. induction l as [|x l IH]; [reflexivity|]. cbn [map zsum]. rewrite IH, Zlen_cons. ring. Qed.

(** C33: the numbers of samples taken by the ranks are not negative and add up
    to the number asked for; all ranks but the last take the same number. *)
Theorem mpi_samples_total : forall world total,
  0 < world -> 0 <= total ->
  zsum (rank_samples world total) = total /\
  (forall s, In s (rank_samples world total) -> total / world <= s <= total / world + (world - 1)) /\
  (forall r, 0 <= r < world - 1 -> sample_share world r total = total / world).
Proof.
  intros world total Hw Ht. unfold rank_samples.
  assert (Hq : Z.quot total world = total / world) by (apply Z.quot_div_nonneg; lia).
  assert (Hd : 0 <= total - (world - 1) * (total / world) - total / world <= world - 1).
  { pose proof (Z.div_mod total world ltac:(lia)). pose proof (Z.mod_pos_bound total world Hw). nia. }
  assert (Hs : forall r, sample_share world r total = if r =? world - 1 then total - r * (total / world) else total / world).
  { intros r. unfold sample_share. rewrite Hq. reflexivity. }
  split; [|split].
  - assert (exists m, Z.to_nat world = S m /\ Z.of_nat m = world - 1) as (m & -> & Hm) by (exists (Z.to_nat (world - 1)); lia).
    rewrite seq_S, map_app, zsum_app. cbn [map zsum Nat.add]. rewrite Hs, Hm, Z.eqb_refl.
    rewrite (map_ext_in _ (fun _ => total / world)).
    + rewrite zsum_const. unfold Zlen. rewrite seq_length, Hm. ring.
    + intros r Hr. apply in_seq in Hr. rewrite Hs. destruct (Z.eqb_spec (Z.of_nat r) (world - 1)); [lia|reflexivity].
  - intros s Hin. apply in_map_iff in Hin as (r & <- & Hr). apply in_seq in Hr. rewrite Hs.
    destruct (Z.eqb_spec (Z.of_nat r) (world - 1)) as [->|]; lia.
  - intros r Hr. rewrite Hs. destruct (Z.eqb_spec r (world - 1)); [lia|reflexivity].
Qed.
Example rank_samples_20_6 : rank_samples 6 20 = [3; 3; 3; 3; 3; 5].
Proof. reflexivity. Qed.

(** The distribution is not fair (7 samples over 4 ranks: 1, 1, 1, 4), and with fewer
    samples than ranks all but the last take none. *)
Theorem mpi_samples_fair_refuted :
  ~ (forall world total a b, 0 < world -> 0 <= total ->
       In a (rank_samples world total) -> In b (rank_samples world total) -> a - b <= 1) /\
  (forall world total r, 0 <= total < world -> 0 <= r < world - 1 -> sample_share world r total = 0).
Proof.
  split.
  - intros H. specialize (H 4 7 4 1 ltac:(lia) ltac:(lia)).
    assert (rank_samples 4 7 = [1; 1; 1; 4]) as E by reflexivity. rewrite E in H. cbn in H.
    assert (4 - 1 <= 1); [apply H; tauto|lia].
  - intros world total r Ht Hr. unfold sample_share. destruct (Z.eqb_spec r (world - 1)); [lia|].
    apply Z.quot_small. lia.
Qed.

(** ** C34: scan maps *)

Lemma open_init g fs r0 ts rs : good_world g fs r0 (workers_of ts) -> open_world fs ts rs ->
  world_init fs (workers_of ts) rs.
Proof.
  intros HG [HL H]. unfold world_init, workers_of. rewrite map_length. split; [exact HL|].
  intros k r Hr. assert (Hk : (k < List.length ts)%nat) by (rewrite <- HL; apply nth_error_Some; congruence).
  destruct (nth_error ts k) as [t|] eqn:Et; [|apply nth_error_None in Et; lia].
  destruct (H k t Et) as (r' & Hr' & E). rewrite Hr in Hr'. injection Hr' as <-.
  exists (init_threads (fst t) (snd t)). rewrite (map_nth_error _ _ _ Et). split; auto.
  assert (Hin : In (init_threads (fst t) (snd t)) (workers_of ts)).
  { apply in_map_iff. exists t. split; auto. eapply nth_error_In; eauto. }
  pose proof (mpi_reader_init g fs r0 (workers_of ts) HG (fst t) (snd t) k) as HI.
  unfold workers_of in HI at 1 3. rewrite map_length in HI. specialize (HI Hk Hin).
  unfold Zlen in E. rewrite E in HI. now injection HI.
Qed.

Lemma ready_map g fs r0 ws rs r : world_ready g fs r0 ws rs -> In r rs -> map_final g fs (s_sw r0 * s_sh r0) (mr_map r).
Proof.
  intros [_ H] Hin. apply In_nth_error in Hin as [k Hk]. destruct (H k r Hk) as (w & _ & Y). apply (rr_map _ _ _ _ _ _ _ Y).
Qed.

(** C34: whatever the numbers of ranks and threads and the interleavings, after
    the exchange every rank has the map a single process would have, without
    undefined behaviour or exception. *)
Theorem mpi_scan_map : forall g fs r0 ts rs css res threads hw r cs r',
  good_world g fs r0 (workers_of ts) -> open_world fs ts rs ->
  mpi_initialize g css rs = Some res ->
  good_scan g fs r0 (init_threads threads hw) ->
  multi_reader (map encode_sfile fs) threads hw = Ok r ->
  initialize_scan_map g cs r = Some (Ok r') ->
  exists rs', res = Ok rs' /\ List.length rs' = List.length ts /\
    forall x, In x rs' -> mr_map x = mr_map r'.
Proof.
  intros g fs r0 ts rs css res threads hw r cs r' HG HO H HS Hr Hi.
  destruct (world_scan g fs r0 _ HG css rs res (open_init _ _ _ _ _ HG HO) H) as (rs' & -> & Y).
  exists rs'. split; auto. split.
  - destruct Y as [HL _]. unfold workers_of in HL. rewrite map_length in HL. exact HL.
  - intros x Hx. pose proof (ready_map _ _ _ _ _ _ Y Hx) as HM.
    rewrite (multi_reader_init g fs r0 _ HS threads hw r eq_refl Hr) in Hi.
    destruct (scan_init g fs r0 _ HS cs _ Hi) as (x2 & E2 & Y2 & _). injection E2 as <-.
    eapply map_final_unique; [exact HM|apply (y_map _ _ _ _ _ Y2)].
Qed.

(** ... and there are interleavings with which every rank gets there. *)
Theorem mpi_scan_map_can_finish : forall g fs r0 ts rs,
  good_world g fs r0 (workers_of ts) -> open_world fs ts rs ->
  exists css rs', mpi_initialize g css rs = Some (Ok rs').
Proof.
  intros g fs r0 ts rs HG HO. exact (world_can_scan g fs r0 _ HG rs (open_init _ _ _ _ _ HG HO)).
Qed.

(** ** C34: frames *)

(** What a call of readAll on all ranks has to deliver: rank [k] frames of its
    own positions only, the futures of all ranks without exception, and all
    ranks together every frame exactly once. *)
Definition mpi_delivered (g : geom) (r0 : srec) (fs : list sfile) (world : nat)
    (outs : list (list block * outcome (list bool) * mreader)) : Prop :=
  List.length outs = world /\
  (forall k x, nth_error outs k = Some x ->
     (exists l, snd (fst x) = Ok l) /\
     forall b, In b (fst (fst x)) -> exists p fn, belongs (s_sw r0 * s_sh r0) (Z.of_nat world) (Z.of_nat k) p /\
       has_frame fs p fn /\ b = multi_block g r0 fs p fn) /\
  exists keys, NoDup keys /\ (forall p fn, In (p, fn) keys <-> has_frame fs p fn) /\
    Permutation (flat_map (fun x => fst (fst x)) outs) (map (fun k => multi_block g r0 fs (fst k) (snd k)) keys).

Lemma passes_deliver g fs r0 ts rs css res : good_world g fs r0 (workers_of ts) ->
  world_ready g fs r0 (workers_of ts) rs -> zip_run (second_pass g) css rs = Some res ->
  exists outs, res = Ok outs /\ mpi_delivered g r0 fs (List.length ts) outs.
Proof.
  intros HG Y H. destruct (world_pass g fs r0 _ HG css rs res Y H) as (outs & -> & HL & HK & ks & N & I & P).
  unfold workers_of in HL. rewrite map_length in HL. exists outs. split; auto. split; [exact HL|]. split.
  - intros k x Hx. destruct (HK k x Hx) as [Hf (kk & _ & HI & HP)]. split; auto. intros b Hb.
    apply (Permutation_in _ HP) in Hb. apply in_map_iff in Hb as ((p & fn) & <- & Hin). apply HI in Hin as [Hr Hh].
    cbn [fst snd] in *. exists p, fn. split; auto. apply belongs_range.
    unfold plim, plo, workers_of in Hr. rewrite map_length in Hr. exact Hr.
  - exists ks. split; auto. split; auto. intros p fn. apply (I (p, fn)).
Qed.

(** C34: readAll on freshly opened readers. *)
Theorem mpi_read_all_exactly_once : forall g fs r0 ts rs css1 css2 res,
  good_world g fs r0 (workers_of ts) -> open_world fs ts rs ->
  mpi_read_all g css1 css2 rs = Some res ->
  exists outs, res = Ok outs /\ mpi_delivered g r0 fs (List.length ts) outs.
Proof.
  intros g fs r0 ts rs css1 css2 res HG HO H. unfold mpi_read_all in H.
  destruct (mpi_initialize g css1 rs) as [o|] eqn:E; [|discriminate].
  destruct (world_scan g fs r0 _ HG css1 rs o (open_init _ _ _ _ _ HG HO) E) as (rs' & -> & Y).
  eapply passes_deliver; eauto.
Qed.

Theorem mpi_read_all_can_finish : forall g fs r0 ts rs,
  good_world g fs r0 (workers_of ts) -> open_world fs ts rs ->
  exists css1 css2 outs, mpi_read_all g css1 css2 rs = Some (Ok outs).
Proof.
  intros g fs r0 ts rs HG HO. pose proof (open_init _ _ _ _ _ HG HO) as HI.
  destruct (world_can_scan g fs r0 _ HG rs HI) as (css1 & rs' & E).
  destruct (world_scan g fs r0 _ HG css1 rs _ HI E) as (x & Ex & Y). injection Ex as <-.
  destruct (zip_run_can (second_pass g) rs') as (css2 & outs & E2).
  { intros r Hr. apply In_nth_error in Hr as [k Hk]. destruct (proj2 Y k r Hk) as (w & Hw & Yk).
    exact (rank_can_pass g fs r0 _ HG k w r Hw Yk). }
  exists css1, css2, outs. unfold mpi_read_all. now rewrite E.
Qed.

(** C34: all ranks together deliver what a single process delivers. *)
Theorem mpi_same_as_single : forall g fs r0 ts rs css1 css2 outs threads hw r cs1 cs2 bs f r',
  good_world g fs r0 (workers_of ts) -> open_world fs ts rs ->
  mpi_read_all g css1 css2 rs = Some (Ok outs) ->
  good_scan g fs r0 (init_threads threads hw) ->
  multi_reader (map encode_sfile fs) threads hw = Ok r ->
  mp_read_all g cs1 cs2 r = Some (Ok (bs, f, r')) ->
  Permutation (flat_map (fun x => fst (fst x)) outs) bs.
Proof.
  intros g fs r0 ts rs css1 css2 outs threads hw r cs1 cs2 bs f r' HG HO H HS Hr Hm.
  destruct (mpi_read_all_exactly_once _ _ _ _ _ _ _ _ HG HO H) as (o & Eo & _ & _ & ks & N & I & P). injection Eo as <-.
  destruct (multipass_read_all_exactly_once g fs r0 threads hw r r cs1 cs2 _ HS Hr (loads_none g r) Hm)
    as (bs' & l & r2 & E & ks' & N' & I' & P'). injection E as <- -> ->.
  rewrite P, P'. apply Permutation_map. apply NoDup_Permutation; auto.
  intros [p fn]. rewrite I, I'. reflexivity.
Qed.

(** ** C34: other calls *)

Definition set_frames (n : Z) (r : mreader) : mreader :=
  mkMR (mr_streams r) (mr_map r) (mr_scan r) (mr_offset r) (mr_size r) (mr_soffset r) (mr_ssize r) n
       (mr_dims r) (mr_processed r) (mr_threads r) (mr_futures r).

(** C34: numFramesPerScan on freshly opened readers gives the number a single
    process would give on every rank; and if there are at least as many scan
    positions as ranks, the next readAll delivers every frame exactly once. *)
Theorem mpi_num_frames_then_read_all : forall g fs r0 ts rs css res threads hw r cs n r',
  good_world g fs r0 (workers_of ts) -> open_world fs ts rs ->
  mpi_num_frames g css rs = Some res ->
  good_scan g fs r0 (init_threads threads hw) ->
  multi_reader (map encode_sfile fs) threads hw = Ok r ->
  num_frames_per_scan g cs r = Some (Ok (n, r')) ->
  exists ns rs', res = Ok (ns, rs') /\ List.length ns = List.length ts /\ (forall x, In x ns -> x = n) /\
    (Z.of_nat (List.length ts) <= s_sw r0 * s_sh r0 -> forall css1 css2 res',
       mpi_read_all g css1 css2 rs' = Some res' ->
       exists outs, res' = Ok outs /\ mpi_delivered g r0 fs (List.length ts) outs).
Proof.
  intros g fs r0 ts rs css res threads hw r cs n r' HG HO H HS Hr Hn.
  pose proof (open_init _ _ _ _ _ HG HO) as HI.
  assert (Hlen : List.length (workers_of ts) = List.length ts) by apply map_length.
  assert (Hall : forall x, In x rs -> mr_nframes x = 0).
  { intros x Hx. apply In_nth_error in Hx as [k Hk]. destruct (proj2 HI k x Hk) as (w & _ & ->). reflexivity. }
  assert (Hne : rs <> []) by (apply (rs_nonempty g fs r0 _ HG); apply HI).
  unfold mpi_num_frames in H. rewrite forallb_false in H; auto.
  2: { intros x Hx. rewrite (Hall x Hx). reflexivity. }
  rewrite forallb_true in H by (intros x Hx; rewrite (Hall x Hx); reflexivity).
  destruct (mpi_initialize g css rs) as [o|] eqn:E; [|discriminate].
  destruct (world_scan g fs r0 _ HG css rs o HI E) as (rs1 & -> & Y). injection H as <-.
  do 2 eexists. split; [reflexivity|].
  assert (HL : List.length rs1 = List.length ts) by (rewrite <- Hlen; apply Y).
  split; [now rewrite map_length|]. split.
  - intros x Hx. apply in_map_iff in Hx as (q & <- & Hq). pose proof (ready_map _ _ _ _ _ _ Y Hq) as HM.
    rewrite (multi_reader_init g fs r0 _ HS threads hw r eq_refl Hr) in Hn.
    destruct (frames_init g fs r0 _ HS _ _ _ (or_introl eq_refl) Hn) as (r3 & Y3 & _ & H3).
    destruct (frames_ready g fs r0 _ HS cs r3 Y3) as (r4 & _ & _ & _ & E4). rewrite E4 in H3. injection H3 as <- _.
    now rewrite (map_final_unique _ _ _ _ _ HM (y_map _ _ _ _ _ Y3)).
  - intros HW css1 css2 res' H.
    assert (Y' : world_ready g fs r0 (workers_of ts) (map (fun r => set_frames (max_frames (mr_map r)) r) rs1)).
    { split; [rewrite map_length; apply Y|]. intros k q Hq. rewrite nth_error_map in Hq.
      destruct (nth_error rs1 k) as [q'|] eqn:Ek; [|discriminate]. injection Hq as <-.
      destruct (proj2 Y k q' Ek) as (w & Hw & Yk). exists w. split; auto. destruct Yk. constructor; cbn; auto. }
    unfold mpi_read_all in H.
    change (map (fun r => mkMR (mr_streams r) (mr_map r) (mr_scan r) (mr_offset r) (mr_size r) (mr_soffset r) (mr_ssize r)
      (max_frames (mr_map r)) (mr_dims r) (mr_processed r) (mr_threads r) (mr_futures r)) rs1)
      with (map (fun r => set_frames (max_frames (mr_map r)) r) rs1) in H.
    destruct (mpi_initialize g css1 _) as [o|] eqn:E1; [|discriminate].
    rewrite <- Hlen in HW. rewrite (world_rescan g fs r0 _ HG css1 _ o HW Y' E1) in H.
    eapply passes_deliver; eauto.
Qed.

(** ** C34: events *)

(** C34: under every schedule of the ranks, with buffered or with synchronous
    sends, gathering the events neither fails nor gets stuck; when rank 0 has
    heard from all others it has at every position the events of rank 0, then
    those of rank 1, and so on, and no message is left over. *)
Theorem mpi_gather_events : forall n e0 es sync cs res,
  (forall ev, In ev (e0 :: es) -> wf_events n ev) ->
  grun sync cs (gstart (e0 :: es)) = Some res ->
  exists s, res = Ok s /\
    (gfinished s = true -> ge_events s = all_events n (e0 :: es) /\
       (forall c, In c (ge_chan s) -> c = []) /\ (forall t, In t (ge_todo s) -> t = [])) /\
    (gfinished s = false -> exists c s', gstep sync c s = Some (Ok s')) /\
    Zlen cs <= 4 * Zlen es.
Proof.
  intros n e0 es sync cs res HE H.
  destruct (ginv_run n e0 es HE sync cs _ res (ginv_start n e0 es HE) H) as (s & -> & I).
  exists s. split; auto. split; [|split].
  - apply (ginv_final n e0 es s I).
  - apply (ginv_moves n e0 es HE sync s I).
  - pose proof (gmeasure_run es sync cs _ _ H) as HM. rewrite (gmeasure_start e0 es) in HM. pose proof (gmeasure_nonneg es s).
    unfold Zlen in *. lia.
Qed.

Theorem mpi_gather_events_can_finish : forall n e0 es sync,
  (forall ev, In ev (e0 :: es) -> wf_events n ev) ->
  exists cs s, grun sync cs (gstart (e0 :: es)) = Some (Ok s) /\ gfinished s = true.
Proof.
  intros n e0 es sync HE. exact (ginv_can n e0 es HE sync _ (ginv_start n e0 es HE)).
Qed.

(** With the events of every position on the rank the position belongs to, as
    after reading (mpi_read_all_exactly_once), the result has at every position
    the events of that rank. *)
Theorem mpi_gather_events_owner : forall n evs rank ev p,
  nth_error evs rank = Some ev ->
  (forall k e, nth_error evs k = Some e -> k <> rank -> nth p e [] = []) ->
  (p < n)%nat ->
  nth p (all_events n evs) [] = nth p ev [].
Proof.
  intros n evs rank ev p Hr H Hp. unfold all_events.
  assert (EN : nth_error (map (fun p => flat_map (fun ev => nth p ev []) evs) (seq 0 n)) p =
    Some (flat_map (fun ev => nth p ev []) evs)).
  { apply (map_nth_error (fun p => flat_map (fun ev => nth p ev []) evs) p (seq 0 n)).
    rewrite nth_error_nth' with (d := 0%nat) by (rewrite seq_length; lia). now rewrite seq_nth by lia. }
  rewrite (nth_error_nth _ _ _ EN). clear EN Hp.
  revert rank Hr H. induction evs as [|e evs IH]; intros [|rank] Hr H; try discriminate; cbn [flat_map].
  - injection Hr as ->. assert (flat_map (fun ev0 => nth p ev0 []) evs = []) as ->; [|apply app_nil_r].
    assert (forall e, In e evs -> nth p e [] = []) as HA.
    { intros e He. apply In_nth_error in He as [k Hk]. apply (H (S k) e Hk). lia. }
    clear - HA. induction evs as [|e evs IH]; [reflexivity|]. cbn [flat_map]. rewrite (HA e) by now left.
    apply IH. intros; apply HA; now right.
  - rewrite (H 0%nat e eq_refl) by lia. cbn [app]. apply (IH rank Hr). intros k e' Hk Hne. apply (H (S k) e' Hk). lia.
Qed.

(** ** C35: blocks *)

(** C35: a block with fewer than 2^32 pixels arrives with its dimensions, frame number,
    image numbers and pixels, and loading it leaves what follows it. *)
Theorem mpi_block_round_trip : forall b d,
  wf_wire b d -> Zlen d < 2 ^ 32 ->
  exists m, save_block b = Ok m /\ Zlen m = wire_size b /\
    forall rest, load_block (m ++ rest) = Ok (received b, rest).
Proof.
  intros b d H HL. rewrite (pixels_len b d H) in HL. eexists. split; [apply (save_block_ok b d H); lia|]. split.
  - rewrite Zlen_app, header_len, pix_bytes, (pixels_len b d H). unfold wire_size, pixels. lia.
  - intros rest. now apply block_ok.
Qed.

(** A block of 2^32 pixels or more loses pixels: the size is computed in 32 bits
    when loading.  The rest of the pixels is taken for the next block. *)
Theorem mpi_block_size_wrap_refuted : forall b d,
  wf_wire b d -> 2 ^ 32 <= Zlen d < 2 ^ 63 ->
  exists m rest, save_block b = Ok m /\ rest <> [] /\
    load_block m = Ok (mkBlock (hdr (received b)) (Some (firstn (Z.to_nat (Zlen d mod 2 ^ 32)) d)), rest).
Proof.
  intros b d H HL. rewrite (pixels_len b d H) in *. eexists. eexists. split; [apply (save_block_ok b d H); lia|].
  rewrite <- (app_nil_r (put_header _ ++ _)). rewrite (load_block_ok b d [] H). split; [|reflexivity].
  rewrite app_nil_r. intros C. apply (f_equal Zlen) in C. rewrite pix_bytes in C.
  change (Zlen (@nil Z)) with 0 in C. unfold Zlen in C. rewrite skipn_length in C.
  pose proof (pixels_len b d H) as HP. unfold Zlen, u32 in *. pose proof (Z.mod_pos_bound (pixels b) (2 ^ 32) ltac:(lia)). lia.
Qed.

(** C35: rank 0 gets its own samples followed by those of the other ranks, in
    rank order. *)
Theorem mpi_gather_blocks : forall own others,
  (forall bs b, In bs (own :: others) -> In b bs -> exists d, wf_wire b d /\ Zlen d < 2 ^ 32) ->
  zsum (map (fun bs => 8 + zsum (map wire_size bs)) (own :: others)) < 2 ^ 31 ->
  gather_blocks (own :: others) = Ok (own ++ map received (concat others)).
Proof.
  intros own others H HS. apply gather_blocks_ok; auto. intros bs b Hbs Hb.
  destruct (H bs b Hbs Hb) as (d & Hw & Hl). exists d. split; auto. now rewrite <- (pixels_len b d Hw).
Qed.

(** Samples of 2^31 bytes or more do not raise "Data too large to send using
    MPI.": the displacements, computed before that check, overflow. *)
Theorem mpi_gather_blocks_too_large_refuted : forall all,
  (forall bs b, In bs all -> In b bs -> exists d, wf_wire b d /\ Zlen d < 2 ^ 32) ->
  (forall bs, In bs all -> 8 + zsum (map wire_size bs) < 2 ^ 31) ->
  2 ^ 31 <= zsum (map (fun bs => 8 + zsum (map wire_size bs)) all) ->
  gather_blocks all = UB "signed overflow".
Proof.
  intros all H HS HO. apply gather_blocks_overflow; auto. intros bs b Hbs Hb.
  destruct (H bs b Hbs Hb) as (d & Hw & Hl). exists d. split; auto. now rewrite <- (pixels_len b d Hw).
Qed.

(** ** The hypotheses can be met *)

Definition ts44 : list (Z * Z) := [(2, 8); (1, 8); (3, 8)].
Example world44_good : good_world g44 files44 (rec44 0 0 20) (workers_of ts44).
Proof.
  split; [discriminate|]. split.
  - intros w Hw. cbn in Hw. pose proof files44_good as (A & B & C & D & _). repeat split; try apply A; try apply C; auto; try apply D;
      repeat destruct Hw as [<-|Hw]; try contradiction; reflexivity || discriminate.
  - reflexivity.
Qed.

Definition rank44 (t : Z * Z) (i : Z) : mreader :=
  match mpi_reader (map encode_sfile files44) (fst t) (snd t) 3 i with
  | Ok r => r
  | _ => mkMR [] [] 0 0 0 0 0 0 (0, 0) 0 0 []
  end.
Definition world44 : list mreader := [rank44 (2, 8) 0; rank44 (1, 8) 1; rank44 (3, 8) 2].
Example world44_open : open_world files44 ts44 world44.
Proof.
  split; [reflexivity|]. intros [|[|[|[|i]]]] t H; try discriminate; injection H as <-; (eexists; split; [reflexivity|]); vm_compute; reflexivity.
Qed.

(** Round-robin schedules of the workers of a rank. *)
Definition hrobin_of (g : geom) (r : mreader) : list nat :=
  match read_first_header r with
  | Ok r => match mr_map r with
            | [] => hrobin g (u32 (mr_soffset r + mr_ssize r)) 100 0 (mr_threads r)
                      (mkHS (mr_streams r) (mr_soffset r) (repeat [] (Z.to_nat (mr_size r))) (repeat HCheck (mr_threads r)))
            | _ => []
            end
  | _ => []
  end.
Definition probin_of (g : geom) (r : mreader) : list nat :=
  probin g (mkPE (mr_map r) (mr_dims r) (mr_scan r) (u32 (mr_offset r + mr_size r))) 100 0 (mr_threads r)
         (mkPS (mr_streams r) (mr_processed r) [] (repeat PCheck (mr_threads r)) []).

(** What readAll delivers on each rank. *)
Definition run_world (g : geom) (rs : list mreader) : option (list (list (list Z * Z))) :=
  match mpi_initialize g (map (hrobin_of g) rs) rs with
  | Some (Ok rs1) =>
      match mpi_read_all g (map (hrobin_of g) rs) (map (probin_of g) rs1) rs with
      | Some (Ok outs) => Some (map (fun x => map (fun b => (image_numbers (hdr b), frame_number (hdr b))) (fst (fst x))) outs)
      | _ => None
      end
  | _ => None
  end.

Example world44_delivers : run_world g44 world44 = Some [[([0], 0)]; [([1], 1)]; [([2], 2)]].
Proof. vm_compute. reflexivity. Qed.

(** numFramesPerScan and readAll after it. *)
Definition run_frames (g : geom) (rs : list mreader) : option (list Z * option (list (list (list Z * Z)))) :=
  match mpi_num_frames g (map (hrobin_of g) rs) rs with
  | Some (Ok (ns, rs')) => Some (ns, run_world g rs')
  | _ => None
  end.

Example world44_frames : run_frames g44 world44 = Some ([1; 1; 1], Some [[([0], 0)]; [([1], 1)]; [([2], 2)]]).
Proof. vm_compute. reflexivity. Qed.

(** More ranks than scan positions: the ranks without a position read the
    header again when initializing a second time and then process the whole
    scan.  Four ranks, three positions: without a call of numFramesPerScan
    (or loadFrames) before it readAll delivers every frame once, with such a
    call four times. *)
Definition ts44_4 : list (Z * Z) := [(1, 8); (1, 8); (1, 8); (1, 8)].
Definition world44_4 : list mreader :=
  map (fun i => match mpi_reader (map encode_sfile files44) 1 8 4 i with
                | Ok r => r | _ => mkMR [] [] 0 0 0 0 0 0 (0, 0) 0 0 [] end) [0; 1; 2; 3].
Example world44_4_good : good_world g44 files44 (rec44 0 0 20) (workers_of ts44_4) /\ open_world files44 ts44_4 world44_4.
Proof.
  split.
  - split; [discriminate|]. split; [|reflexivity].
    intros w Hw. cbn in Hw. pose proof files44_good as (A & B & C & D & _). repeat split; try apply A; try apply C; auto; try apply D;
      repeat destruct Hw as [<-|Hw]; try contradiction; reflexivity || discriminate.
  - split; [reflexivity|]. intros [|[|[|[|[|i]]]]] t H; try discriminate; injection H as <-; (eexists; split; [reflexivity|]); vm_compute; reflexivity.
Qed.
Theorem mpi_more_ranks_than_positions_refuted :
  run_world g44 world44_4 = Some [[]; []; []; [([0], 0); ([1], 1); ([2], 2)]] /\
  run_frames g44 world44_4 = Some ([1; 1; 1; 1],
    Some (repeat [([0], 0); ([1], 1); ([2], 2)] 4)).
Proof. vm_compute. split; reflexivity. Qed.

(** A call on only some of the ranks does not return: here rank 0 alone calls
    numFramesPerScan on a reader another rank has not initialized. *)
Example world44_rank0_only :
  match mpi_num_frames g44 (map (hrobin_of g44) world44) world44 with
  | Some (Ok (_, r :: _)) => mpi_num_frames g44 [[]; []; []] (r :: tl world44) = None
  | _ => False
  end.
Proof. vm_compute. reflexivity. Qed.

(** Blocks. *)
Definition block23 : block :=
  mkBlock (mkHeader (3, 1) (2, 3) 2 5 77 4 9 [1; 2] [true; false])
          (Some [0; 1; 2; 3; 4; 65535; 10; 11; 12; 13; 14; 256]).
Example block23_wf : wf_wire block23 [0; 1; 2; 3; 4; 65535; 10; 11; 12; 13; 14; 256].
Proof. unfold wf_wire, is_u32, is_u16. cbn. repeat split; try lia; repeat constructor; lia. Qed.
Example block23_gathered : gather_blocks [[block23]; []; [block23; block23]] =
  Ok [block23; received block23; received block23].
Proof. vm_compute. reflexivity. Qed.

Definition flat_block (w h : Z) : block :=
  mkBlock (mkHeader (3, 1) (w, h) 1 5 0 4 9 [1] [true]) (Some (repeat 0 (Z.to_nat (w * h)))).
Lemma flat_block_wf w h : is_u32 w -> is_u32 h -> wf_wire (flat_block w h) (repeat 0 (Z.to_nat (w * h))).
Proof.
  unfold is_u32. intros Hw Hh. unfold wf_wire, flat_block. cbn [hdr data scan_dims frame_dims images_in_block frame_number image_numbers fst snd].
  split; auto. unfold is_u32. assert (0 <= w * h) by nia.
  repeat (split; [lia|]). split; [constructor; [lia|constructor]|]. split; [reflexivity|].
  split; [unfold Zlen; rewrite repeat_length; lia|].
  apply Forall_forall. intros x Hx. apply repeat_spec in Hx. subst. unfold is_u16. lia.
Qed.
(** The hypotheses of the two refutations are met: a frame of 65536 x 65536
    pixels, and two ranks with one frame of 32768 x 16384 each. *)
Example flat_wraps : wf_wire (flat_block 65536 65536) (repeat 0 (Z.to_nat (65536 * 65536))) /\
  2 ^ 32 <= Zlen (repeat 0 (Z.to_nat (65536 * 65536))) < 2 ^ 63.
Proof.
  split; [apply flat_block_wf; unfold is_u32; lia|]. unfold Zlen. rewrite repeat_length. rewrite Z2Nat.id by lia. lia.
Qed.
Example flat_too_large : gather_blocks [[flat_block 32768 16384]; [flat_block 32768 16384]] = UB "signed overflow".
Proof.
  apply mpi_gather_blocks_too_large_refuted.
  - intros bs b Hbs Hb. exists (repeat 0 (Z.to_nat (32768 * 16384))).
    assert (b = flat_block 32768 16384) as ->.
    { repeat destruct Hbs as [<-|Hbs]; try contradiction; destruct Hb as [<-|[]]; reflexivity. }
    split; [apply flat_block_wf; unfold is_u32; lia|]. unfold Zlen. rewrite repeat_length, Z2Nat.id by lia. lia.
  - intros bs Hbs. assert (bs = [flat_block 32768 16384]) as ->.
    { repeat destruct Hbs as [<-|Hbs]; try contradiction; reflexivity. }
    cbn [map zsum]. unfold wire_size, flat_block. cbn [hdr frame_dims image_numbers images_in_block fst snd].
    change (Zlen [1]) with 1. lia.
  - cbn [map zsum]. unfold wire_size, flat_block. cbn [hdr frame_dims image_numbers images_in_block fst snd].
    change (Zlen [1]) with 1. lia.
Qed.

(** Events. *)
Definition evs3 : list (list (list (list Z))) :=
  [[[[5; 7]]; []; []]; [[]; [[1]; [2; 300]]; []]; [[[9]]; []; [[]; [4294967295]]]].
Example evs3_wf : forall ev, In ev evs3 -> wf_events 3 ev.
Proof.
  intros ev H. repeat destruct H as [<-|H]; try contradiction; (split; [reflexivity|]); (split; [reflexivity|]); (split; [reflexivity|]);
    intros fr l Hfr Hl; repeat destruct Hfr as [<-|Hfr]; try contradiction; repeat destruct Hl as [<-|Hl]; try contradiction;
    repeat constructor; unfold is_u32; lia.
Qed.
Example evs3_gathered :
  match grun true [2; 1; 0; 1; 0; 0; 2; 0]%nat (gstart evs3), grun false [2; 2; 1; 1; 0; 0; 0; 0]%nat (gstart evs3) with
  | Some (Ok s), Some (Ok s') => gfinished s = true /\ gfinished s' = true /\ ge_events s = ge_events s' /\
      ge_events s = [[[5; 7]; [9]]; [[1]; [2; 300]]; [[]; [4294967295]]]
  | _, _ => False
  end.
Proof. vm_compute. repeat split. Qed.

Print Assumptions mpi_share_partition.
Print Assumptions mpi_samples_total.
Print Assumptions mpi_samples_fair_refuted.
Print Assumptions mpi_scan_map.
Print Assumptions mpi_scan_map_can_finish.
Print Assumptions mpi_read_all_exactly_once.
Print Assumptions mpi_read_all_can_finish.
Print Assumptions mpi_same_as_single.
Print Assumptions mpi_num_frames_then_read_all.
Print Assumptions mpi_more_ranks_than_positions_refuted.
Print Assumptions mpi_gather_events.
Print Assumptions mpi_gather_events_can_finish.
Print Assumptions mpi_gather_events_owner.
Print Assumptions mpi_block_round_trip.
Print Assumptions mpi_block_size_wrap_refuted.
Print Assumptions mpi_gather_blocks.
Print Assumptions mpi_gather_blocks_too_large_refuted.
