(** C62: [read_frames] of the multi-pass reader. *)
From Coq Require Import String ZArith List Lia Bool Sorting.Sorted.
From Verif Require Import Base BaseFacts BlockModel StreamSpec SectorModel SectorSpec ThreadedModel
  SectorProps MultipassProofs MultipassModel MultipassSpec MultipassFrames MultipassReader MultipassProps SparseModel SparseProofs
  ReadFramesModel ReadFramesSpec ReadFramesProofs.
Import ListNotations.
Open Scope Z_scope.
Local Arguments Z.mul : simpl never.
Local Arguments Z.add : simpl never.
Local Arguments Z.pow : simpl never.

Lemma calls_snoc g r r1 r2 : mcalls g r r1 -> mcall g r1 r2 -> mcalls g r r2.
Proof. intros H1 H2. eapply calls_more; eauto. Qed.

(** The reader can tell its dimensions after any calls. *)
Lemma dims_any g fs r0 w r : good_scan g fs r0 w -> fresh fs r0 w r \/ ready g fs r0 w r ->
  exists r', scan_dimensions r = Ok ((s_sw r0, s_sh r0), r').
Proof.
  intros HG [F|Y]; [rewrite (dims_fresh g fs r0 w HG r F)|rewrite (dims_ready g fs r0 w HG r Y)]; eauto.
Qed.

(** [scan_shape] is (rows, columns) as recorded in the first header. *)
Theorem multipass_scan_dimensions : forall g fs r0 threads hw r r1,
  good_scan g fs r0 (init_threads threads hw) ->
  multi_reader (map encode_sfile fs) threads hw = Ok r ->
  mcalls g r r1 ->
  exists r2, scan_dimensions r1 = Ok ((s_sw r0, s_sh r0), r2).
Proof.
  intros g fs r0 threads hw r r1 HG Hr Hc.
  rewrite (multi_reader_init g fs r0 _ HG threads hw r eq_refl Hr) in Hc.
  eapply dims_any; eauto. eapply calls_inv; eauto.
Qed.

Lemma unravel_names l w h p : unravel l [h; w] = Ok p -> names w h (PSeq l) p.
Proof.
  unfold unravel. intros H. apply bind_ok in H as (b & Hb & H). destruct b; [discriminate|].
  destruct l as [|i [|j l]]; try discriminate. injection H as <-.
  cbn [any_outside] in Hb.
  destruct (negb ((0 <=? i) && (i <? h))) eqn:E1; [discriminate|].
  destruct (negb ((0 <=? j) && (j <? w))) eqn:E2; [discriminate|].
  apply negb_false_iff, andb_true_iff in E1 as [A1 A2], E2 as [B1 B2].
  apply Z.leb_le in A1, B1. apply Z.ltb_lt in A2, B2.
  destruct l as [|k l]; [|discriminate]. constructor; lia.
Qed.

Lemma unravel_total l w h : (exists p, unravel l [h; w] = Ok p) \/ exists m, unravel l [h; w] = Throw m.
Proof.
  unfold unravel. destruct l as [|i [|j [|k l]]]; cbn [any_outside bind]; unfold index_error; eauto.
  - destruct (negb _); cbn [bind]; eauto.
  - destruct (negb _); cbn [bind]; eauto. destruct (negb _); cbn [bind]; eauto.
  - destruct (negb _); cbn [bind]; eauto. destruct (negb _); cbn [bind]; eauto.
Qed.

Lemma names_unravel l w h p : names w h (PSeq l) p -> unravel l [h; w] = Ok p.
Proof.
  intros H. inversion H; subst. unfold unravel. cbn [any_outside].
  assert ((0 <=? i) && (i <? h) = true) as -> by (apply andb_true_iff; split; [apply Z.leb_le|apply Z.ltb_lt]; lia).
  assert ((0 <=? j) && (j <? w) = true) as -> by (apply andb_true_iff; split; [apply Z.leb_le|apply Z.ltb_lt]; lia).
  reflexivity.
Qed.

Lemma names_range w h pos p : names w h pos p -> 0 <= p < w * h.
Proof. intros [|i j Hi Hj]; nia. Qed.

Lemma as_u32_ok i : 0 <= i < 2 ^ 32 -> as_u32 i = Ok i.
Proof.
  intros H. unfold as_u32.
  assert ((0 <=? i) && (i <? 2 ^ 32) = true) as ->; [|reflexivity].
  apply andb_true_iff. split; [apply Z.leb_le|apply Z.ltb_lt]; lia.
Qed.

Lemma as_u32_total i : as_u32 i = Ok i /\ 0 <= i < 2 ^ 32 \/ exists m, as_u32 i = Throw m.
Proof.
  unfold as_u32. destruct (_ && _) eqn:E; [|eauto]. apply andb_true_iff in E as [E1 E2].
  apply Z.leb_le in E1. apply Z.ltb_lt in E2. auto.
Qed.

Lemma mapM_u32 l : (forall x, In x l -> 0 <= x < 2 ^ 32) -> mapM as_u32 l = Ok l.
Proof.
  induction l as [|x l IH]; intros H; [reflexivity|]. cbn [mapM]. rewrite as_u32_ok by (apply H; now left).
  cbn [bind]. rewrite IH by (intros; apply H; now right). reflexivity.
Qed.

Section Read.
Variables (g : geom) (fs : list sfile) (r0 : srec) (threads hw : Z) (r : mreader).
Hypothesis HG : good_scan g fs r0 (init_threads threads hw).
Hypothesis HR : Zlen (all_records fs) < 2 ^ 32.
Hypothesis Hopen : multi_reader (map encode_sfile fs) threads hw = Ok r.
Let N := s_sw r0 * s_sh r0.

Lemma frames_bound p ks : frame_numbers fs p ks -> Zlen ks <= Zlen (all_records fs).
Proof.
  intros [Hs Hi].
  assert (Hnd : NoDup ks).
  { clear Hi. induction Hs as [|a l S IH Ha]; constructor; auto. intros Hin. rewrite Forall_forall in Ha.
    specialize (Ha _ Hin). lia. }
  assert (Hincl : incl ks (map (fun e => s_frame (snd e)) (all_records fs))).
  { intros fn Hfn. apply Hi in Hfn. unfold has_frame in Hfn. destruct (frame_records fs p fn) as [|e l] eqn:E; [congruence|].
    assert (He : In e (frame_records fs p fn)) by (rewrite E; now left).
    unfold frame_records in He. apply filter_In in He as [He Hb]. apply andb_true_iff in Hb as [_ Hb].
    apply Z.eqb_eq in Hb. apply in_map_iff. exists e. auto. }
  apply (NoDup_incl_length Hnd) in Hincl. rewrite map_length in Hincl. unfold Zlen. lia.
Qed.

(** What the last call does, given the other two. *)
Lemma read_frames_after cs2 r2 n img sel idxs res r3 :
  mcalls g r r2 -> most_frames fs N n -> frame_indices n sel = Ok idxs ->
  match as_u32 img, mapM as_u32 idxs with
  | Ok img', Ok idxs' =>
      match load_frames g cs2 img' idxs' r2 with
      | None => None
      | Some (bs, r3) => Some ((let* l := bs in rf_return sel l), r3)
      end
  | _, _ => Some (Throw "TypeError"%string, r2)
  end = Some (res, r3) ->
  mcalls g r r3 /\
  (~ 0 <= img < N -> exists m, res = Throw m) /\
  (forall ks, 0 <= img < N -> frame_numbers fs img ks ->
     ((exists i, In i idxs /\ Zlen ks <= i) -> exists m, res = Throw m) /\
     ((forall i, In i idxs -> i < Zlen ks) ->
        exists v, res = Ok v /\ returns sel (map (fun i => multi_block g r0 fs img (zat ks i)) idxs) v)).
Proof.
  intros Hc Hn Hsel H.
  assert (Hn0 : 0 <= n < 2 ^ 32).
  { destruct Hn as [_ (p & ks & _ & Hk & <-)]. pose proof (frames_bound _ _ Hk). pose proof (Zlen_nonneg ks). lia. }
  assert (Hpick : picks n sel idxs) by (apply frame_indices_picks; auto; lia).
  assert (Hrange : forall x, In x idxs -> 0 <= x < n) by (apply (picks_range n sel idxs); auto; lia).
  rewrite (mapM_u32 idxs) in H by (intros x Hx; specialize (Hrange _ Hx); lia).
  assert (HN : N < 2 ^ 32) by (pose proof (N_bound g fs r0 _ HG) as HNb; cbv zeta in HNb; unfold N; lia).
  destruct (as_u32_total img) as [[E Hi]|[m E]]; rewrite E in H.
  2: { injection H as <- <-. split; auto. split; [eauto|]. intros ks Hr.
       rewrite (as_u32_ok img) in E by lia. discriminate. }
  destruct (load_frames g cs2 img idxs r2) as [[bs r4]|] eqn:El; [|discriminate].
  injection H as <- <-.
  assert (Hnn : Forall (fun i => 0 <= i) idxs) by (apply Forall_forall; intros x Hx; specialize (Hrange _ Hx); lia).
  destruct (multipass_load_frames g fs r0 threads hw r r2 cs2 img idxs bs r4 HG Hopen Hc (proj1 Hi) Hnn El) as [H1 H2].
  split; [eapply calls_snoc; [exact Hc|eapply call_load; [apply Hi|exact Hnn|exact El]]|]. split.
  - intros Hout. destruct H1 as [m ->]; [unfold N in *; lia|]. cbn [bind]. eauto.
  - intros ks Hin Hks. destruct H2 as (ks' & Hks' & H3 & H4); [unfold N in *; lia|].
    rewrite (multipass_frame_numbers_unique fs img ks' ks Hks' Hks) in *.
    split.
    + intros Hbad. destruct (H3 Hbad) as [m ->]. cbn [bind]. eauto.
    + intros Hall. rewrite (H4 Hall). cbn [bind].
      destruct Hpick as [|i Hi'|is Hi'|mk l Hm Hs Hi'|a b s st l Hs Hu|a b st l Hs Hu]; cbn [rf_return map];
        eexists; (split; [reflexivity|]); constructor; intros; discriminate.
Qed.

Lemma num_frames_after cs r1 x : mcalls g r r1 -> num_frames_per_scan g cs r1 = Some x ->
  exists n r2, x = Ok (n, r2) /\ mcalls g r r2 /\ most_frames fs N n.
Proof.
  intros Hc H.
  destruct (multipass_num_frames g fs r0 threads hw r r1 cs x HG HR Hopen Hc H) as (n & r2 & -> & H1 & H2).
  exists n, r2. split; auto. split; [|split; auto]. eapply calls_snoc; [exact Hc|eapply call_frames; eauto].
Qed.

Lemma dims_after r1 : mcalls g r r1 ->
  exists r2, scan_dimensions r1 = Ok ((s_sw r0, s_sh r0), r2) /\ mcalls g r r2.
Proof.
  intros Hc. destruct (multipass_scan_dimensions g fs r0 threads hw r r1 HG Hopen Hc) as [r2 E]. exists r2.
  split; auto. eapply calls_snoc; [exact Hc|eapply call_dims; eauto].
Qed.
End Read.

(** ** C62 *)

(** C62: after any calls on the reader and for every schedule of its workers,
    [read_frames(position, frames_slice)]
    - raises for a position outside the scan and for a [frames_slice] that is no
      index of [n] frames, [n] the largest number of frames at a position;
    - otherwise returns the blocks of the selected frames of that position, in
      the order of the selection, index [i] being the [i]-th smallest recorded
      frame number, if the position has them all, and raises if not.
    It can be followed by any further calls. *)
Theorem read_frames_correct : forall g fs r0 threads hw r r1 cs1 cs2 pos sel res r2,
  good_scan g fs r0 (init_threads threads hw) -> Zlen (all_records fs) < 2 ^ 32 ->
  multi_reader (map encode_sfile fs) threads hw = Ok r ->
  mcalls g r r1 ->
  read_frames g cs1 cs2 pos sel r1 = Some (res, r2) ->
  mcalls g r r2 /\
  ((forall p, ~ names (s_sw r0) (s_sh r0) pos p) -> exists m, res = Throw m) /\
  (forall p ks n, names (s_sw r0) (s_sh r0) pos p -> frame_numbers fs p ks ->
     most_frames fs (s_sw r0 * s_sh r0) n ->
     ((forall l, ~ picks n sel l) -> exists m, res = Throw m) /\
     (forall l, picks n sel l ->
        ((exists i, In i l /\ Zlen ks <= i) -> exists m, res = Throw m) /\
        ((forall i, In i l -> i < Zlen ks) ->
           exists v, res = Ok v /\ returns sel (map (fun i => multi_block g r0 fs p (zat ks i)) l) v))).
Proof.
  intros g fs r0 threads hw r r1 cs1 cs2 pos sel res r2 HG HR Hr Hc H.
  set (N := s_sw r0 * s_sh r0).
  assert (Huniq : forall n n', most_frames fs N n -> most_frames fs N n' -> n = n').
  { intros n n' [A1 (p & ks & Hp & Hk & E)] [B1 (p' & ks' & Hp' & Hk' & E')].
    specialize (A1 _ _ Hp' Hk'). specialize (B1 _ _ Hp Hk). lia. }
  unfold read_frames in H.
  destruct (image_number pos r1) as [[img ra]|m|m|] eqn:Ei.
  - assert (Hra : mcalls g r ra /\ (forall p, names (s_sw r0) (s_sh r0) pos p -> p = img) /\
              (0 <= img < N -> names (s_sw r0) (s_sh r0) pos img)).
    { destruct pos as [p|l]; cbn [image_number] in Ei.
      - injection Ei as <- <-. split; auto. split; [intros q Hq; now inversion Hq|]. intros. now constructor.
      - destruct (dims_after g fs r0 threads hw r HG Hr r1 Hc) as (rb & Ed & Hcb). rewrite Ed in Ei. cbn [bind fst snd] in Ei.
        apply bind_ok in Ei as (p & Ep & E). injection E as -> ->. split; auto. split.
        + intros q Hq. apply names_unravel in Hq. congruence.
        + intros _. now apply unravel_names. }
    destruct Hra as (Hca & Himg & Hin).
    destruct (num_frames_per_scan g cs1 ra) as [x|] eqn:En; [|discriminate].
    destruct (num_frames_after g fs r0 threads hw r HG HR Hr cs1 ra x Hca En) as (n & rc & -> & Hcc & Hn).
    assert (Hn0 : 0 <= n) by (destruct Hn as [_ (q & kq & _ & _ & <-)]; apply Zlen_nonneg).
    destruct (frame_indices n sel) as [idxs|m|m|] eqn:Ef.
    + destruct (read_frames_after g fs r0 threads hw r HG HR Hr cs2 rc n img sel idxs res r2 Hcc Hn Ef H) as (A1 & A2 & A3).
      split; auto. split.
      * intros Hno. apply A2. intros Hr'. apply (Hno img). apply Hin. exact Hr'.
      * intros p ks n' Hp Hks Hn'. assert (p = img) as -> by auto. assert (n' = n) as -> by (apply Huniq; auto).
        pose proof (frame_indices_picks n sel idxs Hn0 Ef) as Hpk. split.
        -- intros Hno. exfalso. apply (Hno idxs). auto.
        -- intros l Hl. assert (l = idxs) as -> by (apply picks_frame_indices in Hl; auto; congruence).
           apply A3; auto. apply names_range in Hp. exact Hp.
    + injection H as <- <-. split; auto. split; [eauto|]. intros p ks n' Hp Hks Hn'. split; [eauto|].
      intros l Hl. assert (n' = n) as -> by (apply Huniq; auto). apply picks_frame_indices in Hl; auto. congruence.
    + exfalso. destruct (frame_indices_throw n sel) as [e Ee]; [intros l E; congruence|congruence].
    + exfalso. destruct (frame_indices_throw n sel) as [e Ee]; [intros l E; congruence|congruence].
  - destruct pos as [p|l]; cbn [image_number] in Ei; [discriminate|].
    destruct (dims_after g fs r0 threads hw r HG Hr r1 Hc) as (rb & Ed & Hcb). rewrite Ed in *. cbn [bind fst snd] in Ei.
    injection H as <- <-. split; auto. split; [eauto|]. intros p ks n Hp Hks Hn. exfalso.
    apply names_unravel in Hp. rewrite Hp in Ei. discriminate.
  - destruct pos as [p|l]; cbn [image_number] in Ei; [discriminate|].
    destruct (dims_after g fs r0 threads hw r HG Hr r1 Hc) as (rb & Ed & Hcb). rewrite Ed in Ei. cbn [bind fst snd] in Ei.
    destruct (unravel_total l (s_sw r0) (s_sh r0)) as [[p E]|[e E]]; rewrite E in Ei; discriminate.
  - destruct pos as [p|l]; cbn [image_number] in Ei; [discriminate|].
    destruct (dims_after g fs r0 threads hw r HG Hr r1 Hc) as (rb & Ed & Hcb). rewrite Ed in Ei. cbn [bind fst snd] in Ei.
    destruct (unravel_total l (s_sw r0) (s_sh r0)) as [[p E]|[e E]]; rewrite E in Ei; discriminate.
Qed.

(** Whatever the arguments, some schedule brings the call to its end. *)
Theorem read_frames_can_finish : forall g fs r0 threads hw r r1 pos sel,
  good_scan g fs r0 (init_threads threads hw) -> Zlen (all_records fs) < 2 ^ 32 ->
  multi_reader (map encode_sfile fs) threads hw = Ok r ->
  mcalls g r r1 ->
  exists cs1 cs2 x, read_frames g cs1 cs2 pos sel r1 = Some x.
Proof.
  intros g fs r0 threads hw r r1 pos sel HG HR Hr Hc. unfold read_frames.
  assert (Hcan : forall r1, mcalls g r r1 -> exists cs x, num_frames_per_scan g cs r1 = Some x /\
            forall cs2 img idxs n r2, x = Ok (n, r2) -> 0 <= img -> Forall (fun i => 0 <= i) idxs ->
              exists y, load_frames g cs2 img idxs r2 = Some y).
  { clear r1 Hc. intros r1 Hc. pose proof Hc as Hc0.
    rewrite (multi_reader_init g fs r0 _ HG threads hw r eq_refl Hr) in Hc.
    destruct (calls_inv g fs r0 _ HG r1 Hc) as [F|Y].
    - destruct (scan_can_init g fs r0 _ HG) as (cs & r' & Hi). exists cs.
      destruct (num_frames_per_scan g cs r1) as [x|] eqn:E.
      + exists x. split; auto. intros cs2 img idxs n r2 -> H1 H2.
        destruct (frames_init g fs r0 _ HG r1 cs _ F E) as (r3 & Y & _ & E3).
        destruct (frames_ready g fs r0 _ HG cs r3 Y) as (r4 & Y4 & _ & _ & E4). rewrite E4 in E3. injection E3 as _ <-.
        destruct (load_ready g fs r0 _ HG cs2 img idxs r4 Y4 H1 H2) as (r5 & _ & _ & _ & E5). eauto.
      + exfalso. unfold num_frames_per_scan in E. rewrite (scan_fresh g fs r0 _ HG cs r1 F), Hi in E.
        destruct (negb _); discriminate.
    - exists []. destruct (frames_ready g fs r0 _ HG [] r1 Y) as (r4 & Y4 & _ & _ & E4). rewrite E4.
      eexists. split; [reflexivity|]. intros cs2 img idxs n r2 E H1 H2. injection E as <- <-.
      destruct (load_ready g fs r0 _ HG cs2 img idxs r4 Y4 H1 H2) as (r5 & _ & _ & _ & E5). eauto. }
  assert (Hra : forall img ra, image_number pos r1 = Ok (img, ra) -> mcalls g r ra).
  { intros img ra E. destruct pos as [p|l]; cbn [image_number] in E; [now injection E as _ <-|].
    destruct (dims_after g fs r0 threads hw r HG Hr r1 Hc) as (rb & Ed & Hcb). rewrite Ed in E. cbn [bind fst snd] in E.
    apply bind_ok in E as (p & Ep & E). now injection E as _ <-. }
  destruct (image_number pos r1) as [[img ra]|m|m|]; try (exists [], []; eexists; reflexivity).
  specialize (Hra _ _ eq_refl). destruct (Hcan ra Hra) as (cs & x & En & Hl). exists cs, []. rewrite En.
  destruct (num_frames_after g fs r0 threads hw r HG HR Hr cs ra x Hra En) as (n & rc & -> & Hcc & Hn).
  assert (Hn0 : 0 <= n < 2 ^ 32).
  { destruct Hn as [_ (p & ks & _ & Hk & <-)]. pose proof (frames_bound fs r0 _ _ Hk). pose proof (Zlen_nonneg ks). lia. }
  destruct (frame_indices n sel) as [idxs|m|m|] eqn:Ef; try (eexists; reflexivity).
  assert (Hrange : forall x, In x idxs -> 0 <= x < n).
  { apply (picks_range n sel idxs); [lia|]. apply frame_indices_picks; auto. lia. }
  rewrite (mapM_u32 idxs) by (intros x Hx; specialize (Hrange _ Hx); lia).
  destruct (as_u32_total img) as [[E Hi]|[m E]]; rewrite E; [|eexists; reflexivity].
  destruct (Hl [] img idxs n rc eq_refl (proj1 Hi)) as [[bs r5] E5].
  - apply Forall_forall. intros x Hx. specialize (Hrange _ Hx). lia.
  - rewrite E5. eexists. reflexivity.
Qed.

(** ** Finding *)

(** [frames_slice=None] is documented to return all frames; for every position
    with fewer frames than another position it raises instead. *)
Theorem read_frames_all_refuted : forall g fs r0 threads hw r r1 cs1 cs2 pos p ks n res r2,
  good_scan g fs r0 (init_threads threads hw) -> Zlen (all_records fs) < 2 ^ 32 ->
  multi_reader (map encode_sfile fs) threads hw = Ok r ->
  mcalls g r r1 ->
  names (s_sw r0) (s_sh r0) pos p -> frame_numbers fs p ks ->
  most_frames fs (s_sw r0 * s_sh r0) n -> Zlen ks < n ->
  read_frames g cs1 cs2 pos None r1 = Some (res, r2) ->
  exists m, res = Throw m.
Proof.
  intros g fs r0 threads hw r r1 cs1 cs2 pos p ks n res r2 HG HR Hr Hc Hp Hks Hn Hlt H.
  destruct (read_frames_correct _ _ _ _ _ _ _ _ _ _ _ _ _ HG HR Hr Hc H) as (_ & _ & H3).
  destruct (H3 p ks n Hp Hks Hn) as [_ H4]. apply (H4 (zseq n) (picks_all n)).
  exists (Zlen ks). split; [|lia]. apply in_zseq. pose proof (Zlen_nonneg ks). lia.
Qed.

(** ** Non-vacuity *)

(** Frames 4 and 7 at position 0, none at positions 1 and 2. *)
Definition twice_reader : mreader :=
  match multi_reader (map encode_sfile twice) 1 8 with Ok r => r | _ => mkMR [] [] 0 0 0 0 0 0 (0, 0) 0 0 [] end.
Definition twice_sched : list nat := hrobin g44 2 100 0 1 (hstart twice 3 0 1).
Definition twice_call pos sel := read_frames g44 twice_sched [] pos sel twice_reader.
Definition shown_frames (x : option (outcome frames_result * mreader)) : option (list Z * bool) :=
  match x with
  | Some (Ok (RMany bs), _) => Some (map (fun b => frame_number (hdr b)) bs, false)
  | Some (Ok (ROne b), _) => Some ([frame_number (hdr b)], true)
  | _ => None
  end.

Example twice_hypotheses :
  good_scan g44 twice (rec44 7 0 0) (init_threads 1 8) /\ Zlen (all_records twice) < 2 ^ 32 /\
  multi_reader (map encode_sfile twice) 1 8 = Ok twice_reader /\ mcalls g44 twice_reader twice_reader /\
  names (s_sw (rec44 7 0 0)) (s_sh (rec44 7 0 0)) (PSeq [0; 0]) 0 /\
  names (s_sw (rec44 7 0 0)) (s_sh (rec44 7 0 0)) (PSeq [0; 1]) 1.
Proof.
  split; [exact twice_good|]. split; [reflexivity|]. split; [reflexivity|]. split; [constructor|].
  split.
  - apply (names_pair _ _ 0 0); cbn; lia.
  - apply (names_pair _ _ 0 1); cbn; lia.
Qed.

Example twice_frames :
  shown_frames (twice_call (PSeq [0; 0]) None) = Some ([4; 7], false) /\
  shown_frames (twice_call (PFlat 0) (Some (KInt (-1)))) = Some ([7], true) /\
  shown_frames (twice_call (PSeq [0; 0]) (Some (KSlice None None (Some (-1))))) = Some ([7; 4], false) /\
  shown_frames (twice_call (PFlat 0) (Some (KMask [false; true]))) = Some ([7], false) /\
  shown_frames (twice_call (PFlat 0) (Some (KInts [1; -2; 1]))) = Some ([7; 4; 7], false).
Proof. vm_compute. repeat split. Qed.

(** Raises: index beyond the frames, position outside, no frames at position 1. *)
Example twice_raises :
  Forall (fun x => exists m r, x = Some (Throw m, r))
    [twice_call (PFlat 0) (Some (KInt 2)); twice_call (PSeq [1; 0]) None; twice_call (PSeq [0; 3]) None;
     twice_call (PFlat (-1)) None; twice_call (PSeq [0; 1]) None; twice_call (PSeq [0]) None].
Proof. vm_compute. repeat constructor; do 2 eexists; reflexivity. Qed.

Example twice_numbers : frame_numbers twice 0 [4; 7] /\ frame_numbers twice 1 [] /\ most_frames twice 3 2.
Proof.
  assert (HF : forall p fn, has_frame twice p fn <-> p = 0 /\ (fn = 4 \/ fn = 7)).
  { intros p fn. unfold has_frame. split.
    - intros H. destruct (frame_records twice p fn) as [|e l] eqn:E; [congruence|].
      assert (He : In e (frame_records twice p fn)) by (rewrite E; now left).
      apply frame_records_in in He as (He & <- & <-). cbn in He.
      repeat destruct He as [<-|He]; try contradiction; cbn; auto.
    - intros [-> Hfn] E.
      assert (exists e, In e (frame_records twice 0 fn)) as [e He]; [|now rewrite E in He].
      destruct Hfn as [->| ->]; [exists (0, rec44 4 0 100)|exists (0, rec44 7 0 0)];
        apply frame_records_in; (split; [cbn; auto|split; reflexivity]). }
  assert (H0 : frame_numbers twice 0 [4; 7]).
  { split; [repeat constructor; lia|]. intros fn. rewrite HF. cbn [In]. intuition lia. }
  assert (HE : forall p, 0 < p -> frame_numbers twice p []).
  { intros p Hp. split; [constructor|]. intros fn. rewrite HF. cbn [In]. intuition lia. }
  split; [exact H0|]. split; [apply HE; lia|]. split.
  - intros p ks Hp Hk. destruct (Z.eq_dec p 0) as [->|Hne].
    + rewrite (multipass_frame_numbers_unique _ _ _ _ Hk H0). reflexivity.
    + rewrite (multipass_frame_numbers_unique _ _ _ _ Hk (HE p ltac:(lia))). unfold Zlen. simpl. lia.
  - exists 0, [4; 7]. split; [lia|]. split; auto.
Qed.

Print Assumptions multipass_scan_dimensions.
Print Assumptions read_frames_correct.
Print Assumptions read_frames_can_finish.
Print Assumptions read_frames_all_refuted.
Print Assumptions twice_hypotheses.
Print Assumptions twice_frames.
Print Assumptions twice_raises.
Print Assumptions twice_numbers.
