(** C65: electron_count of the Python package with a plain reader. *)
From Coq Require Import String ZArith List Lia Bool Reals Lra.
From Flocq Require Import Core IEEE754.Binary IEEE754.Bits.
From Verif Require Import Base BaseFacts BlockModel CountModel CountSpec Double Float32 FloatConv
  ElectronModel ElectronSpec ThresholdModel ThresholdSpec ThresholdProps SparseModel SparseSpec SparseSlice
  StreamModel StreamSpec StreamProofs StreamProps SectorModel SectorSpec SectorProofs SectorProps
  CountedModel PyModel PySpec PyProofs IeeeModel ClassicPyModel ClassicPySpec ClassicPyProofs.
Import ListNotations.
Open Scope Z_scope.
Local Arguments Z.mul : simpl never.
Local Arguments Z.add : simpl never.
Local Arguments Z.sub : simpl never.
Local Arguments Z.pow : simpl never.

Lemma frame_in_set a bs sw sh w h f : data_set a bs sw sh w h -> In f (flat_map frames_of bs) ->
  fst (snd f) = (w, h) /\ Zlen (snd (snd f)) = w * h.
Proof.
  intros S Hf. apply in_flat_map in Hf as (b & Hb & Hf).
  destruct (ds_blocks _ _ _ _ _ _ S b Hb) as ([B1 B2 (d & Ed & B3 & B4 & B5)] & Fd & _).
  unfold frames_of in Hf. rewrite Ed in Hf. apply in_map_iff in Hf as (i & <- & Hi). apply in_zseq in Hi.
  cbn [fst snd]. rewrite Fd in *. cbn [fst snd] in *. split; [reflexivity|].
  destruct (ds_frame _ _ _ _ _ _ S) as (F1 & F2 & F3).
  unfold image, Zlen in *. rewrite firstn_length, skipn_length. nia.
Qed.

Lemma count_frame a t bs sw sh w h dv gv bg xr f :
  data_set a bs sw sh w h -> references a bs (w * h) dv gv -> ca_row_dark a = false ->
  dval (th_background t) bg -> dval (th_xray t) xr -> In f (flat_map frames_of bs) ->
  exists ev, classic_count a t (fst (snd f)) (snd (snd f)) = Ok ev /\ ascending ev /\
    forall i, In i ev <-> exists x y, i = y * w + x /\ 0 <= x < w /\ 0 <= y < h /\
      electron_in dv gv bg xr w h (snd (snd f)) x y.
Proof.
  intros S (((d & Ed & Rd) & Rg) & Hr) Hrow Hb Hx Hf. destruct (frame_in_set _ _ _ _ _ _ _ S Hf) as [F1 F2].
  destruct (ds_frame _ _ _ _ _ _ S) as (W1 & W2 & W3).
  pose proof (ds_pixels _ _ _ _ _ _ S f Hf) as Hu. rewrite F1. unfold classic_count. rewrite Ed, Hrow.
  assert (P : forall l v, refs_are l (w * h) v -> to_pointer (Some l) = Some l).
  { intros l v [L _]. cbn [to_pointer]. replace (1 <? Zlen l) with true; [reflexivity|]. symmetry. apply Z.ltb_lt. lia. }
  rewrite (P d dv Rd). destruct (ca_gain a) as [g|] eqn:Eg, gv as [v|]; try contradiction.
  - rewrite (P g v Rg). apply classic_frame_f32; auto; try lia. intros j Hj. exact (Hr f j Hf Hj).
  - cbn [to_pointer]. apply classic_frame_u16; auto; try lia. intros j Hj. exact (Hr f j Hf Hj).
Qed.

Lemma ascending_above x l : ascending (x :: l) -> forall y, In y l -> x < y.
Proof.
  revert x. induction l as [|z l IH]; intros x [H A] y Hy; [contradiction|]. destruct Hy as [<-|Hy]; [exact H|].
  specialize (IH z A y Hy). lia.
Qed.

Lemma ascending_nodup l : ascending l -> NoDup l.
Proof.
  induction l as [|x l IH]; intros A; constructor.
  - intros Hin. pose proof (ascending_above x l A x Hin). lia.
  - apply IH. apply A.
Qed.

(** ** The count *)
(** For every reader of the data set, whatever was done with it before: the
    thresholds come from the [ca_blocks] blocks after its position, then all
    blocks are counted from the start. *)
Theorem C65_electron_count {R} (ops : reader_ops R) r bs fit a rnd fuel cs t sw sh w h dv gv bg xr :
  reader_of ops r bs -> data_set a bs sw sh w h -> references a bs (w * h) dv gv ->
  ca_row_dark a = false -> (List.length bs < fuel)%nat ->
  let k := since_reset cs in let nb := Z.to_nat (ca_blocks a) in
  (k + nb <= List.length bs)%nat ->
  calculate_thresholds fit (firstn nb (skipn k bs)) (ca_dark a) (ca_gain a) (ca_samples a)
    (ca_bg_nsigma a) (ca_xray_nsigma a) rnd = Ok t ->
  dval (th_background t) bg -> dval (th_xray t) xr ->
  exists sa, wf sa /\ holds_electrons sa bs sw sh w h dv gv bg xr /\
    electron_count ops fit a rnd fuel (run_calls ops cs r) =
      (Ok sa, run_calls ops (cs ++ repeat CRead nb ++ CReset :: repeat CRead (S (List.length bs))) r).
Proof.
  intros Hrd S Rf Hrow Hfu k nb Hk Ht Hb Hx.
  assert (Rb : forall b, In b bs -> real_block b).
  { intros b Hin. destruct (ds_blocks _ _ _ _ _ _ S b Hin) as ([_ _ (d & Ed & _)] & _ & V). split; [congruence|exact V]. }
  pose proof (delivers_after ops r bs cs Hrd) as Dk. fold k in Dk.
  destruct (next_ok ops nb _ _ Dk) as (r1 & E1 & R1).
  { intros b Hin. apply Rb. rewrite <- (firstn_skipn k bs). apply in_or_app. now right. }
  { rewrite skipn_length. lia. }
  assert (D2 : delivers ops (ro_reset ops r1) bs).
  { rewrite R1, <- run_calls_app. apply Hrd. }
  destruct (iterate_ok ops fuel _ _ D2 Rb Hfu) as (r2 & E2 & _ & R2).
  pose proof (ds_some _ _ _ _ _ _ S) as (b0 & rest & Ebs & Hsc).
  destruct (ds_frame _ _ _ _ _ _ S) as (F1 & F2 & F3).
  destruct (wrapped_ok (classic_count a t) (ca_scan a) bs b0 rest sw sh w h Ebs) as (sa & D & W1 & W2 & W3 & W4); auto.
  { intros b Hin. destruct (ds_blocks _ _ _ _ _ _ S b Hin) as (B1 & B2 & _). auto. }
  { apply (ds_scan _ _ _ _ _ _ S). } { lia. } { apply (ds_positions _ _ _ _ _ _ S). }
  { intros f Hin. destruct (count_frame a t bs sw sh w h dv gv bg xr f S Rf Hrow Hb Hx Hin) as (ev & Ev & A & I).
    exists ev. split; [exact Ev|]. split; [now apply ascending_nodup|]. intros i Hi. apply I in Hi as (x & y & -> & Bx & By & _). nia. }
  exists sa. split; [exact W2|]. split.
  - exists D. split; [exact W3|]. intros p x y Hp Hx' Hy v. assert (Hj : 0 <= y * w + x < w * h) by nia.
    specialize (W4 p (y * w + x) Hp Hj). fold v in W4.
    destruct (last_frame p bs) as [f|] eqn:Ef; [|right; split; [exact W4|congruence]].
    pose proof (last_in bs p f Ef) as Hin.
    destruct (frame_in_set _ _ _ _ _ _ _ S Hin) as [G1 G2]. cbn [fst snd] in *.
    destruct (count_frame a t bs sw sh w h dv gv bg xr _ S Rf Hrow Hb Hx Hin) as (ev & Ev & A & I). cbn [fst snd] in *.
    rewrite Ev in W4. destruct f as [fd fp]. cbn [fst snd] in *. subst fd.
    destruct (existsb (Z.eqb (y * w + x)) ev) eqn:X.
    + left. split; [exact W4|]. exists fp. split; [reflexivity|]. apply existsb_exists in X as (i & Hi & X).
      apply Z.eqb_eq in X. subst i. apply I in Hi as (x' & y' & E & Bx & By & El).
      destruct (div_mod_unique_row w x y Hx') as [Q1 Q2]. destruct (div_mod_unique_row w x' y' Bx) as [Q3 Q4].
      rewrite E in Q1, Q2. rewrite Q1 in Q3. rewrite Q2 in Q4. subst x' y'. exact El.
    + right. split; [exact W4|]. intros f' [= <-] El.
      assert (existsb (Z.eqb (y * w + x)) ev = true); [|congruence]. apply existsb_exists. exists (y * w + x).
      split; [|apply Z.eqb_refl]. apply I. exists x, y. auto.
  - unfold electron_count. fold nb. rewrite E1. cbn [obind]. rewrite Ht, E2. cbn [obind].
    rewrite W1. f_equal. rewrite R2, R1, !run_calls_app. reflexivity.
Qed.

(** The result depends on the blocks of the data set, the arguments, the random
    numbers and the number of blocks read since the last reset only. *)
Definition count_of fit (a : classic_args) rnd (bs : list block) (k : nat) : outcome sparse :=
  let nb := Z.to_nat (ca_blocks a) in
  if (List.length (skipn k bs) <? nb)%nat then Throw "StopIteration" else
  match calculate_thresholds fit (firstn nb (skipn k bs)) (ca_dark a) (ca_gain a) (ca_samples a)
          (ca_bg_nsigma a) (ca_xray_nsigma a) rnd with
  | Ok t => classic_wrapped (classic_count a t) (ca_scan a) bs
  | Throw m => Throw m | UB m => UB m | OutOfFuel => OutOfFuel
  end.

Lemma count_of_ok {R} (ops : reader_ops R) r bs fit a rnd fuel cs :
  reader_of ops r bs -> (forall b, In b bs -> real_block b) -> (List.length bs < fuel)%nat ->
  fst (electron_count ops fit a rnd fuel (run_calls ops cs r)) = count_of fit a rnd bs (since_reset cs).
Proof.
  intros Hrd Rb Hfu. set (k := since_reset cs). pose proof (delivers_after ops r bs cs Hrd) as Dk. fold k in Dk.
  assert (Rk : forall b, In b (skipn k bs) -> real_block b).
  { intros b Hin. apply Rb. rewrite <- (firstn_skipn k bs). apply in_or_app. now right. }
  unfold electron_count, count_of. set (nb := Z.to_nat (ca_blocks a)).
  destruct (Nat.ltb_spec (List.length (skipn k bs)) nb) as [L|L].
  - destruct (next_short ops nb _ _ Dk Rk L) as (r1 & ->). reflexivity.
  - destruct (next_ok ops nb _ _ Dk Rk L) as (r1 & -> & R1). cbn [obind].
    destruct (calculate_thresholds _ _ _ _ _ _ _ _) as [t| | |]; [|reflexivity..].
    assert (D2 : delivers ops (ro_reset ops r1) bs).
    { rewrite R1, <- run_calls_app. apply Hrd. }
    destruct (iterate_ok ops fuel _ _ D2 Rb Hfu) as (r2 & E2 & _). rewrite E2. reflexivity.
Qed.

(** After a reset the result is that of a new reader, whatever happened before,
    and whatever the arguments are. *)
Theorem C65_reset_then_count {R} (ops : reader_ops R) r bs fit a rnd fuel cs :
  reader_of ops r bs -> (forall b, In b bs -> real_block b) -> (List.length bs < fuel)%nat ->
  fst (electron_count ops fit a rnd fuel (ro_reset ops (run_calls ops cs r))) =
  fst (electron_count ops fit a rnd fuel r).
Proof.
  intros Hrd Rb Hfu.
  assert (E : ro_reset ops (run_calls ops cs r) = run_calls ops (cs ++ [CReset]) r).
  { rewrite run_calls_app. reflexivity. }
  rewrite E, (count_of_ok ops r bs) by assumption.
  change r with (run_calls ops [] r) at 1. rewrite (count_of_ok ops r bs) by assumption.
  rewrite since_reset_app by reflexivity. reflexivity.
Qed.

(** Too few blocks after the position of the reader. *)
Theorem C65_too_few_blocks {R} (ops : reader_ops R) r bs fit a rnd fuel cs :
  reader_of ops r bs -> (forall b, In b bs -> real_block b) -> (List.length bs < fuel)%nat ->
  Z.of_nat (List.length bs) < Z.of_nat (since_reset cs) + ca_blocks a -> 0 < ca_blocks a ->
  fst (electron_count ops fit a rnd fuel (run_calls ops cs r)) = Throw "StopIteration".
Proof.
  intros Hrd Rb Hfu L H0. rewrite (count_of_ok ops r bs) by assumption. unfold count_of.
  replace (_ <? _)%nat with true; [reflexivity|]. symmetry. apply Nat.ltb_lt. rewrite skipn_length. lia.
Qed.

(** A second count on the same reader without a reset in between never works. *)
Theorem C65_second_count_stops {R} (ops : reader_ops R) r bs fit a rnd fuel cs sa r' a' rnd' :
  reader_of ops r bs -> (forall b, In b bs -> real_block b) -> (List.length bs < fuel)%nat -> 0 < ca_blocks a' ->
  electron_count ops fit a rnd fuel (run_calls ops cs r) = (Ok sa, r') ->
  fst (electron_count ops fit a' rnd' fuel r') = Throw "StopIteration".
Proof.
  intros Hrd Rb Hfu H0 E.
  set (k := since_reset cs). pose proof (delivers_after ops r bs cs Hrd) as Dk. fold k in Dk.
  assert (Rk : forall b, In b (skipn k bs) -> real_block b).
  { intros b Hin. apply Rb. rewrite <- (firstn_skipn k bs). apply in_or_app. now right. }
  unfold electron_count in E. set (nb := Z.to_nat (ca_blocks a)) in E.
  destruct (Nat.ltb_spec (List.length (skipn k bs)) nb) as [L|L].
  { destruct (next_short ops nb _ _ Dk Rk L) as (r1 & E1). rewrite E1 in E. discriminate. }
  destruct (next_ok ops nb _ _ Dk Rk L) as (r1 & E1 & R1). rewrite E1 in E. cbn [obind] in E.
  destruct (calculate_thresholds _ _ _ _ _ _ _ _) as [t| | |]; try discriminate.
  assert (D2 : delivers ops (ro_reset ops r1) bs).
  { rewrite R1, <- run_calls_app. apply Hrd. }
  destruct (iterate_ok ops fuel _ _ D2 Rb Hfu) as (r2 & E2 & D3 & _). rewrite E2 in E. cbn [obind] in E.
  injection E as _ <-. unfold electron_count.
  destruct (next_short ops (Z.to_nat (ca_blocks a')) r2 [] D3) as (r3 & ->); [intros b []|cbn; lia|reflexivity].
Qed.

(** Without a dark reference (the default) or with one of a single pixel:
    undefined behaviour, unless an error comes first. *)
Theorem C65_no_dark_undefined {R} (ops : reader_ops R) r bs b0 rest fit a rnd fuel cs t sw sh w h :
  reader_of ops r bs -> data_set a bs sw sh w h -> bs = b0 :: rest -> 0 < images_in_block (hdr b0) ->
  match ca_dark a with None => True | Some d => Zlen d <= 1 end ->
  ca_row_dark a = false -> (List.length bs < fuel)%nat ->
  let k := since_reset cs in let nb := Z.to_nat (ca_blocks a) in
  (k + nb <= List.length bs)%nat ->
  calculate_thresholds fit (firstn nb (skipn k bs)) (ca_dark a) (ca_gain a) (ca_samples a)
    (ca_bg_nsigma a) (ca_xray_nsigma a) rnd = Ok t ->
  exists why, fst (electron_count ops fit a rnd fuel (run_calls ops cs r)) = UB why.
Proof.
  intros Hrd S Eb Hi Hd Hrow Hfu k nb Hk Ht.
  assert (Rb : forall b, In b bs -> real_block b).
  { intros b Hin. destruct (ds_blocks _ _ _ _ _ _ S b Hin) as ([_ _ (d & Ed & _)] & _ & V). split; [congruence|exact V]. }
  rewrite (count_of_ok ops r bs) by assumption. unfold count_of. fold k nb.
  replace (_ <? _)%nat with false by (symmetry; apply Nat.ltb_ge; rewrite skipn_length; lia). rewrite Ht.
  destruct (ds_some _ _ _ _ _ _ S) as (b0' & rest' & Eb' & Hsc). rewrite Eb in Eb'. injection Eb' as <- <-.
  destruct (ds_scan _ _ _ _ _ _ S) as (S1 & S2 & S3). destruct (ds_frame _ _ _ _ _ _ S) as (F1 & F2 & F3).
  destruct (ds_blocks _ _ _ _ _ _ S b0) as ([B1 B2 (d & Ed & B3 & B4 & B5)] & Fd & _); [rewrite Eb; now left|].
  rewrite Fd in *. cbn [fst snd] in *.
  assert (HN : 1 <= Zlen (image_numbers (hdr b0))) by lia.
  assert (N1 : to_pointer (ca_dark a) = None).
  { destruct (ca_dark a) as [dd|]; [|reflexivity]. cbn [to_pointer]. replace (1 <? Zlen dd) with false; [reflexivity|].
    symmetry. apply Z.ltb_ge. lia. }
  unfold classic_wrapped, electronCountClassic. rewrite Eb.
  fold (scan_in_effect (ca_scan a) b0). rewrite Hsc. cbn [fst snd].
  replace (sw =? 0) with false by (symmetry; apply Z.eqb_neq; lia).
  replace (sh =? 0) with false by (symmetry; apply Z.eqb_neq; lia). cbn [orb for_each].
  unfold for_loop. rewrite B2. replace (Z.to_nat (Zlen (image_numbers (hdr b0)))) with (Datatypes.S (Z.to_nat (Zlen (image_numbers (hdr b0)) - 1))) by lia.
  cbn [for_from].
  assert (U : exists why, forall e, classic_frame (classic_count a t) (frame_dims (hdr b0)) b0 0 e = UB why).
  { unfold classic_frame, block_data. rewrite Ed. cbn [bind]. rewrite Fd. unfold raw_frame. cbn [fst snd].
    rewrite (u32_id (w * h)) by (unfold is_u32; lia). rewrite !Z.mul_0_l. change (u32 0 * h) with 0. change (u32 0) with 0.
    replace (0 + w * h <=? Zlen d) with true by (symmetry; apply Z.leb_le; nia). cbn [bind].
    change (Z.to_nat 0) with 0%nat. cbn [skipn]. set (raw := firstn (Z.to_nat (w * h)) d).
    assert (Lr : Zlen raw = w * h) by (unfold raw, Zlen in *; rewrite firstn_length; nia).
    assert (Q : forall T (fo : frame_ops T float32 double) g m um, exists why,
      classic_one fo None g (th_background t) (th_xray t) false m um (w, h) raw = UB why).
    { intros T fo g m um. unfold classic_one, preprocess_classic, for_loop. cbn [fst snd].
      rewrite (u32_id (w * h)) by (unfold is_u32; lia).
      replace (Z.to_nat (w * h)) with (Datatypes.S (Z.to_nat (w * h - 1))) by lia. cbn [for_from].
      unfold preprocess_classic_pixel at 1. destruct raw as [|p0 rr] eqn:Er; [unfold Zlen in Lr; cbn in Lr; lia|].
      cbn. eauto. }
    unfold classic_count. rewrite N1, Hrow. destruct (to_pointer (ca_gain a)).
    - match goal with |- context [classic_one ?fo None ?g _ _ _ ?m ?um] => destruct (Q _ fo g m um) as (why & ->) end. cbn. eauto.
    - match goal with |- context [classic_one ?fo None ?g _ _ _ ?m ?um] => destruct (Q _ fo g m um) as (why & ->) end. cbn. eauto. }
  destruct U as (why & U). rewrite U. cbn. eauto.
Qed.

(** ** Stream files *)
Lemma le_bytes_bytes k : forall v, Forall is_byte (le_bytes k v).
Proof.
  induction k as [|k IH]; intros v; cbn [le_bytes]; constructor; auto.
  unfold is_byte. pose proof (Z.mod_pos_bound v 256). lia.
Qed.

Lemma flat_bytes k l : Forall is_byte (flat_map (le_bytes k) l).
Proof. induction l; cbn [flat_map]; [constructor|]. apply Forall_app. split; auto using le_bytes_bytes. Qed.

Lemma pieces_bytes r p : In p (pieces r) -> Forall is_byte p.
Proof.
  destruct r; cbn [pieces]; intros H; repeat destruct H as [<-|H]; try contradiction;
    solve [apply flat_bytes | apply le_bytes_bytes].
Qed.

Lemma files_bytes fs recs : files_hold fs recs -> byte_files (map (fun f => Some (concat f)) fs).
Proof.
  intros H b Hb. apply in_map_iff in Hb as (f & [= <-] & Hf). apply Forall_concat, Forall_forall. intros p Hp.
  assert (Hin : In p (concat fs)) by (apply in_concat; eauto). rewrite H in Hin.
  apply in_flat_map in Hin as (r & _ & Hr). now apply (pieces_bytes r).
Qed.

Lemma stream_reader_of fs recs v : fs <> [] ->
  Forall wf_record recs -> Forall (fun r => rec_version r = v) recs -> files_hold fs recs ->
  exists s, stream_reader (map (fun f => Some (concat f)) fs) v = Ok s /\ reader_of stream_ops s (map block_of recs).
Proof.
  intros Hne Hw Hv Hh. destruct (stream_decodes fs recs v Hne Hw Hv Hh) as (s & E & D). exists s. split; [exact E|].
  assert (D0 : delivers stream_ops s (map block_of recs)).
  { intros n. rewrite stream_ro_reads, D, map_map. reflexivity. }
  split; [exact D0|]. intros cs n. rewrite stream_run, stream_ro_reads. cbn [stream_ops ro_reset].
  rewrite (stream_reset_restarts _ v s (files_bytes fs recs Hh) E), D, map_map. reflexivity.
Qed.

Lemma record_block r : wf_record r -> block_ok (block_of r) /\
  forall f, In f (frames_of (block_of r)) -> Forall is_u16 (snd (snd f)).
Proof.
  intros W. assert (P : forall px (h : header), Forall is_u16 px -> forall f, In f (frames_of (mkBlock h (Some px))) -> Forall is_u16 (snd (snd f))).
  { intros px h Hpx f Hf. cbn [frames_of data hdr] in Hf. apply in_map_iff in Hf as (i & <- & _). cbn [snd].
    unfold image. rewrite Forall_forall in *. intros x Hx. apply Hpx.
    rewrite <- (firstn_skipn (Z.to_nat (i * (fst (frame_dims h) * snd (frame_dims h)))) px). apply in_or_app. right.
    rewrite <- (firstn_skipn (Z.to_nat (fst (frame_dims h) * snd (frame_dims h))) (skipn _ px)). apply in_or_app. now left. }
  destruct r; cbn [wf_record block_of] in *.
  - destruct W as (W1 & W2 & W3 & W4 & _ & _ & _ & _ & _ & _ & _ & _ & _ & W5 & W6). split; [|now apply P].
    constructor; cbn [hdr frame_dims image_numbers images_in_block data fst snd]; rewrite ?Zlen_map; [lia|reflexivity|].
    exists pixels. split; [reflexivity|]. nia.
  - destruct W as (_ & W5 & W6). split; [|now apply P].
    constructor; cbn [hdr frame_dims image_numbers images_in_block data fst snd]; rewrite ?Zlen_zseq by lia; [lia|reflexivity|].
    exists pixels. split; [reflexivity|]. lia.
  - destruct W as (_ & _ & _ & _ & _ & _ & W5 & W6). split; [|now apply P].
    constructor; cbn [hdr frame_dims image_numbers images_in_block data fst snd]; [lia|reflexivity|].
    exists pixels. split; [reflexivity|]. change (Zlen [y * scan_w + x]) with 1. lia.
Qed.

(** Records with frames of one size, a version, and positions of the scan. *)
Definition records_fit (a : classic_args) (recs : list record) (sw sh w h : Z) : Prop :=
  (exists r0 rest, recs = r0 :: rest /\ scan_in_effect (ca_scan a) (block_of r0) = (sw, sh)) /\
  0 < sw /\ 0 < sh /\ sw * sh < 2 ^ 32 /\ w < 65536 /\ h < 65536 /\ 2 <= w * h < 2 ^ 32 /\ 0 < w /\ 0 < h /\
  (forall r, In r recs -> frame_dims (hdr (block_of r)) = (w, h) /\ version (hdr (block_of r)) <> 0 /\
     forall p, In p (image_numbers (hdr (block_of r))) -> 0 <= p < sw * sh).

Lemma records_data_set a recs sw sh w h : Forall wf_record recs -> records_fit a recs sw sh w h ->
  data_set a (map block_of recs) sw sh w h.
Proof.
  intros W ((r0 & rest & Er & Hsc) & S1 & S2 & S3 & F1 & F2 & F3 & F4 & F5 & Hr). rewrite Forall_forall in W.
  assert (Q : forall f, In f (flat_map frames_of (map block_of recs)) -> exists r, In r recs /\ In f (frames_of (block_of r))).
  { intros f Hf. apply in_flat_map in Hf as (b & Hb & Hf). apply in_map_iff in Hb as (r & <- & Hin). eauto. }
  constructor.
  - exists (block_of r0), (map block_of rest). rewrite Er. auto.
  - auto.
  - lia.
  - intros b Hb. apply in_map_iff in Hb as (r & <- & Hin). destruct (Hr r Hin) as (D & V & _).
    split; [now apply record_block, W|auto].
  - intros f Hf. destruct (Q f Hf) as (r & Hin & Hfr). exact (proj2 (record_block r (W r Hin)) f Hfr).
  - intros f Hf. destruct (Q f Hf) as (r & Hin & Hfr). apply (proj2 (proj2 (Hr r Hin))).
    unfold frames_of in Hfr. destruct (data (block_of r)); [|contradiction].
    apply in_map_iff in Hfr as (i & <- & Hi). apply in_zseq in Hi. cbn [fst]. apply zat_in. lia.
Qed.

(** electron_count(reader(files), ...) on a new io.Reader. *)
Theorem C65_stream_files fs recs v fit a rnd fuel t sw sh w h dv gv bg xr :
  fs <> [] -> Forall wf_record recs -> Forall (fun r => rec_version r = v) recs -> files_hold fs recs ->
  records_fit a recs sw sh w h -> references a (map block_of recs) (w * h) dv gv ->
  ca_row_dark a = false -> (List.length recs < fuel)%nat -> (Z.to_nat (ca_blocks a) <= List.length recs)%nat ->
  calculate_thresholds fit (firstn (Z.to_nat (ca_blocks a)) (map block_of recs)) (ca_dark a) (ca_gain a)
    (ca_samples a) (ca_bg_nsigma a) (ca_xray_nsigma a) rnd = Ok t ->
  dval (th_background t) bg -> dval (th_xray t) xr ->
  exists s sa s', stream_reader (map (fun f => Some (concat f)) fs) v = Ok s /\
    electron_count stream_ops fit a rnd fuel s = (Ok sa, s') /\ wf sa /\
    holds_electrons sa (map block_of recs) sw sh w h dv gv bg xr.
Proof.
  intros Hne Hw Hv Hh Hf Rf Hrow Hfu Hnb Ht Hb Hx.
  destruct (stream_reader_of fs recs v Hne Hw Hv Hh) as (s & E & Hrd).
  destruct (C65_electron_count stream_ops s (map block_of recs) fit a rnd fuel [] t sw sh w h dv gv bg xr Hrd)
    as (sa & W & H & C); auto.
  - now apply records_data_set.
  - now rewrite map_length.
  - cbn [since_reset]. rewrite map_length. lia.
  - exists s, sa. eexists. split; [exact E|]. split; [exact C|]. auto.
Qed.

(** ** NumPy arrays *)
Lemma frames_at_distinct {A} (g : Z -> A) (numbers : list Z) total i :
  0 <= i < total -> total <= Zlen numbers -> NoDup (firstn (Z.to_nat total) numbers) ->
  map snd (filter (fun f => fst f =? zat numbers i) (map (fun i => (zat numbers i, g i)) (zseq total))) = [g i].
Proof.
  intros Hi Hl Nd.
  assert (Inj : forall j, 0 <= j < total -> zat numbers j = zat numbers i -> j = i).
  { intros j Hj E. assert (Z.to_nat j = Z.to_nat i); [|lia].
    assert (Q : forall m, 0 <= m < total -> nth_error (firstn (Z.to_nat total) numbers) (Z.to_nat m) = Some (zat numbers m)).
    { intros m Hm. assert (Em : nth_error numbers (Z.to_nat m) = Some (zat numbers m)).
      { unfold zat. destruct (Z.ltb_spec m 0); [lia|]. apply nth_error_nth'. unfold Zlen in Hl. lia. }
      rewrite <- Em. rewrite <- (firstn_skipn (Z.to_nat total) numbers) at 2. symmetry. apply nth_error_app1.
      rewrite firstn_length. unfold Zlen in Hl. lia. }
    eapply (proj1 (NoDup_nth_error _)); [exact Nd| |rewrite !Q by lia; congruence].
    rewrite firstn_length. unfold Zlen in Hl. lia. }
  rewrite (zseq_split i total) by lia. rewrite (zseq_split 1 (total - i)) by lia. change (zseq 1) with [0].
  cbn [app map]. rewrite Z.add_0_r, map_app, filter_app, map_app. cbn [map filter fst]. rewrite Z.eqb_refl.
  assert (N : forall l, (forall j, In j l -> 0 <= j < total /\ j <> i) ->
    filter (fun f : Z * A => fst f =? zat numbers i) (map (fun i => (zat numbers i, g i)) l) = []).
  { induction l as [|j l IH]; intros Hall; [reflexivity|]. cbn [map filter fst].
    destruct (Hall j (or_introl eq_refl)) as [B Ne].
    destruct (Z.eqb_spec (zat numbers j) (zat numbers i)) as [E|_]; [destruct (Ne (Inj j B E))|].
    apply IH. intros; apply Hall; now right. }
  rewrite (N (zseq i)), (N (map (fun i0 => i + i0) (map (fun i0 => 1 + i0) (zseq (total - i - 1))))); [reflexivity| |].
  - intros j Hj. rewrite map_map in Hj. apply in_map_iff in Hj as (q & <- & Hq). apply in_zseq in Hq. lia.
  - intros j Hj. apply in_zseq in Hj. lia.
Qed.

Lemma In_skipn {A} (x : A) n l : In x (skipn n l) -> In x l.
Proof. intros H. rewrite <- (firstn_skipn n l). apply in_or_app. now right. Qed.

Section Array.
  Variables (arr : ndarray) (numbers : list Z) (scan : Z * Z) (size total : Z).
  Hypothesis G : good_py arr numbers size total.
  Let w := nd_cols arr.
  Let h := nd_rows arr.
  Let bs := py_blocks arr numbers scan size total.

  Lemma nd_frame_pixels i : 0 <= i < total ->
    nd_frame arr i = map (fun j => nd_pixel arr i (j / w) (j mod w)) (zseq (w * h)).
  Proof.
    intros Hi. pose proof G as ((C1 & C2 & C3 & C4 & C5 & C6) & Ht & _).
    assert (0 <= w) by exact C3. assert (0 <= h) by exact C2.
    assert (L : Zlen (nd_frame arr i) = w * h).
    { unfold nd_frame, image, nd_data, Zlen in *. rewrite firstn_length, !skipn_length. fold w h in C6 |- *. nia. }
    apply list_eq_zat.
    - rewrite L, Zlen_map, Zlen_zseq by nia. reflexivity.
    - intros j Hj. rewrite L in Hj. rewrite zat_map_zseq by nia. unfold nd_frame, image, nd_data, nd_pixel.
      fold w h. rewrite C5. fold w h. rewrite zat_firstn by nia. rewrite !zat_skipn by nia. f_equal.
      assert (w <> 0) by nia. pose proof (Z.div_mod j w ltac:(lia)). nia.
  Qed.

  Hypothesis Hw : 1 <= w < 65536.
  Hypothesis Hh : 1 <= h < 65536.
  Hypothesis Hwh : 2 <= w * h.
  Hypothesis Hsz : Z.min size total * (w * h) < 2 ^ 32.
  Hypothesis Hu : Forall is_u16 (nd_buf arr).

  Lemma py_blocks_ok b : In b bs -> exists k, 0 <= k /\ k * size < total /\
    b = py_block arr numbers scan (k * size) (Z.min ((k + 1) * size) total) /\ block_ok b.
  Proof.
    intros Hin. apply in_map_iff in Hin as (k & <- & Hk). apply in_zseq in Hk.
    pose proof G as ((C1 & C2 & C3 & C4 & C5 & C6) & Ht & _ & Hs & _).
    pose proof (n_bounds arr numbers size total G) as [N0 N1].
    assert (Hlo : 0 <= k * size < total) by nia. exists k. split; [lia|]. split; [lia|]. split; [reflexivity|].
    set (lo := k * size) in *. set (hi := Z.min ((k + 1) * size) total).
    assert (Hhi : lo < hi <= total /\ hi - lo <= Z.min size total) by (unfold hi, lo in *; lia).
    constructor; cbn [hdr py_block frame_dims image_numbers images_in_block data fst snd]; fold w h.
    - lia.
    - rewrite Zlen_map, Zlen_zseq by lia. reflexivity.
    - rewrite Zlen_map, Zlen_zseq by lia. eexists. split; [reflexivity|]. fold w h in C6. split; [|split].
      + unfold Zlen in *. rewrite skipn_length. fold w h. assert (hi * (h * w) <= nd_count arr * (h * w)) by nia.
        assert (0 <= lo * (h * w)) by nia. rewrite Nat2Z.inj_sub_max, Z2Nat.id by lia. nia.
      + nia.
      + nia.
  Qed.

  Lemma py_data_set a sw sh : 0 < total ->
    (if (fst (ca_scan a) =? 0) || (snd (ca_scan a) =? 0) then scan else ca_scan a) = (sw, sh) ->
    0 < sw -> 0 < sh -> sw * sh < 2 ^ 32 -> (forall i, 0 <= i < total -> 0 <= zat numbers i < sw * sh) ->
    data_set a bs sw sh w h.
  Proof.
    intros Ht0 Hsc S1 S2 S3 Hpos. pose proof (n_bounds arr numbers size total G) as [N0 N1].
    pose proof (proj2 (py_reader_of arr numbers scan size total G)) as F. fold bs w h in F.
    pose proof G as (_ & Ht & _ & Hs & _).
    constructor.
    - unfold bs, py_blocks. set (n := (total + size - 1) / size) in *. assert (1 <= n) by nia.
      rewrite (zseq_split 1 n) by lia. change (zseq 1) with [0]. cbn [app map]. do 2 eexists. split; [reflexivity|].
      exact Hsc.
    - auto.
    - assert (1 * (w * h) <= Z.min size total * (w * h)) by nia. lia.
    - intros b Hb. destruct (py_blocks_ok b Hb) as (k & _ & _ & -> & K). split; [exact K|]. split; [reflexivity|cbn; lia].
    - intros f Hf. rewrite F in Hf. apply in_map_iff in Hf as (i & <- & Hi). apply in_zseq in Hi. cbn [snd].
      unfold nd_frame, image, nd_data. rewrite Forall_forall in *. intros x Hx. apply Hu.
      apply (In_skipn x (Z.to_nat (nd_off arr))), (In_skipn x (Z.to_nat (i * (nd_cols arr * nd_rows arr)))).
      rewrite <- (firstn_skipn (Z.to_nat (nd_cols arr * nd_rows arr))). apply in_or_app. now left.
    - intros f Hf. rewrite F in Hf. apply in_map_iff in Hf as (i & <- & Hi). apply in_zseq in Hi. cbn [fst]. now apply Hpos.
  Qed.
End Array.

(** electron_count on a reader of an array whose [total] images have different
    numbers: the electrons of image i are at position [numbers[i]], the other
    positions are empty. *)
Theorem C65_array arr numbers scan size total fit a rnd fuel cs t sw sh dv gv bg xr :
  let w := nd_cols arr in let h := nd_rows arr in
  let bs := py_blocks arr numbers scan size total in
  good_py arr numbers size total -> 0 < total -> NoDup (firstn (Z.to_nat total) numbers) ->
  Forall is_u16 (nd_buf arr) -> 1 <= w < 65536 -> 1 <= h < 65536 -> 2 <= w * h -> Z.min size total * (w * h) < 2 ^ 32 ->
  (if (fst (ca_scan a) =? 0) || (snd (ca_scan a) =? 0) then scan else ca_scan a) = (sw, sh) ->
  0 < sw -> 0 < sh -> sw * sh < 2 ^ 32 -> (forall i, 0 <= i < total -> 0 <= zat numbers i < sw * sh) ->
  refs_given a (w * h) dv gv ->
  (forall i x y, 0 <= i < total -> 0 <= x < w -> 0 <= y < h ->
     in_range (option_map (fun v => v (y * w + x)) gv) (nd_pixel arr i y x) (dv (y * w + x))) ->
  ca_row_dark a = false -> (List.length bs < fuel)%nat ->
  let k := since_reset cs in let nb := Z.to_nat (ca_blocks a) in
  (k + nb <= List.length bs)%nat ->
  calculate_thresholds fit (firstn nb (skipn k bs)) (ca_dark a) (ca_gain a) (ca_samples a)
    (ca_bg_nsigma a) (ca_xray_nsigma a) rnd = Ok t ->
  dval (th_background t) bg -> dval (th_xray t) xr ->
  exists sa r' D,
    electron_count py_ops fit a rnd fuel (run_calls py_ops cs (py_new arr numbers scan size total)) = (Ok sa, r') /\
    wf sa /\ to_dense sa = Ok (Dense [sh; sw; w; h] D) /\
    (forall i x y, 0 <= i < total -> 0 <= x < w -> 0 <= y < h ->
      let v := zat D (zat numbers i * (w * h) + (y * w + x)) in
      let el := greatest (fun x y => clipped bg xr (classic_value (option_map (fun g => g (y * w + x)) gv)
                  (nd_pixel arr i y x) (dv (y * w + x)))) w h x y in
      v = 1 /\ el \/ v = 0 /\ ~ el) /\
    (forall p j, 0 <= p < sw * sh -> 0 <= j < w * h -> ~ In p (firstn (Z.to_nat total) numbers) ->
      zat D (p * (w * h) + j) = 0).
Proof.
  intros w h bs G Ht0 Hnd Hu Hw Hh Hwh Hsz Hsc S1 S2 S3 Hpos Hrf Hrange Hrow Hfu k nb Hk Ht Hb Hx.
  pose proof (py_reader_of arr numbers scan size total G) as [Hrd F]. fold bs w h in Hrd, F.
  pose proof (py_data_set arr numbers scan size total G Hw Hh Hwh Hsz Hu a sw sh Ht0 Hsc S1 S2 S3 Hpos) as S.
  fold bs w h in S. pose proof G as (_ & Ht' & Hn & Hs & _).
  assert (Px : forall i x y, 0 <= i < total -> 0 <= x < w -> 0 <= y < h ->
    zat (nd_frame arr i) (y * w + x) = nd_pixel arr i y x).
  { intros i x y Hi Hx' Hy. rewrite (nd_frame_pixels arr numbers size total G) by assumption. fold w h.
    rewrite zat_map_zseq by nia. destruct (div_mod_unique_row w x y Hx') as [-> ->]. reflexivity. }
  assert (Rf : references a bs (w * h) dv gv).
  { split; [exact Hrf|]. intros f j Hf Hj. rewrite F in Hf. apply in_map_iff in Hf as (i & <- & Hi). apply in_zseq in Hi.
    cbn [snd]. assert (Hw0 : 0 < w) by lia. pose proof (Z.div_mod j w ltac:(lia)) as E.
    pose proof (Z.mod_pos_bound j w Hw0). assert (0 <= j / w < h) by (split; [apply Z.div_pos; lia|apply Z.div_lt_upper_bound; lia]).
    specialize (Hrange i (j mod w) (j / w) Hi ltac:(lia) ltac:(lia)). rewrite <- Px in Hrange by lia.
    replace (j / w * w + j mod w) with j in Hrange by lia. exact Hrange. }
  destruct (C65_electron_count py_ops _ bs fit a rnd fuel cs t sw sh w h dv gv bg xr Hrd S Rf Hrow Hfu Hk Ht Hb Hx)
    as (sa & W & (D & ED & HD) & C).
  exists sa. eexists. exists D. split; [exact C|]. split; [exact W|]. split; [exact ED|].
  assert (Lf : forall i, 0 <= i < total -> last_frame (zat numbers i) bs = Some ((w, h), nd_frame arr i)).
  { intros i Hi. unfold last_frame, frames_at. rewrite F, frames_at_distinct by (auto; lia). reflexivity. }
  split.
  - intros i x y Hi Hx' Hy v el. specialize (HD (zat numbers i) x y (Hpos i Hi) Hx' Hy). fold v in HD.
    rewrite (Lf i Hi) in HD.
    assert (El : electron_in dv gv bg xr w h (nd_frame arr i) x y <-> el).
    { unfold electron_in, greatest, el, greatest. split; intros Q x' y' N; specialize (Q x' y' N); pose proof N as (N1 & N2 & _).
      - rewrite !Px in Q by assumption. exact Q.
      - rewrite !Px by assumption. exact Q. }
    destruct HD as [[E (f & [= <-] & Q)]|[E Q]]; [left|right]; (split; [exact E|]).
    + now apply El.
    + intros Q'. apply (Q _ eq_refl). now apply El.
  - intros p j Hp Hj Hno. pose proof (Z.div_mod j w ltac:(lia)) as E. pose proof (Z.mod_pos_bound j w ltac:(lia)).
    assert (0 <= j / w < h) by (split; [apply Z.div_pos; lia|apply Z.div_lt_upper_bound; lia]).
    specialize (HD p (j mod w) (j / w) Hp ltac:(lia) ltac:(lia)). replace (j / w * w + j mod w) with j in HD by lia.
    destruct HD as [[_ (f & Ef & _)]|[HD _]]; [|exact HD]. exfalso. apply last_in in Ef. rewrite F in Ef.
    apply in_map_iff in Ef as (i & [= Ei _] & Hi). apply in_zseq in Hi. apply Hno. rewrite <- Ei.
    rewrite <- (zat_firstn numbers (Z.to_nat total)) by lia. apply zat_in. unfold Zlen in *. rewrite firstn_length. lia.
Qed.

(** ** A case that meets the hypotheses *)
Definition fit_start (_ _ : list Z) (_ : Z) (m s : double) : option (double * double) := Some (m, s).
Definition ex_arr : ndarray :=
  mkNd ([9; 9] ++ [1; 2; 1; 3; 9; 2; 1; 2; 1] ++ [7; 1; 1; 1; 1; 2; 1; 2; 9] ++ [1; 2; 3; 4; 5; 6; 7; 8; 9])
    2 (3, 3, 3) (9, 3, 1).
Definition ex_args (g : option (list float32)) (dark : option (list float32)) : classic_args :=
  mkClassic dark g 2 (d_of_Z 0) (d_of_Z 5) 1 (0, 0) false true.
Definition ex_dark : list float32 := repeat (f_of_Z 1) 9.
Definition ex_gain : list float32 := repeat (f_div (f_of_Z 1) (f_of_Z 2)) 9.
Definition ex_reader := py_new ex_arr [2; 0; 1] (3, 1) 2 3.

Definition dense_of {R} (o : outcome sparse * R) : outcome sliced :=
  match fst o with Ok sa => to_dense sa | Throw m => Throw m | UB m => UB m | OutOfFuel => OutOfFuel end.
Definition finite_thresholds (o : outcome thresholds) : bool :=
  match o with Ok t => is_finite 53 1024 (th_background t) && is_finite 53 1024 (th_xray t) | _ => false end.

Lemma finite_ok o : finite_thresholds o = true -> exists t bg xr, o = Ok t /\ dval (th_background t) bg /\ dval (th_xray t) xr.
Proof.
  destruct o as [t| | |]; try discriminate. cbn [finite_thresholds]. intros H. apply andb_prop in H as [H1 H2].
  exists t, (B2R 53 1024 (th_background t)), (B2R 53 1024 (th_xray t)). repeat split; assumption.
Qed.

Lemma const_refs x v n : 0 <= n -> fval x v -> refs_are (repeat x (Z.to_nat n)) n (fun _ => v).
Proof.
  intros Hn V. split; [unfold Zlen; rewrite repeat_length; lia|]. intros j Hj. exists x. split; [|exact V].
  rewrite nth_error_repeat by lia. reflexivity.
Qed.

Example ex_array_gain g gv : (g = None /\ gv = None) \/ (g = Some ex_gain /\ gv = Some (fun _ => (1 / 2)%R)) ->
  let a := ex_args g (Some ex_dark) in
  exists t bg xr sa r' D,
    calculate_thresholds fit_start (firstn 1 (py_blocks ex_arr [2; 0; 1] (3, 1) 2 3)) (ca_dark a) (ca_gain a) 2
      (d_of_Z 0) (d_of_Z 5) (fun k => k) = Ok t /\ dval (th_background t) bg /\ dval (th_xray t) xr /\
    electron_count py_ops fit_start a (fun k => k) 10 ex_reader = (Ok sa, r') /\
    to_dense sa = Ok (Dense [1; 3; 3; 3] D) /\
    forall i x y, 0 <= i < 3 -> 0 <= x < 3 -> 0 <= y < 3 ->
      let v := zat D (zat [2; 0; 1] i * 9 + (y * 3 + x)) in
      let el := greatest (fun x y => clipped bg xr (classic_value (option_map (fun g => g (y * 3 + x)) gv)
                  (nd_pixel ex_arr i y x) 1)) 3 3 x y in
      v = 1 /\ el \/ v = 0 /\ ~ el.
Proof.
  intros Hg a.
  assert (Hf : finite_thresholds (calculate_thresholds fit_start (firstn 1 (py_blocks ex_arr [2; 0; 1] (3, 1) 2 3))
    (ca_dark a) (ca_gain a) 2 (d_of_Z 0) (d_of_Z 5) (fun k => k)) = true).
  { destruct Hg as [[-> _]|[-> _]]; vm_compute; reflexivity. }
  destruct (finite_ok _ Hf) as (t & bg & xr & Et & Hb & Hx).
  assert (V1 : fval (f_of_Z 1) (IZR 1)) by (apply fval_exact; lia).
  assert (V2 : fval (f_div (f_of_Z 1) (f_of_Z 2)) (1 / 2)%R).
  { assert (V2' : fval (f_of_Z 2) (IZR 2)) by (apply fval_exact; lia).
    assert (Q : (1 / 2)%R = bpow radix2 (-1)) by (change (bpow radix2 (-1)) with (/ 2)%R; lra).
    pose proof (fval_div _ _ _ _ V1 V2' ltac:(lra)) as D. rewrite Q, f_rnd_id in D.
    - rewrite Q. apply D. rewrite Rabs_pos_eq by apply bpow_ge_0. apply bpow_le. lia.
    - apply generic_format_bpow. unfold f_exp, FLT_exp. lia. }
  assert (Rd : refs_are ex_dark 9 (fun _ => 1%R)) by exact (const_refs _ _ 9 ltac:(lia) V1).
  assert (Rg : refs_are ex_gain 9 (fun _ => (1 / 2)%R)) by exact (const_refs _ _ 9 ltac:(lia) V2).
  destruct (C65_array ex_arr [2; 0; 1] (3, 1) 2 3 fit_start a (fun k => k) 10 [] t 3 1 (fun _ => 1%R) gv bg xr)
    as (sa & r' & D & E & _ & ED & HD & _); try (cbn; lia); auto.
  - unfold good_py, contiguous, ex_arr, Zlen; cbn; repeat split; lia.
  - cbn. repeat constructor; cbn; intuition discriminate.
  - cbn. repeat constructor; unfold is_u16; lia.
  - intros i Hi. assert (i = 0 \/ i = 1 \/ i = 2) as [->|[->| ->]] by lia; (split; [vm_compute; discriminate|vm_compute; reflexivity]).
  - change (nd_cols ex_arr * nd_rows ex_arr) with 9. split; [exists ex_dark; split; [reflexivity|exact Rd]|]. destruct Hg as [[-> ->]|[-> ->]]; [exact I|exact Rg].
  - intros i x y Hi Hx' Hy. change (nd_cols ex_arr) with 3 in *. change (nd_rows ex_arr) with 3 in *.
    assert (P : 1 <= nd_pixel ex_arr i y x <= 9).
    { assert (i = 0 \/ i = 1 \/ i = 2) as [->|[->| ->]] by lia;
        assert (x = 0 \/ x = 1 \/ x = 2) as [->|[->| ->]] by lia;
        assert (y = 0 \/ y = 1 \/ y = 2) as [->|[->| ->]] by lia; (split; vm_compute; discriminate). }
    destruct Hg as [[-> ->]|[-> ->]]; cbn [option_map in_range].
    + rewrite <- minus_IZR, f_rnd_int by lia. split; [apply IZR_lt; lia|apply IZR_lt; lia].
    + assert (1 <= bpow radix2 40)%R by (change 1%R with (bpow radix2 0); apply bpow_le; lia).
      split; apply Rabs_le; lra.
  - apply Nat.ltb_lt. vm_compute. reflexivity.
  - apply Nat.leb_le. vm_compute. reflexivity.
  - exists t, bg, xr, sa, r', D. split; [exact Et|]. split; [exact Hb|]. split; [exact Hx|]. split; [exact E|]. split; [exact ED|]. exact HD.
Qed.

Example ex_array_values :
  dense_of (electron_count py_ops fit_start (ex_args None (Some ex_dark)) (fun k => k) 10 ex_reader) =
    Ok (Dense [1; 3; 3; 3] [1; 0; 0; 0; 0; 0; 0; 0; 1;  0; 0; 0; 0; 0; 0; 0; 0; 1;  0; 0; 0; 0; 1; 0; 0; 0; 0]) /\
  dense_of (electron_count py_ops fit_start (ex_args (Some ex_gain) (Some ex_dark)) (fun k => k) 10 ex_reader) =
    Ok (Dense [1; 3; 3; 3] [1; 0; 0; 0; 0; 0; 0; 0; 1;  0; 0; 0; 0; 0; 0; 0; 0; 1;  0; 0; 0; 0; 1; 0; 0; 0; 0]).
Proof. split; vm_compute; reflexivity. Qed.

(** Two version 1 records in two files. *)
Definition ex_recs : list record :=
  [Rec1 3 1 1 0 [0; 0; 0; 0; 0] [1; 2] (repeat 0 1012) [1; 2; 9; 4; 1; 1];
   Rec1 3 1 1 0 [0; 0; 0; 0; 0] [3] (repeat 0 1013) [1; 8; 3]].
Example ex_stream : exists s,
  stream_reader (map (fun f => Some (concat f)) (map pieces ex_recs)) 1 = Ok s /\
  dense_of (electron_count stream_ops fit_start
    (mkClassic (Some (repeat (f_of_Z 1) 3)) None 2 (d_of_Z 0) (d_of_Z 5) 1 (3, 1) false true) (fun k => k) 10 s) =
    Ok (Dense [1; 3; 3; 1] [0; 0; 1;  1; 0; 0;  0; 1; 0]).
Proof. eexists. split; [vm_compute; reflexivity|]. vm_compute. reflexivity. Qed.

Example ex_stream_fits :
  let a := mkClassic (Some (repeat (f_of_Z 1) 3)) None 2 (d_of_Z 0) (d_of_Z 5) 1 (3, 1) false true in
  Forall wf_record ex_recs /\ Forall (fun r => rec_version r = 1) ex_recs /\ files_hold (map pieces ex_recs) ex_recs /\
  records_fit a ex_recs 3 1 3 1 /\ references a (map block_of ex_recs) 3 (fun _ => 1%R) None.
Proof.
  intros a.
  assert (R0 : forall n, Forall is_u32 (repeat 0 n)).
  { intros n. apply Forall_forall. intros x Hx. apply repeat_spec in Hx. subst x. unfold is_u32. lia. }
  split; [|split; [repeat constructor|split; [unfold files_hold; now rewrite flat_map_concat_map|split]]].
  - repeat constructor; try reflexivity; try (unfold is_u32, is_u16; lia); try apply (R0 1012%nat); try apply (R0 1013%nat); try lia.
  - split; [do 2 eexists; split; reflexivity|]. repeat (split; [lia|]).
    intros r [<-|[<-|[]]]; (split; [reflexivity|]); (split; [cbn; lia|]); intros p Hp; cbn in Hp; lia.
  - split.
    + split; [|exact I]. eexists. split; [reflexivity|]. apply (const_refs _ _ 3); [lia|]. apply (fval_exact 1). lia.
    + intros f j Hf Hj. cbn [option_map in_range].
      assert (P : 1 <= zat (snd (snd f)) j <= 9).
      { vm_compute in Hf. assert (j = 0 \/ j = 1 \/ j = 2) as [->|[->| ->]] by lia;
          destruct Hf as [<-|[<-|[<-|[]]]]; (split; vm_compute; discriminate). }
      rewrite <- minus_IZR, f_rnd_int by lia. split; apply IZR_lt; lia.
Qed.

(** The default arguments, and counting twice. *)
Example ex_no_dark : is_UB (fst (electron_count py_ops fit_start (ex_args None None) (fun k => k) 10 ex_reader)) = true.
Proof. vm_compute. reflexivity. Qed.
Example ex_twice :
  let a := ex_args None (Some ex_dark) in
  let r := snd (electron_count py_ops fit_start a (fun k => k) 10 ex_reader) in
  fst (electron_count py_ops fit_start a (fun k => k) 10 r) = Throw "StopIteration" /\
  dense_of (electron_count py_ops fit_start a (fun k => k) 10 (ro_reset py_ops r)) =
  dense_of (electron_count py_ops fit_start a (fun k => k) 10 ex_reader).
Proof. split; vm_compute; reflexivity. Qed.

(** ** What goes wrong *)
(** A pixel below the dark level in a frame that is not sampled: undefined. *)
Theorem C65_below_dark_refuted : exists arr why,
  good_py arr [0; 1] 1 2 /\ Forall is_u16 (nd_buf arr) /\
  fst (electron_count py_ops fit_start (mkClassic (Some (repeat (f_of_Z 1) 4)) None 2 (d_of_Z 0) (d_of_Z 5) 1 (2, 1) false true)
        (fun k => k) 10 (py_new arr [0; 1] (2, 1) 1 2)) = UB why.
Proof.
  exists (mkNd [3; 1; 4; 5;  0; 1; 1; 2] 0 (2, 2, 2) (4, 2, 1)). eexists.
  split; [unfold good_py, contiguous, Zlen; cbn; repeat split; lia|].
  split; [cbn; repeat constructor; unfold is_u16; lia|]. vm_compute. reflexivity.
Qed.

(** The sector reader is not a reader of a data set in this sense: the reset after
    the blocks for the thresholds keeps the frame that was being assembled.  Both
    frames of this data set are complete; iteration over a new reader gives them.
    Counting loses the electron of the second one (value 9 at pixel 4) and
    reports one at pixel 15 instead. *)
Definition cut_rec (p : Z) (px : list Z) : srec := mkSrec 1 p 2 1 p 0 px.
Definition cut_files : list sfile :=
  [(0, [cut_rec 1 [1; 9; 1; 2]; cut_rec 0 [1; 1; 1; 2]]); (1, [cut_rec 0 [1; 7; 1; 2]; cut_rec 1 [1; 1; 1; 2]]);
   (2, [cut_rec 0 [1; 1; 1; 2]; cut_rec 1 [1; 1; 1; 2]]); (3, [cut_rec 0 [1; 1; 1; 2]; cut_rec 1 [1; 1; 1; 2]])].
Lemma to_ok {A B} (o : outcome A) (k : A -> outcome B) v : (let* x := o in k x) = Ok v -> exists x, o = Ok x /\ k x = Ok v.
Proof. destruct o; try discriminate. eauto. Qed.

Theorem C65_sector_reader_refuted : exists g fs s bs s' t good,
  wf_geom g /\ wf_sfiles g fs /\ same_scan fs /\
  (forall e, In e (all_records fs) -> List.length (records_at (s_pos (snd e)) (all_records fs)) = 4%nat) /\
  sector_reader (map encode_sfile fs) 4 = Ok s /\
  ro_iterate (sector_ops g) 10 s = (Ok bs, s') /\
  let a := mkClassic (Some (repeat (f_of_Z 0) 16)) None 2 (d_of_Z 0) (d_of_Z 5) 1 (2, 1) false true in
  calculate_thresholds fit_start (firstn 1 bs) (ca_dark a) None 2 (d_of_Z 0) (d_of_Z 5) (fun k => k) = Ok t /\
  classic_wrapped (classic_count a t) (ca_scan a) bs = Ok good /\
  to_dense good = Ok (Dense [1; 2; 4; 4] ([0; 0; 0; 0; 0; 1; 0; 0; 0; 0; 0; 0; 0; 0; 0; 0] ++
                                          [0; 0; 0; 0; 1; 0; 0; 0; 0; 0; 0; 0; 0; 0; 0; 0])) /\
  dense_of (electron_count (sector_ops g) fit_start a (fun k => k) 10 s) =
    Ok (Dense [1; 2; 4; 4] ([0; 0; 0; 0; 0; 1; 0; 0; 0; 0; 0; 0; 0; 0; 0; 0] ++
                            [0; 0; 0; 0; 0; 0; 0; 0; 0; 0; 0; 0; 0; 0; 0; 1])).
Proof.
  set (g := mkGeom 4 4).
  set (a := mkClassic (Some (repeat (f_of_Z 0) 16)) None 2 (d_of_Z 0) (d_of_Z 5) 1 (2, 1) false true).
  set (frame0 := [1; 1; 1; 1; 1; 7; 1; 1; 1; 1; 1; 1; 2; 2; 2; 2]).
  set (frame1 := [1; 1; 1; 1; 9; 1; 1; 1; 1; 1; 1; 1; 2; 2; 2; 2]).
  set (bs := [mkBlock (mkHeader (2, 1) (4, 4) 1 4 0 0 1 [0] []) (Some frame0);
              mkBlock (mkHeader (2, 1) (4, 4) 1 4 0 0 1 [1] []) (Some frame1)]).
  set (s := mkSSR (map encode_sfile cut_files) (map encode_sfile cut_files) 0 [] 4).
  set (s' := mkSSR (map encode_sfile cut_files) [] 0 [] 4).
  assert (Q : (let* t := calculate_thresholds fit_start (firstn 1 bs) (ca_dark a) None 2 (d_of_Z 0) (d_of_Z 5) (fun k => k) in
               let* good := classic_wrapped (classic_count a t) (ca_scan a) bs in to_dense good) =
    Ok (Dense [1; 2; 4; 4] ([0; 0; 0; 0; 0; 1; 0; 0; 0; 0; 0; 0; 0; 0; 0; 0] ++
                            [0; 0; 0; 0; 1; 0; 0; 0; 0; 0; 0; 0; 0; 0; 0; 0]))) by (vm_compute; reflexivity).
  apply to_ok in Q as (t & Et & Q). apply to_ok in Q as (good & Eg & Q).
  exists g, cut_files, s, bs, s', t, good.
  split; [repeat split|]. split; [|split; [|split; [|split; [|split; [|split; [exact Et|split; [exact Eg|split; [exact Q|]]]]]]]].
  - split.
    + intros e He. cbn in He. repeat destruct He as [<-|He]; try contradiction; cbn [fst snd];
        (split; [|lia]); unfold wf_srec, cut_rec, is_u32, is_u16; cbn [s_scan s_frame s_sw s_sh s_x s_y s_px];
        repeat (split; [lia|]); (split; [reflexivity|]); repeat constructor; unfold is_u16; lia.
    + cbn -[Z.div Z.mul]. repeat constructor; simpl; intuition discriminate.
  - intros x y Hx Hy _. cbn in Hx, Hy.
    repeat destruct Hx as [<-|Hx]; try contradiction;
      repeat destruct Hy as [<-|Hy]; try contradiction; repeat split; reflexivity.
  - intros e He. cbn in He. repeat destruct He as [<-|He]; try contradiction; reflexivity.
  - reflexivity.
  - vm_compute. reflexivity.
  - vm_compute. reflexivity.
Qed.

Print Assumptions C65_electron_count.
Print Assumptions C65_reset_then_count.
Print Assumptions C65_too_few_blocks.
Print Assumptions C65_second_count_stops.
Print Assumptions C65_no_dark_undefined.
Print Assumptions C65_stream_files.
Print Assumptions C65_array.
Print Assumptions C65_below_dark_refuted.
Print Assumptions C65_sector_reader_refuted.
