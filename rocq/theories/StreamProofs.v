(** Proofs about StreamReader. *)
From Coq Require Import String ZArith List Lia Bool.
From Verif Require Import Base BaseFacts BlockModel StreamModel StreamSpec.
Import ListNotations.
Open Scope Z_scope.
Local Arguments skipn : simpl never.
Local Arguments firstn : simpl never.
Local Arguments Z.mul : simpl never.
Local Arguments Z.add : simpl never.

(** ** Bytes and words *)

Lemma le_bytes_length k v : List.length (le_bytes k v) = k.
Proof. revert v; induction k; simpl; auto. Qed.

Lemma le_le_bytes k v : 0 <= v < 256 ^ Z.of_nat k -> le (le_bytes k v) = v.
Proof.
  revert v; induction k as [|k IH]; intros v Hv.
  - simpl in *; lia.
  - cbn [le_bytes le].
    rewrite Nat2Z.inj_succ, Z.pow_succ_r in Hv by lia.
    rewrite IH.
    + pose proof (Z.div_mod v 256); lia.
    + split; [apply Z.div_pos; lia|]. apply Z.div_lt_upper_bound; lia.
Qed.

Lemma flat_le_length k l :
  List.length (flat_map (le_bytes k) l) = (List.length l * k)%nat.
Proof.
  induction l; simpl; auto. rewrite app_length, le_bytes_length, IHl. lia.
Qed.

Lemma Zlen_flat_le k l :
  Zlen (flat_map (le_bytes k) l) = Zlen l * Z.of_nat k.
Proof. unfold Zlen. rewrite flat_le_length. lia. Qed.

Lemma words_flat k l rest :
  Forall (fun v => 0 <= v < 256 ^ Z.of_nat k) l ->
  words (List.length l) k (flat_map (le_bytes k) l ++ rest) = l.
Proof.
  induction 1 as [|v l Hv Hl IH]; cbn [List.length words flat_map]; auto.
  rewrite <- app_assoc.
  rewrite firstn_app, firstn_all2 by (rewrite le_bytes_length; lia).
  rewrite le_bytes_length, Nat.sub_diag.
  rewrite skipn_app, skipn_all2 by (rewrite le_bytes_length; lia).
  rewrite le_bytes_length, Nat.sub_diag.
  change (firstn 0 (flat_map (le_bytes k) l ++ rest)) with (@nil Z).
  change (skipn 0 (flat_map (le_bytes k) l ++ rest))
    with (flat_map (le_bytes k) l ++ rest).
  rewrite app_nil_r, le_le_bytes by auto. cbn [app]. now rewrite IH.
Qed.

Lemma words_flat' k n l :
  n = List.length l ->
  Forall (fun v => 0 <= v < 256 ^ Z.of_nat k) l ->
  words n k (flat_map (le_bytes k) l) = l.
Proof.
  intros -> H. rewrite <- (app_nil_r (flat_map _ _)). now apply words_flat.
Qed.

Lemma words_length n k l : List.length (words n k l) = n.
Proof. revert l; induction n; simpl; auto. Qed.

(** ** Walking through the files *)

Definition as_files (fs : list (list bytes)) : list file :=
  map (fun f => Some (concat f)) fs.

(** The open file still contains the pieces [cs], the following ones the
    pieces [rest]. *)
Record good (s : sr) (ps : list bytes) : Prop := mkGood {
  g_split : exists cs rest,
      sr_cur s = Some (concat cs) /\
      skipn (S (sr_idx s)) (sr_files s) = as_files rest /\
      ps = cs ++ concat rest;
  g_idx : (sr_idx s < List.length (sr_files s))%nat;
  g_ne : Forall (fun p => p <> []) ps
}.

Definition same_reader (s s' : sr) : Prop :=
  sr_files s' = sr_files s /\ sr_version s' = sr_version s.

Lemma same_reader_trans s1 s2 s3 :
  same_reader s1 s2 -> same_reader s2 s3 -> same_reader s1 s3.
Proof. unfold same_reader; intuition congruence. Qed.

Lemma skipn_cons_nth {A} n (l : list A) x t :
  skipn n l = x :: t -> nth_error l n = Some x /\ skipn (S n) l = t.
Proof.
  revert l; induction n; intros l H.
  - destruct l; cbn in *; inversion H; auto.
  - destruct l; [discriminate|]. change (skipn n l = x :: t) in H.
    cbn [nth_error]. change (skipn (S (S n)) (a :: l)) with (skipn (S n) l).
    auto.
Qed.

Lemma skipn_nil_len {A} n (l : list A) : skipn n l = [] -> (List.length l <= n)%nat.
Proof.
  intros H. pose proof (skipn_length n l) as E. rewrite H in E. simpl in E. lia.
Qed.

Lemma open_next_good s cs rest f :
  sr_cur s = Some cs ->
  skipn (S (sr_idx s)) (sr_files s) = as_files (f :: rest) ->
  exists s', open_next s = (Ok true, s') /\ same_reader s s' /\
    sr_cur s' = Some (concat f) /\ sr_idx s' = S (sr_idx s) /\
    skipn (S (sr_idx s')) (sr_files s') = as_files rest /\
    (sr_idx s' < List.length (sr_files s'))%nat.
Proof.
  intros Hc Hs. cbn [as_files map] in Hs.
  destruct (skipn_cons_nth _ _ _ _ Hs) as [Hn Ht].
  assert (Hlen : (S (sr_idx s) < List.length (sr_files s))%nat).
  { apply nth_error_Some. congruence. }
  unfold open_next, close_cur. rewrite Hc. unfold at_end.
  cbn [sr_files sr_idx sr_cur sr_version].
  replace (List.length (sr_files s) <=? S (sr_idx s))%nat with false
    by (symmetry; apply Nat.leb_gt; lia).
  rewrite Hn. eexists; split; [reflexivity|].
  repeat split; auto.
Qed.

Lemma open_next_last s cs :
  sr_cur s = Some cs ->
  skipn (S (sr_idx s)) (sr_files s) = [] ->
  exists s', open_next s = (Ok false, s') /\ same_reader s s' /\ at_end s' = true.
Proof.
  intros Hc Hs. apply skipn_nil_len in Hs.
  unfold open_next, close_cur. rewrite Hc. unfold at_end.
  cbn [sr_files sr_idx sr_cur sr_version].
  replace (List.length (sr_files s) <=? S (sr_idx s))%nat with true
    by (symmetry; apply Nat.leb_le; lia).
  eexists; split; [reflexivity|]. split; [split; auto|].
  cbn. apply Nat.leb_le; lia.
Qed.

Lemma as_files_length fs : List.length (as_files fs) = List.length fs.
Proof. apply map_length. Qed.

Lemma good_not_end s : (sr_idx s < List.length (sr_files s))%nat -> at_end s = false.
Proof. intros; apply Nat.leb_gt; auto. Qed.

Lemma read_raw_piece_f fuel : forall s rest cs p ps,
  sr_cur s = Some (concat cs) ->
  skipn (S (sr_idx s)) (sr_files s) = as_files rest ->
  p :: ps = cs ++ concat rest ->
  (sr_idx s < List.length (sr_files s))%nat ->
  Forall (fun q => q <> []) (p :: ps) ->
  (List.length rest < fuel)%nat ->
  exists s', read_raw fuel (Zlen p) s = (Ok p, s') /\ good s' ps /\
             same_reader s s'.
Proof.
  induction fuel as [|fuel IH]; intros s rest cs p ps Hc Hs Hp Hi Hne Hf; [lia|].
  cbn [read_raw]. rewrite good_not_end by auto. rewrite Hc.
  destruct cs as [|c cs].
  - (* the open file is used up *)
    cbn [concat].
    assert (Hpp : p <> []) by (apply Forall_inv in Hne; auto).
    assert (Hz : 0 < Zlen p).
    { destruct p; [congruence|]. rewrite Zlen_cons. pose proof (Zlen_nonneg p). lia. }
    change (Zlen (@nil Z)) with 0.
    replace (Zlen p <=? 0) with false by (symmetry; apply Z.leb_gt; lia).
    destruct rest as [|f rest]; [discriminate|].
    destruct (open_next_good s _ rest f Hc Hs) as (s1 & E & Hsr & Hc1 & Hi1 & Hs1 & Hl1).
    rewrite E.
    destruct (IH s1 rest f p ps) as (s2 & E2 & G2 & Hsr2); auto.
    { simpl in Hf; lia. }
    exists s2. repeat split; auto; try apply G2.
    + destruct Hsr, Hsr2; congruence.
    + destruct Hsr, Hsr2; congruence.
  - cbn [app] in Hp. injection Hp as <- Hp.
    cbn [concat]. rewrite Zlen_app.
    replace (Zlen p <=? Zlen p + Zlen (concat cs)) with true
      by (symmetry; apply Z.leb_le; pose proof (Zlen_nonneg (concat cs)); lia).
    unfold Zlen at 1 2. rewrite Nat2Z.id.
    rewrite firstn_app, Nat.sub_diag, firstn_all.
    rewrite skipn_app, Nat.sub_diag, skipn_all.
    change (firstn 0 (concat cs)) with (@nil Z).
    change (skipn 0 (concat cs)) with (concat cs).
    rewrite app_nil_r. cbn [app].
    eexists; split; [reflexivity|]. split.
    + constructor; cbn [sr_cur sr_files sr_idx].
      * exists cs, rest. auto.
      * auto.
      * now apply Forall_inv_tail in Hne.
    + split; auto.
Qed.

Lemma rest_fuel s rest :
  skipn (S (sr_idx s)) (sr_files s) = as_files rest ->
  (List.length rest < read_fuel s)%nat.
Proof.
  intros H. assert (E : List.length rest = (List.length (sr_files s) - S (sr_idx s))%nat).
  { rewrite <- (as_files_length rest), <- H, skipn_length. reflexivity. }
  unfold read_fuel. lia.
Qed.

Lemma read_bytes_piece s p ps :
  good s (p :: ps) ->
  exists s', read_bytes (Zlen p) s = (Ok p, s') /\ good s' ps /\ same_reader s s'.
Proof.
  intros [(cs & rest & Hc & Hs & Hp) Hi Hne].
  unfold read_bytes. eapply read_raw_piece_f; eauto.
  now apply rest_fuel.
Qed.

(** Nothing is left but [t], shorter than what is wanted. *)
Lemma read_raw_short_f fuel : forall s rest cs size ps,
  sr_cur s = Some (concat cs) ->
  skipn (S (sr_idx s)) (sr_files s) = as_files rest ->
  ps = cs ++ concat rest ->
  (sr_idx s < List.length (sr_files s))%nat ->
  Zlen (concat ps) < size ->
  (S (List.length rest) < fuel)%nat ->
  exists s', read_raw fuel size s = (Throw eof_exception, s') /\
             at_end s' = true /\ same_reader s s'.
Proof.
  induction fuel as [|fuel IH]; intros s rest cs size ps Hc Hs Hp Hi Hz Hf; [lia|].
  cbn [read_raw]. rewrite good_not_end by auto. rewrite Hc.
  subst ps. rewrite concat_app, Zlen_app in Hz.
  pose proof (Zlen_nonneg (concat (concat rest))).
  pose proof (Zlen_nonneg (concat cs)).
  replace (size <=? Zlen (concat cs)) with false by (symmetry; apply Z.leb_gt; lia).
  destruct rest as [|f rest].
  - destruct (open_next_last s _ Hc Hs) as (s1 & E & Hsr & He). rewrite E.
    destruct fuel; [simpl in Hf; lia|]. cbn [read_raw]. rewrite He. eauto.
  - destruct (open_next_good s _ rest f Hc Hs) as (s1 & E & Hsr & Hc1 & Hi1 & Hs1 & Hl1).
    rewrite E.
    destruct (IH s1 rest f size (f ++ concat rest)) as (s2 & E2 & G2 & Hsr2); auto.
    { cbn [concat] in Hz. lia. }
    { simpl in Hf; lia. }
    exists s2. split; auto. split; auto. eapply same_reader_trans; eauto.
Qed.

Lemma read_bytes_short s size ps :
  good s ps -> Zlen (concat ps) < size ->
  exists s', read_bytes size s = (Throw eof_exception, s') /\
             at_end s' = true /\ same_reader s s'.
Proof.
  intros [(cs & rest & Hc & Hs & Hp) Hi Hne] Hz.
  unfold read_bytes. eapply read_raw_short_f; eauto.
  assert (E : List.length rest = (List.length (sr_files s) - S (sr_idx s))%nat).
  { rewrite <- (as_files_length rest), <- Hs, skipn_length. reflexivity. }
  unfold read_fuel. lia.
Qed.

(** Between two reads: pieces [ps] are still to come. *)
Definition remains (s : sr) (ps : list bytes) : Prop :=
  good s ps \/ (at_end s = true /\ ps = []).

(** Until the first byte of the next piece is at hand. *)
Lemma read_block_f_step fuel : forall s rest cs p ps,
  sr_cur s = Some (concat cs) ->
  skipn (S (sr_idx s)) (sr_files s) = as_files rest ->
  p :: ps = cs ++ concat rest ->
  (sr_idx s < List.length (sr_files s))%nat ->
  Forall (fun q => q <> []) (p :: ps) ->
  (List.length rest < fuel)%nat ->
  exists s', good s' (p :: ps) /\ same_reader s s' /\
             read_block_f fuel s = read_record s'.
Proof.
  induction fuel as [|fuel IH]; intros s rest cs p ps Hc Hs Hp Hi Hne Hf; [lia|].
  cbn [read_block_f]. rewrite good_not_end by auto. rewrite Hc.
  destruct cs as [|c cs].
  - cbn [concat]. destruct rest as [|f rest]; [discriminate|].
    destruct (open_next_good s _ rest f Hc Hs) as (s1 & E & Hsr & Hc1 & Hi1 & Hs1 & Hl1).
    rewrite E. cbn [sbind].
    destruct (IH s1 rest f p ps) as (s2 & G2 & Hsr2 & E2); auto.
    { simpl in Hf; lia. }
    exists s2. split; auto. split; auto. eapply same_reader_trans; eauto.
  - cbn [app] in Hp. injection Hp as <- Hp.
    assert (Hpp : p <> []) by (apply Forall_inv in Hne; auto).
    destruct p as [|b p]; [congruence|]. cbn [concat app].
    exists s. split; [|split; [split; auto|reflexivity]].
    constructor; auto. exists ((b :: p) :: cs), rest.
    split; auto. split; auto. cbn [app]. now rewrite Hp.
Qed.

Lemma read_block_step s p ps :
  remains s (p :: ps) ->
  exists s', good s' (p :: ps) /\ same_reader s s' /\ read_block s = read_record s'.
Proof.
  intros [[(cs & rest & Hc & Hs & Hp) Hi Hne]|[_ H]]; [|discriminate].
  unfold read_block. eapply read_block_f_step; eauto. now apply rest_fuel.
Qed.

Lemma read_block_f_done fuel : forall s rest,
  sr_cur s = Some [] ->
  skipn (S (sr_idx s)) (sr_files s) = as_files rest ->
  concat rest = [] ->
  (sr_idx s < List.length (sr_files s))%nat ->
  (S (List.length rest) < fuel)%nat ->
  exists s', read_block_f fuel s = (Ok empty_block, s') /\ at_end s' = true /\
             same_reader s s'.
Proof.
  induction fuel as [|fuel IH]; intros s rest Hc Hs Hp Hi Hf; [lia|].
  cbn [read_block_f]. rewrite good_not_end by auto. rewrite Hc.
  destruct rest as [|f rest].
  - destruct (open_next_last s _ Hc Hs) as (s1 & E & Hsr & He). rewrite E.
    cbn [sbind]. destruct fuel; [simpl in Hf; lia|]. cbn [read_block_f].
    rewrite He. eauto.
  - destruct (open_next_good s _ rest f Hc Hs) as (s1 & E & Hsr & Hc1 & Hi1 & Hs1 & Hl1).
    rewrite E. cbn [sbind].
    cbn [concat] in Hp. apply app_eq_nil in Hp. destruct Hp as [-> Hp].
    destruct (IH s1 rest) as (s2 & E2 & G2 & Hsr2); auto.
    { simpl in Hf; lia. }
    exists s2. split; auto. split; auto. eapply same_reader_trans; eauto.
Qed.

Lemma read_block_done s :
  remains s [] ->
  exists s', read_block s = (Ok empty_block, s') /\ remains s' [] /\ same_reader s s'.
Proof.
  intros [[(cs & rest & Hc & Hs & Hp) Hi Hne]|[H _]].
  - symmetry in Hp. apply app_eq_nil in Hp. destruct Hp as [-> Hp].
    destruct (read_block_f_done (read_fuel s) s rest) as (s' & E & He & Hsr); auto.
    + assert (E : List.length rest = (List.length (sr_files s) - S (sr_idx s))%nat).
      { rewrite <- (as_files_length rest), <- Hs, skipn_length. reflexivity. }
      unfold read_fuel. lia.
    + exists s'. split; auto. split; auto. right; auto.
  - exists s. unfold read_block, read_fuel. cbn [read_block_f]. rewrite H.
    split; auto. split; [right; auto|split; auto].
Qed.

(** ** Decoding one record *)

Lemma header_loop w n :
  0 <= n ->
  10 + n <= Zlen w ->
  for_loop n (fun i acc => let* x := rd w (10 + i) in Ok (acc ++ [u32 (x - 1)])) [] =
  Ok (map (fun i => u32 (zat w (10 + i) - 1)) (zseq n)).
Proof.
  intros Hn Hw.
  destruct (for_loop_inv (fun i acc => acc = map (fun i => u32 (zat w (10 + i) - 1)) (zseq i))
              n (fun i acc => let* x := rd w (10 + i) in Ok (acc ++ [u32 (x - 1)])) [])
    as (s & E & Hs).
  - lia.
  - reflexivity.
  - intros i acc Hi ->. rewrite rd_zat by lia. cbn [bind].
    eexists; split; [reflexivity|]. rewrite zseq_succ, map_app by lia. reflexivity.
  - now rewrite E, Hs.
Qed.

Lemma forall_u32_256 l : Forall is_u32 l -> Forall (fun v => 0 <= v < 256 ^ Z.of_nat 4) l.
Proof. apply Forall_impl. intros a [? ?]. change (256 ^ Z.of_nat 4) with (2 ^ 32). lia. Qed.

Lemma forall_u16_256 l : Forall is_u16 l -> Forall (fun v => 0 <= v < 256 ^ Z.of_nat 2) l.
Proof. apply Forall_impl. intros a [? ?]. change (256 ^ Z.of_nat 2) with (2 ^ 16). lia. Qed.

Lemma header_v1_ok w h ver stamp reserved numbers padding px :
  wf_record (Rec1 w h ver stamp reserved numbers padding px) ->
  header_v1 (flat_map (le_bytes 4)
     ([Zlen numbers; h; w; ver; stamp] ++ reserved ++ numbers ++ padding)) =
  Ok (hdr (block_of (Rec1 w h ver stamp reserved numbers padding px))).
Proof.
  intros (Hw & Hh & Hn & Hmax & Uw & Uh & Uv & Us & Hres & Hpad & Fr & Fn & Fp & Hpx & Fpx).
  unfold header_v1.
  set (ws := [Zlen numbers; h; w; ver; stamp] ++ reserved ++ numbers ++ padding).
  assert (Hlen : Zlen ws = 1024).
  { subst ws. rewrite !Zlen_app, !Zlen_cons. change (Zlen (@nil Z)) with 0. lia. }
  pose proof (Zlen_nonneg padding) as Hpn.
  rewrite words_flat'.
  - cbv zeta. rewrite !rd_zat by (rewrite Hlen; lia). cbn [bind].
    change (zat ws 0) with (Zlen numbers). change (zat ws 1) with h.
    change (zat ws 2) with w. change (zat ws 3) with ver. change (zat ws 4) with stamp.
    rewrite header_loop by (rewrite ?Hlen; lia). cbn [bind block_of hdr].
    f_equal. f_equal.
    transitivity (map (fun k => k - 1) (map (zat numbers) (zseq (Zlen numbers))));
      [|now rewrite <- list_as_map_zat].
    rewrite map_map. apply map_ext_in. intros i Hi. apply in_zseq in Hi.
    assert (E : zat ws (10 + i) = zat numbers i).
    { subst ws. rewrite zat_app. rewrite !Zlen_cons. change (Zlen (@nil Z)) with 0.
      replace (10 + i <? 1 + (1 + (1 + (1 + (1 + 0))))) with false
        by (symmetry; apply Z.ltb_ge; lia).
      rewrite zat_app. rewrite Hres.
      replace (10 + i - (1 + (1 + (1 + (1 + (1 + 0))))) <? 5) with false
        by (symmetry; apply Z.ltb_ge; lia).
      rewrite zat_app.
      replace (10 + i - (1 + (1 + (1 + (1 + (1 + 0))))) - 5) with i by lia.
      replace (i <? Zlen numbers) with true by (symmetry; apply Z.ltb_lt; lia).
      reflexivity. }
    rewrite E. apply u32_id.
    assert (Hb : 1 <= zat numbers i < 2 ^ 32).
    { rewrite Forall_forall in Fn. apply Fn. apply zat_in. lia. }
    split; lia.
  - apply Nat2Z.inj. unfold Zlen in Hlen. lia.
  - apply forall_u32_256. subst ws.
    apply Forall_app; split; [|apply Forall_app; split; [auto|apply Forall_app; split; auto]].
    + repeat constructor; auto; try (split; lia); try apply Uh; try apply Uw; try apply Uv; try apply Us.
      * lia.
      * lia.
    + eapply Forall_impl; [|exact Fn]. intros a [? ?]; split; lia.
Qed.

Lemma header_v3_ok scan frame sw sh x y px :
  wf_record (Rec3 scan frame sw sh x y px) ->
  header_v3 (flat_map (le_bytes 4) [scan; frame]) (flat_map (le_bytes 2) [sw; sh; x; y]) =
  Ok (hdr (block_of (Rec3 scan frame sw sh x y px))).
Proof.
  intros (U1 & U2 & U3 & U4 & U5 & U6 & Hpx & Fpx).
  unfold header_v3. rewrite !words_flat'.
  - cbn [rd bind]. unfold rd. cbn [Z.ltb Z.compare Z.to_nat nth_error bind].
    change (nth_error [scan; frame] (Pos.to_nat 1)) with (Some frame).
    change (nth_error [sw; sh; x; y] (Pos.to_nat 1)) with (Some sh).
    change (nth_error [sw; sh; x; y] (Pos.to_nat 2)) with (Some x).
    change (nth_error [sw; sh; x; y] (Pos.to_nat 3)) with (Some y).
    cbn [bind block_of hdr].
    destruct U3, U5, U6. unfold FRAME_W, FRAME_H. repeat f_equal.
    rewrite (u32_id (y * sw)) by (split; nia). apply u32_id. split; nia.
  - reflexivity.
  - apply forall_u16_256. repeat constructor; first [apply U3|apply U4|apply U5|apply U6].
  - reflexivity.
  - apply forall_u32_256. repeat constructor; first [apply U1|apply U2].
Qed.

Lemma block_of_pixels r : wf_record r ->
  exists px, data (block_of r) = Some px /\ Forall is_u16 px /\
    Zlen px = data_size (hdr (block_of r)).
Proof.
  destruct r; cbn [block_of data hdr]; intros H.
  - destruct H as (Hw & Hh & Hn & Hmax & Uw & Uh & Uv & Us & Hres & Hpad & Fr & Fn & Fp & Hpx & Fpx).
    exists pixels. split; [auto|]. split; [auto|]. rewrite Hpx. unfold data_size.
    cbn [frame_dims fst snd images_in_block].
    rewrite (u32_id (w * h)) by (split; nia). rewrite u32_id; [reflexivity|split; nia].
  - destruct H as (U & Hpx & Fpx). exists pixels. split; [auto|]. split; [auto|].
    rewrite Hpx. unfold data_size. cbn [frame_dims fst snd images_in_block].
    rewrite (u32_id (576 * 576)) by (split; lia). rewrite u32_id; [reflexivity|split; lia].
  - destruct H as (U1 & U2 & U3 & U4 & U5 & U6 & Hpx & Fpx).
    exists pixels. split; [auto|]. split; [auto|].
    rewrite Hpx. unfold data_size. cbn [frame_dims fst snd images_in_block].
    rewrite (u32_id (576 * 576)) by (split; lia). rewrite u32_id; [reflexivity|split; lia].
Qed.

(** The pieces of a record: those of the header, then the pixels. *)
Definition header_pieces (r : record) : list bytes :=
  match r with
  | Rec1 w h ver stamp reserved numbers padding px =>
      [ flat_map (le_bytes 4)
          ([Zlen numbers; h; w; ver; stamp] ++ reserved ++ numbers ++ padding) ]
  | Rec2 first px => [ le_bytes 4 first ]
  | Rec3 scan frame sw sh x y px =>
      [ flat_map (le_bytes 4) [scan; frame];
        flat_map (le_bytes 2) [sw; sh; x; y] ]
  end.

Definition pixels_of (r : record) : list Z :=
  match r with
  | Rec1 _ _ _ _ _ _ _ px => px | Rec2 _ px => px | Rec3 _ _ _ _ _ _ px => px
  end.

Lemma pieces_split r : pieces r = header_pieces r ++ [flat_map (le_bytes 2) (pixels_of r)].
Proof. destruct r; reflexivity. Qed.

Lemma wf_pixels r : wf_record r ->
  data (block_of r) = Some (pixels_of r) /\ Forall is_u16 (pixels_of r) /\
  Zlen (pixels_of r) = data_size (hdr (block_of r)).
Proof.
  intros H. destruct (block_of_pixels r H) as (px & E & F & L).
  destruct r; cbn [block_of data] in E; injection E as <-; auto.
Qed.

Lemma pixels_pos r : wf_record r -> 0 < Zlen (pixels_of r).
Proof.
  destruct r; cbn [wf_record pixels_of]; intros H.
  - destruct H as (Hw & Hh & Hn & Hmax & Uw & Uh & Uv & Us & Hres & Hpad & Fr & Fn & Fp & Hpx & Fpx).
    rewrite Hpx. nia.
  - lia.
  - lia.
Qed.

Lemma Zlen_header_v1 w h ver stamp reserved numbers padding px :
  wf_record (Rec1 w h ver stamp reserved numbers padding px) ->
  Zlen (flat_map (le_bytes 4)
     ([Zlen numbers; h; w; ver; stamp] ++ reserved ++ numbers ++ padding)) = 4096.
Proof.
  intros (Hw & Hh & Hn & Hmax & Uw & Uh & Uv & Us & Hres & Hpad & Fr & Fn & Fp & Hpx & Fpx).
  rewrite Zlen_flat_le, !Zlen_app, !Zlen_cons. change (Zlen (@nil Z)) with 0. lia.
Qed.

Lemma Zlen_pos_ne {A} (l : list A) : 0 < Zlen l -> l <> [].
Proof. destruct l; [cbn; lia|congruence]. Qed.

Lemma pieces_ne r : wf_record r -> Forall (fun p => p <> []) (pieces r).
Proof.
  intros H. rewrite pieces_split. apply Forall_app; split.
  - destruct r.
    + constructor; [|constructor]. apply Zlen_pos_ne. erewrite Zlen_header_v1; eauto. lia.
    + constructor; [|constructor]. discriminate.
    + repeat constructor; discriminate.
  - constructor; [|constructor]. apply Zlen_pos_ne. rewrite Zlen_flat_le.
    pose proof (pixels_pos r H). lia.
Qed.

Lemma read_header_ok r s ps :
  wf_record r -> sr_version s = rec_version r ->
  good s (header_pieces r ++ ps) ->
  exists s', read_header s = (Ok (hdr (block_of r)), s') /\ good s' ps /\ same_reader s s'.
Proof.
  intros Hwf Hv G. unfold read_header. rewrite Hv.
  destruct r; cbn [rec_version Z.eqb Pos.eqb] in *.
  - unfold read_header_v1.
    destruct (read_bytes_piece s (flat_map (le_bytes 4)
          ([Zlen numbers; h; w; ver; stamp] ++ reserved ++ numbers ++ padding)) ps G) as (s1 & E & G1 & S1).
    erewrite Zlen_header_v1 in E by eauto.
    rewrite E. cbn [sbind]. rewrite (header_v1_ok _ _ _ _ _ _ _ pixels) by auto. eauto.
  - unfold read_header_v2.
    destruct (read_bytes_piece s (le_bytes 4 first_number) ps G) as (s1 & E & G1 & S1).
    change (Zlen (le_bytes 4 first_number)) with 4 in E.
    rewrite E. cbn [sbind]. exists s1. split; auto.
  - unfold read_header_v3.
    destruct (read_bytes_piece s (flat_map (le_bytes 4) [scan; frame])
                (flat_map (le_bytes 2) [scan_w; scan_h; x; y] :: ps) G) as (s1 & E & G1 & S1).
    change (Zlen (flat_map (le_bytes 4) [scan; frame])) with 8 in E.
    rewrite E. cbn [sbind].
    destruct (read_bytes_piece _ _ _ G1) as (s2 & E2 & G2 & S2).
    change (Zlen (flat_map (le_bytes 2) [scan_w; scan_h; x; y])) with 8 in E2.
    rewrite E2. cbn [sbind]. rewrite (header_v3_ok _ _ _ _ _ _ pixels) by auto.
    exists s2. split; auto. split; auto. eapply same_reader_trans; eauto.
Qed.

Lemma pixel_bytes_len r : wf_record r ->
  Zlen (flat_map (le_bytes 2) (pixels_of r)) = data_size (hdr (block_of r)) * 2.
Proof.
  intros H. rewrite Zlen_flat_le. destruct (wf_pixels r H) as (_ & _ & ->). lia.
Qed.

Lemma block_eta r px : data (block_of r) = Some px ->
  mkBlock (hdr (block_of r)) (Some px) = block_of r.
Proof. intros H. destruct (block_of r) eqn:E; cbn in *. now rewrite H. Qed.

Lemma read_record_ok r s ps :
  wf_record r -> sr_version s = rec_version r ->
  good s (pieces r ++ ps) ->
  exists s', read_record s = (Ok (block_of r), s') /\ good s' ps /\ same_reader s s'.
Proof.
  intros Hwf Hv G. rewrite pieces_split, <- app_assoc in G.
  destruct (read_header_ok r s _ Hwf Hv G) as (s1 & E1 & G1 & S1).
  unfold read_record. rewrite E1. cbn [sbind]. cbn [app] in G1.
  destruct (read_bytes_piece _ _ _ G1) as (s2 & E2 & G2 & S2).
  rewrite pixel_bytes_len in E2 by auto.
  rewrite E2. cbn [sbind catch_eof].
  destruct (wf_pixels r Hwf) as (D & F & L).
  exists s2. split; [|split; auto; eapply same_reader_trans; eauto].
  rewrite words_flat'.
  - now rewrite block_eta.
  - rewrite <- L. unfold Zlen. now rewrite Nat2Z.id.
  - now apply forall_u16_256.
Qed.

Lemma pieces_cons r : exists p ps, pieces r = p :: ps.
Proof. destruct r; cbn; eauto. Qed.

Lemma read_block_ok r s ps :
  wf_record r -> sr_version s = rec_version r ->
  remains s (pieces r ++ ps) ->
  exists s', read_block s = (Ok (block_of r), s') /\ remains s' ps /\ same_reader s s'.
Proof.
  intros Hwf Hv G. destruct (pieces_cons r) as (p & ps0 & E).
  rewrite E in G. cbn [app] in G.
  destruct (read_block_step _ _ _ G) as (s1 & G1 & S1 & ->).
  change (p :: ps0 ++ ps) with ((p :: ps0) ++ ps) in G1. rewrite <- E in G1.
  destruct (read_record_ok r s1 ps Hwf) as (s2 & E2 & G2 & S2); auto.
  { destruct S1. congruence. }
  exists s2. split; auto. split; [left; auto|]. eapply same_reader_trans; eauto.
Qed.

(** ** A cut record *)


(** [cut_of r ps]: [ps] are some whole pieces of [r] followed by too little of
    the next one. *)
Definition cut_of (r : record) (ps : list bytes) : Prop :=
  exists hs next more tail,
    pieces r = hs ++ next :: more /\ ps = hs ++ tail /\
    Zlen (concat tail) < Zlen next.

Lemma read_record_cut s ps r :
  wf_record r -> sr_version s = rec_version r ->
  good s ps -> cut_of r ps ->
  exists s', read_record s = (Throw "Unexpected EOF while processing stream.", s') /\
             at_end s' = true /\ same_reader s s'.
Proof.
  intros Hwf Hv G (hs & next & more & tail & Hp & -> & Hz).
  assert (Hh : forall tl, (hs = header_pieces r /\ next = flat_map (le_bytes 2) (pixels_of r)) ->
     good s (hs ++ tl) -> Zlen (concat tl) < Zlen next ->
     exists s', read_record s = (Throw "Unexpected EOF while processing stream.", s') /\
             at_end s' = true /\ same_reader s s').
  { intros tl [-> ->] G' Hz'.
    destruct (read_header_ok r s _ Hwf Hv G') as (s1 & E1 & G1 & S1).
    unfold read_record. rewrite E1. cbn [sbind].
    rewrite pixel_bytes_len in Hz' by auto.
    destruct (read_bytes_short _ _ _ G1 Hz') as (s2 & E2 & A2 & S2).
    rewrite E2. cbn [sbind catch_eof]. change (String.eqb eof_exception eof_exception) with true.
    exists s2. split; auto. split; auto. eapply same_reader_trans; eauto. }
  assert (Hshort : forall size, hs = [] -> size = Zlen next ->
     (forall e s', read_bytes size s = (Throw e, s') -> read_header s = (Throw e, s')) ->
     exists s', read_record s = (Throw "Unexpected EOF while processing stream.", s') /\
             at_end s' = true /\ same_reader s s').
  { intros size -> -> Hr. cbn [app] in G.
    destruct (read_bytes_short _ _ _ G Hz) as (s2 & E2 & A2 & S2).
    unfold read_record. rewrite (Hr _ _ E2). cbn [sbind catch_eof].
    change (String.eqb eof_exception eof_exception) with true. eauto. }
  rewrite pieces_split in Hp.
  destruct r as [w h ver stamp reserved numbers padding px|first px|scan frame sw sh x y px];
    cbn [header_pieces pixels_of app] in Hp.
  - destruct hs as [|h1 hs].
    + injection Hp as <- _. apply (Hshort 4096); auto.
      { symmetry. exact (Zlen_header_v1 _ _ _ _ _ _ _ _ Hwf). }
      intros e s' E.
      unfold read_header. rewrite Hv. cbn [rec_version Z.eqb Pos.eqb].
      unfold read_header_v1. now rewrite E.
    + destruct hs as [|h2 hs]; [|destruct hs; discriminate].
      injection Hp as <- <- _. eapply Hh; eauto.
  - destruct hs as [|h1 hs].
    + injection Hp as <- _. apply (Hshort 4); auto. intros e s' E.
      unfold read_header. rewrite Hv. cbn [rec_version Z.eqb Pos.eqb].
      unfold read_header_v2. now rewrite E.
    + destruct hs as [|h2 hs]; [|destruct hs; discriminate].
      injection Hp as <- <- _. eapply Hh; eauto.
  - destruct hs as [|h1 hs].
    + injection Hp as <- _. apply (Hshort 8); auto. intros e s' E.
      unfold read_header. rewrite Hv. cbn [rec_version Z.eqb Pos.eqb].
      unfold read_header_v3. now rewrite E.
    + destruct hs as [|h2 hs].
      * injection Hp as <- <- _.
        change (good s (flat_map (le_bytes 4) [scan; frame] :: tail)) in G.
        destruct (read_bytes_piece _ _ _ G) as (s1 & E1 & G1 & S1).
        change (Zlen (flat_map (le_bytes 4) [scan; frame])) with 8 in E1.
        destruct (read_bytes_short _ 8 _ G1 Hz) as (s2 & E2 & A2 & S2).
        unfold read_record, read_header. rewrite Hv. cbn [rec_version Z.eqb Pos.eqb].
        unfold read_header_v3. rewrite E1. cbn [sbind]. rewrite E2. cbn [sbind catch_eof].
        change (String.eqb eof_exception eof_exception) with true.
        exists s2. split; auto. split; auto. eapply same_reader_trans; eauto.
      * destruct hs as [|h3 hs]; [|destruct hs; discriminate].
        injection Hp as <- <- <- _. eapply Hh; eauto.
Qed.

Lemma read_block_cut s ps r :
  wf_record r -> sr_version s = rec_version r -> ps <> [] ->
  remains s ps -> cut_of r ps ->
  exists s', read_block s = (Throw "Unexpected EOF while processing stream.", s') /\
             remains s' [] /\ same_reader s s'.
Proof.
  intros Hwf Hv Hne R Hc. destruct ps as [|p ps]; [congruence|].
  destruct (read_block_step _ _ _ R) as (s1 & G1 & S1 & ->).
  destruct (read_record_cut s1 (p :: ps) r) as (s2 & E & A & S2); auto.
  { destruct S1; congruence. }
  exists s2. split; auto. split; [right; auto|]. eapply same_reader_trans; eauto.
Qed.

(** A proper prefix of the bytes of consecutive pieces. *)
Lemma prefix_pieces (ps : list bytes) : forall k,
  Forall (fun p => p <> []) ps ->
  (k < List.length (concat ps))%nat ->
  exists (hs : list bytes) (next : bytes) (more tail : list bytes),
    ps = hs ++ next :: more /\ concat (hs ++ tail) = firstn k (concat ps) /\
    Zlen (concat tail) < Zlen next /\ Forall (fun p => p <> []) tail.
Proof.
  induction ps as [|p ps IH]; intros k Hne Hk; [simpl in Hk; lia|].
  cbn [concat] in *. rewrite app_length in Hk.
  destruct (Nat.lt_ge_cases k (List.length p)) as [Hlt|Hge].
  - exists [], p, ps. rewrite firstn_app.
    replace (k - List.length p)%nat with 0%nat by lia.
    change (firstn 0 (concat ps)) with (@nil Z). rewrite app_nil_r.
    destruct k.
    + exists []. cbn. split; auto. split; auto. split; auto.
      apply Forall_inv in Hne. destruct p; [congruence|]. rewrite Zlen_cons.
      pose proof (Zlen_nonneg p). lia.
    + exists [firstn (S k) p]. split; auto. cbn [app concat]. rewrite app_nil_r.
      split; auto. split.
      * unfold Zlen. rewrite firstn_length. lia.
      * constructor; [|constructor]. intros E.
        assert (E2 : List.length (firstn (S k) p) = 0%nat) by now rewrite E.
        rewrite firstn_length in E2. lia.
  - destruct (IH (k - List.length p)%nat) as (hs & next & more & tail & E1 & E2 & E3 & E4).
    { now apply Forall_inv_tail in Hne. }
    { lia. }
    exists (p :: hs), next, more, tail. split; [now rewrite E1|].
    split; auto. cbn [app concat]. rewrite E2, firstn_app.
    rewrite (firstn_all2 p) by lia. reflexivity.
Qed.

(** ** The whole list of files *)

Lemma stream_reader_good fs v :
  fs <> [] -> Forall (fun p => p <> []) (concat fs) ->
  exists s, stream_reader (as_files fs) v = Ok s /\ good s (concat fs) /\
            sr_version s = v /\ sr_files s = as_files fs.
Proof.
  intros Hne Hp. destruct fs as [|f fs]; [congruence|].
  unfold stream_reader, as_files. cbn [map].
  unfold open_next, close_cur, at_end. cbn [sr_cur sr_files sr_idx sr_version List.length Nat.leb nth_error].
  eexists; split; [reflexivity|]. split; [|auto].
  constructor; cbn [sr_cur sr_files sr_idx].
  - exists f, fs. split; auto.
  - simpl; lia.
  - auto.
Qed.

Lemma reads_records recs : forall s ps,
  Forall wf_record recs -> Forall (fun r => rec_version r = sr_version s) recs ->
  remains s (flat_map pieces recs ++ ps) ->
  exists s', reads (List.length recs) s = (map (fun r => Ok (block_of r)) recs, s') /\
     remains s' ps /\ same_reader s s'.
Proof.
  induction recs as [|r recs IH]; intros s ps Hwf Hv R.
  - exists s. split; auto. split; auto. split; auto.
  - cbn [flat_map] in R. rewrite <- app_assoc in R.
    destruct (read_block_ok r s _ (Forall_inv Hwf) (eq_sym (Forall_inv Hv)) R)
      as (s1 & E1 & R1 & S1).
    destruct (IH s1 ps (Forall_inv_tail Hwf)) as (s2 & E2 & R2 & S2); auto.
    { apply Forall_inv_tail in Hv. eapply Forall_impl; [|exact Hv].
      intros a Ha. destruct S1. cbn in Ha. congruence. }
    exists s2. cbn [List.length reads map]. rewrite E1, E2.
    split; auto. split; auto. eapply same_reader_trans; eauto.
Qed.

Lemma reads_done n : forall s, remains s [] ->
  exists s', reads n s = (repeat (Ok empty_block) n, s') /\ remains s' [].
Proof.
  induction n; intros s R; [exists s; auto|].
  destruct (read_block_done s R) as (s1 & E1 & R1 & _).
  destruct (IHn s1 R1) as (s2 & E2 & R2).
  exists s2. cbn [reads repeat]. rewrite E1, E2. auto.
Qed.

Lemma reads_app n m s :
  reads (n + m) s =
  (fst (reads n s) ++ fst (reads m (snd (reads n s))), snd (reads m (snd (reads n s)))).
Proof.
  revert s; induction n; intros s.
  - cbn [Nat.add reads fst snd app]. destruct (reads m s); auto.
  - cbn [Nat.add reads]. destruct (read_block s) as [r s1].
    rewrite IHn. destruct (reads n s1) as [rs s2]. cbn [fst snd app]. reflexivity.
Qed.

Lemma flat_pieces_ne recs : Forall wf_record recs ->
  Forall (fun p => p <> []) (flat_map pieces recs).
Proof.
  induction 1; cbn [flat_map]; [constructor|]. apply Forall_app; split; auto.
  now apply pieces_ne.
Qed.

Lemma iterate_records recs : forall s fuel,
  Forall wf_record recs -> Forall (fun r => rec_version r = sr_version s) recs ->
  remains s (flat_map pieces recs) ->
  (List.length recs < fuel)%nat ->
  exists s', iterate fuel s = (Ok (map block_of recs), s') /\ remains s' [].
Proof.
  induction recs as [|r recs IH]; intros s fuel Hwf Hv R Hf;
    (destruct fuel as [|fuel]; [simpl in Hf; lia|]); cbn [iterate].
  - destruct (read_block_done s R) as (s1 & E1 & R1 & _). rewrite E1.
    cbn [sbind data empty_block]. eauto.
  - cbn [flat_map] in R.
    destruct (read_block_ok r s _ (Forall_inv Hwf) (eq_sym (Forall_inv Hv)) R)
      as (s1 & E1 & R1 & S1).
    rewrite E1. cbn [sbind].
    destruct (wf_pixels r (Forall_inv Hwf)) as (D & _ & _). rewrite D.
    destruct (IH s1 fuel (Forall_inv_tail Hwf)) as (s2 & E2 & R2); auto.
    { apply Forall_inv_tail in Hv. eapply Forall_impl; [|exact Hv].
      intros a Ha. destruct S1. cbn in Ha. congruence. }
    { simpl in Hf; lia. }
    rewrite E2. cbn [sbind map]. eauto.
Qed.

(** ** Arbitrary files *)

(** Reachable reader states. *)
Definition sane (s : sr) : Prop :=
  (sr_idx s <= List.length (sr_files s))%nat /\
  (sr_cur s <> None -> (sr_idx s < List.length (sr_files s))%nat) /\
  (sr_idx s < List.length (sr_files s) \/ sr_cur s = None)%nat.

Lemma open_next_sane s : sane s ->
  forall r s', open_next s = (r, s') ->
  sane s' /\ same_reader s s' /\
  (r = Ok false /\ at_end s' = true \/
   r = Ok true /\ sr_cur s' <> None /\
     (sr_cur s <> None -> sr_idx s' = S (sr_idx s)) /\
     (sr_cur s = None -> sr_idx s' = sr_idx s) /\
     nth_error (sr_files s') (sr_idx s') = Some (sr_cur s') \/
   r = Throw "Unable to open file").
Proof.
  intros (H1 & H2 & H3) r s'. unfold open_next, close_cur, at_end.
  destruct (sr_cur s) as [c|] eqn:Ec.
  - cbn [sr_files sr_idx sr_cur sr_version].
    destruct (Nat.leb_spec (List.length (sr_files s)) (S (sr_idx s))).
    + intros E; injection E as <- <-. unfold sane, same_reader, at_end.
      cbn [sr_files sr_idx sr_cur sr_version]. destruct H3 as [H3|H3]; [|congruence].
      split; [|split; [auto|left; split; auto; apply Nat.leb_le; auto]].
      split; [lia|]. split; [congruence|auto].
    + destruct (nth_error (sr_files s) (S (sr_idx s))) as [[b|]|] eqn:En;
        intros E; injection E as <- <-; unfold sane, same_reader;
        cbn [sr_files sr_idx sr_cur sr_version].
      * split; [split; [lia|split; [lia|left; lia]]|]. split; auto.
        right; left. split; auto. split; [congruence|]. split; auto. split; [congruence|auto].
      * split; [split; [lia|split; [congruence|auto]]|]. split; auto.
      * split; [split; [lia|split; [congruence|auto]]|]. split; auto.
  - destruct (Nat.leb_spec (List.length (sr_files s)) (sr_idx s)).
    + intros E; injection E as <- <-. split; [split; [|split]; auto; congruence|].
      split; [split; auto|]. left. split; auto. unfold at_end. apply Nat.leb_le; auto.
    + destruct (nth_error (sr_files s) (sr_idx s)) as [[b|]|] eqn:En;
        intros E; injection E as <- <-.
      * unfold sane, same_reader. cbn [sr_files sr_idx sr_cur sr_version].
        split; [split; [lia|split; [lia|left; lia]]|]. split; auto.
        right; left. split; auto. split; [congruence|]. split; [congruence|auto].
      * split; [split; [|split]; auto; congruence|]. split; [split; auto|]. auto.
      * split; [split; [|split]; auto; congruence|]. split; [split; auto|]. auto.
Qed.

Definition rank (s : sr) : nat :=
  (2 * (List.length (sr_files s) - sr_idx s) + match sr_cur s with None => 1 | Some _ => 0 end)%nat.

Lemma rank_fuel s : (S (rank s) <= read_fuel s)%nat.
Proof. unfold rank, read_fuel. destruct (sr_cur s); lia. Qed.

Lemma read_raw_any fuel : forall s size,
  sane s -> (rank s < fuel)%nat -> 0 <= size ->
  exists r s', read_raw fuel size s = (r, s') /\ sane s' /\ same_reader s s' /\
    ((exists b, r = Ok b /\ Zlen b = size) \/
     r = Throw eof_exception \/ r = Throw "Unable to open file").
Proof.
  induction fuel as [|fuel IH]; intros s size Hs Hf Hz; [lia|].
  cbn [read_raw]. destruct (at_end s) eqn:Hend.
  - exists (Throw eof_exception), s. split; auto. split; auto. split; [split; auto|auto].
  - assert (Hretry : exists r s',
      match open_next s with
      | (Ok _, s'0) => read_raw fuel size s'0
      | (Throw m, s'0) => (Throw m, s'0)
      | (UB m, s'0) => (UB m, s'0)
      | (OutOfFuel, s'0) => (OutOfFuel, s'0)
      end = (r, s') /\ sane s' /\ same_reader s s' /\
      ((exists b, r = Ok b /\ Zlen b = size) \/
       r = Throw eof_exception \/ r = Throw "Unable to open file")).
    { destruct (open_next s) as [r1 s1] eqn:Eo.
      destruct (open_next_sane s Hs _ _ Eo) as (Hs1 & S1 & Hr).
      assert (Hfuel : r1 = Ok true \/ r1 = Ok false -> (rank s1 < fuel)%nat).
      { intros Hok. unfold rank in *. unfold at_end in Hend. apply Nat.leb_gt in Hend.
        destruct S1 as [S1 _]. rewrite S1 in *.
        destruct Hr as [[-> Ha]|[(-> & Hc & Hi & Hi' & _)|Hr]].
        - unfold at_end in Ha. apply Nat.leb_le in Ha. rewrite S1 in Ha.
          assert (Hi1 : (sr_idx s1 = List.length (sr_files s))%nat).
          { destruct Hs1 as (Q1 & _). rewrite S1 in Q1. lia. }
          assert (Hc1 : sr_cur s1 = None).
          { destruct Hs1 as (_ & _ & [Q|Q]); auto. rewrite S1 in Q. lia. }
          (* only possible when the last file was open *)
          unfold open_next, close_cur in Eo. destruct (sr_cur s) eqn:Ecs.
          + rewrite Hc1. cbn in *. destruct (sr_cur s1); try congruence.
            lia.
          + rewrite Hc1. unfold at_end in Eo.
            replace (List.length (sr_files s) <=? sr_idx s)%nat with false in Eo
              by (symmetry; apply Nat.leb_gt; lia).
            destruct (nth_error (sr_files s) (sr_idx s)) as [[?|]|]; discriminate.
        - destruct (sr_cur s) eqn:Ecs.
          + rewrite Hi by congruence. destruct (sr_cur s1); [lia|congruence].
          + rewrite Hi' by congruence. destruct (sr_cur s1); [lia|congruence].
        - destruct Hok; congruence. }
      destruct Hr as [[-> Ha]|[(-> & _)| -> ]].
      - destruct (IH s1 size) as (r & s' & E & A & B & C); auto.
        exists r, s'. split; auto. split; auto. split; auto. eapply same_reader_trans; eauto.
      - destruct (IH s1 size) as (r & s' & E & A & B & C); auto.
        exists r, s'. split; auto. split; auto. split; auto. eapply same_reader_trans; eauto.
      - eexists _, s1. split; [reflexivity|]. auto. }
    destruct (sr_cur s) as [b|] eqn:Ec; [|exact Hretry].
    destruct (Z.leb_spec size (Zlen b)); [|exact Hretry].
    eexists _, _. split; [reflexivity|].
    split; [|split; [split; auto|]].
    + destruct Hs as (Q1 & Q2 & Q3). unfold sane. cbn [sr_files sr_idx sr_cur].
      assert (sr_cur s <> None) by congruence. split; auto.
    + left. eexists; split; [reflexivity|]. unfold Zlen in *. rewrite firstn_length. lia.
Qed.

Lemma read_bytes_any s size :
  sane s -> 0 <= size ->
  exists r s', read_bytes size s = (r, s') /\ sane s' /\ same_reader s s' /\
    ((exists b, r = Ok b /\ Zlen b = size) \/
     r = Throw eof_exception \/ r = Throw "Unable to open file").
Proof.
  intros. apply read_raw_any; auto. pose proof (rank_fuel s). lia.
Qed.

Lemma open_next_rank s b s1 :
  sane s -> at_end s = false -> open_next s = (Ok b, s1) -> (rank s1 < rank s)%nat.
Proof.
  intros Hs Hend Eo.
  destruct (open_next_sane s Hs _ _ Eo) as (Hs1 & S1 & Hr).
  unfold rank in *. unfold at_end in Hend. apply Nat.leb_gt in Hend.
  destruct S1 as [S1 _]. rewrite S1 in *.
  destruct Hr as [[Hb Ha]|[(Hb & Hc & Hi & Hi' & _)|Hr]]; [| |discriminate].
  - injection Hb as ->.
    unfold at_end in Ha. apply Nat.leb_le in Ha. rewrite S1 in Ha.
    assert (Hi1 : (sr_idx s1 = List.length (sr_files s))%nat).
    { destruct Hs1 as (Q1 & _). rewrite S1 in Q1. lia. }
    assert (Hc1 : sr_cur s1 = None).
    { destruct Hs1 as (_ & _ & [Q|Q]); auto. rewrite S1 in Q. lia. }
    unfold open_next, close_cur in Eo. destruct (sr_cur s) eqn:Ecs.
    + rewrite Hc1. lia.
    + unfold at_end in Eo.
      replace (List.length (sr_files s) <=? sr_idx s)%nat with false in Eo
        by (symmetry; apply Nat.leb_gt; lia).
      destruct (nth_error (sr_files s) (sr_idx s)) as [[?|]|]; discriminate.
  - destruct (sr_cur s) eqn:Ecs.
    + rewrite Hi by congruence. destruct (sr_cur s1); [lia|congruence].
    + rewrite Hi' by congruence. destruct (sr_cur s1); [lia|congruence].
Qed.

Lemma read_block_f_mono fuel : forall s,
  sane s -> (rank s < fuel)%nat -> read_block_f (S fuel) s = read_block_f fuel s.
Proof.
  induction fuel as [|fuel IH]; intros s Hs Hf; [lia|].
  cbn [read_block_f]. destruct (at_end s) eqn:Hend; auto.
  assert (H : sbind (open_next s) (fun _ s' => read_block_f (S fuel) s') =
              sbind (open_next s) (fun _ s' => read_block_f fuel s')).
  { destruct (open_next s) as [r1 s1] eqn:Eo. destruct r1; auto. cbn [sbind].
    apply IH.
    - now destruct (open_next_sane s Hs _ _ Eo).
    - pose proof (open_next_rank s _ s1 Hs Hend Eo). lia. }
  cbn [read_block_f] in H. destruct (sr_cur s) as [[|]|]; auto.
Qed.

Definition eof_message : string := "Unexpected EOF while processing stream.".

Definition read_result (v : Z) (r : outcome block) (s' : sr) : Prop :=
  (r = Ok empty_block /\ at_end s' = true) \/
  (exists b, r = Ok b /\ full_block b /\ (v = 1 \/ v = 2 \/ v = 3)) \/
  (r = Throw eof_message) \/ r = Throw "Unable to open file" \/
  (r = Throw "Unexpected version" /\ v <> 1 /\ v <> 2 /\ v <> 3) \/
  (exists why, r = UB why /\ v = 1).

Lemma data_size_eq h :
  data_size h = (fst (frame_dims h) * snd (frame_dims h) * images_in_block h) mod 2 ^ 32.
Proof. unfold data_size, u32. now rewrite Z.mul_mod_idemp_l by lia. Qed.

Lemma data_size_nonneg h : 0 <= data_size h.
Proof. unfold data_size. apply u32_range. Qed.

Lemma le_nonneg l : Forall is_byte l -> 0 <= le l.
Proof. induction 1; cbn [le]; [lia|]. unfold is_byte in *. lia. Qed.

Lemma for_from_rd_shape w acc n : forall i,
  match for_from n i (fun i acc => let* x := rd w (10 + i) in Ok (acc ++ [u32 (x - 1)])) acc with
  | Ok nums => Zlen nums = Zlen acc + Z.of_nat n
  | UB _ => True
  | _ => False
  end.
Proof.
  revert acc; induction n as [|n IH]; intros acc i; cbn [for_from].
  - lia.
  - unfold rd. destruct (10 + i <? 0); [cbn [bind]; auto|].
    destruct (nth_error w (Z.to_nat (10 + i))); cbn [bind]; auto.
    specialize (IH (acc ++ [u32 (z - 1)]) (i + 1)).
    destruct (for_from n (i + 1) _ _); auto.
    rewrite IH, Zlen_app, Zlen_cons. change (Zlen (@nil Z)) with 0. lia.
Qed.

Lemma rd_words n k raw i : 0 <= i < Z.of_nat n -> rd (words n k raw) i = Ok (zat (words n k raw) i).
Proof. intros; apply rd_zat. unfold Zlen. rewrite words_length. auto. Qed.

Lemma zat_words_nonneg n k raw i : Forall is_byte raw -> 0 <= zat (words n k raw) i.
Proof.
  intros F. unfold zat. destruct (i <? 0); [lia|].
  generalize (Z.to_nat i) as m. intros m. revert m raw F; induction n; intros m raw F.
  - destruct m; cbn; lia.
  - cbn [words]. destruct m; cbn [nth].
    + apply le_nonneg. rewrite <- (firstn_skipn k raw) in F. now apply Forall_app in F.
    + apply IHn. rewrite <- (firstn_skipn k raw) in F. now apply Forall_app in F.
Qed.

Lemma header_v1_any raw :
  Forall is_byte raw ->
  match header_v1 raw with
  | Ok h => Zlen (image_numbers h) = images_in_block h
  | UB _ => True
  | _ => False
  end.
Proof.
  intros F. unfold header_v1. cbv zeta. rewrite !rd_words by lia. cbn [bind].
  unfold for_loop.
  pose proof (for_from_rd_shape (words 1024 4 raw) [] (Z.to_nat (zat (words 1024 4 raw) 0)) 0) as H.
  destruct (for_from (Z.to_nat (zat (words 1024 4 raw) 0)) 0 _ _) eqn:E; cbn [bind]; auto.
  cbn [image_numbers images_in_block]. change (Zlen (@nil Z)) with 0 in H.
  pose proof (zat_words_nonneg 1024 4 raw 0 F). lia.
Qed.

Lemma header_v3_any raw1 raw2 :
  exists h, header_v3 raw1 raw2 = Ok h /\ Zlen (image_numbers h) = images_in_block h.
Proof.
  unfold header_v3. cbv zeta. rewrite !rd_words by lia. cbn [bind].
  eexists; split; [reflexivity|]. reflexivity.
Qed.

Definition byte_cur (s : sr) : Prop :=
  byte_files (sr_files s) /\ forall b, sr_cur s = Some b -> Forall is_byte b.

Lemma open_next_bytes s r s' : byte_cur s -> open_next s = (r, s') -> byte_cur s'.
Proof.
  intros [H1 H2]. unfold open_next.
  assert (Hc : byte_cur (close_cur s)).
  { unfold close_cur. destruct (sr_cur s) eqn:E; split; cbn [sr_files sr_cur]; auto; intros; congruence. }
  destruct (at_end (close_cur s)).
  - intros E; injection E as _ <-; auto.
  - destruct (nth_error _ _) as [[b|]|] eqn:En; intros E; injection E as _ <-; auto.
    destruct Hc as [Hc1 Hc2]. split; auto. cbn [sr_cur sr_files].
    intros b' Eb; injection Eb as <-. apply Hc1. eapply nth_error_In; eauto.
Qed.

Lemma read_raw_bytes fuel : forall s size r s', byte_cur s ->
  read_raw fuel size s = (r, s') ->
  byte_cur s' /\ forall b, r = Ok b -> Forall is_byte b.
Proof.
  induction fuel as [|fuel IH]; intros s size r s' Hb; cbn [read_raw].
  - intros E; injection E as <- <-. split; auto; discriminate.
  - destruct (at_end s); [intros E; injection E as <- <-; split; auto; discriminate|].
    assert (Hretry : forall r s',
      match open_next s with
      | (Ok _, s'0) => read_raw fuel size s'0
      | (Throw m, s'0) => (Throw m, s'0)
      | (UB m, s'0) => (UB m, s'0)
      | (OutOfFuel, s'0) => (OutOfFuel, s'0)
      end = (r, s') -> byte_cur s' /\ forall b, r = Ok b -> Forall is_byte b).
    { intros r0 s0 E. destruct (open_next s) as [r1 s1] eqn:Eo.
      pose proof (open_next_bytes _ _ _ Hb Eo) as Hb1.
      destruct r1; [eapply IH; eauto| | |]; injection E as <- <-; split; auto; discriminate. }
    destruct (sr_cur s) as [b|] eqn:Ec; [|apply Hretry].
    destruct (size <=? Zlen b); [|apply Hretry].
    intros E; injection E as <- <-. destruct Hb as [Hb1 Hb2].
    specialize (Hb2 b Ec). rewrite <- (firstn_skipn (Z.to_nat size) b) in Hb2.
    apply Forall_app in Hb2. destruct Hb2.
    split; [split; auto; cbn [sr_cur]; intros b' E; injection E as <-; auto|].
    intros b' E; injection E as <-; auto.
Qed.

Lemma read_bytes_bytes s size r s' : byte_cur s ->
  read_bytes size s = (r, s') -> byte_cur s' /\ forall b, r = Ok b -> Forall is_byte b.
Proof. apply read_raw_bytes. Qed.

Definition inv (s : sr) : Prop := sane s /\ byte_cur s.

(** One raw read, with everything known about it. *)
Lemma read_bytes_inv s size :
  inv s -> 0 <= size ->
  exists r s', read_bytes size s = (r, s') /\ inv s' /\ same_reader s s' /\
    ((exists b, r = Ok b /\ Zlen b = size /\ Forall is_byte b) \/
     r = Throw eof_exception \/ r = Throw "Unable to open file").
Proof.
  intros [Hs Hb] Hz. destruct (read_bytes_any s size Hs Hz) as (r & s' & E & A & B & C).
  destruct (read_bytes_bytes _ _ _ _ Hb E) as [D F].
  exists r, s'. split; auto. split; [split; auto|]. split; auto.
  destruct C as [(b & -> & L)|C]; eauto 6.
Qed.

Lemma read_header_any s : inv s ->
  exists r s', read_header s = (r, s') /\ inv s' /\ same_reader s s' /\
   ((exists h, r = Ok h /\ Zlen (image_numbers h) = images_in_block h /\
        (sr_version s = 1 \/ sr_version s = 2 \/ sr_version s = 3)) \/
    r = Throw eof_exception \/ r = Throw "Unable to open file" \/
    (r = Throw "Unexpected version" /\ sr_version s <> 1 /\ sr_version s <> 2 /\ sr_version s <> 3) \/
    (exists why, r = UB why /\ sr_version s = 1)).
Proof.
  intros Hi. unfold read_header.
  destruct (Z.eqb_spec (sr_version s) 1) as [V1|V1].
  { unfold read_header_v1.
    destruct (read_bytes_inv s 4096 Hi) as (r & s1 & E & I1 & S1 & C); [lia|].
    rewrite E. destruct C as [(b & -> & L & F)|[->| ->]]; cbn [sbind];
      try (eexists _, s1; split; [reflexivity|]; auto 8; fail).
    pose proof (header_v1_any b F) as HH.
    eexists _, s1. split; [reflexivity|]. split; auto. split; auto.
    destruct (header_v1 b); [left; eauto 6|contradiction|right; eauto 8|contradiction]. }
  destruct (Z.eqb_spec (sr_version s) 2) as [V2|V2].
  { unfold read_header_v2.
    destruct (read_bytes_inv s 4 Hi) as (r & s1 & E & I1 & S1 & C); [lia|].
    rewrite E. destruct C as [(b & -> & L & F)|[->| ->]]; cbn [sbind];
      try (eexists _, s1; split; [reflexivity|]; auto 8; fail).
    eexists _, s1. split; [reflexivity|]. split; auto. split; auto.
    left. eexists; split; [reflexivity|]. split; [|auto]. cbn [image_numbers images_in_block header_v2].
    apply Zlen_zseq; lia. }
  destruct (Z.eqb_spec (sr_version s) 3) as [V3|V3].
  { unfold read_header_v3.
    destruct (read_bytes_inv s 8 Hi) as (r & s1 & E & I1 & S1 & C); [lia|].
    rewrite E. destruct C as [(b & -> & L & F)|[->| ->]]; cbn [sbind];
      try (eexists _, s1; split; [reflexivity|]; auto 8; fail).
    destruct (read_bytes_inv s1 8 I1) as (r2 & s2 & E2 & I2 & S2 & C2); [lia|].
    rewrite E2. pose proof (same_reader_trans _ _ _ S1 S2) as S12.
    destruct C2 as [(b2 & -> & L2 & F2)|[->| ->]]; cbn [sbind];
      try (eexists _, s2; split; [reflexivity|]; auto 8; fail).
    destruct (header_v3_any b b2) as (h & -> & Hh).
    eexists _, s2. split; [reflexivity|]. eauto 10. }
  eexists _, s. split; [reflexivity|]. split; auto. split; [split; auto|]. auto 10.
Qed.

Lemma read_record_any s : inv s ->
  exists r s', read_record s = (r, s') /\ inv s' /\ same_reader s s' /\
    read_result (sr_version s) r s'.
Proof.
  intros Hi. unfold read_record, read_result.
  destruct (read_header_any s Hi) as (r & s1 & E & I1 & S1 & C). rewrite E.
  destruct C as [(h & -> & Hn & Hv)|[->|[->|[[-> HV]|(why & -> & HV)]]]]; cbn [sbind].
  - destruct (read_bytes_inv s1 (data_size h * 2) I1) as (r2 & s2 & E2 & I2 & S2 & C2).
    { pose proof (data_size_nonneg h). lia. }
    rewrite E2. pose proof (same_reader_trans _ _ _ S1 S2) as S12.
    destruct C2 as [(b2 & -> & L2 & F2)|[->| ->]]; cbn [sbind catch_eof].
    + eexists _, s2. split; [reflexivity|]. split; auto. split; auto.
      right; left. eexists; split; [reflexivity|]. split; auto.
      eexists. split; [reflexivity|]. cbn [hdr]. split; auto.
      rewrite <- data_size_eq. unfold Zlen. rewrite words_length.
      apply Z2Nat.id, data_size_nonneg.
    + change (String.eqb eof_exception eof_exception) with true.
      eexists _, s2. split; [reflexivity|]. auto 10.
    + change (String.eqb "Unable to open file" eof_exception) with false.
      eexists _, s2. split; [reflexivity|]. auto 10.
  - cbn [catch_eof]. change (String.eqb eof_exception eof_exception) with true.
    eexists _, s1. split; [reflexivity|]. auto 10.
  - cbn [catch_eof]. change (String.eqb "Unable to open file" eof_exception) with false.
    eexists _, s1. split; [reflexivity|]. auto 10.
  - cbn [catch_eof]. change (String.eqb "Unexpected version" eof_exception) with false.
    eexists _, s1. split; [reflexivity|]. auto 10.
  - cbn [catch_eof]. eexists _, s1. split; [reflexivity|]. eauto 12.
Qed.

Lemma read_block_f_any fuel : forall s, inv s -> (rank s < fuel)%nat ->
  exists r s', read_block_f fuel s = (r, s') /\ inv s' /\ same_reader s s' /\
    read_result (sr_version s) r s'.
Proof.
  induction fuel as [|fuel IH]; intros s Hi Hf; [lia|].
  cbn [read_block_f]. destruct (at_end s) eqn:Hend.
  - eexists _, s. split; [reflexivity|]. split; auto. split; [split; auto|].
    left; auto.
  - assert (Hretry : exists r s',
      sbind (open_next s) (fun _ s' => read_block_f fuel s') = (r, s') /\
      inv s' /\ same_reader s s' /\ read_result (sr_version s) r s').
    { destruct Hi as [Hs Hb]. destruct (open_next s) as [r1 s1] eqn:Eo.
      destruct (open_next_sane s Hs _ _ Eo) as (Hs1 & S1 & Hr).
      pose proof (open_next_bytes _ _ _ Hb Eo) as Hb1.
      assert (Hgo : forall b, r1 = Ok b -> exists r s',
        sbind (r1, s1) (fun _ s' => read_block_f fuel s') = (r, s') /\
        inv s' /\ same_reader s s' /\ read_result (sr_version s) r s').
      { intros b ->. cbn [sbind].
        pose proof (open_next_rank s _ s1 Hs Hend Eo).
        destruct (IH s1) as (r & s' & E & A & B & C); [split; auto|lia|].
        exists r, s'. split; auto. split; auto. split; [eapply same_reader_trans; eauto|].
        destruct S1 as [_ <-]; auto. }
      destruct Hr as [[Hr _]|[[Hr _]| ->]]; eauto.
      cbn [sbind]. eexists _, s1. split; [reflexivity|]. split; [split; auto|].
      split; auto. unfold read_result. auto 10. }
    destruct (sr_cur s) as [[|c l]|]; auto.
    apply read_record_any; auto.
Qed.

Lemma read_block_any s : inv s ->
  exists r s', read_block s = (r, s') /\ inv s' /\ same_reader s s' /\
    read_result (sr_version s) r s'.
Proof. intros. apply read_block_f_any; auto. pose proof (rank_fuel s). lia. Qed.

(** ** Reset *)

Lemma read_block_reset s : inv s ->
  forall b, nth_error (sr_files s) 0 = Some (Some b) ->
  read_block (reset s) = read_block (mkSR (sr_files s) 0 (Some b) (sr_version s)).
Proof.
  intros Hi b Hn. set (s0 := mkSR _ 0 (Some b) _).
  assert (Hl : (0 < List.length (sr_files s))%nat) by (apply nth_error_Some; congruence).
  unfold read_block at 1. unfold read_fuel at 1. cbn [reset sr_files].
  set (f := S (List.length (sr_files s) + List.length (sr_files s))).
  cbn [read_block_f]. unfold at_end at 1. cbn [reset sr_files sr_idx sr_cur].
  replace (List.length (sr_files s) <=? 0)%nat with false by (symmetry; apply Nat.leb_gt; lia).
  unfold open_next, close_cur, at_end, reset. cbn [sr_files sr_idx sr_cur sr_version].
  replace (List.length (sr_files s) <=? 0)%nat with false by (symmetry; apply Nat.leb_gt; lia).
  rewrite Hn. cbn [sbind]. fold s0.
  unfold read_block. change (read_fuel s0) with (S f). symmetry.
  apply read_block_f_mono.
  - unfold sane, s0. cbn [sr_files sr_idx sr_cur]. split; [lia|]. split; [lia|]. auto.
  - unfold rank, s0, f. cbn [sr_files sr_idx sr_cur]. lia.
Qed.

Lemma inv_reset s : inv s -> inv (reset s).
Proof.
  intros [(H1 & H2 & H3) [B1 B2]]. unfold reset. split; split; cbn; try discriminate; auto.
  - lia.
  - split; [congruence|auto].
Qed.

Lemma inv_ops ops : forall s, inv s -> inv (sr_run ops s) /\ same_reader s (sr_run ops s).
Proof.
  induction ops as [|[|] ops IH]; intros s Hi; cbn [sr_run].
  - split; auto. split; auto.
  - destruct (read_block_any s Hi) as (r & s' & E & I & S & _). rewrite E. cbn [snd].
    destruct (IH s' I) as [I' S']. split; auto. eapply same_reader_trans; eauto.
  - destruct (IH (reset s) (inv_reset s Hi)) as [I' S']. split; auto.
Qed.

Lemma inv_new files v s : byte_files files ->
  stream_reader files v = Ok s ->
  inv s /\ sr_files s = files /\ sr_version s = v /\
  exists b, nth_error files 0 = Some (Some b) /\ s = mkSR files 0 (Some b) v.
Proof.
  intros HB. unfold stream_reader. destruct files as [|f files]; [discriminate|].
  unfold open_next, close_cur, at_end. cbn [sr_cur sr_files sr_idx sr_version List.length Nat.leb nth_error].
  destruct f as [b|]; [|discriminate]. intros E; injection E as <-.
  split; [|cbn; eauto 6].
  split; split; cbn [sr_cur sr_files sr_idx List.length].
  - lia.
  - split; [lia|left; lia].
  - auto.
  - intros b' E; injection E as <-. apply HB. left; auto.
Qed.
