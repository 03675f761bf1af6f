(** Proofs about SectorStreamThreadedReader. *)
From Coq Require Import String ZArith List Lia Bool Permutation Sorting.Sorted.
From Verif Require Import Base BaseFacts PermFacts BlockModel StemProofs StreamModel StreamSpec
  StreamProofs SectorModel SectorSpec SectorProofs ThreadedModel ThreadedSpec.
Import ListNotations.
Open Scope Z_scope.
Local Arguments skipn : simpl never.
Local Arguments firstn : simpl never.
Local Arguments Z.mul : simpl never.
Local Arguments Z.add : simpl never.

(** ** Lists *)

Lemma zsum_upd {A} (f : A -> Z) l i x y :
  nth_error l i = Some x -> zsum (map f (upd l i y)) = zsum (map f l) - f x + f y.
Proof.
  revert i. induction l as [|a l IH]; intros [|i] H; try discriminate; simpl in *.
  - injection H as ->. lia.
  - rewrite (IH i H). lia.
Qed.

Lemma flat_map_upd_same {A B} (f : A -> list B) l i x y :
  nth_error l i = Some x -> f x = f y -> flat_map f (upd l i y) = flat_map f l.
Proof.
  revert i. induction l as [|a l IH]; intros [|i] H E; try discriminate; simpl in *.
  - injection H as ->. now rewrite E.
  - now rewrite (IH i H E).
Qed.

Lemma flat_map_upd {A B} (f : A -> list B) l i x :
  nth_error l i = Some x ->
  exists R, Permutation (flat_map f l) (f x ++ R) /\
    forall y, Permutation (flat_map f (upd l i y)) (f y ++ R).
Proof.
  intros H. destruct (concat_map_upd f l i x H) as (R & H1 & H2).
  exists R. split; [now rewrite flat_map_concat_map|]. intros y. now rewrite flat_map_concat_map.
Qed.

Lemma in_remove_nth {A} i (l : list A) x :
  In x (remove_nth i l) <-> exists j, j <> i /\ nth_error l j = Some x.
Proof.
  unfold remove_nth. revert i. induction l as [|a l IH]; intros i.
  - rewrite firstn_nil, skipn_nil. simpl. split; [tauto|]. intros (j & _ & H). now destruct j.
  - destruct i as [|i].
    + change (In x l <-> exists j, j <> O /\ nth_error (a :: l) j = Some x). split.
      * intros H. apply In_nth_error in H as [j Hj]. now exists (S j).
      * intros ([|j] & Hne & Hj); [congruence|]. eapply nth_error_In; exact Hj.
    + change (a = x \/ In x (firstn i l ++ skipn (S i) l) <->
              exists j, j <> S i /\ nth_error (a :: l) j = Some x). rewrite IH. split.
      * intros [->|(j & Hne & Hj)]; [now exists O|]. exists (S j). split; auto.
      * intros ([|j] & Hne & Hj); [injection Hj; auto|]. right. exists j. split; auto.
Qed.

Lemma remove_nth_perm {A} i (l : list A) x :
  nth_error l i = Some x -> Permutation l (x :: remove_nth i l).
Proof. apply nth_error_split_perm. Qed.

Lemma nodup_upd_neq {A B} (f : A -> list B) l i j x y b :
  NoDup (flat_map f l) -> nth_error l i = Some x -> nth_error l j = Some y -> i <> j ->
  In b (f x) -> ~ In b (f y).
Proof.
  revert i j. induction l as [|a l IH]; intros [|i] [|j] HN Hi Hj Hne Hb Hb'; try discriminate;
    simpl in *; try congruence.
  - injection Hi as ->. apply NoDup_app_inv in HN as (_ & _ & D).
    apply (D b); auto. apply in_flat_map. exists y. split; auto. eapply nth_error_In; eauto.
  - injection Hj as ->. apply NoDup_app_inv in HN as (_ & _ & D).
    apply (D b); auto. apply in_flat_map. exists x. split; auto. eapply nth_error_In; eauto.
  - apply NoDup_app_inv in HN as (_ & HN & _). eapply (IH i j); eauto.
Qed.

(** ** Records of a frame *)

Definition tkey (e : Z * srec) : Z * Z := (s_frame (snd e), fst e).
Definition trecs_ok (g : geom) (l : list (Z * srec)) : Prop :=
  (forall e, In e l -> wf_srec g (snd e) /\ 0 <= fst e < 4) /\ NoDup (map tkey l).

Lemma records_of_app n l l' : records_of n (l ++ l') = records_of n l ++ records_of n l'.
Proof. apply filter_app. Qed.
Lemma in_records_of n e l : In e (records_of n l) <-> In e l /\ s_frame (snd e) = n.
Proof. unfold records_of. rewrite filter_In, Z.eqb_eq. tauto. Qed.
Lemma nsec_app n l l' : nsec n (l ++ l') = nsec n l + nsec n l'.
Proof. unfold nsec. rewrite records_of_app. unfold Zlen. rewrite app_length. lia. Qed.
Lemma nsec_perm n l l' : Permutation l l' -> nsec n l = nsec n l'.
Proof. intros H. unfold nsec, Zlen, records_of. f_equal. now apply Permutation_length, Permutation_filter. Qed.
Lemma nsec_one n e : nsec n [e] = if s_frame (snd e) =? n then 1 else 0.
Proof. unfold nsec, records_of. simpl. now destruct (_ =? n). Qed.
Lemma nsec_nonneg n l : 0 <= nsec n l.
Proof. unfold nsec, Zlen. lia. Qed.

Lemma tsectors_nodup n l : NoDup (map tkey l) -> NoDup (map fst (records_of n l)).
Proof.
  induction l as [|[s r] l IH]; simpl; intros HN; [constructor|].
  inversion HN as [|? ? Hnin HN']; subst. destruct (Z.eqb_spec (s_frame r) n) as [<-|]; auto.
  simpl. constructor; auto. intros Hin. apply Hnin. apply in_map_iff in Hin as ([s' r'] & Es & Hin).
  simpl in Es. subst s'. apply in_records_of in Hin as [Hin Er]. simpl in Er.
  apply in_map_iff. exists (s, r'). split; auto. unfold tkey. simpl. congruence.
Qed.

Lemma nsec_le_4 g n l : trecs_ok g l -> nsec n l <= 4.
Proof.
  intros [H1 H2]. pose proof (tsectors_nodup n l H2) as HN.
  assert (Hi : incl (map fst (records_of n l)) [0; 1; 2; 3]).
  { intros s Hs. apply in_map_iff in Hs as (e & <- & He). apply in_records_of in He as [He _].
    destruct (H1 e He) as [_ Hs]. simpl. lia. }
  pose proof (NoDup_incl_length HN Hi) as HL. rewrite map_length in HL. unfold nsec, Zlen. simpl in HL. lia.
Qed.

Lemma trecs_ok_perm g l l' : Permutation l l' -> trecs_ok g l -> trecs_ok g l'.
Proof.
  intros HP [H1 H2]. split.
  - intros e He. apply H1. eapply Permutation_in; [symmetry|]; eauto.
  - eapply Permutation_NoDup; [apply Permutation_map|]; eauto.
Qed.
Lemma trecs_ok_app_r g l l' : trecs_ok g (l ++ l') -> trecs_ok g l'.
Proof.
  intros [H1 H2]. split; [intros e He; apply H1, in_or_app; auto|].
  rewrite map_app in H2. now apply NoDup_app_inv in H2.
Qed.

(** ** Storing one pixel *)

Definition trunc (k : Z) (r : srec) : srec :=
  mkSrec (s_scan r) (s_frame r) (s_sw r) (s_sh r) (s_x r) (s_y r) (firstn (Z.to_nat k) (s_px r)).

Lemma trunc_all r : trunc (Zlen (s_px r)) r = r.
Proof.
  unfold trunc, Zlen. rewrite Nat2Z.id, firstn_all. now destruct r.
Qed.

Lemma zat_out l i : i < 0 \/ Zlen l <= i -> zat l i = 0.
Proof.
  intros H. unfold zat. destruct (Z.ltb_spec i 0); auto.
  apply nth_overflow. unfold Zlen in H. lia.
Qed.

Lemma assembled_trunc0 g v rs sec r : ~ In sec (map fst rs) ->
  assembled g v (rs ++ [(sec, trunc 0 r)]) = assembled g v rs.
Proof.
  intros Hn. unfold assembled. apply map_ext. intros i. rewrite find_app.
  destruct (find _ rs) as [e|]; auto. cbn [find fst].
  destruct (sec =? _); auto. cbn [snd s_px trunc]. change (firstn (Z.to_nat 0) (s_px r)) with (@nil Z).
  apply zat_out. unfold Zlen; simpl. lia.
Qed.

Lemma store_assembled g v rs sec r k :
  wf_geom g -> v = 4 \/ v = 5 -> 0 <= sec < 4 -> ~ In sec (map fst rs) ->
  0 <= k < npix_sector g -> Zlen (s_px r) = npix_sector g ->
  wr (assembled g v (rs ++ [(sec, trunc k r)])) (sector_address g v sec k) (zat (s_px r) k) =
  Ok (assembled g v (rs ++ [(sec, trunc (k + 1) r)])).
Proof.
  intros Hg Hv Hs Hn Hk HL.
  destruct (sector_address_ok g Hg v sec k Hv Hs Hk) as [Ha Hsrc].
  rewrite wr_ok by (rewrite assembled_length; auto). f_equal. apply list_eq_zat.
  - now rewrite Zlen_upd, !assembled_length.
  - intros i Hi. rewrite Zlen_upd, assembled_length in Hi by auto.
    rewrite zat_upd by (rewrite assembled_length; auto).
    unfold assembled. rewrite !zat_map_zseq by auto. rewrite !find_app.
    destruct (Z.eqb_spec i (sector_address g v sec k)) as [->|Hne].
    + rewrite Hsrc. cbn [fst snd]. rewrite find_none_sector by auto. cbn [find fst].
      rewrite Z.eqb_refl. cbn [snd s_px trunc]. rewrite zat_firstn by lia. auto.
    + destruct (find _ rs) as [e|]; auto. cbn [find fst].
      destruct (Z.eqb_spec sec (fst (pixel_source g v i))) as [E|]; auto.
      cbn [snd s_px trunc].
      destruct (pixel_source_range g Hg v i Hv Hi) as (_ & Hr & Hinv).
      set (q := snd (pixel_source g v i)) in *.
      destruct (Z.eq_dec q k) as [Eq|Hq].
      { exfalso. apply Hne. rewrite <- Hinv, <- E. congruence. }
      destruct (Z_lt_ge_dec q k).
      * rewrite !zat_firstn by lia. auto.
      * rewrite !zat_out; auto; right; unfold Zlen in *; rewrite firstn_length; lia.
Qed.

(** ** The invariant *)

Notation gworker := (tworker * option (Z * srec))%type.

Definition shdr_of (r : srec) : shdr :=
  mkShdr (s_scan r) (s_frame r) (s_sw r, s_sh r) (s_pos r).

(** The record a worker has started and not counted yet. *)
Definition act (x : gworker) : list (Z * srec) :=
  match snd x with Some e => [e] | None => [] end.

(** The file a worker has taken from the queue. *)
Definition held (w : tworker) : list nat :=
  match w with
  | WPeek e | WErase e | WHeader e | WCache e _ | WFrame _ e _ _ | WPush e _ => [fst e]
  | _ => []
  end.

Definition carried (w : tworker) : list block :=
  match w with
  | WPush _ (Some b) | WCall (Some b) => [b]
  | _ => []
  end.

Definition in_frame (P : stage -> bool) (n : Z) (w : tworker) : bool :=
  match w with WFrame st _ h _ => (sh_frame h =? n) && P st | _ => false end.
Definition is_alloc st := match st with Alloc => true | _ => false end.
Definition is_store st := match st with Store => true | _ => false end.
Definition is_fill st := match st with Fill _ | Count | Collect => true | _ => false end.
Definition is_collect st := match st with Collect => true | _ => false end.

(** The pixels a worker has stored. *)
Definition partial (x : gworker) : list (Z * srec) :=
  match x with
  | (WFrame (Fill k) _ _ _, Some (sec, r)) => [(sec, trunc k r)]
  | (WFrame Count _ _ _, Some e) => [e]
  | _ => []
  end.

Definition b2z (b : bool) : Z := if b then 1 else 0.
Definition cnt (P : tworker -> bool) (gws : list gworker) : Z :=
  zsum (map (fun x => b2z (P (fst x))) gws).

Lemma cnt_upd P gws i x y :
  nth_error gws i = Some x -> cnt P (upd gws i y) = cnt P gws - b2z (P (fst x)) + b2z (P (fst y)).
Proof. intros H. unfold cnt. now rewrite (zsum_upd _ _ _ _ _ H). Qed.

Lemma cnt_nonneg P gws : 0 <= cnt P gws.
Proof.
  unfold cnt. induction gws as [|x l IH]; simpl; [lia|]. unfold b2z at 1. destruct (P (fst x)); lia.
Qed.

Lemma cnt_ge P gws i x : nth_error gws i = Some x -> b2z (P (fst x)) <= cnt P gws.
Proof.
  unfold cnt. revert i. induction gws as [|a l IH]; intros [|i] H; try discriminate; simpl in *.
  - injection H as ->. pose proof (cnt_nonneg P l). unfold cnt in *. lia.
  - specialize (IH i H). unfold b2z at 2. destruct (P (fst a)); lia.
Qed.

Lemma cnt_two P gws i j x y :
  nth_error gws i = Some x -> nth_error gws j = Some y -> i <> j ->
  b2z (P (fst x)) + b2z (P (fst y)) <= cnt P gws.
Proof.
  unfold cnt. revert i j.
  induction gws as [|a l IH]; intros [|i] [|j] Hi Hj Hne; try discriminate; try congruence; simpl in *.
  - injection Hi as ->. pose proof (cnt_ge P l j y Hj). unfold cnt in H. lia.
  - injection Hj as ->. pose proof (cnt_ge P l i x Hi). unfold cnt in H. lia.
  - specialize (IH i j Hi Hj ltac:(congruence)). unfold b2z at 3. destruct (P (fst a)); lia.
Qed.

Lemma fold_tl_enc (r : srec) rest : exists a t, encode_srec r ++ rest = a :: t.
Proof.
  pose proof (encode_srec_length r). destruct (encode_srec r) as [|a t]; simpl in *; [lia|eauto].
Qed.

Section Inv.
Variables (g : geom) (v : Z) (fs : list sfile).
Hypothesis Hg : wf_geom g.
Hypothesis Hv : v = 4 \/ v = 5.
Hypothesis HR : trecs_ok g (all_records fs).
Hypothesis Hsame : same_frame fs.

Definition full_hdr (n : Z) : header := hdr (numbered_block g v n (records_of n (all_records fs))).

Definition idle (pend : list sfile) (files : list (Z * bytes)) (n : nat) (Q : list srec -> Prop) : Prop :=
  exists f, nth_error pend n = Some f /\ nth_error files n = Some (encode_sfile f) /\ Q (snd f).

Definition busy (pend : list sfile) (files : list (Z * bytes)) (n : nat) (h : shdr)
  (o : option (Z * srec)) (k : Z) : Prop :=
  exists f r, o = Some (fst f, r) /\ h = shdr_of r /\ nth_error pend n = Some f /\
    nth_error files n =
      Some (fst f, flat_map (le_bytes 2) (skipn (Z.to_nat k) (s_px r)) ++ flat_map encode_srec (snd f)).

Definition has_id (cache : list (Z * tframe)) (h : shdr) (id : Z) : Prop :=
  exists fr, map_get (sh_frame h) cache = Some fr /\ tf_id fr = id.

Definition offset (st : stage) : Z :=
  match st with Fill k => k | Count | Collect => npix_sector g | _ => 0 end.

Definition wok (pend : list sfile) (files : list (Z * bytes)) (cache : list (Z * tframe))
  (x : gworker) : Prop :=
  match fst x with
  | WCheck | WNext | WDone | WCall _ => snd x = None
  | WPeek e | WPush e _ => snd x = None /\ idle pend files (fst e) (fun _ => True)
  | WErase e => snd x = None /\ idle pend files (fst e) (fun l => l = [])
  | WHeader e => snd x = None /\ idle pend files (fst e) (fun l => l <> [])
  | WCache e h => busy pend files (fst e) h (snd x) 0
  | WFrame st e h id =>
      has_id cache h id /\
      if is_collect st then snd x = None /\ idle pend files (fst e) (fun _ => True)
      else busy pend files (fst e) h (snd x) (offset st) /\ 0 <= offset st <= npix_sector g
  end.

Definition stored (n : Z) (gws : list gworker) : list (Z * srec) :=
  flat_map (fun x => records_of n (partial x)) gws.

Definition frame_ok (done : list (Z * srec)) (gws : list gworker) (n : Z) (fr : tframe) : Prop :=
  tf_count fr = nsec n done /\
  cnt (in_frame is_alloc n) gws + cnt (in_frame is_store n) gws = b2z (tf_locked fr) /\
  cnt (in_frame is_collect n) gws = b2z (nsec n done =? 4) /\
  match data (tf_block fr) with
  | None => cnt (in_frame is_fill n) gws = 0 /\ nsec n done = 0 /\
      hdr (tf_block fr) = (if cnt (in_frame is_store n) gws =? 0 then hdr empty_block else full_hdr n)
  | Some d => cnt (in_frame is_store n) gws = 0 /\ hdr (tf_block fr) = full_hdr n /\
      d = assembled g v (records_of n done ++ stored n gws)
  end.

Definition cache_at done gws n (o : option tframe) : Prop :=
  match o with
  | Some fr => frame_ok done gws n fr
  | None => nsec n done = 0 \/ nsec n done = 4
  end.

Record Inv (s : tstate) (pend : list sfile) (gws : list gworker) (done : list (Z * srec))
  (outs : list Z) : Prop := mkInv {
  i_ws : t_workers s = map fst gws;
  i_recs : Permutation (all_records fs) (all_records pend ++ flat_map act gws ++ done);
  i_wok : forall j x, nth_error gws j = Some x -> wok pend (t_files s) (t_cache s) x;
  i_q : forall e, In e (t_queue s) -> idle pend (t_files s) (fst e) (fun _ => True);
  i_nd : NoDup (t_open s);
  i_open : Permutation (t_open s) (map fst (t_queue s) ++ flat_map (fun x => held (fst x)) gws);
  i_closed : forall n f, nth_error pend n = Some f -> In n (t_open s) \/ snd f = [];
  i_ord : ordered (t_cache s);
  i_cache : forall n, cache_at done gws n (map_get n (t_cache s));
  i_ids : forall n n' fr fr', map_get n (t_cache s) = Some fr -> map_get n' (t_cache s) = Some fr' ->
    tf_id fr = tf_id fr' -> n = n';
  i_fresh : forall n fr, map_get n (t_cache s) = Some fr -> tf_id fr < t_fresh s;
  i_outs : NoDup outs;
  i_outs_in : forall n, In n outs <-> nsec n done = 4 /\ map_get n (t_cache s) = None;
  i_out : Permutation (t_out s ++ flat_map (fun x => carried (fst x)) gws)
            (map (fun n => numbered_block g v n (records_of n (all_records fs))) outs)
}.

(** *** Consequences *)

Lemma act_in gws j x e : nth_error gws j = Some x -> In e (act x) -> In e (flat_map act gws).
Proof. intros H He. apply in_flat_map. exists x. split; auto. eapply nth_error_In; eauto. Qed.

Lemma recs_split s pend gws done outs : Inv s pend gws done outs ->
  trecs_ok g (flat_map act gws ++ done).
Proof.
  intros I. eapply trecs_ok_app_r. eapply trecs_ok_perm; [apply (i_recs _ _ _ _ _ I)|auto].
Qed.

(** An active record of frame [n]: fewer than four are counted. *)
Lemma act_lt s pend gws done outs j x sec r : Inv s pend gws done outs ->
  nth_error gws j = Some x -> snd x = Some (sec, r) -> nsec (s_frame r) done <= 3.
Proof.
  intros I Hj Hx. pose proof (recs_split _ _ _ _ _ I) as HO.
  pose proof (nsec_le_4 g (s_frame r) _ HO) as H4. rewrite nsec_app in H4.
  assert (1 <= nsec (s_frame r) (flat_map act gws)); [|lia].
  destruct (flat_map_upd act gws j x Hj) as (Q & HP & _).
  rewrite (nsec_perm _ _ _ HP), nsec_app. unfold act at 1. rewrite Hx, nsec_one. simpl.
  rewrite Z.eqb_refl. pose proof (nsec_nonneg (s_frame r) Q). lia.
Qed.

Lemma in_all_act s pend gws done outs j x sec r : Inv s pend gws done outs ->
  nth_error gws j = Some x -> snd x = Some (sec, r) ->
  In (sec, r) (all_records fs) /\ wf_srec g r /\ 0 <= sec < 4.
Proof.
  intros I Hj Hx.
  assert (Hin : In (sec, r) (all_records fs)).
  { eapply Permutation_in; [symmetry; apply (i_recs _ _ _ _ _ I)|].
    apply in_or_app. right. apply in_or_app. left. eapply act_in; eauto.
    unfold act. rewrite Hx. now left. }
  split; auto. destruct HR as [H _]. apply (H _ Hin).
Qed.

(** Keys of what is stored are keys of active records. *)
Lemma stored_keys n gws : exists rest, Permutation (map fst (records_of n (flat_map act gws)))
  (map fst (stored n gws) ++ rest).
Proof.
  unfold stored. induction gws as [|x l [rest IH]]; simpl; [now exists []|].
  rewrite records_of_app, !map_app.
  assert (Hx : exists q, Permutation (map fst (records_of n (act x))) (map fst (records_of n (partial x)) ++ q)).
  { destruct x as [w [[sec r]|]]; unfold act, partial; simpl.
    - destruct w as [| | | | | |st e h id| | |]; simpl; try (destruct (s_frame r =? n); simpl; eauto; fail).
      destruct st; simpl; destruct (s_frame r =? n); simpl; eauto.
    - destruct w as [| | | | | |st e h id| | |]; simpl; eauto. destruct st; simpl; eauto. }
  destruct Hx as [q Hx]. exists (q ++ rest). rewrite Hx, IH, <- !app_assoc.
  apply Permutation_app_head. rewrite !app_assoc. apply Permutation_app_tail, Permutation_app_comm.
Qed.

Lemma contents_nodup n gws done : trecs_ok g (flat_map act gws ++ done) ->
  NoDup (map fst (records_of n done ++ stored n gws)).
Proof.
  intros [_ HN]. apply (tsectors_nodup n) in HN. rewrite records_of_app, map_app in HN.
  destruct (stored_keys n gws) as [rest HP].
  rewrite map_app. eapply Permutation_NoDup in HN; [|apply Permutation_app_tail, HP].
  rewrite <- app_assoc in HN.
  eapply Permutation_NoDup in HN; [|apply Permutation_app_head, Permutation_app_comm].
  rewrite app_assoc in HN. apply NoDup_app_inv in HN as (HN & _ & _).
  eapply Permutation_NoDup; [apply Permutation_app_comm|]. auto.
Qed.

(** *** Frame conditions *)

Lemma cache_at_ext done done' gws gws' n o :
  (forall P, cnt (in_frame P n) gws' = cnt (in_frame P n) gws) ->
  stored n gws' = stored n gws -> records_of n done' = records_of n done ->
  cache_at done gws n o -> cache_at done' gws' n o.
Proof.
  intros H1 H2 H3. unfold cache_at, frame_ok, nsec. rewrite !H1, H2, H3. auto.
Qed.

Lemma wok_mono pend files cache pend' files' cache' x :
  wok pend files cache x ->
  (forall n, In n (held (fst x)) ->
     nth_error pend' n = nth_error pend n /\ nth_error files' n = nth_error files n) ->
  (forall st e h id, fst x = WFrame st e h id -> has_id cache h id -> has_id cache' h id) ->
  wok pend' files' cache' x.
Proof.
  intros H Hf Hc. destruct x as [w o]. unfold wok, idle, busy in *. cbn [fst snd] in *.
  destruct w as [| | | | | |st e h id| | |]; auto; cbn [held] in Hf;
    try (destruct (Hf (fst e) (or_introl eq_refl)) as [-> ->]; auto).
  destruct H as [H1 H2]. split; [eapply Hc; eauto|]. auto.
Qed.

Lemma held_other s pend gws done outs i j x y n :
  Inv s pend gws done outs -> nth_error gws i = Some x -> nth_error gws j = Some y -> i <> j ->
  In n (held (fst x)) -> ~ In n (held (fst y)).
Proof.
  intros I Hi Hj Hne. pose proof (i_nd _ _ _ _ _ I) as HN.
  eapply Permutation_NoDup in HN; [|apply (i_open _ _ _ _ _ I)].
  apply NoDup_app_inv in HN as (_ & HN & _).
  apply (nodup_upd_neq (fun x => held (fst x)) gws i j x y n HN Hi Hj Hne).
Qed.

Lemma held_queue s pend gws done outs i x n :
  Inv s pend gws done outs -> nth_error gws i = Some x ->
  In n (held (fst x)) -> ~ In n (map fst (t_queue s)).
Proof.
  intros I Hi Hn Hq. pose proof (i_nd _ _ _ _ _ I) as HN.
  eapply Permutation_NoDup in HN; [|apply (i_open _ _ _ _ _ I)].
  apply NoDup_app_inv in HN as (_ & _ & D). apply (D n); auto.
  apply in_flat_map. exists x. split; auto. eapply nth_error_In; eauto.
Qed.

(** *** Steps that do not touch frames *)

Definition no_frame (w : tworker) : Prop := forall P n, in_frame P n w = false.

Lemma partial_no_frame w o : no_frame w -> partial (w, o) = [].
Proof.
  intros H. destruct w as [| | | | | |st e h id| | |]; auto.
  exfalso. specialize (H (fun _ => true) (sh_frame h)). simpl in H. rewrite Z.eqb_refl in H. discriminate.
Qed.

Lemma cnt_upd_no_frame P n gws i w o w' o' :
  nth_error gws i = Some (w, o) -> no_frame w -> no_frame w' ->
  cnt (in_frame P n) (upd gws i (w', o')) = cnt (in_frame P n) gws.
Proof. intros H Hw Hw'. rewrite (cnt_upd _ _ _ _ _ H). cbn [fst]. rewrite Hw, Hw'. simpl. lia. Qed.

Lemma stored_upd_no_frame n gws i w o w' o' :
  nth_error gws i = Some (w, o) -> no_frame w -> no_frame w' ->
  stored n (upd gws i (w', o')) = stored n gws.
Proof.
  intros H Hw Hw'. apply (flat_map_upd_same _ _ _ _ _ H).
  now rewrite !partial_no_frame.
Qed.

Lemma map_fst_upd (gws : list gworker) i w o : map fst (upd gws i (w, o)) = upd (map fst gws) i w.
Proof. apply map_upd. Qed.

Lemma inv_move s pend gws done outs i w o w' q' op' out' :
  Inv s pend gws done outs -> nth_error gws i = Some (w, o) -> no_frame w -> no_frame w' ->
  wok pend (t_files s) (t_cache s) (w', o) ->
  (forall e, In e q' -> idle pend (t_files s) (fst e) (fun _ => True)) ->
  NoDup op' ->
  Permutation op' (map fst q' ++ flat_map (fun x => held (fst x)) (upd gws i (w', o))) ->
  (forall n f, nth_error pend n = Some f -> In n op' \/ snd f = []) ->
  Permutation (out' ++ flat_map (fun x => carried (fst x)) (upd gws i (w', o)))
              (t_out s ++ flat_map (fun x => carried (fst x)) gws) ->
  Inv (set_worker (mkTS (t_files s) op' q' (t_cache s) (t_fresh s) (t_workers s) out') i w')
      pend (upd gws i (w', o)) done outs.
Proof.
  intros I Hi Hw Hw' Hok Hq Hnd Hop Hcl Hout. destruct I. constructor; cbn [t_files t_open t_queue t_cache t_fresh t_workers t_out set_worker] in *; auto.
  - rewrite map_fst_upd. congruence.
  - assert (E : flat_map act (upd gws i (w', o)) = flat_map act gws)
      by (apply (flat_map_upd_same _ _ _ _ _ Hi); reflexivity). now rewrite E.
  - intros j x Hj. destruct (Nat.eq_dec i j) as [<-|Hne].
    + rewrite nth_error_upd_eq in Hj by (apply nth_error_Some; congruence). injection Hj as <-. auto.
    + rewrite nth_error_upd_neq in Hj by auto. eauto.
  - intros n. eapply cache_at_ext; [| |reflexivity|apply i_cache0].
    + intros P. eapply cnt_upd_no_frame; eauto.
    + eapply stored_upd_no_frame; eauto.
  - rewrite Hout. auto.
Qed.

(** Reading a header. *)
Lemma encode_sfile_cons sec r l :
  encode_sfile (sec, r :: l) = (sec, encode_srec r ++ flat_map encode_srec l).
Proof. reflexivity. Qed.

Lemma nth_error_upd_same {A} (l : list A) n x y : nth_error l n = Some x -> nth_error (upd l n y) n = Some y.
Proof. intros H. apply nth_error_upd_eq. apply nth_error_Some. congruence. Qed.

Lemma all_records_upd pend n sec r l :
  nth_error pend n = Some (sec, r :: l) ->
  Permutation (all_records pend) ((sec, r) :: all_records (upd pend n (sec, l))).
Proof.
  intros H. destruct (flat_map_upd (fun f : sfile => map (pair (fst f)) (snd f)) pend n _ H) as (Q & H1 & H2).
  unfold all_records. rewrite H1, (H2 (sec, l)). reflexivity.
Qed.

Lemma inv_header s pend gws done outs i e sec r l :
  Inv s pend gws done outs -> nth_error gws i = Some (WHeader e, None) ->
  nth_error pend (fst e) = Some (sec, r :: l) ->
  Inv (set_worker (set_file s (fst e) (sec, flat_map (le_bytes 2) (s_px r) ++ flat_map encode_srec l)) i
                  (WCache e (shdr_of r)))
      (upd pend (fst e) (sec, l)) (upd gws i (WCache e (shdr_of r), Some (sec, r))) done outs.
Proof.
  intros I Hi Hp. pose proof I as I0.
  assert (Hf : nth_error (t_files s) (fst e) = Some (encode_sfile (sec, r :: l))).
  { destruct (i_wok _ _ _ _ _ I _ _ Hi) as (_ & f & E1 & E2 & _). congruence. }
  destruct I. constructor; cbn [t_files t_open t_queue t_cache t_fresh t_workers t_out set_worker set_file] in *; auto.
  - rewrite map_fst_upd. congruence.
  - rewrite i_recs0, (all_records_upd _ _ _ _ _ Hp).
    destruct (flat_map_upd act gws i _ Hi) as (Q & H1 & H2).
    rewrite H1, (H2 (WCache e (shdr_of r), Some (sec, r))). unfold act. simpl.
    apply Permutation_middle.
  - intros j x Hj. destruct (Nat.eq_dec i j) as [<-|Hne].
    + rewrite (nth_error_upd_same _ _ _ _ Hi) in Hj. injection Hj as <-.
      exists (sec, l), r. split; auto. split; auto. cbn [fst snd].
      split; [apply (nth_error_upd_same _ _ _ _ Hp)|]. rewrite (nth_error_upd_same _ _ _ _ Hf).
      reflexivity.
    + rewrite nth_error_upd_neq in Hj by auto. eapply wok_mono; [eauto| |auto].
      intros n Hn. assert (fst e <> n).
      { intros <-. eapply (held_other _ _ _ _ _ j i _ _ (fst e) I0 Hj Hi); auto. simpl. auto. }
      now rewrite !nth_error_upd_neq.
  - intros q Hq. destruct (i_q0 q Hq) as (f & E1 & E2 & _).
    assert (fst e <> fst q).
    { intros E. eapply (held_queue _ _ _ _ _ i _ (fst e) I0 Hi); [simpl; auto|].
      rewrite E. now apply in_map. }
    exists f. rewrite !nth_error_upd_neq by auto. auto.
  - rewrite i_open0. apply Permutation_app_head.
    rewrite (flat_map_upd_same _ _ _ _ (WCache e (shdr_of r), Some (sec, r)) Hi); reflexivity.
  - intros n f Hn. destruct (Nat.eq_dec (fst e) n) as [<-|Hne].
    + left. eapply Permutation_in; [symmetry; apply i_open0|]. apply in_or_app. right.
      apply in_flat_map. exists (WHeader e, None). split; [eapply nth_error_In; eauto|simpl; auto].
    + rewrite nth_error_upd_neq in Hn by auto. eauto.
  - intros n. eapply cache_at_ext; [| |reflexivity|apply i_cache0].
    + intros P. eapply cnt_upd_no_frame; eauto; intros P' n'; reflexivity.
    + eapply stored_upd_no_frame; eauto; intros P' n'; reflexivity.
  - rewrite <- i_out0. apply Permutation_app_head.
    rewrite (flat_map_upd_same _ _ _ _ (WCache e (shdr_of r), Some (sec, r)) Hi); reflexivity.
Qed.

(** *** Steps that replace the frame at hand *)

Lemma inv_put s pend gws done outs i w o w' h fr' file' fresh' (e : tentry) :
  Inv s pend gws done outs -> nth_error gws i = Some (w, o) ->
  held w = [fst e] -> held w' = [fst e] -> carried w = [] -> carried w' = [] ->
  (forall n, n <> sh_frame h -> forall P, in_frame P n w = false /\ in_frame P n w' = false) ->
  (forall n, n <> sh_frame h -> records_of n (partial (w, o)) = [] /\ records_of n (partial (w', o)) = []) ->
  (file' = t_files s \/ exists x, file' = upd (t_files s) (fst e) x) ->
  wok pend file' (map_put (sh_frame h) fr' (t_cache s)) (w', o) ->
  frame_ok done (upd gws i (w', o)) (sh_frame h) fr' ->
  (forall fr, map_get (sh_frame h) (t_cache s) = Some fr -> tf_id fr' = tf_id fr /\ fresh' = t_fresh s) ->
  (map_get (sh_frame h) (t_cache s) = None ->
     tf_id fr' = t_fresh s /\ fresh' = t_fresh s + 1 /\ nsec (sh_frame h) done = 0) ->
  Inv (mkTS file' (t_open s) (t_queue s) (map_put (sh_frame h) fr' (t_cache s)) fresh'
            (upd (t_workers s) i w') (t_out s))
      pend (upd gws i (w', o)) done outs.
Proof.
  intros I Hi Hh Hh' Hc Hc' Hin Hpa Hfile Hwok Hfr Hsome Hnone. pose proof I as I0. destruct I.
  assert (Hge : fresh' = t_fresh s \/ fresh' = t_fresh s + 1).
  { destruct (map_get (sh_frame h) (t_cache s)) as [fr|]; [left; apply (Hsome fr); auto|right; apply Hnone; auto]. }
  constructor; cbn [t_files t_open t_queue t_cache t_fresh t_workers t_out] in *; auto.
  - rewrite map_fst_upd. congruence.
  - assert (E : flat_map act (upd gws i (w', o)) = flat_map act gws)
      by (apply (flat_map_upd_same _ _ _ _ _ Hi); reflexivity). now rewrite E.
  - intros j x Hj. destruct (Nat.eq_dec i j) as [<-|Hne].
    + rewrite (nth_error_upd_same _ _ _ _ Hi) in Hj. injection Hj as <-. auto.
    + rewrite nth_error_upd_neq in Hj by auto. eapply wok_mono; [eauto| |].
      * intros n Hn. split; auto. destruct Hfile as [->|[y ->]]; auto.
        apply nth_error_upd_neq. intros <-.
        eapply (held_other _ _ _ _ _ j i _ _ (fst e) I0 Hj Hi); auto. cbn [fst]. rewrite Hh. simpl; auto.
      * intros st e' h' id _ (fr & Ef & Eid). unfold has_id. rewrite map_get_put by auto.
        destruct (Z.eqb_spec (sh_frame h) (sh_frame h')) as [E|]; [|eauto].
        exists fr'. split; auto. rewrite <- E in Ef. destruct (Hsome fr Ef). congruence.
  - intros q Hq. destruct (i_q0 q Hq) as (f & E1 & E2 & _). exists f. split; auto. split; auto.
    destruct Hfile as [->|[y ->]]; auto. rewrite nth_error_upd_neq; auto. intros E.
    eapply (held_queue _ _ _ _ _ i _ (fst e) I0 Hi); [cbn [fst]; rewrite Hh; simpl; auto|].
    rewrite E. now apply in_map.
  - rewrite i_open0. apply Permutation_app_head.
    rewrite (flat_map_upd_same _ _ _ _ (w', o) Hi); [reflexivity|]. cbn [fst]. congruence.
  - apply map_put_ordered; auto.
  - intros n. rewrite map_get_put by auto. destruct (Z.eqb_spec (sh_frame h) n) as [<-|Hne]; [auto|].
    eapply cache_at_ext; [| |reflexivity|apply i_cache0].
    + intros P. rewrite (cnt_upd _ _ _ _ _ Hi). cbn [fst].
      destruct (Hin n ltac:(congruence) P) as [-> ->]. simpl. lia.
    + apply (flat_map_upd_same _ _ _ _ _ Hi).
      destruct (Hpa n ltac:(congruence)) as [-> ->]. auto.
  - intros n n' fr fr2. rewrite !map_get_put by auto.
    destruct (Z.eqb_spec (sh_frame h) n) as [<-|Hne], (Z.eqb_spec (sh_frame h) n') as [<-|Hne']; auto; intros E1 E2 E3.
    + injection E1 as <-. destruct (map_get (sh_frame h) (t_cache s)) as [fr|] eqn:Eg.
      * destruct (Hsome fr eq_refl) as [E _]. eapply i_ids0; eauto. congruence.
      * destruct (Hnone eq_refl) as [E _]. specialize (i_fresh0 _ _ E2). lia.
    + injection E2 as <-. destruct (map_get (sh_frame h) (t_cache s)) as [fr0|] eqn:Eg.
      * destruct (Hsome fr0 eq_refl) as [E _]. eapply i_ids0; eauto. congruence.
      * destruct (Hnone eq_refl) as [E _]. specialize (i_fresh0 _ _ E1). lia.
    + eapply i_ids0; eauto.
  - intros n fr. rewrite map_get_put by auto. destruct (Z.eqb_spec (sh_frame h) n) as [<-|Hne].
    + intros [= <-]. destruct (map_get (sh_frame h) (t_cache s)) as [fr|] eqn:Eg.
      * destruct (Hsome fr eq_refl) as [-> ->]. eauto.
      * destruct (Hnone eq_refl) as (-> & -> & _). lia.
    + intros E. specialize (i_fresh0 _ _ E). lia.
  - intros n. rewrite map_get_put by auto. rewrite i_outs_in0.
    destruct (Z.eqb_spec (sh_frame h) n) as [<-|Hne]; [|tauto].
    split; [|intros [_ ?]; discriminate]. intros [H4 Hn]. destruct (Hnone Hn) as (_ & _ & H0). lia.
  - rewrite <- i_out0. apply Permutation_app_head.
    rewrite (flat_map_upd_same _ _ _ _ (w', o) Hi); [reflexivity|]. cbn [fst]. congruence.
Qed.

(** *** One sector *)

Lemma stored_swap n gws i x : nth_error gws i = Some x ->
  exists Q, Permutation (stored n gws) (records_of n (partial x) ++ Q) /\
    forall y, Permutation (stored n (upd gws i y)) (records_of n (partial y) ++ Q).
Proof. apply (flat_map_upd (fun x => records_of n (partial x))). Qed.

Lemma contents_step done gws i w sec r :
  trecs_ok g (flat_map act gws ++ done) -> nth_error gws i = Some (w, Some (sec, r)) ->
  exists rs, ~ In sec (map fst rs) /\
    (forall w' q, partial (w', Some (sec, r)) = [(sec, q)] -> s_frame q = s_frame r ->
       assembled g v (records_of (s_frame r) done ++ stored (s_frame r) (upd gws i (w', Some (sec, r)))) =
       assembled g v (rs ++ [(sec, q)])) /\
    (forall w', partial (w', Some (sec, r)) = [] ->
       assembled g v (records_of (s_frame r) done ++ stored (s_frame r) (upd gws i (w', Some (sec, r)))) =
       assembled g v rs) /\
    (forall w', partial (w', None) = [] ->
       assembled g v (records_of (s_frame r) (done ++ [(sec, r)]) ++ stored (s_frame r) (upd gws i (w', None))) =
       assembled g v (rs ++ [(sec, r)])).
Proof.
  intros HO Hi. destruct (stored_swap (s_frame r) gws i _ Hi) as (Q & _ & HQ).
  exists (records_of (s_frame r) done ++ Q).
  assert (HN : forall w', NoDup (map fst (records_of (s_frame r) done ++ stored (s_frame r) (upd gws i (w', Some (sec, r)))))).
  { intros w'. apply contents_nodup.
    rewrite (flat_map_upd_same act gws i _ (w', Some (sec, r)) Hi) by reflexivity. auto. }
  set (wc := WFrame Count (O, 0) (mkShdr 0 0 (0, 0) 0) 0).
  assert (HN0 : NoDup (map fst ((records_of (s_frame r) done ++ Q) ++ [(sec, r)]))).
  { eapply Permutation_NoDup; [|apply (HN wc)]. apply Permutation_map.
    rewrite (HQ (wc, Some (sec, r))). simpl. rewrite Z.eqb_refl.
    rewrite <- app_assoc. apply Permutation_app_head. apply Permutation_app_comm. }
  assert (Hnin : ~ In sec (map fst (records_of (s_frame r) done ++ Q))).
  { rewrite map_app in HN0. apply NoDup_app_inv in HN0 as (_ & _ & D). intros H. apply (D sec); auto. simpl; auto. }
  split; auto. split; [|split].
  - intros w' q Hp Hq. apply assembled_perm; [|apply HN].
    rewrite (HQ (w', Some (sec, r))), Hp. simpl. rewrite Hq, Z.eqb_refl. simpl.
    rewrite <- app_assoc. apply Permutation_app_head. apply (Permutation_app_comm [(sec, q)] Q).
  - intros w' Hp. apply assembled_perm; [|apply HN].
    rewrite (HQ (w', Some (sec, r))), Hp. reflexivity.
  - intros w' Hp. symmetry. apply assembled_perm; [|apply HN0].
    rewrite (HQ (w', None)), Hp. simpl. rewrite records_of_app. simpl. rewrite Z.eqb_refl.
    rewrite <- !app_assoc. apply Permutation_app_head. apply Permutation_app_comm.
Qed.

Lemma stored_nil pend files cache gws n :
  (forall j x, nth_error gws j = Some x -> wok pend files cache x) ->
  cnt (in_frame is_fill n) gws = 0 -> stored n gws = [].
Proof.
  intros Hw Hc. unfold stored.
  assert (H : forall x, In x gws -> records_of n (partial x) = []).
  { intros x Hx. apply In_nth_error in Hx as [j Hj]. specialize (Hw _ _ Hj).
    pose proof (cnt_ge (in_frame is_fill n) gws j x Hj) as Hle. rewrite Hc in Hle.
    destruct x as [w o]. cbn [fst] in Hle.
    destruct w as [| | | | | |st e h id| | |]; auto.
    unfold wok in Hw. cbn [fst snd] in Hw. destruct Hw as [_ Hw].
    cbn [in_frame] in Hle.
    destruct st; cbn [is_collect] in Hw; auto; destruct Hw as [(f & r & -> & -> & _) _];
      cbn [sh_frame shdr_of is_fill partial] in *; rewrite andb_true_r in Hle; simpl;
      destruct (s_frame r =? n); auto; unfold b2z in Hle; lia. }
  induction gws as [|x l IH]; auto. simpl. rewrite H by (now left). simpl. apply IH.
  - intros j y Hj. apply (Hw (S j)). auto.
  - unfold cnt in Hc. simpl in Hc. pose proof (cnt_nonneg (in_frame is_fill n) l). unfold cnt in *.
    unfold b2z at 1 in Hc. destruct (in_frame _ _ (fst x)); lia.
  - intros y Hy. apply H. now right.
Qed.

Lemma full_hdr_eq sec r n : In (sec, r) (all_records fs) -> s_frame r = n ->
  fill_header g v (shdr_of r) (hdr empty_block) = full_hdr n.
Proof.
  intros Hin Hn. unfold full_hdr, numbered_block.
  assert (Hin' : In (sec, r) (records_of n (all_records fs))) by (apply in_records_of; auto).
  destruct (records_of n (all_records fs)) as [|[sec' r'] l] eqn:E; [destruct Hin'|].
  assert (H : In (sec', r') (records_of n (all_records fs))) by (rewrite E; now left).
  apply in_records_of in H as [H Hf]. simpl in Hf.
  destruct (Hsame _ _ Hin H) as (E1 & E2 & E3 & E4); [simpl; congruence|]. cbn [snd] in *.
  unfold fill_header, shdr_of. simpl. congruence.
Qed.

Lemma map_put_same {A} k (a : A) m : ordered m -> map_get k m = Some a -> map_put k a m = m.
Proof.
  unfold ordered. induction m as [|[k' a'] m IH]; simpl; [discriminate|]. intros Ho H.
  apply StronglySorted_inv in Ho as [Ho Hf].
  destruct (Z.eqb_spec k' k) as [->|Hne].
  - injection H as ->. rewrite Z.ltb_irrefl, Z.eqb_refl. auto.
  - destruct (Z.ltb_spec k k').
    + exfalso. apply map_get_in in H; auto. rewrite Forall_forall in Hf.
      specialize (Hf k (in_map fst _ _ H)). lia.
    + destruct (Z.eqb_spec k k'); [congruence|]. now rewrite IH.
Qed.

Lemma px_npix r : wf_srec g r -> Zlen (s_px r) = npix_sector g.
Proof. intros (_ & _ & _ & _ & _ & _ & H & _). pose proof (npix_sector_4 g Hg). lia. Qed.

Lemma skipn_zat l k : 0 <= k < Zlen l -> skipn (Z.to_nat k) l = zat l k :: skipn (Z.to_nat (k + 1)) l.
Proof.
  intros Hk. unfold zat. destruct (Z.ltb_spec k 0); [lia|].
  replace (Z.to_nat (k + 1)) with (S (Z.to_nat k)) by lia.
  assert (Hn : (Z.to_nat k < List.length l)%nat) by (unfold Zlen in Hk; lia).
  revert Hn. generalize (Z.to_nat k). clear. intros n. revert l.
  induction n as [|n IH]; intros [|a l] Hn; simpl in Hn; try lia; [reflexivity|].
  change (skipn (S n) (a :: l)) with (skipn n l). change (skipn (S (S n)) (a :: l)) with (skipn (S n) l).
  apply IH. lia.
Qed.

Lemma upd_id {A} (l : list A) i x : nth_error l i = Some x -> upd l i x = l.
Proof.
  revert i. induction l as [|a l IH]; intros [|i] H; try discriminate; simpl in *.
  - congruence.
  - now rewrite IH.
Qed.

Lemma set_put_same s h fr i w :
  ordered (t_cache s) -> map_get (sh_frame h) (t_cache s) = Some fr ->
  set_worker s i w =
  mkTS (t_files s) (t_open s) (t_queue s) (map_put (sh_frame h) fr (t_cache s)) (t_fresh s)
       (upd (t_workers s) i w) (t_out s).
Proof. intros Ho H. rewrite map_put_same by auto. reflexivity. Qed.

Lemma in_frame_other st st' e h id n :
  n <> sh_frame h -> forall P, in_frame P n (WFrame st e h id) = false /\ in_frame P n (WFrame st' e h id) = false.
Proof. intros Hne P. simpl. destruct (Z.eqb_spec (sh_frame h) n); [congruence|auto]. Qed.

Lemma partial_other st st' e r id sec n :
  n <> s_frame r ->
  records_of n (partial (WFrame st e (shdr_of r) id, Some (sec, r))) = [] /\
  records_of n (partial (WFrame st' e (shdr_of r) id, Some (sec, r))) = [].
Proof.
  intros Hne. destruct (Z.eqb_spec (s_frame r) n) as [E|E]; [congruence|].
  apply Z.eqb_neq in E. split; [destruct st|destruct st']; simpl; auto; now rewrite E.
Qed.

Lemma le2_head x : 0 <= x < 65536 -> le_bytes 2 x = [x mod 256; x / 256] .
Proof. intros H. simpl. f_equal. f_equal. apply Z.mod_small. split; [apply Z.div_pos; lia|apply Z.div_lt_upper_bound; lia]. Qed.

Definition early (st : stage) : Prop := st <> Count /\ st <> Collect.

Lemma inv_stage s pend gws done outs i st e h id o res :
  Inv s pend gws done outs -> nth_error gws i = Some (WFrame st e h id, o) -> early st ->
  frame_step g v s i st e h id = Some res ->
  exists s' w', res = Ok s' /\ Inv s' pend (upd gws i (w', o)) done outs.
Proof.
  intros I Hi [Hst1 Hst2] Hres.
  pose proof (i_wok _ _ _ _ _ I _ _ Hi) as Hw. unfold wok in Hw. cbn [fst snd] in Hw.
  destruct Hw as [(fr & Hget & Hid) Hw].
  assert (Hb : busy pend (t_files s) (fst e) h o (offset st) /\ 0 <= offset st <= npix_sector g)
    by (destruct st; auto; congruence).
  clear Hw. destruct Hb as [Hb Hoff].
  destruct Hb as (f & r & -> & -> & Hpend & Hfile).
  change (sh_frame (shdr_of r)) with (s_frame r) in *.
  destruct (in_all_act _ _ _ _ _ _ _ _ _ I Hi eq_refl) as (HinR & Hwf & Hsec).
  pose proof (px_npix r Hwf) as Hpx.
  pose proof (recs_split _ _ _ _ _ I) as HO.
  pose proof (i_cache _ _ _ _ _ I (s_frame r)) as Hfo. rewrite Hget in Hfo. cbn [cache_at] in Hfo.
  destruct (contents_step done gws i _ (fst f) r HO Hi) as (rs & Hnin & Hc1 & Hc2 & _).
  pose proof (i_ord _ _ _ _ _ I) as Hord.
  unfold frame_step, use_frame in Hres. change (sh_frame (shdr_of r)) with (s_frame r) in Hres.
  rewrite Hget, Hid, Z.eqb_refl in Hres. cbn beta iota zeta in Hres.
  assert (Hcnt : forall P st', cnt (in_frame P (s_frame r)) (upd gws i (WFrame st' e (shdr_of r) id, Some (fst f, r))) =
     cnt (in_frame P (s_frame r)) gws - b2z (P st) + b2z (P st')).
  { intros P st'. rewrite (cnt_upd _ _ _ _ _ Hi). cbn [fst in_frame].
    change (sh_frame (shdr_of r)) with (s_frame r). rewrite Z.eqb_refl. reflexivity. }
  assert (Hge : forall P, P st = true -> 1 <= cnt (in_frame P (s_frame r)) gws).
  { intros P HP. pose proof (cnt_ge (in_frame P (s_frame r)) gws i _ Hi) as H. cbn [fst in_frame] in H.
    change (sh_frame (shdr_of r)) with (s_frame r) in H. rewrite Z.eqb_refl, HP in H. exact H. }
  assert (Hstored : forall st', partial (WFrame st' e (shdr_of r) id, Some (fst f, r)) =
                          partial (WFrame st e (shdr_of r) id, Some (fst f, r)) ->
     stored (s_frame r) (upd gws i (WFrame st' e (shdr_of r) id, Some (fst f, r))) = stored (s_frame r) gws).
  { intros st' E. apply (flat_map_upd_same _ _ _ _ _ Hi). now rewrite E. }
  assert (Hput : forall st' fr' file' x,
     early st' \/ st' = Count ->
     file' = t_files s /\ x = offset st \/
       (exists y, file' = upd (t_files s) (fst e) y /\
         y = (fst f, flat_map (le_bytes 2) (skipn (Z.to_nat x) (s_px r)) ++ flat_map encode_srec (snd f))) ->
     offset st' = x -> 0 <= x <= npix_sector g -> tf_id fr' = id ->
     frame_ok done (upd gws i (WFrame st' e (shdr_of r) id, Some (fst f, r))) (s_frame r) fr' ->
     Inv (mkTS file' (t_open s) (t_queue s) (map_put (s_frame r) fr' (t_cache s)) (t_fresh s)
            (upd (t_workers s) i (WFrame st' e (shdr_of r) id)) (t_out s))
      pend (upd gws i (WFrame st' e (shdr_of r) id, Some (fst f, r))) done outs).
  { intros st' fr' file' x Hst' Hfl Hx Hxr Hid' Hok'.
    apply (inv_put s pend gws done outs i _ _ _ (shdr_of r) fr' file' (t_fresh s) e I Hi); auto.
    - intros n Hn P. apply in_frame_other. auto.
    - intros n Hn. apply partial_other. auto.
    - destruct Hfl as [[-> _]|(y & -> & _)]; eauto.
    - unfold wok. cbn [fst snd]. split.
      + exists fr'. change (sh_frame (shdr_of r)) with (s_frame r). rewrite map_get_put by auto.
        rewrite Z.eqb_refl. auto.
      + assert (Hnc : is_collect st' = false) by (destruct Hst' as [[_ H]|E]; [now destruct st'|now subst]).
        rewrite Hnc, Hx. split; auto. exists f, r. split; auto. split; auto. split; auto.
        destruct Hfl as [[-> ->]|(y & -> & ->)]; auto. apply (nth_error_upd_same _ _ _ _ Hfile).
    - intros fr0 E. change (sh_frame (shdr_of r)) with (s_frame r) in E. split; congruence.
    - intros E. change (sh_frame (shdr_of r)) with (s_frame r) in E. congruence. }
  destruct Hfo as (F1 & F2 & F3 & F4).
  destruct st as [| | | |k| |]; cbn [offset] in *; try congruence; clear Hst1 Hst2.
  - (* Load *)
    destruct (data (tf_block fr)) as [d|] eqn:Ed; injection Hres as <-.
    + destruct F4 as (F4 & F5 & F6).
      eexists _, _. split; [reflexivity|].
      rewrite (set_put_same s (shdr_of r) fr) by auto.
      apply (Hput (Fill 0) fr (t_files s) 0); [left; split; discriminate|auto|reflexivity|lia|auto|].
      unfold frame_ok. rewrite !Hcnt, Ed. simpl.
      rewrite (Hc1 (WFrame (Fill 0) e (shdr_of r) id) (trunc 0 r) eq_refl eq_refl), assembled_trunc0 by auto.
      rewrite <- (Hc2 (WFrame Load e (shdr_of r) id) eq_refl), (upd_id _ _ _ Hi).
      repeat split; auto; lia.
    + destruct F4 as (F4 & F5 & F6).
      eexists _, _. split; [reflexivity|].
      rewrite (set_put_same s (shdr_of r) fr) by auto.
      apply (Hput Lock fr (t_files s) 0); [left; split; discriminate|auto|reflexivity|lia|auto|].
      unfold frame_ok. rewrite !Hcnt, Ed. simpl.
      replace (cnt (in_frame is_store (s_frame r)) gws - 0 + 0) with (cnt (in_frame is_store (s_frame r)) gws) by lia.
      repeat split; auto; lia.
  - (* Lock *)
    destruct (tf_locked fr) eqn:El; [discriminate|]. injection Hres as <-.
    eexists _, _. split; [reflexivity|].
    apply (Hput Alloc (mkTF id (tf_block fr) (tf_count fr) true) (t_files s) 0); [left; split; discriminate|auto|reflexivity|lia|auto|].
    unfold frame_ok. rewrite !Hcnt. cbn [tf_count tf_locked tf_block]. simpl in *.
    rewrite Hstored by reflexivity.
    pose proof (cnt_nonneg (in_frame is_alloc (s_frame r)) gws).
    pose proof (cnt_nonneg (in_frame is_store (s_frame r)) gws).
    replace (cnt (in_frame is_store (s_frame r)) gws - 0 + 0) with (cnt (in_frame is_store (s_frame r)) gws) by lia.
    split; auto. split; [lia|]. split; [lia|].
    destruct (data (tf_block fr)); [exact F4|]. destruct F4 as (F4 & F5 & F6). repeat split; auto; lia.
  - (* Alloc *)
    specialize (Hge is_alloc eq_refl).
    assert (El : tf_locked fr = true /\ cnt (in_frame is_alloc (s_frame r)) gws = 1 /\
                 cnt (in_frame is_store (s_frame r)) gws = 0).
    { pose proof (cnt_nonneg (in_frame is_store (s_frame r)) gws). unfold b2z in F2.
      destruct (tf_locked fr); [split; auto; lia|lia]. }
    destruct El as (El & Ea & Es).
    destruct (data (tf_block fr)) as [d|] eqn:Ed; injection Hres as <-.
    + destruct F4 as (F4 & F5 & F6).
      eexists _, _. split; [reflexivity|].
      apply (Hput (Fill 0) (mkTF id (tf_block fr) (tf_count fr) false) (t_files s) 0); [left; split; discriminate|auto|reflexivity|lia|auto|].
      unfold frame_ok. rewrite !Hcnt. cbn [tf_count tf_locked tf_block]. rewrite Ed. simpl.
      rewrite (Hc1 (WFrame (Fill 0) e (shdr_of r) id) (trunc 0 r) eq_refl eq_refl), assembled_trunc0 by auto.
      rewrite <- (Hc2 (WFrame Alloc e (shdr_of r) id) eq_refl), (upd_id _ _ _ Hi).
      repeat split; auto; lia.
    + destruct F4 as (F4 & F5 & F6).
      eexists _, _. split; [reflexivity|].
      apply (Hput Store _ (t_files s) 0); [left; split; discriminate|auto|reflexivity|lia|auto|].
      unfold frame_ok. rewrite !Hcnt. cbn [tf_count tf_locked tf_block data hdr]. simpl.
      rewrite Es in *. cbn [Z.eqb] in F6. rewrite F6.
      split; auto. split; [lia|]. split; [lia|]. split; [lia|]. split; [lia|].
      apply (full_hdr_eq (fst f)); auto.
  - (* Store *)
    specialize (Hge is_store eq_refl).
    assert (El : tf_locked fr = true /\ cnt (in_frame is_alloc (s_frame r)) gws = 0 /\
                 cnt (in_frame is_store (s_frame r)) gws = 1).
    { pose proof (cnt_nonneg (in_frame is_alloc (s_frame r)) gws). unfold b2z in F2.
      destruct (tf_locked fr); [split; auto; lia|lia]. }
    destruct El as (El & Ea & Es). injection Hres as <-.
    destruct (data (tf_block fr)) as [d|] eqn:Ed; [destruct F4 as (F4 & _); lia|].
    destruct F4 as (F4 & F5 & F6). rewrite Es in F6. cbn [Z.eqb] in F6.
    eexists _, _. split; [reflexivity|].
    apply (Hput (Fill 0) _ (t_files s) 0); [left; split; discriminate|auto|reflexivity|lia|auto|].
    unfold frame_ok. rewrite !Hcnt. cbn [tf_count tf_locked tf_block data hdr]. simpl.
    rewrite (Hc1 (WFrame (Fill 0) e (shdr_of r) id) (trunc 0 r) eq_refl eq_refl), assembled_trunc0 by auto.
    rewrite <- (Hc2 (WFrame Store e (shdr_of r) id) eq_refl), (upd_id _ _ _ Hi).
    rewrite (stored_nil pend (t_files s) (t_cache s)) by (auto; apply (i_wok _ _ _ _ _ I)).
    assert (Er : records_of (s_frame r) done = []).
    { unfold nsec, Zlen in F5. destruct (records_of (s_frame r) done); auto. simpl in F5. lia. }
    rewrite Er. cbn [app]. rewrite assembled_nil by auto.
    assert (Eu : u32 (g_w g * g_h g) = g_w g * g_h g).
    { apply u32_id. destruct Hg as (H1 & H2 & _ & _ & H5). unfold is_u32. split; [nia|lia]. }
    rewrite Eu. repeat split; auto; lia.
  - (* Fill *)
    rewrite Hfile in Hres. rewrite sector_size_eq in Hres by auto.
    destruct (Z.leb_spec (npix_sector g) k) as [Hk|Hk].
    + injection Hres as <-. assert (k = npix_sector g) by lia. subst k.
      eexists _, _. split; [reflexivity|].
      rewrite (set_put_same s (shdr_of r) fr) by auto.
      apply (Hput Count fr (t_files s) (npix_sector g)); auto.
      unfold frame_ok. rewrite !Hcnt. simpl. rewrite Hstored.
      2: { simpl. rewrite <- Hpx, trunc_all. reflexivity. }
      repeat split; auto; try lia.
      destruct (data (tf_block fr)).
      * destruct F4 as (F4 & F5 & F6). repeat split; auto; lia.
      * destruct F4 as (F4 & F5 & F6). specialize (Hge is_fill eq_refl). lia.
    + rewrite (skipn_zat (s_px r) k) in Hres by lia. cbn [flat_map] in Hres.
      assert (Hval : 0 <= zat (s_px r) k < 65536).
      { destruct Hwf as (_ & _ & _ & _ & _ & _ & _ & Hall). rewrite Forall_forall in Hall.
        apply Hall. apply zat_in. lia. }
      rewrite le2_head in Hres by auto. cbn [app] in Hres.
      match type of Hres with (if ?c then _ else _) = _ => assert (Hrace : c = false) end.
      { apply not_true_is_false. intros Hr. apply existsb_exists in Hr as (w2 & Hin2 & Hf2).
        unfold others in Hin2. apply in_remove_nth in Hin2 as (j & Hne & Hj).
        rewrite (i_ws _ _ _ _ _ I) in Hj. rewrite nth_error_map' in Hj.
        destruct (nth_error gws j) as [[w3 o3]|] eqn:Ej; [|discriminate]. injection Hj as <-.
        cbn [fst] in Hf2. unfold filling_at in Hf2.
        destruct w3 as [| | | | | |st3 e3 h3 id3| | |]; try discriminate.
        destruct st3 as [| | | |k3| |]; try discriminate.
        destruct (i_wok _ _ _ _ _ I _ _ Ej) as [(fr3 & Hg3 & Hid3) Hb3]. cbn [is_collect offset snd] in Hb3.
        destruct Hb3 as [(f3 & r3 & -> & -> & Hp3 & Hf3) Hk3]. rewrite Hf3 in Hf2.
        apply andb_prop in Hf2 as [Hf2 Ha]. apply andb_prop in Hf2 as [Hidd Hk3'].
        apply Z.eqb_eq in Ha. apply Z.eqb_eq in Hidd. apply Z.ltb_lt in Hk3'.
        rewrite sector_size_eq in Hk3' by auto.
        change (sh_frame (shdr_of r3)) with (s_frame r3) in *.
        assert (Efn : s_frame r3 = s_frame r) by (eapply (i_ids _ _ _ _ _ I); eauto; congruence).
        destruct (in_all_act _ _ _ _ _ _ _ _ _ I Ej eq_refl) as (_ & _ & Hsec3).
        assert (Esec : fst f3 = fst f).
        { destruct (sector_address_ok g Hg v (fst f3) k3 Hv Hsec3 ltac:(lia)) as [_ E1].
          destruct (sector_address_ok g Hg v (fst f) k Hv Hsec ltac:(lia)) as [_ E2].
          rewrite Ha in E1. congruence. }
        destruct HO as [_ HN]. rewrite map_app in HN. apply NoDup_app_inv in HN as (HN & _ & _).
        assert (EQ : map tkey (flat_map act gws) = flat_map (fun x => map tkey (act x)) gws).
        { clear. induction gws as [|x l IH]; auto. simpl. now rewrite map_app, IH. }
        rewrite EQ in HN.
        apply (nodup_upd_neq _ gws i j _ _ (s_frame r, fst f) HN Hi Ej ltac:(congruence)).
        - simpl. auto.
        - simpl. left. unfold tkey. simpl. congruence. }
      rewrite Hrace in Hres. clear Hrace.
      destruct (data (tf_block fr)) as [d|] eqn:Ed.
      2: { destruct F4 as (F4 & _). specialize (Hge is_fill eq_refl). lia. }
      destruct F4 as (F4 & F5 & F6).
      pose proof (Hc1 (WFrame (Fill k) e (shdr_of r) id) (trunc k r) eq_refl eq_refl) as Eold.
      rewrite (upd_id _ _ _ Hi) in Eold.
      destruct (sector_address_ok g Hg v (fst f) k Hv Hsec ltac:(lia)) as [Haddr _].
      unfold block_data in Hres. rewrite Ed in Hres. cbn [bind] in Hres.
      assert (Hrd : rd d (sector_address g v (fst f) k) = Ok (zat d (sector_address g v (fst f) k))).
      { apply rd_zat. rewrite F6, assembled_length by auto. auto. }
      rewrite Hrd in Hres. cbn [bind] in Hres.
      replace (zat (s_px r) k mod 256 + 256 * (zat (s_px r) k / 256)) with (zat (s_px r) k) in Hres
        by (pose proof (Z.div_mod (zat (s_px r) k) 256); lia).
      rewrite F6, Eold, store_assembled in Hres by (auto; lia).
      injection Hres as <-. eexists _, _. split; [reflexivity|].
      apply (Hput (Fill (k + 1)) _ _ (k + 1)); [left; split; discriminate| |reflexivity|lia|reflexivity|].
      * right. eexists. split; reflexivity.
      * unfold frame_ok. rewrite !Hcnt. cbn [tf_count tf_locked tf_block data hdr]. simpl.
        rewrite (Hc1 (WFrame (Fill (k + 1)) e (shdr_of r) id) (trunc (k + 1) r) eq_refl eq_refl).
        repeat split; auto; lia.
Qed.

Lemma cnt_zero P gws : (forall j x, nth_error gws j = Some x -> P (fst x) = false) -> cnt P gws = 0.
Proof.
  unfold cnt. induction gws as [|a l IH]; intros H; simpl; auto.
  rewrite (H O a eq_refl), IH; auto. intros j x Hj. apply (H (S j)). auto.
Qed.

Lemma inv_cache_step s pend gws done outs i e h o :
  Inv s pend gws done outs -> nth_error gws i = Some (WCache e h, o) ->
  exists id fr', Inv (mkTS (t_files s) (t_open s) (t_queue s) (map_put (sh_frame h) fr' (t_cache s))
         (match map_get (sh_frame h) (t_cache s) with Some _ => t_fresh s | None => t_fresh s + 1 end)
         (upd (t_workers s) i (WFrame Load e h id)) (t_out s))
      pend (upd gws i (WFrame Load e h id, o)) done outs /\
    match map_get (sh_frame h) (t_cache s) with
    | Some fr => fr' = fr /\ id = tf_id fr
    | None => fr' = new_tframe (t_fresh s) /\ id = t_fresh s
    end.
Proof.
  intros I Hi. pose proof (i_wok _ _ _ _ _ I _ _ Hi) as Hw. unfold wok in Hw. cbn [fst snd] in Hw.
  destruct Hw as (f & r & -> & -> & Hpend & Hfile). change (sh_frame (shdr_of r)) with (s_frame r).
  pose proof (i_cache _ _ _ _ _ I (s_frame r)) as Hfo.
  pose proof (act_lt _ _ _ _ _ _ _ _ _ I Hi eq_refl) as H3.
  pose proof (i_ord _ _ _ _ _ I) as Hord.
  set (o0 := map_get (s_frame r) (t_cache s)) in *.
  exists (match o0 with Some fr => tf_id fr | None => t_fresh s end),
         (match o0 with Some fr => fr | None => new_tframe (t_fresh s) end).
  split; [|destruct o0; auto].
  set (id := match o0 with Some fr => tf_id fr | None => t_fresh s end).
  assert (Hcnt : forall P, P Load = false ->
     cnt (in_frame P (s_frame r)) (upd gws i (WFrame Load e (shdr_of r) id, Some (fst f, r))) =
     cnt (in_frame P (s_frame r)) gws).
  { intros P HP. rewrite (cnt_upd _ _ _ _ _ Hi). cbn [fst in_frame]. rewrite HP, andb_false_r. simpl. lia. }
  apply (inv_put s pend gws done outs i _ _ _ (shdr_of r) _ (t_files s) _ e I Hi); auto.
  - intros n Hn P. split; auto. simpl in *. destruct (Z.eqb_spec (s_frame r) n); [congruence|auto].
  - unfold wok. cbn [fst snd is_collect offset]. split.
    + eexists. rewrite map_get_put by auto. change (sh_frame (shdr_of r)) with (s_frame r). rewrite Z.eqb_refl.
      split; [reflexivity|]. unfold id. destruct o0; auto.
    + split; [|pose proof (npix_sector_4 g Hg); destruct Hg as (? & ? & _); nia].
      exists f, r. auto.
  - unfold frame_ok. change (sh_frame (shdr_of r)) with (s_frame r). rewrite !Hcnt by auto.
    replace (stored (s_frame r) (upd gws i (WFrame Load e (shdr_of r) id, Some (fst f, r))))
      with (stored (s_frame r) gws) by (symmetry; apply (flat_map_upd_same _ _ _ _ _ Hi); reflexivity).
    fold o0. clear Hcnt. destruct o0 as [fr|] eqn:Eo.
    + exact Hfo.
    + cbn [cache_at] in Hfo.
      assert (Hz : forall P, cnt (in_frame P (s_frame r)) gws = 0).
      { intros P. apply cnt_zero. intros j [w o] Hj. cbn [fst].
        destruct w as [| | | | | |st2 e2 h2 id2| | |]; auto. cbn [in_frame].
        destruct (Z.eqb_spec (sh_frame h2) (s_frame r)) as [E|]; auto.
        destruct (i_wok _ _ _ _ _ I _ _ Hj) as [(fr & Hg2 & _) _]. rewrite E in Hg2. unfold o0 in Eo. congruence. }
      rewrite !Hz. simpl. unfold b2z.
      destruct (Z.eqb_spec (nsec (s_frame r) done) 4); lia || (repeat split; lia).
  - intros fr E. change (sh_frame (shdr_of r)) with (s_frame r) in *. fold o0 in E |- *. rewrite E. auto.
  - intros E. change (sh_frame (shdr_of r)) with (s_frame r) in *. fold o0 in E |- *. rewrite E. simpl.
    split; auto. split; auto. fold o0 in Hfo. rewrite E in Hfo. cbn [cache_at] in Hfo. lia.
Qed.

Lemma inv_count s pend gws done outs i e h id o fr w' :
  Inv s pend gws done outs -> nth_error gws i = Some (WFrame Count e h id, o) ->
  map_get (sh_frame h) (t_cache s) = Some fr -> tf_id fr = id ->
  w' = (if tf_count fr + 1 =? 4 then WFrame Collect e h id else WPush e None) ->
  exists sec r, o = Some (sec, r) /\
  Inv (set_worker (set_cache s (map_put (sh_frame h) (mkTF id (tf_block fr) (tf_count fr + 1) (tf_locked fr))
                                        (t_cache s))) i w')
      pend (upd gws i (w', None)) (done ++ [(sec, r)]) outs.
Proof.
  intros I Hi Hget Hid Ew.
  pose proof (i_wok _ _ _ _ _ I _ _ Hi) as Hw. unfold wok in Hw. cbn [fst snd is_collect offset] in Hw.
  destruct Hw as [_ [(f & r & -> & -> & Hpend & Hfile) _]].
  change (sh_frame (shdr_of r)) with (s_frame r) in *.
  destruct (in_all_act _ _ _ _ _ _ _ _ _ I Hi eq_refl) as (HinR & Hwf & Hsec).
  pose proof (px_npix r Hwf) as Hpx.
  pose proof (recs_split _ _ _ _ _ I) as HO.
  pose proof (act_lt _ _ _ _ _ _ _ _ _ I Hi eq_refl) as H3.
  destruct (contents_step done gws i _ (fst f) r HO Hi) as (rs & Hnin & Hc1 & _ & Hc3).
  pose proof (i_cache _ _ _ _ _ I (s_frame r)) as Hfo. rewrite Hget in Hfo. cbn [cache_at] in Hfo.
  destruct Hfo as (F1 & F2 & F3 & F4).
  assert (Hge : 1 <= cnt (in_frame is_fill (s_frame r)) gws).
  { pose proof (cnt_ge (in_frame is_fill (s_frame r)) gws i _ Hi) as H. cbn [fst in_frame] in H.
    change (sh_frame (shdr_of r)) with (s_frame r) in H. rewrite Z.eqb_refl in H. exact H. }
  destruct (data (tf_block fr)) as [d|] eqn:Ed; [|destruct F4; lia]. destruct F4 as (F4 & F5 & F6).
  exists (fst f), r. split; auto.
  assert (Hpw : partial (w', None) = []) by (subst w'; destruct (tf_count fr + 1 =? 4); reflexivity).
  assert (Hhw : held w' = [fst e]) by (subst w'; destruct (tf_count fr + 1 =? 4); reflexivity).
  assert (Hcw : carried w' = []) by (subst w'; destruct (tf_count fr + 1 =? 4); reflexivity).
  assert (Hdone' : forall n, records_of n (done ++ [(fst f, r)]) = records_of n done ++ (if s_frame r =? n then [(fst f, r)] else [])).
  { intros n. rewrite records_of_app. f_equal. }
  assert (Hn' : forall n, nsec n (done ++ [(fst f, r)]) = nsec n done + (if s_frame r =? n then 1 else 0)).
  { intros n. rewrite nsec_app, nsec_one. reflexivity. }
  pose proof I as I0. destruct I.
  constructor; cbn [t_files t_open t_queue t_cache t_fresh t_workers t_out set_worker set_cache] in *; auto.
  - rewrite map_fst_upd. congruence.
  - rewrite i_recs0. apply Permutation_app_head.
    destruct (flat_map_upd act gws i _ Hi) as (Q & H1 & H2). rewrite H1, (H2 (w', None)). unfold act. simpl.
    rewrite app_assoc. apply Permutation_cons_append.
  - intros j x Hj. destruct (Nat.eq_dec i j) as [<-|Hne].
    + rewrite (nth_error_upd_same _ _ _ _ Hi) in Hj. injection Hj as <-.
      assert (Hidle : idle pend (t_files s) (fst e) (fun _ => True)).
      { exists f. split; auto. split; auto. rewrite Hfile. unfold encode_sfile. do 2 f_equal.
        rewrite skipn_all2; [reflexivity|]. unfold Zlen in Hpx. lia. }
      subst w'. unfold wok. destruct (tf_count fr + 1 =? 4); cbn [fst snd is_collect]; auto.
      split; auto. eexists. change (sh_frame (shdr_of r)) with (s_frame r).
      rewrite map_get_put, Z.eqb_refl by auto. split; [reflexivity|auto].
    + rewrite nth_error_upd_neq in Hj by auto. eapply wok_mono; [eauto|auto|].
      intros st e' h' id' _ (fr2 & Ef & Eid). unfold has_id. rewrite map_get_put by auto.
      destruct (Z.eqb_spec (s_frame r) (sh_frame h')) as [E|]; [|eauto].
      eexists. split; [reflexivity|]. cbn [tf_id]. rewrite <- E in Ef. congruence.
  - rewrite i_open0. apply Permutation_app_head.
    rewrite (flat_map_upd_same _ _ _ _ (w', None) Hi); [reflexivity|]. cbn [fst]. now rewrite Hhw.
  - apply map_put_ordered; auto.
  - intros n. rewrite map_get_put by auto. destruct (Z.eqb_spec (s_frame r) n) as [<-|Hne].
    + unfold cache_at, frame_ok. cbn [tf_count tf_locked tf_block]. rewrite Ed, Hn', Z.eqb_refl.
      assert (Hcnt : forall P, P Count = false ->
        cnt (in_frame P (s_frame r)) (upd gws i (w', None)) =
        cnt (in_frame P (s_frame r)) gws + b2z (in_frame P (s_frame r) w')).
      { intros P HP. rewrite (cnt_upd _ _ _ _ _ Hi). cbn [fst in_frame]. rewrite HP, andb_false_r. simpl. lia. }
      rewrite !Hcnt by auto. rewrite Hc3 by auto.
      rewrite <- (Hc1 (WFrame Count e (shdr_of r) id) r eq_refl eq_refl), (upd_id _ _ _ Hi).
      rewrite F1 in *. unfold b2z in F3.
      destruct (Z.eqb_spec (nsec (s_frame r) done) 4); [lia|].
      subst w'. destruct (Z.eqb_spec (nsec (s_frame r) done + 1) 4); cbn [in_frame is_alloc is_store is_collect];
        rewrite ?andb_false_r; cbn [b2z];
        change (sh_frame (shdr_of r)) with (s_frame r); rewrite ?Z.eqb_refl; cbn [andb b2z];
        repeat split; auto; lia.
    + assert (Hif : forall P, in_frame P n w' = false).
      { intros P. subst w'. destruct (tf_count fr + 1 =? 4); auto. simpl. destruct (Z.eqb_spec (s_frame r) n); [congruence|auto]. }
      eapply cache_at_ext; [| | |apply i_cache0].
      * intros P. rewrite (cnt_upd _ _ _ _ _ Hi). cbn [fst]. rewrite Hif. simpl.
        destruct (Z.eqb_spec (s_frame r) n); [congruence|]. simpl. lia.
      * apply (flat_map_upd_same _ _ _ _ _ Hi). rewrite Hpw. simpl.
        destruct (Z.eqb_spec (s_frame r) n); [congruence|auto].
      * rewrite Hdone'. destruct (Z.eqb_spec (s_frame r) n); [congruence|]. apply app_nil_r.
  - intros n n' fr1 fr2. rewrite !map_get_put by auto.
    destruct (Z.eqb_spec (s_frame r) n) as [<-|Hne], (Z.eqb_spec (s_frame r) n') as [<-|Hne']; auto; intros E1 E2 E3.
    + injection E1 as <-. cbn [tf_id] in E3. eapply i_ids0; eauto. congruence.
    + injection E2 as <-. cbn [tf_id] in E3. eapply i_ids0; eauto. congruence.
    + eapply i_ids0; eauto.
  - intros n fr1. rewrite map_get_put by auto. destruct (Z.eqb_spec (s_frame r) n) as [<-|Hne]; [|apply i_fresh0].
    intros [= <-]. cbn [tf_id]. rewrite <- Hid. eauto.
  - intros n. rewrite map_get_put by auto. rewrite i_outs_in0, Hn'.
    destruct (Z.eqb_spec (s_frame r) n) as [<-|Hne]; [|rewrite Z.add_0_r; tauto].
    split; [intros [_ E]; congruence|intros [_ E]; discriminate].
  - rewrite <- i_out0. apply Permutation_app_head.
    rewrite (flat_map_upd_same _ _ _ _ (w', None) Hi); [reflexivity|]. cbn [fst]. now rewrite Hcw.
Qed.

Lemma numbered_full s pend gws done outs n : Inv s pend gws done outs -> nsec n done = 4 ->
  mkBlock (full_hdr n) (Some (assembled g v (records_of n done))) =
  numbered_block g v n (records_of n (all_records fs)).
Proof.
  intros I H4. pose proof (i_recs _ _ _ _ _ I) as HP.
  assert (Hp : Permutation (records_of n (all_records fs)) (records_of n done)).
  { pose proof (nsec_le_4 g n _ HR) as Hle. rewrite (nsec_perm _ _ _ HP), !nsec_app in Hle.
    apply (Permutation_filter (fun e => s_frame (snd e) =? n)) in HP.
    change (filter _ (all_records fs)) with (records_of n (all_records fs)) in HP.
    change (filter _ (_ ++ _)) with (records_of n (all_records pend ++ flat_map act gws ++ done)) in HP.
    rewrite !records_of_app in HP. unfold nsec, Zlen in *.
    destruct (records_of n (all_records pend)); [|simpl in Hle; lia].
    destruct (records_of n (flat_map act gws)); [|simpl in Hle; lia]. exact HP. }
  unfold full_hdr, numbered_block.
  destruct (records_of n (all_records fs)) as [|[sec r] l] eqn:E.
  { apply Permutation_nil in Hp. unfold nsec in H4. rewrite Hp in H4. unfold Zlen in H4. simpl in H4. lia. }
  cbn [hdr]. f_equal. f_equal. symmetry. apply assembled_perm; [exact Hp|].
  rewrite <- E. apply tsectors_nodup. apply HR.
Qed.

Lemma inv_collect s pend gws done outs i e h id o fr :
  Inv s pend gws done outs -> nth_error gws i = Some (WFrame Collect e h id, o) ->
  map_get (sh_frame h) (t_cache s) = Some fr -> tf_id fr = id ->
  existsb (filling id) (others i (t_workers s)) = false /\
  Inv (set_worker (set_cache s (map_erase (sh_frame h) (t_cache s))) i (WPush e (Some (tf_block fr))))
      pend (upd gws i (WPush e (Some (tf_block fr)), None)) done (outs ++ [sh_frame h]).
Proof.
  intros I Hi Hget Hid. set (n := sh_frame h) in *.
  pose proof (i_wok _ _ _ _ _ I _ _ Hi) as Hw. unfold wok in Hw. cbn [fst snd is_collect] in Hw.
  destruct Hw as [_ [-> Hidle]].
  pose proof (i_cache _ _ _ _ _ I n) as Hfo. rewrite Hget in Hfo. cbn [cache_at] in Hfo.
  destruct Hfo as (F1 & F2 & F3 & F4).
  assert (Hge : 1 <= cnt (in_frame is_collect n) gws).
  { pose proof (cnt_ge (in_frame is_collect n) gws i _ Hi) as H. cbn [fst in_frame] in H.
    fold n in H. rewrite Z.eqb_refl in H. exact H. }
  assert (H4 : nsec n done = 4).
  { unfold b2z in F3. destruct (Z.eqb_spec (nsec n done) 4); [auto|lia]. }
  destruct (data (tf_block fr)) as [d|] eqn:Ed; [|destruct F4 as (_ & ? & _); lia]. destruct F4 as (F4 & F5 & F6).
  (* nobody else has the frame *)
  assert (Halone : forall j x st e2 h2 id2, nth_error gws j = Some x -> j <> i ->
            fst x = WFrame st e2 h2 id2 -> sh_frame h2 <> n).
  { intros j x st e2 h2 id2 Hj Hne Hx En. destruct x as [w o]. cbn [fst] in Hx. subst w.
    pose proof (i_wok _ _ _ _ _ I _ _ Hj) as Hw. unfold wok in Hw. cbn [fst snd] in Hw. destruct Hw as [_ Hw].
    destruct (is_collect st) eqn:Ec.
    - pose proof (cnt_two (in_frame is_collect n) gws i j _ _ Hi Hj ltac:(auto)) as H. cbn [fst in_frame] in H.
      fold n in H. rewrite En, Z.eqb_refl, Ec in H. unfold b2z in H, F3. simpl in H.
      destruct (nsec n done =? 4); lia.
    - destruct Hw as [(f & r & -> & -> & _) _]. change (sh_frame (shdr_of r)) with (s_frame r) in En.
      pose proof (act_lt _ _ _ _ _ _ _ _ _ I Hj eq_refl). rewrite En in H. lia. }
  assert (Hst : stored n gws = []).
  { unfold stored. assert (H : forall x, In x gws -> records_of n (partial x) = []).
    { intros x Hx. apply In_nth_error in Hx as [j Hj]. destruct x as [w o].
      destruct w as [| | | | | |st2 e2 h2 id2| | |]; auto.
      destruct (Nat.eq_dec j i) as [->|Hne]; [rewrite Hi in Hj; injection Hj as <- <- <- <- <-; reflexivity|].
      pose proof (Halone _ _ _ _ _ _ Hj Hne eq_refl) as Hn.
      pose proof (i_wok _ _ _ _ _ I _ _ Hj) as Hw. unfold wok in Hw. cbn [fst snd] in Hw. destruct Hw as [_ Hw].
      destruct st2; cbn [is_collect] in Hw; auto; destruct Hw as [(f & r & -> & -> & _) _];
        change (sh_frame (shdr_of r)) with (s_frame r) in Hn; simpl;
        destruct (Z.eqb_spec (s_frame r) n); [congruence|auto|congruence|auto]. }
    clear - H. induction gws as [|x l IH]; auto. simpl. rewrite H by (now left). apply IH.
    intros y Hy. apply H. now right. }
  rewrite Hst, app_nil_r in F6.
  assert (Hblk : tf_block fr = numbered_block g v n (records_of n (all_records fs))).
  { rewrite <- (numbered_full _ _ _ _ _ n I H4), <- F6, <- F5, <- Ed. now destruct (tf_block fr). }
  split.
  { apply not_true_is_false. intros Hr. apply existsb_exists in Hr as (w2 & Hin2 & Hf2).
    unfold others in Hin2. apply in_remove_nth in Hin2 as (j & Hne & Hj).
    rewrite (i_ws _ _ _ _ _ I) in Hj. rewrite nth_error_map' in Hj.
    destruct (nth_error gws j) as [x|] eqn:Ej; [|discriminate]. injection Hj as <-.
    unfold filling in Hf2. destruct (fst x) as [| | | | | |st2 e2 h2 id2| | |] eqn:Ex; try discriminate.
    destruct st2; try discriminate. apply Z.eqb_eq in Hf2.
    apply (Halone _ _ _ _ _ _ Ej Hne Ex).
    pose proof (i_wok _ _ _ _ _ I _ _ Ej) as Hw. unfold wok in Hw. rewrite Ex in Hw. destruct Hw as [(fr2 & Hg2 & Hi2) _].
    eapply (i_ids _ _ _ _ _ I); eauto. congruence. }
  assert (Hnin : ~ In n outs).
  { intros H. apply (i_outs_in _ _ _ _ _ I) in H as [_ H]. congruence. }
  pose proof I as I0. destruct I.
  constructor; cbn [t_files t_open t_queue t_cache t_fresh t_workers t_out set_worker set_cache] in *; auto.
  - rewrite map_fst_upd. congruence.
  - rewrite i_recs0. apply Permutation_app_head. apply Permutation_app_tail.
    rewrite (flat_map_upd_same act _ _ _ (WPush e (Some (tf_block fr)), None) Hi); reflexivity.
  - intros j x Hj. destruct (Nat.eq_dec i j) as [<-|Hne].
    + rewrite (nth_error_upd_same _ _ _ _ Hi) in Hj. injection Hj as <-. unfold wok. cbn [fst snd]. auto.
    + rewrite nth_error_upd_neq in Hj by auto. eapply wok_mono; [eauto|auto|].
      intros st e' h' id' Hx (fr2 & Ef & Eid). exists fr2. rewrite map_get_erase by auto.
      pose proof (Halone _ _ _ _ _ _ Hj ltac:(auto) Hx).
      destruct (Z.eqb_spec n (sh_frame h')); [congruence|auto].
  - rewrite i_open0. apply Permutation_app_head.
    rewrite (flat_map_upd_same _ _ _ _ (WPush e (Some (tf_block fr)), None) Hi); reflexivity.
  - apply map_erase_ordered; auto.
  - intros m. rewrite map_get_erase by auto. destruct (Z.eqb_spec n m) as [<-|Hne].
    + right. auto.
    + eapply cache_at_ext; [| |reflexivity|apply i_cache0].
      * intros P. rewrite (cnt_upd _ _ _ _ _ Hi). cbn [fst in_frame].
        fold n. destruct (Z.eqb_spec n m); [congruence|]. simpl. lia.
      * apply (flat_map_upd_same _ _ _ _ _ Hi). reflexivity.
  - intros m m' fr1 fr2. rewrite !map_get_erase by auto.
    destruct (Z.eqb_spec n m); [discriminate|]. destruct (Z.eqb_spec n m'); [discriminate|]. apply i_ids0.
  - intros m fr1. rewrite map_get_erase by auto. destruct (Z.eqb_spec n m); [discriminate|]. apply i_fresh0.
  - apply (Permutation_NoDup (Permutation_cons_append outs n)). constructor; auto.
  - intros m. rewrite map_get_erase by auto. rewrite in_app_iff, i_outs_in0. simpl.
    destruct (Z.eqb_spec n m) as [<-|Hne]; [|intuition congruence].
    split; [intros _; auto|auto].
  - rewrite map_app. simpl. rewrite <- i_out0, <- Hblk.
    destruct (flat_map_upd (fun x => carried (fst x)) gws i _ Hi) as (Q & H1 & H2).
    rewrite H1, (H2 (WPush e (Some (tf_block fr)), None)). simpl.
    rewrite <- app_assoc. apply Permutation_app_head. apply Permutation_cons_append.
Qed.

(** *** Every step *)

Definition ReachInv (s : tstate) : Prop := exists pend gws done outs, Inv s pend gws done outs.

Ltac no_fr := intros ? ?; reflexivity.

Lemma tstep_ok c s res : ReachInv s -> tstep g v c s = Some res ->
  exists s', res = Ok s' /\ ReachInv s'.
Proof.
  intros (pend & gws & done & outs & I) Hstep. destruct c as [i j]. unfold tstep in Hstep.
  destruct (nth_error (t_workers s) i) as [w|] eqn:Hw0; [|discriminate].
  assert (Hi : exists o, nth_error gws i = Some (w, o)).
  { rewrite (i_ws _ _ _ _ _ I), nth_error_map' in Hw0.
    destruct (nth_error gws i) as [[w' o]|]; [|discriminate]. injection Hw0 as ->. eauto. }
  destruct Hi as [o Hi].
  pose proof (i_wok _ _ _ _ _ I _ _ Hi) as Hw. unfold wok in Hw. cbn [fst snd] in Hw.
  (* a move that leaves queue, open files and output alone *)
  assert (Hplain : forall w', no_frame w -> no_frame w' -> wok pend (t_files s) (t_cache s) (w', o) ->
            held w' = held w -> carried w' = carried w -> ReachInv (set_worker s i w')).
  { intros w' H1 H2 H3 H4 H5. exists pend, (upd gws i (w', o)), done, outs.
    destruct s as [fi op q ca fre ws out].
    eapply (inv_move (mkTS fi op q ca fre ws out) pend gws done outs i w o w' q op out I Hi); auto.
    - apply (i_q _ _ _ _ _ I).
    - apply (i_nd _ _ _ _ _ I).
    - rewrite (flat_map_upd_same _ _ _ _ (w', o) Hi); [apply (i_open _ _ _ _ _ I)|]. cbn [fst]. congruence.
    - apply (i_closed _ _ _ _ _ I).
    - rewrite (flat_map_upd_same _ _ _ _ (w', o) Hi); [reflexivity|]. cbn [fst]. congruence. }
  destruct w as [| |e|e|e|e h|st e h id|e b|b|].
  - (* WCheck *)
    destruct (t_open s); injection Hstep as <-; eexists; (split; [reflexivity|]);
      apply Hplain; auto; no_fr.
  - (* WNext *)
    destruct (t_queue s) as [|q0 q] eqn:Eq.
    { injection Hstep as <-. eexists. split; [reflexivity|]. apply Hplain; auto; no_fr. }
    rewrite <- Eq in Hstep. destruct (nth_error (t_queue s) j) as [e|] eqn:Ej; [|discriminate].
    destruct (existsb _ (t_queue s)); [discriminate|]. injection Hstep as <-.
    eexists. split; [reflexivity|]. subst o.
    pose proof (remove_nth_perm _ _ _ Ej) as HP.
    exists pend, (upd gws i (WPeek e, None)), done, outs.
    eapply inv_move; eauto; try no_fr.
    + unfold wok. cbn [fst snd]. split; auto. apply (i_q _ _ _ _ _ I). eapply nth_error_In; eauto.
    + intros e' He'. apply (i_q _ _ _ _ _ I). eapply Permutation_in; [symmetry; apply HP|]. now right.
    + apply (i_nd _ _ _ _ _ I).
    + rewrite (i_open _ _ _ _ _ I). rewrite (Permutation_map fst HP). cbn [map app].
      destruct (flat_map_upd (fun x : gworker => held (fst x)) gws i _ Hi) as (Q & H1 & H2).
      rewrite H1, (H2 (WPeek e, None)). simpl. apply Permutation_middle.
    + apply (i_closed _ _ _ _ _ I).
    + rewrite (flat_map_upd_same _ _ _ _ (WPeek e, None) Hi); reflexivity.
  - (* WPeek *)
    destruct Hw as [-> (f & E1 & E2 & _)]. rewrite E2 in Hstep. unfold encode_sfile in Hstep.
    destruct (snd f) as [|r l] eqn:Ef.
    + injection Hstep as <-. eexists. split; [reflexivity|]. apply Hplain; auto; try no_fr.
      split; auto. exists f. auto.
    + cbn [flat_map] in Hstep. destruct (fold_tl_enc r (flat_map encode_srec l)) as (b0 & t & E).
      rewrite E in Hstep. injection Hstep as <-. eexists. split; [reflexivity|].
      apply Hplain; auto; try no_fr. split; auto. exists f. rewrite Ef. split; auto. split; auto. discriminate.
  - (* WErase *)
    destruct Hw as [-> (f & E1 & E2 & E3)].
    assert (Hin : In (fst e) (t_open s)).
    { eapply Permutation_in; [symmetry; apply (i_open _ _ _ _ _ I)|]. apply in_or_app. right.
      apply in_flat_map. exists (WErase e, None). split; [eapply nth_error_In; eauto|simpl; auto]. }
    assert (Hex : existsb (Nat.eqb (fst e)) (t_open s) = true).
    { apply existsb_exists. exists (fst e). split; auto. apply Nat.eqb_refl. }
    rewrite Hex in Hstep. injection Hstep as <-. eexists. split; [reflexivity|].
    assert (HPo : Permutation (t_open s) (fst e :: filter (fun n => negb (Nat.eqb (fst e) n)) (t_open s))).
    { pose proof (i_nd _ _ _ _ _ I) as HN. clear - Hin HN. induction (t_open s) as [|a l IH]; [destruct Hin|].
      inversion HN as [|? ? Hn HN']; subst. simpl. destruct (Nat.eqb_spec (fst e) a) as [<-|Hne]; simpl.
      - constructor. clear - Hn. induction l as [|b l IH]; auto. simpl in *.
        destruct (Nat.eqb_spec (fst e) b) as [<-|]; [exfalso; auto|]. simpl. constructor. auto.
      - destruct Hin as [->|Hin]; [congruence|]. rewrite (IH Hin HN') at 1. apply perm_swap. }
    exists pend, (upd gws i (WCheck, None)), done, outs.
    eapply inv_move; eauto; try no_fr.
    + reflexivity.
    + apply (i_q _ _ _ _ _ I).
    + pose proof (i_nd _ _ _ _ _ I) as HN. apply (Permutation_NoDup HPo) in HN. now inversion HN.
    + apply (Permutation_cons_inv (a := fst e)). rewrite <- HPo, (i_open _ _ _ _ _ I).
      destruct (flat_map_upd (fun x : gworker => held (fst x)) gws i _ Hi) as (Q & H1 & H2).
      rewrite H1, (H2 (WCheck, None)). simpl. symmetry. apply Permutation_middle.
    + intros n f' Hn. destruct (i_closed _ _ _ _ _ I n f' Hn) as [H|H]; auto.
      destruct (Nat.eq_dec (fst e) n) as [<-|Hne]; [right; congruence|].
      left. apply filter_In. split; auto. destruct (Nat.eqb_spec (fst e) n); [congruence|auto].
    + rewrite (flat_map_upd_same _ _ _ _ (WCheck, None) Hi); reflexivity.
  - (* WHeader *)
    destruct Hw as [-> (f & E1 & E2 & E3)]. rewrite E2 in Hstep.
    destruct f as [sec [|r l]]; cbn [snd] in E3; [congruence|]. rewrite encode_sfile_cons in Hstep.
    assert (Hwf : wf_srec g r).
    { destruct HR as [H _]. apply (H (sec, r)). eapply Permutation_in; [symmetry; apply (i_recs _ _ _ _ _ I)|].
      apply in_or_app. left. unfold all_records. apply in_flat_map. exists (sec, r :: l).
      split; [eapply nth_error_In; eauto|]. simpl. auto. }
    rewrite (sector_header_ok g) in Hstep by auto. injection Hstep as <-.
    eexists. split; [reflexivity|]. eexists _, _, _, _. eapply inv_header; eauto.
  - (* WCache *)
    destruct (inv_cache_step _ _ _ _ _ _ _ _ _ I Hi) as (id & fr' & I' & Hx).
    destruct (map_get (sh_frame h) (t_cache s)) as [fr|] eqn:Eg; destruct Hx as [-> ->];
      injection Hstep as <-; eexists; (split; [reflexivity|]); eexists _, _, _, _.
    + rewrite (set_put_same s h fr) by (auto; apply (i_ord _ _ _ _ _ I)). exact I'.
    + exact I'.
  - (* WFrame *)
    destruct Hw as [(fr & Hget & Hid) _].
    destruct st as [| | | |k| |].
    1-5: destruct (inv_stage _ _ _ _ _ _ _ _ _ _ _ _ I Hi ltac:(split; discriminate) Hstep) as (s' & w' & -> & I');
         eexists; split; [reflexivity|]; eexists _, _, _, _; exact I'.
    + unfold frame_step, use_frame in Hstep. rewrite Hget, Hid, Z.eqb_refl in Hstep.
      destruct (inv_count _ _ _ _ _ _ _ _ _ _ _ _ I Hi Hget Hid eq_refl) as (sec & r & -> & I').
      destruct (tf_count fr + 1 =? 4); injection Hstep as <-; eexists; (split; [reflexivity|]);
        eexists _, _, _, _; exact I'.
    + unfold frame_step, use_frame in Hstep. rewrite Hget, Hid, Z.eqb_refl in Hstep.
      destruct (inv_collect _ _ _ _ _ _ _ _ _ _ _ I Hi Hget Hid) as [Hf I'].
      rewrite Hf in Hstep. injection Hstep as <-. eexists. split; [reflexivity|]. eexists _, _, _, _. exact I'.
  - (* WPush *)
    injection Hstep as <-. eexists. split; [reflexivity|]. destruct Hw as [-> Hidle].
    exists pend, (upd gws i (WCall b, None)), done, outs.
    eapply inv_move; eauto; try no_fr.
    + reflexivity.
    + intros e' He'. apply in_app_or in He' as [He'|[<-|[]]]; [now apply (i_q _ _ _ _ _ I)|auto].
    + apply (i_nd _ _ _ _ _ I).
    + rewrite (i_open _ _ _ _ _ I). rewrite map_app, <- app_assoc. apply Permutation_app_head.
      destruct (flat_map_upd (fun x : gworker => held (fst x)) gws i _ Hi) as (Q & H1 & H2).
      rewrite H1, (H2 (WCall b, None)). reflexivity.
    + apply (i_closed _ _ _ _ _ I).
    + rewrite (flat_map_upd_same _ _ _ _ (WCall b, None) Hi); [reflexivity|]. now destruct b.
  - (* WCall *)
    injection Hstep as <-. eexists. split; [reflexivity|]. subst o.
    exists pend, (upd gws i (WCheck, None)), done, outs.
    eapply inv_move; eauto; try no_fr.
    + reflexivity.
    + apply (i_q _ _ _ _ _ I).
    + apply (i_nd _ _ _ _ _ I).
    + rewrite (i_open _ _ _ _ _ I). apply Permutation_app_head.
      rewrite (flat_map_upd_same _ _ _ _ (WCheck, None) Hi); reflexivity.
    + apply (i_closed _ _ _ _ _ I).
    + destruct (flat_map_upd (fun x : gworker => carried (fst x)) gws i _ Hi) as (Q & H1 & H2).
      rewrite H1, (H2 (WCheck, None)), <- app_assoc. apply Permutation_app_head.
      destruct b; reflexivity.
  - discriminate.
Qed.

Lemma tinit_ok threads : ReachInv (tinit threads (map encode_sfile fs)).
Proof.
  exists fs, (repeat (WCheck, None) threads), [], [].
  assert (Hrep : forall j x, nth_error (repeat (WCheck, None : option (Z * srec)) threads) j = Some x -> x = (WCheck, None)).
  { intros j x H. apply nth_error_In, repeat_spec in H. auto. }
  assert (Hfm : forall B (f : gworker -> list B), f (WCheck, None) = [] -> flat_map f (repeat (WCheck, None) threads) = []).
  { intros B f Hf. induction threads as [|t IH]; auto. simpl. rewrite Hf. apply IH.
    intros j x H. apply (Hrep (S j)). exact H. }
  unfold tinit. constructor; cbn [t_files t_open t_queue t_cache t_fresh t_workers t_out].
  - clear. induction threads; simpl; congruence.
  - rewrite (Hfm _ act eq_refl). simpl. now rewrite app_nil_r.
  - intros j x H. rewrite (Hrep j x H). reflexivity.
  - intros e He. apply in_map_iff in He as (n & <- & Hn). apply in_seq in Hn. rewrite map_length in Hn.
    cbn [fst]. destruct (nth_error fs n) as [f|] eqn:Ef.
    + exists f. split; auto. split; auto. rewrite nth_error_map'. now rewrite Ef.
    + apply nth_error_None in Ef. lia.
  - apply seq_NoDup.
  - rewrite (Hfm _ (fun x => held (fst x)) eq_refl), app_nil_r, map_map. cbn [fst]. now rewrite map_id.
  - intros n f Hn. left. apply in_seq. rewrite map_length.
    assert (n < List.length fs)%nat by (apply nth_error_Some; congruence). lia.
  - constructor.
  - intros n. left. reflexivity.
  - discriminate.
  - discriminate.
  - constructor.
  - intros n. simpl. split; [tauto|]. intros [H _]. discriminate.
  - rewrite (Hfm _ (fun x => carried (fst x)) eq_refl). constructor.
Qed.

Lemma trun_ok cs : forall s res, ReachInv s -> trun g v cs s = Some res ->
  exists s', res = Ok s' /\ ReachInv s'.
Proof.
  induction cs as [|c cs IH]; simpl; intros s res I H.
  - injection H as <-. eauto.
  - destruct (tstep g v c s) as [o|] eqn:E; [|discriminate].
    destruct (tstep_ok _ _ _ I E) as (s1 & -> & I1). eauto.
Qed.

(** *** The end *)

Definition done_open (s : tstate) : Prop := In WDone (t_workers s) -> t_open s = [].

Lemma in_upd {A} (l : list A) i x y : In y (upd l i x) -> y = x \/ In y l.
Proof.
  revert i. induction l as [|a l IH]; intros [|i]; simpl; auto.
  - intros [->|H]; auto.
  - intros [->|H]; auto. destruct (IH i H); auto.
Qed.

Lemma done_open_step c s s' : done_open s -> tstep g v c s = Some (Ok s') -> done_open s'.
Proof.
  intros HD Hs. destruct c as [i j]. unfold tstep in Hs.
  assert (Hkeep : forall fi q ca fre out w', w' <> WDone ->
    done_open (mkTS fi (t_open s) q ca fre (upd (t_workers s) i w') out)).
  { intros fi q ca fre out w' Hw' Hin. cbn [t_workers t_open] in *.
    apply in_upd in Hin as [E|Hin]; [congruence|auto]. }
  destruct (nth_error (t_workers s) i) as [w|] eqn:Ew; [|discriminate].
  destruct w as [| |e|e|e|e h|st e h id|e b|b|].
  - destruct (t_open s) eqn:Eo; injection Hs as <-.
    + intros _. exact Eo.
    + intros Hin. cbn [t_workers t_open set_worker] in *. apply in_upd in Hin as [E|Hin]; [discriminate|].
      apply HD in Hin. congruence.
  - destruct (t_queue s) as [|q0 q] eqn:Eq; [injection Hs as <-; apply Hkeep; discriminate|].
    rewrite <- Eq in Hs. destruct (nth_error (t_queue s) j); [|discriminate].
    destruct (existsb _ _); [discriminate|]. injection Hs as <-. apply Hkeep. discriminate.
  - destruct (nth_error (t_files s) (fst e)) as [[sec [|b0 t]]|]; try discriminate; injection Hs as <-;
      apply Hkeep; discriminate.
  - destruct (existsb _ _); [|discriminate]. injection Hs as <-. intros Hin. cbn [t_workers t_open set_worker] in *.
    apply in_upd in Hin as [E|Hin]; [discriminate|]. rewrite (HD Hin). reflexivity.
  - destruct (nth_error (t_files s) (fst e)) as [[sec rem]|]; [|discriminate].
    destruct (sector_header rem) as [[h rem']| | |]; try discriminate. injection Hs as <-. apply Hkeep. discriminate.
  - destruct (map_get _ _); injection Hs as <-; apply Hkeep; discriminate.
  - unfold frame_step in Hs. destruct (use_frame s h id) as [fr| | |]; try discriminate.
    destruct st.
    + destruct (data _); injection Hs as <-; apply Hkeep; discriminate.
    + destruct (tf_locked fr); [discriminate|]. injection Hs as <-; apply Hkeep; discriminate.
    + destruct (data _); injection Hs as <-; apply Hkeep; discriminate.
    + injection Hs as <-; apply Hkeep; discriminate.
    + destruct (nth_error (t_files s) (fst e)) as [[sec rem]|]; [|discriminate].
      destruct (_ <=? k); [injection Hs as <-; apply Hkeep; discriminate|].
      destruct rem as [|b0 t]; [injection Hs as <-; apply Hkeep; discriminate|].
      destruct (existsb _ _); [discriminate|].
      match type of Hs with match ?m with _ => _ end = _ => destruct m end; try discriminate.
      injection Hs as <-; apply Hkeep; discriminate.
    + destruct (_ =? 4); injection Hs as <-; apply Hkeep; discriminate.
    + destruct (existsb _ _); [discriminate|]. injection Hs as <-; apply Hkeep; discriminate.
  - injection Hs as <-; apply Hkeep; discriminate.
  - injection Hs as <-; apply Hkeep; discriminate.
  - discriminate.
Qed.

Lemma done_open_run cs : forall s s', done_open s -> trun g v cs s = Some (Ok s') -> done_open s'.
Proof.
  induction cs as [|c cs IH]; simpl; intros s s' HD H.
  - injection H as <-. auto.
  - destruct (tstep g v c s) as [[s1| | |]|] eqn:E; try discriminate.
    eapply IH; [|eauto]. eapply done_open_step; eauto.
Qed.

Lemma tstep_workers c s s' : tstep g v c s = Some (Ok s') -> List.length (t_workers s') = List.length (t_workers s).
Proof.
  intros Hs. destruct c as [i j]. unfold tstep in Hs.
  assert (Hkeep : forall fi op q ca fre out w',
    List.length (t_workers (mkTS fi op q ca fre (upd (t_workers s) i w') out)) = List.length (t_workers s)).
  { intros. simpl. apply upd_length. }
  destruct (nth_error (t_workers s) i) as [w|] eqn:Ew; [|discriminate].
  destruct w as [| |e|e|e|e h|st e h id|e b|b|].
  - destruct (t_open s) eqn:Eo; injection Hs as <-; apply Hkeep.
  - destruct (t_queue s) as [|q0 q] eqn:Eq; [injection Hs as <-; apply Hkeep|].
    rewrite <- Eq in Hs. destruct (nth_error (t_queue s) j); [|discriminate].
    destruct (existsb _ _); [discriminate|]. injection Hs as <-. apply Hkeep.
  - destruct (nth_error (t_files s) (fst e)) as [[sec [|b0 t]]|]; try discriminate; injection Hs as <-; apply Hkeep.
  - destruct (existsb _ _); [|discriminate]. injection Hs as <-. apply Hkeep.
  - destruct (nth_error (t_files s) (fst e)) as [[sec rem]|]; [|discriminate].
    destruct (sector_header rem) as [[h rem']| | |]; try discriminate. injection Hs as <-. apply Hkeep.
  - destruct (map_get _ _); injection Hs as <-; apply Hkeep.
  - unfold frame_step in Hs. destruct (use_frame s h id) as [fr| | |]; try discriminate.
    destruct st.
    + destruct (data _); injection Hs as <-; apply Hkeep.
    + destruct (tf_locked fr); [discriminate|]. injection Hs as <-; apply Hkeep.
    + destruct (data _); injection Hs as <-; apply Hkeep.
    + injection Hs as <-; apply Hkeep.
    + destruct (nth_error (t_files s) (fst e)) as [[sec rem]|]; [|discriminate].
      destruct (_ <=? k); [injection Hs as <-; apply Hkeep|].
      destruct rem as [|b0 t]; [injection Hs as <-; apply Hkeep|].
      destruct (existsb _ _); [discriminate|].
      match type of Hs with match ?m with _ => _ end = _ => destruct m end; try discriminate.
      injection Hs as <-; apply Hkeep.
    + destruct (_ =? 4); injection Hs as <-; apply Hkeep.
    + destruct (existsb _ _); [discriminate|]. injection Hs as <-; apply Hkeep.
  - injection Hs as <-; apply Hkeep.
  - injection Hs as <-; apply Hkeep.
  - discriminate.
Qed.

Lemma trun_workers cs : forall s s', trun g v cs s = Some (Ok s') -> List.length (t_workers s') = List.length (t_workers s).
Proof.
  induction cs as [|c cs IH]; simpl; intros s s' H.
  - now injection H as <-.
  - destruct (tstep g v c s) as [[s1| | |]|] eqn:E; try discriminate.
    rewrite (IH _ _ H). eapply tstep_workers; eauto.
Qed.

Lemma final_outs s : ReachInv s -> done_open s -> t_workers s <> [] -> tfinished s = true ->
  exists ns, NoDup ns /\ (forall n, In n ns <-> nsec n (all_records fs) = 4) /\
    Permutation (t_out s) (map (fun n => numbered_block g v n (records_of n (all_records fs))) ns).
Proof.
  intros (pend & gws & done & outs & I) HD Hne Hfin.
  assert (Hall : forall x, In x gws -> x = (WDone, None)).
  { intros [w o] Hx. unfold tfinished in Hfin. rewrite forallb_forall in Hfin.
    assert (Hw : is_done w = true).
    { apply Hfin. rewrite (i_ws _ _ _ _ _ I). apply (in_map fst _ _ Hx). }
    destruct w; try discriminate. apply In_nth_error in Hx as [j Hj].
    pose proof (i_wok _ _ _ _ _ I _ _ Hj) as H. unfold wok in H. simpl in H. congruence. }
  assert (Hopen : t_open s = []).
  { apply HD. unfold tfinished in Hfin. rewrite forallb_forall in Hfin.
    destruct (t_workers s) as [|w l]; [congruence|]. specialize (Hfin w (or_introl eq_refl)).
    destruct w; try discriminate. now left. }
  assert (Hfm : forall B (f : gworker -> list B), f (WDone, None) = [] -> flat_map f gws = []).
  { intros B f Hf. clear - Hall Hf. induction gws as [|x l IH]; auto. simpl. rewrite (Hall x) by (now left).
    rewrite Hf. apply IH. intros y Hy. apply Hall. now right. }
  assert (Hpend : all_records pend = []).
  { unfold all_records. pose proof (i_closed _ _ _ _ _ I) as Hc. rewrite Hopen in Hc.
    assert (H : forall f, In f pend -> snd f = []).
    { intros f Hf. apply In_nth_error in Hf as [n Hn]. destruct (Hc n f Hn) as [[]|]; auto. }
    clear - H. induction pend as [|f l IH]; auto. simpl. rewrite (H f) by (now left). apply IH.
    intros y Hy. apply H. now right. }
  pose proof (i_recs _ _ _ _ _ I) as HP. rewrite Hpend, (Hfm _ act eq_refl) in HP. simpl in HP.
  exists outs. split; [apply (i_outs _ _ _ _ _ I)|]. split.
  - intros n. rewrite (i_outs_in _ _ _ _ _ I), (nsec_perm _ _ _ HP). split; [tauto|]. intros H4. split; auto.
    destruct (map_get n (t_cache s)) as [fr|] eqn:Eg; auto. exfalso.
    pose proof (i_cache _ _ _ _ _ I n) as Hf. rewrite Eg in Hf. destruct Hf as (_ & _ & F3 & _).
    rewrite cnt_zero in F3.
    + rewrite H4 in F3. discriminate.
    + intros j x Hj. rewrite (Hall x) by (eapply nth_error_In; eauto). reflexivity.
  - rewrite <- (i_out _ _ _ _ _ I), (Hfm _ (fun x => carried (fst x)) eq_refl). now rewrite app_nil_r.
Qed.

(** What is still held when the workers are done. *)
Lemma final_cache s : ReachInv s -> done_open s -> t_workers s <> [] -> tfinished s = true ->
  forall n, match map_get n (t_cache s) with
            | Some fr => nsec n (all_records fs) < 4 /\ tf_count fr = nsec n (all_records fs)
            | None => nsec n (all_records fs) = 0 \/ nsec n (all_records fs) = 4
            end.
Proof.
  intros (pend & gws & done & outs & I) HD Hne Hfin.
  assert (Hall : forall x, In x gws -> x = (WDone, None)).
  { intros [w o] Hx. unfold tfinished in Hfin. rewrite forallb_forall in Hfin.
    assert (Hw : is_done w = true).
    { apply Hfin. rewrite (i_ws _ _ _ _ _ I). apply (in_map fst _ _ Hx). }
    destruct w; try discriminate. apply In_nth_error in Hx as [j Hj].
    pose proof (i_wok _ _ _ _ _ I _ _ Hj) as H. unfold wok in H. simpl in H. congruence. }
  assert (Hopen : t_open s = []).
  { apply HD. unfold tfinished in Hfin. rewrite forallb_forall in Hfin.
    destruct (t_workers s) as [|w l]; [congruence|]. specialize (Hfin w (or_introl eq_refl)).
    destruct w; try discriminate. now left. }
  assert (Hfm : forall B (f : gworker -> list B), f (WDone, None) = [] -> flat_map f gws = []).
  { intros B f Hf. clear - Hall Hf. induction gws as [|x l IH]; auto. simpl. rewrite (Hall x) by (now left).
    rewrite Hf. apply IH. intros y Hy. apply Hall. now right. }
  assert (Hpend : all_records pend = []).
  { unfold all_records. pose proof (i_closed _ _ _ _ _ I) as Hc. rewrite Hopen in Hc.
    assert (H : forall f, In f pend -> snd f = []).
    { intros f Hf. apply In_nth_error in Hf as [n Hn]. destruct (Hc n f Hn) as [[]|]; auto. }
    clear - H. induction pend as [|f l IH]; auto. simpl. rewrite (H f) by (now left). apply IH.
    intros y Hy. apply H. now right. }
  pose proof (i_recs _ _ _ _ _ I) as HP. rewrite Hpend, (Hfm _ act eq_refl) in HP. simpl in HP.
  intros n. pose proof (i_cache _ _ _ _ _ I n) as Hf. rewrite (nsec_perm _ _ _ HP).
  destruct (map_get n (t_cache s)) as [fr|]; [|exact Hf].
  destruct Hf as (F1 & _ & F3 & _). split; auto. rewrite cnt_zero in F3.
  - destruct (Z.eqb_spec (nsec n done) 4); [discriminate|].
    pose proof (nsec_le_4 g n _ HR) as H4. rewrite (nsec_perm _ _ _ HP) in H4. lia.
  - intros j x Hj. rewrite (Hall x) by (eapply nth_error_In; eauto). reflexivity.
Qed.

(** Delivered frames, at any time. *)
Lemma out_sound s : ReachInv s ->
  exists ns, NoDup ns /\ (forall n, In n ns -> nsec n (all_records fs) = 4) /\
    exists rest, Permutation (t_out s ++ rest) (map (fun n => numbered_block g v n (records_of n (all_records fs))) ns).
Proof.
  intros (pend & gws & done & outs & I). exists outs. split; [apply (i_outs _ _ _ _ _ I)|]. split.
  - intros n Hn. apply (i_outs_in _ _ _ _ _ I) in Hn as [H4 _].
    pose proof (nsec_le_4 g n _ HR). rewrite (nsec_perm _ _ _ (i_recs _ _ _ _ _ I)), !nsec_app in *.
    pose proof (nsec_nonneg n (all_records pend)). pose proof (nsec_nonneg n (flat_map act gws)). lia.
  - eexists. apply (i_out _ _ _ _ _ I).
Qed.

(** One thread per file. *)
Lemma files_exclusive s i j w1 w2 n : ReachInv s ->
  nth_error (t_workers s) i = Some w1 -> nth_error (t_workers s) j = Some w2 -> i <> j ->
  In n (held w1) -> In n (held w2) -> False.
Proof.
  intros (pend & gws & done & outs & I) Hi Hj Hne H1 H2.
  rewrite (i_ws _ _ _ _ _ I), nth_error_map' in Hi, Hj.
  destruct (nth_error gws i) as [x|] eqn:Ei; [|discriminate]. destruct (nth_error gws j) as [y|] eqn:Ej; [|discriminate].
  injection Hi as <-. injection Hj as <-.
  eapply (held_other _ _ _ _ _ i j x y n I); eauto.
Qed.
End Inv.
