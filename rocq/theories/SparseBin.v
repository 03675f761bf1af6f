(** Binning of a sparse array, and the placement of frames into slots. *)
From Coq Require Import String ZArith List Bool Lia Permutation.
From Verif Require Import Base BaseFacts StemProofs PyProofs SparseModel SparseSpec SparseProofs
  SparseSlice SparseReduce.
Import ListNotations.
Open Scope Z_scope.

Local Arguments Z.mul : simpl never.
Local Arguments Z.add : simpl never.
Local Arguments Z.pow : simpl never.

(** * Loops that fill an array from the left *)
Definition zfrom (j : Z) (n : nat) : list Z := map (fun k => j + Z.of_nat k) (seq 0 n).

Lemma zfrom_S j n : zfrom j (S n) = j :: zfrom (j + 1) n.
Proof.
  unfold zfrom. cbn [seq map]. f_equal; [lia|]. rewrite <- seq_shift, map_map. apply map_ext. intros. lia.
Qed.

Lemma zfrom_0 n : 0 <= n -> zfrom 0 (Z.to_nat n) = zseq n.
Proof. intros _. unfold zfrom, zseq. apply map_ext. intros. lia. Qed.

Lemma fill_from {A} n : forall j off (body : Z -> list A -> outcome (list A)) c d pre m,
  (forall k st, j <= k < j + Z.of_nat n -> body k st = wr st (off + k) (c k)) ->
  Zlen pre = off + j ->
  for_from n j body (pre ++ repeat d (n + m)) = Ok (pre ++ map c (zfrom j n) ++ repeat d m).
Proof.
  induction n as [|n IH]; intros j off body c d pre m H L.
  - reflexivity.
  - cbn [for_from Nat.add repeat]. rewrite H by lia. rewrite <- L, wr_mid. cbn [bind].
    rewrite zfrom_S. cbn [map]. specialize (IH (j + 1) off body c d (pre ++ [c j]) m).
    rewrite <- !app_assoc in IH. cbn [app] in IH. rewrite IH.
    + reflexivity.
    + intros k st Hk. apply H. lia.
    + rewrite Zlen_app. change (Zlen [c j]) with 1. lia.
Qed.

Lemma fill_blocks {A} n : forall i (w : Z) (body : Z -> list A -> outcome (list A)) (c : Z -> list A) d pre,
  0 <= w ->
  (forall k pre m, i <= k < i + Z.of_nat n -> Zlen pre = k * w ->
     body k (pre ++ repeat d (Z.to_nat w + m)) = Ok (pre ++ c k ++ repeat d m) /\ Zlen (c k) = w) ->
  Zlen pre = i * w ->
  for_from n i body (pre ++ repeat d (n * Z.to_nat w)) = Ok (pre ++ concat (map c (zfrom i n))).
Proof.
  induction n as [|n IH]; intros i w body c d pre Hw H L.
  - reflexivity.
  - cbn [for_from Nat.mul]. destruct (H i pre (n * Z.to_nat w)%nat ltac:(lia) L) as [E Lc].
    rewrite E. cbn [bind]. rewrite app_assoc.
    rewrite (IH (i + 1) w body c d (pre ++ c i) Hw).
    + rewrite zfrom_S. cbn [map concat]. now rewrite app_assoc.
    + intros k p m Hk. apply H. lia.
    + rewrite Zlen_app. lia.
Qed.

(** * Binning of scan positions *)
Definition tile (w f i j : Z) : list Z :=
  flat_map (fun a => map (fun b => (i * f + a) * w + (j * f + b)) (zseq f)) (zseq f).

Lemma tile_range h w f i j p :
  0 < f -> 0 <= i < h -> 0 <= j < w -> In p (tile (w * f) f i j) -> 0 <= p < (h * f) * (w * f).
Proof.
  intros Hf Hi Hj H. unfold tile in H. apply in_flat_map in H as [a [Ha H]].
  apply in_map_iff in H as [b [<- Hb]]. apply in_zseq in Ha, Hb.
  apply flat_range; nia.
Qed.

Lemma Zlen_tile w f i j : 0 <= f -> Zlen (tile w f i j) = f * f.
Proof.
  intros Hf. unfold tile.
  assert (G : forall l, Zlen (flat_map (fun a => map (fun b => (i * f + a) * w + (j * f + b)) (zseq f)) l) = Zlen l * f).
  { induction l as [|x t IH]; [reflexivity|]. cbn [flat_map].
    rewrite Zlen_app, IH, Zlen_map, Zlen_zseq, Zlen_cons by lia. lia. }
  rewrite G, Zlen_zseq; lia.
Qed.

Lemma zsum_flat_map {A} (g : A -> Z) (f : Z -> list A) l :
  zsum (map g (flat_map f l)) = zsum (map (fun x => zsum (map g (f x))) l).
Proof.
  induction l as [|x t IH]; [reflexivity|]. cbn [flat_map map zsum]. rewrite map_app, zsum_app. lia.
Qed.

Lemma events_concat rows j : events (concat rows) j = zsum (map (fun r => events r j) rows).
Proof.
  induction rows as [|r t IH]; [reflexivity|]. cbn [concat map zsum]. rewrite events_app. lia.
Qed.

Lemma total_len {A} F (rows : list (list A)) :
  (forall r, In r rows -> Zlen r = F) -> Zlen (concat rows) = Zlen rows * F.
Proof.
  induction rows as [|r t IH]; intros H; [reflexivity|]. cbn [concat].
  rewrite Zlen_app, Zlen_cons, IH by (intros; apply H; now right). rewrite (H r) by now left. lia.
Qed.

Lemma nth_blocks {A} (c : Z -> Z -> A) h w i j d :
  0 <= i < h -> 0 <= j < w ->
  nth (Z.to_nat (i * w + j)) (flat_map (fun i => map (c i) (zseq w)) (zseq h)) d = c i j.
Proof.
  intros Hi Hj.
  assert (G : forall l k, 0 <= k < Zlen l ->
     nth (Z.to_nat (k * w + j)) (flat_map (fun i => map (c i) (zseq w)) l) d = c (zat l k) j).
  { induction l as [|x t IH]; intros k Hk; [cbn in Hk; lia|]. rewrite Zlen_cons in Hk.
    cbn [flat_map]. destruct (Z.eq_dec k 0) as [->|Hk0].
    - rewrite app_nth1 by (rewrite map_length; unfold zseq; rewrite map_length, seq_length; lia).
      rewrite (nth_indep _ d (c x 0)) by (rewrite map_length; unfold zseq; rewrite map_length, seq_length; lia).
      rewrite map_nth. change (zat (x :: t) 0) with x. f_equal.
      pose proof (zat_zseq w j Hj) as Z0. unfold zat in Z0. destruct (Z.ltb_spec j 0); [lia|].
      replace (Z.to_nat (0 * w + j)) with (Z.to_nat j) by lia. exact Z0.
    - rewrite app_nth2 by (rewrite map_length; unfold zseq; rewrite map_length, seq_length; nia).
      rewrite map_length. unfold zseq at 1. rewrite map_length, seq_length.
      replace (Z.to_nat (k * w + j) - Z.to_nat w)%nat with (Z.to_nat ((k - 1) * w + j)) by nia.
      rewrite IH by lia. f_equal. unfold zat.
      destruct (Z.ltb_spec (k - 1) 0), (Z.ltb_spec k 0); try lia.
      replace (Z.to_nat k) with (S (Z.to_nat (k - 1))) by lia. reflexivity. }
  rewrite G by (rewrite Zlen_zseq; lia). now rewrite zat_zseq.
Qed.

Lemma bin_scans_ok sa f h w :
  wf sa -> 0 < f -> sp_scan sa = [h * f; w * f] -> 0 <= h -> 0 <= w ->
  f * f * sp_F sa < 2 ^ sp_bits sa ->
  exists sa', bin_scans sa f = Ok sa' /\ wf sa' /\
    sp_scan sa' = [h; w] /\ sp_frame sa' = sp_frame sa /\
    forall i j, 0 <= i < h -> 0 <= j < w -> forall px,
      events (row_at sa' (i * w + j)) px =
      zsum (map (fun a => zsum (map (fun b => events (row_at sa ((i * f + a) * (w * f) + (j * f + b))) px)
                                    (zseq f))) (zseq f)).
Proof.
  intros W Hf Hs Hh Hw HF. unfold bin_scans.
  destruct (Z.leb_spec f 0); [lia|]. rewrite Hs.
  assert (HP : num_scans sa = (h * f) * (w * f)).
  { unfold num_scans. rewrite Hs. cbn [np_prod fold_right]. lia. }
  cbn [forallb]. rewrite !Z.mod_mul by lia. cbn [Z.eqb andb negb].
  rewrite !Z.div_mul by lia. cbv zeta.
  set (c := fun i j => concat (map (row_at sa) (tile (w * f) f i j))).
  set (body := fun i nd => _).
  assert (E : for_loop h body (repeat [] (Z.to_nat (h * w))) =
              Ok (flat_map (fun i => map (c i) (zseq w)) (zseq h))).
  { unfold for_loop. rewrite Z2Nat.inj_mul by lia.
    rewrite <- (app_nil_l (repeat _ _)).
    rewrite (fill_blocks (Z.to_nat h) 0 w body (fun i => map (c i) (zseq w)) [] []).
    - cbn [app]. rewrite zfrom_0 by lia. now rewrite flat_map_concat_map.
    - lia.
    - intros k pre m Hk L. split; [|now rewrite Zlen_map, Zlen_zseq].
      unfold body, for_loop.
      rewrite (fill_from (Z.to_nat w) 0 (k * w) _ (c k) [] pre m).
      + now rewrite zfrom_0.
      + intros j st Hj. fold (tile (w * f) f k j).
        rewrite (np_take_ok (sp_data sa) (tile (w * f) f k j) []).
        * cbn [bind]. fold (row_at sa). change (fun i => nth (Z.to_nat i) (sp_data sa) []) with (row_at sa).
          rewrite concat_ok.
          -- cbn [bind]. reflexivity.
          -- intros X. apply map_eq_nil in X. pose proof (Zlen_tile (w * f) f k j) as Y.
             rewrite X in Y. cbn in Y. nia.
        * intros p Hp. rewrite (wf_len _ W). fold (num_scans sa). rewrite HP.
          apply (tile_range h w f k j p); auto; lia.
      + lia.
    - reflexivity. }
  rewrite E. cbn [bind]. unfold sparse_init.
  assert (Lc : forall l, Zlen (flat_map (fun i => map (c i) (zseq w)) l) = Zlen l * w).
  { induction l as [|x t IH]; [reflexivity|]. cbn [flat_map].
    rewrite Zlen_app, IH, Zlen_map, Zlen_zseq, Zlen_cons by lia. lia. }
  rewrite Lc, Zlen_zseq by lia. cbn [np_prod fold_right].
  destruct (Z.eqb_spec (h * w) (h * (w * 1))); [|lia].
  eexists; split; [reflexivity|].
  assert (Hrow : forall row, In row (flat_map (fun i => map (c i) (zseq w)) (zseq h)) ->
            exists i j, 0 <= i < h /\ 0 <= j < w /\ row = c i j).
  { intros row Hr. apply in_flat_map in Hr as [i [Hi Hr]]. apply in_map_iff in Hr as [j [<- Hj]].
    apply in_zseq in Hi, Hj. eauto. }
  assert (Hin : forall i j r, 0 <= i < h -> 0 <= j < w -> In r (map (row_at sa) (tile (w * f) f i j)) ->
            In r (sp_data sa)).
  { intros i j r Hi Hj Hr. apply in_map_iff in Hr as [p [<- Hp]]. apply wf_row; [exact W|].
    rewrite HP. apply (tile_range h w f i j p); auto. }
  split; [|split; [reflexivity|split; [reflexivity|]]].
  - constructor; cbn [sp_data sp_F sp_scan sp_frame sp_bits].
    + right. exists h, w. auto.
    + apply (wf_frame _ W).
    + rewrite Lc, Zlen_zseq by lia. cbn [np_prod fold_right]. lia.
    + intros row Hr. apply Hrow in Hr as [i [j [Hi [Hj ->]]]]. unfold c.
      rewrite (total_len (sp_F sa)).
      * rewrite Zlen_map, Zlen_tile by lia. reflexivity.
      * intros r Hr. apply (wf_rows _ W). eauto.
    + pose proof (wf_F _ W). nia.
    + apply (wf_bits _ W).
    + intros row fr Hr Hfr. apply Hrow in Hr as [i [j [Hi [Hj ->]]]]. unfold c in Hfr.
      apply in_concat in Hfr as [r [Hr Hfr]]. apply (wf_frames _ W r); eauto.
  - intros i j Hi Hj px. unfold row_at at 1. cbn [sp_data].
    rewrite (nth_blocks c) by assumption. unfold c. rewrite events_concat, map_map.
    unfold tile. rewrite zsum_flat_map. apply zsum_map_ext. intros a _. now rewrite map_map.
Qed.

(** * Repeated events become extra frames *)
Lemma peel_ok fuel : forall uc,
  NoDup (map fst uc) -> (forall p, In p uc -> snd p <= Z.of_nat fuel) ->
  exists ex, peel fuel uc = Ok ex /\
    (forall l, In l ex -> NoDup l /\ incl l (map fst uc)) /\
    forall k, events ex k = Z.max 0 (uget uc k).
Proof.
  induction fuel as [|fuel IH]; intros uc Hn Hb.
  - assert (E : existsb (fun p => 0 <? snd p) uc = false).
    { destruct (existsb _ uc) eqn:E; [|reflexivity]. apply existsb_exists in E as [p [Hp Hq]].
      apply Hb in Hp. apply Z.ltb_lt in Hq. lia. }
    cbn [peel]. rewrite E. exists []. split; [reflexivity|]. split; [intros l []|].
    intros k. unfold events. cbn [map zsum]. rewrite Z.max_l; [reflexivity|].
    clear -Hb. induction uc as [|[k' c] t IH]; [cbn; lia|]. cbn [uget].
    destruct (k =? k'); [apply (Hb (k', c)); now left|]. apply IH. intros; apply Hb; now right.
  - cbn [peel]. destruct (existsb (fun p => 0 <? snd p) uc) eqn:E.
    + destruct (IH (map (fun p => (fst p, snd p - 1)) uc)) as [ex [E' [P Q]]].
      { rewrite map_map. cbn [fst]. exact Hn. }
      { intros p Hp. apply in_map_iff in Hp as [q [<- Hq]]. apply Hb in Hq. cbn [snd]. lia. }
      rewrite E'. cbn [bind]. eexists; split; [reflexivity|].
      rewrite map_map in P. cbn [fst] in P.
      assert (Hsub : incl (map fst (filter (fun p => 0 <? snd p) uc)) (map fst uc)).
      { intros x Hx. apply in_map_iff in Hx as [p [<- Hp]]. apply filter_In in Hp as [Hp _].
        now apply in_map. }
      assert (Hnd : NoDup (map fst (filter (fun p => 0 <? snd p) uc))).
      { clear -Hn. induction uc as [|[k c] t IH]; [constructor|]. cbn [map fst] in Hn.
        inversion Hn as [|? ? Hk Hn']; subst. cbn [filter snd].
        destruct (0 <? c); [|now apply IH]. cbn [map fst]. constructor; [|now apply IH].
        intros Hi. apply in_map_iff in Hi as [p [Ep Hp]]. apply filter_In in Hp as [Hp _].
        apply Hk. rewrite <- Ep. now apply in_map. }
      split.
      * intros l [<-|Hl]; [split; assumption|now apply P].
      * intros k. unfold events in *. cbn [map zsum]. rewrite Q.
        assert (U : uget (map (fun p => (fst p, snd p - 1)) uc) k =
                    if mem k (map fst uc) then uget uc k - 1 else 0).
        { clear. induction uc as [|[k' c] t IH]; [reflexivity|]. cbn [map fst snd uget].
          unfold mem. cbn [existsb]. fold (mem k (map fst t)).
          destruct (k =? k'); cbn [orb]; [reflexivity|exact IH]. }
        assert (C : cnt (map fst (filter (fun p => 0 <? snd p) uc)) k = if 0 <? uget uc k then 1 else 0).
        { rewrite cnt_nodup by exact Hnd. clear -Hn. induction uc as [|[k' c] t IH]; [reflexivity|].
          cbn [map fst] in Hn. inversion Hn as [|? ? Hk Hn']; subst. cbn [filter snd uget].
          destruct (Z.eqb_spec k k') as [->|Hne].
          - destruct (Z.ltb_spec 0 c).
            + cbn [map fst]. unfold mem. cbn [existsb]. now rewrite Z.eqb_refl.
            + replace (mem k' (map fst (filter (fun p => 0 <? snd p) t))) with false; [reflexivity|].
              symmetry. apply mem_false. intros Hi. apply in_map_iff in Hi as [p [Ep Hp]].
              apply filter_In in Hp as [Hp _]. apply Hk. rewrite <- Ep. now apply in_map.
          - specialize (IH Hn'). destruct (0 <? c); [|exact IH]. cbn [map fst]. unfold mem in *.
            cbn [existsb]. destruct (Z.eqb_spec k k'); [congruence|]. exact IH. }
        rewrite C, U. destruct (mem k (map fst uc)) eqn:M.
        -- destruct (Z.ltb_spec 0 (uget uc k)); lia.
        -- assert (uget uc k = 0) as ->.
           { apply mem_false in M. clear -M. induction uc as [|[k' c] t IH]; [reflexivity|].
             cbn [uget]. cbn [map fst In] in M. destruct (Z.eqb_spec k k'); [subst; tauto|]. apply IH. tauto. }
           reflexivity.
    + exists []. split; [reflexivity|]. split; [intros l []|].
      intros k. unfold events. cbn [map zsum]. rewrite Z.max_l; [reflexivity|].
      clear -E. induction uc as [|[k' c] t IH]; [cbn; lia|]. cbn [existsb snd] in E.
      apply orb_false_iff in E as [E1 E2]. apply Z.ltb_ge in E1. cbn [uget].
      destruct (k =? k'); [exact E1|now apply IH].
Qed.

Lemma cnt_le_len l k : cnt l k <= Zlen l.
Proof.
  unfold cnt, Zlen. induction l as [|x t IH]; [cbn; lia|]. cbn [filter].
  destruct (k =? x); cbn [List.length]; lia.
Qed.

(** The events of a row split over its first and its extra frames. *)
Lemma row_layers row :
  exists ex, peel (List.length row) (map (fun p => (fst p, snd p - 1)) (np_unique_counts row)) = Ok ex /\
    (forall l, In l (ukeys row :: ex) -> NoDup l /\ incl l row) /\
    forall k, events (ukeys row :: ex) k = cnt row k.
Proof.
  destruct (peel_ok (List.length row) (map (fun p => (fst p, snd p - 1)) (np_unique_counts row)))
    as [ex [E [P Q]]].
  { rewrite map_map. cbn [fst]. apply ukeys_nodup. }
  { intros p Hp. apply in_map_iff in Hp as [q [<- Hq]]. cbn [snd]. rewrite uc_eq in Hq.
    apply in_map_iff in Hq as [k [<- _]]. cbn [snd]. pose proof (cnt_le_len row k). unfold Zlen in *. lia. }
  exists ex. split; [exact E|]. rewrite map_map in P. cbn [fst] in P. fold (ukeys row) in P.
  assert (Hi : incl (ukeys row) row) by (intros x Hx; now apply in_ukeys).
  split.
  - intros l [<-|Hl]; [split; [apply ukeys_nodup|exact Hi]|].
    destruct (P l Hl) as [Hn Hc]. split; [exact Hn|]. intros x Hx. apply Hi, Hc, Hx.
  - intros k. unfold events in *. cbn [map zsum]. rewrite Q.
    rewrite cnt_nodup by apply ukeys_nodup.
    assert (U : uget (map (fun p => (fst p, snd p - 1)) (np_unique_counts row)) k =
                if mem k (ukeys row) then cnt row k - 1 else 0).
    { unfold ukeys. rewrite <- (uc_get row k). generalize (np_unique_counts row) as uc.
      induction uc as [|[k' c] t IH]; [reflexivity|]. cbn [map fst snd uget].
      unfold mem. cbn [existsb]. fold (mem k (map fst t)).
      destruct (k =? k'); cbn [orb]; [reflexivity|exact IH]. }
    rewrite U. destruct (mem k (ukeys row)) eqn:M.
    + rewrite mem_in, in_ukeys in M. apply cnt_pos in M. lia.
    + apply mem_false in M. rewrite in_ukeys in M. rewrite (cnt_notin _ _ M). reflexivity.
Qed.

(** Events of value [k] recorded for position [p] in a list of frames with
    their positions. *)
Definition pos_events (l : list (list Z * Z)) (p k : Z) : Z :=
  zsum (map (fun x => if snd x =? p then cnt (fst x) k else 0) l).

Lemma pos_events_app a b p k : pos_events (a ++ b) p k = pos_events a p k + pos_events b p k.
Proof. unfold pos_events. now rewrite map_app, zsum_app. Qed.

Lemma combine_app {A B} (a a' : list A) (b b' : list B) :
  List.length a = List.length b -> combine (a ++ a') (b ++ b') = combine a b ++ combine a' b'.
Proof.
  revert b. induction a as [|x t IH]; intros [|y u] H; try discriminate; [reflexivity|].
  cbn. f_equal. apply IH. cbn in H. lia.
Qed.

Lemma pos_events_const ex q p k :
  pos_events (combine ex (map (fun _ => q) ex)) p k = if q =? p then events ex k else 0.
Proof.
  unfold pos_events, events. induction ex as [|l t IH]; [now destruct (q =? p)|].
  cbn [map combine zsum fst snd]. rewrite IH. destruct (q =? p); lia.
Qed.

Lemma split_duplicates_ok rows positions :
  List.length rows = List.length positions ->
  exists ret extra extra_pos, split_duplicates rows positions = Ok (ret, (extra, extra_pos)) /\
    List.length ret = List.length rows /\ List.length extra = List.length extra_pos /\
    (forall q, In q extra_pos -> In q positions) /\
    (forall l, In l (ret ++ extra) -> exists row, In row rows /\ NoDup l /\ incl l row) /\
    forall p k, pos_events (combine (ret ++ extra) (positions ++ extra_pos)) p k =
                pos_events (combine rows positions) p k.
Proof.
  intros HL. unfold split_duplicates, enumerate, zseq, Zlen. rewrite Nat2Z.id.
  set (body := fun '(i, row) '(ret, (extra, extra_pos)) => _).
  assert (G : forall rows2 pos2 rows1 pos1 ret ex exp,
    List.length rows1 = List.length pos1 -> List.length rows2 = List.length pos2 ->
    List.length ret = List.length rows1 -> List.length ex = List.length exp ->
    (forall q, In q exp -> In q pos1) ->
    (forall l, In l (ret ++ ex) -> exists row, In row rows1 /\ NoDup l /\ incl l row) ->
    (forall p k, pos_events (combine (ret ++ ex) (pos1 ++ exp)) p k = pos_events (combine rows1 pos1) p k) ->
    positions = pos1 ++ pos2 ->
    exists ret' ex' exp',
      for_each (combine (map Z.of_nat (seq (List.length rows1) (List.length rows2))) rows2) body (ret, (ex, exp))
        = Ok (ret', (ex', exp')) /\
      List.length ret' = List.length (rows1 ++ rows2) /\ List.length ex' = List.length exp' /\
      (forall q, In q exp' -> In q (pos1 ++ pos2)) /\
      (forall l, In l (ret' ++ ex') -> exists row, In row (rows1 ++ rows2) /\ NoDup l /\ incl l row) /\
      forall p k, pos_events (combine (ret' ++ ex') ((pos1 ++ pos2) ++ exp')) p k =
                  pos_events (combine (rows1 ++ rows2) (pos1 ++ pos2)) p k).
  { induction rows2 as [|row rows2 IH]; intros pos2 rows1 pos1 ret ex exp H1 H2 H3 H4 HQ HI HS HP.
    - destruct pos2; [|discriminate]. exists ret, ex, exp. rewrite !app_nil_r. cbn. repeat split; auto.
    - destruct pos2 as [|q pos2]; [discriminate|].
      cbn [List.length seq map combine for_each].
      assert (R : rd positions (Z.of_nat (List.length rows1)) = Ok q).
      { rewrite HP, H1. apply rd_mid. }
      destruct (row_layers row) as [e [Ee [Pe Qe]]].
      assert (Eb : body (Z.of_nat (List.length rows1), row) (ret, (ex, exp)) =
                   Ok (ret ++ [ukeys row], (ex ++ e, exp ++ map (fun _ => q) e))).
      { unfold body. rewrite R. cbn [bind]. rewrite Ee. reflexivity. }
      rewrite Eb. cbn [bind].
      destruct (IH pos2 (rows1 ++ [row]) (pos1 ++ [q]) (ret ++ [ukeys row]) (ex ++ e)
                   (exp ++ map (fun _ => q) e)) as [ret' [ex' [exp' [E' [L1 [L2 [L3 [L4 L5]]]]]]]].
      + rewrite !app_length. cbn. lia.
      + cbn in H2. lia.
      + rewrite !app_length. cbn. lia.
      + rewrite !app_length, map_length. lia.
      + intros x Hx. apply in_or_app. apply in_app_or in Hx as [Hx|Hx]; [left; auto|].
        apply in_map_iff in Hx as [? [<- _]]. right. now left.
      + intros l Hl. rewrite !in_app_iff in Hl. cbn [In] in Hl.
        assert (Hc : In l (ret ++ ex) \/ In l (ukeys row :: e)) by (cbn [In]; rewrite in_app_iff; tauto).
        destruct Hc as [Hc|Hc].
        * destruct (HI l Hc) as [r [Hr X]]. exists r. split; [apply in_or_app; now left|exact X].
        * exists row. split; [apply in_or_app; right; now left|]. now apply Pe.
      + intros p k.
        assert (A1 : List.length ret = List.length pos1) by lia.
        specialize (HS p k). specialize (Qe k).
        rewrite <- !app_assoc.
        rewrite (combine_app ret _ pos1) by exact A1.
        cbn [app combine]. rewrite (combine_app rows1 [row] pos1 [q]) by exact H1.
        rewrite (combine_app ret ex pos1 exp) in HS by exact A1.
        rewrite pos_events_app in HS |- *.
        rewrite pos_events_app.
        change (pos_events ((ukeys row, q) :: combine (ex ++ e) (exp ++ map (fun _ => q) e)) p k) with
          ((if q =? p then cnt (ukeys row) k else 0) +
            pos_events (combine (ex ++ e) (exp ++ map (fun _ => q) e)) p k).
        rewrite (combine_app ex e exp) by exact H4. rewrite pos_events_app, pos_events_const.
        change (pos_events (combine [row] [q]) p k) with ((if q =? p then cnt row k else 0) + 0).
        unfold events in Qe. cbn [map zsum] in Qe. fold (events e k) in Qe.
        destruct (q =? p); lia.
      + rewrite HP, <- app_assoc. reflexivity.
      + rewrite <- !app_assoc in L1, L3, L4, L5. cbn [app] in L1, L3, L4, L5.
        exists ret', ex', exp'. split; [|repeat split; auto; now rewrite <- !app_assoc in *].
        rewrite app_length in E'. cbn [List.length] in E'. rewrite Nat.add_1_r in E'. exact E'. }
  destruct (G rows positions [] [] [] [] []) as [ret [ex [exp [E [L1 [L2 [L3 [L4 L5]]]]]]]];
    cbn [app List.length]; auto.
  { intros l []. }
  exists ret, ex, exp. repeat split; auto.
Qed.

(** * Placement into slots *)
Definition at_pos (l : list (list Z * Z)) (p : Z) : list (list Z) :=
  map fst (filter (fun x => snd x =? p) l).

Lemma events_at_pos l p k : events (at_pos l p) k = pos_events l p k.
Proof.
  unfold events, at_pos, pos_events. induction l as [|[d q] t IH]; [reflexivity|].
  cbn [filter map zsum fst snd]. destruct (q =? p); cbn [map zsum fst]; lia.
Qed.

Lemma at_pos_len l p : Zlen (at_pos l p) = cnt (map snd l) p.
Proof.
  unfold at_pos, cnt. rewrite Zlen_map. unfold Zlen. f_equal.
  induction l as [|[d q] t IH]; [reflexivity|]. cbn [filter map snd].
  rewrite (Z.eqb_sym p q). destruct (q =? p); cbn [List.length]; congruence.
Qed.

Lemma first_free_ok {A} (l : list A) n v :
  first_free (map Some l ++ repeat None (S n)) v = map Some (l ++ [v]) ++ repeat None n.
Proof.
  induction l as [|x t IH]; [reflexivity|]. cbn [map app first_free]. now rewrite IH.
Qed.

(** The slots of position [p] once the frames [l] have been placed. *)
Definition slots (per : Z) (l : list (list Z * Z)) (p : Z) : list (option (list Z)) :=
  map Some (at_pos l p) ++ repeat None (Z.to_nat (per - Zlen (at_pos l p))).

Lemma nth_error_eq {A} (l l' : list A) : (forall n, nth_error l n = nth_error l' n) -> l = l'.
Proof.
  revert l'. induction l as [|x t IH]; intros [|y u] H; try reflexivity;
    try (specialize (H O); discriminate).
  pose proof (H O) as H0. cbn in H0. injection H0 as ->. f_equal. apply IH. intros n. apply (H (S n)).
Qed.

Lemma nth_error_zseq n k : (k < Z.to_nat n)%nat -> nth_error (zseq n) k = Some (Z.of_nat k).
Proof.
  intros H. unfold zseq. rewrite (map_nth_error Z.of_nat k (seq 0 (Z.to_nat n)) (d := k)); [reflexivity|].
  rewrite (nth_error_nth' _ O) by now rewrite seq_length. f_equal. now rewrite seq_nth.
Qed.

Lemma zseq_length n : List.length (zseq n) = Z.to_nat n.
Proof. unfold zseq. now rewrite map_length, seq_length. Qed.

Lemma upd_map_zseq {A} (f g : Z -> A) n p :
  0 <= p < n -> (forall q, 0 <= q < n -> q <> p -> g q = f q) ->
  upd (map f (zseq n)) (Z.to_nat p) (g p) = map g (zseq n).
Proof.
  intros Hp H. apply nth_error_eq. intros k.
  destruct (Nat.lt_ge_cases k (Z.to_nat n)) as [Hk|Hk].
  - rewrite (map_nth_error g k (zseq n) (d := Z.of_nat k)) by now apply nth_error_zseq.
    destruct (Nat.eq_dec k (Z.to_nat p)) as [->|Hne].
    + rewrite nth_error_upd_eq by (rewrite map_length, zseq_length; lia). do 2 f_equal. lia.
    + rewrite nth_error_upd_neq by lia.
      rewrite (map_nth_error f k (zseq n) (d := Z.of_nat k)) by now apply nth_error_zseq.
      f_equal. symmetry. apply H; lia.
  - rewrite (proj2 (nth_error_None _ _)) by (rewrite upd_length, map_length, zseq_length; lia).
    symmetry. apply nth_error_None. rewrite map_length, zseq_length. lia.
Qed.

Lemma place_ok num per data positions :
  0 <= num -> List.length data = List.length positions ->
  (forall q, In q positions -> 0 <= q < num) ->
  (forall p, cnt positions p <= per) ->
  place num per data positions =
  Ok (map (fun p => at_pos (combine data positions) p ++
                    repeat [] (Z.to_nat (per - cnt positions p))) (zseq num)).
Proof.
  intros Hn HL HR HC. unfold place.
  assert (Hsnd : map snd (combine data positions) = positions).
  { clear -HL. revert positions HL. induction data as [|d t IH]; intros [|q u] HL; try discriminate; [reflexivity|].
    cbn. f_equal. apply IH. cbn in HL. lia. }
  set (l := combine data positions) in *.
  assert (G : forall l2 l1, l = l1 ++ l2 ->
     for_each l2 (fun '(datum, pos) result =>
         let* p := np_index num pos in
         let* current := rd result p in
         wr result p (first_free current datum)) (map (slots per l1) (zseq num)) =
     Ok (map (slots per l) (zseq num))).
  { induction l2 as [|[d q] l2 IH]; intros l1 El.
    - rewrite app_nil_r in El. now rewrite El.
    - cbn [for_each].
      assert (Hq : 0 <= q < num).
      { apply HR. rewrite <- Hsnd, El, map_app. apply in_or_app. right. now left. }
      rewrite np_index_ok by exact Hq. cbn [bind].
      assert (Lz : Zlen (map (slots per l1) (zseq num)) = num) by (rewrite Zlen_map, Zlen_zseq; lia).
      rewrite (rd_ok _ _ (slots per l1 0)) by (rewrite Lz; exact Hq). cbn [bind].
      rewrite map_nth.
      assert (Enth : nth (Z.to_nat q) (zseq num) 0 = q).
      { pose proof (zat_zseq num q Hq) as Z0. unfold zat in Z0. destruct (Z.ltb_spec q 0); [lia|exact Z0]. }
      rewrite Enth. rewrite wr_ok by (rewrite Lz; exact Hq). cbn [bind].
      assert (Hc : Zlen (at_pos l1 q) + 1 <= per).
      { specialize (HC q). rewrite <- Hsnd, El, map_app, cnt_app in HC. cbn [map snd] in HC.
        rewrite cnt_cons, Z.eqb_refl in HC. rewrite at_pos_len. pose proof (cnt_nonneg (map snd l2) q). lia. }
      pose proof (Zlen_nonneg (at_pos l1 q)).
      assert (Eff : first_free (slots per l1 q) d = slots per (l1 ++ [(d, q)]) q).
      { unfold slots. unfold at_pos at 3 4. rewrite filter_app, map_app. cbn [filter snd].
        rewrite Z.eqb_refl. cbn [map fst]. fold (at_pos l1 q). rewrite Zlen_app. change (Zlen [d]) with 1.
        replace (Z.to_nat (per - Zlen (at_pos l1 q))) with (S (Z.to_nat (per - (Zlen (at_pos l1 q) + 1)))) by lia.
        apply first_free_ok. }
      rewrite Eff. rewrite (upd_map_zseq (slots per l1) (slots per (l1 ++ [(d, q)])) num q Hq).
      + apply IH. rewrite El, <- app_assoc. reflexivity.
      + intros p Hp Hne. unfold slots, at_pos. rewrite filter_app. cbn [filter snd].
        destruct (Z.eqb_spec q p); [congruence|]. now rewrite app_nil_r. }
  assert (E0 : repeat (repeat (@None (list Z)) (Z.to_nat per)) (Z.to_nat num) = map (slots per []) (zseq num)).
  { apply nth_error_eq. intros k. destruct (Nat.lt_ge_cases k (Z.to_nat num)) as [Hk|Hk].
    - rewrite (map_nth_error (slots per []) k (zseq num) (d := Z.of_nat k)) by now apply nth_error_zseq.
      rewrite (nth_error_nth' _ []) by now rewrite repeat_length. f_equal.
      rewrite (repeat_spec (Z.to_nat num) (repeat None (Z.to_nat per)) (nth k _ [])).
      + unfold slots. cbn [at_pos filter map app]. change (@Zlen (list Z) []) with 0. now rewrite Z.sub_0_r.
      + apply nth_In. now rewrite repeat_length.
    - rewrite (proj2 (nth_error_None _ _)) by (rewrite repeat_length; lia).
      symmetry. apply nth_error_None. rewrite map_length, zseq_length. lia. }
  rewrite E0. rewrite (G l [] eq_refl). cbn [bind]. f_equal. rewrite map_map. apply map_ext. intros p.
  unfold slots. rewrite map_app, map_map, map_id, at_pos_len, Hsnd. f_equal.
  induction (Z.to_nat (per - cnt positions p)) as [|n IHn]; [reflexivity|]. cbn [repeat map]. now rewrite IHn.
Qed.

Lemma events_nils n k : events (repeat [] n) k = 0.
Proof. unfold events. induction n; [reflexivity|]. cbn [repeat map zsum]. rewrite IHn. reflexivity. Qed.

Lemma np_max_counts l : l <> [] -> exists m, np_max (map snd (np_unique_counts l)) = Ok m /\
  (forall p, cnt l p <= m) /\ exists p, In p l /\ m = cnt l p.
Proof.
  intros Hl. rewrite uc_snd.
  destruct (np_max_ok (map (cnt l) (ukeys l))) as [m [E [H1 H2]]].
  { destruct l as [|x t]; [congruence|]. intros X. apply map_eq_nil in X.
    assert (In x (ukeys (x :: t))) as Y by (apply in_ukeys; now left). rewrite X in Y. destruct Y. }
  exists m. split; [exact E|].
  apply in_map_iff in H1 as [k [<- Hk]]. rewrite in_ukeys in Hk. split; [|eauto].
  intros p. destruct (mem p l) eqn:M.
  - apply H2. apply in_map, in_ukeys. now apply mem_in.
  - apply mem_false in M. rewrite (cnt_notin _ _ M). apply cnt_nonneg.
Qed.

(** * Binning of frames (square) *)
Definition fbin (n f x : Z) : Z := x / n / f * (n / f) + x mod n / f.

Lemma zsum_indicator0 (g : Z -> Z) n e :
  ~ 0 <= e < n -> zsum (map (fun i => if i =? e then g i else 0) (zseq n)) = 0.
Proof.
  intros H. apply zsum_map_zero. intros i Hi. apply in_zseq in Hi. destruct (Z.eqb_spec i e); [lia|reflexivity].
Qed.

Lemma fbin_cnt m f fr R C :
  0 < f -> 0 < m -> 0 <= R < m -> 0 <= C < m ->
  (forall x, In x fr -> 0 <= x < (m * f) * (m * f)) ->
  cnt (map (fbin (m * f) f) fr) (R * m + C) =
  zsum (map (fun a => zsum (map (fun b => cnt fr ((R * f + a) * (m * f) + (C * f + b))) (zseq f))) (zseq f)).
Proof.
  intros Hf Hm HR HC. induction fr as [|x t IH]; intros Hr.
  - cbn [map]. rewrite zsum_map_zero; [reflexivity|]. intros a _. apply zsum_map_zero. reflexivity.
  - cbn [map]. rewrite cnt_cons, IH by (intros; apply Hr; now right).
    assert (Hx := Hr x (or_introl eq_refl)). clear IH Hr.
    rewrite (zsum_map_ext
      (fun a => zsum (map (fun b => cnt (x :: t) ((R * f + a) * (m * f) + (C * f + b))) (zseq f)))
      (fun a => zsum (map (fun b => if (R * f + a) * (m * f) + (C * f + b) =? x then 1 else 0) (zseq f)) +
                zsum (map (fun b => cnt t ((R * f + a) * (m * f) + (C * f + b))) (zseq f)))).
    2:{ intros a _. rewrite <- zsum_map_add. apply zsum_map_ext. intros b _. apply cnt_cons. }
    rewrite zsum_map_add. f_equal.
    set (n := m * f) in *. assert (Hn : 0 < n) by (unfold n; nia).
    set (r := x / n). set (c := x mod n).
    assert (Hc : 0 <= c < n) by (apply Z.mod_pos_bound; lia).
    assert (Ex : x = r * n + c) by (unfold r, c; pose proof (Z.div_mod x n); nia).
    assert (Hrr : 0 <= r < n) by nia.
    assert (Hdm : n / f = m) by (unfold n; now apply Z.div_mul; lia).
    assert (Efb : fbin n f x = r / f * m + c / f) by (unfold fbin; now rewrite Hdm).
    assert (Hrq : 0 <= r mod f < f) by (apply Z.mod_pos_bound; lia).
    assert (Hcq : 0 <= c mod f < f) by (apply Z.mod_pos_bound; lia).
    assert (Er : r = r / f * f + r mod f) by (pose proof (Z.div_mod r f); nia).
    assert (Ec : c = c / f * f + c mod f) by (pose proof (Z.div_mod c f); nia).
    assert (Hcd : 0 <= c / f < m).
    { split; [apply Z.div_pos; lia|]. apply Z.div_lt_upper_bound; unfold n in Hc; nia. }
    assert (Hrd : 0 <= r / f < m).
    { split; [apply Z.div_pos; lia|]. apply Z.div_lt_upper_bound; unfold n in Hrr; nia. }
    assert (Hu : forall a b, 0 <= a < f -> 0 <= b < f ->
              ((R * f + a) * n + (C * f + b) = x <-> R * f + a = r /\ C * f + b = c)).
    { intros a b Ha Hb. assert (0 <= C * f + b < n) by (unfold n; nia). split; [|intros [-> ->]; lia].
      rewrite Ex. intros E.
      destruct (div_mod_unique_row n (C * f + b) (R * f + a)) as [M1 D1]; [lia|].
      destruct (div_mod_unique_row n c r) as [M2 D2]; [lia|]. rewrite E in M1, D1. lia. }
    rewrite (zsum_map_ext _ (fun a => if a =? r - R * f then
        zsum (map (fun b => if b =? c - C * f then 1 else 0) (zseq f)) else 0)).
    2:{ intros a Ha. apply in_zseq in Ha. destruct (Z.eqb_spec a (r - R * f)) as [Ea|Na].
        - apply zsum_map_ext. intros b Hb. apply in_zseq in Hb. specialize (Hu a b Ha Hb).
          destruct (Z.eqb_spec ((R * f + a) * n + (C * f + b)) x), (Z.eqb_spec b (c - C * f)); try reflexivity; lia.
        - apply zsum_map_zero. intros b Hb. apply in_zseq in Hb. specialize (Hu a b Ha Hb).
          destruct (Z.eqb_spec ((R * f + a) * n + (C * f + b)) x); [lia|reflexivity]. }
    rewrite Efb.
    destruct (Z.eqb_spec (R * m + C) (r / f * m + c / f)) as [Ek|Nk].
    + destruct (div_mod_unique_row m C R) as [M1 D1]; [lia|].
      destruct (div_mod_unique_row m (c / f) (r / f)) as [M2 D2]; [lia|]. rewrite Ek in M1, D1.
      rewrite (zsum_indicator (fun _ => zsum (map (fun b => if b =? c - C * f then 1 else 0) (zseq f)))) by nia.
      rewrite (zsum_indicator (fun _ => 1)) by nia. reflexivity.
    + assert (Hor : ~ 0 <= r - R * f < f \/ ~ 0 <= c - C * f < f).
      { destruct (Z.eq_dec R (r / f)) as [E1|N1]; [|left; nia].
        destruct (Z.eq_dec C (c / f)) as [E2|N2]; [exfalso; apply Nk; now rewrite E1, E2|right; nia]. }
      destruct Hor as [Ho|Ho].
      * symmetry. apply (zsum_indicator0 (fun _ => _)). exact Ho.
      * symmetry. apply zsum_map_zero. intros a _. destruct (a =? r - R * f); [|reflexivity].
        apply (zsum_indicator0 (fun _ => 1)). exact Ho.
Qed.

(** The ravelled data with repeated scan positions. *)
Lemma combine_positions {A} (data : list (list A)) F s :
  (forall row, In row data -> Zlen row = F) ->
  combine (concat data) (flat_map (fun p => repeat p (Z.to_nat F)) (map Z.of_nat (seq s (List.length data)))) =
  flat_map (fun x => map (fun fr => (fr, fst x)) (snd x)) (combine (map Z.of_nat (seq s (List.length data))) data) /\
  List.length (concat data) =
  List.length (flat_map (fun p => repeat p (Z.to_nat F)) (map Z.of_nat (seq s (List.length data)))).
Proof.
  revert s. induction data as [|row t IH]; intros s H; [split; reflexivity|].
  cbn [concat List.length seq map flat_map combine fst snd].
  assert (Lr : List.length row = Z.to_nat F).
  { rewrite <- (H row) by now left. unfold Zlen. now rewrite Nat2Z.id. }
  destruct (IH (S s) (fun r Hr => H r (or_intror Hr))) as [E L].
  split.
  - rewrite combine_app by now rewrite repeat_length. rewrite E. f_equal. rewrite <- Lr.
    clear. induction row as [|x t IH]; [reflexivity|]. cbn. now rewrite IH.
  - rewrite !app_length, repeat_length, Lr, L. reflexivity.
Qed.

Lemma pos_events_rows (g : list Z -> list Z) data s p k :
  pos_events (map (fun x => (g (fst x), snd x))
     (flat_map (fun x => map (fun fr => (fr, fst x)) (snd x)) (combine (map Z.of_nat (seq s (List.length data))) data))) p k =
  (if (Z.of_nat s <=? p) && (p <? Z.of_nat s + Zlen data)
   then events (map g (nth (Z.to_nat p - s) data [])) k else 0).
Proof.
  revert s. induction data as [|row t IH]; intros s.
  - change (Zlen (@nil (list (list Z)))) with 0. rewrite Z.add_0_r.
    destruct (Z.leb_spec (Z.of_nat s) p), (Z.ltb_spec p (Z.of_nat s)); cbn [andb]; try reflexivity. lia.
  - cbn [List.length seq map combine flat_map fst snd]. rewrite map_app, pos_events_app, IH, Zlen_cons.
    assert (E : pos_events (map (fun x => (g (fst x), snd x)) (map (fun fr => (fr, Z.of_nat s)) row)) p k =
                if Z.of_nat s =? p then events (map g row) k else 0).
    { unfold pos_events, events. induction row as [|fr u IHr]; [now destruct (_ =? _)|].
      cbn [map zsum fst snd]. rewrite IHr. destruct (_ =? _); lia. }
    rewrite E. destruct (Z.eqb_spec (Z.of_nat s) p) as [Es|Ns].
    + destruct (Z.leb_spec (Z.of_nat (S s)) p); [lia|]. cbn [andb].
      pose proof (Zlen_nonneg t).
      destruct (Z.leb_spec (Z.of_nat s) p), (Z.ltb_spec p (Z.of_nat s + (1 + Zlen t))); try lia. cbn [andb].
      replace (Z.to_nat p - s)%nat with O by lia. cbn [nth]. lia.
    + destruct (Z.leb_spec (Z.of_nat (S s)) p) as [H1|H1].
      * destruct (Z.leb_spec (Z.of_nat s) p); [|lia]. cbn [andb].
        replace (p <? Z.of_nat s + (1 + Zlen t)) with (p <? Z.of_nat (S s) + Zlen t) by (f_equal; lia).
        destruct (p <? Z.of_nat (S s) + Zlen t); [|lia].
        replace (Z.to_nat p - s)%nat with (S (Z.to_nat p - S s)) by lia. cbn [nth]. lia.
      * cbn [andb]. destruct (Z.leb_spec (Z.of_nat s) p); [lia|]. cbn [andb]. lia.
Qed.

Lemma cnt_positions F P p : 0 <= F ->
  cnt (flat_map (fun p => repeat p (Z.to_nat F)) (zseq P)) p = if (0 <=? p) && (p <? P) then F else 0.
Proof.
  intros HF. unfold cnt.
  assert (G : forall l, NoDup l -> Zlen (filter (Z.eqb p) (flat_map (fun p => repeat p (Z.to_nat F)) l)) =
                        if mem p l then F else 0).
  { induction 1 as [|x t Hx Hn IH]; [reflexivity|]. cbn [flat_map]. rewrite filter_app, Zlen_app, IH.
    assert (E : Zlen (filter (Z.eqb p) (repeat x (Z.to_nat F))) = if p =? x then F else 0).
    { destruct (Z.eqb_spec p x) as [->|Hne].
      - assert (Q : forall k, Zlen (filter (Z.eqb x) (repeat x k)) = Z.of_nat k).
        { induction k as [|k IHk]; [reflexivity|]. cbn [repeat filter]. rewrite Z.eqb_refl, Zlen_cons, IHk. lia. }
        rewrite Q. lia.
      - clear IH. induction (Z.to_nat F) as [|k IHk]; [reflexivity|]. cbn [repeat filter].
        destruct (Z.eqb_spec p x); [congruence|exact IHk]. }
    rewrite E. unfold mem. cbn [existsb]. fold (mem p t). destruct (Z.eqb_spec p x); cbn [orb]; [|lia].
    subst. apply mem_false in Hx. rewrite Hx. lia. }
  rewrite G by apply NoDup_zseq. destruct (mem p (zseq P)) eqn:M.
  - rewrite mem_in, in_zseq in M. destruct (Z.leb_spec 0 p), (Z.ltb_spec p P); try lia. reflexivity.
  - rewrite mem_false, in_zseq in M. destruct (Z.leb_spec 0 p), (Z.ltb_spec p P); try lia; reflexivity.
Qed.

Lemma pos_events_out l p k : (forall x, In x l -> snd x <> p) -> pos_events l p k = 0.
Proof.
  unfold pos_events. intros H. apply zsum_map_zero. intros x Hx. specialize (H x Hx).
  destruct (Z.eqb_spec (snd x) p); [contradiction|reflexivity].
Qed.

Lemma combine_map_l {A B C} (g : A -> C) (l : list A) (r : list B) :
  combine (map g l) r = map (fun x => (g (fst x), snd x)) (combine l r).
Proof. revert r. induction l as [|x t IH]; intros [|y u]; try reflexivity. cbn. now rewrite IH. Qed.

Lemma in_concat_rows {A} (x : A) ls : In x (concat ls) -> exists l, In l ls /\ In x l.
Proof. rewrite in_concat. intros [l [H1 H2]]. eauto. Qed.

Lemma events_cons fr t k : events (fr :: t) k = cnt fr k + events t k.
Proof. reflexivity. Qed.

Lemma fbin_range m f x : 0 < f -> 0 < m -> 0 <= x < (m * f) * (m * f) -> 0 <= fbin (m * f) f x < m * m.
Proof.
  intros Hf Hm Hx. unfold fbin. rewrite Z.div_mul by lia. set (n := m * f) in *.
  assert (Hn : 0 < n) by (unfold n; nia).
  assert (H1 : 0 <= x mod n < n) by (apply Z.mod_pos_bound; lia).
  assert (H2 : 0 <= x / n < n) by (split; [apply Z.div_pos; lia|apply Z.div_lt_upper_bound; nia]).
  assert (H3 : 0 <= x mod n / f < m).
  { split; [apply Z.div_pos; lia|]. apply Z.div_lt_upper_bound; unfold n in H1 |- *; nia. }
  assert (H4 : 0 <= x / n / f < m).
  { split; [apply Z.div_pos; lia|]. apply Z.div_lt_upper_bound; unfold n in H2 |- *; nia. }
  nia.
Qed.

Lemma bin_frames_ok sa f m :
  wf sa -> 0 < f -> 0 < m -> sp_frame sa = [m * f; m * f] ->
  exists sa', bin_frames sa f = Ok sa' /\
    sp_scan sa' = sp_scan sa /\ sp_frame sa' = [m; m] /\ sp_bits sa' = sp_bits sa /\
    sp_slicing sa' = sp_slicing sa /\ sp_full sa' = sp_full sa /\
    (sp_F sa' < 2 ^ sp_bits sa -> wf sa') /\
    forall p, 0 <= p < num_scans sa -> forall R C, 0 <= R < m -> 0 <= C < m ->
      events (row_at sa' p) (R * m + C) =
      zsum (map (fun a => zsum (map (fun b => events (row_at sa p) ((R * f + a) * (m * f) + (C * f + b)))
                                    (zseq f))) (zseq f)).
Proof.
  intros W Hf Hm HF. unfold bin_frames. rewrite HF.
  destruct (Z.leb_spec f 0); [lia|].
  cbn [forallb negb andb]. rewrite Z_mod_mult, Z.eqb_refl. cbn [andb negb].
  set (data := concat (sp_data sa)).
  change (fun x => x / (m * f) / f * (m * f / f) + x mod (m * f) / f) with (fbin (m * f) f).
  set (rows := map (map (fbin (m * f) f)) data).
  set (positions := flat_map _ (zseq (num_scans sa))).
  pose proof (num_scans_nonneg sa W) as HP. pose proof (wf_F sa W) as HF0.
  pose proof (wf_len sa W) as HLen. fold (num_scans sa) in HLen.
  destruct (combine_positions (sp_data sa) (sp_F sa) 0 (wf_rows sa W)) as [Ec El].
  assert (Ez : map Z.of_nat (seq 0 (List.length (sp_data sa))) = zseq (num_scans sa)).
  { unfold zseq. do 2 f_equal. rewrite <- HLen. unfold Zlen. now rewrite Nat2Z.id. }
  rewrite Ez in Ec, El. fold positions in Ec, El. fold data in Ec, El.
  assert (HLr : List.length rows = List.length positions) by (unfold rows; rewrite map_length; exact El).
  destruct (split_duplicates_ok rows positions HLr) as [ret [ex [exp [E [L1 [L2 [Hsub [Hlay Hpos]]]]]]]].
  rewrite E. cbn [bind].
  assert (Hcp : forall p, cnt positions p = if (0 <=? p) && (p <? num_scans sa) then sp_F sa else 0).
  { intros p. apply cnt_positions. lia. }
  assert (Hin : forall q, In q positions -> 0 <= q < num_scans sa).
  { intros q Hq. apply in_flat_map in Hq as [x [Hx Hq]]. apply repeat_spec in Hq. subst. now apply in_zseq. }
  assert (HinN : forall q, In q (positions ++ exp) -> 0 <= q < num_scans sa).
  { intros q Hq. apply in_app_or in Hq as [Hq|Hq]; [now apply Hin|apply Hin, Hsub, Hq]. }
  assert (Hper : exists per, match ex with
                 | [] => Ok (sp_F sa)
                 | _ => np_max (map snd (np_unique_counts (positions ++ exp)))
                 end = Ok per /\ (forall p, cnt (positions ++ exp) p <= per) /\ 0 <= per).
  { destruct ex as [|e ex'].
    - exists (sp_F sa). split; [reflexivity|]. destruct exp; [|discriminate]. rewrite app_nil_r.
      split; [|lia]. intros p. rewrite Hcp. destruct (_ && _); lia.
    - destruct (np_max_counts (positions ++ exp)) as [mx [Em [H1 [p [_ H2]]]]].
      { intros X. apply app_eq_nil in X as [_ X]. subst exp. discriminate. }
      exists mx. split; [exact Em|]. split; [exact H1|]. rewrite H2. apply cnt_nonneg. }
  destruct Hper as [per [Ep [Hper Hper0]]].
  rewrite Ep. cbn [bind].
  assert (Lall : List.length (ret ++ ex) = List.length (positions ++ exp)) by (rewrite !app_length; lia).
  rewrite (place_ok _ _ _ _ HP Lall HinN Hper). cbn [bind]. unfold sparse_init.
  rewrite Zlen_map, Zlen_zseq by exact HP. fold (num_scans sa). rewrite Z.eqb_refl.
  rewrite Z.div_mul by lia.
  set (l := combine (ret ++ ex) (positions ++ exp)) in *.
  set (newrow := fun p => at_pos l p ++ repeat [] (Z.to_nat (per - cnt (positions ++ exp) p))).
  eexists. split; [reflexivity|]. cbn [sp_scan sp_frame sp_bits sp_slicing sp_full sp_F].
  do 5 (split; [reflexivity|]). split.
  - intros Hb. constructor; cbn [sp_scan sp_frame sp_bits sp_slicing sp_full sp_F sp_data].
    + apply (wf_scan sa W).
    + right. exists m, m. repeat split; lia.
    + rewrite Zlen_map, Zlen_zseq by exact HP. reflexivity.
    + intros row Hr. apply in_map_iff in Hr as [p [<- _]]. unfold newrow. rewrite Zlen_app.
      rewrite at_pos_len. replace (map snd l) with (positions ++ exp).
      * pose proof (Hper p). unfold Zlen. rewrite repeat_length. lia.
      * unfold l. clear -Lall. revert Lall. generalize (ret ++ ex) (positions ++ exp).
        induction l as [|d t IH]; intros [|q u] H; try discriminate; [reflexivity|].
        cbn. f_equal. apply IH. cbn in H. lia.
    + lia.
    + apply (wf_bits sa W).
    + intros row fr Hr Hfr. apply in_map_iff in Hr as [p [<- _]]. unfold newrow in Hfr.
      apply in_app_or in Hfr as [Hfr|Hfr].
      * unfold at_pos in Hfr. apply in_map_iff in Hfr as [[d q] [Ed Hd]]. cbn [fst] in Ed. subst d.
        apply filter_In in Hd as [Hd _]. apply in_combine_l in Hd.
        destruct (Hlay fr Hd) as [row [Hrow [Hnd Hincl]]]. split; [exact Hnd|].
        intros x Hx. apply Hincl in Hx. unfold rows in Hrow. apply in_map_iff in Hrow as [fr0 [<- Hfr0]].
        apply in_map_iff in Hx as [y [<- Hy]]. apply in_concat_rows in Hfr0 as [r0 [Hr0 Hfr0]].
        destruct (wf_frames sa W r0 fr0 Hr0 Hfr0) as [_ Hrng]. specialize (Hrng y Hy). rewrite HF in Hrng.
        assert (Hy' : 0 <= y < (m * f) * (m * f)) by (cbn in Hrng; nia).
        replace (np_prod [m; m]) with (m * m) by (cbn; nia). apply fbin_range; assumption.
      * apply repeat_spec in Hfr. subst fr. split; [constructor|intros x []].
  - intros p Hp R C HR HC. unfold row_at. cbn [sp_data].
    rewrite (nth_indep _ [] (newrow 0)) by (rewrite map_length, zseq_length; lia).
    rewrite map_nth.
    assert (Enth : nth (Z.to_nat p) (zseq (num_scans sa)) 0 = p).
    { pose proof (zat_zseq (num_scans sa) p Hp) as Z0. unfold zat in Z0. destruct (Z.ltb_spec p 0); [lia|exact Z0]. }
    rewrite Enth. unfold newrow. rewrite events_app, events_nils, events_at_pos, Z.add_0_r.
    unfold l. rewrite Hpos. unfold rows. rewrite combine_map_l, Ec, <- Ez, pos_events_rows.
    rewrite HLen. change (Z.of_nat 0) with 0. rewrite Z.add_0_l, Nat.sub_0_r.
    destruct (Z.leb_spec 0 p), (Z.ltb_spec p (num_scans sa)); try lia. cbn [andb].
    assert (Hrow : forall fr, In fr (nth (Z.to_nat p) (sp_data sa) []) ->
                   forall x, In x fr -> 0 <= x < (m * f) * (m * f)).
    { intros fr Hfr x Hx.
      destruct (wf_frames sa W (nth (Z.to_nat p) (sp_data sa) []) fr) as [_ Hrng]; [|exact Hfr|].
      - apply nth_In. unfold Zlen in HLen. lia.
      - specialize (Hrng x Hx). rewrite HF in Hrng. cbn in Hrng. nia. }
    set (row := nth (Z.to_nat p) (sp_data sa) []) in *. clearbody row. clear - Hrow Hf Hm HR HC.
    induction row as [|fr t IH].
    + cbn [map]. symmetry. apply zsum_map_zero. intros a _. apply zsum_map_zero. reflexivity.
    + cbn [map]. rewrite events_cons, IH by (intros; apply (Hrow fr0); [now right|assumption]).
      rewrite (fbin_cnt m f fr R C Hf Hm HR HC (Hrow fr (or_introl eq_refl))).
      rewrite <- zsum_map_add. apply zsum_map_ext. intros a _. rewrite <- zsum_map_add.
      apply zsum_map_ext. intros b _. rewrite events_cons. reflexivity.
Qed.
