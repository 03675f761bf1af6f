(** The reductions of a sparse array against those of its expansion. *)
From Coq Require Import String ZArith List Bool Lia Permutation.
From Verif Require Import Base BaseFacts StemProofs PyProofs SparseModel SparseSpec SparseProofs SparseSlice.
Import ListNotations.
Open Scope Z_scope.

Local Arguments Z.mul : simpl never.
Local Arguments Z.add : simpl never.
Local Arguments Z.pow : simpl never.

Lemma list_as_nth {A} (d : A) (l : list A) :
  l = map (fun p => nth (Z.to_nat p) l d) (zseq (Zlen l)).
Proof.
  unfold zseq, Zlen. rewrite Nat2Z.id, map_map.
  rewrite (map_ext _ (fun k => nth k l d)) by (intros; now rewrite Nat2Z.id).
  induction l as [|x t IH]; [reflexivity|]. cbn [List.length seq map nth]. f_equal.
  rewrite <- seq_shift, map_map. exact IH.
Qed.

Lemma data_rows sa : wf sa -> sp_data sa = map (row_at sa) (zseq (num_scans sa)).
Proof.
  intros W. unfold row_at, num_scans. rewrite <- (wf_len _ W). apply list_as_nth.
Qed.

Lemma zat_zseq n i : 0 <= i < n -> zat (zseq n) i = i.
Proof. intros H. rewrite <- (map_id (zseq n)). now apply zat_map_zseq. Qed.

Lemma along_scan_dense sa j :
  wf sa -> 0 <= j < frame_size sa ->
  along_scan (num_scans sa) (frame_size sa)
    (dense_of sa (zseq (num_scans sa)) (zseq (frame_size sa))) j =
  map (fun row => events row j) (sp_data sa).
Proof.
  intros W Hj. unfold along_scan. rewrite (data_rows sa W). rewrite map_map.
  apply map_ext_in. intros p Hp. apply in_zseq in Hp.
  pose proof (dense_of_at sa (zseq (num_scans sa)) (zseq (frame_size sa)) p j) as X.
  rewrite !Zlen_zseq in X by lia. rewrite X by lia. now rewrite !zat_zseq by lia.
Qed.

Lemma along_frame_dense sa p :
  wf sa -> 0 <= p < num_scans sa ->
  along_frame (num_scans sa) (frame_size sa)
    (dense_of sa (zseq (num_scans sa)) (zseq (frame_size sa))) p =
  map (events (row_at sa p)) (zseq (frame_size sa)).
Proof.
  intros W Hp. unfold along_frame.
  apply map_ext_in. intros j Hj. apply in_zseq in Hj.
  pose proof (dense_of_at sa (zseq (num_scans sa)) (zseq (frame_size sa)) p j) as X.
  rewrite !Zlen_zseq in X by lia. rewrite X by lia. now rewrite !zat_zseq by lia.
Qed.

Lemma frames_ok_rows sa : wf sa ->
  forall row, In row (sp_data sa) -> forall fr, In fr row -> frame_ok (frame_size sa) fr.
Proof. intros W row Hr fr Hf. exact (wf_frames _ W row fr Hr Hf). Qed.

Lemma frame_size_nonneg sa : wf sa -> 0 <= frame_size sa.
Proof. intros W. apply np_prod_nonneg, (wf_frame _ W). Qed.

Lemma num_scans_nonneg sa : wf sa -> 0 <= num_scans sa.
Proof. intros W. apply np_prod_nonneg, (wf_scan _ W). Qed.

(** * Sums *)
Lemma inc_rows bits rows a (base : Z -> Z) :
  (forall row, In row rows -> forall fr, In fr row -> frame_ok (Zlen a) fr) ->
  (forall j, zat a j = wrapu bits (base j)) ->
  exists a', for_each rows (fun row ret => for_each row (fun fr ret => np_inc bits ret fr) ret) a = Ok a' /\
    Zlen a' = Zlen a /\
    forall j, zat a' j = wrapu bits (base j + zsum (map (fun row => events row j) rows)).
Proof.
  revert a base. induction rows as [|r t IH]; intros a base H Hb.
  - exists a. repeat split; auto. intros j. rewrite Hb. cbn [map zsum]. now rewrite Z.add_0_r.
  - cbn [for_each]. destruct (inc_all bits r a base) as [a1 [E [L V]]]; [apply H; now left|exact Hb|].
    rewrite E. cbn [bind].
    destruct (IH a1 (fun j => base j + events r j)) as [a' [E' [L' V']]].
    { intros row Hr. rewrite L. apply H. now right. }
    { exact V. }
    exists a'. repeat split; [exact E'|lia|]. intros j. rewrite V'. cbn [map zsum]. f_equal. lia.
Qed.

Lemma eq_map_zseq (a : list Z) n f :
  Zlen a = n -> (forall j, 0 <= j < n -> zat a j = f j) -> a = map f (zseq n).
Proof.
  intros L H. pose proof (Zlen_nonneg a). apply list_eq_zat.
  - rewrite Zlen_map, Zlen_zseq; lia.
  - intros j Hj. rewrite zat_map_zseq by lia. apply H. lia.
Qed.

Lemma sum_scan_ok sa b :
  wf sa ->
  sum_scan sa b =
  Ok (map (fun j => wrapu b (zsum (map (fun row => events row j) (sp_data sa)))) (zseq (frame_size sa))).
Proof.
  intros W. assert (HN := frame_size_nonneg sa W). unfold sum_scan.
  destruct (inc_rows b (sp_data sa) (repeat 0 (Z.to_nat (frame_size sa))) (fun _ => 0)) as [a [E [L V]]].
  { rewrite Zlen_repeat, Z2Nat.id by exact HN. now apply frames_ok_rows. }
  { intros j. rewrite zat_repeat0. unfold wrapu. now rewrite Zmod_0_l. }
  rewrite E. f_equal. rewrite Zlen_repeat, Z2Nat.id in L by exact HN.
  apply eq_map_zseq; [exact L|]. intros j _. apply V.
Qed.

Lemma rd_mid {A} (pre : list A) x rest : rd (pre ++ x :: rest) (Zlen pre) = Ok x.
Proof.
  unfold rd, Zlen. destruct (Z.ltb_spec (Z.of_nat (List.length pre)) 0); [lia|].
  rewrite Nat2Z.id, nth_error_app2 by lia. now rewrite Nat.sub_diag.
Qed.

Lemma upd_mid {A} (pre : list A) x rest v : upd (pre ++ x :: rest) (List.length pre) v = pre ++ v :: rest.
Proof. induction pre; cbn; [reflexivity|]. now rewrite IHpre. Qed.

Lemma wr_mid {A} (pre : list A) x rest v : wr (pre ++ x :: rest) (Zlen pre) v = Ok (pre ++ v :: rest).
Proof.
  unfold wr, Zlen. rewrite app_length. cbn [List.length].
  destruct (Z.ltb_spec (Z.of_nat (List.length pre)) 0); [lia|].
  destruct (Z.leb_spec (Z.of_nat (List.length pre + S (List.length rest))) (Z.of_nat (List.length pre))); [lia|].
  cbn [orb]. now rewrite Nat2Z.id, upd_mid.
Qed.

(** A loop [for i, row in enumerate(data): ret[i] = ...]. *)
Lemma enum_fill {A} (data : list A) (body : Z * A -> list Z -> outcome (list Z)) (g : A -> Z) init :
  (forall row pre rest, In row data ->
     body (Zlen pre, row) (pre ++ init :: rest) = Ok (pre ++ g row :: rest)) ->
  for_each (enumerate data) body (repeat init (List.length data)) = Ok (map g data).
Proof.
  intros H. unfold enumerate, zseq, Zlen. rewrite Nat2Z.id.
  change (map g data) with ([] ++ map g data).
  change (repeat init (List.length data)) with ([] ++ repeat init (List.length data)).
  change (seq 0 (List.length data)) with (seq (List.length (@nil Z)) (List.length data)).
  generalize (@nil Z) as pre. induction data as [|row t IH]; intros pre.
  - cbn. reflexivity.
  - cbn [List.length seq map combine for_each repeat].
    change (Z.of_nat (List.length pre)) with (Zlen pre).
    rewrite H by now left. cbn [bind].
    specialize (IH (fun r p q Hr => H r p q (or_intror Hr)) (pre ++ [g row])).
    rewrite app_length in IH. cbn [List.length] in IH. rewrite Nat.add_1_r in IH.
    rewrite <- !app_assoc in IH. exact IH.
Qed.

(** ... where some row makes the body raise. *)
Lemma enum_throw {A} (data : list A) (body : Z * A -> list Z -> outcome (list Z)) (g : A -> Z) init msg bad :
  (forall row pre rest, In row data -> bad row = false ->
     body (Zlen pre, row) (pre ++ init :: rest) = Ok (pre ++ g row :: rest)) ->
  (forall row i ret, In row data -> bad row = true -> body (i, row) ret = Throw msg) ->
  existsb bad data = true ->
  for_each (enumerate data) body (repeat init (List.length data)) = Throw msg.
Proof.
  intros H HB. unfold enumerate, zseq, Zlen. rewrite Nat2Z.id.
  change (repeat init (List.length data)) with ([] ++ repeat init (List.length data)).
  change (seq 0 (List.length data)) with (seq (List.length (@nil Z)) (List.length data)).
  generalize (@nil Z) as pre. induction data as [|row t IH]; intros pre HE; [discriminate|].
  cbn [List.length seq map combine for_each repeat].
  change (Z.of_nat (List.length pre)) with (Zlen pre).
  destruct (bad row) eqn:Eb.
  - rewrite HB by (auto; now left). reflexivity.
  - rewrite H by (auto; now left). cbn [bind].
    cbn [existsb] in HE. rewrite Eb in HE. cbn [orb] in HE.
    specialize (IH (fun r p q Hr => H r p q (or_intror Hr))
                   (fun r i q Hr => HB r i q (or_intror Hr)) (pre ++ [g row]) HE).
    rewrite app_length in IH. cbn [List.length] in IH. rewrite Nat.add_1_r in IH.
    rewrite <- !app_assoc in IH. exact IH.
Qed.

Lemma data_length sa : wf sa -> Z.to_nat (num_scans sa) = List.length (sp_data sa).
Proof. intros W. unfold num_scans. rewrite <- (wf_len _ W). apply Nat2Z.id. Qed.

(** Number of events of a position. *)
Definition total (row : list (list Z)) : Z := zsum (map (@Zlen Z) row).

Lemma sum_frame_ok sa b :
  wf sa -> sum_frame sa b = Ok (map (fun row => wrapu b (total row)) (sp_data sa)).
Proof.
  intros W. unfold sum_frame. rewrite data_length by exact W.
  apply (enum_fill (sp_data sa) _ (fun row => wrapu b (total row)) 0).
  intros row pre rest _.
  assert (G : forall fs v, for_each fs
     (fun fr ret => let* x := rd ret (Zlen pre) in wr ret (Zlen pre) (wrapu b (x + Zlen fr)))
     (pre ++ wrapu b v :: rest) = Ok (pre ++ wrapu b (v + total fs) :: rest)).
  { induction fs as [|f t IH]; intros v; cbn [for_each].
    - unfold total. cbn. now rewrite Z.add_0_r.
    - rewrite rd_mid. cbn [bind]. rewrite wr_mid. cbn [bind]. rewrite wrapu_add, IH.
      unfold total. cbn [map zsum]. do 4 f_equal. lia. }
  specialize (G row 0). unfold wrapu in G at 2. rewrite Zmod_0_l, Z.add_0_l in G. exact G.
Qed.

Lemma len_as_counts N fr : frame_ok N fr -> 0 <= N -> Zlen fr = zsum (map (cnt fr) (zseq N)).
Proof.
  intros [_ HR] HN. induction fr as [|x t IH].
  - rewrite zsum_map_zero; [reflexivity|]. reflexivity.
  - rewrite Zlen_cons, IH by (intros y Hy; apply HR; now right).
    rewrite (zsum_map_ext (cnt (x :: t)) (fun j => (if j =? x then 1 else 0) + cnt t j)).
    2:{ intros j _. apply cnt_cons. }
    rewrite zsum_map_add. f_equal.
    symmetry. apply (zsum_indicator (fun _ => 1)). apply HR. now left.
Qed.

Lemma total_as_events N row :
  (forall fr, In fr row -> frame_ok N fr) -> 0 <= N -> total row = zsum (map (events row) (zseq N)).
Proof.
  intros H HN. unfold total, events.
  rewrite (zsum_swap (fun j fr => cnt fr j) (zseq N) row).
  apply zsum_map_ext. intros fr Hf. apply len_as_counts; auto.
Qed.

(** * Maxima and minima *)
Lemma fold_max_spec l x : is_max (fold_left Z.max l x) (x :: l).
Proof.
  revert x. induction l as [|y t IH]; intros x; cbn [fold_left].
  - split; [now left|]. intros z [<-|[]]. lia.
  - destruct (IH (Z.max x y)) as [H1 H2]. split.
    + destruct H1 as [H1|H1]; [|right; now right]. rewrite <- H1.
      destruct (Z.max_spec x y) as [[_ ->]|[_ ->]]; [right; now left|now left].
    + intros z Hz. assert (Z.max x y <= fold_left Z.max t (Z.max x y)) by (apply H2; now left).
      destruct Hz as [<-|[<-|Hz]]; [lia|lia|apply H2; now right].
Qed.

Lemma fold_min_spec l x : is_min (fold_left Z.min l x) (x :: l).
Proof.
  revert x. induction l as [|y t IH]; intros x; cbn [fold_left].
  - split; [now left|]. intros z [<-|[]]. lia.
  - destruct (IH (Z.min x y)) as [H1 H2]. split.
    + destruct H1 as [H1|H1]; [|right; now right]. rewrite <- H1.
      destruct (Z.min_spec x y) as [[_ ->]|[_ ->]]; [now left|right; now left].
    + intros z Hz. assert (fold_left Z.min t (Z.min x y) <= Z.min x y) by (apply H2; now left).
      destruct Hz as [<-|[<-|Hz]]; [lia|lia|apply H2; now right].
Qed.

Lemma np_max_ok l : l <> [] -> exists m, np_max l = Ok m /\ is_max m l.
Proof.
  destruct l as [|x t]; [congruence|]. intros _. eexists; split; [reflexivity|]. apply fold_max_spec.
Qed.
Lemma np_min_ok l : l <> [] -> exists m, np_min l = Ok m /\ is_min m l.
Proof.
  destruct l as [|x t]; [congruence|]. intros _. eexists; split; [reflexivity|]. apply fold_min_spec.
Qed.

Lemma concat_ok {A} (ls : list (list A)) : ls <> [] -> np_concatenate ls = Ok (concat ls).
Proof. destruct ls; [congruence|reflexivity]. Qed.

Lemma combine_map {A B C} (f : A -> B) (g : A -> C) l :
  combine (map f l) (map g l) = map (fun x => (f x, g x)) l.
Proof. induction l; cbn; congruence. Qed.

Lemma row_range sa row x : wf sa -> In row (sp_data sa) -> In x (concat row) -> 0 <= x < frame_size sa.
Proof.
  intros W Hr Hx. apply in_concat in Hx as [fr [Hf Hx]]. apply (frames_ok_rows sa W row Hr fr Hf). exact Hx.
Qed.

Lemma row_events_le sa row j : wf sa -> In row (sp_data sa) -> 0 <= events row j <= sp_F sa.
Proof.
  intros W Hr. split; [apply events_nonneg|]. rewrite <- (wf_rows _ W row Hr). apply events_le.
  intros fr Hf. apply (frames_ok_rows sa W row Hr fr Hf).
Qed.

(** Maximum of a function over rows, starting from 0. *)
Definition best (f : list (list Z) -> Z) (rows : list (list (list Z))) : Z :=
  fold_left Z.max (map f rows) 0.

Lemma max_scan_ok sa b :
  wf sa -> 0 < sp_F sa < 2 ^ b ->
  max_scan sa b = Ok (map (fun j => best (fun row => events row j) (sp_data sa)) (zseq (frame_size sa))).
Proof.
  intros W HF. assert (HN := frame_size_nonneg sa W). unfold max_scan.
  assert (G : forall rows ret (base : Z -> Z), (forall row, In row rows -> In row (sp_data sa)) ->
    Zlen ret = frame_size sa -> (forall j, 0 <= j < frame_size sa -> zat ret j = base j /\ 0 <= base j < 2 ^ b) ->
    exists ret', for_each rows
      (fun scan_frames ret =>
         let* c := np_concatenate scan_frames in
         let uc := np_unique_counts c in
         let* old := np_take ret (map fst uc) in
         np_put ret (map fst uc)
           (map (fun p => wrapu b (Z.max (fst p) (snd p))) (combine old (map snd uc)))) ret = Ok ret' /\
      Zlen ret' = frame_size sa /\
      forall j, 0 <= j < frame_size sa -> zat ret' j = fold_left Z.max (map (fun row => events row j) rows) (base j)).
  { induction rows as [|row rows IH]; intros ret base Hin L Hb.
    - exists ret. repeat split; auto. intros j Hj. now apply Hb.
    - cbn [for_each]. assert (Hr := Hin row (or_introl eq_refl)).
      assert (row <> []) as Hne by (intros ->; pose proof (wf_rows _ W _ Hr) as X; cbn in X; lia).
      rewrite concat_ok by exact Hne. cbn [bind].
      change (map fst (np_unique_counts (concat row))) with (ukeys (concat row)).
      rewrite uc_snd.
      assert (Rk : forall i, In i (ukeys (concat row)) -> 0 <= i < Zlen ret).
      { intros i Hi. rewrite L. apply (row_range sa row); auto. now apply in_ukeys. }
      rewrite np_take_zat by exact Rk. cbn [bind]. rewrite combine_map, map_map. cbn [fst snd].
      destruct (np_put_map (fun k => wrapu b (Z.max (zat ret k) (cnt (concat row) k)))
                  (ukeys (concat row)) ret Rk) as [r1 [E1 [L1 V1]]].
      rewrite E1. cbn [bind].
      destruct (IH r1 (fun j => Z.max (base j) (events row j))) as [r2 [E2 [L2 V2]]].
      { intros r Hr'. apply Hin. now right. }
      { lia. }
      { intros j Hj. destruct (Hb j Hj) as [Hz Hbb]. pose proof (row_events_le sa row j W Hr).
        split; [|lia]. rewrite V1, Hz, cnt_concat.
        destruct (mem j (ukeys (concat row))) eqn:M.
        - apply wrapu_id. lia.
        - apply mem_false in M. rewrite in_ukeys in M. rewrite <- cnt_concat, (cnt_notin _ _ M). lia. }
      exists r2. repeat split; auto. }
  destruct (G (sp_data sa) (repeat 0 (Z.to_nat (frame_size sa))) (fun _ => 0)) as [r [E [L V]]].
  { auto. }
  { rewrite Zlen_repeat. lia. }
  { intros j Hj. rewrite zat_repeat0. split; [reflexivity|lia]. }
  etransitivity; [exact E|]. f_equal. apply eq_map_zseq; [exact L|]. exact V.
Qed.

Lemma best_spec f rows :
  rows <> [] -> (forall row, In row rows -> 0 <= f row) -> is_max (best f rows) (map f rows).
Proof.
  intros Hne Hp. unfold best. destruct (fold_max_spec (map f rows) 0) as [H1 H2]. split.
  - destruct H1 as [H1|H1]; [|exact H1]. destruct rows as [|r t]; [congruence|].
    left. assert (f r <= fold_left Z.max (map f (r :: t)) 0) by (apply H2; right; now left).
    specialize (Hp r (or_introl eq_refl)). lia.
  - intros x Hx. apply H2. now right.
Qed.

Definition worst (top : Z) (f : list (list Z) -> Z) (rows : list (list (list Z))) : Z :=
  fold_left Z.min (map f rows) top.

Lemma min_scan_ok sa b :
  wf sa -> 0 < sp_F sa < 2 ^ b ->
  min_scan sa b =
  Ok (map (fun j => worst (2 ^ b - 1) (fun row => events row j) (sp_data sa)) (zseq (frame_size sa))).
Proof.
  intros W HF. assert (HN := frame_size_nonneg sa W). unfold min_scan.
  assert (G : forall rows ret (base : Z -> Z), (forall row, In row rows -> In row (sp_data sa)) ->
    Zlen ret = frame_size sa -> (forall j, 0 <= j < frame_size sa -> zat ret j = base j) ->
    exists ret', for_each rows
      (fun scan_frames ret =>
         let* c := np_concatenate scan_frames in
         let uc := np_unique_counts c in
         let* e := np_put (repeat 0 (Z.to_nat (frame_size sa))) (map fst uc)
                     (map (fun p => wrapu b (snd p)) uc) in
         Ok (map (fun p => Z.min (fst p) (snd p)) (combine ret e))) ret = Ok ret' /\
      Zlen ret' = frame_size sa /\
      forall j, 0 <= j < frame_size sa -> zat ret' j = fold_left Z.min (map (fun row => events row j) rows) (base j)).
  { induction rows as [|row rows IH]; intros ret base Hin L Hb.
    - exists ret. repeat split; auto.
    - cbn [for_each]. assert (Hr := Hin row (or_introl eq_refl)).
      assert (row <> []) as Hne by (intros ->; pose proof (wf_rows _ W _ Hr) as X; cbn in X; lia).
      rewrite concat_ok by exact Hne. cbn [bind].
      change (map fst (np_unique_counts (concat row))) with (ukeys (concat row)).
      rewrite uc_eq, map_map. cbn [snd].
      assert (Rk : forall i, In i (ukeys (concat row)) ->
                 0 <= i < Zlen (repeat 0 (Z.to_nat (frame_size sa)))).
      { intros i Hi. rewrite Zlen_repeat, Z2Nat.id by lia. apply (row_range sa row); auto. now apply in_ukeys. }
      destruct (np_put_map (fun k => wrapu b (cnt (concat row) k)) (ukeys (concat row))
                  (repeat 0 (Z.to_nat (frame_size sa))) Rk) as [r1 [E1 [L1 V1]]].
      rewrite E1. cbn [bind]. rewrite Zlen_repeat, Z2Nat.id in L1 by lia.
      assert (X : combine ret r1 = map (fun j => (zat ret j, zat r1 j)) (zseq (frame_size sa))).
      { rewrite <- combine_map. rewrite (list_as_map_zat ret) at 1. rewrite (list_as_map_zat r1) at 1.
        now rewrite L, L1. }
      rewrite X, map_map. cbn [fst snd].
      destruct (IH (map (fun j => Z.min (zat ret j) (zat r1 j)) (zseq (frame_size sa)))
                   (fun j => Z.min (base j) (events row j))) as [r2 [E2 [L2 V2]]].
      { intros r Hr'. apply Hin. now right. }
      { rewrite Zlen_map, Zlen_zseq; lia. }
      { intros j Hj. rewrite zat_map_zseq by lia. rewrite Hb by exact Hj. f_equal.
        pose proof (row_events_le sa row j W Hr). rewrite V1, cnt_concat.
        destruct (mem j (ukeys (concat row))) eqn:M.
        - apply wrapu_id. lia.
        - apply mem_false in M. rewrite in_ukeys in M. rewrite zat_repeat0.
          rewrite <- cnt_concat, (cnt_notin _ _ M). lia. }
      exists r2. repeat split; auto. }
  destruct (G (sp_data sa) (repeat (2 ^ b - 1) (Z.to_nat (frame_size sa))) (fun _ => 2 ^ b - 1)) as [r [E [L V]]].
  { auto. }
  { rewrite Zlen_repeat. lia. }
  { intros j Hj. now apply zat_repeat. }
  etransitivity; [exact E|]. f_equal. apply eq_map_zseq; [exact L|]. exact V.
Qed.

Lemma worst_spec top f rows :
  rows <> [] -> (forall row, In row rows -> f row <= top) -> is_min (worst top f rows) (map f rows).
Proof.
  intros Hne Hp. unfold worst. destruct (fold_min_spec (map f rows) top) as [H1 H2]. split.
  - destruct H1 as [H1|H1]; [|exact H1]. destruct rows as [|r t]; [congruence|].
    left. assert (fold_left Z.min (map f (r :: t)) top <= f r) by (apply H2; right; now left).
    specialize (Hp r (or_introl eq_refl)). lia.
  - intros x Hx. apply H2. now right.
Qed.

(** Does a position have no event at all? *)
Definition no_events (row : list (list Z)) : bool :=
  match concat row with [] => true | _ => false end.

Definition top_count (row : list (list Z)) : Z :=
  match np_max (map snd (np_unique_counts (concat row))) with Ok m => m | _ => 0 end.

Lemma top_count_spec sa row :
  wf sa -> In row (sp_data sa) -> no_events row = false ->
  np_max (map snd (np_unique_counts (concat row))) = Ok (top_count row) /\
  is_max (top_count row) (map (events row) (zseq (frame_size sa))).
Proof.
  intros W Hr Hn. unfold top_count. rewrite uc_snd.
  assert (Hc : concat row <> []) by (unfold no_events in Hn; destruct (concat row); [discriminate|discriminate]).
  destruct (np_max_ok (map (cnt (concat row)) (ukeys (concat row)))) as [m [E [H1 H2]]].
  { destruct (concat row) as [|x t] eqn:Ec; [congruence|]. intros X. apply map_eq_nil in X.
    assert (In x (ukeys (x :: t))) as Y by (apply in_ukeys; now left). rewrite X in Y. destruct Y. }
  rewrite E. split; [reflexivity|].
  apply in_map_iff in H1 as [k [<- Hk]]. rewrite in_ukeys in Hk. split.
  - rewrite cnt_concat. apply in_map. apply in_zseq. now apply (row_range sa row).
  - intros x Hx. apply in_map_iff in Hx as [j [<- Hj]]. rewrite <- cnt_concat.
    destruct (mem j (concat row)) eqn:M.
    + apply H2. apply in_map, in_ukeys. now apply mem_in.
    + apply mem_false in M. rewrite (cnt_notin _ _ M). apply cnt_nonneg.
Qed.

Lemma max_frame_ok sa b :
  wf sa -> sp_F sa < 2 ^ b -> existsb no_events (sp_data sa) = false ->
  max_frame sa b = Ok (map top_count (sp_data sa)).
Proof.
  intros W HF Hn. unfold max_frame. rewrite data_length by exact W. apply enum_fill.
  intros row pre rest Hr.
  assert (Hne : no_events row = false).
  { destruct (no_events row) eqn:E; [|reflexivity].
    assert (existsb no_events (sp_data sa) = true) by (apply existsb_exists; eauto). congruence. }
  rewrite concat_ok by (intros ->; discriminate). cbn [bind].
  destruct (top_count_spec sa row W Hr Hne) as [E [M _]]. rewrite E. cbn [bind].
  apply in_map_iff in M as [j [Ej _]]. pose proof (row_events_le sa row j W Hr).
  rewrite wrapu_id by lia. apply wr_mid.
Qed.

Lemma max_frame_throw sa b :
  wf sa -> sp_F sa < 2 ^ b -> existsb no_events (sp_data sa) = true ->
  max_frame sa b = value_error.
Proof.
  intros W HF Hn. unfold max_frame. rewrite data_length by exact W.
  apply (enum_throw _ _ top_count 0 _ no_events); [| |exact Hn].
  - intros row pre rest Hr Hne.
    rewrite concat_ok by (intros ->; discriminate). cbn [bind].
    destruct (top_count_spec sa row W Hr Hne) as [E [M _]]. rewrite E. cbn [bind].
    apply in_map_iff in M as [j [Ej _]]. pose proof (row_events_le sa row j W Hr).
    rewrite wrapu_id by lia. apply wr_mid.
  - intros row i ret Hr Hne. destruct row as [|f t]; [reflexivity|].
    cbn [np_concatenate bind]. unfold no_events in Hne.
    destruct (concat (f :: t)); [reflexivity|discriminate].
Qed.

Definition low_count (N : Z) (row : list (list Z)) : Z :=
  let counts := map snd (np_unique_counts (concat row)) in
  if Zlen counts <? N then 0 else match np_min counts with Ok m => m | _ => 0 end.

Lemma low_count_spec sa row :
  wf sa -> In row (sp_data sa) -> 0 < frame_size sa ->
  is_min (low_count (frame_size sa) row) (map (events row) (zseq (frame_size sa))) /\
  (frame_size sa <= Zlen (map snd (np_unique_counts (concat row))) ->
   np_min (map snd (np_unique_counts (concat row))) = Ok (low_count (frame_size sa) row)).
Proof.
  intros W Hr HN. unfold low_count. rewrite uc_snd, Zlen_map.
  assert (Hin : incl (ukeys (concat row)) (zseq (frame_size sa))).
  { intros x Hx. apply in_zseq. apply (row_range sa row); auto. now apply in_ukeys. }
  destruct (Z.ltb_spec (Zlen (ukeys (concat row))) (frame_size sa)) as [Hlt|Hge].
  - split; [|lia]. split.
    + assert (exists j, In j (zseq (frame_size sa)) /\ ~ In j (concat row)) as [j [Hj Hnj]].
      { destruct (existsb (fun j => negb (mem j (concat row))) (zseq (frame_size sa))) eqn:E.
        - apply existsb_exists in E as [j [Hj Hm]]. exists j. split; [exact Hj|].
          apply mem_false. now destruct (mem j (concat row)).
        - exfalso. assert (incl (zseq (frame_size sa)) (ukeys (concat row))) as Hi.
          { intros j Hj. apply in_ukeys. destruct (mem j (concat row)) eqn:M; [now apply mem_in|].
            assert (existsb (fun j => negb (mem j (concat row))) (zseq (frame_size sa)) = true).
            { apply existsb_exists. exists j. rewrite M. auto. }
            congruence. }
          apply NoDup_incl_length in Hi; [|apply NoDup_zseq].
          pose proof (Zlen_zseq (frame_size sa)). unfold Zlen in *. lia. }
      apply in_map_iff. exists j. split; [|exact Hj]. rewrite <- cnt_concat. now apply cnt_notin.
    + intros x Hx. apply in_map_iff in Hx as [j [<- _]]. apply events_nonneg.
  - assert (Hback : incl (zseq (frame_size sa)) (ukeys (concat row))).
    { apply NoDup_length_incl; [apply ukeys_nodup| |exact Hin].
      pose proof (Zlen_zseq (frame_size sa)). unfold Zlen in *. lia. }
    destruct (np_min_ok (map (cnt (concat row)) (ukeys (concat row)))) as [m [E [H1 H2]]].
    { intros X. apply map_eq_nil in X. rewrite X in Hge. cbn in Hge. lia. }
    rewrite E. split; [|reflexivity]. split.
    + apply in_map_iff in H1 as [k [<- Hk]]. rewrite cnt_concat. apply in_map. now apply Hin.
    + intros x Hx. apply in_map_iff in Hx as [j [<- Hj]]. rewrite <- cnt_concat. apply H2.
      apply in_map. now apply Hback.
Qed.

Lemma min_frame_ok sa b :
  wf sa -> 0 < sp_F sa < 2 ^ b -> 0 < frame_size sa ->
  min_frame sa b = Ok (map (low_count (frame_size sa)) (sp_data sa)).
Proof.
  intros W HF HN. unfold min_frame. rewrite data_length by exact W. apply enum_fill.
  intros row pre rest Hr.
  rewrite concat_ok by (intros ->; pose proof (wf_rows _ W _ Hr) as X; cbn in X; lia). cbn [bind].
  destruct (low_count_spec sa row W Hr HN) as [[M _] E].
  destruct (Z.ltb_spec (Zlen (map snd (np_unique_counts (concat row)))) (frame_size sa)) as [Hlt|Hge].
  - rewrite wr_mid. unfold low_count.
    destruct (Z.ltb_spec (Zlen (map snd (np_unique_counts (concat row)))) (frame_size sa)); [reflexivity|lia].
  - rewrite E by exact Hge. cbn [bind].
    apply in_map_iff in M as [j [Ej _]]. pose proof (row_events_le sa row j W Hr).
    rewrite wrapu_id by lia. apply wr_mid.
Qed.
