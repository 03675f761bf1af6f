(** Lemmas about electron count files. *)
From Coq Require Import String ZArith List Bool Lia.
From Verif Require Import Base BaseFacts StemProofs PyProofs MultipassFrames SparseModel SparseSpec SparseProofs SparseSlice
  SparseReduce SparseBin SparseFileModel SparseFileSpec.
Import ListNotations.
Open Scope Z_scope.

Local Arguments Z.mul : simpl never.
Local Arguments Z.add : simpl never.
Local Arguments Z.pow : simpl never.

Lemma zseq_S n : 0 <= n -> zseq (1 + n) = 0 :: map Z.succ (zseq n).
Proof.
  intros H. unfold zseq. replace (Z.to_nat (1 + n)) with (S (Z.to_nat n)) by lia.
  cbn [seq map]. f_equal. rewrite <- seq_shift, !map_map. apply map_ext. intros k. lia.
Qed.

Lemma recorded_eq data positions p k :
  List.length data = List.length positions ->
  recorded data positions p k = pos_events (combine data positions) p k.
Proof.
  unfold recorded. revert positions. induction data as [|d t IH]; intros [|q u] L; try discriminate; [reflexivity|].
  rewrite Zlen_cons, zseq_S by apply Zlen_nonneg. cbn [map zsum combine].
  unfold pos_events. cbn [map zsum fst snd]. f_equal.
  fold (pos_events (combine t u) p k). rewrite <- IH by (cbn in L; lia). rewrite map_map.
  apply zsum_map_ext. intros i Hi. apply in_zseq in Hi.
  replace (zat (q :: u) (Z.succ i)) with (zat u i).
  - replace (Z.to_nat (Z.succ i)) with (S (Z.to_nat i)) by lia. reflexivity.
  - unfold zat. destruct (Z.ltb_spec i 0), (Z.ltb_spec (Z.succ i) 0); try lia.
    replace (Z.to_nat (Z.succ i)) with (S (Z.to_nat i)) by lia. reflexivity.
Qed.

Lemma map_snd_combine {A B} (a : list A) (b : list B) :
  List.length a = List.length b -> map snd (combine a b) = b.
Proof.
  revert b. induction a as [|x t IH]; intros [|y u] L; try discriminate; [reflexivity|].
  cbn. f_equal. apply IH. cbn in L. lia.
Qed.

(** * Version 2 to version 3 *)
Lemma v2_to_v3_ok data positions shape :
  shape_ok shape -> List.length data = List.length positions -> positions <> [] ->
  (forall q, In q positions -> 0 <= q < np_prod shape) ->
  exists rows F, convert_data_v2_to_v3 data positions shape = Ok (rows, F) /\
    Zlen rows = np_prod shape /\
    (forall p, cnt positions p <= F) /\ (exists p, In p positions /\ F = cnt positions p) /\
    (forall p, 0 <= p < np_prod shape ->
       nth (Z.to_nat p) rows [] =
       map fst (filter (fun x => snd x =? p) (combine data positions)) ++
       repeat [] (Z.to_nat (F - cnt positions p))) /\
    (forall row, In row rows -> Zlen row = F).
Proof.
  intros Hs L Hne HR. unfold convert_data_v2_to_v3.
  destruct (np_max_counts positions Hne) as [F [E [Hmax Hex]]]. rewrite E. cbn [bind].
  assert (HP := np_prod_nonneg shape Hs).
  rewrite (place_ok _ F data positions HP L HR Hmax). cbn [bind].
  do 2 eexists. split; [reflexivity|]. split; [rewrite Zlen_map; now apply Zlen_zseq|].
  split; [exact Hmax|]. split; [exact Hex|]. split.
  - intros p Hp.
    set (g := fun p => at_pos (combine data positions) p ++ repeat [] (Z.to_nat (F - cnt positions p))).
    rewrite (nth_indep _ [] (g 0)) by (rewrite map_length, zseq_length; lia). rewrite map_nth.
    assert (Enth : nth (Z.to_nat p) (zseq (np_prod shape)) 0 = p).
    { pose proof (zat_zseq (np_prod shape) p Hp) as Z0. unfold zat in Z0. destruct (Z.ltb_spec p 0); [lia|exact Z0]. }
    rewrite Enth. reflexivity.
  - intros row Hr. apply in_map_iff in Hr as [p [<- _]]. rewrite Zlen_app, at_pos_len, map_snd_combine by exact L.
    pose proof (Hmax p). unfold Zlen. rewrite repeat_length. lia.
Qed.

Lemma v2_to_v3_empty data shape : convert_data_v2_to_v3 data [] shape = value_error.
Proof. reflexivity. Qed.

(** * Version 1 to version 2 *)
Lemma unique_len_nodup l : Zlen (np_unique_counts l) = Zlen l <-> NoDup l.
Proof.
  rewrite uc_eq, Zlen_map. split; intros H.
  - apply (@NoDup_incl_NoDup Z (ukeys l)); [apply ukeys_nodup|unfold Zlen in H; lia|].
    intros x Hx. rewrite in_ukeys in Hx. exact Hx.
  - assert (List.length (ukeys l) <= List.length l)%nat.
    { apply NoDup_incl_length; [apply ukeys_nodup|]. intros x Hx. rewrite in_ukeys in Hx. exact Hx. }
    assert (List.length l <= List.length (ukeys l))%nat.
    { apply NoDup_incl_length; [exact H|]. intros x Hx. now rewrite in_ukeys. }
    unfold Zlen. lia.
Qed.

Lemma v1_test data shape :
  is_data_v1_format data shape = false <-> np_prod shape < Zlen data \/ duplicate_free data.
Proof.
  unfold is_data_v1_format, duplicate_free. destruct (Z.ltb_spec (np_prod shape) (Zlen data)) as [H|H].
  - split; auto.
  - split.
    + intros E. right. intros row Hr. apply unique_len_nodup.
      destruct (Z.eqb_spec (Zlen (np_unique_counts row)) (Zlen row)) as [|N]; [assumption|].
      assert (X : existsb (fun x => negb (Zlen (np_unique_counts x) =? Zlen x)) data = true).
      { apply existsb_exists. exists row. split; [exact Hr|].
        destruct (Z.eqb_spec (Zlen (np_unique_counts row)) (Zlen row)); [contradiction|reflexivity]. }
      congruence.
    + intros [X|X]; [lia|]. destruct (existsb _ data) eqn:E; [|reflexivity].
      apply existsb_exists in E as [row [Hr E]]. specialize (X row Hr). apply unique_len_nodup in X.
      rewrite X, Z.eqb_refl in E. discriminate.
Qed.

Lemma v1_to_v2_arange data positions shape :
  is_data_v1_format data shape = true ->
  exists data' positions', convert_data_v1_to_v2 data positions shape = Ok (data', positions') /\
    List.length data' = List.length positions' /\
    (forall q, In q positions' -> 0 <= q < Zlen data) /\ positions' <> [] /\
    duplicate_free data' /\
    (forall row x, In row data' -> In x row -> exists row0, In row0 data /\ In x row0) /\
    forall p k, recorded data' positions' p k = recorded data (zseq (Zlen data)) p k.
Proof.
  intros Hv. unfold convert_data_v1_to_v2. rewrite Hv. cbn [negb].
  assert (L0 : List.length data = List.length (zseq (Zlen data))).
  { rewrite zseq_length. unfold Zlen. lia. }
  assert (Hne : data <> []).
  { intros ->. unfold is_data_v1_format in Hv. cbn [existsb] in Hv. destruct (_ <? _); discriminate. }
  destruct (split_duplicates_ok data (zseq (Zlen data)) L0) as [ret [ex [exp [E [L1 [L2 [Hsub [Hlay Hpos]]]]]]]].
  rewrite E. cbn [bind].
  assert (R : (match ex with [] => Ok (ret, zseq (Zlen data)) | _ => Ok (ret ++ ex, zseq (Zlen data) ++ exp) end) =
              Ok (ret ++ ex, zseq (Zlen data) ++ exp)).
  { destruct ex; [|reflexivity]. destruct exp; [|discriminate]. now rewrite !app_nil_r. }
  rewrite R. do 2 eexists. split; [reflexivity|].
  assert (LL : List.length (ret ++ ex) = List.length (zseq (Zlen data) ++ exp)) by (rewrite !app_length; lia).
  split; [exact LL|]. split; [|split; [|split; [|split]]].
  - intros q Hq. apply in_app_or in Hq as [Hq|Hq]; apply in_zseq; auto.
  - intros X. apply app_eq_nil in X as [X _]. destruct data; [congruence|].
    rewrite Zlen_cons, zseq_S in X by apply Zlen_nonneg. discriminate.
  - intros row Hr. destruct (Hlay row Hr) as [row0 [_ [Hn _]]]. exact Hn.
  - intros row x Hr Hx. destruct (Hlay row Hr) as [row0 [H0 [_ Hi]]]. eauto.
  - intros p k. rewrite !recorded_eq by assumption. apply Hpos.
Qed.

(** * HDF5 *)
Lemma np_slice_len {A} (l : list A) a b : 0 <= a <= b -> b <= Zlen l -> Zlen (np_slice l a b) = b - a.
Proof.
  intros H1 H2. unfold np_slice, Zlen in *. rewrite firstn_length, skipn_length. lia.
Qed.

Lemma slice_concat {A} (rows : list (list A)) F p :
  0 <= F -> (forall r, In r rows -> Zlen r = F) -> 0 <= p < Zlen rows ->
  np_slice (concat rows) (p * F) ((p + 1) * F) = nth (Z.to_nat p) rows [].
Proof.
  intros HF. revert p. induction rows as [|r t IH]; intros p Hr Hp; [cbn in Hp; lia|].
  rewrite Zlen_cons in Hp. assert (Lr : Zlen r = F) by (apply Hr; now left).
  unfold np_slice. replace ((p + 1) * F - p * F) with F by lia. cbn [concat].
  destruct (Z.eq_dec p 0) as [->|Hp0].
  - rewrite Z.mul_0_l. cbn [Z.to_nat skipn nth]. rewrite firstn_app.
    replace (Z.to_nat F) with (List.length r) by (unfold Zlen in Lr; lia).
    rewrite Nat.sub_diag, firstn_all. cbn [firstn]. now rewrite app_nil_r.
  - replace (Z.to_nat p) with (S (Z.to_nat (p - 1))) by lia. cbn [nth].
    rewrite <- IH by (try (intros; apply Hr; now right); lia).
    unfold np_slice. replace ((p - 1 + 1) * F - (p - 1) * F) with F by lia. f_equal.
    rewrite skipn_app. replace (Z.to_nat (p * F) - List.length r)%nat with (Z.to_nat ((p - 1) * F)).
    2:{ unfold Zlen in Lr. nia. }
    rewrite skipn_all2; [reflexivity|]. unfold Zlen in Lr. nia.
Qed.

Lemma reshape_concat rows F :
  0 <= F -> (forall r, In r rows -> Zlen r = F) ->
  reshape_rows (concat rows) (Zlen rows) F = Ok rows.
Proof.
  intros HF Hr. unfold reshape_rows. rewrite (total_len F rows Hr).
  rewrite Z.eqb_refl || replace (Zlen rows * F =? F * Zlen rows) with true by (symmetry; apply Z.eqb_eq; lia).
  f_equal. apply nth_error_eq. intros k. destruct (Nat.lt_ge_cases k (Z.to_nat (Zlen rows))) as [H|H].
  - rewrite (map_nth_error _ k (zseq (Zlen rows)) (d := Z.of_nat k)) by now apply nth_error_zseq.
    rewrite slice_concat by (auto; lia). rewrite Nat2Z.id. symmetry. apply nth_error_nth'. unfold Zlen in H. lia.
  - rewrite (proj2 (nth_error_None _ _)) by (rewrite map_length, zseq_length; lia).
    symmetry. apply nth_error_None. unfold Zlen in H. lia.
Qed.

Lemma map_u32_id l : (forall x, In x l -> 0 <= x < 2 ^ 32) -> map u32 l = l.
Proof.
  intros H. rewrite <- (map_id l) at 2. apply map_ext_in. intros x Hx. apply Z.mod_small. now apply H.
Qed.

(** Cropping: the frames of the kept columns, row after row. *)
Definition kept (frames : list (list Z)) (nx num n : Z) : list (list Z) :=
  flat_map (fun ii => np_slice frames (ii * nx * num) ((ii * nx + (nx - 1)) * num)) (zseq n).

Lemma kept_len frames nx ny num n :
  1 <= nx -> 0 <= num -> nx * ny * num <= Zlen frames -> 0 <= n <= ny ->
  Zlen (kept frames nx num n) = n * ((nx - 1) * num).
Proof.
  intros Hx Hm HL Hn. unfold kept.
  assert (G : forall l, (forall i, In i l -> 0 <= i < ny) ->
    Zlen (flat_map (fun ii => np_slice frames (ii * nx * num) ((ii * nx + (nx - 1)) * num)) l) = Zlen l * ((nx - 1) * num)).
  { induction l as [|i t IH]; intros Hi; [reflexivity|]. cbn [flat_map].
    rewrite Zlen_app, IH by (intros; apply Hi; now right). rewrite Zlen_cons.
    assert (0 <= i < ny) by (apply Hi; now left).
    assert (0 <= i * nx) by nia. assert (i * nx + nx <= nx * ny) by nia.
    rewrite np_slice_len by nia. lia. }
  rewrite G by (intros i Hi; apply in_zseq in Hi; lia). now rewrite Zlen_zseq by lia.
Qed.

Lemma zseq_snoc n : 0 <= n -> zseq (n + 1) = zseq n ++ [n].
Proof.
  intros H. unfold zseq. replace (Z.to_nat (n + 1)) with (Z.to_nat n + 1)%nat by lia.
  rewrite seq_app, map_app. cbn [seq map]. f_equal. f_equal. lia.
Qed.

Lemma set_slice_mid {A} (pre mid post src : list A) a b :
  a = Zlen pre -> b = a + Zlen mid -> Zlen src = Zlen mid ->
  np_set_slice (pre ++ mid ++ post) a b src = Ok (pre ++ src ++ post).
Proof.
  intros -> -> HL. unfold np_set_slice, np_slice.
  replace (Zlen pre + Zlen mid - Zlen pre) with (Zlen mid) by lia.
  assert (P : Z.to_nat (Zlen pre) = List.length pre) by (unfold Zlen; lia).
  assert (M : Z.to_nat (Zlen mid) = List.length mid) by (unfold Zlen; lia).
  rewrite P, M. rewrite skipn_app, skipn_all, Nat.sub_diag. cbn [app skipn].
  rewrite firstn_app, firstn_all, Nat.sub_diag. cbn [firstn]. rewrite app_nil_r.
  rewrite HL, Z.eqb_refl. f_equal. rewrite M.
  rewrite firstn_app, firstn_all, Nat.sub_diag. cbn [firstn]. rewrite app_nil_r. f_equal. f_equal.
  rewrite app_assoc, skipn_app, app_length, Nat.sub_diag. cbn [skipn].
  rewrite skipn_all2 by (rewrite app_length; lia). reflexivity.
Qed.

Lemma crop_ok frames nx ny :
  1 <= nx -> 1 <= ny ->
  let num := Zlen frames / (nx * ny) in
  crop_flyback frames nx ny = Ok (kept frames nx num ny).
Proof.
  intros Hx Hy num. unfold crop_flyback. fold num.
  assert (Hpos : 0 < nx * ny) by nia.
  assert (Hnum : 0 <= num) by (apply Z.div_pos; [apply Zlen_nonneg|lia]).
  assert (HL : nx * ny * num <= Zlen frames) by (apply Z.mul_div_le; lia).
  set (w := (nx - 1) * num).
  set (body := fun ii d => _).
  destruct (for_loop_inv (fun n d => d = kept frames nx num n ++ repeat [] (Z.to_nat ((ny - n) * w)))
              ny body (repeat [] (Z.to_nat ((nx - 1) * ny * num)))) as [s [E Es]].
  - lia.
  - cbn [kept zseq Z.to_nat seq map flat_map app]. f_equal. unfold w. f_equal. lia.
  - intros n d Hn ->. eexists. split; [|reflexivity].
    unfold body. unfold kept. rewrite zseq_snoc, flat_map_app by lia. fold (kept frames nx num n).
    cbn [flat_map]. rewrite app_nil_r.
    assert (Hw : 0 <= w) by (unfold w; nia).
    replace (Z.to_nat ((ny - n) * w)) with (Z.to_nat w + Z.to_nat ((ny - (n + 1)) * w))%nat by nia.
    rewrite repeat_app.
    replace (n * (nx - 1) * num + num * n) with (n * nx * num) by lia.
    replace ((n + 1) * (nx - 1) * num + num * n) with ((n * nx + (nx - 1)) * num) by lia.
    rewrite <- app_assoc. apply set_slice_mid.
    + rewrite (kept_len frames nx ny) by (try assumption; lia). unfold w. lia.
    + unfold Zlen at 1. rewrite repeat_length, Z2Nat.id by exact Hw. unfold w. lia.
    + rewrite np_slice_len.
      * unfold Zlen. rewrite repeat_length, Z2Nat.id by exact Hw. unfold w. lia.
      * assert (0 <= n * nx) by nia. nia.
      * assert (0 <= n * nx) by nia. assert (n * nx + nx <= nx * ny) by nia. nia.
  - rewrite E, Es. rewrite Z.sub_diag, Z.mul_0_l. cbn [Z.to_nat repeat]. now rewrite app_nil_r.
Qed.

(** Row (ii, c) of the cropped frames. *)
Lemma kept_slot frames nx ny num ii c :
  1 <= nx -> 0 <= num -> nx * ny * num <= Zlen frames -> 0 <= ii < ny -> 0 <= c < nx - 1 ->
  np_slice (kept frames nx num ny) ((ii * (nx - 1) + c) * num) ((ii * (nx - 1) + c + 1) * num) =
  np_slice frames ((ii * nx + c) * num) ((ii * nx + c + 1) * num).
Proof.
  intros Hx Hm HL Hi Hc.
  set (w := (nx - 1) * num).
  assert (Hw : 0 <= w) by (unfold w; nia).
  assert (E : kept frames nx num ny =
     kept frames nx num ii ++ np_slice frames (ii * nx * num) ((ii * nx + (nx - 1)) * num) ++
     flat_map (fun ii => np_slice frames (ii * nx * num) ((ii * nx + (nx - 1)) * num))
        (map (fun k => ii + 1 + k) (zseq (ny - (ii + 1))))).
  { unfold kept. rewrite (zseq_split (ii + 1) ny) by lia. rewrite zseq_snoc by lia. rewrite !flat_map_app. cbn [flat_map].
    rewrite app_nil_r, <- app_assoc. reflexivity. }
  rewrite E. unfold np_slice at 1. replace ((ii * (nx - 1) + c + 1) * num - (ii * (nx - 1) + c) * num) with num by lia.
  rewrite skipn_app.
  assert (Lk : Zlen (kept frames nx num ii) = ii * w) by (rewrite (kept_len frames nx ny); unfold w; lia || (try assumption; lia)).
  rewrite skipn_all2 by (unfold Zlen in Lk; unfold w in *; nia). cbn [app].
  replace (Z.to_nat ((ii * (nx - 1) + c) * num) - List.length (kept frames nx num ii))%nat with (Z.to_nat (c * num))
    by (unfold Zlen in Lk; unfold w in *; nia).
  assert (H1 : 0 <= ii * nx) by nia. assert (H2 : ii * nx + nx <= nx * ny) by nia.
  assert (Ls : Zlen (np_slice frames (ii * nx * num) ((ii * nx + (nx - 1)) * num)) = w).
  { rewrite np_slice_len by nia. unfold w. lia. }
  rewrite skipn_app, firstn_app.
  replace (Z.to_nat num - List.length (skipn (Z.to_nat (c * num)) (np_slice frames (ii * nx * num) ((ii * nx + (nx - 1)) * num))))%nat
    with O by (rewrite skipn_length; unfold Zlen in Ls; unfold w in *; nia).
  cbn [firstn]. rewrite app_nil_r. unfold np_slice.
  replace ((ii * nx + c + 1) * num - (ii * nx + c) * num) with num by lia.
  replace ((ii * nx + (nx - 1)) * num - ii * nx * num) with w by (unfold w; lia).
  rewrite skipn_firstn_comm, firstn_firstn. rewrite Nat.min_l by (unfold w; nia). f_equal.
  rewrite MultipassFrames.skipn_skipn'. f_equal. nia.
Qed.

(** * Metadata *)
Lemma assoc_set_get {A} k k' (v : A) l : assoc k (assoc_set k' v l) = if k =? k' then Some v else assoc k l.
Proof.
  induction l as [|[q w] t IH]; cbn [assoc_set assoc].
  - reflexivity.
  - destruct (Z.eqb_spec k' q) as [->|Hne]; cbn [assoc].
    + destruct (k =? q); reflexivity.
    + rewrite IH. destruct (Z.eqb_spec k q) as [->|]; [|reflexivity].
      destruct (Z.eqb_spec q k'); [congruence|reflexivity].
Qed.

Lemma assoc_set_keys {A} k (v : A) l x :
  In x (map fst (assoc_set k v l)) -> x = k \/ In x (map fst l).
Proof.
  induction l as [|[q w] t IH]; cbn [assoc_set map fst In].
  - intuition.
  - destruct (Z.eqb_spec k q) as [->|]; cbn [map fst In]; intuition.
Qed.

Lemma assoc_set_nodup {A} k (v : A) l : NoDup (map fst l) -> NoDup (map fst (assoc_set k v l)).
Proof.
  induction l as [|[q w] t IH]; cbn [assoc_set map fst]; intros H.
  - constructor; [intros []|constructor].
  - inversion H as [|? ? Hq Ht]; subst. destruct (Z.eqb_spec k q) as [->|Hne]; cbn [map fst].
    + now constructor.
    + constructor; [|now apply IH]. intros X. apply assoc_set_keys in X as [X|X]; [congruence|contradiction].
Qed.

Lemma assoc_in {A} k (v : A) l : assoc k l = Some v -> In (k, v) l.
Proof.
  induction l as [|[q w] t IH]; cbn [assoc]; [discriminate|].
  destruct (Z.eqb_spec k q) as [->|]; intros E; [injection E as ->; now left|right; auto].
Qed.

Lemma assoc_none {A} k (l : list (Z * A)) : ~ In k (map fst l) -> assoc k l = None.
Proof.
  induction l as [|[q w] t IH]; cbn [assoc map fst In]; [reflexivity|]. intros H.
  destruct (Z.eqb_spec k q) as [->|]; [exfalso; apply H; now left|apply IH; tauto].
Qed.

(** Setting a list of keys, one after the other. *)
Lemma fold_set {A B} (f : B -> A) (l : list (Z * B)) d k :
  NoDup (map fst l) ->
  assoc k (fold_left (fun d a => assoc_set (fst a) (f (snd a)) d) l d) =
  match assoc k l with Some b => Some (f b) | None => assoc k d end.
Proof.
  revert d. induction l as [|[q w] t IH]; intros d H; [reflexivity|]. cbn [fold_left fst snd assoc].
  inversion H as [|? ? Hq Ht]; subst. rewrite IH by exact Ht. rewrite assoc_set_get.
  destruct (Z.eqb_spec k q) as [->|]; [|reflexivity]. now rewrite assoc_none.
Qed.

Definition save_list :=
  fix go (l : list (Z * meta)) (g : h5group) : h5group :=
    match l with
    | [] => g
    | (k, v) :: t =>
        go t
          (match v with
           | MDict _ =>
               match g with
               | Group attrs subs => Group attrs (assoc_set k (save_dict v (require_group g k)) subs)
               end
           | MLeaf x => match g with Group attrs subs => Group (assoc_set k x attrs) subs end
           end)
    end.

Lemma save_dict_list l g : save_dict (MDict l) g = save_list l g.
Proof. reflexivity. Qed.

Definition g_attrs (g : h5group) := match g with Group a _ => a end.
Definition g_subs (g : h5group) := match g with Group _ s => s end.

Lemma save_list_spec l g :
  NoDup (map fst l) -> NoDup (map fst (g_attrs g)) -> NoDup (map fst (g_subs g)) ->
  NoDup (map fst (g_attrs (save_list l g))) /\ NoDup (map fst (g_subs (save_list l g))) /\
  (forall k, assoc k (g_attrs (save_list l g)) =
     match assoc k l with Some (MLeaf v) => Some v | _ => assoc k (g_attrs g) end) /\
  (forall k, assoc k (g_subs (save_list l g)) =
     match assoc k l with
     | Some (MDict m) => Some (save_dict (MDict m) (require_group g k))
     | _ => assoc k (g_subs g)
     end).
Proof.
  revert g. induction l as [|[q w] t IH]; intros g Hl Ha Hs; [cbn; auto|].
  inversion Hl as [|? ? Hq Ht]; subst. cbn [save_list].
  destruct g as [a s]. cbn [g_attrs g_subs] in *. destruct w as [x|m].
  - destruct (IH (Group (assoc_set q x a) s)) as [N1 [N2 [V1 V2]]]; auto; [now apply assoc_set_nodup|].
    split; [exact N1|]. split; [exact N2|]. split.
    + intros k. rewrite V1. cbn [g_attrs assoc]. rewrite assoc_set_get.
      destruct (Z.eqb_spec k q) as [->|]; [|reflexivity]. rewrite assoc_none by exact Hq. reflexivity.
    + intros k. rewrite V2. cbn [g_subs assoc].
      destruct (Z.eqb_spec k q) as [->|]; [|reflexivity]. now rewrite assoc_none by exact Hq.
  - destruct (IH (Group a (assoc_set q (save_dict (MDict m) (require_group (Group a s) q)) s))) as [N1 [N2 [V1 V2]]];
      auto; [now apply assoc_set_nodup|].
    split; [exact N1|]. split; [exact N2|]. split.
    + intros k. rewrite V1. cbn [g_attrs assoc].
      destruct (Z.eqb_spec k q) as [->|]; [|reflexivity]. now rewrite assoc_none by exact Hq.
    + intros k. rewrite V2. cbn [g_subs assoc require_group]. rewrite !assoc_set_get.
      destruct (Z.eqb_spec k q) as [->|]; [|reflexivity]. now rewrite assoc_none by exact Hq.
Qed.

Lemma load_dict_get g k :
  NoDup (map fst (g_attrs g)) -> NoDup (map fst (g_subs g)) ->
  assoc k (load_dict g) =
  match assoc k (g_subs g) with
  | Some s => Some (MDict (load_dict s))
  | None => match assoc k (g_attrs g) with Some v => Some (MLeaf v) | None => None end
  end.
Proof.
  destruct g as [a s]. cbn [g_attrs g_subs]. intros Ha Hs. cbn [load_dict].
  set (d := fold_left _ a []).
  assert (E : (fix go (subs : list (Z * h5group)) (d : list (Z * meta)) : list (Z * meta) :=
         match subs with
         | [] => d
         | (k, s) :: t => go t (assoc_set k (MDict (load_dict s)) d)
         end) s d = fold_left (fun d a => assoc_set (fst a) (MDict (load_dict (snd a))) d) s d).
  { generalize d. clear. induction s as [|[k g] t IH]; intros d; [reflexivity|]. cbn [fold_left fst snd]. apply IH. }
  rewrite E. rewrite (fold_set (fun x => MDict (load_dict x)) s d k Hs). unfold d.
  rewrite (fold_set MLeaf a [] k Ha). cbn [assoc]. reflexivity.
Qed.

Fixpoint msize (m : meta) : nat :=
  match m with
  | MLeaf _ => 1%nat
  | MDict l => S ((fix go l := match l with [] => O | (_, m) :: t => (msize m + go t)%nat end) l)
  end.

Lemma msize_in k m l : In (k, m) l -> (msize m < msize (MDict l))%nat.
Proof.
  cbn [msize]. intros H. apply Nat.lt_succ_r. induction l as [|[q w] t IH]; [destruct H|].
  destruct H as [H|H]; [injection H as -> ->; lia|]. specialize (IH H). lia.
Qed.

Lemma meta_round_trip n : forall m, (msize m < n)%nat -> meta_ok m ->
  forall l, m = MDict l -> forall path,
  look path (MDict (load_dict (save_dict m (Group [] [])))) = look path m.
Proof.
  induction n as [|n IH]; intros m Hn Hok l ->; [lia|]. intros [|k path]; [reflexivity|].
  inversion Hok as [|? Hnd Hsub]; subst. rewrite save_dict_list.
  destruct (save_list_spec l (Group [] []) Hnd (NoDup_nil _) (NoDup_nil _)) as [N1 [N2 [V1 V2]]].
  cbn [look]. rewrite load_dict_get by assumption. rewrite V1, V2. cbn [g_attrs g_subs assoc].
  destruct (assoc k l) as [[v|m']|] eqn:E; [destruct path; reflexivity| |reflexivity].
  apply assoc_in in E. cbn [require_group assoc].
  apply (IH (MDict m')) with (l := m'); [|now apply (Hsub k)|reflexivity].
  pose proof (msize_in _ _ _ E). lia.
Qed.
