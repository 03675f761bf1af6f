(** Properties C50 - C55: helper functions on sparse arrays and centre-of-mass maps. *)
From Coq Require Import String ZArith List Bool Lia Reals Lra.
From Flocq Require Import Core.
From Verif Require Import Base BaseFacts Double Float32 FloatConv SparseModel SparseSpec SparseProofs SparseSlice
  SparseReduce SparseMeanModel SparseMean SparseProps ComModel HelperModel HelperSpec HelperProofs FilterProofs.
Import ListNotations.
Open Scope Z_scope.

Local Arguments Z.mul : simpl never.
Local Arguments Z.add : simpl never.
Local Arguments Z.pow : simpl never.

Lemma dense_at sa shape D p j :
  wf sa -> to_dense sa = Ok (Dense shape D) -> 0 <= p < num_scans sa -> 0 <= j < frame_size sa ->
  zat D (p * frame_size sa + j) = events (row_at sa p) j.
Proof.
  intros W HD Hp Hj. destruct (C36_dense_values sa W) as (D' & E & _ & V). rewrite HD in E. injection E as _ <-.
  now apply V.
Qed.

Lemma Zlen_pixels {A} sa (g : Z -> A) : wf sa -> Zlen (map g (zseq (frame_size sa))) = frame_size sa.
Proof. intros W. rewrite Zlen_map. apply Zlen_zseq. now apply frame_size_nonneg. Qed.

(** * C50: diffraction pattern of a masked part of the scan *)
Theorem C50_masked_sum sa s0 s1 mask shape D :
  wf sa -> to_dense sa = Ok (Dense shape D) -> sp_scan sa = [s0; s1] -> Zlen mask = s0 * s1 ->
  exists r, mask_real_space sa [s0; s1] mask = Ok r /\ Zlen r = frame_size sa /\
    forall j, 0 <= j < frame_size sa ->
      zat r j = wrapu (sp_bits sa) (masked_sum (num_scans sa) (frame_size sa) D mask j).
Proof.
  intros W HD S L. eexists. split; [now apply mask_real_space_ok|]. split; [now apply Zlen_pixels|].
  intros j Hj. rewrite zat_map_zseq by exact Hj. f_equal. unfold masked_sum. apply zsum_map_ext.
  intros p Hp. apply in_zseq in Hp. destruct (nth (Z.to_nat p) mask false); [|reflexivity].
  symmetry. eapply dense_at; eauto.
Qed.

(** Selecting every position gives [sum] over the scan axes. *)
Theorem C50_full_mask sa s0 s1 :
  wf sa -> sp_scan sa = [s0; s1] ->
  mask_real_space sa [s0; s1] (repeat true (Z.to_nat (s0 * s1))) = sum_scan sa (sp_bits sa).
Proof.
  intros W S. assert (NS : num_scans sa = s0 * s1).
  { unfold num_scans. rewrite S. unfold np_prod. cbn. now rewrite Z.mul_1_r. }
  assert (HP := num_scans_nonneg sa W). rewrite NS in HP.
  rewrite (mask_real_space_ok sa s0 s1) by (auto; rewrite Zlen_repeat; lia). rewrite sum_scan_ok by exact W.
  f_equal. apply map_ext. intros j. f_equal. rewrite (data_rows sa W), map_map. apply zsum_map_ext.
  intros p Hp. apply in_zseq in Hp. rewrite (nth_indep _ false true) by (rewrite repeat_length; lia).
  rewrite nth_repeat. reflexivity.
Qed.

(** A mask and its complement together give every event once. *)
Theorem C50_complement sa s0 s1 mask shape D :
  wf sa -> to_dense sa = Ok (Dense shape D) -> sp_scan sa = [s0; s1] -> Zlen mask = s0 * s1 ->
  exists r r', mask_real_space sa [s0; s1] mask = Ok r /\ mask_real_space sa [s0; s1] (map negb mask) = Ok r' /\
    forall j, 0 <= j < frame_size sa ->
      wrapu (sp_bits sa) (zat r j + zat r' j) =
      wrapu (sp_bits sa) (zsum (along_scan (num_scans sa) (frame_size sa) D j)).
Proof.
  intros W HD S L.
  destruct (C50_masked_sum sa s0 s1 mask shape D W HD S L) as (r & E & _ & V).
  destruct (C50_masked_sum sa s0 s1 (map negb mask) shape D W HD S) as (r' & E' & _ & V').
  { now rewrite Zlen_map. }
  exists r, r'. split; [exact E|]. split; [exact E'|]. intros j Hj. rewrite V, V' by exact Hj.
  unfold wrapu. rewrite <- Zplus_mod. f_equal. unfold masked_sum, along_scan. rewrite <- zsum_map_add.
  apply zsum_map_ext. intros p Hp. apply in_zseq in Hp.
  assert (Hl : (Z.to_nat p < List.length mask)%nat).
  { unfold num_scans in Hp. rewrite S in Hp. unfold np_prod in Hp. cbn in Hp. unfold Zlen in L. lia. }
  rewrite (nth_indep (map negb mask) false (negb true)) by (now rewrite map_length).
  rewrite map_nth, (nth_indep mask true false) by exact Hl.
  destruct (nth (Z.to_nat p) mask false); cbn [negb]; lia.
Qed.

(** A mask of another shape is refused. *)
Theorem C50_wrong_shape sa s0 s1 m0 m1 mask :
  sp_scan sa = [s0; s1] -> [m0; m1] <> [s0; s1] -> mask_real_space sa [m0; m1] mask = assertion_error.
Proof.
  intros S N. unfold mask_real_space. rewrite S.
  destruct (Z.eqb_spec s0 m0) as [->|]; [|reflexivity]. destruct (Z.eqb_spec s1 m1) as [->|]; [|reflexivity].
  now elim N.
Qed.

Example C50_nonvacuous :
  mask_real_space ex_sparse [2; 2] [true; false; false; true] = Ok [2; 0; 2; 2] /\
  mask_real_space ex_sparse [2; 2] [false; true; true; false] = Ok [2; 3; 2; 2].
Proof. split; vm_compute; reflexivity. Qed.

(** * C51: diffraction pattern of counted data *)
(** One event list per position; an event listed twice counts twice. *)
Theorem C51_event_lists counts w h :
  0 <= w * h -> (forall ev e, In ev counts -> In e ev -> 0 <= e < w * h) ->
  exists r, calculate_sum_events counts (w, h) = Ok r /\ Zlen r = w * h /\
    forall j, 0 <= j < w * h -> zat r j = wrapu 64 (zsum (map (fun ev => cnt ev j) counts)).
Proof.
  intros H0 H. eexists. split; [now apply sum_events_ok|].
  split; [rewrite Zlen_map; apply Zlen_zseq; exact H0|].
  intros j Hj. rewrite zat_map_zseq by exact Hj. f_equal.
  clear. induction counts as [|ev t IH]; [reflexivity|]. cbn [concat map zsum]. now rewrite cnt_app, IH.
Qed.

(** A SparseArray's data: the sum of the expanded array over the scan. *)
Theorem C51_sparse_data sa d0 d1 shape D :
  wf sa -> to_dense sa = Ok (Dense shape D) -> d0 * d1 = frame_size sa ->
  exists r, calculate_sum_frames (sp_data sa) (d0, d1) = Ok r /\ Zlen r = frame_size sa /\
    forall j, 0 <= j < frame_size sa ->
      zat r j = wrapu 64 (zsum (along_scan (num_scans sa) (frame_size sa) D j)).
Proof.
  intros W HD E. unfold calculate_sum_frames. cbn [fst snd]. rewrite E.
  exact (C36_sum_scan sa shape D W HD 64).
Qed.

(** An event beyond the given frame raises. *)
Theorem C51_out_of_range counts w h :
  0 <= w * h -> (forall ev e, In ev counts -> In e ev -> 0 <= e) ->
  (exists ev e, In ev counts /\ In e ev /\ w * h <= e) ->
  calculate_sum_events counts (w, h) = index_error.
Proof.
  intros H0 Hn. unfold calculate_sum_events. cbn [fst snd].
  set (step := fun ee dp => let* k := np_index (Zlen dp) ee in let* v := rd dp k in wr dp k (wrapu 64 (v + 1))).
  assert (One : forall ev dp, (forall e, In e ev -> 0 <= e) ->
    (exists e, In e ev /\ Zlen dp <= e) -> for_each ev step dp = index_error).
  { induction ev as [|e t IH]; intros dp Hp (x & Hx & Hb); [inversion Hx|]. cbn [for_each]. unfold step at 1, np_index.
    destruct (Z.ltb_spec e 0) as [B|B]; [specialize (Hp e (or_introl eq_refl)); lia|].
    destruct (Z.leb_spec 0 e); [|lia]. cbn [andb].
    destruct (Z.ltb_spec e (Zlen dp)) as [I|I]; [|reflexivity]. cbn [bind].
    assert (exists v, rd dp e = Ok v) as (v & ->).
    { unfold rd. destruct (Z.ltb_spec e 0); [lia|]. destruct (nth_error dp (Z.to_nat e)) as [v|] eqn:X; [eauto|].
      apply nth_error_None in X. unfold Zlen in I. lia. }
    cbn [bind]. rewrite wr_ok by lia. cbn [bind]. apply IH; [auto with datatypes|].
    exists x. rewrite Zlen_upd. split; [|exact Hb]. destruct Hx as [->|Hx]; [lia|exact Hx]. }
  assert (L : Zlen (repeat 0 (Z.to_nat (w * h))) = w * h) by (rewrite Zlen_repeat; lia).
  revert L. generalize (repeat 0 (Z.to_nat (w * h))).
  induction counts as [|ev t IH]; intros dp L (x & e & Hx & He & Hb); [inversion Hx|]. cbn [for_each].
  destruct (existsb (fun e => Zlen dp <=? e) ev) eqn:X.
  - apply existsb_exists in X as (y & Hy & Hyb). apply Z.leb_le in Hyb.
    rewrite One; [reflexivity|intros; eapply Hn; [now left|eassumption]|eauto].
  - assert (A : forall y, In y ev -> 0 <= y < Zlen dp).
    { intros y Hy. split; [eapply Hn; [now left|exact Hy]|].
      destruct (Z.ltb_spec y (Zlen dp)) as [I|I]; [exact I|]. exfalso.
      assert (existsb (fun e => Zlen dp <=? e) ev = true) as Y
        by (apply existsb_exists; exists y; split; [exact Hy|now apply Z.leb_le]).
      congruence. }
    assert (exists dp', for_each ev step dp = Ok dp' /\ Zlen dp' = Zlen dp) as (dp' & E & L').
    { clear - A step. revert dp A. induction ev as [|y t IH]; intros dp A; [exists dp; auto|]. cbn [for_each]. unfold step at 1. unfold np_index.
      pose proof (A y (or_introl eq_refl)) as B. destruct (Z.ltb_spec y 0); [lia|].
      destruct (Z.leb_spec 0 y); [|lia]. destruct (Z.ltb_spec y (Zlen dp)); [|lia]. cbn [andb bind].
      assert (exists v, rd dp y = Ok v) as (v & ->).
      { unfold rd. destruct (Z.ltb_spec y 0); [lia|]. destruct (nth_error dp (Z.to_nat y)) as [v|] eqn:Q; [eauto|].
        apply nth_error_None in Q. unfold Zlen in B. lia. }
      cbn [bind]. rewrite wr_ok by lia. cbn [bind].
      destruct (IH (upd dp (Z.to_nat y) (wrapu 64 (v + 1)))) as (d & E & L).
      - rewrite Zlen_upd. auto with datatypes.
      - exists d. split; [exact E|]. now rewrite L, Zlen_upd. }
    rewrite E. cbn [bind]. apply IH.
    + intros; eapply Hn; [right|]; eassumption.
    + congruence.
    + destruct Hx as [->|Hx]; [specialize (A e He); lia|]. eauto.
Qed.

Example C51_nonvacuous :
  calculate_sum_events [[0; 3; 3]; []; [5]] (2, 3) = Ok [1; 0; 0; 2; 0; 1] /\
  calculate_sum_events [[0; 3]; [6]] (2, 3) = index_error /\
  calculate_sum_frames (sp_data ex_sparse) (2, 2) = Ok [4; 3; 4; 4].
Proof. repeat split; vm_compute; reflexivity. Qed.

(** * C52: virtual dark field *)
Lemma region_as_sum sa h w D p Q shape :
  wf sa -> to_dense sa = Ok (Dense shape D) -> frame_size sa = h * w -> 0 < w -> 0 <= h -> 0 <= p < num_scans sa ->
  region_sum h w D p Q =
  zsum (map (fun j => if Q (j / w) (j mod w) then events (row_at sa p) j else 0) (zseq (frame_size sa))).
Proof.
  intros W HD F Hw Hh Hp. rewrite F, (Z.mul_comm h w), zsum_grid by lia. unfold region_sum.
  apply zsum_map_ext. intros row Hr. apply in_zseq in Hr. apply zsum_map_ext. intros col Hc. apply in_zseq in Hc.
  rewrite Z.div_add_l, (Z.div_small col w), Z.add_0_r by lia.
  rewrite (Z.add_comm (row * w)), Z_mod_plus_full, Z.mod_small by lia. rewrite (Z.add_comm col).
  destruct (Q row col); [|reflexivity]. rewrite <- F. eapply dense_at; eauto. rewrite F. nia.
Qed.

Lemma frame_size2 sa h w : sp_frame sa = [h; w] -> frame_size sa = h * w.
Proof. intros E. unfold frame_size. rewrite E. unfold np_prod. cbn. now rewrite Z.mul_1_r. Qed.

(** Square frames: every value is the sum over the apertures of the electrons
    closer to the aperture's centre than its radius.  The first centre argument
    is the column and the second the row.  Three argument tuples of different
    lengths are cut to the shortest.  Integer arguments; the squared distances
    to every pixel below 2^32. *)
Theorem C52_virtual_darkfield sa w s0 s1 centers_x centers_y radii shape D :
  wf sa -> to_dense sa = Ok (Dense shape D) -> sp_scan sa = [s0; s1] -> sp_frame sa = [w; w] -> 0 < w ->
  (forall cx cy r, In (cx, (cy, r)) (combine centers_x (combine centers_y radii)) ->
     0 <= cx < 2 ^ 32 /\ 0 <= cy < 2 ^ 32 /\ 0 <= r <= 2 ^ 25 /\
     forall row col, 0 <= row < w -> 0 <= col < w -> sqdist cy cx row col < 2 ^ 32) ->
  exists img, virtual_darkfield sa centers_x centers_y radii = Ok img /\ Zlen img = num_scans sa /\
    forall p, 0 <= p < num_scans sa ->
      zat img p = wrapu (sp_bits sa) (zsum (map (fun '(cx, (cy, r)) => region_sum w w D p (disc cy cx r))
                                             (combine centers_x (combine centers_y radii)))).
Proof.
  intros W HD S F Hw Lim. assert (FS := frame_size2 sa w w F).
  eexists. split; [apply (vdf_ok sa w w s0 s1); auto|].
  - intros cx cy r H. destruct (Lim cx cy r H) as (A & B & C & E). repeat split; try lia. intros e He. apply E.
    + split; [apply Z.div_pos; lia|apply Z.div_lt_upper_bound; lia].
    + apply Z.mod_pos_bound; lia.
  - split; [rewrite Zlen_map; apply (wf_len sa W)|]. intros p Hp.
    rewrite (zat_map_rows sa W) by exact Hp. f_equal. apply zsum_map_ext. intros (cx & cy & r) H.
    symmetry. apply (region_as_sum sa w w D p (disc cy cx r) shape); auto; lia.
Qed.

Example C52_nonvacuous :
  virtual_darkfield ex_sparse [0; 1] [0; 1] [1; 1] = Ok [3; 0; 4; 1] /\
  virtual_darkfield ex_sparse [1] [0] [1] = Ok [0; 1; 2; 0] /\
  virtual_darkfield ex_sparse [0] [0] [2] = Ok [3; 1; 8; 3].
Proof. repeat split; vm_compute; reflexivity. Qed.

(** The documentation says that [centers_x] is the row: it is the column. *)
Definition one_event (e : Z) (frame : list Z) : sparse := mkSparse [[[e]]] 1 [1; 1] frame 32 true true.

Theorem C52_row_column_swapped_refuted :
  (* one electron at row 1, column 0; aperture around row 1, column 0 as documented *)
  virtual_darkfield (one_event 2 [2; 2]) [1] [0] [1] = Ok [0] /\
  virtual_darkfield (one_event 2 [2; 2]) [0] [1] [1] = Ok [1].
Proof. split; vm_compute; reflexivity. Qed.

(** Frames that are not square: the row is computed with the number of rows. *)
Theorem C52_not_square_refuted :
  (* one electron at row 0, column 3 of a 2 x 4 frame is taken to be in row 1 *)
  virtual_darkfield (one_event 3 [2; 4]) [3] [0] [1] = Ok [0] /\
  virtual_darkfield (one_event 3 [2; 4]) [3] [1] [1] = Ok [1].
Proof. split; vm_compute; reflexivity. Qed.

(** A centre 65536 columns away selects the electron at column 0: the square
    wraps to 0. *)
Theorem C52_far_centre_refuted : virtual_darkfield (one_event 0 [2; 2]) [65536] [0] [1] = Ok [1].
Proof. vm_compute. reflexivity. Qed.

(** * C53: radial sum of sparse data *)
Theorem C53_radial_sum_sparse sa h w s0 s1 r0 c0 shape D :
  wf sa -> to_dense sa = Ok (Dense shape D) -> sp_scan sa = [s0; s1] -> sp_frame sa = [h; w] ->
  0 < h <= 2 ^ 24 -> 0 < w <= 2 ^ 24 -> Z.abs r0 <= 2 ^ 24 -> Z.abs c0 <= 2 ^ 24 ->
  let n := Z.max h w / 2 in
  exists rows, radial_sum_sparse sa (r0, c0) = Ok rows /\ Zlen rows = num_scans sa /\
    forall p, 0 <= p < num_scans sa ->
      exists bins, nth_error rows (Z.to_nat p) = Some bins /\ Zlen bins = n /\
        forall k, 0 <= k < n -> zat bins k = region_sum h w D p (ring n k r0 c0).
Proof.
  intros W HD S F Hh Hw Hr Hc n. assert (FS := frame_size2 sa h w F).
  eexists. split; [apply (radial_ok sa h w s0 s1 (r0, c0)); auto|].
  split; [rewrite Zlen_map; apply (wf_len sa W)|]. intros p Hp.
  rewrite nth_error_map, (data_rows sa W), nth_error_map.
  assert (nth_error (zseq (num_scans sa)) (Z.to_nat p) = Some p) as ->.
  { unfold zseq. rewrite nth_error_map, (nth_error_nth' _ 0%nat) by (rewrite seq_length; lia).
    rewrite seq_nth by lia. cbn [option_map]. now rewrite Nat.add_0_l, Z2Nat.id by lia. }
  cbn [option_map].
  eexists. split; [reflexivity|]. assert (0 <= n) by (apply Z.div_pos; lia).
  split; [rewrite Zlen_map; apply Zlen_zseq; fold n; lia|]. fold n. intros k Hk.
  rewrite zat_map_zseq by exact Hk. symmetry.
  apply (region_as_sum sa h w D p (ring n k r0 c0) shape); auto; lia.
Qed.

(** Every electron no further from the centre than half the larger frame side
    is counted in exactly one bin, the others in none: the bins add up to the
    electrons in the closed disc. *)
Theorem C53_conservation sa h w s0 s1 r0 c0 shape D :
  wf sa -> to_dense sa = Ok (Dense shape D) -> sp_scan sa = [s0; s1] -> sp_frame sa = [h; w] ->
  0 < h <= 2 ^ 24 -> 0 < w <= 2 ^ 24 -> Z.abs r0 <= 2 ^ 24 -> Z.abs c0 <= 2 ^ 24 ->
  let n := Z.max h w / 2 in
  0 < n ->
  exists rows, radial_sum_sparse sa (r0, c0) = Ok rows /\
    forall p bins, 0 <= p < num_scans sa -> nth_error rows (Z.to_nat p) = Some bins ->
      zsum bins = region_sum h w D p (fun row col => sqdist r0 c0 row col <=? n * n).
Proof.
  intros W HD S F Hh Hw Hr Hc n Hn.
  destruct (C53_radial_sum_sparse sa h w s0 s1 r0 c0 shape D W HD S F Hh Hw Hr Hc) as (rows & E & _ & V).
  fold n in V. exists rows. split; [exact E|]. intros p bins Hp Hb. destruct (V p Hp) as (b & Hb' & L & Vb).
  rewrite Hb in Hb'. injection Hb' as <-. clear V Hb E.
  assert (Eb : bins = map (fun k => region_sum h w D p (ring n k r0 c0)) (zseq n)) by (now apply eq_map_zseq).
  rewrite Eb. unfold region_sum. rewrite zsum_swap. apply zsum_map_ext. intros row Hrow. apply in_zseq in Hrow.
  rewrite zsum_swap. apply zsum_map_ext. intros col Hcol. apply in_zseq in Hcol.
  set (v := zat D _). assert (Hd := sqdist_nonneg r0 c0 row col). set (d := sqdist r0 c0 row col) in *.
  assert (Hk : exists k, 0 <= k < n + 1 /\ (k * k <= d < (k + 1) * (k + 1) \/ (n * n < d /\ k = n))).
  { destruct (Z.ltb_spec (n * n) d); [exists n; lia|]. exists (Z.sqrt d).
    pose proof (Z.sqrt_spec d Hd) as Q. unfold Z.succ in Q. assert (0 <= Z.sqrt d) by apply Z.sqrt_nonneg.
    split; [|left; lia]. split; [lia|]. nia. }
  destruct Hk as (k & Kr & Kd).
  rewrite (zsum_map_ext _ (fun i => if i =? Z.min k (n - 1) then (if d <=? n * n then v else 0) else 0)).
  - rewrite (zsum_indicator (fun _ => if d <=? n * n then v else 0)); [reflexivity|]. lia.
  - intros i Hi. apply in_zseq in Hi. unfold ring. fold d. cbv zeta.
    destruct (Z.eqb_spec i (Z.min k (n - 1))) as [Ei|Ei].
    + destruct (Z.leb_spec d (n * n)) as [B|B].
      * destruct Kd as [Kd|Kd]; [|lia].
        destruct (Z.leb_spec (i * i) d) as [C|C]; [|exfalso; nia]. cbn [andb].
        destruct (Z.eqb_spec i (n - 1)) as [G|G].
        -- destruct (Z.leb_spec d (n * n)); [reflexivity|lia].
        -- destruct (Z.ltb_spec d ((i + 1) * (i + 1))) as [Q|Q]; [reflexivity|exfalso; assert (i = k) by lia; subst i; lia].
      * destruct (Z.leb_spec (i * i) d) as [C|C]; cbn [andb]; [|reflexivity].
        destruct (Z.eqb_spec i (n - 1)) as [G|G].
        -- destruct (Z.leb_spec d (n * n)); [lia|reflexivity].
        -- destruct (Z.ltb_spec d ((i + 1) * (i + 1))) as [Q|Q]; [exfalso; nia|reflexivity].
    + destruct (Z.leb_spec (i * i) d) as [C|C]; cbn [andb]; [|reflexivity].
      destruct (Z.eqb_spec i (n - 1)) as [G|G].
      * destruct (Z.leb_spec d (n * n)) as [B|B]; [exfalso|reflexivity].
        destruct Kd as [Kd|Kd]; [|lia]. assert (k < n - 1) by lia. nia.
      * destruct (Z.ltb_spec d ((i + 1) * (i + 1))) as [Q|Q]; [exfalso|reflexivity].
        destruct Kd as [Kd|Kd]; [|nia]. assert (i < k \/ k < i) as [?|?] by lia; nia.
Qed.

Definition ex_radial_sparse : sparse :=
  mkSparse [[[0; 5; 10]; [15]]] 2 [1; 1] [4; 4] 32 true true.

Example C53_nonvacuous :
  (* a 4 x 4 frame around (1, 1): distances sqrt 2, 0, sqrt 2 and sqrt 8 (outside) *)
  radial_sum_sparse ex_radial_sparse (1, 1) = Ok [[1; 2]] /\
  radial_sum_sparse ex_sparse (0, 0) = Ok [[1]; [1]; [6]; [3]].
Proof. split; vm_compute; reflexivity. Qed.

(** The last bin also takes the electrons at distance exactly n. *)
(** One electron at row 0, column 1 and the centre at that pixel, then at row 1. *)
Example C53_off_diagonal_centre :
  radial_sum_sparse (one_event 1 [4; 4]) (0, 1) = Ok [[1; 0]] /\
  radial_sum_sparse (one_event 1 [4; 4]) (1, 1) = Ok [[0; 1]] /\
  radial_sum_sparse (one_event 4 [4; 4]) (1, 0) = Ok [[1; 0]].
Proof. repeat split; vm_compute; reflexivity. Qed.

Theorem C53_last_bin_closed_refuted :
  (* one electron at row 0, column 2 of a 4 x 4 frame, centre (0, 0): distance
     2 is not in [1, 2) but is counted there *)
  radial_sum_sparse (one_event 2 [4; 4]) (0, 0) = Ok [[0; 1]] /\
  radial_sum_sparse (one_event 1 [4; 4]) (0, 0) = Ok [[0; 1]].
Proof. split; vm_compute; reflexivity. Qed.

(** * C54: replacing bad centre-of-mass values *)

(** Position q is bad: its horizontal value lies outside the cutoffs. *)
Definition outside (com1 : list float32) (cut0 cut1 : float32) (q : Z) : bool :=
  f_lt cut1 (getf com1 q) || f_lt (getf com1 q) cut0.

(** Numbers, not too large. *)
Definition tame (c : list float32) : Prop :=
  forall x, In x c -> f_nan x = true \/ within (- bpow radix2 90) (bpow radix2 90) x.

Lemma format_bpow90 : generic_format radix2 f_exp (bpow radix2 90).
Proof. apply generic_format_FLT_bpow; [reflexivity|lia]. Qed.

Lemma in_window m n c i j x : In x (window m n c i j) -> In x c \/ x = f_NaN.
Proof.
  unfold window. rewrite in_flat_map. intros (a & _ & H). apply in_map_iff in H as (b & <- & _).
  destruct (nth_in_or_default (Z.to_nat (a * n + b)) c f_NaN); auto.
Qed.

Lemma in_getf c x : In x c -> exists q, 0 <= q < Zlen c /\ getf c q = x.
Proof.
  intros H. apply In_nth_error in H as (k & Hk). exists (Z.of_nat k).
  assert (k < List.length c)%nat by (apply nth_error_Some; congruence).
  split; [unfold Zlen; lia|]. unfold getf. rewrite Nat2Z.id. now apply nth_error_nth.
Qed.

Lemma getf_in c q : 0 <= q < Zlen c -> In (getf c q) c.
Proof. intros H. apply nth_In. unfold Zlen in H. lia. Qed.

(** Whatever holds of NaN, of the good values and is kept by medians holds of
    the results. *)
Lemma settled_all m n com1 cut0 cut1 com c (lo hi : R) :
  Zlen com = m * n ->
  generic_format radix2 f_exp lo -> generic_format radix2 f_exp hi ->
  (- bpow radix2 90 <= lo)%R -> (hi <= bpow radix2 90)%R ->
  settled m n com1 cut0 cut1 com c (m * n) ->
  (forall q, 0 <= q < m * n -> outside com1 cut0 cut1 q = false ->
     f_nan (getf com q) = true \/ within lo hi (getf com q)) ->
  forall q, 0 <= q < m * n -> f_nan (getf c q) = true \/ within lo hi (getf c q).
Proof.
  intros L Fl Fh Bl Bh (Lc & A & F) G q Hq.
  assert (0 <= q) as Hq0 by lia. revert q Hq0 Hq. apply (Zlt_0_ind (fun q => 0 <= q < m * n ->
    f_nan (getf c q) = true \/ within lo hi (getf c q))).
  intros q IH _ Hq. destruct (outside com1 cut0 cut1 q) eqn:B.
  - rewrite (F q Hq B). apply nanmedian_ok; auto. intros x Hx. apply in_window in Hx as [Hx| ->]; [|now left].
    unfold as_seen in Hx. apply in_map_iff in Hx as (r & <- & Hr). apply in_zseq in Hr. rewrite L in Hr.
    destruct (Z.ltb_spec r q); [apply IH; lia|]. destruct (is_bad com1 cut0 cut1 r) eqn:Br; [now left|].
    apply G; auto.
  - rewrite A by (auto; now right). unfold blanked. rewrite L, getf_map by exact Hq.
    unfold outside in B. unfold is_bad. rewrite B. now apply G.
Qed.

Lemma seen_tame m n com1 cut0 cut1 com c q :
  Zlen com = m * n -> tame com -> settled m n com1 cut0 cut1 com c (m * n) -> 0 <= q < m * n ->
  forall x, In x (window m n (as_seen (is_bad com1 cut0 cut1) com c q) (q / n) (q mod n)) ->
    f_nan x = true \/ within (- bpow radix2 90) (bpow radix2 90) x.
Proof.
  intros L T S Hq x Hx. apply in_window in Hx as [Hx| ->]; [|now left].
  unfold as_seen in Hx. apply in_map_iff in Hx as (r & <- & Hr). apply in_zseq in Hr. rewrite L in Hr.
  destruct (Z.ltb_spec r q).
  - apply (settled_all m n com1 cut0 cut1 com c); auto; try lra; try lia.
    + apply generic_format_opp, format_bpow90.
    + apply format_bpow90.
    + intros k Hk _. apply T, getf_in. lia.
  - destruct (is_bad com1 cut0 cut1 r); [now left|]. apply T, getf_in. lia.
Qed.

(** Good positions keep both values; a bad position not in the first row or
    column gets, in both components, the median of the numbers next to it, in
    scan order: the values already filled in at earlier positions count, the
    bad ones still to come do not. *)
Theorem C54_filter_values m n com0 com1 cut0 cut1 :
  0 < m -> 0 < n -> Zlen com0 = m * n -> Zlen com1 = m * n -> tame com0 -> tame com1 ->
  exists r0 r1, filter_bad_sectors m n com0 com1 cut0 cut1 = Ok (r0, r1) /\
    Zlen r0 = m * n /\ Zlen r1 = m * n /\
    (forall q, 0 <= q < m * n -> outside com1 cut0 cut1 q = false ->
       getf r0 q = getf com0 q /\ getf r1 q = getf com1 q) /\
    (forall i j, 0 < i < m -> 0 < j < n -> outside com1 cut0 cut1 (i * n + j) = true ->
       let bad := outside com1 cut0 cut1 in
       is_nanmedian (neighbours m n (as_seen bad com0 r0 (i * n + j)) i j) (getf r0 (i * n + j)) /\
       is_nanmedian (neighbours m n (as_seen bad com1 r1 (i * n + j)) i j) (getf r1 (i * n + j))).
Proof.
  intros Hm Hn L0 L1 T0 T1.
  destruct (filter_ok m n com0 com1 cut0 cut1 L0 L1 ltac:(nia)) as (r0 & r1 & E & S0 & S1).
  exists r0, r1. split; [exact E|]. split; [apply S0|]. split; [apply S1|]. split.
  - intros q Hq B. destruct S0 as (_ & A0 & _), S1 as (_ & A1 & _).
    rewrite A0, A1 by (auto; now right). unfold blanked. rewrite L0, L1, !getf_map by exact Hq.
    change (is_bad com1 cut0 cut1 q) with (outside com1 cut0 cut1 q). rewrite B. auto.
  - intros i j Hi Hj B bad.
    assert (Hq : 0 <= i * n + j < m * n) by (apply flat_range; lia).
    assert (Di : (i * n + j) / n = i) by (rewrite Z.div_add_l, Z.div_small by lia; lia).
    assert (Dj : (i * n + j) mod n = j) by (rewrite Z.add_comm, Z_mod_plus_full, Z.mod_small by lia; lia).
    assert (One : forall com c, Zlen com = m * n -> tame com -> settled m n com1 cut0 cut1 com c (m * n) ->
      is_nanmedian (neighbours m n (as_seen bad com c (i * n + j)) i j) (getf c (i * n + j))).
    { intros com c L T S. pose proof (seen_tame m n com1 cut0 cut1 com c (i * n + j) L T S Hq) as X.
      pose proof S as (Lc & _ & F). rewrite (F _ Hq B). rewrite Di, Dj in *.
      change (is_bad com1 cut0 cut1) with bad in *.
      assert (La : Zlen (as_seen bad com c (i * n + j)) = m * n).
      { unfold as_seen. rewrite Zlen_map, Zlen_zseq by apply Zlen_nonneg. exact L. }
      rewrite window_interior in * by (auto; lia).
      apply (nanmedian_ok (- bpow radix2 90) (bpow radix2 90)); auto; try lra.
      - apply generic_format_opp, format_bpow90.
      - apply format_bpow90. }
    split; apply One; assumption.
Qed.

(** No horizontal value outside the cutoffs remains: each result is NaN or lies
    between them. *)
Theorem C54_filter_range m n com0 com1 cut0 cut1 lo hi :
  0 < m -> 0 < n -> Zlen com0 = m * n -> Zlen com1 = m * n -> tame com1 ->
  fval cut0 lo -> fval cut1 hi -> (- bpow radix2 90 <= lo)%R -> (hi <= bpow radix2 90)%R ->
  exists r0 r1, filter_bad_sectors m n com0 com1 cut0 cut1 = Ok (r0, r1) /\
    forall q, 0 <= q < m * n ->
      f_nan (getf r1 q) = true \/ exists v, fval (getf r1 q) v /\ (lo <= v <= hi)%R.
Proof.
  intros Hm Hn L0 L1 T1 Fl Fh Bl Bh.
  destruct (filter_ok m n com0 com1 cut0 cut1 L0 L1 ltac:(nia)) as (r0 & r1 & E & S0 & S1).
  exists r0, r1. split; [exact E|].
  apply (settled_all m n com1 cut0 cut1 com1 r1 lo hi); auto; try (eapply fval_format; eassumption).
  intros q Hq B. destruct (T1 (getf com1 q)) as [N|(a & Fa & _)]; [apply getf_in; lia|now left|right].
  exists a. split; [exact Fa|]. apply orb_false_iff in B as [B1 B2]. unfold f_lt in B1, B2.
  change (Flocq.IEEE754.Binary.Bcompare 24 128) with Flocq.IEEE754.Bits.b32_compare in B1, B2.
  rewrite (fval_compare _ _ hi a Fh Fa) in B1. rewrite (fval_compare _ _ a lo Fa Fl) in B2.
  destruct (Rcompare_spec hi a), (Rcompare_spec a lo); try discriminate; lra.
Qed.

(** A bad interior position next to a good number gets a number. *)
Theorem C54_filter_fills m n com0 com1 cut0 cut1 i j i' j' :
  0 < m -> 0 < n -> Zlen com0 = m * n -> Zlen com1 = m * n -> tame com0 -> tame com1 ->
  0 < i < m -> 0 < j < n -> outside com1 cut0 cut1 (i * n + j) = true ->
  0 <= i' < m -> 0 <= j' < n -> Z.abs (i' - i) <= 1 -> Z.abs (j' - j) <= 1 ->
  outside com1 cut0 cut1 (i' * n + j') = false -> f_nan (getf com1 (i' * n + j')) = false ->
  exists r0 r1, filter_bad_sectors m n com0 com1 cut0 cut1 = Ok (r0, r1) /\ f_nan (getf r1 (i * n + j)) = false.
Proof.
  intros Hm Hn L0 L1 T0 T1 Hi Hj B Hi' Hj' Ai Aj G N.
  destruct (filter_ok m n com0 com1 cut0 cut1 L0 L1 ltac:(nia)) as (r0 & r1 & E & S0 & S1).
  exists r0, r1. split; [exact E|].
  assert (Hq : 0 <= i * n + j < m * n) by (apply flat_range; lia).
  assert (Hq' : 0 <= i' * n + j' < m * n) by (apply flat_range; lia).
  assert (Di : (i * n + j) / n = i) by (rewrite Z.div_add_l, Z.div_small by lia; lia).
  assert (Dj : (i * n + j) mod n = j) by (rewrite Z.add_comm, Z_mod_plus_full, Z.mod_small by lia; lia).
  pose proof (seen_tame m n com1 cut0 cut1 com1 r1 (i * n + j) L1 T1 S1 Hq) as X.
  pose proof S1 as (Lc & A & F). rewrite (F _ Hq B). rewrite Di, Dj in *.
  set (seen := as_seen _ _ _ _) in *.
  assert (La : Zlen seen = m * n).
  { unfold seen, as_seen. rewrite Zlen_map, Zlen_zseq by apply Zlen_nonneg. exact L1. }
  destruct (f_nan (np_nanmedian (window m n seen i j))) eqn:Z; [|reflexivity]. exfalso.
  assert (Fn := format_bpow90).
  destruct (nanmedian_ok (- bpow radix2 90) (bpow radix2 90) (window m n seen i j)) as (_ & _ & All); auto; try lra.
  { apply generic_format_opp, format_bpow90. }
  assert (V : getf seen (i' * n + j') = getf com1 (i' * n + j')).
  { unfold seen, as_seen. rewrite L1, getf_map by exact Hq'.
    change (is_bad com1 cut0 cut1) with (outside com1 cut0 cut1). rewrite G.
    destruct (_ <? _); [|reflexivity]. rewrite A by (auto; now right). unfold blanked. rewrite L1, getf_map by exact Hq'.
    change (is_bad com1 cut0 cut1) with (outside com1 cut0 cut1). now rewrite G. }
  specialize (All Z (getf com1 (i' * n + j'))). rewrite N in All. discriminate All.
  rewrite window_interior by (auto; lia). unfold neighbours. apply in_flat_map. exists i'.
  split; [now apply in_zseq|]. apply in_flat_map. exists j'. split; [now apply in_zseq|].
  destruct (Z.leb_spec (Z.abs (i' - i)) 1); [|lia]. destruct (Z.leb_spec (Z.abs (j' - j)) 1); [|lia]. cbn [andb].
  rewrite <- V. unfold getf. rewrite (nth_error_nth' _ f_NaN); [now left|]. unfold Zlen in La. lia.
Qed.

(** Finding: in the first row or column of an array of at least three rows and
    columns the slice starts at -1 and is empty, so a bad value there becomes
    NaN, whatever its neighbours are. *)
Theorem C54_first_row_refuted m n com0 com1 cut0 cut1 i j :
  3 <= m -> 3 <= n -> Zlen com0 = m * n -> Zlen com1 = m * n ->
  0 <= i < m -> 0 <= j < n -> i = 0 \/ j = 0 -> outside com1 cut0 cut1 (i * n + j) = true ->
  exists r0 r1, filter_bad_sectors m n com0 com1 cut0 cut1 = Ok (r0, r1) /\
    f_nan (getf r0 (i * n + j)) = true /\ f_nan (getf r1 (i * n + j)) = true.
Proof.
  intros Hm Hn L0 L1 Hi Hj Z B.
  destruct (filter_ok m n com0 com1 cut0 cut1 L0 L1 ltac:(nia)) as (r0 & r1 & E & S0 & S1).
  exists r0, r1. split; [exact E|].
  assert (Hq : 0 <= i * n + j < m * n) by (apply flat_range; lia).
  assert (Di : (i * n + j) / n = i) by (rewrite Z.div_add_l, Z.div_small by lia; lia).
  assert (Dj : (i * n + j) mod n = j) by (rewrite Z.add_comm, Z_mod_plus_full, Z.mod_small by lia; lia).
  destruct S0 as (_ & _ & F0), S1 as (_ & _ & F1).
  rewrite (F0 _ Hq B), (F1 _ Hq B), Di, Dj, !window_first by (destruct Z; auto). split; reflexivity.
Qed.

(** The example: 3 x 3, the centre is an outlier. *)
Definition ex_com : list float32 := map f_of_Z [1; 2; 3; 4; 90; 6; 7; 8; 10].
Example C54_nonvacuous :
  match filter_bad_sectors 3 3 ex_com ex_com (f_of_Z 0) (f_of_Z 50) with
  | Ok (r0, r1) =>
      (* the median of 1 2 3 4 6 7 8 10 *)
      (f_eq (getf r1 4) (f_of_Z 5) && f_eq (getf r0 4) (f_of_Z 5) && f_eq (getf r1 0) (f_of_Z 1))%bool
  | _ => false
  end = true /\
  outside ex_com (f_of_Z 0) (f_of_Z 50) 4 = true /\ outside ex_com (f_of_Z 0) (f_of_Z 50) 0 = false.
Proof. repeat split; vm_compute; reflexivity. Qed.
Example C54_tame : tame ex_com.
Proof.
  intros x Hx. right. apply in_map_iff in Hx as (z & <- & Hz).
  assert (Hz' : 0 <= z <= 100) by (cbn in Hz; intuition lia).
  exists (IZR z). split; [apply fval_exact; change (2 ^ 24) with 16777216; lia|].
  assert (0 <= IZR z <= 100)%R by (split; apply IZR_le; lia).
  assert (128 <= bpow radix2 90)%R by (change 128%R with (bpow radix2 7); apply bpow_le; lia). lra.
Qed.

(** * C55: casting without loss of precision *)

(** If every value is a single precision number the result has the same values... *)
Theorem C55_safe_cast_exact (a : list double) (v : Z -> R) :
  (forall i x, 0 <= i -> nth_error a (Z.to_nat i) = Some x -> dval x (v i) /\ (Rabs (v i) <= bpow radix2 90)%R) ->
  (forall i, 0 <= i < Zlen a -> generic_format radix2 f_exp (v i)) ->
  exists r, safe_cast a = Ok r /\ Zlen r = Zlen a /\
    forall i x, 0 <= i -> nth_error r (Z.to_nat i) = Some x -> fval x (v i).
Proof.
  intros H F. apply safe_cast_ok; auto. intros i Hi. apply f_rnd_id. auto.
Qed.

(** ... and if one value is not, the call raises. *)
Theorem C55_safe_cast_raises (a : list double) x r :
  In x a -> dval x r -> (Rabs r <= bpow radix2 90)%R -> ~ generic_format radix2 f_exp r ->
  safe_cast a = value_error.
Proof.
  intros Hx D B N. apply (safe_cast_raise a x Hx). right. exists r. split; [exact D|]. split; [exact B|].
  intros E. apply N. rewrite <- E. apply generic_format_round; auto with typeclass_instances.
Qed.

(** NaN is refused too (it differs from itself). *)
Theorem C55_safe_cast_nan (a : list double) : In d_NaN a -> safe_cast a = value_error.
Proof. intros H. apply (safe_cast_raise a d_NaN H). left. reflexivity. Qed.

(** Gains that are powers of two are accepted and inverted exactly; a double
    precision gain of 3 makes [electron_count] raise, because 1/3 is not a
    single precision number. *)
Theorem C55_gain_power_of_two (g : list Z) :
  (forall k, In k g -> 0 <= k <= 52) ->
  exists r, prepare_gain (map (fun k => d_of_Z (2 ^ k)) g) = Ok r /\ Zlen r = Zlen g /\
    forall i x, 0 <= i -> nth_error r (Z.to_nat i) = Some x -> fval x (1 / IZR (2 ^ zat g i)).
Proof.
  intros H. unfold prepare_gain. rewrite map_map.
  assert (P : forall k, 0 <= k <= 52 -> (1 / IZR (2 ^ k) = bpow radix2 (- k))%R).
  { intros k Hk. rewrite bpow_opp, <- (IZR_Zpower radix2 k) by lia. unfold Rdiv. rewrite Rmult_1_l. reflexivity. }
  assert (B : forall k, 0 <= k <= 52 -> (Rabs (1 / IZR (2 ^ k)) <= bpow radix2 0)%R).
  { intros k Hk. rewrite P by exact Hk. rewrite Rabs_pos_eq by apply bpow_ge_0. apply bpow_le. lia. }
  destruct (C55_safe_cast_exact (map (fun k => d_div (d_of_Z 1) (d_of_Z (2 ^ k))) g) (fun i => (1 / IZR (2 ^ zat g i))%R))
    as (r & E & L & V).
  - intros i x Hi Hx. rewrite nth_error_map in Hx. destruct (nth_error g (Z.to_nat i)) as [k|] eqn:Ek; [|discriminate].
    injection Hx as <-. assert (Hk : 0 <= k <= 52) by (apply H; eapply nth_error_In, Ek).
    assert (Ez : zat g i = k) by (unfold zat; destruct (Z.ltb_spec i 0); [lia|now apply nth_error_nth]). rewrite Ez. split.
    + assert (G : generic_format radix2 d_exp (1 / IZR (2 ^ k))).
      { rewrite P by exact Hk. apply generic_format_FLT_bpow; [reflexivity|lia]. }
      rewrite <- (d_rnd_id _ G). apply dval_div.
      * apply dval_of_int. lia.
      * apply dval_of_int. rewrite Z.abs_eq by (apply Z.pow_nonneg; lia). apply Z.pow_le_mono_r; lia.
      * apply IZR_neq. pose proof (Z.pow_pos_nonneg 2 k). lia.
      * apply Rle_trans with (1 := B k Hk). apply bpow_le. lia.
    + apply Rle_trans with (1 := B k Hk). apply bpow_le. lia.
  - intros i Hi. rewrite Zlen_map in Hi. assert (Hk : 0 <= zat g i <= 52).
    { apply H. unfold zat. destruct (Z.ltb_spec i 0); [lia|]. apply nth_In. unfold Zlen in Hi. lia. }
    rewrite P by exact Hk. apply generic_format_FLT_bpow; [reflexivity|lia].
  - exists r. rewrite E, L, Zlen_map. auto.
Qed.

Example C55_nonvacuous : forall k, In k [0; 1; 5; 52] -> 0 <= k <= 52.
Proof. intros k Hk. cbn in Hk. intuition lia. Qed.

Theorem C55_gain_refuted : prepare_gain [d_of_Z 3] = value_error.
Proof. vm_compute. reflexivity. Qed.

Print Assumptions C50_masked_sum.
Print Assumptions C50_full_mask.
Print Assumptions C50_complement.
Print Assumptions C50_wrong_shape.
Print Assumptions C51_event_lists.
Print Assumptions C51_sparse_data.
Print Assumptions C51_out_of_range.
Print Assumptions C52_virtual_darkfield.
Print Assumptions C52_row_column_swapped_refuted.
Print Assumptions C52_not_square_refuted.
Print Assumptions C52_far_centre_refuted.
Print Assumptions C53_radial_sum_sparse.
Print Assumptions C53_conservation.
Print Assumptions C53_last_bin_closed_refuted.
Print Assumptions C54_filter_values.
Print Assumptions C54_filter_range.
Print Assumptions C54_filter_fills.
Print Assumptions C54_first_row_refuted.
Print Assumptions C55_safe_cast_exact.
Print Assumptions C55_safe_cast_raises.
Print Assumptions C55_safe_cast_nan.
Print Assumptions C55_gain_power_of_two.
Print Assumptions C55_gain_refuted.
