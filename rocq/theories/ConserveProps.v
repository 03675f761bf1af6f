(** C83: no call on a sparse array loses or invents electrons.  Vocabulary in
    ConserveSpec.v. *)
From Coq Require Import String ZArith List Bool Lia.
From Verif Require Import Base BaseFacts Float32 SparseModel SparseSpec SparseProofs SparseReduce SparseBin SparseSlice SparseProps
  AxisModel MeanModel CallsModel CallsSpec CallsProps CallsPlain SparseFileModel SparseFileSpec SparseFileProps SessionModel SessionSpec SessionProps ConserveSpec.
Import ListNotations.
Open Scope list_scope.
Open Scope Z_scope.

Lemma zsum_flat_map {A} (g : A -> list Z) l : zsum (flat_map g l) = zsum (map (fun x => zsum (g x)) l).
Proof. induction l as [|x t IH]; [reflexivity|]. cbn [flat_map map zsum]. now rewrite zsum_app, IH. Qed.

Lemma zsum_blocks (g : Z -> Z) n m : 0 <= n -> 0 <= m ->
  zsum (map g (zseq (n * m))) = zsum (map (fun i => zsum (map (fun j => g (i * m + j)) (zseq m))) (zseq n)).
Proof.
  intros Hn Hm. rewrite <- (cross_all n m Hn Hm). unfold cross. rewrite flat_map_concat_map, concat_map, map_map, <- flat_map_concat_map, zsum_flat_map.
  apply zsum_map_ext. intros i _. now rewrite map_map.
Qed.

(** The tiles cover the plane once. *)
Lemma tiles_total v f h w : 0 < f -> 0 <= h -> 0 < w ->
  zsum (map (fun k => tile_sum v (w * f) f (k / w) (k mod w)) (zseq (h * w))) = zsum (map v (zseq (h * f * (w * f)))).
Proof.
  intros Hf Hh Hw. rewrite zsum_blocks by lia.
  rewrite (zsum_blocks v (h * f) (w * f)) by nia.
  rewrite (zsum_blocks (fun i => zsum (map (fun j => v (i * (w * f) + j)) (zseq (w * f)))) h f) by lia.
  apply zsum_map_ext. intros i Hi. apply in_zseq in Hi.
  transitivity (zsum (map (fun j => zsum (map (fun a => zsum (map (fun b => v ((i * f + a) * (w * f) + (j * f + b))) (zseq f))) (zseq f))) (zseq w))).
  { apply zsum_map_ext. intros j Hj. apply in_zseq in Hj. unfold tile_sum.
    rewrite Z.div_add_l, Z.div_small, Z.add_0_r by lia. rewrite Z.add_comm, Z_mod_plus_full, Z.mod_small by lia. reflexivity. }
  rewrite zsum_swap. apply zsum_map_ext. intros a _. rewrite zsum_blocks by lia. reflexivity.
Qed.

Lemma zsum_zat D : zsum D = zsum (map (zat D) (zseq (Zlen D))).
Proof. now rewrite <- list_as_map_zat. Qed.

Definition full_size (d : dense) : Prop :=
  shape_ok (d_scan d) /\ shape_ok (d_frame d) /\ Zlen (d_vals d) = np_prod (d_scan d) * np_prod (d_frame d) /\ forall x, In x (d_vals d) -> 0 <= x.
Lemma holds_size sa d : holds sa d -> full_size d.
Proof.
  intros (W & S & F & _ & _ & E). destruct (C36_dense_values sa W) as (D & E' & L & V).
  assert (D = d_vals d) by (rewrite E in E'; injection E'; congruence). subst D. unfold full_size.
  rewrite <- S, <- F. split; [apply W|]. split; [apply W|]. split; [exact L|].
  intros x Hx. rewrite (to_dense_ok sa W) in E. injection E as _ E. rewrite <- E in Hx. unfold dense_of in Hx.
  apply in_flat_map in Hx as (p & _ & Hx). apply in_map_iff in Hx as (j & <- & _).
  unfold events. apply zsum_nonneg. intros y Hy. apply in_map_iff in Hy as (fr & <- & _). apply cnt_nonneg.
Qed.

Lemma bin_scans_total d f : full_size d -> electrons (d_vals (dense_op d (OBinScans f))) = electrons (d_vals d).
Proof.
  intros (S & F & L & _). cbn [dense_op]. destruct (d_scan d) as [|H [|W [|]]] eqn:E; try reflexivity.
  unfold divides. destruct (Z.ltb_spec 0 f); cbn [andb]; [|reflexivity]. destruct (forallb _ _) eqn:Dv; [|reflexivity]. cbn [d_vals].
  cbn [forallb] in Dv. apply andb_prop in Dv as [D1 D2]. apply andb_prop in D2 as [D2 _].
  assert (Hn : 0 <= H /\ 0 <= W) by (destruct S as [(n & Q & _)|(n & m & Q & ? & ?)]; [discriminate|injection Q as -> ->; auto]).
  destruct (divides_div f H ltac:(lia) (proj1 Hn) D1) as [EH Hh]. destruct (divides_div f W ltac:(lia) (proj2 Hn) D2) as [EW Hw].
  pose proof (np_prod_nonneg _ F) as HN. set (N := np_prod (d_frame d)) in *. unfold electrons.
  rewrite (zsum_zat (d_vals d)), L. cbn [np_prod fold_right]. rewrite Z.mul_1_r.
  destruct (Z.eq_dec (W / f) 0) as [W0|W0]; [rewrite EW, W0; rewrite !Z.mul_0_r, !Z.mul_0_l, ?Z.mul_0_r, ?Z.mul_0_l; reflexivity|].
  rewrite (zsum_blocks _ (H / f * (W / f)) N), (zsum_blocks _ (H * W) N) by nia. rewrite (zsum_swap _ (zseq (H * W))). rewrite (zsum_swap _ (zseq (H / f * (W / f)))).
  apply zsum_map_ext. intros j Hj. apply in_zseq in Hj.
  replace (zseq (H * W)) with (zseq (H / f * f * (W / f * f))) by (rewrite <- EH, <- EW; reflexivity). rewrite <- (tiles_total (fun p => zat (d_vals d) (p * N + j)) f (H / f) (W / f)) by lia.
  apply zsum_map_ext. intros k _. unfold scan_tile.
  replace ((k * N + j) / N) with k by (rewrite Z.div_add_l by lia; rewrite (Z.div_small j N) by lia; lia).
  replace ((k * N + j) mod N) with j by (rewrite Z.add_comm, Z_mod_plus_full, Z.mod_small; lia). now rewrite <- EW.
Qed.

Lemma bin_frames_total d f : full_size d -> electrons (d_vals (dense_op d (OBinFrames f))) = electrons (d_vals d).
Proof.
  intros (S & F & L & _). cbn [dense_op]. destruct (d_frame d) as [|H [|W [|]]] eqn:E; try reflexivity.
  unfold divides. destruct (Z.ltb_spec 0 f); cbn [andb]; [|reflexivity]. destruct (forallb _ _) eqn:Dv; [|reflexivity]. cbn [d_vals].
  cbn [forallb] in Dv. apply andb_prop in Dv as [D1 D2]. apply andb_prop in D2 as [D2 _].
  assert (Hn : 0 <= H /\ 0 <= W) by (destruct F as [(n & Q & _)|(n & m & Q & ? & ?)]; [discriminate|injection Q as -> ->; auto]).
  destruct (divides_div f H ltac:(lia) (proj1 Hn) D1) as [EH Hh]. destruct (divides_div f W ltac:(lia) (proj2 Hn) D2) as [EW Hw].
  pose proof (np_prod_nonneg _ S) as HP. set (P := np_prod (d_scan d)) in *. unfold electrons.
  rewrite (zsum_zat (d_vals d)), L. cbn [np_prod fold_right]. rewrite Z.mul_1_r.
  destruct (Z.eq_dec (W / f) 0) as [W0|W0]; [rewrite EW, W0; rewrite !Z.mul_0_r, ?Z.mul_0_l, ?Z.mul_0_r; reflexivity|].
  rewrite (zsum_blocks _ P (H / f * (W / f))), (zsum_blocks _ P (H * W)) by nia. apply zsum_map_ext. intros p _. set (N' := H / f * (W / f)).
  replace (zseq (H * W)) with (zseq (H / f * f * (W / f * f))) by (rewrite <- EH, <- EW; reflexivity). rewrite <- (tiles_total (fun j => zat (d_vals d) (p * (H * W) + j)) f (H / f) (W / f)) by lia.
  apply zsum_map_ext. intros k Hk. apply in_zseq in Hk. fold N' in Hk. unfold frame_tile.
  replace ((p * N' + k) / N') with p by (rewrite Z.div_add_l by lia; rewrite (Z.div_small k N') by lia; lia).
  replace ((p * N' + k) mod N') with k by (rewrite Z.add_comm, Z_mod_plus_full, Z.mod_small; lia). now rewrite <- EW.
Qed.

Lemma dense_op_total d o : full_size d -> keeps_all o = true -> electrons (d_vals (dense_op d o)) = electrons (d_vals d).
Proof.
  intros S K. destruct o; try discriminate; try reflexivity.
  - cbn [dense_op]. unfold dense_reshape. now destruct (_ && _).
  - cbn [dense_op]. unfold dense_reshape. now destruct (_ && _).
  - now apply bin_scans_total.
  - now apply bin_frames_total.
Qed.

(** A selection without repetitions takes at most what is there. *)
Lemma zsum_sub (g : Z -> Z) l n : NoDup l -> (forall x, In x l -> 0 <= x < n) -> (forall x, 0 <= x < n -> 0 <= g x) ->
  zsum (map g l) <= zsum (map g (zseq n)).
Proof.
  intros ND R G.
  assert (A : forall m l', NoDup l' -> incl l' m -> NoDup m -> (forall x, In x m -> 0 <= g x) -> zsum (map g l') <= zsum (map g m)).
  { clear. induction m as [|x m IH]; intros l' ND I NM G.
    - destruct l' as [|y t]; [cbn; lia|destruct (I y (or_introl eq_refl))].
    - inversion NM as [|? ? Nx NM']; subst. cbn [map zsum]. pose proof (G x (or_introl eq_refl)) as G0.
      destruct (in_dec Z.eq_dec x l') as [Hx|Hx].
      + apply in_split in Hx as (a & b & ->). apply NoDup_remove in ND as [ND Nab].
        rewrite map_app, zsum_app. cbn [map zsum].
        assert (Q : zsum (map g (a ++ b)) <= zsum (map g m)).
        { apply IH; auto; [|intros; apply G; now right]. intros y Hy.
          destruct (I y) as [->|]; [|contradiction|assumption]. apply in_app_or in Hy as [Hy|Hy]; apply in_or_app; [now left|right; now right]. }
        rewrite map_app, zsum_app in Q. lia.
      + assert (Q : zsum (map g l') <= zsum (map g m)); [|lia]. apply IH; auto; [|intros; apply G; now right].
        intros y Hy. destruct (I y Hy) as [->|]; [contradiction|assumption]. }
  apply A; auto.
  - intros x Hx. apply in_zseq. auto.
  - apply NoDup_zseq.
  - intros x Hx. apply G. now apply in_zseq.
Qed.

Lemma select_total d ks : full_size d -> no_position_twice d (OSelect ks) ->
  (forall sk fk, split_keys (d_scan d) (d_frame d) ks = Ok (sk, fk) -> forall fs fl, np_select (d_frame d) fk = Ok (fs, fl) -> NoDup fl) ->
  electrons (d_vals (dense_op d (OSelect ks))) <= electrons (d_vals d).
Proof.
  intros (S & F & L & Pos) N1 N2. cbn [dense_op no_position_twice] in *. destruct (d_slicing d); [|lia].
  destruct (split_keys _ _ _) as [[sk fk]| | |]; try lia.
  destruct (np_select (d_scan d) sk) as [[[|x ss] sl]| | |] eqn:E1; try lia.
  destruct (np_select (d_frame d) fk) as [[[|y fs] fl]| | |] eqn:E2; try lia.
  cbn [d_vals]. specialize (N1 _ _ _ _ eq_refl E1). specialize (N2 _ _ eq_refl _ _ E2).
  destruct (np_select_range _ _ _ _ S E1) as [R1 _]. destruct (np_select_range _ _ _ _ F E2) as [R2 _].
  pose proof (np_prod_nonneg _ S) as HP. pose proof (np_prod_nonneg _ F) as HN.
  set (P := np_prod (d_scan d)) in *. set (N := np_prod (d_frame d)) in *. unfold electrons, outer.
  rewrite (zsum_zat (d_vals d)), L, zsum_flat_map, zsum_blocks by lia.
  assert (V : forall k, 0 <= zat (d_vals d) k).
  { intros k. unfold zat. destruct (k <? 0); [lia|]. destruct (nth_in_or_default (Z.to_nat k) (d_vals d) 0) as [I|I]; [auto|rewrite I; lia]. }
  transitivity (zsum (map (fun p => zsum (map (fun j => zat (d_vals d) (p * N + j)) (zseq N))) sl)).
  - clear - R2 N2 V. induction sl as [|p t IH]; [cbn; lia|]. cbn [map zsum].
    assert (zsum (map (fun j => zat (d_vals d) (p * N + j)) fl) <= zsum (map (fun j => zat (d_vals d) (p * N + j)) (zseq N))) by (apply zsum_sub; auto). lia.
  - apply zsum_sub; auto. intros p _. apply zsum_nonneg. intros z Hz. apply in_map_iff in Hz as (j & <- & _). apply V.
Qed.

(** C83.  Whatever calls are made without selecting a part, the array holds exactly as many
    electrons as before; calls that raise are included. *)
Theorem C83_conserved order ops : forall sa s D, wf sa -> sound_history order sa ops -> forallb keeps_all ops = true ->
  to_dense sa = Ok (Dense s D) ->
  exists s' D', to_dense (run_ops order sa ops) = Ok (Dense s' D') /\ electrons D' = electrons D.
Proof.
  intros sa s D W C K HD. destruct (C81_start sa W) as (D0 & _ & H).
  assert (D0 = D) by (destruct H as (_ & _ & _ & _ & _ & E); rewrite HD in E; injection E; auto). subst D0.
  set (d := mkDense (sp_scan sa) (sp_frame sa) D (sp_slicing sa) (sp_full sa)) in *.
  change (electrons D) with (electrons (d_vals d)). clearbody d. clear W HD s D.
  revert sa d C K H. induction ops as [|o t IH]; intros sa d C K H.
  - destruct H as (_ & _ & _ & _ & _ & E). do 2 eexists. split; [exact E|reflexivity].
  - cbn [forallb] in K. apply andb_prop in K as [K1 K2]. destruct C as [C1 C2].
    destruct (IH _ _ C2 K2 (C81_call order sa d o C1 H)) as (s' & D' & E & T).
    exists s', D'. split; [exact E|]. rewrite T. apply dense_op_total; [eapply holds_size; eassumption|exact K1].
Qed.

(** C83.  With selections that take no position twice, it never holds more. *)
Theorem C83_never_more order ops : forall sa s D, wf sa -> sound_history order sa ops ->
  no_positions_twice (mkDense (sp_scan sa) (sp_frame sa) D (sp_slicing sa) (sp_full sa)) ops ->
  to_dense sa = Ok (Dense s D) ->
  exists s' D', to_dense (run_ops order sa ops) = Ok (Dense s' D') /\ 0 <= electrons D' <= electrons D.
Proof.
  intros sa s D W C K HD. destruct (C81_start sa W) as (D0 & _ & H).
  assert (D0 = D) by (destruct H as (_ & _ & _ & _ & _ & E); rewrite HD in E; injection E; auto). subst D0.
  set (d := mkDense (sp_scan sa) (sp_frame sa) D (sp_slicing sa) (sp_full sa)) in *.
  change (electrons D) with (electrons (d_vals d)). clearbody d. clear W HD s D.
  revert sa d C K H. induction ops as [|o t IH]; intros sa d C K H.
  - pose proof (holds_size _ _ H) as (_ & _ & _ & Pos). destruct H as (_ & _ & _ & _ & _ & E). do 2 eexists. split; [exact E|].
    split; [now apply zsum_nonneg|apply Z.le_refl].
  - destruct K as [K1 K2]. destruct C as [C1 C2].
    destruct (IH _ _ C2 K2 (C81_call order sa d o C1 H)) as (s' & D' & E & T0 & T).
    exists s', D'. split; [exact E|]. split; [exact T0|]. eapply Z.le_trans; [exact T|].
    pose proof (holds_size _ _ H) as Sz.
    destruct (keeps_all o) eqn:Ko; [rewrite dense_op_total by assumption; apply Z.le_refl|].
    destruct o; try discriminate. apply select_total; [exact Sz|exact K1|].
    intros sk fk Ek fs fl Ef. destruct H as (_ & S & F & _). rewrite <- S, <- F in Ek. rewrite <- F in Ef.
    exact (proj2 (C1 sk fk Ek) fs fl Ef).
Qed.

(** C83.  The electrons is the number of events recorded in the frames. *)
Theorem C83_recorded sa s D : wf sa -> to_dense sa = Ok (Dense s D) ->
  electrons D = zsum (map (fun p => zsum (map Zlen (row_at sa p))) (zseq (num_scans sa))).
Proof.
  intros W E. rewrite (to_dense_ok sa W) in E. injection E as _ <-. unfold electrons, dense_of. rewrite zsum_flat_map.
  apply zsum_map_ext. intros p Hp. apply in_zseq in Hp. symmetry. apply total_as_events; [|now apply frame_size_nonneg].
  intros fr Hf. apply (wf_frames sa W (row_at sa p)); [|exact Hf]. unfold row_at. apply nth_In.
  pose proof (wf_len sa W) as L. unfold num_scans, Zlen in *. lia.
Qed.

(** C83.  Nor do files: work in any number of sessions that keep the last column and
    select nothing leaves the number of electrons as it was. *)
Theorem C83_sessions order l : forall sa s D, wf sa -> sound_sessions order sa l ->
  (forall se, In se l -> se_keep se = true /\ forallb keeps_all (se_ops se) = true) ->
  to_dense sa = Ok (Dense s D) ->
  exists sa' s' D', run_sessions order sa l = Ok sa' /\ to_dense sa' = Ok (Dense s' D') /\ electrons D' = electrons D.
Proof.
  induction l as [|se t IH]; intros sa s D W C K HD; [exists sa, s, D; auto|]. destruct C as [C1 C2].
  destruct (C81_start sa W) as (D0 & _ & H).
  assert (D0 = D) by (destruct H as (_ & _ & _ & _ & _ & E); rewrite HD in E; injection E; auto). subst D0.
  destruct (K se (or_introl eq_refl)) as [K1 K2].
  destruct (reopen_holds sa _ se C1 H) as (sa1 & E1 & H1). destruct (C2 sa1 E1) as [C3 C4].
  cbn [run_sessions]. rewrite E1. cbn [bind].
  destruct (C81_history order _ _ _ H1 C3) as (W2 & _).
  assert (T : exists s1, to_dense sa1 = Ok (Dense s1 D)).
  { destruct H1 as (_ & _ & _ & _ & _ & T). unfold dense_reopen in T. cbn [d_scan d_vals] in T.
    destruct C1 as ((h & w & S & _) & _). rewrite S, K1 in T. eexists. exact T. }
  destruct T as (s1 & T). assert (W1 : wf sa1) by (destruct H1; assumption).
  destruct (C83_conserved order _ sa1 s1 D W1 C3 K2 T) as (s2 & D2 & T2 & Q).
  destruct (IH _ s2 D2 W2 C4 ltac:(intros; apply K; now right) T2) as (sa' & s' & D' & R & T' & Q').
  exists sa', s', D'. split; [exact R|]. split; [exact T'|]. congruence.
Qed.

(** A selection that names a scan position twice has its electrons twice, as in
    NumPy: the condition of [C83_never_more] is needed. *)
Example ex_twice : electrons (d_vals (dense_op ex_dense (OSelect [KInts [1; 1]]))) = 22 /\ electrons (d_vals ex_dense) = 15.
Proof. split; vm_compute; reflexivity. Qed.

(** ** Concrete cases *)

Definition ex_keep : list op :=
  [OFull false; OBinScans 3; OReshape [1; 4; 2; 2]; OBinFrames 2; ORavel; ORead RdDense; OSlicing false].
Example ex_keep_sound : sound_history ex_order ex_sparse ex_keep.
Proof.
  cbn [sound_history ex_keep]. split; [exact I|]. split; [vm_compute; reflexivity|].
  split; [intros x Hx; cbn in Hx; intuition lia|].
  split; [split; [exists 2; split; [lia|reflexivity]|intros sa' E; vm_compute in E; injection E as <-; reflexivity]|].
  repeat (split; [exact I|]). exact I.
Qed.
Example ex_keep_run : forallb keeps_all ex_keep = true /\
  to_dense (run_ops ex_order ex_sparse ex_keep) = Ok (Dense [4; 1; 1] [3; 1; 8; 3]) /\ electrons [3; 1; 8; 3] = electrons (d_vals ex_dense).
Proof. repeat split; vm_compute; reflexivity. Qed.
Example ex_select_once : no_positions_twice ex_dense ex_ops.
Proof.
  cbn [no_positions_twice ex_ops no_position_twice]. repeat (split; [exact I|]). split; [|repeat (split; [exact I|]); exact I].
  intros sk fk ss sl E1 E2. vm_compute in E1. injection E1 as <- <-. vm_compute in E2. injection E2 as <- <-.
  repeat constructor; cbn; intuition lia.
Qed.

Print Assumptions C83_conserved.
Print Assumptions C83_never_more.
Print Assumptions C83_recorded.
Print Assumptions C83_sessions.
