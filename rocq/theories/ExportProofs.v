(** Exporting over a failing library: the calls one after the other. *)
From Coq Require Import String ZArith List Bool Lia Permutation.
From Verif Require Import Base BaseFacts BlockModel StreamModel SectorModel H5Model H5Props H5LibModel H5WrapModel H5WrapSpec H5WrapProofs H5WrapProps
  H5DataSpec H5DataProofs H5Region H5RegionProofs H5AttrProofs H5CreateProofs H5DataProps.
From Verif Require Import ExportModel ExportSpec.
Import ListNotations.
Open Scope Z_scope.

(** updateData where there is no data set, or outside of it. *)
Lemma wp_update_no p dims buf st cn s (Q : bool -> world -> Prop) : file_ok s -> dims <> [] ->
  List.length st = List.length dims -> List.length cn = List.length dims ->
  (forall u d v, data_at s p = Some (u, d, v) -> List.length d = List.length dims /\ inside d (zip3 st (repeat 1 (List.length d)) cn) = false) ->
  (forall s1, pres (w_next s) s s1 -> w_tree s1 = w_tree s -> Q false s1) ->
  wp (update_data p dims buf (Some st) (Some cn)) s Q.
Proof.
  intros FOK NE L1 L2 D H. pose proof FOK as (L & FO & FN & MO).
  unfold update_data. apply wp_bind, wp_valid. destruct (0 <=? m_file s) eqn:V.
  2: { apply wp_ret. apply H; [apply pres_refl|reflexivity]. }
  apply Z.leb_le in V. apply wp_bind, wp_get, wp_bind, wp_Dopen. intros ds s1 P1 T1 O1.
  destruct O1 as [(-> & N1 & F1)|(-> & N1 & ID & FF & K1)].
  { cbn [Z.ltb Z.compare]. apply wp_ret. apply H; auto. }
  apply is_data_at in ID as ([[u d] v] & DA). destruct (D u d v DA) as (LD & IN). clear D.
  rewrite (proj2 (Z.ltb_ge (w_next s) 0)) by lia. apply (wp_with (w_next s)), wp_bind.
  eapply wp_Dspace; [exact K1|rewrite (data_at_tree s s1) by exact T1; exact DA|]. intros sp s2 P2 T2 O2.
  assert (N2 : w_next s1 <= w_next s2) by apply P2.
  assert (Close : forall sx, pres (w_next s1) s2 sx -> w_next s2 <= w_next sx -> w_tree sx = w_tree s ->
     (w_next s < 0 \/ w_next s <= w_next s /\ (exists o, lookup sx (w_next s) = Some o /\ hkind_of o = CData)) /\
     (forall s6, pres (w_next s) sx s6 -> w_tree s6 = w_tree sx -> w_next s6 = w_next sx -> Q false s6)).
  { intros sx PX NX TX. split; [right; split; [lia|]; eexists; split; [lk; exact K1|reflexivity]|]. intros s6 P6 T6 N6.
    apply H; [via P1; via P2; via PX; exact P6|congruence]. }
  destruct O2 as [(-> & N2' & X2)|(-> & N2' & K2)].
  { cbn [Z.ltb Z.compare]. apply wp_ret. apply Close; [apply pres_refl|lia|congruence]. }
  rewrite (proj2 (Z.ltb_ge (w_next s1) 0)) by lia. apply (wp_with (w_next s1)). cbn zeta.
  assert (Close2 : forall sx, pres (w_next s1) s2 sx -> w_next s2 <= w_next sx -> (exists o, lookup sx (w_next s1) = Some o /\ hkind_of o = CSpace) ->
     w_tree sx = w_tree s ->
     (w_next s1 < 0 \/ w_next s1 <= w_next s1 /\ (exists o, lookup sx (w_next s1) = Some o /\ hkind_of o = CSpace)) /\
     (forall s5, pres (w_next s1) sx s5 -> w_tree s5 = w_tree sx -> w_next s5 = w_next sx ->
     (w_next s < 0 \/ w_next s <= w_next s /\ (exists o, lookup s5 (w_next s) = Some o /\ hkind_of o = CData)) /\
     (forall s6, pres (w_next s) s5 s6 -> w_tree s6 = w_tree s5 -> w_next s6 = w_next s5 -> Q false s6))).
  { intros sx PX NX KX TX. split; [right; split; [lia|exact KX]|]. intros s5 P5 T5 N5. apply Close; [via PX; exact P5|lia|congruence]. }
  apply wp_bind. eapply wp_arg; [left; reflexivity|exact L1|]. apply wp_bind. eapply wp_arg; [left; reflexivity|exact L2|].
  rewrite <- LD in *.
  apply wp_bind. apply (wp_slab (w_next s1) d); [exact K2|right; rewrite repeat_length; auto|]. intros r3 s3 P3 T3 N3 K3 O3.
  destruct O3 as [(-> & KS & X3)|(-> & _ & KS)].
  { cbn [Z.ltb Z.compare]. apply wp_ret. apply Close2; [exact P3|lia|eauto|congruence]. }
  cbn [Z.ltb Z.compare]. apply wp_bind. unfold H5Screate_simple. apply wp_open1. intros mem s4 P4 T4 O4.
  assert (N4 : w_next s3 <= w_next s4) by apply P4.
  assert (KS4 : lookup s4 (w_next s1) = Some (HSpace d (Some (zip3 st (repeat 1 (List.length d)) cn)))) by (rewrite (pres_lookup _ _ _ _ P4) by lia; exact KS).
  assert (P24 : pres (w_next s1) s2 s4) by (via P3; eapply pres_weak; [|exact P4]; lia).
  destruct O4 as [(-> & _ & X4)|(-> & N4' & o & E & K4)].
  { cbn [Z.ltb Z.compare]. apply wp_ret. apply Close2; [exact P24|lia|eauto|congruence]. }
  rewrite (proj2 (Z.ltb_ge (w_next s3) 0)) by lia. apply (wp_with (w_next s3)), wp_bind.
  assert (KD4 : lookup s4 (w_next s) = Some (HData p)) by (rewrite (pres_lookup _ _ _ _ P4), K3, (pres_lookup _ _ _ _ P2) by lia; exact K1).
  assert (D4 : data_at s4 p = Some (u, d, v)) by (rewrite (data_at_tree s s4) by congruence; exact DA).
  assert (K5 : hkind_of o = CSpace) by (unfold guard in E; destruct (forallb _ _); [injection E as <-; reflexivity|discriminate]).
  assert (TR : transfer s4 (w_next s) (w_next s3) (w_next s1) = None).
  { unfold transfer, data_of. rewrite KD4, D4. destruct (w_next s1 =? 0) eqn:X; [apply Z.eqb_eq in X; lia|]. unfold space_of at 1. rewrite KS4.
    destruct (if w_next s3 =? 0 then _ else _); [|reflexivity]. rewrite IN, andb_false_r. reflexivity. }
  unfold H5Dwrite. eapply wp_same; [rewrite TR; reflexivity|]. apply wp_fail. intros s5 P5 T5 N5 K6. cbn [Z.leb Z.compare]. apply wp_ret. split.
  - right. split; [lia|]. exists o. rewrite K6. auto.
  - intros s7 P7 T7 N7. apply Close2; [via P24; via P5; eapply pres_weak; [|exact P7]; lia|lia| |congruence].
    exists (HSpace d (Some (zip3 st (repeat 1 (List.length d)) cn))). split; [|reflexivity]. rewrite (pres_lookup _ _ _ _ P7) by lia. rewrite K6. exact KS4.
Qed.

(** What the calls of the wrapper keep. *)
Definition step (s s' : world) : Prop :=
  Permutation (open_ids s') (open_ids s) /\ w_handler s' = w_handler s /\ m_file s' = m_file s /\ between_calls s' /\
  w_fault s' = w_fault s /\ w_ro s' = w_ro s.
Lemma step_refl s : between_calls s -> step s s.
Proof. unfold step. auto 10. Qed.
Lemma step_trans s1 s2 s3 : step s1 s2 -> step s2 s3 -> step s1 s3.
Proof. intros (A & B & C & D & E & F) (A' & B' & C' & D' & E' & F'). unfold step. split; [etransitivity; eassumption|]. split; [congruence|]. split; [congruence|]. split; [exact D'|]. split; congruence. Qed.
Lemma step_of {A} c (m : prog A) n s r s' : between_calls s -> is_string_set c = false -> run_api c = drop m -> m s = Ok (r, s') -> pres n s s' -> step s s'.
Proof.
  intros B H E R (P1 & _ & P3 & _). destruct (C71_closes c s B H) as (_ & C). destruct (C s') as (C1 & C2 & C3 & C4).
  { rewrite E. unfold drop, pbind. rewrite R. reflexivity. }
  unfold step. auto 10.
Qed.
Lemma step_faults s s' : step s s' -> no_faults s -> no_faults s'.
Proof. intros (_ & _ & _ & _ & E & _) H k. rewrite E. apply H. Qed.
Lemma step_between s s' : step s s' -> between_calls s'.
Proof. intros H; apply H. Qed.

Lemma obj_data s s' q : find_obj (w_tree s') q = find_obj (w_tree s) q ->
  data_at s' q = data_at s q /\ is_group (w_tree s') q = is_group (w_tree s) q /\ forall m, attr_at s' q m = attr_at s q m.
Proof. intros E. unfold data_at, is_group, attr_at. rewrite E. auto. Qed.
Lemma no_obj s q : is_group (w_tree s) q = false -> data_at s q = None -> find_obj (w_tree s) q = None.
Proof. unfold is_group, data_at. destruct (find_obj (w_tree s) q) as [o|]; [|reflexivity]. destruct (o_kind o); discriminate. Qed.
Lemma no_obj_kind s q : find_obj (w_tree s) q = None -> is_group (w_tree s) q = false /\ data_at s q = None.
Proof. unfold is_group, data_at. intros ->. auto. Qed.

Lemma create_step t p m d chunk s : between_calls s -> d <> [] -> Forall is_i32 d ->
  exists (r : bool) s', create_data_set t p m d chunk s = Ok (r, s') /\ step s s' /\
    (forall q, q <> p ++ [m] -> find_obj (w_tree s') q = find_obj (w_tree s) q) /\
    (if r then data_at s' (p ++ [m]) = Some (t, d, repeat (zero_of t) (Z.to_nat (prodZ d))) /\ (forall k, attr_at s' (p ++ [m]) k = None) else w_tree s' = w_tree s) /\
    (no_faults s -> chunk_fits chunk d -> creatable s p m d -> r = true).
Proof.
  intros B NE I. destruct (wp_create t p m d chunk s (between_ok s B) NE I) as (r & s' & E & P & W). exists r, s'. split; [exact E|].
  split; [eapply (step_of (CreateDataSet _ _ _ _ _)); [exact B|reflexivity|reflexivity|exact E|exact P]|].
  destruct (C72_create t p m d chunk s B NE I) as (r2 & s2 & E2 & _ & O & T & T0 & F). rewrite E in E2. injection E2 as <- <-.
  split; [exact O|]. split; [destruct r; [split; [now apply T|]|now apply T0]; destruct W as (C & W); intros k; unfold attr_at; rewrite W;
    rewrite (find_obj_new (w_tree s) (new_data p m t d _)) by apply C; reflexivity|]. intros X CF C. now apply (F X CF).
Qed.
Lemma group_step p s : between_calls s ->
  exists (r : bool) s', create_group p s = Ok (r, s') /\ step s s' /\
    (forall q, q <> p -> find_obj (w_tree s') q = find_obj (w_tree s) q) /\
    (r = true -> is_group (w_tree s') p = true) /\ (no_faults s -> group_creatable s p -> r = true).
Proof.
  intros B. destruct (wp_create_group p s (between_ok s B)) as (r & s' & E & P & _). exists r, s'. split; [exact E|].
  split; [eapply (step_of (CreateGroup _)); [exact B|reflexivity|reflexivity|exact E|exact P]|].
  destruct (C72_create_group p s B) as (r2 & s2 & E2 & _ & T & T0 & F). rewrite E in E2. injection E2 as <- <-.
  split; [|split; [intros H; now apply T|intros X C; now apply F]]. destruct r; [apply T; reflexivity|]. intros q _. now rewrite T0.
Qed.
Lemma attr_step t p m vals s : between_calls s -> vals <> [] -> Zlen vals < 2 ^ 31 ->
  exists (r : bool) s', set_attribute t p m vals s = Ok (r, s') /\ step s s' /\ only_attr p m s s' /\
    (r = true -> attr_at s' p m = Some (mkAttr m t vals)) /\ (no_faults s -> settable s p m -> r = true).
Proof.
  intros B NE L. destruct (wp_set_attribute t p m vals s (between_ok s B) NE L) as (r & s' & E & P & _). exists r, s'. split; [exact E|].
  split; [eapply (step_of (SetAttribute _ _ _ _)); [exact B|reflexivity|reflexivity|exact E|exact P]|].
  destruct (C72_set_attribute t p m vals s B NE L) as (r2 & s2 & E2 & _ & O & T & _ & F). rewrite E in E2. injection E2 as <- <-.
  split; [exact O|]. split; [intros H; now apply T|]. intros X C. now apply F.
Qed.

Lemma pos_i32 z : 0 <= z < 2 ^ 31 -> i32_of_u32 z = z.
Proof. intros H. unfold i32_of_u32. rewrite (proj2 (Z.ltb_lt _ _)) by lia. reflexivity. Qed.

Section Export.
Variables (g : geom) (n sw sh : Z) (fmt : h5_format).
Hypothesis Hg : g_w g = n /\ g_h g = n.
Hypothesis Hn : 0 < n < 2 ^ 15.
Hypothesis Hs : 0 < sw /\ 0 < sh /\ sw * sh < 2 ^ 31.

Let dims := set_dims fmt sw sh n.
Let rank := List.length dims.
Definition counts_of : list Z := match fmt with Frame => [1; n; n] | DataCube => [1; 1; n; n] end.

Lemma dims_i32 : Forall is_i32 dims.
Proof. unfold dims, is_i32. destruct Hs as (A & B & C). destruct fmt; repeat constructor; nia. Qed.
Lemma dims_pos : Forall (fun d => 0 <= d) dims.
Proof. unfold dims. destruct Hs as (A & B & C). destruct fmt; repeat constructor; nia. Qed.

Lemma cube_place p : 0 <= p < sw * sh -> 0 <= p mod sw < sw /\ 0 <= p / sw < sh.
Proof.
  intros H. split; [apply Z.mod_pos_bound; lia|]. split; [apply Z.div_pos; lia|]. apply Z.div_lt_upper_bound; lia.
Qed.
Lemma frame_fits p : 0 <= p < sw * sh -> fits dims (pixel_index fmt sw p 0 0) (repeat 1 rank) counts_of.
Proof.
  intros H. unfold dims, rank, counts_of. pose proof (cube_place p H). destruct fmt; cbn [set_dims pixel_index List.length repeat]; repeat constructor; lia.
Qed.
Lemma frame_outside p : sw * sh <= p -> inside dims (zip3 (pixel_index fmt sw p 0 0) (repeat 1 rank) counts_of) = false.
Proof.
  intros H. unfold rank, dims, counts_of. destruct fmt; cbn [set_dims pixel_index List.length repeat zip3 inside].
  - rewrite (proj2 (Z.ltb_ge _ (sw * sh))) by lia. cbn [Z.leb Z.compare]. rewrite andb_false_r. reflexivity.
  - assert (sh <= p / sw) by (apply Z.div_le_lower_bound; lia). rewrite (proj2 (Z.ltb_ge (p / sw + _) sh)) by lia. cbn [Z.leb Z.compare orb].
    rewrite andb_false_r. cbn [andb]. now rewrite andb_false_r.
Qed.
Lemma counts_prod : prodZ counts_of = n * n.
Proof. unfold counts_of. destruct fmt; cbn [prodZ fold_right]; lia. Qed.

(** One update. *)
Lemma one_update s frames p px : between_calls s -> Zlen px = n * n -> 0 <= p ->
  file_holds fmt sw sh n frames s ->
  exists (r : bool) s', update_data (set_path fmt) dims (map ENum px) (Some (pixel_index fmt sw p 0 0)) (Some counts_of) s = Ok (r, s') /\ step s s' /\
    (if r then p < sw * sh /\ only_at (set_path fmt) s s' /\ (forall m, attr_at s' (set_path fmt) m = attr_at s (set_path fmt) m) /\
       file_holds fmt sw sh n (frames ++ [(p, px)]) s' else w_tree s' = w_tree s) /\
    (no_faults s -> 0 <= m_file s -> w_ro s = false -> p < sw * sh -> r = true).
Proof.
  intros B LP P0 (v & D & LV & V). fold dims in D, LV, V.
  assert (NE : dims <> []) by (unfold dims; destruct fmt; discriminate).
  destruct (Z_lt_le_dec p (sw * sh)) as [IN|OUT].
  - pose proof (frame_fits p ltac:(lia)) as F.
    assert (BL : prodZ counts_of <= Zlen (map ENum px)) by (rewrite counts_prod; unfold Zlen in *; rewrite map_length; lia).
    destruct (C72_update (set_path fmt) TU16 dims v dims (map ENum px) _ _ (pixel_index fmt sw p 0 0) counts_of s B D LV dims_i32 NE F eq_refl
      (or_introl eq_refl) (or_introl eq_refl) BL) as (r & s' & E & B' & T1 & T0 & TC).
    destruct (wp_update TU16 (set_path fmt) dims (pixel_index fmt sw p 0 0) (repeat 1 rank) counts_of v LV F dims_i32 NE dims (map ENum px)
      (Some (pixel_index fmt sw p 0 0)) (Some counts_of) s (fun r s' => pres (w_next s) s s')) as (r2 & s2 & E2 & P2); auto.
    { now apply between_ok. }
    { now left. }
    { now left. }
    rewrite E in E2. injection E2 as <- <-. exists r, s'. split; [exact E|].
    split; [eapply (step_of (UpdateData _ _ _ _ _)); [exact B|reflexivity|reflexivity|exact E|exact P2]|]. split; [|auto].
    destruct r; [|auto]. destruct (T1 eq_refl) as (O & OA & v' & D' & L' & Same & Other). split; [exact IN|]. split; [exact O|]. split; [exact OA|].
    exists v'. fold dims. split; [exact D'|]. split; [congruence|]. intros q y x Q Y X.
    unfold last_given. rewrite rev_app_distr. cbn [rev app find fst]. destruct (Z.eqb_spec p q) as [<-|NQ].
    + cbn [snd]. specialize (Same (match fmt with Frame => [0; y; x] | DataCube => [0; 0; y; x] end)).
      replace (pixel_index fmt sw p y x) with (place (pixel_index fmt sw p 0 0) (repeat 1 (List.length dims)) (match fmt with Frame => [0; y; x] | DataCube => [0; 0; y; x] end)).
      2: { unfold dims. destruct fmt; cbn [set_dims pixel_index List.length repeat place]; repeat (f_equal; try lia). }
      rewrite Same. 2: { unfold within, counts_of. destruct fmt; repeat constructor; lia. }
      replace (ravel counts_of _) with (y * n + x). 2: { unfold counts_of. destruct fmt; cbn [ravel prodZ fold_right]; lia. }
      change (ENum 0) with (ENum 0). rewrite (map_nth ENum px 0). reflexivity.
    + fold (last_given frames q (y * n + x)). rewrite <- (V q y x Q Y X). apply Other.
      * unfold dims, within. pose proof (cube_place q Q). destruct fmt; cbn [set_dims pixel_index]; repeat constructor; lia.
      * intros k K EQ. apply NQ. unfold counts_of, within, dims in *. destruct fmt; cbn [set_dims pixel_index List.length repeat] in *.
        -- inversion K as [|a ? k1 ? K0 K1]; subst. inversion K1 as [|? ? ? ? ? K2]; subst. inversion K2; subst. cbn [place] in EQ. injection EQ as EQ _ _. lia.
        -- inversion K as [|a ? k1 ? K0 K1]; subst. inversion K1 as [|? ? ? ? ? K2]; subst. cbn [place] in EQ. injection EQ as EQ EQ2 _.
           rewrite (Z.div_mod p sw), (Z.div_mod q sw) by lia. nia.
  - destruct (wp_update_no (set_path fmt) dims (map ENum px) (pixel_index fmt sw p 0 0) counts_of s (fun r s' => r = false /\ pres (w_next s) s s' /\ w_tree s' = w_tree s))
      as (r & s' & E & -> & P & T); auto.
    { now apply between_ok. }
    { unfold dims. destruct fmt; reflexivity. }
    { unfold dims, counts_of. destruct fmt; reflexivity. }
    { intros u d v0 D0. rewrite D in D0. injection D0 as <- <- <-. split; [reflexivity|]. now apply frame_outside. }
    exists false, s'. split; [exact E|]. split; [eapply (step_of (UpdateData _ _ _ _ _)); [exact B|reflexivity|reflexivity|exact E|exact P]|].
    split; [exact T|]. intros. lia.
Qed.

(** An update where there is no data set. *)
Lemma no_update s p px : between_calls s -> data_at s (set_path fmt) = None ->
  exists s', update_data (set_path fmt) dims (map ENum px) (Some (pixel_index fmt sw p 0 0)) (Some counts_of) s = Ok (false, s') /\ step s s' /\ w_tree s' = w_tree s.
Proof.
  intros B D. destruct (wp_update_no (set_path fmt) dims (map ENum px) (pixel_index fmt sw p 0 0) counts_of s (fun r s' => r = false /\ pres (w_next s) s s' /\ w_tree s' = w_tree s))
    as (r & s' & E & -> & P & T); auto.
  { now apply between_ok. }
  { unfold dims. destruct fmt; discriminate. }
  { unfold dims. destruct fmt; reflexivity. }
  { unfold dims, counts_of. destruct fmt; reflexivity. }
  { intros u d v0 D0. congruence. }
  exists s'. split; [exact E|]. split; [eapply (step_of (UpdateData _ _ _ _ _)); [exact B|reflexivity|reflexivity|exact E|exact P]|exact T].
Qed.

(** The images of a block are one update. *)
Lemma block_is_update b p px s : frame_at n sw sh p px b ->
  write_images g fmt dims b 0 (Z.to_nat (images_in_block (hdr b))) s =
  update_data (set_path fmt) dims (map ENum px) (Some (pixel_index fmt sw p 0 0)) (Some counts_of) s.
Proof.
  intros (Hd & Hf & Hi & Him & Hpx & Hlen). rewrite Hi. change (Z.to_nat 1) with 1%nat. cbn [write_images]. unfold pbind, lift.
  assert (ST : image_start fmt b 0 = Ok (pixel_index fmt sw p 0 0)).
  { unfold image_start. rewrite Him, Hd. change (rd [p] 0) with (Ok p). cbn [bind fst]. rewrite (proj2 (Z.eqb_neq sw 0)) by lia. destruct fmt; reflexivity. }
  rewrite ST. cbn [bind]. unfold block_data. rewrite Hpx. cbn [bind]. change (Z.to_nat (u32 (u32 (0 * g_w g) * g_h g))) with 0%nat. cbn [skipn].
  assert (CN : image_counts fmt b = counts_of) by (unfold image_counts, counts_of; rewrite Hf; destruct fmt; reflexivity).
  rewrite CN. change (export_path fmt) with (set_path fmt). destruct (update_data _ _ _ _ _ s) as [[[] s1]| | |]; reflexivity.
Qed.

(** What the loop leaves as it is. *)
Definition rest_kept (s s' : world) : Prop :=
  only_at (set_path fmt) s s' /\ forall m, attr_at s' (set_path fmt) m = attr_at s (set_path fmt) m.
Lemma rest_refl s s' : w_tree s' = w_tree s -> rest_kept s s'.
Proof. intros T. split; [intros q _; now rewrite T|]. intros m. unfold attr_at. now rewrite T. Qed.
Lemma rest_trans s1 s2 s3 : rest_kept s1 s2 -> rest_kept s2 s3 -> rest_kept s1 s3.
Proof. intros (A & B) (A' & B'). split; [intros q N; rewrite A', A; auto|]. intros m. now rewrite B', B. Qed.

Lemma holds_tree frames s s' : w_tree s' = w_tree s -> file_holds fmt sw sh n frames s -> file_holds fmt sw sh n frames s'.
Proof. intros T (v & D & H). exists v. rewrite (data_at_tree s s') by exact T. auto. Qed.

Lemma blocks_loop throws bs : forall frames before s,
  Forall2 (fun b f => frame_at n sw sh (fst f) (snd f) b /\ 0 <= fst f) bs frames ->
  between_calls s -> file_holds fmt sw sh n before s ->
  exists (r : bool) s' k, write_blocks g fmt (Some dims) bs throws s = Ok (r, s') /\ step s s' /\ rest_kept s s' /\
    (k <= List.length frames)%nat /\ file_holds fmt sw sh n (before ++ firstn k frames) s' /\
    (r = true -> k = List.length frames /\ Forall (in_scan sw sh) frames /\ throws = false) /\
    (no_faults s -> 0 <= m_file s -> w_ro s = false -> Forall (in_scan sw sh) frames -> throws = false -> r = true).
Proof.
  induction bs as [|b bs IH]; intros frames before s HF B H; inversion HF as [|b' f bs' fs [Hb Hp] HF']; subst.
  - exists (negb throws), s, O. cbn [write_blocks List.length firstn]. rewrite app_nil_r. split; [reflexivity|]. split; [now apply step_refl|].
    split; [now apply rest_refl|]. split; [lia|]. split; [exact H|]. split; [intros E; destruct throws; [discriminate|auto]|intros _ _ _ _ ->; reflexivity].
  - destruct f as [p px]. cbn [fst snd] in *. cbn [write_blocks]. unfold pbind at 1. cbn [ret bind]. unfold pbind. rewrite (block_is_update b p px s Hb).
    destruct (one_update s before p px B ltac:(apply Hb) Hp H) as (r & s1 & E & S1 & T & C). rewrite E. cbn [bind]. destruct r.
    + destruct T as (IN & O & OA & H1). destruct (IH fs (before ++ [(p, px)]) s1 HF' (step_between _ _ S1) H1) as (r & s' & k & E' & S' & R' & K & H' & D & F).
      exists r, s', (Datatypes.S k). split; [exact E'|]. split; [eapply step_trans; eassumption|]. split; [eapply rest_trans; [split; eassumption|exact R']|].
      split; [cbn [List.length]; lia|]. split; [cbn [firstn]; rewrite <- app_assoc in H'; exact H'|]. split.
      * intros ->. destruct (D eq_refl) as (-> & D2 & D3). split; [reflexivity|]. split; [constructor; [split; cbn; lia|exact D2]|exact D3].
      * intros X M RO FA TH. destruct S1 as (_ & _ & M1 & _ & F1 & R1). apply F; [intros j; rewrite F1; apply X|lia|congruence|inversion FA; auto|exact TH].
    + exists false, s1, O. split; [reflexivity|]. split; [exact S1|]. split; [now apply rest_refl|]. split; [lia|]. cbn [firstn]. rewrite app_nil_r.
      split; [now apply (holds_tree _ s)|]. split; [discriminate|]. intros X M RO FA _. inversion FA as [|? ? [_ Y] _]; subst. cbn in Y. specialize (C X M RO Y). discriminate.
Qed.

(** The first block. *)
Definition start (b : block) : prog (list Z) := match fmt with Frame => start_frames g b | DataCube => start_cube g b end.
Lemma scan_i32 : 0 <= sw < 2 ^ 31 /\ 0 <= sh < 2 ^ 31.
Proof. destruct Hs as (A & B & C). nia. Qed.

Lemma zeros_hold s : data_at s (set_path fmt) = Some (TU16, dims, repeat (zero_of TU16) (Z.to_nat (prodZ dims))) -> file_holds fmt sw sh n [] s.
Proof.
  intros D. eexists. split; [exact D|]. pose proof (prodZ_nonneg dims dims_pos) as PP. fold dims. split; [unfold Zlen; rewrite repeat_length; lia|].
  intros p y x P Y X. unfold at_index, last_given. cbn [rev find zero_of]. apply nth_repeat.
Qed.

Definition fresh (s : world) : Prop := w_tree s = [mkObj [] KGroup []] /\ w_ro s = false /\ 0 <= m_file s.

Lemma start_spec b s : scan_dims (hdr b) = (sw, sh) -> between_calls s -> fresh s ->
  exists s', start b s = Ok (dims, s') /\ step s s' /\ (file_holds fmt sw sh n [] s' \/ data_at s' (set_path fmt) = None) /\
    (no_faults s -> file_holds fmt sw sh n [] s' /\ (fmt = Frame -> extras sw sh s')).
Proof.
  intros SD B (T0 & RO & MF). pose proof scan_i32 as (IW & IH). destruct Hg as (G1 & G2). pose proof dims_i32 as DI. pose proof dims_pos as DP. pose proof zeros_hold as ZH.
  unfold start. destruct fmt eqn:EF; unfold dims in *; cbn [set_dims set_path] in *.
  - unfold start_frames. rewrite SD, G1, G2. cbn [fst snd]. rewrite !pos_i32 by lia. unfold pbind at 1, lift, mul_i32.
    rewrite (proj2 (Z.ltb_lt _ _)) by lia. cbn [bind]. unfold pbind.
    destruct (create_step TU16 [] "frames" [sw * sh; n; n] [1; n; n] s B ltac:(discriminate) DI) as (r1 & s1 & E1 & S1 & O1 & W1 & F1).
    rewrite E1. cbn [bind]. cbn [app] in *.
    destruct (attr_step TI32 ["frames"]%string "scan_dimensions" [ENum sw; ENum sh] s1 (step_between _ _ S1) ltac:(discriminate) ltac:(reflexivity)) as (r2 & s2 & E2 & S2 & (O2 & D2 & I2) & W2 & F2).
    rewrite E2. cbn [bind].
    destruct (group_step ["stem"]%string s2 (step_between _ _ S2)) as (r3 & s3 & E3 & S3 & O3 & W3 & F3). rewrite E3. cbn [bind].
    destruct (create_step TU64 ["stem"]%string "images" [0; sh; sw] [] s3 (step_between _ _ S3) ltac:(discriminate)) as (r4 & s4 & E4 & S4 & O4 & W4 & F4).
    { unfold is_i32. repeat constructor; lia. }
    rewrite E4. cbn [bind]. cbn [app] in *. exists s4. split; [reflexivity|].
    pose proof (step_trans _ _ _ S1 S2) as S12. pose proof (step_trans _ _ _ S12 S3) as S13.
    split; [exact (step_trans _ _ _ S13 S4)|].
    assert (DF : data_at s4 ["frames"]%string = data_at s1 ["frames"]%string).
    { rewrite (proj1 (obj_data s3 s4 _ (O4 ["frames"]%string ltac:(discriminate)))), (proj1 (obj_data s2 s3 _ (O3 ["frames"]%string ltac:(discriminate)))). apply D2. }
    assert (N0 : forall q, q <> [] -> find_obj (w_tree s) q = None).
    { intros q Hq. rewrite T0. cbn. unfold path_eqb. destruct (list_eq_dec _ _ _); [congruence|reflexivity]. }
    split.
    + rewrite DF. destruct r1; [left; apply ZH; rewrite DF; apply W1|right].
      rewrite (data_at_tree s s1) by exact W1. apply no_obj_kind, N0. discriminate.
    + intros X.
      assert (R1 : r1 = true).
      { apply F1; [exact X|right; repeat constructor; nia|]. split; [exact MF|]. split; [exact RO|]. split; [rewrite T0; reflexivity|]. split; [apply N0; discriminate|exact DP]. }
      subst r1. assert (S1' := S1). destruct S1' as (_ & _ & M1 & _ & _ & RO1).
      assert (R2 : r2 = true).
      { apply F2; [apply (step_faults s); assumption|]. split; [lia|]. split; [congruence|].
        assert (N1 : find_obj (w_tree s1) ["frames"]%string <> None) by (intros C; apply no_obj_kind in C as (_ & C); destruct W1; congruence).
        split; [exact N1|]. apply W1. }
      subst r2. pose proof (step_faults _ _ S12 X) as X2. pose proof (step_faults _ _ S13 X) as X3.
      assert (G2' : is_group (w_tree s2) [] = true).
      { rewrite I2. rewrite (proj1 (proj2 (obj_data s s1 [] (O1 [] ltac:(discriminate))))). rewrite T0. reflexivity. }
      assert (N2 : forall q, q <> [] -> q <> ["frames"]%string -> find_obj (w_tree s2) q = None).
      { intros q Q1 Q2. destruct (no_obj_kind s1 q) as (K1 & K2); [rewrite O1 by exact Q2; now apply N0|]. apply no_obj; [rewrite I2; exact K1|rewrite D2; exact K2]. }
      assert (R3 : r3 = true).
      { apply F3; [exact X2|]. destruct S12 as (_ & _ & M2 & _ & _ & RO2). split; [lia|]. split; [congruence|]. split; [discriminate|]. split; [exact G2'|]. apply N2; discriminate. }
      subst r3.
      assert (R4 : r4 = true).
      { apply F4; [exact X3|left; reflexivity|]. destruct S13 as (_ & _ & M3 & _ & _ & RO3). split; [lia|]. split; [congruence|]. split; [now apply W3|].
        split; [|repeat constructor; lia]. rewrite O3 by discriminate. apply N2; discriminate. }
      subst r4. split; [apply ZH; rewrite DF; apply W1|]. intros _. split; [|split].
      * rewrite (proj2 (proj2 (obj_data s3 s4 _ (O4 ["frames"]%string ltac:(discriminate))))), (proj2 (proj2 (obj_data s2 s3 _ (O3 ["frames"]%string ltac:(discriminate))))). now apply W2.
      * rewrite (proj1 (proj2 (obj_data s3 s4 _ (O4 ["stem"]%string ltac:(discriminate))))). now apply W3.
      * apply W4.
  - unfold start_cube. rewrite SD, G1, G2. cbn [fst snd]. rewrite !pos_i32 by lia. unfold pbind.
    destruct (create_step TU16 [] "datacube" [sw; sh; n; n] [1; 1; n; n] s B ltac:(discriminate) DI) as (r1 & s1 & E1 & S1 & O1 & W1 & F1).
    rewrite E1. cbn [bind]. cbn [app] in *. exists s1. split; [reflexivity|]. split; [exact S1|].
    assert (N0 : forall q, q <> [] -> find_obj (w_tree s) q = None).
    { intros q Hq. rewrite T0. cbn. unfold path_eqb. destruct (list_eq_dec _ _ _); [congruence|reflexivity]. }
    split.
    + destruct r1; [left; apply ZH; apply W1|right].
      rewrite (data_at_tree s s1) by exact W1. apply no_obj_kind, N0. discriminate.
    + intros X.
      assert (R1 : r1 = true).
      { apply F1; [exact X|right; repeat constructor; lia|]. split; [exact MF|]. split; [exact RO|]. split; [rewrite T0; reflexivity|]. split; [apply N0; discriminate|exact DP]. }
      subst r1. split; [apply ZH; apply W1|discriminate].
Qed.
End Export.
