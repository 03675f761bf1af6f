(** readData and updateData of a region. *)
From Coq Require Import String ZArith List Bool Lia.
From Verif Require Import Base BaseFacts H5LibModel H5WrapModel H5WrapSpec H5DataSpec H5DataProofs H5Region.
Import ListNotations.
Open Scope Z_scope.

Lemma wp_arg nd arg def l s (Q : list Z -> world -> Prop) : given arg def l -> List.length l = nd -> Q l s -> wp (take_arg nd arg def) s Q.
Proof.
  intros [->|[-> ->]] L H; cbn [take_arg]; [|now apply wp_ret]. rewrite (proj2 (Nat.ltb_ge _ _)) by lia. apply wp_ret.
  rewrite <- L, firstn_all. exact H.
Qed.
Lemma wp_arg0 arg def s (Q : list Z -> world -> Prop) : def = [] -> Q [] s -> wp (take_arg 0 arg def) s Q.
Proof. intros -> H. destruct arg as [l|]; cbn [take_arg]; [|now apply wp_ret]. cbn. apply wp_ret. exact H. Qed.

Lemma u64_small z : 0 <= z < 2 ^ 64 -> u64 z = z.
Proof. intros H. unfold u64. now apply Z.mod_small. Qed.

Lemma wp_counts dims : forall st sd s (Q : list Z -> world -> Prop), Forall2 (fun b d => 0 <= b <= d) st dims -> Forall is_i32 dims -> Forall is_i32 sd -> Forall (fun t => 1 <= t) sd ->
  List.length sd = List.length dims -> Q (default_counts dims st sd) s -> wp (zip_div (zip_sub dims st) (map u64 sd)) s Q.
Proof.
  induction dims as [|d ds IH]; intros st sd s Q F I I2 G L H; inversion F; subst; destruct sd as [|t sd]; try discriminate; cbn [zip_sub zip_div map default_counts] in *.
  - apply wp_ret. exact H.
  - inversion I; inversion I2; inversion G; subst. unfold is_i32 in *. rewrite !u64_small by lia.
    rewrite (proj2 (Z.eqb_neq t 0)) by lia. apply wp_bind. apply IH; auto. apply wp_ret. exact H.
Qed.

Lemma find_map_live (l : list (Z * hobj)) id o x :
  find (fun e => fst e =? x) (map (fun e => if fst e =? id then (id, o) else e) l) =
  match find (fun e => fst e =? x) l with Some e => Some (if fst e =? id then (id, o) else e) | None => None end.
Proof.
  induction l as [|e l IH]; [reflexivity|]. cbn [map find]. destruct (fst e =? id) eqn:E.
  - cbn [fst]. apply Z.eqb_eq in E. rewrite E. destruct (id =? x) eqn:X; [now rewrite E, Z.eqb_refl|exact IH].
  - destruct (fst e =? x); [now rewrite E|exact IH].
Qed.
Lemma lookup_set s id o x : lookup s id <> None ->
  lookup (set_live (map (fun e => if fst e =? id then (id, o) else e) (w_live s)) s) x = if x =? id then Some o else lookup s x.
Proof.
  intros H. unfold lookup in *. cbn [w_live set_live]. rewrite find_map_live. destruct (x =? id) eqn:E.
  - apply Z.eqb_eq in E. subst x. destruct (find _ (w_live s)) as [e|] eqn:F; [|contradiction]. apply find_some in F as [_ F]. now rewrite F.
  - clear H. destruct (find _ (w_live s)) as [e|] eqn:F; [|reflexivity]. apply find_some in F as [_ F]. apply Z.eqb_eq in F. rewrite F, E. reflexivity.
Qed.

(** H5Sselect_hyperslab. *)
Lemma wp_slab sp d s st sd cn (Q : Z -> world -> Prop) : lookup s sp = Some (HSpace d None) ->
  st = [] \/ List.length st = List.length d /\ List.length sd = List.length d /\ List.length cn = List.length d ->
  (forall r s1, pres sp s s1 -> w_tree s1 = w_tree s -> w_next s1 = w_next s -> (forall id, id <> sp -> lookup s1 id = lookup s id) ->
     (r = -1 /\ lookup s1 sp = Some (HSpace d None) /\ (st <> [] -> Forall (fun t => 1 <= t) sd -> no_faults s -> False) \/
      r = 0 /\ st <> [] /\ lookup s1 sp = Some (HSpace d (Some (zip3 st sd cn)))) -> Q r s1) ->
  wp (H5Sselect_hyperslab sp st sd cn) s Q.
Proof.
  intros K L H. unfold wp, H5Sselect_hyperslab, space_of. rewrite K. destruct st as [|b st'] eqn:Est.
  { unfold change. destruct (w_fault s (w_clock s)); (eexists; eexists; split; [reflexivity|]); (apply H; try reflexivity; [repeat split; cbn; lia|left]);
      repeat split; auto. }
  rewrite <- Est in *. destruct L as [L|(L1 & L2 & L3)]; [congruence|]. rewrite L1, L2, L3, Nat.ltb_irrefl. cbn [orb].
  replace (firstn (List.length d) st) with st by (rewrite <- L1, firstn_all; reflexivity).
  replace (firstn (List.length d) sd) with sd by (rewrite <- L2, firstn_all; reflexivity).
  replace (firstn (List.length d) cn) with cn by (rewrite <- L3, firstn_all; reflexivity).
  unfold change, guard. destruct (w_fault s (w_clock s)) eqn:F.
  { eexists. eexists. split; [reflexivity|]. apply H; try reflexivity; [repeat split; cbn; lia|left]. split; [reflexivity|]. split; [exact K|].
    intros _ _ X. rewrite X in F. discriminate. }
  destruct (forallb (fun x => 0 <? x) sd) eqn:G.
  - eexists. eexists. split; [reflexivity|].
    set (s0 := set_clock (w_clock s + 1) s).
    assert (KL : forall x, lookup (set_live (map (fun e => if fst e =? sp then (sp, HSpace d (Some (zip3 st sd cn))) else e) (w_live s0)) s0) x =
       if x =? sp then Some (HSpace d (Some (zip3 st sd cn))) else lookup s x).
    { intros x. rewrite lookup_set; [reflexivity|]. change (lookup s0 sp) with (lookup s sp). rewrite K. discriminate. }
    apply H; try reflexivity.
    + repeat split; cbn; try lia. intros id Hid. rewrite KL. rewrite (proj2 (Z.eqb_neq id sp)) by lia. reflexivity.
    + intros id Hid. rewrite KL. rewrite (proj2 (Z.eqb_neq id sp)) by lia. reflexivity.
    + right. split; [reflexivity|]. split; [congruence|]. rewrite KL. now rewrite Z.eqb_refl.
  - eexists. eexists. split; [reflexivity|]. apply H; try reflexivity; [repeat split; cbn; lia|left]. split; [reflexivity|]. split; [exact K|].
    intros _ X _. assert (Y : forallb (fun x => 0 <? x) sd = true).
    { apply forallb_forall. intros x Hx. rewrite Forall_forall in X. specialize (X x Hx). apply Z.ltb_lt. cbn in X. lia. }
    congruence.
Qed.

Lemma fits_counts d st sd cn : fits d st sd cn -> Forall is_i32 d -> forallb size_ok cn = true.
Proof.
  induction 1; intros F; [reflexivity|]. inversion F; subst. cbn [forallb]. rewrite IHfits by assumption. unfold is_i32 in *. unfold size_ok.
  rewrite (proj2 (Z.leb_le 0 c)), (proj2 (Z.ltb_lt c (2 ^ 31))); [reflexivity|nia|lia].
Qed.
Lemma fits_start d st sd cn : fits d st sd cn -> Forall2 (fun b x => 0 <= b <= x) st d.
Proof. induction 1; constructor; auto. nia. Qed.

Section Region.
Variables (t u : h5type) (p : path) (d st sd cn : list Z) (v : list elem).
Hypothesis HV : Zlen v = prodZ d.
Hypothesis HF : fits d st sd cn.
Hypothesis HI : Forall is_i32 d.
Hypothesis HN : d <> [].
Let reg := pick v (offsets d (zip3 st sd cn)).

(** The transfer of a region, or of everything if the selection failed. *)
Lemma region_transfer s ds sp mem cn' : lookup s ds = Some (HData p) -> data_at s p = Some (u, d, v) -> 1 <= sp ->
  lookup s sp = Some (HSpace d None) /\ (cn' = cn \/ cn' = []) \/ lookup s sp = Some (HSpace d (Some (zip3 st sd cn))) /\ cn' = cn ->
  lookup s mem = Some (HSpace cn' None) -> 1 <= mem ->
  forall q idx, transfer s ds mem sp = Some (q, idx) -> q = p /\ idx = offsets d (zip3 st sd cn).
Proof.
  intros K D S1 K2 K3 M1 q idx E. unfold transfer, data_of, space_of in E. rewrite K, D, K3 in E.
  rewrite (proj2 (Z.eqb_neq sp 0)), (proj2 (Z.eqb_neq mem 0)) in E by lia.
  destruct K2 as [(K2 & C)|(K2 & ->)]; rewrite K2 in E.
  - unfold guard in E. destruct ((prodZ cn' =? prodZ d) && true) eqn:G; [|discriminate]. injection E as <- <-. split; [reflexivity|].
    rewrite andb_true_r in G. apply Z.eqb_eq in G. symmetry. apply fits_whole; [exact HF|]. destruct C as [->| ->]; [exact G|].
    destruct (fits_le _ _ _ _ HF) as (A & _). destruct (fits_length _ _ _ _ HF) as (_ & _ & _ & B & _).
    pose proof (prodZ_pos _ B). change (prodZ []) with 1 in G. lia.
  - rewrite (fits_size _ _ _ _ HF), Z.eqb_refl, (fits_inside _ _ _ _ HF) in E. cbn [andb guard] in E. injection E as <- <-. auto.
Qed.
Lemma region_transfer_ok s ds sp mem : lookup s ds = Some (HData p) -> data_at s p = Some (u, d, v) -> 1 <= sp ->
  lookup s sp = Some (HSpace d (Some (zip3 st sd cn))) -> lookup s mem = Some (HSpace cn None) -> 1 <= mem ->
  transfer s ds mem sp = Some (p, offsets d (zip3 st sd cn)).
Proof.
  intros K D S1 K2 K3 M1. unfold transfer, data_of, space_of. rewrite K, D, K2, K3.
  rewrite (proj2 (Z.eqb_neq sp 0)), (proj2 (Z.eqb_neq mem 0)) by lia.
  rewrite (fits_size _ _ _ _ HF), Z.eqb_refl, (fits_inside _ _ _ _ HF). reflexivity.
Qed.

Lemma wp_region_tail s ds sp room st' sd' cn' (Q : option (list elem) -> world -> Prop) :
  1 <= ds < sp -> sp < w_next s -> (forall id, id < 1 -> lookup s id = None) ->
  lookup s ds = Some (HData p) -> lookup s sp = Some (HSpace d None) -> data_at s p = Some (u, d, v) -> prodZ cn <= room ->
  (st' = [] /\ cn' = [] /\ ~ no_faults s \/ st' = st /\ sd' = sd /\ cn' = cn) ->
  (forall r s1, pres sp s s1 -> w_tree s1 = w_tree s -> (exists o, lookup s1 sp = Some o /\ hkind_of o = CSpace) ->
     (forall l, r = Some l -> l = reg) -> (no_faults s -> r = if type_eqb u t then Some reg else None) -> Q r s1) ->
  wp (do _ <- H5Sselect_hyperslab sp st' sd' cn'; do mem <- H5Screate_simple cn'; with_id CSpace mem (finish_read t ds sp room mem)) s Q.
Proof.
  intros L1 L2 FN K KS D Room C H. destruct (fits_length _ _ _ _ HF) as (A1 & A2 & A3 & A4 & A5 & _).
  assert (Cpos : Forall (fun c => 0 <= c) cn) by (eapply Forall_impl; [|exact A4]; cbn; intros; lia).
  pose proof (offsets_len d st sd cn A1 A2 A3 Cpos) as OL.
  apply wp_bind. apply (wp_slab sp d); [exact KS| |].
  { destruct C as [(-> & _)|(-> & -> & ->)]; auto. }
  intros r1 s1 P1 T1 N1 K1 O1. apply wp_bind. unfold H5Screate_simple. apply wp_open1. intros mem s2 P2 T2 O2.
  assert (N2 : w_next s1 <= w_next s2) by apply P2.
  apply (wp_with (w_next s1)).
  assert (KD2 : lookup s2 ds = Some (HData p)) by (rewrite (pres_lookup _ _ _ _ P2), K1 by lia; exact K).
  assert (D2 : data_at s2 p = Some (u, d, v)) by (rewrite (data_at_tree s s2) by congruence; exact D).
  assert (FN2 : forall id, id < 1 -> lookup s2 id = None).
  { intros id Hid. rewrite (pres_lookup _ _ _ _ P2), K1 by lia. auto. }
  assert (SZ : forallb size_ok cn' = true).
  { destruct C as [(_ & -> & _)|(_ & _ & ->)]; [reflexivity|]. eapply fits_counts; eassumption. }
  assert (M : mem = -1 /\ ~ no_faults s \/ mem = w_next s1 /\ w_next s2 = w_next s1 + 1 /\ lookup s2 mem = Some (HSpace cn' None)).
  { unfold opened in O2. rewrite SZ in O2. cbn [guard] in O2. destruct O2 as [(-> & _ & X)|(-> & N & o & E & KM)]; [left|right].
    - split; [reflexivity|]. intros Y. discriminate (X (pres_faults _ _ _ P1 Y)).
    - injection E as <-. auto. }
  assert (TRI : forall q idx, transfer s2 ds mem sp = Some (q, idx) -> q = p /\ idx = offsets d (zip3 st sd cn)).
  { intros q idx E. destruct M as [(-> & _)|(-> & NM & KM)].
    - exfalso. unfold transfer, data_of, space_of in E. rewrite KD2, D2, (FN2 (-1)) in E by lia. destruct (if sp =? 0 then _ else _); discriminate.
    - eapply (region_transfer s2 ds sp (w_next s1) cn'); try eassumption; try lia.
      rewrite (pres_lookup _ _ _ _ P2) by lia. destruct O1 as [(_ & O & _)|(_ & NE & O)]; rewrite O.
      + left. split; [reflexivity|]. destruct C as [(_ & -> & _)|(_ & _ & ->)]; auto.
      + right. destruct C as [(-> & _)|(-> & -> & ->)]; [contradiction|auto]. }
  eapply (wp_finish t ds sp room mem p u d v); try lia; try assumption.
  { intros q idx E. destruct (TRI q idx E) as (_ & ->). lia. }
  intros r s3 P3 T3 R3 G3. assert (N3 : w_next s2 <= w_next s3) by apply P3. split.
  { destruct M as [(-> & _)|(-> & NM & KM)]; [left; lia|right]. split; [lia|]. eexists. split; [lk; exact KM|reflexivity]. }
  intros s4 P4 T4 N4. apply H.
  - via P1. via P2. via P3. eapply pres_weak; [|exact P4]. lia.
  - congruence.
  - assert (E : lookup s4 sp = lookup s1 sp) by (lk; reflexivity). rewrite E. destruct O1 as [(_ & O & _)|(_ & _ & O)]; rewrite O; eauto.
  - intros l ->. destruct (R3 l eq_refl) as (idx & E & ->). destruct (TRI _ _ E) as (_ & ->). reflexivity.
  - intros X. destruct C as [(_ & _ & C)|(-> & -> & ->)]; [contradiction|]. destruct M as [(_ & M)|(-> & NM & KM)]; [contradiction|].
    rewrite (G3 (pres_faults _ _ _ P2 (pres_faults _ _ _ P1 X))). destruct O1 as [(_ & _ & O)|(_ & _ & O)].
    { exfalso. apply O; auto. intros E. destruct d; [contradiction|]. rewrite E in A1. discriminate. }
    rewrite (region_transfer_ok s2 ds sp (w_next s1)); try assumption; try lia; [reflexivity|]. lk. exact O.
Qed.

Lemma wp_region strides start counts room s (Q : option (list elem) -> world -> Prop) :
  file_ok s -> data_at s p = Some (u, d, v) -> Forall is_i32 sd ->
  given strides (repeat 1 (List.length d)) sd -> given start (repeat 0 (List.length d)) st -> given counts (default_counts d st sd) cn ->
  (strides <> None \/ start <> None \/ counts <> None) -> prodZ cn <= room ->
  (forall r s1, pres (w_next s) s s1 -> w_tree s1 = w_tree s ->
     (forall l, r = Some l -> l = reg) -> (no_faults s -> 0 <= m_file s -> r = if type_eqb u t then Some reg else None) -> Q r s1) ->
  wp (read_data t p room strides start counts) s Q.
Proof.
  intros FOK D ISD G1 G2 G3 NE Room H. pose proof FOK as (L & FO & FN & MO). destruct (fits_length _ _ _ _ HF) as (A1 & A2 & A3 & A4 & A5 & _).
  assert (ID : is_data (w_tree s) p = true) by (apply is_data_at; eauto).
  unfold read_data. apply wp_bind, wp_get, wp_bind, wp_Dopen. intros ds s1 P1 T1 O1.
  destruct O1 as [(-> & N1 & F1)|(-> & N1 & _ & FF & K1)].
  { cbn [Z.ltb Z.compare]. apply wp_ret. apply H; auto; [discriminate|]. intros X Y. specialize (F1 X (proj2 (FO Y))). congruence. }
  rewrite (proj2 (Z.ltb_ge (w_next s) 0)) by lia. apply (wp_with (w_next s)), wp_bind.
  eapply wp_Dspace; [exact K1|rewrite (data_at_tree s s1) by exact T1; exact D|]. intros sp s2 P2 T2 O2.
  assert (N2 : w_next s1 <= w_next s2) by apply P2.
  destruct O2 as [(-> & N2' & X2)|(-> & N2' & K2)].
  { cbn [Z.ltb Z.compare]. apply wp_ret. split; [right; split; [lia|]; eexists; split; [lk; exact K1|reflexivity]|]. intros s3 P3 T3 N3.
    apply H; [via P1; via P2; exact P3|congruence|discriminate|]. intros X. exfalso. apply X2. eauto using pres_faults. }
  rewrite (proj2 (Z.ltb_ge (w_next s1) 0)) by lia. apply (wp_with (w_next s1)).
  assert (EQ : (match strides, start, counts with
      | None, None, None => finish_read t (w_next s) (w_next s1) room 0
      | _, _, _ => select_and_read t p (w_next s) (w_next s1) room strides start counts end) =
      select_and_read t p (w_next s) (w_next s1) room strides start counts).
  { destruct strides, start, counts; try reflexivity. destruct NE as [NE|[NE|NE]]; congruence. }
  rewrite EQ. clear EQ. unfold select_and_read.
  assert (FOK2 : file_ok s2). { eapply pres_file; [exact P2|lia|]. eapply pres_file; [exact P1|lia|exact FOK]. }
  apply wp_bind, wp_dims; [exact FOK2|]. intros dims s3 P3 T3 C3 G4. assert (N3 : w_next s2 <= w_next s3) by apply P3.
  rewrite (data_at_tree s s2), D in C3, G4 by congruence.
  assert (Tail : forall st' sd' cn', (st' = [] /\ cn' = [] /\ ~ no_faults s3 \/ st' = st /\ sd' = sd /\ cn' = cn) ->
    wp (do _ <- H5Sselect_hyperslab (w_next s1) st' sd' cn'; do mem <- H5Screate_simple cn'; with_id CSpace mem (finish_read t (w_next s) (w_next s1) room mem)) s3
     (fun r s4 => (w_next s1 < 0 \/ w_next s1 <= w_next s1 /\ (exists o, lookup s4 (w_next s1) = Some o /\ hkind_of o = CSpace)) /\
        (forall s5, pres (w_next s1) s4 s5 -> w_tree s5 = w_tree s4 -> w_next s5 = w_next s4 ->
        (w_next s < 0 \/ w_next s <= w_next s /\ (exists o, lookup s5 (w_next s) = Some o /\ hkind_of o = CData)) /\
        (forall s6, pres (w_next s) s5 s6 -> w_tree s6 = w_tree s5 -> w_next s6 = w_next s5 -> Q r s6)))).
  { intros st' sd' cn' C. eapply (wp_region_tail s3 (w_next s) (w_next s1) room st' sd' cn'); try lia.
    - intros id Hid. rewrite (pres_lookup _ _ _ _ P3) by lia. apply FOK2. exact Hid.
    - lk. exact K1.
    - lk. exact K2.
    - rewrite (data_at_tree s s3) by congruence. exact D.
    - exact C.
    - intros r s4 P4 T4 KO R4 G5. split; [right; split; [lia|exact KO]|]. intros s5 P5 T5 N5.
      split; [right; split; [lia|]; eexists; split; [lk; exact K1|reflexivity]|]. intros s6 P6 T6 N6.
      apply H; [via P1; via P2; via P3; via P4; via P5; exact P6|congruence|exact R4|]. intros X Y. apply G5. eauto using pres_faults. }
  cbn beta zeta. destruct C3 as [->|(u' & v' & E)].
  - (* the dimensions could not be read *)
    assert (NF : ~ no_faults s3).
    { intros X. apply HN. assert (XX : no_faults s2) by (intros k; destruct P3 as (_ & _ & F & _); rewrite <- F; apply X).
      assert (M2 : m_file s2 = m_file s) by (destruct P2 as (_ & M2 & _), P1 as (_ & M1 & _); congruence).
      assert (0 <= m_file s). { destruct (Z.ltb_spec (m_file s) 0); [|assumption]. rewrite (FN (m_file s)) in FF by lia. discriminate. }
      symmetry. exact (G4 XX ltac:(lia) u d v eq_refl). }
    cbn [List.length]. apply wp_bind, wp_arg0; [reflexivity|]. apply wp_bind, wp_arg0; [reflexivity|]. apply wp_bind.
    destruct counts as [c|]; [apply wp_arg0; [reflexivity|]|apply wp_ret]; apply Tail; auto.
  - injection E as <- <- <-. apply wp_bind. eapply wp_arg; [exact G1|congruence|]. apply wp_bind. eapply wp_arg; [exact G2|congruence|].
    assert (US : map u64 sd = sd).
    { clear - A5 ISD. induction ISD; [reflexivity|]. inversion A5; subst. unfold is_i32 in H. cbn [map]. rewrite IHISD, u64_small by (auto; lia). reflexivity. }
    apply wp_bind. destruct counts as [c|].
    + apply (wp_arg _ _ _ cn); [left; destruct G3 as [G3|[G3 _]]; [exact G3|discriminate]|congruence|]. rewrite US. apply Tail. auto.
    + destruct G3 as [G3|[_ G3]]; [discriminate|]. apply wp_counts; try assumption; [eapply fits_start; exact HF|]. rewrite US, <- G3. apply Tail. auto.
Qed.

(** updateData of a region: all strides are one. *)
Definition updated (s : world) (buf : list elem) : tree :=
  map_obj p (fun o => match o_kind o with
                 | KData t' d' v' => mkObj (o_path o) (KData t' d' (put v' (offsets d (zip3 st sd cn)) buf)) (o_attrs o)
                 | KGroup => o
                 end) (w_tree s).

Lemma wp_update dims buf start counts s (Q : bool -> world -> Prop) :
  file_ok s -> data_at s p = Some (u, d, v) -> sd = repeat 1 (List.length d) -> List.length dims = List.length d ->
  given start (repeat 0 (List.length d)) st -> given counts (zip_sub dims st) cn -> prodZ cn <= Zlen buf ->
  (forall (r : bool) s1, pres (w_next s) s s1 -> (if r then w_ro s = false /\ w_tree s1 = updated s buf else w_tree s1 = w_tree s) ->
     (no_faults s -> 0 <= m_file s -> w_ro s = false -> r = true) -> Q r s1) ->
  wp (update_data p dims buf start counts) s Q.
Proof.
  intros FOK D SD LD G2 G3 Room H. pose proof FOK as (L & FO & FN & MO). destruct (fits_length _ _ _ _ HF) as (A1 & A2 & A3 & A4 & A5 & _).
  assert (Cpos : Forall (fun c => 0 <= c) cn) by (eapply Forall_impl; [|exact A4]; cbn; intros; lia).
  pose proof (offsets_len d st sd cn A1 A2 A3 Cpos) as OL.
  assert (ID : is_data (w_tree s) p = true) by (apply is_data_at; eauto).
  unfold update_data. apply wp_bind, wp_valid. destruct (0 <=? m_file s) eqn:V.
  2: { apply wp_ret. apply H; [apply pres_refl|reflexivity|]. apply Z.leb_gt in V. intros _ C. lia. }
  apply Z.leb_le in V. apply wp_bind, wp_get, wp_bind, wp_Dopen. intros ds s1 P1 T1 O1.
  destruct O1 as [(-> & N1 & F1)|(-> & N1 & _ & FF & K1)].
  { cbn [Z.ltb Z.compare]. apply wp_ret. apply H; auto. intros X Y. specialize (F1 X (proj2 (FO Y))). congruence. }
  rewrite (proj2 (Z.ltb_ge (w_next s) 0)) by lia. apply (wp_with (w_next s)), wp_bind.
  eapply wp_Dspace; [exact K1|rewrite (data_at_tree s s1) by exact T1; exact D|]. intros sp s2 P2 T2 O2.
  assert (N2 : w_next s1 <= w_next s2) by apply P2.
  assert (Close : forall r sx, pres (w_next s1) s2 sx -> w_next s2 <= w_next sx -> (forall s', pres (w_next s) s s' -> w_tree s' = w_tree sx -> Q r s') ->
     (w_next s < 0 \/ w_next s <= w_next s /\ (exists o, lookup sx (w_next s) = Some o /\ hkind_of o = CData)) /\
     (forall s6, pres (w_next s) sx s6 -> w_tree s6 = w_tree sx -> w_next s6 = w_next sx -> Q r s6)).
  { intros r sx PX NX HQ. split; [right; split; [lia|]; eexists; split; [lk; exact K1|reflexivity]|]. intros s6 P6 T6 N6.
    apply HQ; [via P1; via P2; via PX; exact P6|exact T6]. }
  assert (Bad : ~ no_faults s -> forall s', pres (w_next s) s s' -> w_tree s' = w_tree s -> Q false s').
  { intros X s' P T. apply H; [exact P|exact T|]. intros Y. contradiction. }
  destruct O2 as [(-> & N2' & X2)|(-> & N2' & K2)].
  { cbn [Z.ltb Z.compare]. apply wp_ret. apply Close; [apply pres_refl|lia|]. intros s' P T. apply Bad; [|exact P|congruence].
    intros X. apply X2. eauto using pres_faults. }
  rewrite (proj2 (Z.ltb_ge (w_next s1) 0)) by lia. apply (wp_with (w_next s1)). cbn zeta. rewrite LD, <- SD.
  assert (Close2 : forall r sx, pres (w_next s1) s2 sx -> w_next s2 <= w_next sx -> (exists o, lookup sx (w_next s1) = Some o /\ hkind_of o = CSpace) ->
     (forall s', pres (w_next s) s s' -> w_tree s' = w_tree sx -> Q r s') ->
     (w_next s1 < 0 \/ w_next s1 <= w_next s1 /\ (exists o, lookup sx (w_next s1) = Some o /\ hkind_of o = CSpace)) /\
     (forall s5, pres (w_next s1) sx s5 -> w_tree s5 = w_tree sx -> w_next s5 = w_next sx ->
     (w_next s < 0 \/ w_next s <= w_next s /\ (exists o, lookup s5 (w_next s) = Some o /\ hkind_of o = CData)) /\
     (forall s6, pres (w_next s) s5 s6 -> w_tree s6 = w_tree s5 -> w_next s6 = w_next s5 -> Q r s6))).
  { intros r sx PX NX KX HQ. split; [right; split; [lia|exact KX]|]. intros s5 P5 T5 N5. apply Close; [via PX; exact P5|lia|].
    intros s' P T. apply HQ; [exact P|congruence]. }
  apply wp_bind. eapply wp_arg; [exact G2|exact A1|]. apply wp_bind. eapply wp_arg; [exact G3|exact A3|].
  apply wp_bind. apply (wp_slab (w_next s1) d); [exact K2|auto|]. intros r3 s3 P3 T3 N3 K3 O3.
  destruct O3 as [(-> & KS & X3)|(-> & _ & KS)].
  { cbn [Z.ltb Z.compare]. apply wp_ret. apply Close2; [exact P3|lia|eauto|]. intros s' P T. apply Bad; [|exact P|congruence].
    intros X. apply X3; auto; [|eauto using pres_faults]. intros E. destruct d; [contradiction|]. rewrite E in A1. discriminate. }
  cbn [Z.ltb Z.compare]. apply wp_bind. unfold H5Screate_simple. apply wp_open1. intros mem s4 P4 T4 O4.
  assert (N4 : w_next s3 <= w_next s4) by apply P4.
  unfold opened in O4. rewrite (fits_counts _ _ _ _ HF HI) in O4. cbn [guard] in O4.
  assert (KS4 : lookup s4 (w_next s1) = Some (HSpace d (Some (zip3 st sd cn)))) by (rewrite (pres_lookup _ _ _ _ P4) by lia; exact KS).
  assert (P24 : pres (w_next s1) s2 s4) by (via P3; eapply pres_weak; [|exact P4]; lia).
  destruct O4 as [(-> & _ & X4)|(-> & N4' & o & E & K4)].
  { cbn [Z.ltb Z.compare]. apply wp_ret. apply Close2; [exact P24|lia|eauto|]. intros s' P T. apply Bad; [|exact P|congruence].
    intros X. discriminate (X4 (pres_faults _ _ _ P3 (pres_faults _ _ _ P2 (pres_faults _ _ _ P1 X)))). }
  injection E as <-. rewrite (proj2 (Z.ltb_ge (w_next s3) 0)) by lia. apply (wp_with (w_next s3)), wp_bind.
  assert (KD4 : lookup s4 (w_next s) = Some (HData p)) by (rewrite (pres_lookup _ _ _ _ P4), K3, (pres_lookup _ _ _ _ P2) by lia; exact K1).
  assert (D4 : data_at s4 p = Some (u, d, v)) by (rewrite (data_at_tree s s4) by congruence; exact D).
  pose proof (region_transfer_ok s4 (w_next s) (w_next s1) (w_next s3) KD4 D4 ltac:(lia) KS4 K4 ltac:(lia)) as TR.
  assert (R4 : w_ro s4 = w_ro s) by (destruct P24 as (X1 & _), P2 as (X2 & _), P1 as (X3 & _); congruence).
  assert (Fin : forall r s5, pres (w_next s4) s4 s5 -> (forall s', pres (w_next s) s s' -> w_tree s' = w_tree s5 -> Q r s') ->
     wp (ret r) s5 (fun r0 s6 => (w_next s3 < 0 \/ w_next s3 <= w_next s3 /\ (exists o, lookup s6 (w_next s3) = Some o /\ hkind_of o = CSpace)) /\
     (forall s7, pres (w_next s3) s6 s7 -> w_tree s7 = w_tree s6 -> w_next s7 = w_next s6 ->
     (w_next s1 < 0 \/ w_next s1 <= w_next s1 /\ (exists o, lookup s7 (w_next s1) = Some o /\ hkind_of o = CSpace)) /\
     (forall s8, pres (w_next s1) s7 s8 -> w_tree s8 = w_tree s7 -> w_next s8 = w_next s7 ->
     (w_next s < 0 \/ w_next s <= w_next s /\ (exists o, lookup s8 (w_next s) = Some o /\ hkind_of o = CData)) /\
     (forall s9, pres (w_next s) s8 s9 -> w_tree s9 = w_tree s8 -> w_next s9 = w_next s8 -> Q r0 s9))))).
  { intros r s5 P5 HQ. apply wp_ret. assert (N5 : w_next s4 <= w_next s5) by apply P5. split.
    - right. split; [lia|]. eexists. split; [lk; exact K4|reflexivity].
    - intros s7 P7 T7 N7. apply Close2; [via P24; via P5; eapply pres_weak; [|exact P7]; lia|lia| |].
      + exists (HSpace d (Some (zip3 st sd cn))). split; [lk; exact KS|reflexivity].
      + intros s' P T. apply HQ; [exact P|congruence]. }
  unfold wp at 1, H5Dwrite. rewrite TR. rewrite (proj2 (Z.ltb_ge (Zlen buf) _)) by lia. unfold change, guard.
  destruct (w_fault s4 (w_clock s4)) eqn:F4.
  { eexists. eexists. split; [reflexivity|]. cbn [Z.leb Z.compare]. apply Fin; [repeat split; cbn; lia|]. intros s' P T. apply Bad; [|exact P|].
    - intros X. assert (Y : no_faults s4) by eauto using pres_faults. rewrite (Y _) in F4. discriminate.
    - rewrite T. cbn. congruence. }
  cbn [w_ro set_clock]. rewrite R4. destruct (w_ro s) eqn:RO; cbn [negb]; (eexists; eexists; split; [reflexivity|]); cbn [Z.leb Z.compare];
    (apply Fin; [repeat split; cbn; auto; lia|]); intros s' P T; apply H; auto.
  - rewrite T. cbn. congruence.
  - split; [reflexivity|]. rewrite T. unfold updated. cbn [w_tree set_tree set_clock].
    replace (w_tree s4) with (w_tree s) by congruence. reflexivity.
Qed.
End Region.
