(** C17: the fraction of the data that was captured. *)
From Coq Require Import String ZArith List Lia Lra Bool Reals.
From Flocq Require Import Core.
From Verif Require Import Base BaseFacts BlockModel StreamModel StreamSpec StreamProofs
  SectorModel SectorSpec SectorProofs Float32 CapturedModel.
Import ListNotations.
Open Scope Z_scope.
Local Arguments Z.mul : simpl never.
Local Arguments Z.add : simpl never.
Local Arguments skipn : simpl never.

Definition rec_dims (r : srec) : Z * Z := (s_sw r, s_sh r).

Lemma last_cons_d {A} (x : A) l : forall d, last (x :: l) d = last l x.
Proof.
  revert x; induction l as [|a l IH]; intros x d; [reflexivity|].
  change (last (x :: a :: l) d) with (last (a :: l) d). now rewrite !IH.
Qed.

Lemma count_headers_ok g v rs : forall fuel acc,
  wf_geom g -> v = 4 \/ v = 5 -> (forall r, In r rs -> wf_srec g r) ->
  (List.length rs < fuel)%nat -> 0 <= fst acc -> fst acc + Zlen rs < 2 ^ 64 ->
  count_headers fuel g v (flat_map encode_srec rs) acc =
  Ok (fst acc + Zlen rs, last (map rec_dims rs) (snd acc)).
Proof.
  induction rs as [|r rs IH]; intros fuel acc Hg Hv Hwf Hfuel H0 Hmax.
  - destruct fuel; [lia|]. cbn. unfold Zlen; simpl. rewrite Z.add_0_r. now destruct acc.
  - destruct fuel as [|fuel]; [lia|]. cbn [flat_map count_headers].
    destruct (encode_srec r ++ flat_map encode_srec rs) as [|b0 bs] eqn:Eb.
    { exfalso. pose proof (encode_srec_length r) as HL.
      apply (f_equal (@List.length Z)) in Eb. rewrite app_length in Eb. simpl in Eb. lia. }
    rewrite <- Eb. clear Eb b0 bs.
    assert (Hr : wf_srec g r) by (apply Hwf; simpl; auto).
    rewrite (sector_header_ok g) by auto. cbn [bind sh_dims].
    assert (ES : skipn (Z.to_nat (sector_size g v * 2))
                   (flat_map (le_bytes 2) (s_px r) ++ flat_map encode_srec rs) =
                 flat_map encode_srec rs).
    { rewrite sector_size_eq by auto.
      destruct Hr as (_ & _ & _ & _ & _ & _ & Hlen & _).
      assert (En : npix_sector g = Zlen (s_px r)) by (pose proof (npix_sector_4 g Hg); lia).
      assert (EL : List.length (flat_map (le_bytes 2) (s_px r)) = Z.to_nat (npix_sector g * 2)).
      { rewrite flat_le_length, En. unfold Zlen. lia. }
      rewrite <- EL, skipn_app, Nat.sub_diag, skipn_O, skipn_all. reflexivity. }
    rewrite ES.
    assert (HL : Zlen (r :: rs) = Zlen rs + 1) by (unfold Zlen; simpl; lia).
    assert (Hn : 0 <= Zlen rs) by apply Zlen_nonneg.
    rewrite (u64_id (fst acc + 1)) by (split; lia).
    rewrite IH; cbn [fst snd]; auto.
    + do 2 f_equal; [lia|]. cbn [map]. now rewrite last_cons_d.
    + intros r' Hr'. apply Hwf; simpl; auto.
    + simpl in Hfuel. lia.
    + lia.
    + lia.
Qed.

Lemma last_app_d {A} (l1 l2 : list A) : forall d, last (l1 ++ l2) d = last l2 (last l1 d).
Proof.
  induction l1 as [|a l1 IH]; intros d; [reflexivity|]. cbn [app]. now rewrite !last_cons_d, IH.
Qed.

Lemma sector_count_ok g v fs : wf_geom g -> v = 4 \/ v = 5 ->
  (forall e, In e (all_records fs) -> wf_srec g (snd e)) ->
  Zlen (all_records fs) < 2 ^ 64 ->
  sector_count g v (map encode_sfile fs) =
  Ok (Zlen (all_records fs), last (map (fun e => rec_dims (snd e)) (all_records fs)) (0, 0)).
Proof.
  intros Hg Hv. unfold sector_count.
  assert (Hgen : forall fs acc, (forall e, In e (all_records fs) -> wf_srec g (snd e)) ->
    0 <= fst acc -> fst acc + Zlen (all_records fs) < 2 ^ 64 ->
    for_each (map encode_sfile fs)
      (fun f acc => count_headers (S (List.length (snd f))) g v (snd f) acc) acc =
    Ok (fst acc + Zlen (all_records fs),
        last (map (fun e => rec_dims (snd e)) (all_records fs)) (snd acc))).
  { clear fs. induction fs as [|[sec rs] fs IH]; intros acc Hwf H0 Hmax.
    - cbn. unfold Zlen; simpl. rewrite Z.add_0_r. now destruct acc.
    - cbn [map for_each encode_sfile fst snd].
      assert (HL : Zlen (all_records ((sec, rs) :: fs)) = Zlen rs + Zlen (all_records fs)).
      { rewrite all_records_cons. unfold Zlen. rewrite app_length, map_length. cbn [snd]. lia. }
      assert (Hn : 0 <= Zlen rs /\ 0 <= Zlen (all_records fs)) by (split; apply Zlen_nonneg).
      rewrite count_headers_ok; auto.
      + cbn [bind]. rewrite IH; cbn [fst snd]; auto.
        * do 2 f_equal; [lia|]. rewrite all_records_cons, map_app, last_app_d.
          cbn [fst snd]. now rewrite map_map.
        * intros e He. apply Hwf. rewrite all_records_cons. apply in_or_app; auto.
        * lia.
        * lia.
      + intros r Hr. apply (Hwf (sec, r)). rewrite all_records_cons. apply in_or_app. left.
        cbn [fst snd]. now apply in_map.
      + clear. induction rs as [|r rs IH]; [simpl; lia|]. cbn [flat_map List.length].
        pose proof (encode_srec_length r). rewrite app_length. lia.
      + lia. }
  intros Hwf Hmax. rewrite Hgen; auto; cbn [fst snd]; lia.
Qed.

Lemma last_const {A B} (f : A -> B) l c d : l <> [] -> (forall x, In x l -> f x = c) ->
  last (map f l) d = c.
Proof.
  induction l as [|a l IH]; [congruence|]. intros _ H. destruct l as [|b l].
  - simpl. apply H; simpl; auto.
  - change (last (map f (b :: l)) d = c). apply IH; [discriminate|].
    intros x Hx. apply H. simpl; auto.
Qed.

(** [fs]: sector files of a scan of [sw] by [sh] positions. *)
Definition scan_files (g : geom) (sw sh : Z) (fs : list sfile) : Prop :=
  forall e, In e (all_records fs) ->
    wf_srec g (snd e) /\ s_sw (snd e) = sw /\ s_sh (snd e) = sh.

(** dataCaptured is the number of sectors over four times the number of
    positions, both rounded to float, as a correctly rounded float quotient. *)
Theorem captured_fraction g v fs sw sh :
  wf_geom g -> v = 4 \/ v = 5 -> scan_files g sw sh fs -> all_records fs <> [] ->
  Zlen (all_records fs) < 2 ^ 64 -> 0 < 4 * (sw * sh) < 2 ^ 32 ->
  exists x, data_captured g v (map encode_sfile fs) = Ok x /\
    fval x (f_rnd (f_rnd (IZR (Zlen (all_records fs))) / f_rnd (IZR (4 * (sw * sh))))).
Proof.
  intros Hg Hv Hs Hne Hmax Hexp.
  unfold data_captured. rewrite sector_count_ok; auto.
  2:{ intros e He. apply (Hs e He). }
  cbn [bind].
  rewrite (last_const _ _ (sw, sh)); auto.
  2:{ intros e He. destruct (Hs e He) as (_ & <- & <-). reflexivity. }
  cbn [fst snd].
  rewrite (u32_id (sw * sh)) by (split; lia).
  rewrite (u32_id (sw * sh * 4)) by (split; lia).
  replace (sw * sh * 4) with (4 * (sw * sh)) by ring.
  eexists. split; [reflexivity|].
  pose proof (Zlen_nonneg (all_records fs)) as Hn0.
  set (n := Zlen (all_records fs)) in *. set (m := 4 * (sw * sh)) in *.
  assert (H1 : (1 <= f_rnd (IZR m))%R).
  { change 1%R with (IZR 1). rewrite <- (f_rnd_int 1) by (simpl; lia).
    apply f_rnd_le. apply IZR_le. lia. }
  apply fval_div.
  - apply fval_of_int. lia.
  - apply fval_of_int. lia.
  - lra.
  - assert (Hn : (0 <= f_rnd (IZR n) <= bpow radix2 64)%R).
    { split.
      - rewrite <- (f_rnd_int 0) by (simpl; lia). apply f_rnd_le. apply IZR_le. lia.
      - assert (G : generic_format radix2 f_exp (bpow radix2 64)).
        { apply generic_format_bpow. unfold FLT_exp. lia. }
        rewrite <- (f_rnd_id _ G). apply f_rnd_le. rewrite <- IZR_Zpower by lia. apply IZR_le.
        change (radix2 ^ 64) with (2 ^ 64). lia. }
    assert (Hq : (0 <= f_rnd (IZR n) / f_rnd (IZR m) <= f_rnd (IZR n))%R).
    { split; [apply Rmult_le_pos; [lra|]; left; apply Rinv_0_lt_compat; lra|].
      apply Rmult_le_reg_r with (f_rnd (IZR m)); [lra|]. unfold Rdiv.
      rewrite Rmult_assoc, Rinv_l, Rmult_1_r by lra. nra. }
    rewrite Rabs_pos_eq by lra.
    apply Rle_trans with (bpow radix2 64); [lra|]. apply bpow_le. lia.
Qed.

(** With at most 2^24 sectors (found and expected) the result is 1 exactly when
    no sector is missing. *)
Theorem captured_one_iff g v fs sw sh :
  wf_geom g -> v = 4 \/ v = 5 -> scan_files g sw sh fs -> all_records fs <> [] ->
  Zlen (all_records fs) <= 2 ^ 24 -> 0 < 4 * (sw * sh) <= 2 ^ 24 ->
  exists x, data_captured g v (map encode_sfile fs) = Ok x /\
    fval x (f_rnd (IZR (Zlen (all_records fs)) / IZR (4 * (sw * sh)))) /\
    (f_eq x (f_of_Z 1) = true <-> Zlen (all_records fs) = 4 * (sw * sh)).
Proof.
  intros Hg Hv Hs Hne Hmax Hexp.
  destruct (captured_fraction g v fs sw sh) as (x & E & Hx); auto; try lia.
  exists x. split; [exact E|].
  pose proof (Zlen_nonneg (all_records fs)) as Hn0.
  rewrite (f_rnd_int (Zlen (all_records fs))) in Hx by lia.
  rewrite (f_rnd_int (4 * (sw * sh))) in Hx by lia.
  split; [exact Hx|].
  assert (H1 : fval (f_of_Z 1) 1).
  { rewrite <- (f_rnd_int 1) by (simpl; lia). apply fval_of_int. lia. }
  rewrite (fval_eq _ _ _ _ Hx H1). split.
  - intros Hb. apply (f_rnd_quotient_one (Zlen (all_records fs)) (4 * (sw * sh))); try lia.
    revert Hb. unfold Req_bool. destruct (Rcompare_spec
      (f_rnd (IZR (Zlen (all_records fs)) / IZR (4 * (sw * sh)))) 1); try discriminate. auto.
  - intros ->. apply Req_bool_true. unfold Rdiv. rewrite Rinv_r by (apply not_0_IZR; lia).
    apply (f_rnd_int 1). simpl. lia.
Qed.

(** Without a single header the result is not a number. *)
Theorem captured_nothing g v fs :
  wf_geom g -> v = 4 \/ v = 5 -> all_records fs = [] ->
  exists x, data_captured g v (map encode_sfile fs) = Ok x /\ f_nan x = true.
Proof.
  intros Hg Hv Hnil. unfold data_captured. rewrite sector_count_ok; auto.
  - rewrite Hnil. cbn [bind map last fst snd]. eexists. split; [reflexivity|]. vm_compute. reflexivity.
  - rewrite Hnil. simpl. tauto.
  - rewrite Hnil. unfold Zlen; simpl. lia.
Qed.

(** For a 4096 by 4096 scan with one sector missing the result is 1: the count
    2^26 - 1 is not a float and is rounded to 2^26. *)
Theorem captured_one_missing_refuted g v :
  wf_geom g -> v = 4 \/ v = 5 ->
  exists fs x, scan_files g 4096 4096 fs /\ Zlen (all_records fs) = 4 * (4096 * 4096) - 1 /\
    data_captured g v (map encode_sfile fs) = Ok x /\ fval x 1.
Proof.
  intros Hg Hv.
  set (r := mkSrec 1 0 4096 4096 0 0 (repeat 0 (Z.to_nat (g_w g * g_h g / 4)))).
  assert (Hr : wf_srec g r).
  { unfold wf_srec, r. cbn [s_scan s_frame s_sw s_sh s_x s_y s_px].
    unfold is_u32, is_u16. repeat (split; [lia|]). split.
    - rewrite Zlen_repeat. pose proof (npix_sector_4 g Hg) as H4. unfold npix_sector in H4.
      rewrite Z2Nat.id; [exact H4|]. destruct Hg as (? & ? & _). apply Z.div_pos; nia.
    - apply Forall_forall. intros z Hz. apply repeat_spec in Hz. subst z. lia. }
  remember (4 * (4096 * 4096) - 1) as k eqn:Ek.
  set (fs := [(0, repeat r (Z.to_nat k))] : list sfile).
  assert (Hs : scan_files g 4096 4096 fs).
  { intros e He. unfold fs in He. rewrite all_records_cons in He. cbn [fst snd] in He.
    unfold all_records in He. cbn [flat_map] in He. rewrite app_nil_r in He.
    apply in_map_iff in He as (r' & <- & Hin). apply repeat_spec in Hin. subst r'. cbn [snd].
    split; [exact Hr|]. split; reflexivity. }
  assert (HL : Zlen (all_records fs) = k).
  { unfold fs. rewrite all_records_cons. unfold all_records. cbn [flat_map fst snd].
    rewrite app_nil_r. unfold Zlen. rewrite map_length, repeat_length. rewrite Z2Nat.id; lia. }
  destruct (captured_fraction g v fs 4096 4096) as (x & E & Hx); auto.
  { intros Hn. rewrite Hn in HL. unfold Zlen in HL. simpl in HL. lia. }
  { lia. }
  { lia. }
  exists fs, x. split; [exact Hs|]. split; [exact HL|]. split; [exact E|].
  rewrite HL, Ek in Hx.
  assert (E1 : f_rnd (IZR (4 * (4096 * 4096))) = IZR (2 ^ 26)).
  { apply (f_rnd_id (bpow radix2 26)). apply generic_format_bpow. unfold FLT_exp. lia. }
  assert (E2 : f_rnd (IZR (4 * (4096 * 4096) - 1)) = IZR (2 ^ 26)).
  { apply Rle_antisym.
    - rewrite <- E1. apply f_rnd_le. apply IZR_le. lia.
    - apply round_N_ge_midp; auto with typeclass_instances.
      + apply (generic_format_bpow radix2 f_exp 26). unfold FLT_exp. lia.
      + change (IZR (2 ^ 26)) with (bpow radix2 26). rewrite pred_bpow.
        change (bpow radix2 26) with (IZR 67108864).
        replace (FLT_exp (-149) 24 26) with 2 by reflexivity.
        change (bpow radix2 2) with (IZR 4). change (4 * (4096 * 4096) - 1) with 67108863. lra. }
  rewrite E1, E2 in Hx. unfold Rdiv in Hx. rewrite Rinv_r in Hx by (apply not_0_IZR; lia).
  change 1%R with (IZR 1) in Hx. rewrite (f_rnd_int 1) in Hx by (simpl; lia). exact Hx.
Qed.

(** The scan dimensions are those of the last header; four times the number of
    positions is computed modulo 2^32. *)
Example captured_small : exists x,
  data_captured (mkGeom 4 4) 5
    (map encode_sfile [(0, [mkSrec 1 0 2 1 0 0 [1; 2; 3; 4]; mkSrec 1 1 2 1 1 0 [1; 2; 3; 4]])])
  = Ok x /\ fval x (1 / 4).
Proof.
  set (fs := [(0, [mkSrec 1 0 2 1 0 0 [1; 2; 3; 4]; mkSrec 1 1 2 1 1 0 [1; 2; 3; 4]])] : list sfile).
  destruct (captured_one_iff (mkGeom 4 4) 5 fs 2 1) as (x & E & Hx & _); auto.
  - repeat split.
  - intros e He. cbn in He. unfold wf_srec, is_u32, is_u16.
    repeat destruct He as [<-|He]; try contradiction;
      cbn [fst snd s_scan s_frame s_sw s_sh s_x s_y s_px g_w g_h];
      (split; [|split; reflexivity]);
      repeat (split; [unfold Zlen; simpl; lia|]);
      repeat constructor; unfold is_u16; lia.
  - discriminate.
  - unfold Zlen; simpl; lia.
  - lia.
  - exists x. split; [exact E|].
    assert (G : generic_format radix2 f_exp (1 / 4)%R).
    { apply generic_format_FLT. exists (Float radix2 1 (-2)); simpl; try lia.
      unfold F2R. simpl. lra. }
    replace (IZR (Zlen (all_records fs)) / IZR (4 * (2 * 1)))%R with (1 / 4)%R in Hx.
    + now rewrite (f_rnd_id _ G) in Hx.
    + change (Zlen (all_records fs)) with 2. change (4 * (2 * 1)) with 8. lra.
Qed.

Print Assumptions captured_fraction.
Print Assumptions captured_one_iff.
Print Assumptions captured_nothing.
Print Assumptions captured_one_missing_refuted.
