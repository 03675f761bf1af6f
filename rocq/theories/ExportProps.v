(** C73: an export to HDF5 over a library whose calls may fail. *)
From Coq Require Import String ZArith List Bool Lia Permutation.
From Verif Require Import Base BaseFacts BlockModel StreamModel StreamSpec SectorModel SectorSpec SectorProps H5Model H5Props H5LibModel H5WrapModel H5WrapSpec H5WrapProofs H5WrapProps
  H5DataSpec H5DataProofs H5Region H5RegionProofs H5AttrProofs H5CreateProofs H5DataProps ExportModel ExportSpec ExportProofs.
Import ListNotations.
Open Scope Z_scope.

(** Opening and closing. *)
Lemma open_export can old fault : exists (b : bool) s, open_file false can (nothing_open old fault) = Ok (b, s) /\ between_calls s /\
  w_handler s = 1 /\ w_fault s = fault /\ open_ids s = own (m_file s) CFile [] /\
  (m_file s < 0 /\ w_tree s = old /\ (fault 0 = true \/ can = false) \/ can = true /\ fresh s).
Proof.
  destruct (H5WrapProps.opened false can old fault) as (b & s & E & B & H & O & _). exists b, s. split; [exact E|]. split; [exact B|]. split; [exact H|].
  revert E. unfold open_file, H5Fcreate, pbind, open_id, guard, modify, file_is_valid, get, ret, pbind. cbn [w_fault w_clock nothing_open].
  destruct (fault 0) eqn:F; [|destruct can]; cbn [bind Z.leb Z.compare w_next]; intros E; injection E as <- <-; (split; [reflexivity|]); (split; [exact O|]).
  - left. cbn. auto with zarith.
  - right. split; [reflexivity|]. repeat split; cbn; lia.
  - left. cbn. auto with zarith.
Qed.

Lemma close_export s : between_calls s -> Permutation (open_ids s) (own (m_file s) CFile []) ->
  exists s', clear s = Ok (tt, s') /\ w_live s' = [] /\ w_handler s' = w_handler s /\ w_tree s' = w_tree s /\ m_file s' < 0.
Proof.
  intros B P. unfold clear, pbind, file_is_valid, pbind, get, ret. cbn [bind]. unfold own in P. destruct (0 <=? m_file s) eqn:V; cbn [bind].
  - apply Permutation_sym, Permutation_length_1_inv in P. unfold open_ids in P. destruct (w_live s) as [|[id o] [|]] eqn:L; try discriminate.
    cbn in P. injection P as -> K. unfold close_id, lookup. rewrite L. cbn [find fst]. rewrite Z.eqb_refl. cbn [snd]. rewrite K.
    destruct (hkind_dec CFile CFile); [|contradiction]. cbn [bind filter fst]. rewrite Z.eqb_refl. cbn [negb modify]. eexists. split; [reflexivity|]. cbn. auto with zarith.
  - apply Permutation_sym, Permutation_nil in P. unfold open_ids in P. apply map_eq_nil in P. apply Z.leb_gt in V. exists s. auto.
Qed.

(** Without a file nothing is done. *)
Lemma invalid_blocks g n sw sh fmt b bs p px throws s : m_file s < 0 -> 0 < sw /\ 0 < sh /\ sw * sh < 2 ^ 31 -> frame_at n sw sh p px b ->
  write_blocks g fmt None (b :: bs) throws s = Ok (false, s).
Proof.
  intros M Hs (Hd & Hf & Hi & Him & Hpx & Hlen). assert (V : (0 <=? m_file s) = false) by (apply Z.leb_gt; exact M).
  assert (FV : file_is_valid s = Ok (false, s)) by (unfold file_is_valid, pbind, get, ret; cbn [bind]; now rewrite V).
  assert (C : forall t q m d ch, create_data_set t q m d ch s = Ok (false, s)) by (intros; unfold create_data_set, pbind; now rewrite FV).
  assert (A : forall t q m d, set_attribute t q m d s = Ok (false, s)) by (intros; unfold set_attribute, pbind; now rewrite FV).
  assert (G : forall q, create_group q s = Ok (false, s)) by (intros; unfold create_group, pbind; now rewrite FV).
  assert (U : forall q d bf st cn, update_data q d bf st cn s = Ok (false, s)) by (intros; unfold update_data, pbind; now rewrite FV).
  cbn [write_blocks]. unfold pbind at 1.
  assert (ST : exists d, (match fmt with Frame => start_frames g b | DataCube => start_cube g b end) s = Ok (d, s)).
  { destruct fmt.
    - unfold start_frames, pbind, lift, mul_i32. rewrite Hd. cbn [fst snd]. rewrite !pos_i32 by nia. rewrite (proj2 (Z.ltb_lt _ _)) by lia. cbn [bind].
      rewrite C. cbn [bind]. rewrite A. cbn [bind]. rewrite G. cbn [bind]. rewrite C. cbn [bind]. eexists. reflexivity.
    - unfold start_cube, pbind. rewrite C. cbn [bind]. eexists. reflexivity. }
  destruct ST as (d & ->). cbn [bind]. unfold pbind. rewrite Hi. change (Z.to_nat 1) with 1%nat. cbn [write_images]. unfold pbind, lift.
  assert (IS : exists st, image_start fmt b 0 = Ok st).
  { unfold image_start. rewrite Him, Hd. change (rd [p] 0) with (Ok p). cbn [bind fst]. rewrite (proj2 (Z.eqb_neq sw 0)) by lia. destruct fmt; eexists; reflexivity. }
  destruct IS as (st & ->). cbn [bind]. unfold block_data. rewrite Hpx. cbn [bind]. rewrite U. reflexivity.
Qed.

(** The whole export.  [frames] are the positions and pixels of the blocks [bs] the
    reader delivers; [throws]: the reader throws after them; [can]: the file can
    be created; [old]: the file there was before; [fault]: which calls of the
    library fail.  The export never goes wrong.  It leaves nothing open, also if
    it throws.  If it returns, the file holds all frames.  It does return if
    nothing fails. *)
Theorem C73_export g n sw sh fmt bs frames throws can old fault :
  g_w g = n /\ g_h g = n -> 0 < n < 2 ^ 15 -> 0 < sw /\ 0 < sh /\ sw * sh < 2 ^ 31 ->
  Forall2 (fun b f => frame_at n sw sh (fst f) (snd f) b /\ 0 <= fst f) bs frames ->
  exists (returned : bool) s', export_file g fmt can bs throws (nothing_open old fault) = Ok (returned, s') /\
    w_live s' = [] /\ w_handler s' = 1 /\
    (returned = true -> throws = false /\
       (bs <> [] -> can = true /\ Forall (in_scan sw sh) frames /\ file_holds fmt sw sh n frames s')) /\
    (returned = false -> w_tree s' = old \/ data_at s' (set_path fmt) = None \/
       exists k, (k <= List.length frames)%nat /\ file_holds fmt sw sh n (firstn k frames) s') /\
    (bs <> [] -> can = false -> returned = false /\ w_tree s' = old) /\
    ((forall k, fault k = false) -> can = true -> throws = false -> Forall (in_scan sw sh) frames ->
       returned = true /\ (bs <> [] -> fmt = Frame -> extras sw sh s')).
Proof.
  intros Hg Hn Hs HF. destruct (open_export can old fault) as (b0 & s0 & E0 & B0 & HD & FT & OI & CASE).
  unfold export_file, pbind at 1. rewrite E0. cbn [bind]. unfold pbind at 1.
  assert (Body : exists (r : bool) s1, write_blocks g fmt None bs throws s0 = Ok (r, s1) /\ step s0 s1 /\
    (r = true -> throws = false /\ (bs <> [] -> can = true /\ Forall (in_scan sw sh) frames /\ file_holds fmt sw sh n frames s1)) /\
    (r = false -> w_tree s1 = old \/ data_at s1 (set_path fmt) = None \/ exists k, (k <= List.length frames)%nat /\ file_holds fmt sw sh n (firstn k frames) s1) /\
    (bs <> [] -> can = false -> r = false /\ w_tree s1 = old) /\
    ((forall k, fault k = false) -> can = true -> throws = false -> Forall (in_scan sw sh) frames -> r = true /\ (bs <> [] -> fmt = Frame -> extras sw sh s1))).
  { destruct bs as [|b bs].
    - exists (negb throws), s0. split; [reflexivity|]. split; [now apply step_refl|]. split; [intros E; destruct throws; [discriminate|]; split; [reflexivity|contradiction]|].
      split; [|split; [contradiction|intros _ _ -> _; split; [reflexivity|contradiction]]]. intros _.
      destruct CASE as [(_ & T & _)|(_ & T & _)]; [now left|right; left]. unfold data_at. rewrite T. destruct fmt; reflexivity.
    - inversion HF as [|b' f bs' fs [Hb Hp] HF']; subst b' bs' frames. destruct CASE as [(M & T & W)|(CAN & FR)].
      + exists false, s0. split; [eapply invalid_blocks; eassumption|]. split; [now apply step_refl|]. split; [discriminate|]. split; [now left|].
        split; [auto|]. intros X C _ _. rewrite (X 0) in W. destruct W; congruence.
      + subst can. cbn [write_blocks]. unfold pbind at 1.
        destruct (start_spec g n sw sh fmt Hg Hn Hs b s0 ltac:(apply Hb) B0 FR) as (s1 & E1 & S1 & H1 & N1).
        unfold start in E1. rewrite E1. cbn [bind]. clear E1.
        destruct H1 as [H1|H1].
        * destruct (blocks_loop g n sw sh fmt Hn Hs throws (b :: bs) (f :: fs) [] s1 HF (step_between _ _ S1) H1) as (r & s2 & k & E2 & S2 & R2 & K & H2 & D & C).
          exists r, s2. split; [exact E2|]. split; [exact (step_trans _ _ _ S1 S2)|]. cbn [app] in H2. split; [|split; [|split]].
          -- intros ->. destruct (D eq_refl) as (-> & D1 & D2). split; [exact D2|]. intros _. split; [reflexivity|]. split; [exact D1|]. now rewrite firstn_all in H2.
          -- intros _. right. right. exists k. auto.
          -- intros _ X. discriminate.
          -- intros X _ TH FA. assert (X0 : no_faults s0) by (intros j; rewrite FT; apply X). destruct (N1 X0) as (_ & EX).
             destruct S1 as (_ & _ & M1 & _ & F1 & RO1). destruct FR as (_ & RO & MF). split.
             ++ apply C; [intros j; rewrite F1; apply X0|lia|congruence|exact FA|exact TH].
             ++ intros _ EF. specialize (EX EF). subst fmt. destruct R2 as (O & OA). cbn [set_path] in *. destruct EX as (A1 & A2 & A3). split; [|split].
                ** rewrite OA. exact A1.
                ** rewrite (proj1 (proj2 (obj_data s1 s2 _ (O ["stem"]%string ltac:(discriminate))))). exact A2.
                ** rewrite (proj1 (obj_data s1 s2 _ (O ["stem"; "images"]%string ltac:(discriminate)))). exact A3.
        * destruct f as [p px]. destruct (no_update n sw sh fmt s1 p px (step_between _ _ S1) H1) as (s2 & E2 & S2 & T2).
          unfold pbind. rewrite (block_is_update g n sw sh fmt Hs b p px s1 Hb), E2. cbn [bind]. exists false, s2.
          split; [reflexivity|]. split; [exact (step_trans _ _ _ S1 S2)|]. split; [discriminate|].
          split; [intros _; right; left; now rewrite (data_at_tree s1 s2)|]. split; [discriminate|].
          intros X _ _ _. exfalso. destruct N1 as ((v & D & _) & _); [intros j; rewrite FT; apply X|]. congruence. }
  destruct Body as (r & s1 & E1 & S1 & B1 & B2 & B3 & B4). rewrite E1. cbn [bind]. unfold pbind.
  destruct S1 as (P1 & H1 & M1 & BC & _). destruct (close_export s1 BC) as (s2 & E2 & L2 & H2 & T2 & _).
  { rewrite P1, OI, M1. reflexivity. }
  rewrite E2. cbn [bind]. exists r, s2. split; [reflexivity|]. split; [exact L2|]. split; [congruence|].
  split; [|split; [|split]].
  - intros Hr. destruct (B1 Hr) as (Y1 & Y2). split; [exact Y1|]. intros NE. destruct (Y2 NE) as (Z1 & Z2 & Z3). split; [exact Z1|]. split; [exact Z2|]. now apply (holds_tree n sw sh fmt frames s1).
  - intros Hr. destruct (B2 Hr) as [Y|[Y|(k & K & Y)]]; [left; congruence|right; left; now rewrite (data_at_tree s1 s2)|right; right; exists k; split; [exact K|]].
    now apply (holds_tree n sw sh fmt _ s1).
  - intros NE C. destruct (B3 NE C). split; congruence.
  - intros X C TH FA. destruct (B4 X C TH FA) as (Y1 & Y2). split; [exact Y1|]. intros NE EF. destruct (Y2 NE EF) as (A1 & A2 & A3).
    unfold extras. rewrite (attr_at_tree s1 s2) by exact T2. rewrite (data_at_tree s1 s2) by exact T2. rewrite T2. auto.
Qed.

(** Reading a frame back with the wrapper: a file that holds the frames is opened,
    the region of one position is read. *)
Theorem C73_read_back n sw sh fmt frames s p : 0 < n < 2 ^ 15 -> 0 < sw /\ 0 < sh /\ sw * sh < 2 ^ 31 ->
  file_holds fmt sw sh n frames s -> 0 <= p < sw * sh ->
  exists l s', (do _ <- open_file true true;
      read_data TU16 (set_path fmt) (n * n) None (Some (pixel_index fmt sw p 0 0))
        (Some (match fmt with Frame => [1; n; n] | DataCube => [1; 1; n; n] end)))
      (nothing_open (w_tree s) (fun _ => false)) = Ok (Some l, s') /\
    Zlen l = n * n /\ forall k, 0 <= k < n * n -> nth (Z.to_nat k) l (ENum 0) = ENum (last_given frames p k).
Proof.
  intros Hn Hs (v & D & LV & V) P. set (cn := match fmt with Frame => [1; n; n] | DataCube => [1; 1; n; n] end).
  destruct (H5WrapProps.opened true true (w_tree s) (fun _ => false)) as (b & s0 & E & B & _).
  unfold pbind. rewrite E. cbn [bind].
  assert (S0 : w_tree s0 = w_tree s /\ 0 <= m_file s0 /\ no_faults s0).
  { revert E. unfold open_file, H5Fopen, pbind, open_id, guard, modify, file_is_valid, get, ret, pbind. cbn [w_fault w_clock nothing_open set_ro bind].
    intros E. injection E as <- <-. cbn. repeat split; lia. }
  destruct S0 as (T0 & M0 & X0). change cn with (counts_of n fmt).
  pose proof (frame_fits n sw sh fmt Hn Hs p P) as F. pose proof (dims_i32 n sw sh fmt Hn Hs) as DI.
  assert (CP' : prodZ (counts_of n fmt) = n * n) by (unfold counts_of; destruct fmt; cbn [prodZ fold_right]; lia).
  destruct (C72_region TU16 (set_path fmt) TU16 (set_dims fmt sw sh n) v None (Some (pixel_index fmt sw p 0 0)) (Some (counts_of n fmt))
     (repeat 1 (List.length (set_dims fmt sw sh n))) (pixel_index fmt sw p 0 0) (counts_of n fmt) (n * n) s0 B)
     as (r & s' & E' & _ & _ & A & C); auto.
  { now rewrite (data_at_tree s s0). }
  { destruct fmt; discriminate. }
  { apply Forall_forall. intros z Hz. apply repeat_spec in Hz. subst. unfold is_i32. lia. }
  { right. auto. }
  { now left. }
  { now left. }
  { right. left. discriminate. }
  { lia. }
  destruct r as [l|]. 2: { exfalso. apply (proj2 (C X0 M0)); reflexivity. }
  exists l, s'. split; [exact E'|]. destruct (A l eq_refl) as (L & N). split; [congruence|]. intros k K.
  assert (Y : 0 <= k / n < n) by (split; [apply Z.div_pos; lia|apply Z.div_lt_upper_bound; nia]).
  assert (X : 0 <= k mod n < n) by (apply Z.mod_pos_bound; lia).
  assert (K' : k = k / n * n + k mod n) by (rewrite Z.mul_comm; apply Z.div_mod; lia).
  rewrite K' at 2. rewrite <- (V p (k / n) (k mod n) P Y X).
  specialize (N (match fmt with Frame => [0; k / n; k mod n] | DataCube => [0; 0; k / n; k mod n] end)).
  replace (ravel (counts_of n fmt) _) with k in N by (unfold counts_of; destruct fmt; cbn [ravel prodZ fold_right]; lia).
  rewrite N by (unfold counts_of, within; destruct fmt; repeat constructor; lia). f_equal.
  destruct fmt; cbn [set_dims pixel_index List.length repeat place]; repeat (f_equal; try lia).
Qed.

(** From the files of a scan: whatever fails in the library, if the export of well
    formed sector files returns, every position of the data set holds the frame
    assembled from the sectors that the files contain for it. *)
Theorem C73_from_files g n v fs sw sh fmt can old fault :
  wf_geom g -> g_w g = n /\ g_h g = n -> n < 2 ^ 15 -> v = 4 \/ v = 5 ->
  wf_sfiles g fs -> same_scan fs -> all_records fs <> [] ->
  0 < sw /\ 0 < sh /\ sw * sh < 2 ^ 31 ->
  (forall e, In e (all_records fs) -> s_sw (snd e) = sw /\ s_sh (snd e) = sh /\ s_pos (snd e) < sw * sh) ->
  exists s fuel bs (returned : bool) w,
    sector_reader (map encode_sfile fs) v = Ok s /\ sector_iterate g fuel s = Ok bs /\
    export_file g fmt can bs false (nothing_open old fault) = Ok (returned, w) /\ w_live w = [] /\
    (returned = true -> exists l, data_at w (set_path fmt) = Some (TU16, set_dims fmt sw sh n, l) /\
       forall p y x, 0 <= p < sw * sh -> 0 <= y < n -> 0 <= x < n ->
         at_index (set_dims fmt sw sh n) l (pixel_index fmt sw p y x) =
         ENum (nth (Z.to_nat (y * n + x)) (assembled g v (records_at p (all_records fs))) 0)) /\
    ((forall k, fault k = false) -> can = true -> returned = true).
Proof.
  intros Hg Hgn Hn15 Hv Hwf Hss Hne Hs Hin.
  destruct (files_deliver g n v fs sw sh Hg Hgn Hn15 Hv Hwf Hss Hne Hs Hin) as (s & fuel & bs & frames & E & Hit & Hn & Hbne & HF & Hpix).
  assert (HF1 : Forall2 (fun b f => frame_at n sw sh (fst f) (snd f) b /\ 0 <= fst f) bs frames).
  { clear - HF. induction HF as [|b f bs fs (A & B) HF IH]; constructor; auto. split; [exact A|lia]. }
  assert (HF2 : Forall (in_scan sw sh) frames).
  { clear - HF. induction HF as [|b f bs fs (A & B) HF IH]; constructor; auto. }
  destruct (C73_export g n sw sh fmt bs frames false can old fault Hgn Hn Hs HF1) as (r & w & E1 & L & _ & R & _ & _ & C).
  exists s, fuel, bs, r, w. split; [exact E|]. split; [exact Hit|]. split; [exact E1|]. split; [exact L|]. split.
  - intros Hr. destruct (R Hr) as (_ & R2). destruct (R2 Hbne) as (_ & _ & l & D & _ & V). exists l. split; [exact D|]. intros p y x P Y X.
    rewrite V by assumption. f_equal. specialize (Hpix p (y * n + x) P ltac:(nia)). unfold zat in Hpix. unfold pixel_of, zat in Hpix.
    rewrite (proj2 (Z.ltb_ge (y * n + x) 0)) in Hpix by nia. exact Hpix.
  - intros X CAN. now apply C.
Qed.

(** Beside the frames nothing is checked: the export returns although the scan
    dimensions are missing, or are zeros, or the data set of the images is missing. *)
Definition ex_block (p : Z) (px : list Z) : block := mkBlock (mkHeader (2, 1) (2, 2) 1 5 0 p 0 [p] []) (Some px).
Definition ex_blocks : list block := [ex_block 0 [1; 2; 3; 4]; ex_block 1 [5; 6; 7; 8]].
Definition ex_frames : list (Z * list Z) := [(0, [1; 2; 3; 4]); (1, [5; 6; 7; 8])].
Definition ex_geom : geom := mkGeom 2 2.
Theorem C73_attribute_refuted :
  (exists fault s', export_file ex_geom Frame true ex_blocks false (nothing_open [] fault) = Ok (true, s') /\
     attr_at s' ["frames"]%string "scan_dimensions" = None) /\
  (exists fault s', export_file ex_geom Frame true ex_blocks false (nothing_open [] fault) = Ok (true, s') /\
     attr_at s' ["frames"]%string "scan_dimensions" = Some (mkAttr "scan_dimensions" TI32 [ENum 0; ENum 0])) /\
  (exists fault s', export_file ex_geom Frame true ex_blocks false (nothing_open [] fault) = Ok (true, s') /\
     is_group (w_tree s') ["stem"]%string = false /\ data_at s' ["stem"; "images"]%string = None).
Proof.
  split; [|split]; [exists (fun k => k =? 10)|exists (fun k => k =? 14)|exists (fun k => k =? 18)]; eexists; (split; [vm_compute; reflexivity|]); vm_compute; auto.
Qed.

(** Without a frame the export returns although the file could not be created; what
    was there stays. *)
Theorem C73_no_frames_refuted g fmt old fault : exists s',
  export_file g fmt false [] false (nothing_open old fault) = Ok (true, s') /\ w_tree s' = old.
Proof.
  destruct (open_export false old fault) as (b & s & E & B & _ & _ & OI & [(M & T & _)|(C & _)]); [|discriminate].
  unfold export_file, pbind. rewrite E. cbn [bind write_blocks ret]. destruct (close_export s B) as (s' & -> & _ & _ & T' & _); [now rewrite OI|].
  cbn [bind]. exists s'. split; [reflexivity|congruence].
Qed.

(** If the export throws, the file that was there is gone. *)
Theorem C73_old_file_refuted : exists fault s',
  export_file ex_geom DataCube true ex_blocks false (nothing_open [mkObj [] KGroup []; mkObj ["precious"%string] (KData TU8 [1] [ENum 7]) []] fault) = Ok (false, s') /\
  data_at s' ["precious"]%string = None.
Proof. exists (fun k => k =? 2). eexists. split; vm_compute; reflexivity. Qed.

(** The hypotheses of C73_export are met. *)
Example ex_export : Forall2 (fun b f => frame_at 2 2 1 (fst f) (snd f) b /\ 0 <= fst f) ex_blocks ex_frames /\ Forall (in_scan 2 1) ex_frames /\
  exists s', export_file ex_geom Frame true ex_blocks false (nothing_open [] (fun _ => false)) = Ok (true, s') /\
    data_at s' ["frames"]%string = Some (TU16, [2; 2; 2], map ENum [1; 2; 3; 4; 5; 6; 7; 8]) /\ extras 2 1 s'.
Proof.
  split; [repeat constructor; cbn; lia|]. split; [repeat constructor; cbn; lia|]. eexists. split; [vm_compute; reflexivity|]. split; [reflexivity|]. repeat split.
Qed.

(** A failure in the middle: the exception is thrown, the first frame is in the file,
    nothing is open. *)
Example ex_interrupted : exists fault s', export_file ex_geom DataCube true ex_blocks false (nothing_open [] fault) = Ok (false, s') /\ w_live s' = [] /\
  data_at s' ["datacube"]%string = Some (TU16, [2; 1; 2; 2], map ENum [1; 2; 3; 4; 0; 0; 0; 0]).
Proof. exists (fun k => k =? 20). eexists. split; [vm_compute; reflexivity|]. split; vm_compute; reflexivity. Qed.

Print Assumptions C73_export.
Print Assumptions C73_read_back.
Print Assumptions C73_from_files.
Print Assumptions C73_attribute_refuted.
Print Assumptions C73_no_frames_refuted.
Print Assumptions C73_old_file_refuted.
