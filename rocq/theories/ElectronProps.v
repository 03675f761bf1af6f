(** C01, C27, C28, C45, C46, C47: electron finding in one frame. *)
From Coq Require Import String ZArith List Lia Permutation Bool QArith.
From Verif Require Import Base BaseFacts BlockModel ElectronModel ElectronSpec ElectronProofs.
Import ListNotations.
Open Scope Z_scope.

(** ** C01 *)
Theorem maximal_points_correct : forall T (gt : T -> T -> bool) (frame : list T) w h,
  1 <= w < 65536 -> 1 <= h < 65536 -> w * h < 2 ^ 32 -> Zlen frame = w * h ->
  exists ev, maximalPoints gt frame (w, h) = Ok ev /\
    ascending ev /\
    forall i, In i ev <-> exists x y, i = y * w + x /\ strict_local_max gt frame w h x y.
Proof.
  intros T gt frame w h Hw Hh Hwh HL.
  destruct frame as [|d t] eqn:E.
  - unfold Zlen in HL. simpl in HL. nia.
  - rewrite <- E in *. apply (maximalPoints_ok gt frame w h d); auto.
Qed.

(** A 65536-wide or 65536-high detector: the helper takes a modulo by zero. *)
Theorem maximal_points_65536_undefined : forall T (gt : T -> T -> bool) (frame : list T) w h,
  0 < w -> 0 < h -> w * h < 2 ^ 32 -> (w = 65536 \/ h = 65536) ->
  exists why, maximalPoints gt frame (w, h) = UB why.
Proof.
  intros T gt frame w h Hw Hh Hwh H65. unfold maximalPoints, for_loop. cbn [fst snd].
  rewrite u32_id by (unfold is_u32; nia).
  destruct (Z.to_nat (h * w)) eqn:E; [nia|]. cbn [for_from].
  cut (exists why, is_maximal gt frame w h 0 = UB why).
  { intros [s ->]. exists s. reflexivity. }
  unfold is_maximal.
  assert (U : u16 65536 = 0) by reflexivity.
  assert (M : forall x y, mod16 x y = UB "modulo by zero" \/ exists r, mod16 x y = Ok r).
  { intros x y. unfold mod16. destruct (_ =? 0); eauto. }
  assert (M65 : forall x, mod16 x 65536 = UB "modulo by zero").
  { intros x. unfold mod16. rewrite U. reflexivity. }
  destruct H65 as [->| ->].
  - rewrite M65. cbn [bind]. eauto.
  - destruct (M (u32 (0 mod w + 1)) w) as [->|(r & ->)]; cbn [bind]; [eauto|].
    destruct (M (u32 (0 mod w - 1)) w) as [->|(r' & ->)]; cbn [bind]; [eauto|].
    rewrite M65. cbn [bind]. eauto.
Qed.

Example maximal_points_example :
  maximalPoints Z.gtb [0; 5; 0; 9;
                       0; 0; 0; 0;
                       7; 0; 3; 3] (4, 3) = Ok [1; 3; 8] /\
  strict_local_max Z.gtb [0; 5; 0; 9; 0; 0; 0; 0; 7; 0; 3; 3] 4 3 3 0.
Proof.
  split; [reflexivity|]. unfold strict_local_max. repeat split; try lia.
  intros x' y' v v' (Hx & Hy & Dx & Dy & N) Pv Pv'. unfold pixel in *.
  simpl in Pv. injection Pv as <-.
  assert (C : (x' = 2 \/ x' = 3) /\ (y' = 0 \/ y' = 1)) by lia.
  destruct C as [[->| ->] [->| ->]]; simpl in Pv'; try (injection Pv' as <-; reflexivity).
  congruence.
Qed.

(** ** C46: reported events are never neighbours. *)
Lemma event_coords : forall T (gt : T -> T -> bool) (frame : list T) w h ev i,
  1 <= w < 65536 -> 1 <= h < 65536 -> w * h < 2 ^ 32 -> Zlen frame = w * h ->
  maximalPoints gt frame (w, h) = Ok ev -> In i ev ->
  strict_local_max gt frame w h (i mod w) (i / w).
Proof.
  intros T gt frame w h ev i Hw Hh Hwh HL E Hi.
  destruct (maximal_points_correct T gt frame w h) as (ev' & E' & _ & S); auto.
  rewrite E in E'. injection E' as <-. apply S in Hi.
  destruct Hi as (x & y & -> & SM). pose proof SM as (Hx & _).
  destruct (div_mod_unique_row w x y Hx) as [-> ->]. exact SM.
Qed.

Theorem events_not_adjacent : forall T (gt : T -> T -> bool) (frame : list T) w h ev i j,
  (forall a b, gt a b = true -> gt b a = false) ->
  1 <= w < 65536 -> 1 <= h < 65536 -> w * h < 2 ^ 32 -> Zlen frame = w * h ->
  maximalPoints gt frame (w, h) = Ok ev -> In i ev -> In j ev ->
  ~ neighbour w h (i mod w) (i / w) (j mod w) (j / w).
Proof.
  intros T gt frame w h ev i j As Hw Hh Hwh HL E Hi Hj N.
  pose proof (event_coords T gt frame w h ev i Hw Hh Hwh HL E Hi) as (Hx & Hy & SI).
  pose proof (event_coords T gt frame w h ev j Hw Hh Hwh HL E Hj) as (Hx' & Hy' & SJ).
  assert (N' : neighbour w h (j mod w) (j / w) (i mod w) (i / w)).
  { destruct N as (_ & _ & A & B & C). repeat split; try lia. congruence. }
  assert (V : forall x y, 0 <= x < w -> 0 <= y < h -> exists v, pixel frame w x y = Some v).
  { intros x y ? ?. destruct (pixel frame w x y) eqn:P; eauto.
    apply nth_error_None in P. unfold Zlen in HL. nia. }
  destruct (V _ _ Hx Hy) as [v Pv]. destruct (V _ _ Hx' Hy') as [v' Pv'].
  pose proof (SI _ _ v v' N Pv Pv') as G1.
  pose proof (SJ _ _ v' v N' Pv' Pv) as G2.
  rewrite (As _ _ G1) in G2. discriminate.
Qed.

Lemma ascending_NoDup l : ascending l -> NoDup l.
Proof.
  assert (L : forall t a, ascending (a :: t) -> forall b, In b t -> a < b).
  { induction t as [|c t IH]; intros a [A1 A2] b Hb; [destruct Hb|].
    destruct Hb as [<-|Hb]; auto.
    assert (c < b) by (apply IH; auto). lia. }
  induction l as [|a l IH]; intros A; constructor.
  - intros Hin. pose proof (L l a A a Hin). lia.
  - apply IH. destruct A as [_ A]; exact A.
Qed.

(** At most one event per 2x2 cell of the detector. *)
Theorem event_count_bound : forall T (gt : T -> T -> bool) (frame : list T) w h ev,
  (forall a b, gt a b = true -> gt b a = false) ->
  1 <= w < 65536 -> 1 <= h < 65536 -> w * h < 2 ^ 32 -> Zlen frame = w * h ->
  maximalPoints gt frame (w, h) = Ok ev ->
  Zlen ev <= ((w + 1) / 2) * ((h + 1) / 2).
Proof.
  intros T gt frame w h ev As Hw Hh Hwh HL E.
  destruct (maximal_points_correct T gt frame w h) as (ev' & E' & Asc & _); auto.
  rewrite E in E'. injection E' as <-.
  set (cell := fun i => (i / w) / 2 * ((w + 1) / 2) + (i mod w) / 2).
  assert (Hc : forall i, In i ev -> 0 <= i mod w < w /\ 0 <= i / w < h).
  { intros i Hi. destruct (event_coords T gt frame w h ev i Hw Hh Hwh HL E Hi) as (A & B & _). auto. }
  assert (D2 : forall a n, 0 <= a < n -> 0 <= a / 2 < (n + 1) / 2).
  { intros a n Ha. split; [apply Z.div_pos; lia|].
    apply Z.div_lt_upper_bound; [lia|].
    pose proof (Z.div_mod (n + 1) 2 ltac:(lia)). pose proof (Z.mod_pos_bound (n + 1) 2 ltac:(lia)). lia. }
  assert (ND : NoDup (map cell ev)).
  { assert (Inj : forall i j, In i ev -> In j ev -> cell i = cell j -> i = j).
    { intros i j Hi Hj C. destruct (Hc i Hi) as [X1 Y1], (Hc j Hj) as [X2 Y2].
      pose proof (D2 _ _ X1) as DX1. pose proof (D2 _ _ X2) as DX2.
      unfold cell in C.
      destruct (div_mod_unique_row ((w + 1) / 2) ((i mod w) / 2) ((i / w) / 2) DX1) as [M1 Q1].
      destruct (div_mod_unique_row ((w + 1) / 2) ((j mod w) / 2) ((j / w) / 2) DX2) as [M2 Q2].
      rewrite C in M1, Q1. rewrite M2 in M1. rewrite Q2 in Q1.
      destruct (Z.eq_dec i j) as [|Ne]; auto. exfalso.
      apply (events_not_adjacent T gt frame w h ev i j As Hw Hh Hwh HL E Hi Hj).
      pose proof (Z.div_mod (i mod w) 2 ltac:(lia)). pose proof (Z.mod_pos_bound (i mod w) 2 ltac:(lia)).
      pose proof (Z.div_mod (j mod w) 2 ltac:(lia)). pose proof (Z.mod_pos_bound (j mod w) 2 ltac:(lia)).
      pose proof (Z.div_mod (i / w) 2 ltac:(lia)). pose proof (Z.mod_pos_bound (i / w) 2 ltac:(lia)).
      pose proof (Z.div_mod (j / w) 2 ltac:(lia)). pose proof (Z.mod_pos_bound (j / w) 2 ltac:(lia)).
      unfold neighbour. repeat split; try lia.
      intros Q. injection Q as Q3 Q4. apply Ne.
      rewrite (Z.div_mod i w), (Z.div_mod j w) by lia. rewrite Q3, Q4. reflexivity. }
    assert (G : forall l, incl l ev -> NoDup l -> NoDup (map cell l)).
    { induction l as [|a l IH]; simpl; intros I N; constructor.
      - intros Hin. apply in_map_iff in Hin. destruct Hin as (b & Eb & Hb).
        inversion N; subst. assert (a = b); [|subst; auto].
        apply Inj; auto; apply I; simpl; auto.
      - inversion N; subst. apply IH; auto. intros z Hz. apply I; simpl; auto. }
    apply G; [apply incl_refl|]. apply ascending_NoDup; auto. }
  assert (I : incl (map cell ev) (zseq (((w + 1) / 2) * ((h + 1) / 2)))).
  { intros c Hin. apply in_map_iff in Hin. destruct Hin as (i & <- & Hi).
    apply in_zseq. destruct (Hc i Hi) as [X Y].
    pose proof (D2 _ _ X). pose proof (D2 _ _ Y). unfold cell. nia. }
  pose proof (NoDup_incl_length ND I) as L. rewrite map_length in L.
  assert (0 <= (w + 1) / 2 /\ 0 <= (h + 1) / 2) as [? ?] by (split; apply Z.div_pos; lia).
  pose proof (Zlen_zseq (((w + 1) / 2) * ((h + 1) / 2)) ltac:(nia)). unfold Zlen in *. lia.
Qed.

Example event_count_bound_tight :
  maximalPoints Z.gtb [9; 0; 9; 0; 0; 0; 9; 0; 9] (3, 3) = Ok [0; 2; 6; 8].
Proof. reflexivity. Qed.

(** ** C47: events depend only on how the pixels compare with each other. *)
Theorem events_order_invariant : forall T U (gt : T -> T -> bool) (gt' : U -> U -> bool)
    (f : list T) (g : list U) w h,
  1 <= w < 65536 -> 1 <= h < 65536 -> w * h < 2 ^ 32 -> Zlen f = w * h ->
  same_order gt gt' f g ->
  maximalPoints gt f (w, h) = maximalPoints gt' g (w, h).
Proof.
  intros T U gt gt' f g w h Hw Hh Hwh HL (Ll & SO).
  assert (HLg : Zlen g = w * h) by (unfold Zlen in *; lia).
  destruct (maximal_points_correct T gt f w h) as (e1 & E1 & A1 & S1); auto.
  destruct (maximal_points_correct U gt' g w h) as (e2 & E2 & A2 & S2); auto.
  rewrite E1, E2. f_equal.
  assert (P1 : forall x y, 0 <= x < w -> 0 <= y < h -> exists v, pixel f w x y = Some v).
  { intros x y ? ?. destruct (pixel f w x y) eqn:P; eauto.
    apply nth_error_None in P. unfold Zlen in HL. nia. }
  assert (P2 : forall x y, 0 <= x < w -> 0 <= y < h -> exists v, pixel g w x y = Some v).
  { intros x y ? ?. destruct (pixel g w x y) eqn:P; eauto.
    apply nth_error_None in P. unfold Zlen in HLg. nia. }
  assert (Eq : forall i, In i e1 <-> In i e2).
  { intros i. rewrite S1, S2.
    split; intros (x & y & -> & Hx & Hy & SM); exists x, y; (split; [reflexivity|]);
      (split; [exact Hx|split; [exact Hy|]]); intros x' y' v v' N Pv Pv';
      pose proof N as (Hx' & Hy' & _);
      destruct (P1 x y Hx Hy) as [a Pa]; destruct (P1 x' y' Hx' Hy') as [b Pb];
      destruct (P2 x y Hx Hy) as [a' Pa']; destruct (P2 x' y' Hx' Hy') as [b' Pb'].
    - rewrite Pa' in Pv. injection Pv as <-. rewrite Pb' in Pv'. injection Pv' as <-.
      rewrite <- (SO _ _ a b a' b' Pa Pb Pa' Pb'). apply (SM x' y'); auto.
    - rewrite Pa in Pv. injection Pv as <-. rewrite Pb in Pv'. injection Pv' as <-.
      rewrite (SO _ _ a b a' b' Pa Pb Pa' Pb'). apply (SM x' y'); auto. }
  clear - A1 A2 Eq.
  assert (L : forall t a, ascending (a :: t) -> forall b, In b t -> a < b).
  { induction t as [|c t IH]; intros a [B1 B2] b Hb; [destruct Hb|].
    destruct Hb as [<-|Hb]; auto. assert (c < b) by (apply IH; auto). lia. }
  revert e2 A2 Eq. induction e1 as [|a e1 IH]; intros [|b e2] A2 Eq; auto.
  - destruct (proj2 (Eq b)); simpl; auto.
  - destruct (proj1 (Eq a)); simpl; auto.
  - assert (a = b).
    { destruct (proj1 (Eq a)) as [?|Ha]; [simpl; auto|auto|].
      destruct (proj2 (Eq b)) as [?|Hb]; [simpl; auto|auto|].
      pose proof (L _ _ A1 _ Hb). pose proof (L _ _ A2 _ Ha). lia. }
    subst b. f_equal. apply IH.
    + destruct A1; auto.
    + destruct A2; auto.
    + intros i. specialize (Eq i). simpl in Eq. split; intros Hi.
      * destruct (proj1 Eq) as [<-|?]; auto. pose proof (L _ _ A1 _ Hi). lia.
      * destruct (proj2 Eq) as [<-|?]; auto. pose proof (L _ _ A2 _ Hi). lia.
Qed.

Example events_order_invariant_example :
  same_order Z.gtb Z.gtb [0; 7; 3; 2] [100; 107; 103; 102].
Proof.
  split; [reflexivity|]. intros i j a b a' b'.
  destruct i as [|[|[|[|i]]]], j as [|[|[|[|j]]]]; simpl; intros A B A' B';
    try (destruct i; discriminate); try (destruct j; discriminate);
    injection A as <-; injection B as <-; injection A' as <-; injection B' as <-; reflexivity.
Qed.

(** ** C27: pre-processing of a frame *)
Lemma kept_threshold {T F D} (ops : frame_ops T F D) bg xray c :
  threshold_pixel ops bg xray c = kept ops bg xray c.
Proof.
  unfold threshold_pixel, kept. destruct (op_le ops c bg); auto.
Qed.

Lemma pixel_bound {T} (f : list T) w h x y :
  Zlen f = w * h -> 0 <= x < w -> 0 <= y < h -> exists v, pixel f w x y = Some v.
Proof.
  intros HL Hx Hy. destruct (pixel f w x y) eqn:P; eauto.
  apply nth_error_None in P. unfold Zlen in HL. nia.
Qed.

Lemma deref_pixel {F} (r : list F) w h x y :
  Zlen r = w * h -> 0 <= x < w -> 0 <= y < h ->
  exists d, pixel r w x y = Some d /\ rd r (y * w + x) = Ok d.
Proof.
  intros HL Hx Hy. destruct (pixel_bound r w h x y HL Hx Hy) as [d Hd].
  exists d. split; auto. unfold rd. destruct (Z.ltb_spec (y * w + x) 0); try nia.
  unfold pixel in Hd. rewrite Hd. reflexivity.
Qed.

Lemma grid_to_pixels {T} (l : list T) w h (g : Z -> T) (p : Z -> Z -> T) :
  0 <= w -> 0 <= h -> Zlen l = w * h ->
  (forall j, 0 <= j < w * h -> nth_error l (Z.to_nat j) = Some (g j)) ->
  (forall x y, 0 <= x < w -> 0 <= y < h -> g (y * w + x) = p x y) ->
  frame_is l w h p.
Proof.
  intros Hw Hh HL Hg Hp. split; auto. intros x y Hx Hy. unfold pixel.
  rewrite Hg by nia. f_equal. apply Hp; auto.
Qed.

Theorem preprocess_correct : forall T F D (ops : frame_ops T F D) darkRef gain bg xray w h frame
    (c : Z -> Z -> T),
  1 <= w -> 1 <= h -> w * h < 2 ^ 32 -> Zlen frame = w * h ->
  ref_ok darkRef w h -> ref_ok gain w h ->
  (forall x y v, 0 <= x < w -> 0 <= y < h -> pixel frame w x y = Some v ->
     corrected ops (ref_at darkRef w x y) (ref_at gain w x y) v (c x y)) ->
  exists frame',
    preprocess ops (if darkRef then true else false) darkRef gain bg xray (w, h) frame = Ok frame' /\
    frame_is frame' w h (fun x y => kept ops bg xray (c x y)).
Proof.
  intros T F D ops darkRef gain bg xray w h frame c Hw Hh Hwh HL Rd Rg Hc.
  destruct (preprocess_ok ops (if darkRef then true else false) darkRef gain bg xray w h frame
    (fun j => kept ops bg xray (c (j mod w) (j / w)))) as (l' & E & L & P); try lia.
  - intros j v Hj Hv.
    assert (Hx : 0 <= j mod w < w) by (apply Z.mod_pos_bound; lia).
    assert (Hy : 0 <= j / w < h).
    { split; [apply Z.div_pos; lia|apply Z.div_lt_upper_bound; lia]. }
    assert (Ej : j / w * w + j mod w = j) by (rewrite Z.mul_comm; symmetry; apply Z.div_mod; lia).
    specialize (Hc (j mod w) (j / w) v Hx Hy). unfold pixel in Hc at 1. rewrite Ej in Hc.
    specialize (Hc Hv). destruct Hc as (v1 & H1 & H2).
    unfold pre_value. rewrite <- kept_threshold.
    assert (E1 : (if (if darkRef then true else false)
                  then let* d := deref darkRef j in op_sub_cast ops v d else Ok v) = Ok v1).
    { destruct darkRef as [dr|]; simpl in *; [|congruence].
      destruct (deref_pixel dr w h (j mod w) (j / w) Rd Hx Hy) as (d & Pd & R).
      rewrite Pd in H1. rewrite Ej in R. rewrite R. exact H1. }
    rewrite E1. cbn [bind].
    destruct (op_integral ops); [rewrite H2; reflexivity|].
    destruct H2 as (g & Hg & Hm). destruct gain as [gr|]; simpl in *; [|discriminate].
    destruct (deref_pixel gr w h (j mod w) (j / w) Rg Hx Hy) as (g' & Pg & R).
    rewrite Ej in R. rewrite R. cbn [bind]. assert (g' = g) by congruence. subst g'.
    rewrite Hm. reflexivity.
  - exists l'. split; auto. apply (grid_to_pixels l' w h _ _ ltac:(lia) ltac:(lia) L P).
    intros x y Hx Hy. cbv beta. destruct (div_mod_unique_row w x y Hx) as [-> ->]. reflexivity.
Qed.

(** Counting one frame: the events are the strict local maxima of the corrected,
    thresholded frame. *)
Theorem count_frame_correct : forall T F D (ops : frame_ops T F D) darkRef gain bg xray om um w h
    frame (c : Z -> Z -> T) frame',
  1 <= w < 65536 -> 1 <= h < 65536 -> w * h < 2 ^ 32 -> Zlen frame = w * h ->
  ref_ok darkRef w h -> ref_ok gain w h ->
  (forall x y v, 0 <= x < w -> 0 <= y < h -> pixel frame w x y = Some v ->
     corrected ops (ref_at darkRef w x y) (ref_at gain w x y) v (c x y)) ->
  frame_is frame' w h (fun x y => kept ops bg xray (c x y)) ->
  exists ev,
    electronCountFrame ops (if darkRef then true else false) darkRef gain bg xray
      false om um (w, h) frame = Ok ev /\ ascending ev /\
    forall i, In i ev <->
      exists x y, i = y * w + x /\ strict_local_max (op_gt ops) frame' w h x y.
Proof.
  intros T F D ops darkRef gain bg xray om um w h frame c frame' Hw Hh Hwh HL Rd Rg Hc [HL' HF].
  destruct (preprocess_correct T F D ops darkRef gain bg xray w h frame c) as (f & E & [HL2 HF2]);
    auto; try lia.
  assert (f = frame').
  { assert (Hn : forall n, nth_error f n = nth_error frame' n).
    { intros n. destruct (Z_lt_ge_dec (Z.of_nat n) (w * h)) as [Hlt|Hge].
      - assert (Hx : 0 <= Z.of_nat n mod w < w) by (apply Z.mod_pos_bound; lia).
        assert (Hy : 0 <= Z.of_nat n / w < h).
        { split; [apply Z.div_pos; lia|apply Z.div_lt_upper_bound; lia]. }
        pose proof (HF _ _ Hx Hy) as A. pose proof (HF2 _ _ Hx Hy) as B.
        unfold pixel in A, B.
        replace (Z.of_nat n / w * w + Z.of_nat n mod w) with (Z.of_nat n) in A, B
          by (rewrite Z.mul_comm; apply Z.div_mod; lia).
        rewrite Nat2Z.id in A, B. congruence.
      - unfold Zlen in *. rewrite !(proj2 (nth_error_None _ _)); auto; lia. }
    clear - Hn. revert frame' Hn. induction f as [|a f IH]; intros [|b g] Hn; auto;
      try (specialize (Hn 0%nat); discriminate).
    pose proof (Hn 0%nat) as H0. injection H0 as <-. f_equal. apply IH.
    intros n. apply (Hn (S n)). }
  subst f. unfold electronCountFrame. rewrite E. cbn [bind].
  apply maximal_points_correct; auto.
Qed.

(** ** uint16 frames *)
Section U16.
Open Scope Q_scope.

(** Subtracting the dark reference from a uint16 pixel wraps modulo 2^16. *)
Theorem u16_dark_subtraction_wraps : forall v d,
  is_u16 v -> (0 <= qtrunc d < 2 ^ 16)%Z ->
  corrected u16_ops (Some d) None v ((v - qtrunc d) mod 2 ^ 16)%Z.
Proof.
  intros v d Hv Hd. unfold corrected. simpl. eexists. split; [|reflexivity].
  unfold to_u16. destruct (Z.leb_spec 0 (qtrunc d)); try lia.
  destruct (Z.ltb_spec (qtrunc d) (2 ^ 16)); try lia. reflexivity.
Qed.

(** "A pixel that is not brighter than its dark reference yields no event" is
    false: 3 - 5 becomes 65534. *)
Theorem u16_dark_above_pixel_refuted :
  exists frame dark bg xray ev,
    (forall i v d, nth_error frame i = Some v -> nth_error dark i = Some d -> inject_Z v <= d) /\
    0 <= bg /\ bg < xray /\
    electronCountFrame u16_ops true (Some dark) None bg xray false 0 true (2%Z, 2%Z) frame = Ok ev /\
    ev <> [].
Proof.
  exists [3; 5; 5; 5]%Z, [5; 5; 5; 5], 4, 100000, [0%Z].
  split; [|split; [|split; [|split]]]; try (vm_compute; congruence); try reflexivity.
  intros [|[|[|[|i]]]] v d; simpl; intros A B; try (destruct i; discriminate);
    injection A as <-; injection B as <-; vm_compute; congruence.
Qed.

(** The classic path dereferences the dark reference even when there is none. *)
Theorem classic_without_dark_undefined : forall T F D (ops : frame_ops T F D) gain bg xray w h frame,
  (0 < w)%Z -> (0 < h)%Z -> (w * h < 2 ^ 32)%Z -> Zlen frame = (w * h)%Z ->
  preprocess_classic ops None gain bg xray (w, h) frame = UB "null array".
Proof.
  intros. unfold preprocess_classic, for_loop. cbn [fst snd].
  rewrite u32_id by (unfold is_u32; nia).
  destruct (Z.to_nat (w * h)) eqn:E; [nia|]. cbn [for_from].
  unfold preprocess_classic_pixel at 1.
  destruct frame; [unfold Zlen in *; simpl in *; nia|]. reflexivity.
Qed.

(** The classic path converts a negative float to uint16 when the dark
    reference exceeds the pixel by one or more: undefined behaviour. *)
Theorem classic_dark_above_pixel_undefined :
  preprocess_classic u16_ops (Some [5]) None 0 100 (1%Z, 1%Z) [3%Z] =
  UB "float to uint16 out of range".
Proof. reflexivity. Qed.

(** C45: with at least two pixels every reported event lies strictly between the
    thresholds. *)
Theorem u16_event_between_thresholds : forall darkRef bg xray om um w h frame (c : Z -> Z -> Z) ev i,
  (1 <= w < 65536)%Z -> (1 <= h < 65536)%Z -> (2 <= w * h < 2 ^ 32)%Z -> Zlen frame = (w * h)%Z ->
  ref_ok darkRef w h ->
  (forall x y v, (0 <= x < w)%Z -> (0 <= y < h)%Z -> pixel frame w x y = Some v ->
     corrected u16_ops (ref_at darkRef w x y) None v (c x y)) ->
  (forall x y, (0 <= x < w)%Z -> (0 <= y < h)%Z -> (0 <= c x y)%Z) ->
  electronCountFrame u16_ops (if darkRef then true else false) darkRef None bg xray
    false om um (w, h) frame = Ok ev ->
  In i ev ->
  bg < inject_Z (c (i mod w) (i / w))%Z /\ inject_Z (c (i mod w) (i / w))%Z < xray.
Proof.
  intros darkRef bg xray om um w h frame c ev i Hw Hh Hwh HL Rd Hc Hpos E Hi.
  destruct (preprocess_correct Z Q Q u16_ops darkRef None bg xray w h frame c)
    as (f & Ef & [HL2 HF2]); simpl; auto; try lia.
  unfold electronCountFrame in E. rewrite Ef in E. cbn [bind] in E.
  destruct (event_coords Z (op_gt u16_ops) f w h ev i Hw Hh ltac:(lia) HL2 E Hi) as (Hx & Hy & SM).
  set (x := (i mod w)%Z) in *. set (y := (i / w)%Z) in *.
  assert (Nb : exists x' y', neighbour w h x y x' y').
  { destruct (Z.eq_dec w 1) as [W1|W1].
    - destruct (Z.eq_dec y 0).
      + exists x, (y + 1)%Z. unfold neighbour. repeat split; try lia; try nia. intros Q; inversion Q; lia.
      + exists x, (y - 1)%Z. unfold neighbour. repeat split; try lia. intros Q; inversion Q; lia.
    - destruct (Z.eq_dec x 0).
      + exists (x + 1)%Z, y. unfold neighbour. repeat split; try lia. intros Q; inversion Q; lia.
      + exists (x - 1)%Z, y. unfold neighbour. repeat split; try lia. intros Q; inversion Q; lia. }
  destruct Nb as (x' & y' & Nb). pose proof Nb as (Hx' & Hy' & _).
  pose proof (SM x' y' _ _ Nb (HF2 _ _ Hx Hy) (HF2 _ _ Hx' Hy')) as G. cbv beta in G.
  simpl in G. apply Z.ltb_lt in G.
  assert (K0 : (0 <= kept u16_ops bg xray (c x' y'))%Z).
  { unfold kept. destruct (op_le _ _ _); simpl; [lia|]. destruct (Qle_bool _ _); [lia|].
    apply Hpos; auto. }
  unfold kept in G at 2. simpl in G.
  destruct (Qle_bool (inject_Z (c x y)) bg) eqn:B1; [lia|].
  destruct (Qle_bool xray (inject_Z (c x y))) eqn:B2; [lia|].
  split; apply Qnot_le_lt; intros Q; apply Qle_bool_iff in Q; congruence.
Qed.

(** With a single pixel the claim is false: a zeroed pixel has no neighbour, so it
    is reported. *)
Theorem single_pixel_event_refuted :
  electronCountFrame u16_ops false None None 10 20 false 0 true (1%Z, 1%Z) [3%Z] = Ok [0%Z].
Proof. reflexivity. Qed.

Example u16_count_example :
  electronCountFrame u16_ops true (Some [1; 1; 1; 1; 1; 1; 1; 1; 1]) None 2 50 false 0 true
    (3%Z, 3%Z) [9; 2; 99; 1; 1; 1; 3; 1; 30]%Z = Ok [0; 8]%Z.
Proof. reflexivity. Qed.
End U16.

(** ** C28: row dark subtraction *)
(** Number of rows H = dims.first, row length W = dims.second, as the code has it. *)
Lemma row_dark_rows : forall T F D (ops : frame_ops T F D) useMean target darkRef gain
    bg xray W H frame (c : Z -> Z -> T),
  1 <= W -> 1 <= H -> W * H < 2 ^ 32 -> Zlen frame = W * H ->
  (2 <= W \/ useMean = true) ->
  ref_ok darkRef W H -> ref_ok gain W H ->
  (forall x y v, 0 <= x < W -> 0 <= y < H -> pixel frame W x y = Some v ->
     exists stat,
       (if useMean then stat = op_mean ops (half_row frame W x y)
        else op_median ops (half_row frame W x y) = Ok stat) /\
       row_corrected ops target stat (ref_at darkRef W x y) (ref_at gain W x y) v (c x y)) ->
  exists frame',
    applyRowDark ops useMean target darkRef gain bg xray (H, W) frame = Ok frame' /\
    frame_is frame' W H (fun x y => kept ops bg xray (c x y)).
Proof.
  intros T F D ops um om darkRef gain bg xray W H frame c HW HH HWH HL Hum Rd Rg Hc.
  destruct (applyRowDark_ok ops um om darkRef gain bg xray W H frame
    (fun j => kept ops bg xray (c (j mod W) (j / W)))) as (l' & E & L & P); auto.
  - intros x y v Hx Hy Hv. destruct (Hc x y v Hx Hy Hv) as (stat & HS & v1 & r & v2 & H1 & H2 & H3 & H4).
    unfold rowdark_stat.
    assert (ES : (if um then Ok (op_mean ops (half_row frame W x y))
                  else op_median ops (half_row frame W x y)) = Ok stat)
      by (destruct um; [congruence|exact HS]).
    rewrite ES. cbn [bind]. unfold rowdark_value.
    assert (E1 : match darkRef with
                 | Some a => let* d := rd a (y * W + x) in op_sub ops v d
                 | None => Ok v end = Ok v1).
    { destruct darkRef as [dr|]; simpl in *; [|congruence].
      destruct (deref_pixel dr W H x y Rd Hx Hy) as (d & Pd & R). rewrite R. cbn [bind].
      rewrite Pd in H1. exact H1. }
    rewrite E1. cbn [bind]. rewrite H2. cbn [bind]. rewrite H3. cbn [bind].
    destruct (div_mod_unique_row W x y Hx) as [-> ->]. rewrite <- kept_threshold.
    destruct (op_integral ops); [rewrite H4; reflexivity|].
    destruct H4 as (g & Hg & Hm). destruct gain as [gr|]; simpl in *; [|discriminate].
    destruct (deref_pixel gr W H x y Rg Hx Hy) as (g' & Pg & R). rewrite R. cbn [bind].
    assert (g' = g) by congruence. subst g'. rewrite Hm. reflexivity.
  - exists l'. split; auto. apply (grid_to_pixels l' W H _ _ ltac:(lia) ltac:(lia) L P).
    intros x y Hx Hy. cbv beta. destruct (div_mod_unique_row W x y Hx) as [-> ->]. reflexivity.
Qed.

(** Square detectors: every pixel is corrected exactly once with the statistic of
    its own half-row of the raw frame. *)
Theorem row_dark_square_correct : forall T F D (ops : frame_ops T F D) useMean target darkRef gain
    bg xray n frame (c : Z -> Z -> T),
  1 <= n < 65536 -> Zlen frame = n * n ->
  (2 <= n \/ useMean = true) ->
  ref_ok darkRef n n -> ref_ok gain n n ->
  (forall x y v, 0 <= x < n -> 0 <= y < n -> pixel frame n x y = Some v ->
     exists stat,
       (if useMean then stat = op_mean ops (half_row frame n x y)
        else op_median ops (half_row frame n x y) = Ok stat) /\
       row_corrected ops target stat (ref_at darkRef n x y) (ref_at gain n x y) v (c x y)) ->
  exists frame',
    applyRowDark ops useMean target darkRef gain bg xray (n, n) frame = Ok frame' /\
    frame_is frame' n n (fun x y => kept ops bg xray (c x y)).
Proof.
  intros. apply row_dark_rows; auto; try lia.
  assert (n * n <= 65535 * 65535) by nia. lia.
Qed.

(** For a non-square frame (width 4, height 1) the code takes the height as row
    length: the documented correction (mean of the half-row 20, target 20) would
    leave 10 and 30 unchanged, the code replaces both by 20. *)
Theorem row_dark_nonsquare_refuted :
  exists w h frame target bg xray frame',
    Zlen frame = w * h /\
    (forall x y, 0 <= x < w -> 0 <= y < h -> Qeq (op_mean u16_ops (half_row frame w x y)) target) /\
    (forall v, In v frame -> kept u16_ops bg xray v = v) /\
    applyRowDark u16_ops true target None None bg xray (w, h) frame = Ok frame' /\
    frame' <> frame.
Proof.
  exists 4, 1, [10; 30; 5; 35], (20 # 1)%Q, (0 # 1)%Q, (1000 # 1)%Q, [20; 20; 20; 20].
  split; [reflexivity|]. split; [|split; [|split]].
  - intros x y Hx Hy. assert (y = 0) by lia. subst y.
    assert (C : x = 0 \/ x = 1 \/ x = 2 \/ x = 3) by lia.
    destruct C as [->|[->|[->| ->]]]; vm_compute; reflexivity.
  - intros v Hv. simpl in Hv. destruct Hv as [<-|[<-|[<-|[<-|[]]]]]; reflexivity.
  - vm_compute. reflexivity.
  - congruence.
Qed.

(** Median with rows of length 1: the left half is empty and the code reads from
    an empty vector. *)
Theorem row_dark_median_width_one_undefined : forall target darkRef gain bg xray H v t,
  1 <= H < 2 ^ 32 -> Zlen (v :: t) = H ->
  exists why, applyRowDark u16_ops false target darkRef gain bg xray (H, 1) (v :: t) = UB why.
Proof.
  intros om dr gain bg xray H v t HH HL. unfold applyRowDark, for_loop. cbn [fst snd].
  destruct (Z.to_nat H) eqn:E; [lia|]. cbn [for_from].
  change (u32 (0 * 1)) with 0. change (1 / 2) with 0. change (u32 (0 + 0)) with 0.
  unfold rowdark_apply at 1. unfold slice at 1.
  destruct (Z.leb_spec 0 (Zlen (v :: t))); [|unfold Zlen in *; lia]. cbn.
  eexists. reflexivity.
Qed.

(** The uint16 median is the middle of the sorted half-row. *)
Lemma insert_sorted_perm x l : Permutation (insert_sorted x l) (x :: l).
Proof.
  induction l as [|y t IH]; simpl; auto. destruct (x <=? y); auto.
  rewrite IH. apply perm_swap.
Qed.

Lemma sort_z_perm l : Permutation (sort_z l) l.
Proof.
  induction l; simpl; auto. rewrite insert_sorted_perm. auto.
Qed.

Lemma sort_z_sorted l : sorted (sort_z l).
Proof.
  induction l as [|x l IH]; simpl; auto.
  generalize dependent (sort_z l). clear. induction l as [|y t IH]; simpl; intros S.
  - split; auto. intros ? [].
  - destruct (Z.leb_spec x y); simpl.
    + split; [|exact S]. intros z [<-|Hz]; auto. destruct S as [S _]. specialize (S z Hz). lia.
    + destruct S as [S1 S2]. split; [|apply IH; auto]. intros z Hz.
      apply (Permutation_in _ (insert_sorted_perm x t)) in Hz. destruct Hz as [<-|Hz]; [lia|auto].
Qed.

Theorem median_is_middle : forall l, l <> [] ->
  exists s m, Permutation s l /\ sorted s /\ op_median u16_ops l = Ok m /\ (m == middle s)%Q.
Proof.
  intros l Hl. exists (sort_z l).
  assert (EL : Zlen (sort_z l) = Zlen l)
    by (unfold Zlen; rewrite (Permutation_length (sort_z_perm l)); reflexivity).
  assert (PL : 0 < Zlen l) by (destruct l; [congruence|unfold Zlen; simpl; lia]).
  cut (exists m, op_median u16_ops l = Ok m /\ (m == middle (sort_z l))%Q).
  { intros (m & A & B). exists m. split; [apply sort_z_perm|]. split; [apply sort_z_sorted|auto]. }
  simpl. unfold median_u16, middle. rewrite EL.
  set (s := sort_z l) in *. set (n := Zlen l) in *.
  pose proof (Z.div_mod n 2 ltac:(lia)) as DM.
  destruct (Z.odd n) eqn:O.
  - assert (M1 : n mod 2 = 1) by (rewrite Zmod_odd, O; auto).
    assert (E2 : (n - 1) / 2 = n / 2).
    { replace (n - 1) with (n / 2 * 2) by lia. apply Z.div_mul. lia. }
    rewrite E2. rewrite (rd_zat s) by lia. cbn [bind]. eexists; split; [reflexivity|].
    rewrite inject_Z_plus. field.
  - assert (M0 : n mod 2 = 0) by (rewrite Zmod_odd, O; auto).
    assert (E2 : (n - 1) / 2 = n / 2 - 1).
    { replace (n - 1) with (1 + (n / 2 - 1) * 2) by lia.
      rewrite Z.div_add by lia. change (1 / 2) with 0. lia. }
    rewrite E2. rewrite !(rd_zat s) by lia. cbn [bind]. eexists; split; [reflexivity|].
    reflexivity.
Qed.

Example row_dark_example :
  applyRowDark u16_ops true (10 # 1)%Q (Some [1 # 1; 1 # 1; 1 # 1; 1 # 1]%Q) None (2 # 1)%Q (100 # 1)%Q
    (2, 2) [11; 21; 3; 41] = Ok [9; 9; 6; 9].
Proof. reflexivity. Qed.

Print Assumptions maximal_points_correct.
Print Assumptions maximal_points_65536_undefined.
Print Assumptions events_not_adjacent.
Print Assumptions event_count_bound.
Print Assumptions events_order_invariant.
Print Assumptions preprocess_correct.
Print Assumptions count_frame_correct.
Print Assumptions u16_dark_subtraction_wraps.
Print Assumptions u16_dark_above_pixel_refuted.
Print Assumptions classic_without_dark_undefined.
Print Assumptions u16_event_between_thresholds.
Print Assumptions row_dark_square_correct.
Print Assumptions row_dark_nonsquare_refuted.
Print Assumptions row_dark_median_width_one_undefined.
Print Assumptions median_is_middle.
