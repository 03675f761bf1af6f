From Coq Require Import String ZArith List Lia Permutation Bool.
From Verif Require Import Base BaseFacts BlockModel ElectronModel ElectronSpec.
Import ListNotations.
Open Scope Z_scope.

Lemma mod16_small x w : 0 <= x < w -> w < 65536 -> mod16 x w = Ok x.
Proof.
  intros Hx Hw. unfold mod16. cbv zeta. rewrite (u16_id w), (u16_id x) by (unfold is_u16; lia).
  destruct (Z.eqb_spec w 0); try lia.
  rewrite Z.mod_small with (a := x) by lia.
  replace (x + w) with (x + 1 * w) by ring. rewrite Z.mod_add by lia.
  rewrite Z.mod_small by lia. rewrite u16_id by (unfold is_u16; lia). reflexivity.
Qed.

Lemma mod16_ok x w : 1 <= w < 65536 -> exists r, mod16 x w = Ok r.
Proof.
  intros Hw. unfold mod16. cbv zeta. rewrite (u16_id w) by (unfold is_u16; lia).
  destruct (Z.eqb_spec w 0); try lia. eauto.
Qed.

Lemma mod16_next x w : 0 <= x < w -> 1 <= w < 65536 ->
  exists r, mod16 (u32 (x + 1)) w = Ok r /\ ((x =? w - 1) = false -> r = x + 1).
Proof.
  intros. destruct (Z.eqb_spec x (w - 1)).
  - destruct (mod16_ok (u32 (x + 1)) w H0) as [r Hr]. exists r; split; auto; discriminate.
  - exists (x + 1). rewrite u32_id by (unfold is_u32; lia).
    rewrite mod16_small by lia. auto.
Qed.

Lemma mod16_prev x w : 0 <= x < w -> 1 <= w < 65536 ->
  exists r, mod16 (u32 (x - 1)) w = Ok r /\ ((x =? 0) = false -> r = x - 1).
Proof.
  intros. destruct (Z.eqb_spec x 0).
  - destruct (mod16_ok (u32 (x - 1)) w H0) as [r Hr]. exists r; split; auto; discriminate.
  - exists (x - 1). rewrite u32_id by (unfold is_u32; lia).
    rewrite mod16_small by lia. auto.
Qed.

Section Max.
Context {T : Type} (gt : T -> T -> bool) (frame : list T) (w h : Z) (d : T).
Hypothesis Hw : 1 <= w < 65536.
Hypothesis Hh : 1 <= h < 65536.
Hypothesis Hwh : w * h < 2 ^ 32.
Hypothesis Hlen : Zlen frame = w * h.

Let V (x y : Z) : T := nth (Z.to_nat (y * w + x)) frame d.

Lemma in_grid x y : 0 <= x < w -> 0 <= y < h -> 0 <= y * w + x < w * h.
Proof. intros. split; nia. Qed.

Lemma pixel_V x y : 0 <= x < w -> 0 <= y < h -> pixel frame w x y = Some (V x y).
Proof.
  intros Hx Hy. pose proof (in_grid x y Hx Hy). unfold pixel, V.
  apply nth_error_nth'. unfold Zlen in Hlen. lia.
Qed.

Lemma or_greater_ok guard v idx x y :
  (guard = false -> idx = u32 (y * w + x) /\ 0 <= x < w /\ 0 <= y < h) ->
  or_greater gt guard v frame idx = Ok (guard || gt v (V x y)).
Proof.
  intros H. unfold or_greater. destruct guard; auto.
  destruct (H eq_refl) as (-> & Hx & Hy).
  pose proof (in_grid x y Hx Hy). rewrite u32_id by (unfold is_u32; lia).
  rewrite (rd_ok frame _ d) by lia. reflexivity.
Qed.

Definition maximal_b (x y : Z) : bool :=
  ((y =? 0) || (gt (V x y) (V x (y-1)) &&
                ((x =? 0) || gt (V x y) (V (x-1) (y-1))) &&
                ((x =? w - 1) || gt (V x y) (V (x+1) (y-1))))) &&
  ((y =? h - 1) || (gt (V x y) (V x (y+1)) &&
                ((x =? 0) || gt (V x y) (V (x-1) (y+1))) &&
                ((x =? w - 1) || gt (V x y) (V (x+1) (y+1))))) &&
  ((x =? 0) || gt (V x y) (V (x-1) y)) &&
  ((x =? w - 1) || gt (V x y) (V (x+1) y)).

Lemma is_maximal_ok x y : 0 <= x < w -> 0 <= y < h ->
  is_maximal gt frame w h (y * w + x) = Ok (maximal_b x y).
Proof.
  intros Hx Hy. pose proof (in_grid x y Hx Hy) as Hi.
  unfold is_maximal. destruct (div_mod_unique_row w x y Hx) as [-> ->].
  destruct (mod16_next x w Hx Hw) as (r & -> & Hr).
  destruct (mod16_prev x w Hx Hw) as (l & -> & Hl).
  destruct (mod16_prev y h Hy Hh) as (t & -> & Ht).
  destruct (mod16_next y h Hy Hh) as (b & -> & Hb).
  cbn [bind]. rewrite (rd_ok frame (y * w + x) d) by lia. cbn [bind].
  fold (V x y).
  rewrite (u32_id (w - 1)), (u32_id (h - 1)) by (unfold is_u32; lia).
  rewrite (u32_id (y * w)) by (unfold is_u32; nia).
  unfold maximal_b.
  assert (E : forall (a : bool) (g : bool), and_then a (Ok g) = Ok (a && g))
    by (intros [] ?; reflexivity).
  (* the row part *)
  assert (RL : or_greater gt (x =? 0) (V x y) frame (u32 (y * w + l)) =
               Ok ((x =? 0) || gt (V x y) (V (x - 1) y))).
  { apply or_greater_ok. intros G. rewrite (Hl G). apply Z.eqb_neq in G.
    split; [reflexivity|lia]. }
  assert (RR : or_greater gt (x =? w - 1) (V x y) frame (u32 (y * w + r)) =
               Ok ((x =? w - 1) || gt (V x y) (V (x + 1) y))).
  { apply or_greater_ok. intros G. rewrite (Hr G). apply Z.eqb_neq in G.
    split; [reflexivity|lia]. }
  assert (TOP : forall A (k : bool -> outcome A),
    bind (if negb (y =? 0) then
       let* e := or_greater gt false (V x y) frame (u32 (u32 (t * w) + x)) in
       let* e := and_then e (or_greater gt (x =? 0) (V x y) frame (u32 (u32 (t * w) + l))) in
       and_then e (or_greater gt (x =? w - 1) (V x y) frame (u32 (u32 (t * w) + r)))
     else Ok true) k =
    k ((y =? 0) || (gt (V x y) (V x (y-1)) &&
                ((x =? 0) || gt (V x y) (V (x-1) (y-1))) &&
                ((x =? w - 1) || gt (V x y) (V (x+1) (y-1)))))).
  { intros A k. destruct (y =? 0) eqn:Ey; cbn [negb bind orb]; auto.
    rewrite (Ht eq_refl). apply Z.eqb_neq in Ey.
    rewrite (u32_id ((y - 1) * w)) by (unfold is_u32; nia).
    rewrite (or_greater_ok false _ _ x (y - 1)) by (intros _; split; [reflexivity|lia]).
    cbn [bind orb].
    rewrite (or_greater_ok (x =? 0) _ _ (x - 1) (y - 1)).
    2:{ intros G. rewrite (Hl G). apply Z.eqb_neq in G. split; [reflexivity|lia]. }
    rewrite E. cbn [bind].
    rewrite (or_greater_ok (x =? w - 1) _ _ (x + 1) (y - 1)).
    2:{ intros G. rewrite (Hr G). apply Z.eqb_neq in G. split; [reflexivity|lia]. }
    rewrite E. reflexivity. }
  rewrite TOP. clear TOP. cbv beta.
  set (tp := _ || (_ && _)).
  assert (BOT : forall A (k : bool -> outcome A),
    bind (if tp && negb (y =? h - 1) then
       let* e := or_greater gt false (V x y) frame (u32 (u32 (b * w) + x)) in
       let* e := and_then e (or_greater gt (x =? 0) (V x y) frame (u32 (u32 (b * w) + l))) in
       and_then e (or_greater gt (x =? w - 1) (V x y) frame (u32 (u32 (b * w) + r)))
     else Ok tp) k =
    k (tp && ((y =? h - 1) || (gt (V x y) (V x (y+1)) &&
                ((x =? 0) || gt (V x y) (V (x-1) (y+1))) &&
                ((x =? w - 1) || gt (V x y) (V (x+1) (y+1))))))).
  { intros A k. destruct tp; cbn [andb bind]; auto.
    destruct (y =? h - 1) eqn:Ey; cbn [negb bind orb]; auto.
    rewrite (Hb eq_refl). apply Z.eqb_neq in Ey.
    rewrite (u32_id ((y + 1) * w)) by (unfold is_u32; nia).
    rewrite (or_greater_ok false _ _ x (y + 1)) by (intros _; split; [reflexivity|lia]).
    cbn [bind orb].
    rewrite (or_greater_ok (x =? 0) _ _ (x - 1) (y + 1)).
    2:{ intros G. rewrite (Hl G). apply Z.eqb_neq in G. split; [reflexivity|lia]. }
    rewrite E. cbn [bind].
    rewrite (or_greater_ok (x =? w - 1) _ _ (x + 1) (y + 1)).
    2:{ intros G. rewrite (Hr G). apply Z.eqb_neq in G. split; [reflexivity|lia]. }
    rewrite E. reflexivity. }
  rewrite BOT. cbv beta. rewrite RL, RR, E. cbn [bind]. rewrite E. reflexivity.
Qed.

Lemma maximal_b_spec x y : 0 <= x < w -> 0 <= y < h ->
  maximal_b x y = true <-> strict_local_max gt frame w h x y.
Proof.
  intros Hx Hy. unfold maximal_b, strict_local_max.
  rewrite !andb_true_iff, !orb_true_iff, !andb_true_iff, !orb_true_iff, !Z.eqb_eq.
  split.
  - intros M. split; [lia|]. split; [lia|].
    intros x' y' v v' (Hx' & Hy' & Dx & Dy & Ne) Pv Pv'.
    rewrite pixel_V in Pv by lia. rewrite pixel_V in Pv' by lia.
    injection Pv as <-. injection Pv' as <-.
    assert (Cx : x' = x - 1 \/ x' = x \/ x' = x + 1) by lia.
    assert (Cy : y' = y - 1 \/ y' = y \/ y' = y + 1) by lia.
    destruct M as (((Mt & Mb) & Ml) & Mr).
    destruct Cx as [->|[->| ->]]; destruct Cy as [->|[->| ->]];
      try (destruct Mt as [Mt|[[Mt1 [Mt2|Mt2]] [Mt3|Mt3]]]; try lia; auto; fail);
      try (destruct Mb as [Mb|[[Mb1 [Mb2|Mb2]] [Mb3|Mb3]]]; try lia; auto; fail);
      try (destruct Ml; try lia; auto; fail); try (destruct Mr; try lia; auto; fail).
  - intros (_ & _ & M).
    assert (N : forall x' y', neighbour w h x y x' y' -> gt (V x y) (V x' y') = true).
    { intros x' y' Nb. pose proof Nb as (? & ? & _).
      apply (M x' y'); auto; apply pixel_V; auto. }
    assert (NB : forall dx dy, -1 <= dx <= 1 -> -1 <= dy <= 1 -> (dx <> 0 \/ dy <> 0) ->
      0 <= x + dx < w -> 0 <= y + dy < h -> gt (V x y) (V (x + dx) (y + dy)) = true).
    { intros. apply N. unfold neighbour. repeat split; try lia.
      intros Q; inversion Q; lia. }
    clear N M.
    replace (x - 1) with (x + -1) by lia. replace (y - 1) with (y + -1) by lia.
    assert (Kx : x = 0 \/ 0 <= x + -1 < w) by lia.
    assert (Kx' : x = w - 1 \/ 0 <= x + 1 < w) by lia.
    assert (Ky : y = 0 \/ 0 <= y + -1 < h) by lia.
    assert (Ky' : y = h - 1 \/ 0 <= y + 1 < h) by lia.
    assert (P0 : forall dy, -1 <= dy <= 1 -> dy <> 0 -> 0 <= y + dy < h ->
                 gt (V x y) (V x (y + dy)) = true).
    { intros dy A B C. specialize (NB 0 dy). rewrite Z.add_0_r in NB. apply NB; lia. }
    assert (Q0 : forall dx, -1 <= dx <= 1 -> dx <> 0 -> 0 <= x + dx < w ->
                 gt (V x y) (V (x + dx) y) = true).
    { intros dx A B C. specialize (NB dx 0). rewrite (Z.add_0_r y) in NB. apply NB; lia. }
    repeat split.
    + destruct Ky; [left; lia|right; repeat split]; [apply P0; lia| |].
      * destruct Kx; [left; lia|right; apply NB; lia].
      * destruct Kx'; [left; lia|right; apply NB; lia].
    + destruct Ky'; [left; lia|right; repeat split]; [apply P0; lia| |].
      * destruct Kx; [left; lia|right; apply NB; lia].
      * destruct Kx'; [left; lia|right; apply NB; lia].
    + destruct Kx; [left; lia|right; apply Q0; lia].
    + destruct Kx'; [left; lia|right; apply Q0; lia].
Qed.

Lemma ascending_snoc l n : ascending l -> (forall x, In x l -> x < n) -> ascending (l ++ [n]).
Proof.
  induction l as [|a l IH]; simpl; intros A B; auto.
  destruct A as [A1 A2]. split.
  - destruct l; simpl; [apply B; auto|exact A1].
  - apply IH; auto.
Qed.

Lemma maximalPoints_ok :
  exists ev, maximalPoints gt frame (w, h) = Ok ev /\ ascending ev /\
    forall i, In i ev <-> exists x y, i = y * w + x /\ strict_local_max gt frame w h x y.
Proof.
  unfold maximalPoints. cbn [fst snd].
  rewrite (u32_id (h * w)) by (unfold is_u32; nia).
  destruct (for_loop_inv (S := list Z)
    (fun i ev => ascending ev /\ forall j, In j ev <->
       j < i /\ exists x y, j = y * w + x /\ strict_local_max gt frame w h x y)
    (h * w) (fun i events =>
      let* e := is_maximal gt frame w h i in
      Ok (if e then events ++ [i] else events)) []) as (ev & E & A & S).
  - nia.
  - split; [exact I|]. intros j. split; [intros []|].
    intros (Hj & x & y & -> & (Hx & Hy & _)). pose proof (in_grid x y Hx Hy). lia.
  - intros j s Hj (A & S).
    assert (Hx : 0 <= j mod w < w) by (apply Z.mod_pos_bound; lia).
    assert (Hy : 0 <= j / w < h).
    { split; [apply Z.div_pos; lia|]. apply Z.div_lt_upper_bound; nia. }
    assert (Ej : j = j / w * w + j mod w).
    { rewrite Z.mul_comm. apply Z.div_mod. lia. }
    assert (M : is_maximal gt frame w h j = Ok (maximal_b (j mod w) (j / w))).
    { rewrite Ej at 1. apply is_maximal_ok; auto. }
    rewrite M. cbn [bind].
    assert (MS := maximal_b_spec _ _ Hx Hy).
    assert (U : forall x y, j = y * w + x -> 0 <= x < w -> x = j mod w /\ y = j / w).
    { intros x y -> Hx2. destruct (div_mod_unique_row w x y Hx2) as [-> ->]. auto. }
    destruct (maximal_b (j mod w) (j / w)) eqn:Mb.
    + eexists. split; [reflexivity|]. split.
      * apply ascending_snoc; auto. intros k Hk. apply S in Hk. lia.
      * intros k. rewrite in_app_iff, S. simpl. split.
        -- intros [[K1 K2]|[<-|[]]]; [split; [lia|auto]|]. split; [lia|].
           exists (j mod w), (j / w). split; [exact Ej|]. apply MS; auto.
        -- intros (K1 & K2). destruct (Z.eq_dec k j); [auto|]. left; split; [lia|auto].
    + eexists. split; [reflexivity|]. split; auto.
      intros k. rewrite S. split; intros (K1 & K2); (split; [|exact K2]); [lia|].
      destruct (Z.eq_dec k j) as [->|]; [|lia].
      destruct K2 as (x & y & Exy & SM). exfalso.
      pose proof SM as (Hx2 & _). destruct (U x y Exy Hx2) as [-> ->].
      apply MS in SM. congruence.
  - exists ev. split; [exact E|]. split; [exact A|].
    intros i. rewrite S. split; [intros [_ ?]; auto|].
    intros K. split; auto. destruct K as (x & y & -> & (Hx & Hy & _)).
    pose proof (in_grid x y Hx Hy). lia.
Qed.

End Max.

(** Loops that rewrite each element in place. *)
Lemma for_from_pointwise {T} (f : Z -> T -> outcome T) (g : Z -> T) (l : list T) n i :
  0 <= i -> i + Z.of_nat n <= Zlen l ->
  (forall j v, i <= j < i + Z.of_nat n -> nth_error l (Z.to_nat j) = Some v -> f j v = Ok (g j)) ->
  exists l', for_from n i (fun j l => let* v := rd l j in let* v := f j v in wr l j v) l = Ok l' /\
    Zlen l' = Zlen l /\
    forall j, 0 <= j -> nth_error l' (Z.to_nat j) =
      if (i <=? j) && (j <? i + Z.of_nat n) then Some (g j) else nth_error l (Z.to_nat j).
Proof.
  intros Hi Hn Hf.
  destruct (for_from_inv (S := list T) (fun k l' => Zlen l' = Zlen l /\
    forall j, 0 <= j -> nth_error l' (Z.to_nat j) =
      if (i <=? j) && (j <? k) then Some (g j) else nth_error l (Z.to_nat j))
    n i (fun j l => let* v := rd l j in let* v := f j v in wr l j v) l) as (l' & E & L & P).
  - split; auto. intros j Hj. destruct (Z.leb_spec i j), (Z.ltb_spec j i); simpl; auto; lia.
  - intros k s Hk (L & P).
    destruct (nth_error l (Z.to_nat k)) as [v|] eqn:Ev.
    2:{ apply nth_error_None in Ev. unfold Zlen in *. lia. }
    assert (Es : nth_error s (Z.to_nat k) = Some v).
    { rewrite P by lia. destruct (Z.leb_spec i k), (Z.ltb_spec k k); simpl; auto; lia. }
    unfold rd. destruct (Z.ltb_spec k 0); try lia. rewrite Es. cbn [bind].
    rewrite (Hf k v) by (auto; lia). cbn [bind].
    rewrite wr_ok by lia. eexists; split; [reflexivity|].
    rewrite Zlen_upd. split; auto. intros j Hj.
    destruct (Z.eq_dec j k) as [->|Ne].
    + rewrite nth_error_upd_eq by (unfold Zlen in *; lia).
      destruct (Z.leb_spec i k), (Z.ltb_spec k (k + 1)); simpl; auto; lia.
    + rewrite nth_error_upd_neq by lia. rewrite P by auto.
      destruct (Z.leb_spec i j), (Z.ltb_spec j k), (Z.ltb_spec j (k + 1)); simpl; auto; lia.
  - exists l'. auto.
Qed.

Lemma bind_assoc {A B C} (m : outcome A) (f : A -> outcome B) (g : B -> outcome C) :
  bind (bind m f) g = bind m (fun a => bind (f a) g).
Proof. destruct m; reflexivity. Qed.

Section Pre.
Context {T F D : Type} (ops : frame_ops T F D).

(** What the standard pre-processing does to the value of pixel j. *)
Definition pre_value (dark : bool) (darkRef gain : option (list F)) (bg xray : D)
    (j : Z) (v : T) : outcome T :=
  let* v := (if dark then let* d := deref darkRef j in op_sub_cast ops v d else Ok v) in
  let* v := (if op_integral ops then Ok v
             else let* g := deref gain j in op_mul ops v g) in
  Ok (threshold_pixel ops bg xray v).

Lemma preprocess_ok dark darkRef gain bg xray w h frame g :
  0 <= w -> 0 <= h -> w * h < 2 ^ 32 -> Zlen frame = w * h ->
  (forall j v, 0 <= j < w * h -> nth_error frame (Z.to_nat j) = Some v ->
     pre_value dark darkRef gain bg xray j v = Ok (g j)) ->
  exists l', preprocess ops dark darkRef gain bg xray (w, h) frame = Ok l' /\
    Zlen l' = w * h /\
    forall j, 0 <= j < w * h -> nth_error l' (Z.to_nat j) = Some (g j).
Proof.
  intros Hw Hh Hwh HL Hg. unfold preprocess, for_loop. cbn [fst snd].
  rewrite u32_id by (unfold is_u32; nia).
  destruct (for_from_pointwise (pre_value dark darkRef gain bg xray) g frame
              (Z.to_nat (w * h)) 0) as (l' & E & L & P); try nia.
  - intros j v Hj. apply Hg. nia.
  - exists l'. split; [|split; [lia|]].
    + rewrite <- E. apply for_from_ext. intros j s _. unfold preprocess_pixel, pre_value.
      destruct (rd s j); cbn [bind]; auto.
      destruct (if dark then _ else _); cbn [bind]; auto.
      destruct (if op_integral ops then _ else _); cbn [bind]; auto.
    + intros j Hj. rewrite P by lia.
      destruct (Z.leb_spec 0 j), (Z.ltb_spec j (0 + Z.of_nat (Z.to_nat (w * h)))); simpl; auto; lia.
Qed.

Definition pre_classic_value (darkRef gain : option (list F)) (bg xray : D)
    (j : Z) (v : T) : outcome T :=
  let* d := deref darkRef j in
  let* v := op_sub ops v d in
  let* v := (if op_integral ops then Ok v
             else let* g := deref gain j in op_mul ops v g) in
  Ok (threshold_pixel ops bg xray v).

Lemma preprocess_classic_ok darkRef gain bg xray w h frame g :
  0 <= w -> 0 <= h -> w * h < 2 ^ 32 -> Zlen frame = w * h ->
  (forall j v, 0 <= j < w * h -> nth_error frame (Z.to_nat j) = Some v ->
     pre_classic_value darkRef gain bg xray j v = Ok (g j)) ->
  exists l', preprocess_classic ops darkRef gain bg xray (w, h) frame = Ok l' /\
    Zlen l' = w * h /\
    forall j, 0 <= j < w * h -> nth_error l' (Z.to_nat j) = Some (g j).
Proof.
  intros Hw Hh Hwh HL Hg. unfold preprocess_classic, for_loop. cbn [fst snd].
  rewrite u32_id by (unfold is_u32; nia).
  destruct (for_from_pointwise (pre_classic_value darkRef gain bg xray) g frame
              (Z.to_nat (w * h)) 0) as (l' & E & L & P); try nia.
  - intros j v Hj. apply Hg. nia.
  - exists l'. split; [|split; [lia|]].
    + rewrite <- E. apply for_from_ext. intros j s _.
      unfold preprocess_classic_pixel, pre_classic_value.
      destruct (rd s j); cbn [bind]; auto.
      destruct (deref darkRef j); cbn [bind]; auto.
      destruct (op_sub ops a _); cbn [bind]; auto.
      destruct (if op_integral ops then _ else _); cbn [bind]; auto.
    + intros j Hj. rewrite P by lia.
      destruct (Z.leb_spec 0 j), (Z.ltb_spec j (0 + Z.of_nat (Z.to_nat (w * h)))); simpl; auto; lia.
Qed.

(** What applyRowDark does to pixel j with value v given the statistic of its
    half-row. *)
Definition rowdark_value (om stat : F) (gd gain : option (list F)) (bg xray : D)
    (j : Z) (v : T) : outcome T :=
  let* v := (match gd with
             | Some a => let* d := rd a j in op_sub ops v d
             | None => Ok v
             end) in
  let* r := op_ratio ops om stat in
  let* v := op_mul ops v r in
  let* v := (if op_integral ops then Ok v
             else let* g := deref gain j in op_mul ops v g) in
  Ok (threshold_pixel ops bg xray v).

Definition rowdark_stat (useMean : bool) (s : list T) : outcome F :=
  if useMean then Ok (op_mean ops s) else op_median ops s.

Lemma rowdark_apply_ok um om gd gain bg xray start stop frame stat g :
  0 <= start <= stop -> stop <= Zlen frame ->
  rowdark_stat um (firstn (Z.to_nat (stop - start)) (skipn (Z.to_nat start) frame)) = Ok stat ->
  (forall j v, start <= j < stop -> nth_error frame (Z.to_nat j) = Some v ->
     rowdark_value om stat gd gain bg xray j v = Ok (g j)) ->
  exists l', rowdark_apply ops um om gd gain bg xray start stop frame = Ok l' /\
    Zlen l' = Zlen frame /\
    forall j, 0 <= j -> nth_error l' (Z.to_nat j) =
      if (start <=? j) && (j <? stop) then Some (g j) else nth_error frame (Z.to_nat j).
Proof.
  intros H1 H2 HS Hg. unfold rowdark_apply, slice.
  destruct (Z.leb_spec 0 start); try lia. destruct (Z.leb_spec start stop); try lia.
  destruct (Z.leb_spec stop (Zlen frame)); try lia. cbn [andb bind].
  unfold rowdark_stat in HS. rewrite HS. cbn [bind].
  destruct (for_from_pointwise (rowdark_value om stat gd gain bg xray) g frame
              (Z.to_nat (stop - start)) start) as (l' & E & L & P); try lia.
  - intros j v Hj. apply Hg. lia.
  - exists l'. split; [|split; [exact L|]].
    + rewrite <- E. apply for_from_ext. intros j s _. unfold rowdark_pixel, rowdark_value.
      destruct (rd s j); cbn [bind]; auto.
      destruct (match gd with Some _ => _ | None => _ end); cbn [bind]; auto.
      destruct (op_ratio ops om stat); cbn [bind]; auto.
      destruct (op_mul ops _ _); cbn [bind]; auto.
      destruct (if op_integral ops then _ else _); cbn [bind]; auto.
    + intros j Hj. rewrite P by auto.
      replace (start + Z.of_nat (Z.to_nat (stop - start))) with stop by lia. reflexivity.
Qed.

Lemma firstn_skipn_ext {A} (l l' : list A) a n :
  (forall k, (a <= k < a + n)%nat -> nth_error l k = nth_error l' k) ->
  firstn n (skipn a l) = firstn n (skipn a l').
Proof.
  intros H.
  assert (G : forall (m m' : list A) n, (forall k, (k < n)%nat -> nth_error m k = nth_error m' k) ->
                firstn n m = firstn n m').
  { clear. induction m as [|x m IH]; destruct m' as [|x' m'], n; simpl; intros H; auto.
    - specialize (H 0%nat ltac:(lia)). discriminate.
    - specialize (H 0%nat ltac:(lia)). discriminate.
    - pose proof (H 0%nat ltac:(lia)) as H0. injection H0 as <-. f_equal. apply IH.
      intros k Hk. apply (H (S k)). lia. }
  assert (N : forall (m : list A) a k, nth_error (skipn a m) k = nth_error m (a + k)).
  { clear. induction m as [|y m IH]; intros [|a] k; simpl; auto.
    destruct k; reflexivity. }
  apply G. intros k Hk. rewrite !N. apply H. lia.
Qed.

(** Row length W, number of rows H. *)
Lemma applyRowDark_ok um om gd gain bg xray W H frame g :
  1 <= W -> 1 <= H -> W * H < 2 ^ 32 -> Zlen frame = W * H ->
  (2 <= W \/ um = true) ->
  (forall x y v, 0 <= x < W -> 0 <= y < H -> pixel frame W x y = Some v ->
     (let* s := rowdark_stat um (half_row frame W x y) in
      rowdark_value om s gd gain bg xray (y * W + x) v) = Ok (g (y * W + x))) ->
  exists l', applyRowDark ops um om gd gain bg xray (H, W) frame = Ok l' /\
    Zlen l' = W * H /\
    forall j, 0 <= j < W * H -> nth_error l' (Z.to_nat j) = Some (g j).
Proof.
  intros HW HH HWH HL Hum Hg. unfold applyRowDark. cbn [fst snd].
  assert (L2 : 0 <= W / 2 <= W) by (split; [apply Z.div_pos; lia|apply Z.div_le_upper_bound; lia]).
  assert (L3 : W / 2 < W) by (apply Z.div_lt_upper_bound; lia).
  rewrite (u32_id (W - W / 2)) by (unfold is_u32; nia).
  match goal with |- context [for_loop H ?b frame] => set (body := b) end.
  destruct (for_loop_inv (S := list T)
    (fun r l => Zlen l = W * H /\ forall j, 0 <= j < W * H ->
       nth_error l (Z.to_nat j) = if j <? r * W then Some (g j) else nth_error frame (Z.to_nat j))
    H body frame) as (l' & E & L & P).
  - lia.
  - split; auto. intros j Hj. destruct (Z.ltb_spec j (0 * W)); auto; lia.
  - intros r l Hr (L & P). unfold body. cbv zeta.
    assert (B : 0 <= r * W /\ r * W + W <= W * H) by nia.
    rewrite !(u32_id (r * W)) by (unfold is_u32; nia).
    rewrite !(u32_id (r * W + W / 2)) by (unfold is_u32; nia).
    rewrite (u32_id (r * W + W / 2 + (W - W / 2))) by (unfold is_u32; nia).
    replace (r * W + W / 2 + (W - W / 2)) with (r * W + W) by lia.
    assert (Epix : forall x, 0 <= x < W -> exists v, pixel frame W x r = Some v).
    { intros x Hx. destruct (pixel frame W x r) eqn:Ep; eauto.
      apply nth_error_None in Ep. unfold Zlen in HL. nia. }
    (* left *)
    assert (SL : exists stat, rowdark_stat um (firstn (Z.to_nat (r * W + W / 2 - r * W))
                    (skipn (Z.to_nat (r * W)) l)) = Ok stat /\
              forall j v, r * W <= j < r * W + W / 2 -> nth_error l (Z.to_nat j) = Some v ->
                rowdark_value om stat gd gain bg xray j v = Ok (g j)).
    { assert (Eq : firstn (Z.to_nat (r * W + W / 2 - r * W)) (skipn (Z.to_nat (r * W)) l) =
                   firstn (Z.to_nat (W / 2)) (skipn (Z.to_nat (r * W)) frame)).
      { replace (r * W + W / 2 - r * W) with (W / 2) by lia.
        apply firstn_skipn_ext. intros k Hk.
        specialize (P (Z.of_nat k)). rewrite Nat2Z.id in P. rewrite P by lia.
        destruct (Z.ltb_spec (Z.of_nat k) (r * W)); auto; lia. }
      rewrite Eq. destruct (Z.eq_dec (W / 2) 0) as [E0|N0].
      - assert (W = 1) by (destruct (Z.eq_dec W 1); auto;
          assert (1 <= W / 2) by (apply Z.div_le_lower_bound; lia); lia).
        destruct Hum as [|Hum]; [lia|]. unfold rowdark_stat. rewrite Hum.
        eexists; split; [reflexivity|]. intros; lia.
      - destruct (Epix 0 ltac:(lia)) as [v0 Hv0].
        pose proof (Hg 0 r v0 ltac:(lia) ltac:(lia) Hv0) as G0.
        apply bind_ok in G0. destruct G0 as (stat & S0 & _).
        unfold half_row in S0. destruct (Z.ltb_spec 0 (W / 2)); try lia.
        exists stat. split; auto. intros j v Hj Hv.
        rewrite P in Hv by lia. destruct (Z.ltb_spec j (r * W)); try lia.
        pose proof (Hg (j - r * W) r v ltac:(lia) ltac:(lia)) as G1.
        replace (r * W + (j - r * W)) with j in G1 by lia.
        unfold pixel in G1. replace (r * W + (j - r * W)) with j in G1 by lia.
        specialize (G1 Hv). unfold half_row in G1.
        destruct (Z.ltb_spec (j - r * W) (W / 2)); try lia.
        rewrite S0 in G1. exact G1. }
    destruct SL as (sl & SL1 & SL2).
    destruct (rowdark_apply_ok um om gd gain bg xray (r * W) (r * W + W / 2) l sl g)
      as (l1 & E1 & L1 & P1); auto; try lia.
    rewrite E1. cbn [bind].
    assert (P1' : forall j, 0 <= j < W * H -> nth_error l1 (Z.to_nat j) =
       if j <? r * W + W / 2 then Some (g j) else nth_error frame (Z.to_nat j)).
    { intros j Hj. rewrite P1 by lia. rewrite P by lia.
      destruct (Z.leb_spec (r * W) j), (Z.ltb_spec j (r * W + W / 2)), (Z.ltb_spec j (r * W));
        simpl; auto; lia. }
    assert (SR : exists stat, rowdark_stat um (firstn (Z.to_nat (r * W + W - (r * W + W / 2)))
                    (skipn (Z.to_nat (r * W + W / 2)) l1)) = Ok stat /\
              forall j v, r * W + W / 2 <= j < r * W + W -> nth_error l1 (Z.to_nat j) = Some v ->
                rowdark_value om stat gd gain bg xray j v = Ok (g j)).
    { assert (Eq : firstn (Z.to_nat (r * W + W - (r * W + W / 2))) (skipn (Z.to_nat (r * W + W / 2)) l1) =
                   firstn (Z.to_nat (W - W / 2)) (skipn (Z.to_nat (r * W + W / 2)) frame)).
      { replace (r * W + W - (r * W + W / 2)) with (W - W / 2) by lia.
        apply firstn_skipn_ext. intros k Hk.
        specialize (P1' (Z.of_nat k)). rewrite Nat2Z.id in P1'. rewrite P1' by lia.
        destruct (Z.ltb_spec (Z.of_nat k) (r * W + W / 2)); auto; lia. }
      rewrite Eq.
      destruct (Epix (W - 1) ltac:(lia)) as [v0 Hv0].
      pose proof (Hg (W - 1) r v0 ltac:(lia) ltac:(lia) Hv0) as G0.
      apply bind_ok in G0. destruct G0 as (stat & S0 & _).
      unfold half_row in S0. destruct (Z.ltb_spec (W - 1) (W / 2)); try lia.
      exists stat. split; auto. intros j v Hj Hv.
      rewrite P1' in Hv by lia. destruct (Z.ltb_spec j (r * W + W / 2)); try lia.
      pose proof (Hg (j - r * W) r v ltac:(lia) ltac:(lia)) as G1.
      unfold pixel in G1. replace (r * W + (j - r * W)) with j in G1 by lia.
      specialize (G1 Hv). unfold half_row in G1.
      destruct (Z.ltb_spec (j - r * W) (W / 2)); try lia.
      rewrite S0 in G1. exact G1. }
    destruct SR as (sr & SR1 & SR2).
    destruct (rowdark_apply_ok um om gd gain bg xray (r * W + W / 2) (r * W + W) l1 sr g)
      as (l2 & E2 & L2' & P2); auto; try lia.
    rewrite E2. eexists; split; [reflexivity|]. split; [lia|].
    intros j Hj. rewrite P2 by lia. rewrite P1' by lia.
    destruct (Z.leb_spec (r * W + W / 2) j), (Z.ltb_spec j (r * W + W)),
      (Z.ltb_spec j (r * W + W / 2)), (Z.ltb_spec j ((r + 1) * W)); simpl; auto; lia.
  - exists l'. split; [exact E|]. split; auto. intros j Hj. rewrite P by lia.
    destruct (Z.ltb_spec j (H * W)); auto; lia.
Qed.

End Pre.
