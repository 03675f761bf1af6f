(** C74: the sector of a file is the last number after "module" in its name. *)
From Coq Require Import String Ascii ZArith List Bool Lia.
From Verif Require Import Base ScanPathModel ScanPathSpec ScanPathProofs NameModel NameSpec.
Import ListNotations.
Open Scope list_scope.
Open Scope Z_scope.

(** ** Lemmas *)

Lemma starts_iff p : forall t, starts p t = true <-> exists r, t = p ++ r.
Proof.
  induction p as [|c p IH]; intros t; cbn [starts app].
  - split; [intros _; now exists t|reflexivity].
  - destruct t as [|d t]; [split; [discriminate|intros (r & E); discriminate]|].
    rewrite andb_true_iff, Ascii.eqb_eq, IH. split.
    + intros (-> & r & ->). now exists r.
    + intros (r & E). injection E as -> ->. split; [reflexivity|now exists r].
Qed.

Lemma digit_char_iff c : digit_char c = true <-> is_digit c.
Proof.
  unfold digit_char, digit_value, is_digit.
  destruct (48 <=? Z.of_nat (nat_of_ascii c)) eqn:A; destruct (Z.of_nat (nat_of_ascii c) <=? 57) eqn:B;
    cbn; (split; [intros H; try discriminate|intros H; try reflexivity]);
    try apply Z.leb_le in A; try apply Z.leb_le in B; try apply Z.leb_gt in A; try apply Z.leb_gt in B; lia.
Qed.

Lemma line_end_no t : single_line t -> forall c, In c t -> line_end c = false.
Proof.
  intros H c Hc. destruct (H c Hc) as [A B]. unfold line_end.
  assert (forall k, (k < 256)%nat -> Z.of_nat (nat_of_ascii c) = Z.of_nat k -> c = ascii_of_nat k).
  { intros k Hk E. apply Nat2Z.inj in E. rewrite <- E. now rewrite ascii_nat_embedding. }
  apply orb_false_iff; split; apply Z.eqb_neq; intros E.
  - apply A. exact (H0 10%nat ltac:(lia) E).
  - apply B. exact (H0 13%nat ltac:(lia) E).
Qed.

Lemma single_cons c t : single_line (c :: t) -> single_line t.
Proof. intros H d Hd. apply H. now right. Qed.

Lemma single_skip a t : single_line (a ++ t) -> single_line t.
Proof. intros H d Hd. apply H. apply in_app_iff. now right. Qed.

Lemma tail_iff t : single_line t ->
  (match_tail t = true <-> exists mid rest, t = mid ++ lit ".data" ++ rest).
Proof.
  induction t as [|c t IH]; intros S.
  - cbn. split; [discriminate|]. intros ([|? ?] & rest & E); discriminate.
  - specialize (IH (single_cons _ _ S)).
    change (match_tail (c :: t)) with
      (if negb (line_end c) && match_tail t then true else starts (lit ".data") (c :: t)).
    rewrite (line_end_no _ S c (or_introl eq_refl)). cbn [negb andb].
    split.
    + destruct (match_tail t) eqn:M.
      * intros _. destruct (proj1 IH eq_refl) as (mid & rest & ->). now exists (c :: mid), rest.
      * intros H. apply starts_iff in H as (r & ->). exists [], r. reflexivity.
    + intros (mid & rest & E). destruct mid as [|d mid].
      * destruct (match_tail t); [reflexivity|]. apply starts_iff. exists rest. exact E.
      * injection E as -> ->. now rewrite (proj2 IH (ex_intro _ mid (ex_intro _ rest eq_refl))).
Qed.

Lemma tail_digit c t : single_line (c :: t) -> is_digit c -> match_tail (c :: t) = match_tail t.
Proof.
  intros S D.
  change (match_tail (c :: t)) with
      (if negb (line_end c) && match_tail t then true else starts (lit ".data") (c :: t)).
  rewrite (line_end_no _ S c (or_introl eq_refl)). cbn [negb andb].
  destruct (match_tail t); [reflexivity|].
  destruct (starts (lit ".data") (c :: t)) eqn:E; [|reflexivity].
  apply starts_iff in E as (r & E). cbn in E. injection E as -> _.
  unfold is_digit in D. cbn in D. lia.
Qed.

(** The digits at the beginning of a text and the rest. *)
Lemma digit_run t : exists ds post, t = ds ++ post /\ digits ds /\
  forall c r, post = c :: r -> ~ is_digit c.
Proof.
  induction t as [|c t (ds & post & -> & D & P)].
  - exists [], []. repeat split; [constructor|discriminate].
  - destruct (digit_char c) eqn:E.
    + exists (c :: ds), post. repeat split; [|exact P]. constructor; [now apply digit_char_iff|exact D].
    + exists [], (c :: ds ++ post). repeat split; [constructor|].
      intros d r H. injection H as <- _. rewrite <- digit_char_iff. now rewrite E.
Qed.

Lemma digits_match ds : forall post, single_line (ds ++ post) -> digits ds ->
  (forall c r, post = c :: r -> ~ is_digit c) ->
  match_digits (ds ++ post) =
    match ds with [] => None | _ => if match_tail post then Some ds else None end.
Proof.
  induction ds as [|c ds IH]; intros post S D P.
  - cbn [app]. destruct post as [|c r]; [reflexivity|]. cbn [match_digits].
    specialize (P c r eq_refl). destruct (digit_char c) eqn:E; [|reflexivity].
    now apply digit_char_iff in E.
  - inversion D as [|? ? Dc Dd]; subst. cbn [app match_digits].
    rewrite (proj2 (digit_char_iff c) Dc). cbn [app] in S. pose proof (single_cons _ _ S) as S'.
    rewrite (IH post S' Dd P). destruct ds as [|d ds].
    + cbn [app]. reflexivity.
    + assert (T : forall l, digits l -> single_line (l ++ post) -> match_tail (l ++ post) = match_tail post).
      { induction l as [|x l IHl]; intros Dl Sl; [reflexivity|]. inversion Dl; subst. cbn [app] in *.
        rewrite tail_digit by assumption. apply IHl; [assumption|]. now apply single_cons in Sl. }
      rewrite (T (d :: ds) Dd S'). destruct (match_tail post); reflexivity.
Qed.

(** Two ways of cutting a text into digits and the rest are the same. *)
Lemma run_unique ds : forall post ds' post', ds ++ post = ds' ++ post' -> digits ds -> digits ds' ->
  (forall c r, post = c :: r -> ~ is_digit c) -> (forall c r, post' = c :: r -> ~ is_digit c) ->
  ds = ds' /\ post = post'.
Proof.
  induction ds as [|c ds IH]; intros post ds' post' E D D' P P'; destruct ds' as [|c' ds'].
  - auto.
  - cbn in E. inversion D'; subst. now specialize (P c' _ eq_refl).
  - cbn in E. inversion D; subst. now specialize (P' c _ eq_refl).
  - cbn in E. injection E as -> E. inversion D; inversion D'; subst.
    destruct (IH _ _ _ E) as [-> ->]; auto.
Qed.

Lemma module_iff t ds : single_line t ->
  (match_module t = Some ds <-> exists post, numbered t [] ds post).
Proof.
  intros S. unfold match_module.
  destruct (starts (lit "module") t) eqn:E.
  - apply starts_iff in E as (r & ->).
    change (skipn 6 (lit "module" ++ r)) with r.
    pose proof (single_skip _ _ S) as Sr.
    destruct (digit_run r) as (d0 & p0 & -> & D & P).
    rewrite (digits_match d0 p0 Sr D P).
    pose proof (single_skip _ _ Sr) as Sp. pose proof (tail_iff p0 Sp) as T.
    split.
    + destruct d0 as [|c d0]; [discriminate|].
      destruct (match_tail p0); [|discriminate]. intros H; injection H as <-.
      exists p0. repeat split; auto; [discriminate|]. now apply T.
    + intros (post & E & Ne & Dd & Pp & Td). cbn [app] in E. apply app_inv_head in E.
      destruct (run_unique _ _ _ _ E D Dd P Pp) as [-> ->].
      destruct ds as [|c ds]; [congruence|]. now rewrite (proj2 T Td).
  - split; [discriminate|]. intros (post & E' & _). cbn [app] in E'.
    assert (starts (lit "module") t = true) by (apply starts_iff; now exists (ds ++ post)).
    congruence.
Qed.

Lemma numbered_shift c t pre ds post : numbered t pre ds post -> numbered (c :: t) (c :: pre) ds post.
Proof. intros (-> & R). split; [reflexivity|exact R]. Qed.

Lemma numbered_unshift c t d pre ds post : numbered (c :: t) (d :: pre) ds post -> numbered t pre ds post.
Proof. intros (E & R). split; [now injection E|exact R]. Qed.

Lemma name_none t : single_line t -> match_name t = None -> no_number t.
Proof.
  induction t as [|c t IH]; intros S M pre ds post N.
  - destruct N as (E & _). destruct pre; discriminate.
  - cbn [match_name] in M. rewrite (line_end_no _ S c (or_introl eq_refl)) in M.
    destruct (match_name t) eqn:Mt; [discriminate|].
    destruct pre as [|d pre].
    + assert (match_module (c :: t) = Some ds) by (apply module_iff; eauto). congruence.
    + apply numbered_unshift in N. exact (IH (single_cons _ _ S) eq_refl _ _ _ N).
Qed.

Lemma name_some t : forall ds, single_line t -> match_name t = Some ds ->
  exists pre post, numbered t pre ds post /\
    forall pre' ds' post', numbered t pre' ds' post' -> (List.length pre' <= List.length pre)%nat.
Proof.
  induction t as [|c t IH]; intros ds S M.
  - discriminate.
  - cbn [match_name] in M. rewrite (line_end_no _ S c (or_introl eq_refl)) in M.
    destruct (match_name t) as [d0|] eqn:Mt.
    + injection M as ->.
      destruct (IH ds (single_cons _ _ S) eq_refl) as (pre & post & N & L).
      exists (c :: pre), post. split; [now apply numbered_shift|].
      intros [|d pre'] ds' post' N'; cbn [List.length]; [lia|].
      apply numbered_unshift in N'. specialize (L _ _ _ N'). lia.
    + apply module_iff in M as (post & N); [|exact S].
      exists [], post. split; [exact N|].
      intros [|d pre'] ds' post' N'; cbn [List.length]; [lia|].
      apply numbered_unshift in N'. destruct (name_none t (single_cons _ _ S) Mt _ _ _ N').
Qed.

Lemma search_is_match t : single_line t -> search_name t = match_name t.
Proof.
  induction t as [|c t IH]; intros S; [reflexivity|].
  cbn [search_name]. destruct (match_name (c :: t)) eqn:M; [reflexivity|].
  rewrite (IH (single_cons _ _ S)).
  destruct (match_name t) eqn:Mt; [|reflexivity].
  destruct (name_some t _ (single_cons _ _ S) Mt) as (pre & post & N & _).
  apply (numbered_shift c) in N. destruct (name_none _ S M _ _ _ N).
Qed.

Lemma stoi_digits ds : digits ds -> ds <> [] ->
  stoi ds = if value ds <? 2 ^ 31 then Ok (value ds) else Throw "std::out_of_range: stoi".
Proof.
  intros D N. unfold stoi, unsigned. destruct ds as [|c ds]; [congruence|].
  rewrite read_digits_ok by exact D. reflexivity.
Qed.

(** ** The theorems *)

(** C74.  For every name in one line, the sector is the last number that stands
    behind "module" and before some ".data"; -1 if there is none; an exception if
    it is no int. *)
Theorem C74_sector name : single_line name ->
  (forall k, extract_sector name = Ok k <->
     (last_number name k /\ k < 2 ^ 31) \/ (no_number name /\ k = -1)) /\
  (forall n, last_number name n -> 2 ^ 31 <= n ->
     extract_sector name = Throw "std::out_of_range: stoi") /\
  (no_number name \/ exists n, last_number name n /\ 0 <= n).
Proof.
  intros S. unfold extract_sector. rewrite (search_is_match name S).
  destruct (match_name name) as [ds|] eqn:M.
  - destruct (name_some name ds S M) as (pre & post & N & L).
    pose proof N as (E & Ne & D & P & T).
    assert (U : forall n, last_number name n -> n = value ds).
    { intros n (pre' & ds' & post' & N' & <- & L').
      pose proof N' as (E' & Ne' & D' & P' & T').
      assert (Len : List.length pre = List.length pre').
      { specialize (L _ _ _ N'). specialize (L' _ _ _ N). lia. }
      assert (X : pre = pre' /\ lit "module" ++ ds ++ post = lit "module" ++ ds' ++ post').
      { rewrite E in E'. clear -E' Len. revert pre' E' Len.
        induction pre as [|c pre IH]; intros [|c' pre'] E Len; try discriminate; [auto|].
        cbn in E. injection E as -> E. cbn in Len. destruct (IH pre' E) as [-> ?]; [lia|auto]. }
      destruct X as [_ X]. apply app_inv_head in X.
      now destruct (run_unique _ _ _ _ X D D' P P') as [-> _]. }
    assert (LN : last_number name (value ds)) by (exists pre, ds, post; auto).
    rewrite stoi_digits by assumption.
    split; [|split].
    + intros k. destruct (Z.ltb_spec (value ds) (2 ^ 31)); split.
      * intros Q; injection Q as <-. left. auto.
      * intros [[Hk _]|[Hn _]]; [now rewrite (U k Hk)|]. destruct (Hn _ _ _ N).
      * discriminate.
      * intros [[Hk Hl]|[Hn _]]; [rewrite (U k Hk) in Hl; lia|]. destruct (Hn _ _ _ N).
    + intros n Hn Hl. rewrite (U n Hn) in Hl. now rewrite (proj2 (Z.ltb_ge _ _)).
    + right. exists (value ds). split; [exact LN|now apply value_nonneg].
  - pose proof (name_none name S M) as Nn. split; [|split].
    + intros k. split; [intros Q; injection Q as <-; auto|].
      intros [[(pre & ds & post & N & _) _]|[_ ->]]; [destruct (Nn _ _ _ N)|reflexivity].
    + intros n (pre & ds & post & N & _). destruct (Nn _ _ _ N).
    + now left.
Qed.

Lemma zfill_any w t : number t -> zfill w t = repeat "0"%char (w - List.length t) ++ t.
Proof.
  intros (D & H). unfold zfill. destruct t as [|c r]; [now rewrite app_nil_r|].
  inversion D as [|? ? Dc _]; subst. rewrite !(digit_not c); auto; unfold is_digit; cbn; lia.
Qed.

Lemma no_module_in_digits ds : forall x t y, digits ds -> without (lit "module") t ->
  x ++ lit "module" ++ y <> ds ++ t.
Proof.
  induction ds as [|c ds IH]; intros x t y D W E.
  - cbn [app] in E. now apply (W x y).
  - inversion D as [|? ? Dc Dd]; subst. destruct x as [|d x].
    + cbn in E. injection E as <- _. unfold is_digit in Dc. cbn in Dc. lia.
    + cbn [app] in E. injection E as _ E. now apply (IH x t y Dd W).
Qed.

(** C74.  The usual names: any directory and beginning, "module", the number with
    or without leading zeros, something without a second "module", and ".data". *)
Theorem C74_usual_name before k width behind :
  0 <= k < 2 ^ 31 -> single_line before -> single_line behind ->
  (forall c r, behind = c :: r -> ~ is_digit c) ->
  without (lit "module") (behind ++ lit ".data") ->
  extract_sector (before ++ lit "module" ++ zfill width (py_str k) ++ behind ++ lit ".data") = Ok k.
Proof.
  intros Hk Sb Sh P W.
  destruct (py_str_number k ltac:(lia)) as (Nk & Vk).
  rewrite zfill_any by exact Nk. pose proof Nk as (Dk & _).
  set (ds := repeat "0"%char (width - List.length (py_str k)) ++ py_str k).
  assert (Dd : digits ds).
  { apply digits_app. split; [|exact Dk]. apply Forall_forall. intros c Hc.
    apply repeat_spec in Hc. subst c. unfold is_digit. cbn. lia. }
  assert (Ne : ds <> []).
  { unfold ds. pose proof (number_nonnil _ Nk). destruct (repeat _ _); [exact H|discriminate]. }
  assert (Vd : value ds = k) by (unfold ds; rewrite value_zeros; exact Vk).
  assert (S : single_line (before ++ lit "module" ++ ds ++ behind ++ lit ".data")).
  { intros c Hc. rewrite !in_app_iff in Hc. destruct Hc as [Hc|[Hc|[Hc|[Hc|Hc]]]]; auto.
    - cbn in Hc. repeat destruct Hc as [<-|Hc]; try contradiction; split; discriminate.
    - apply (proj1 (Forall_forall _ _) Dd) in Hc. unfold is_digit in Hc.
      split; intros ->; cbn in Hc; lia.
    - cbn in Hc. repeat destruct Hc as [<-|Hc]; try contradiction; split; discriminate. }
  apply (proj1 (C74_sector _ S)). left. split; [|lia].
  exists before, ds, (behind ++ lit ".data"). split; [|split; [exact Vd|]].
  - repeat split; auto.
    + intros c r E. destruct behind as [|d l]; [|injection E as -> _; exact (P c l eq_refl)].
      cbn in E. injection E as <- _. unfold is_digit. cbn. lia.
    + exists behind, []. reflexivity.
  - intros pre' ds' post' (E & Ne' & D' & _).
    destruct (Nat.le_gt_cases (List.length pre') (List.length before)) as [L|L]; [exact L|exfalso].
    assert (X : exists x, x <> [] /\
              x ++ lit "module" ++ ds' ++ post' = lit "module" ++ ds ++ behind ++ lit ".data").
    { clear -E L. revert pre' E L. induction before as [|c before IH]; intros pre' E L.
      - exists pre'. split; [intros ->; cbn in L; lia|now symmetry].
      - destruct pre' as [|d pre']; [cbn in L; lia|]. cbn in E. injection E as -> E.
        cbn in L. destruct (IH pre' E) as (x & Hx); [lia|]. now exists x. }
    destruct X as (x & Nx & X). destruct x as [|c0 x]; [congruence|].
    cbn [app lit list_ascii_of_string] in X. injection X as -> X.
    do 5 (destruct x as [|? x]; [cbn in X; injection X; intros; discriminate|cbn [app] in X; injection X as -> X]).
    exact (no_module_in_digits ds x _ _ Dd W X).
Qed.

(** ** Findings *)

(** The number may come from a directory: a file of another name, in a directory
    called after a module, counts as the sector of that module. *)
Theorem C74_directory_refuted : exists dir file,
  without (lit "module") file /\ ~ In "/"%char file /\
  extract_sector (dir ++ lit "/" ++ file) = Ok 3.
Proof.
  exists (lit "/data/module3"), (lit "dark.data"). split; [|split; [|reflexivity]].
  - intros a b E. assert (H : In "m"%char (lit "dark.data")).
    { rewrite E. apply in_app_iff. right. now left. }
    cbn in H. intuition discriminate.
  - cbn. intuition discriminate.
Qed.

(** The name need not end in ".data": a copy made aside is read as a sector. *)
Theorem C74_ending_refuted :
  extract_sector (lit "scan4_module1.data.bak") = Ok 1 /\
  extract_sector (lit "scan4_module1.data~") = Ok 1.
Proof. split; reflexivity. Qed.

(** ** Examples *)

Example ex_usual : map (fun k => extract_sector (lit "/data/module7/data_scan0000000042_module"
                                  ++ zfill 3 (py_str k) ++ lit "_th4" ++ lit ".data")) [0; 1; 2; 3]
                   = [Ok 0; Ok 1; Ok 2; Ok 3].
Proof. reflexivity. Qed.

Example ex_no_number : map extract_sector
  [lit "dark.data"; lit "module.data"; lit "module1.dat"; lit "modul1.data"; lit "x.data_module2"]
  = [Ok (-1); Ok (-1); Ok (-1); Ok (-1); Ok (-1)].
Proof. reflexivity. Qed.

Example ex_too_large :
  extract_sector (lit "module2147483648.data") = Throw "std::out_of_range: stoi" /\
  extract_sector (lit "module2147483647.data") = Ok 2147483647.
Proof. split; reflexivity. Qed.

Print Assumptions C74_sector.
Print Assumptions C74_usual_name.
Print Assumptions C74_directory_refuted.
Print Assumptions C74_ending_refuted.
