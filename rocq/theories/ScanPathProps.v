(** C66: finding the file of a scan. *)
From Coq Require Import String Ascii ZArith List Bool Lia.
From Verif Require Import Base ScanPathModel ScanPathSpec ScanPathProofs.
Import ListNotations.
Open Scope list_scope.
Open Scope Z_scope.

Lemma one_answer : forall dir num id th s v l,
  path_of_version dir num id th s v = answer l -> get_scan_path dir num id th s (Some v) = answer l.
Proof.
  intros dir num id th s v l H. unfold get_scan_path. cbn [try_versions]. rewrite H.
  destruct l as [|e [|e2 l]]; reflexivity.
Qed.

Lemma two_answers : forall dir num id th s l1 l0,
  path_of_version dir num id th s 1 = answer l1 ->
  path_of_version dir num id th s 0 = answer l0 ->
  get_scan_path dir num id th s None = match l1 with [] => answer l0 | e :: l => answer (e :: l) end.
Proof.
  intros dir num id th s l1 l0 H1 H0. unfold get_scan_path. cbn [try_versions]. rewrite H1, H0.
  destruct l1 as [|e [|e2 l1]]; destruct l0 as [|e' [|e2' l0]]; reflexivity.
Qed.

Lemma new_id_path : forall dir num i th s, wf_dir dir -> Forall five dir -> 0 <= i ->
  path_of_version (map name_of dir) num (Some i) th s 1 = answer (filter (new_with_id i s) dir).
Proof.
  intros dir num i th s W F Hi. apply version_1_answer; [exact W|congruence| |].
  - intros e I. apply new_id_taken; [exact Hi|..]; eapply Forall_forall in I; eauto.
  - intros [d t j n k|n j k|n h k|name] E; try discriminate. repeat eexists.
Qed.

Lemma new_num_path : forall dir n th s, wf_dir dir -> 0 <= n ->
  path_of_version (map name_of dir) (Some n) None th s 1 = answer (filter (new_with_num n s) dir).
Proof.
  intros dir n th s W Hn. apply version_1_answer; [exact W|congruence| |].
  - intros e I. apply new_num_taken; [exact Hn|..]; eapply Forall_forall in I; eauto.
  - intros [d t j m k|m j k|m h k|name] E; try discriminate. repeat eexists.
Qed.

Lemma old_id_path : forall dir num w th s, wf_dir dir -> number w ->
  path_of_version (map name_of dir) num (Some (value w)) th s 0 = answer (filter (old_seen_by_id w s) dir).
Proof.
  intros dir num w th s W Hw. apply version_0_answer; [exact W|congruence| |].
  - intros e I. rewrite old_id_taken; [now rewrite py_str_value|apply value_nonneg, Hw|].
    eapply Forall_forall in I; eauto.
  - intros [d t j n k|n j k|n h k|name] E; try discriminate. left. repeat eexists.
Qed.

Lemma old_num_path : forall dir w s, wf_dir dir -> number w ->
  path_of_version (map name_of dir) (Some (value w)) None None s 0 = answer (filter (old_seen_by_num w s) dir).
Proof.
  intros dir w s W Hw. apply version_0_answer; [exact W|congruence| |].
  - intros e I. rewrite old_num_taken; [now rewrite py_str_value|apply value_nonneg, Hw|].
    eapply Forall_forall in I; eauto.
  - intros [d t j n k|n j k|n h k|name] E; try discriminate; [left|right; split; [reflexivity|]]; repeat eexists.
Qed.

Lemma old_th_path : forall dir n h s, wf_dir dir -> 0 <= n -> 0 <= h ->
  path_of_version (map name_of dir) (Some n) None (Some h) s 0 = answer (filter (old_with_th n h s) dir).
Proof.
  intros dir n h s W Hn Hh. apply version_0_answer; [exact W|congruence| |].
  - intros e I. rewrite old_th_taken; [reflexivity|assumption..|]. eapply Forall_forall in I; eauto.
  - intros [d t j m k|m j k|m g k|name] E; try discriminate. right; split; [reflexivity|]; repeat eexists.
Qed.

(** New names, by id: the one file of that id and kind, with the numbers in its
    name; FileNotFoundError when there is none, ValueError when there are more. *)
Theorem C66_new_by_id : forall dir num i th s, wf_dir dir -> Forall five dir -> 0 <= i ->
  get_scan_path (map name_of dir) num (Some i) th s (Some 1) = answer (filter (new_with_id i s) dir).
Proof. intros. apply one_answer, new_id_path; assumption. Qed.

(** New names, by scan number. *)
Theorem C66_new_by_num : forall dir n th s, wf_dir dir -> 0 <= n ->
  get_scan_path (map name_of dir) (Some n) None th s (Some 1) = answer (filter (new_with_num n s) dir).
Proof. intros. apply one_answer, new_num_path; assumption. Qed.

(** Old names, by scan number and threshold. *)
Theorem C66_old_by_threshold : forall dir n h s, wf_dir dir -> 0 <= n -> 0 <= h ->
  get_scan_path (map name_of dir) (Some n) None (Some h) s (Some 0) = answer (filter (old_with_th n h s) dir).
Proof. intros. apply one_answer, old_th_path; assumption. Qed.

(** Old names, by id or by number: [w] is what the user asks for, written as a
    number. *)
Theorem C66_old_by_id_exact : forall dir num w th s, wf_dir dir -> number w ->
  get_scan_path (map name_of dir) num (Some (value w)) th s (Some 0)
  = answer (filter (old_seen_by_id w s) dir).
Proof. intros. apply one_answer, old_id_path; assumption. Qed.

Theorem C66_old_by_num_exact : forall dir w s, wf_dir dir -> number w ->
  get_scan_path (map name_of dir) (Some (value w)) None None s (Some 0)
  = answer (filter (old_seen_by_num w s) dir).
Proof. intros. apply one_answer, old_num_path; assumption. Qed.

Lemma filter_same : forall (f g : entry -> bool) l, (forall e, In e l -> f e = g e) -> filter f l = filter g l.
Proof.
  induction l as [|e l IH]; intros H; [reflexivity|]. cbn.
  rewrite (H e) by (left; reflexivity). rewrite IH; [reflexivity|]. intros x I; apply H; right; exact I.
Qed.

Lemma begins_refl : forall w, begins w w = true.
Proof. intros w. apply begins_spec. exists []. symmetry; apply app_nil_r. Qed.

(** Old names by id are right in a directory where no other id begins with the digits
    of the one asked for and, for standard files, none of its files is centered. *)
Theorem C66_old_by_id : forall dir num w th s, wf_dir dir -> number w ->
  (forall n t k, In (Old n t k) dir -> begins w t = true -> t = w) ->
  (s = Standard -> forall n, ~ In (Old n w Centered) dir) ->
  get_scan_path (map name_of dir) num (Some (value w)) th s (Some 0)
  = answer (filter (old_with_id (value w) s) dir).
Proof.
  intros dir num w th s W Hw U C. rewrite C66_old_by_id_exact by assumption.
  f_equal. apply filter_same. intros e I. destruct e as [d t i n k|n t k|n h k|name]; try reflexivity.
  cbn. pose proof (proj1 (Forall_forall _ _) W _ I) as (_ & Nt).
  destruct (begins w t) eqn:B.
  - pose proof (U n t k I B) as ->. rewrite Z.eqb_refl. cbn.
    destruct s, k; try reflexivity. exfalso. eapply C; [reflexivity|exact I].
  - destruct (Z.eqb_spec (value t) (value w)) as [E|_]; [|reflexivity].
    apply number_value_inj in E; [|assumption..]. subst t. rewrite begins_refl in B. discriminate.
Qed.

(** Old names by number are right where no other number begins with its digits. *)
Theorem C66_old_by_num : forall dir w s, wf_dir dir -> number w ->
  (forall n t k, In (Old n t k) dir -> begins w n = true -> n = w) ->
  (forall n h k, In (OldTh n h k) dir -> begins w n = true -> n = w) ->
  get_scan_path (map name_of dir) (Some (value w)) None None s (Some 0)
  = answer (filter (old_with_num (value w) s) dir).
Proof.
  intros dir w s W Hw U1 U2. rewrite C66_old_by_num_exact by assumption.
  f_equal. apply filter_same. intros e I.
  destruct e as [d t i n k|n t k|n h k|name]; try reflexivity; cbn;
    pose proof (proj1 (Forall_forall _ _) W _ I) as (Nn & _); destruct (begins w n) eqn:B.
  - pose proof (U1 n t k I B) as ->. now rewrite Z.eqb_refl.
  - destruct (Z.eqb_spec (value n) (value w)) as [E|_]; [|reflexivity].
    apply number_value_inj in E; [|assumption..]. subst n. rewrite begins_refl in B. discriminate.
  - pose proof (U2 n h k I B) as ->. now rewrite Z.eqb_refl.
  - destruct (Z.eqb_spec (value n) (value w)) as [E|_]; [|reflexivity].
    apply number_value_inj in E; [|assumption..]. subst n. rewrite begins_refl in B. discriminate.
Qed.

(** Without a version the new names are tried first, the old ones only when no new
    name fits; several new files are an error at once. *)
Theorem C66_any_version_id : forall dir num w th s, wf_dir dir -> Forall five dir -> number w ->
  get_scan_path (map name_of dir) num (Some (value w)) th s None
  = match filter (new_with_id (value w) s) dir with
    | [] => answer (filter (old_seen_by_id w s) dir)
    | taken => answer taken
    end.
Proof.
  intros dir num w th s W F Hw. apply two_answers; [apply new_id_path|apply old_id_path]; auto.
  apply value_nonneg, Hw.
Qed.

Theorem C66_any_version_num : forall dir w th s, wf_dir dir -> number w ->
  (forall h, th = Some h -> 0 <= h) ->
  get_scan_path (map name_of dir) (Some (value w)) None th s None
  = match filter (new_with_num (value w) s) dir with
    | [] => answer (match th with
                    | Some h => filter (old_with_th (value w) h s) dir
                    | None => filter (old_seen_by_num w s) dir
                    end)
    | taken => answer taken
    end.
Proof.
  intros dir w th s W Hw T. pose proof (value_nonneg w (proj1 Hw)).
  destruct th as [h|]; (apply two_answers; [now apply new_num_path|]).
  - apply old_th_path; auto.
  - now apply old_num_path.
Qed.

(** A scan whose file is the only new one with its id and kind is found by its id,
    whatever else is in the directory, with the scan number and id of its name. *)
Theorem C66_found : forall l r d t i n s num th v, let e := New d t i n s in
  wf_dir (l ++ e :: r) -> Forall five (l ++ e :: r) -> v = None \/ v = Some 1 ->
  (forall x, In x (l ++ r) -> new_with_id (value i) s x = false) ->
  get_scan_path (map name_of (l ++ e :: r)) num (Some (value i)) th s v
  = Ok (name_of e, Some (value n), Some (value i)).
Proof.
  intros l r d t i n s num th v e W F V U.
  assert (Wi : wf_entry e) by (eapply Forall_forall; [exact W|apply in_elt]).
  assert (Hi : 0 <= value i) by (apply value_nonneg; apply Wi).
  assert (E : filter (new_with_id (value i) s) (l ++ e :: r) = [e]).
  { assert (N : forall k, incl k (l ++ r) -> filter (new_with_id (value i) s) k = []).
    { induction k as [|x k IH]; intros I; [reflexivity|]. cbn.
      rewrite U by (apply I; left; reflexivity). apply IH. intros y J; apply I; right; exact J. }
    rewrite filter_app. cbn [filter]. unfold e at 1. cbn [new_with_id].
    rewrite Z.eqb_refl, (proj2 (same_kind_spec s s) eq_refl). cbn [andb].
    rewrite !N; [reflexivity|apply incl_appr, incl_refl|apply incl_appl, incl_refl]. }
  destruct V as [-> | ->].
  - destruct (number_exists (value i) Hi) as (w & Nw & Vw). rewrite <- Vw.
    rewrite C66_any_version_id by assumption. rewrite Vw, E. cbn. reflexivity.
  - rewrite C66_new_by_id by assumption. rewrite E. reflexivity.
Qed.

(** Without a number and an id there is nothing to look for, and there are only two
    versions. *)
Theorem C66_bad_input : forall dir th s v num id,
  (v = None \/ v = Some 0 \/ v = Some 1 ->
   get_scan_path dir None None th s v = Throw no_input) /\
  (forall k, v = Some k -> k <> 0 -> k <> 1 ->
   get_scan_path dir num id th s v = Throw no_version).
Proof.
  intros dir th s v num id. split.
  - intros [-> | [-> | ->]]; reflexivity.
  - intros k -> N0 N1. unfold get_scan_path, path_of_version. cbn [try_versions].
    rewrite (proj2 (Z.eqb_neq _ _) N0), (proj2 (Z.eqb_neq _ _) N1). reflexivity.
Qed.

(** * What a user would expect and does not get *)

Ltac isdigits := repeat (apply Forall_cons; [unfold is_digit; vm_compute; lia|]); apply Forall_nil.
Ltac isnumber := split; [isdigits|right; do 2 eexists; split; [reflexivity|discriminate]].
Ltac ispadded :=
  split; [isdigits|first [left; reflexivity
                         |right; split; [vm_compute; lia|do 2 eexists; split; [reflexivity|discriminate]]]].
Ltac isentry :=
  match goal with
  | |- wf_entry (New _ _ _ _ _) => split; [isdigits|split; [isdigits|split; ispadded]]
  | |- wf_entry (Old _ _ _) => split; isnumber
  | |- wf_entry (OldTh _ _ _) => split; isnumber
  | |- wf_entry (Other _) => idtac
  end.
Ltac isdir := repeat (apply Forall_cons; [isentry|]); try apply Forall_nil.

(** The file of another scan is returned: id 1 is asked for, id 12 is there. *)
Theorem C66_old_id_refuted : exists dir, wf_dir dir /\
  filter (old_with_id 1 Standard) dir = [] /\
  get_scan_path (map name_of dir) None (Some 1) None Standard None
  = Ok (lit "data_scan5_id12_electrons.h5", Some 5, Some 12).
Proof.
  exists [Old (lit "5") (lit "12") Standard]. split; [|split; vm_compute; reflexivity].
  isdir.
Qed.

(** A file that is the only one of its id is not found: another id begins with the
    same digits, or the centered file of the same scan is beside it. *)
Theorem C66_old_unique_refuted :
  (exists dir e, wf_dir dir /\ filter (old_with_id 1 Standard) dir = [e] /\
     get_scan_path (map name_of dir) None (Some 1) None Standard None = Throw multiple) /\
  (exists dir e, wf_dir dir /\ filter (old_with_id 7 Standard) dir = [e] /\
     get_scan_path (map name_of dir) (Some 5) (Some 7) None Standard None = Throw multiple).
Proof.
  split.
  - exists [Old (lit "5") (lit "1") Standard; Old (lit "6") (lit "12") Standard]. eexists.
    split; [|split; vm_compute; reflexivity].
    isdir.
  - exists [Old (lit "5") (lit "7") Standard; Old (lit "5") (lit "7") Centered]. eexists.
    split; [|split; vm_compute; reflexivity].
    isdir.
Qed.

(** The same by scan number: 5 is asked for, 55 is there. *)
Theorem C66_old_num_refuted : exists dir, wf_dir dir /\
  filter (old_with_num 5 Standard) dir = [] /\
  get_scan_path (map name_of dir) (Some 5) None None Standard None
  = Ok (lit "data_scan55_id3_electrons.h5", Some 55, Some 3).
Proof.
  exists [Old (lit "55") (lit "3") Standard]. split; [|split; vm_compute; reflexivity].
  isdir.
Qed.

(** When both are given the number is ignored: the file found has another one. *)
Theorem C66_both_given_refuted : exists dir, wf_dir dir /\
  get_scan_path (map name_of dir) (Some 5) (Some 12) None Standard None
  = Ok (lit "FOURD_240101_1200_00012_00009.h5", Some 9, Some 12).
Proof.
  exists [New (lit "240101") (lit "1200") (lit "00012") (lit "00009") Standard].
  split; [|vm_compute; reflexivity].
  isdir.
Qed.

(** A scan with a number of six digits is not found by its id. *)
Theorem C66_long_number_refuted : exists dir e, wf_dir dir /\
  filter (new_with_id 12 Standard) dir = [e] /\
  get_scan_path (map name_of dir) None (Some 12) None Standard None = Throw not_found.
Proof.
  exists [New (lit "240101") (lit "1200") (lit "00012") (lit "100000") Standard]. eexists.
  split; [|split; vm_compute; reflexivity].
  isdir.
Qed.

(** * The hypotheses are met *)

Definition example_dir : list entry :=
  [New (lit "240101") (lit "1200") (lit "00012") (lit "00009") Standard;
   New (lit "240101") (lit "1200") (lit "00012") (lit "00009") Centered;
   New (lit "240101") (lit "1300") (lit "00013") (lit "00009") Standard;
   Old (lit "5") (lit "12") Standard; Old (lit "6") (lit "2") Offsets;
   OldTh (lit "55") (lit "4") Standard; Other (lit "notes.txt")].

Example C66_dir_ok : wf_dir example_dir /\ Forall five example_dir.
Proof.
  split; [|repeat constructor].
  isdir. split; [intros r E; discriminate|split; [intros r E; discriminate|]].
  intros a b E.
  assert (I : In "_"%char (lit "notes.txt")) by (rewrite E; apply in_elt).
  cbn in I; intuition discriminate.
Qed.

Example C66_runs :
  get_scan_path (map name_of example_dir) None (Some 12) None Standard None
    = Ok (lit "FOURD_240101_1200_00012_00009.h5", Some 9, Some 12) /\
  get_scan_path (map name_of example_dir) (Some 9) None None Standard None = Throw multiple /\
  get_scan_path (map name_of example_dir) (Some 9) None None Centered None
    = Ok (lit "FOURD_240101_1200_00012_00009_centered.h5", Some 9, Some 12) /\
  get_scan_path (map name_of example_dir) None (Some 2) None Offsets None
    = Ok (lit "data_scan6_id2_electrons_offsets.emd", Some 6, Some 2) /\
  get_scan_path (map name_of example_dir) (Some 55) None (Some 4) Standard None
    = Ok (lit "data_scan55_th4_electrons.h5", Some 55, None) /\
  get_scan_path (map name_of example_dir) None (Some 14) None Standard None = Throw not_found.
Proof. repeat split; vm_compute; reflexivity. Qed.

Print Assumptions C66_new_by_id.
Print Assumptions C66_found.
Print Assumptions C66_old_by_id.
Print Assumptions C66_any_version_num.
