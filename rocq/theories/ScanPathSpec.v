(** What a user of get_scan_path expects: a directory holds files of scans, named as
    the documentation of the two versions says, and other files. *)
From Coq Require Import String Ascii ZArith List Bool.
From Verif Require Import Base ScanPathModel.
Import ListNotations.
Open Scope list_scope.
Open Scope Z_scope.

Definition is_digit (c : ascii) : Prop := (48 <= nat_of_ascii c <= 57)%nat.
Definition digits (t : text) : Prop := Forall is_digit t.

(** The number a text of digits stands for. *)
Definition value (t : text) : Z :=
  fold_left (fun a c => 10 * a + (Z.of_nat (nat_of_ascii c) - 48)) t 0.

(** A number as people write it: digits without superfluous zeros. *)
Definition number (t : text) : Prop :=
  digits t /\ (t = ["0"%char] \/ exists c r, t = c :: r /\ c <> "0"%char).

(** A number padded with zeros to five digits, or longer. *)
Definition padded (t : text) : Prop :=
  digits t /\
  (List.length t = 5%nat \/
   (5 < List.length t)%nat /\ exists c r, t = c :: r /\ c <> "0"%char).

Inductive entry :=
| New (date time id num : text) (s : file_suffix)  (* FOURD_date_time_id_num *)
| Old (num id : text) (s : file_suffix)            (* data_scanNUM_idID_electrons *)
| OldTh (num th : text) (s : file_suffix)          (* data_scanNUM_thTH_electrons *)
| Other (name : text).

Definition ending (s : file_suffix) : text :=
  match s with
  | Standard => lit ".h5"
  | Offsets => lit "_offsets.emd"
  | Centered => lit "_centered.h5"
  end.

Definition name_of (e : entry) : text :=
  match e with
  | New d t i n s => lit "FOURD_" ++ d ++ lit "_" ++ t ++ lit "_" ++ i ++ lit "_" ++ n ++ ending s
  | Old n i s => lit "data_scan" ++ n ++ lit "_id" ++ i ++ lit "_electrons" ++ ending s
  | OldTh n h s => lit "data_scan" ++ n ++ lit "_th" ++ h ++ lit "_electrons" ++ ending s
  | Other name => name
  end.

Definition wf_entry (e : entry) : Prop :=
  match e with
  | New d t i n _ => digits d /\ digits t /\ padded i /\ padded n
  | Old n i _ => number n /\ number i
  | OldTh n h _ => number n /\ number h
  | Other name =>
      (forall r, name <> lit "FOURD_" ++ r) /\ (forall r, name <> lit "data_scan" ++ r) /\
      (forall a b, name <> a ++ lit "_id" ++ b)
  end.

Definition wf_dir (d : list entry) : Prop := Forall wf_entry d.

(** The documented NNNNN: scan numbers have five digits. *)
Definition five (e : entry) : Prop :=
  match e with New _ _ _ n _ => List.length n = 5%nat | _ => True end.

Definition num_of (e : entry) : option Z :=
  match e with
  | New _ _ _ n _ => Some (value n) | Old n _ _ => Some (value n) | OldTh n _ _ => Some (value n)
  | Other _ => None
  end.

Definition id_of (e : entry) : option Z :=
  match e with
  | New _ _ i _ _ => Some (value i) | Old _ i _ => Some (value i) | _ => None
  end.

Definition same_kind (a b : file_suffix) : bool :=
  match a, b with
  | Standard, Standard | Offsets, Offsets | Centered, Centered => true
  | _, _ => false
  end.

(** The files wanted: of the new names, with this id or number and kind; of the old
    ones, with this number and threshold. *)
Definition new_with_id (i : Z) (s : file_suffix) (e : entry) : bool :=
  match e with New _ _ t _ s' => (value t =? i) && same_kind s' s | _ => false end.

Definition new_with_num (n : Z) (s : file_suffix) (e : entry) : bool :=
  match e with New _ _ _ t s' => (value t =? n) && same_kind s' s | _ => false end.

Definition old_with_id (i : Z) (s : file_suffix) (e : entry) : bool :=
  match e with Old _ t s' => (value t =? i) && same_kind s' s | _ => false end.

Definition old_with_num (n : Z) (s : file_suffix) (e : entry) : bool :=
  match e with
  | Old t _ s' => (value t =? n) && same_kind s' s
  | OldTh t _ s' => (value t =? n) && same_kind s' s
  | _ => false
  end.

Definition old_with_th (n h : Z) (s : file_suffix) (e : entry) : bool :=
  match e with
  | OldTh t u s' => (value t =? n) && (value u =? h) && same_kind s' s
  | _ => false
  end.

(** What is found instead in the old names: the written number begins with the
    one asked for; asking by id for a standard file also takes centered ones. *)
Definition begins (w t : text) : bool := text_eqb w (firstn (List.length w) t).

Definition old_seen_by_id (w : text) (s : file_suffix) (e : entry) : bool :=
  match e with
  | Old _ t s' => begins w t &&
      (same_kind s' s || match s, s' with Standard, Centered => true | _, _ => false end)
  | _ => false
  end.

Definition old_seen_by_num (w : text) (s : file_suffix) (e : entry) : bool :=
  match e with
  | Old t _ s' => begins w t && same_kind s' s
  | OldTh t _ s' => begins w t && same_kind s' s
  | _ => false
  end.

(** The answer, given which entries are taken: the one file with the number and id
    its name says; an error when there is none or more than one. *)
Definition answer (taken : list entry) : outcome found :=
  match taken with
  | [] => Throw not_found
  | [e] => Ok (name_of e, num_of e, id_of e)
  | _ => Throw multiple
  end.
