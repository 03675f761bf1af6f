(** Finding the file of a scan by its number or id
    (python/stempy/contrib/__init__.py).  Texts are lists of characters. *)
From Coq Require Import String Ascii ZArith List Bool.
From Verif Require Import Base.
Import ListNotations.
Open Scope list_scope.
Open Scope Z_scope.

Definition text := list ascii.

(** A literal of the source. *)
Definition lit (s : string) : text := list_ascii_of_string s.

Definition text_eqb (a b : text) : bool := if list_eq_dec ascii_dec a b then true else false.

(** str(n) of Python for an integer: the decimal digits, a minus sign in front of
    a negative one. *)
Definition digit (d : Z) : ascii := ascii_of_nat (48 + Z.to_nat d).

Fixpoint digits_of (fuel : nat) (n : Z) (acc : text) : text :=
  match fuel with
  | O => acc
  | S f => let acc' := digit (n mod 10) :: acc in
           if n <? 10 then acc' else digits_of f (n / 10) acc'
  end.

Definition py_str (n : Z) : text :=
  if n <? 0 then "-"%char :: digits_of (S (Z.to_nat (Z.log2 (- n)))) (- n) []
  else digits_of (S (Z.to_nat (Z.log2 n))) n [].

(** str.zfill(width) of Python: zeros after a sign, in front of the rest. *)
Definition zfill (w : nat) (t : text) : text :=
  let z := repeat "0"%char (w - List.length t) in
  match t with
  | c :: r => if Ascii.eqb c "-" || Ascii.eqb c "+" then c :: z ++ r else z ++ t
  | [] => z
  end.

(** int(text) of Python.  Simplifications: ASCII digits only; no underscore
    between digits (the texts come from a split at underscores). *)
Definition is_space (c : ascii) : bool :=
  let n := Z.of_nat (nat_of_ascii c) in
  (n =? 32) || ((9 <=? n) && (n <=? 13)) || ((28 <=? n) && (n <=? 31)).

Definition digit_value (c : ascii) : option Z :=
  let n := Z.of_nat (nat_of_ascii c) in
  if (48 <=? n) && (n <=? 57) then Some (n - 48) else None.

Fixpoint strip_left (t : text) : text :=
  match t with
  | c :: r => if is_space c then strip_left r else t
  | [] => []
  end.

Definition strip (t : text) : text := rev (strip_left (rev (strip_left t))).

Fixpoint read_digits (acc : Z) (t : text) : option Z :=
  match t with
  | [] => Some acc
  | c :: r => match digit_value c with
              | Some d => read_digits (10 * acc + d) r
              | None => None
              end
  end.

Definition unsigned (t : text) : option Z :=
  match t with [] => None | _ => read_digits 0 t end.

Definition py_int (t : text) : outcome Z :=
  let r := match strip t with
           | [] => None
           | c :: u => if Ascii.eqb c "-" then option_map Z.opp (unsigned u)
                       else if Ascii.eqb c "+" then unsigned u
                       else unsigned (c :: u)
           end in
  match r with Some n => Ok n | None => Throw "ValueError: invalid literal for int()" end.

(** name.split("_"). *)
Fixpoint split_us (t : text) : list text :=
  match t with
  | [] => [[]]
  | c :: r => if Ascii.eqb c "_" then [] :: split_us r
              else match split_us r with
                   | p :: ps => (c :: p) :: ps
                   | [] => [[c]]
                   end
  end.

Fixpoint starts (p t : text) : bool :=
  match p, t with
  | [], _ => true
  | c :: p', d :: t' => Ascii.eqb c d && starts p' t'
  | _ :: _, [] => false
  end.

(** p in t. *)
Fixpoint occurs (p t : text) : bool :=
  starts p t || match t with [] => false | _ :: t' => occurs p t' end.

(** PurePath.stem: the name without the part from its last dot on, unless that is
    the first or the last character. *)
Fixpoint rfind_dot (t : text) : option nat :=
  match t with
  | [] => None
  | c :: r => match rfind_dot r with
              | Some i => Some (S i)
              | None => if Ascii.eqb c "." then Some O else None
              end
  end.

Definition stem (t : text) : text :=
  match rfind_dot t with
  | Some i => if (0 <? i)%nat && (i <? List.length t - 1)%nat then firstn i t else t
  | None => t
  end.

(** Path.glob with a pattern of one component: the entries of the directory whose
    name matches; a star is any text, a question mark any character, anything else
    itself.  Simplification: no sets in brackets (the patterns here contain none).
    The order of the entries is that of the directory. *)
Fixpoint glob_match (p : text) : text -> bool :=
  match p with
  | [] => fun t => match t with [] => true | _ => false end
  | c :: p' =>
      if Ascii.eqb c "*" then
        fix star (t : text) : bool :=
          glob_match p' t || match t with [] => false | _ :: t' => star t' end
      else fun t =>
        match t with
        | [] => false
        | d :: t' => (Ascii.eqb c "?" || Ascii.eqb c d) && glob_match p' t'
        end
  end.

Definition glob (dir : list text) (p : text) : list text := filter (glob_match p) dir.

(** contrib/__init__.py:6-16. *)
Inductive file_suffix := Standard | Offsets | Centered.

Definition suffix_value (s : file_suffix) : text :=
  match s with
  | Standard => []
  | Offsets => lit "_offsets"
  | Centered => lit "_centered"
  end.

Definition filetype (s : file_suffix) : text :=
  match s with
  | Standard => lit "h5"
  | Offsets => lit "emd"
  | Centered => lit "h5"
  end.

Definition multiple : string :=
  "ValueError: Multiple files match that input. Add scan_id to be more specific."%string.
Definition not_found : string := "FileNotFoundError"%string.
Definition no_input : string := "TypeError: Either scan_num or scan_id must be provided."%string.
Definition no_version : string := "NotImplementedError: Version 0 and 1 are implemented."%string.

(** contrib/__init__.py:19-25, and the use of the first path afterwards. *)
Definition only_one (paths : list text) : outcome text :=
  match paths with
  | [] => Throw not_found
  | [p] => Ok p
  | _ => Throw multiple
  end.

(** The path, the scan number and the scan id. *)
Definition found := (text * option Z * option Z)%type.

(** contrib/__init__.py:79-84: the loop over the parts of the name. *)
Fixpoint read_parts (parts : list text) (num id : option Z) : outcome (option Z * option Z) :=
  match parts with
  | [] => Ok (num, id)
  | p :: ps =>
      if occurs (lit "id") p then
        let* i := py_int (skipn 2 p) in read_parts ps num (Some i)
      else if occurs (lit "scan") p then
        let* n := py_int (skipn 4 p) in read_parts ps (Some n) id
      else read_parts ps num id
  end.

(** contrib/__init__.py:62-72. *)
Definition pattern_0 (num id th : option Z) (s : file_suffix) : text :=
  let tail := suffix_value s ++ lit "." ++ filetype s in
  match id, num with
  | Some i, _ => lit "*_id" ++ py_str i ++ lit "*" ++ tail
  | None, Some n =>
      match th with
      | Some h => lit "data_scan" ++ py_str n ++ lit "_th" ++ py_str h ++ lit "_electrons" ++ tail
      | None => lit "data_scan" ++ py_str n ++ lit "*electrons" ++ tail
      end
  | None, None => []
  end.

(** get_scan_path_version_0, contrib/__init__.py:28-86. *)
Definition get_scan_path_version_0 (dir : list text) (num id th : option Z) (s : file_suffix)
  : outcome found :=
  match num, id with
  | None, None => Throw no_input
  | _, _ =>
      let* p := only_one (glob dir (pattern_0 num id th s)) in
      let* (n, i) := read_parts (split_us p) num id in
      Ok (p, n, i)
  end.

(** contrib/__init__.py:122-134. *)
Definition pattern_1 (num id : option Z) (s : file_suffix) : text :=
  match id, num with
  | Some i, _ =>
      match s with
      | Standard => lit "FOURD_*_" ++ zfill 5 (py_str i) ++ lit "_?????." ++ filetype s
      | _ => lit "FOURD_*_" ++ zfill 5 (py_str i) ++ lit "_?????" ++ suffix_value s ++ lit "."
             ++ filetype s
      end
  | None, Some n =>
      lit "FOURD_*_*_" ++ zfill 5 (py_str n) ++ suffix_value s ++ lit "." ++ filetype s
  | None, None => []
  end.

Definition part (parts : list text) (k : nat) : outcome text :=
  match nth_error parts k with
  | Some p => Ok p
  | None => Throw "IndexError: list index out of range"
  end.

(** get_scan_path_version_1, contrib/__init__.py:89-143. *)
Definition get_scan_path_version_1 (dir : list text) (num id : option Z) (s : file_suffix)
  : outcome found :=
  match num, id with
  | None, None => Throw no_input
  | _, _ =>
      let* p := only_one (glob dir (pattern_1 num id s)) in
      let* t3 := part (split_us (stem p)) 3 in
      let* i := py_int t3 in
      let* t4 := part (split_us (stem p)) 4 in
      let* n := py_int t4 in
      Ok (p, Some n, Some i)
  end.

(** get_scan_path, contrib/__init__.py:146-207: the loop over the versions; only a
    FileNotFoundError goes on to the next one. *)
Definition path_of_version (dir : list text) (num id th : option Z) (s : file_suffix) (v : Z)
  : outcome found :=
  if v =? 0 then get_scan_path_version_0 dir num id th s
  else if v =? 1 then get_scan_path_version_1 dir num id s
  else Throw no_version.

Fixpoint try_versions (vs : list Z) (f : Z -> outcome found) : outcome found :=
  match vs with
  | [] => Throw not_found
  | v :: vs' => match f v with
                | Throw m => if String.eqb m not_found then try_versions vs' f else Throw m
                | r => r
                end
  end.

Definition get_scan_path (dir : list text) (num id th : option Z) (s : file_suffix)
    (version : option Z) : outcome found :=
  try_versions (match version with None => [1; 0] | Some v => [v] end)
    (path_of_version dir num id th s).
