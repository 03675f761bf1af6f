(** The sector number in the name of a file: extractSector of stempy/reader.cpp.
    Texts are lists of characters (ScanPathModel.v). *)
From Coq Require Import String Ascii ZArith List Bool.
From Verif Require Import Base ScanPathModel.
Import ListNotations.
Open Scope list_scope.
Open Scope Z_scope.

(** The dot of an ECMAScript expression: any character but a line terminator.
    (libstdc++: '\n' and '\r'.) *)
Definition line_end (c : ascii) : bool :=
  let n := Z.of_nat (nat_of_ascii c) in (n =? 10) || (n =? 13).

Definition digit_char (c : ascii) : bool :=
  match digit_value c with Some _ => true | None => false end.

(** The expression ".*module(\\d+).*\\.data", reader.cpp:282, from its end to its
    beginning.  Repetitions are greedy: the matcher tries the longest one first
    and gives back one character at a time until the rest matches. *)

(** .*\.data at the beginning of the text. *)
Fixpoint match_tail (t : text) : bool :=
  match t with
  | c :: t' => if negb (line_end c) && match_tail t' then true
               else starts (lit ".data") t
  | [] => starts (lit ".data") t
  end.

(** (\d+).*\.data: the characters of the group, if there is a match. *)
Fixpoint match_digits (t : text) : option text :=
  match t with
  | c :: t' =>
      if digit_char c then
        match match_digits t' with
        | Some ds => Some (c :: ds)
        | None => if match_tail t' then Some [c] else None
        end
      else None
  | [] => None
  end.

(** module(\d+).*\.data *)
Definition match_module (t : text) : option text :=
  if starts (lit "module") t then match_digits (skipn 6 t) else None.

(** .*module(\d+).*\.data *)
Fixpoint match_name (t : text) : option text :=
  match t with
  | c :: t' =>
      match (if line_end c then None else match_name t') with
      | Some ds => Some ds
      | None => match_module t
      end
  | [] => match_module t
  end.

(** std::regex_search, reader.cpp:284: the first place where the expression
    matches. *)
Fixpoint search_name (t : text) : option text :=
  match match_name t with
  | Some ds => Some ds
  | None => match t with [] => None | _ :: t' => search_name t' end
  end.

(** std::stoi of a group of digits, reader.cpp:285: throws if the number is no
    int. *)
Definition stoi (ds : text) : outcome Z :=
  match unsigned ds with
  | None => Throw "std::invalid_argument: stoi"
  | Some n => if n <? 2 ^ 31 then Ok n else Throw "std::out_of_range: stoi"
  end.

(** extractSector, reader.cpp:280-289. *)
Definition extract_sector (name : text) : outcome Z :=
  match search_name name with
  | Some ds => stoi ds
  | None => Ok (-1)
  end.
