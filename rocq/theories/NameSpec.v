(** The sector number in the name of a file, independently of how the code looks
    for it. *)
From Coq Require Import String Ascii ZArith List.
From Verif Require Import Base ScanPathModel ScanPathSpec.
Import ListNotations.
Open Scope list_scope.
Open Scope Z_scope.

(** Names without a line feed or carriage return. *)
Definition single_line (t : text) : Prop :=
  forall c, In c t -> c <> "010"%char /\ c <> "013"%char.

(** "module", a number, and somewhere behind it ".data"
    (digits and their value: ScanPathSpec.v).  The number is not
    followed by another digit. *)
Definition numbered (name pre ds post : text) : Prop :=
  name = pre ++ lit "module" ++ ds ++ post /\
  ds <> [] /\ digits ds /\
  (forall c r, post = c :: r -> ~ is_digit c) /\
  exists mid rest, post = mid ++ lit ".data" ++ rest.

(** The last number of that kind in the name. *)
Definition last_number (name : text) (n : Z) : Prop :=
  exists pre ds post, numbered name pre ds post /\ value ds = n /\
    forall pre' ds' post', numbered name pre' ds' post' ->
      (List.length pre' <= List.length pre)%nat.

Definition no_number (name : text) : Prop :=
  forall pre ds post, ~ numbered name pre ds post.

(** The word does not occur in the text. *)
Definition without (word t : text) : Prop := forall a b, t <> a ++ word ++ b.
