(** The decorators of python/stempy/pipeline/__init__.py over a heap of function
    objects and dictionaries.  Names are strings; Python values are integers, to be
    read as identities of objects. *)
From Coq Require Import String ZArith List Bool.
From Verif Require Import Base.
Import ListNotations.
Open Scope Z_scope.

Definition val := Z.

(** The description of a parameter, pipeline/__init__.py:46-51. *)
Record info := mkInfo { i_type : val; i_label : val; i_description : val; i_default : val }.

(** What pipeline() sets on a function, pipeline/__init__.py:32-36. *)
Record meta := mkMeta { m_name : val; m_description : val; m_input : val; m_output : val;
  m_aggregation : val }.

(** An (ordered) dictionary: the keys in order of insertion.  Setting a key that is
    there changes its value and not its place. *)
Definition dict (A : Type) := list (string * A).

Fixpoint dget {A} (d : dict A) (k : string) : option A :=
  match d with
  | [] => None
  | (k', a) :: t => if String.eqb k' k then Some a else dget t k
  end.

Fixpoint dset {A} (d : dict A) (k : string) (a : A) : dict A :=
  match d with
  | [] => [(k, a)]
  | (k', a') :: t => if String.eqb k' k then (k', a) :: t else (k', a') :: dset t k a
  end.

Definition dmem {A} (d : dict A) (k : string) : bool :=
  match dget d k with Some _ => true | None => false end.

(** The signature of a function written with def: parameters that can be given by
    place or by keyword, with their defaults, and perhaps **kwargs.
    (Simplification: no *args, no keyword-only parameters.) *)
Record signature := mkSig { sig_params : list (string * option val); sig_kwargs : bool }.

(** The code of a function object: a def of the user, or _wrapper of
    pipeline/__init__.py:53-57 with the variables of its closure. *)
Inductive code :=
| Def (body : Z) (sig : signature)
| Wrapper (name : string) (default : val) (func : nat).

(** A function object and the attributes the decorators use; PARAMETERS is a
    reference to a dictionary. *)
Record fobj := mkF { f_code : code; f_meta : option meta; f_params : option nat }.

Record heap := mkHeap { h_funs : list fobj; h_dicts : list (dict info) }.

Fixpoint lset {A} (l : list A) (n : nat) (a : A) : list A :=
  match l, n with
  | [], _ => []
  | _ :: t, O => a :: t
  | x :: t, S n' => x :: lset t n' a
  end.

(** def: a new function object without attributes. *)
Definition py_def (h : heap) (body : Z) (sig : signature) : heap * nat :=
  (mkHeap (h_funs h ++ [mkF (Def body sig) None None]) (h_dicts h), List.length (h_funs h)).

(** _ensure_parameters, pipeline/__init__.py:23-25; the result is the reference
    that func.PARAMETERS has afterwards. *)
Definition ensure_parameters (h : heap) (f : nat) : outcome (heap * nat) :=
  match nth_error (h_funs h) f with
  | None => UB "no such function"
  | Some o =>
      match f_params o with
      | Some d => Ok (h, d)
      | None =>
          let d := List.length (h_dicts h) in
          Ok (mkHeap (lset (h_funs h) f (mkF (f_code o) (f_meta o) (Some d)))
                     (h_dicts h ++ [[]]), d)
      end
  end.

(** The decorator that pipeline(...) returns, pipeline/__init__.py:31-38. *)
Definition pipeline (m : meta) (h : heap) (f : nat) : outcome (heap * nat) :=
  match nth_error (h_funs h) f with
  | None => UB "no such function"
  | Some o =>
      let h1 := mkHeap (lset (h_funs h) f (mkF (f_code o) (Some m) (f_params o))) (h_dicts h) in
      let* r := ensure_parameters h1 f in
      Ok (fst r, f)
  end.

(** The decorator that parameter(name, ...) returns, pipeline/__init__.py:44-58.
    functools.wraps updates the attributes of the new function by those of func:
    both refer to one dictionary. *)
Definition parameter (name : string) (i : info) (h : heap) (f : nat) : outcome (heap * nat) :=
  let* r := ensure_parameters h f in
  let '(h1, d) := r in
  match nth_error (h_dicts h1) d, nth_error (h_funs h1) f with
  | Some content, Some o =>
      let h2 := mkHeap (h_funs h1) (lset (h_dicts h1) d (dset content name i)) in
      Ok (mkHeap (h_funs h2 ++ [mkF (Wrapper name (i_default i) f) (f_meta o) (f_params o)])
                 (h_dicts h2), List.length (h_funs h2))
  | _, _ => UB "no such object"
  end.

(** Binding the arguments of a call to the parameters of a def (the rules of the
    Python language): arguments by place first, then keywords, then defaults; what
    is left goes to **kwargs. *)
Fixpoint bind_params (ps : list (string * option val)) (args : list val) (kw : dict val)
  : option (list val) :=
  match ps with
  | [] => match args with [] => Some [] | _ => None end
  | (n, d) :: ps' =>
      match args with
      | a :: args' =>
          if dmem kw n then None                       (* multiple values *)
          else option_map (cons a) (bind_params ps' args' kw)
      | [] =>
          match dget kw n with
          | Some v => option_map (cons v) (bind_params ps' [] kw)
          | None => match d with
                    | Some v => option_map (cons v) (bind_params ps' [] kw)
                    | None => None                      (* missing argument *)
                    end
          end
      end
  end.

Definition in_params (ps : list (string * option val)) (k : string) : bool :=
  existsb (fun p => String.eqb (fst p) k) ps.

Definition bind_args (s : signature) (args : list val) (kw : dict val) : outcome (list val * dict val) :=
  let rest := filter (fun p => negb (in_params (sig_params s) (fst p))) kw in
  match bind_params (sig_params s) args kw with
  | None => Throw "TypeError"
  | Some vs =>
      if sig_kwargs s then Ok (vs, rest)
      else match rest with
           | [] => Ok (vs, [])
           | _ => Throw "TypeError"                     (* unexpected keyword *)
           end
  end.

(** A call: which body runs and what it receives.  A wrapper adds its default if
    its name is not among the keywords, pipeline/__init__.py:54-57. *)
Fixpoint call (fuel : nat) (h : heap) (f : nat) (args : list val) (kw : dict val)
  : outcome (Z * (list val * dict val)) :=
  match fuel with
  | O => OutOfFuel
  | S n =>
      match nth_error (h_funs h) f with
      | None => UB "no such function"
      | Some o =>
          match f_code o with
          | Def b s => let* e := bind_args s args kw in Ok (b, e)
          | Wrapper name default func =>
              let kw' := if dmem kw name then kw else dset kw name default in
              call n h func args kw'
          end
      end
  end.

(** f.PARAMETERS and f.NAME, ... as a program sees them. *)
Definition parameters_of (h : heap) (f : nat) : option (dict info) :=
  match nth_error (h_funs h) f with
  | Some o => match f_params o with Some d => nth_error (h_dicts h) d | None => None end
  | None => None
  end.

Definition meta_of (h : heap) (f : nat) : option meta :=
  match nth_error (h_funs h) f with Some o => f_meta o | None => None end.

(** A stack of decorators above a def, from the top line to the bottom line; Python
    applies them from the bottom. *)
Inductive decorator := APipeline (m : meta) | AParameter (name : string) (i : info).

Definition apply (d : decorator) (h : heap) (f : nat) : outcome (heap * nat) :=
  match d with APipeline m => pipeline m h f | AParameter n i => parameter n i h f end.

Fixpoint decorate (ds : list decorator) (h : heap) (f : nat) : outcome (heap * nat) :=
  match ds with
  | [] => Ok (h, f)
  | d :: below => let* r := decorate below h f in apply d (fst r) (snd r)
  end.

(** A call from outside: a wrapper is younger than the function it wraps, so there
    are at most [f] wrappers between function [f] and its body. *)
Definition py_call (h : heap) (f : nat) (args : list val) (kw : dict val)
  : outcome (Z * (list val * dict val)) := call (S f) h f args kw.
