(** Shared definitions: byte strings, Python exceptions as values, and
    association lists. *)
From Coq Require Import Ascii String List NArith ZArith Bool.
Import ListNotations.

(** A Python [str] is the list of its UTF-8 bytes, a Python [bytes] the list of
    its bytes. Strings used as MST keys are ASCII (arroba/mst.py:1089-1105), for
    which bytes and code points coincide. *)
Definition str := list N.

(** Literal conversion, so that constants in the model stay readable. *)
Definition s (x : string) : str := map N_of_ascii (list_ascii_of_string x).
Arguments s x%string.

(** Lexicographic comparison: Python's [<] on [str] and [bytes]. *)
Fixpoint str_cmp (a b : str) : comparison :=
  match a, b with
  | [], [] => Eq
  | [], _ :: _ => Lt
  | _ :: _, [] => Gt
  | x :: a', y :: b' =>
      match N.compare x y with
      | Eq => str_cmp a' b'
      | c => c
      end
  end.

Definition str_eqb (a b : str) : bool :=
  match str_cmp a b with Eq => true | _ => false end.
Definition str_ltb (a b : str) : bool :=
  match str_cmp a b with Lt => true | _ => false end.
Definition str_leb (a b : str) : bool :=
  match str_cmp a b with Gt => false | _ => true end.

(** Strict order as a proposition. *)
Definition slt (a b : str) : Prop := str_cmp a b = Lt.

(** Python's [x.startswith(p)]. *)
Fixpoint starts_with (p x : str) : bool :=
  match p, x with
  | [], _ => true
  | _ :: _, [] => false
  | a :: p', b :: x' => N.eqb a b && starts_with p' x'
  end.

(** Python exceptions, by class. [OutOfFuel] is not a Python exception: it marks
    exhausted fuel in the model, and every theorem excludes it. *)
Inductive exn :=
| ValueError
| KeyError
| AssertionError
| RuntimeError
| AttributeError
| TypeError
| IndexError
| NotImplementedError
| InactiveRepo
| OverflowError
| InvalidSignature
| HttpError (status : N)
| XrpcError (name : str)
| OtherError (name : str)
| OutOfFuel.

Inductive res (A : Type) :=
| Ok (a : A)
| Err (e : exn).
Arguments Ok {A} a.
Arguments Err {A} e.

Definition bind {A B} (x : res A) (f : A -> res B) : res B :=
  match x with Ok a => f a | Err e => Err e end.

Declare Scope res_scope.
Delimit Scope res_scope with res.
Notation "'do' x <- m ; f" := (bind m (fun x => f))
  (at level 200, x pattern, m at level 100, f at level 200) : res_scope.
Open Scope res_scope.

(** Association lists keyed by strings: Python dicts. [dget] is [d.get(k)];
    [dset] is [d[k] = v] (in place when present, else appended); [ddel] is
    [del d[k]]. *)
Fixpoint dget {V} (k : str) (d : list (str * V)) : option V :=
  match d with
  | [] => None
  | (k', v) :: d' => if str_eqb k k' then Some v else dget k d'
  end.

Fixpoint dset {V} (k : str) (v : V) (d : list (str * V)) : list (str * V) :=
  match d with
  | [] => [(k, v)]
  | (k', v') :: d' => if str_eqb k k' then (k', v) :: d' else (k', v') :: dset k v d'
  end.

Fixpoint ddel {V} (k : str) (d : list (str * V)) : list (str * V) :=
  match d with
  | [] => []
  | (k', v') :: d' => if str_eqb k k' then d' else (k', v') :: ddel k d'
  end.
