(** What C52 is about: Python values and their equality. *)
From Coq Require Import List NArith ZArith Bool.
From Verif Require Import Base Lists Ipld BlockModel.
Import ListNotations.

(** A Python value: every dict has each key once. *)
Fixpoint py_value (v : ipld) : Prop :=
  match v with
  | IList l => (fix all l := match l with [] => True | x :: r => py_value x /\ all r end) l
  | IMap m =>
      NoDup (map fst m) /\
      (fix all m := match m with [] => True | (_, x) :: r => py_value x /\ all r end) m
  | _ => True
  end.

(** Python's [==] on such values, except that [True == 1] is not identified:
    dicts are equal when they have the same size and every key of one has an
    equal value in the other; order does not matter. *)
Fixpoint py_eq (v w : ipld) : Prop :=
  match v, w with
  | IList l, IList l' =>
      (fix all l l' := match l, l' with
                       | [], [] => True
                       | x :: r, y :: r' => py_eq x y /\ all r r'
                       | _, _ => False
                       end) l l'
  | IMap m, IMap m' =>
      length m = length m' /\
      (fix all m := match m with
                    | [] => True
                    | (k, x) :: r =>
                        match dget k m' with Some y => py_eq x y | None => False end /\ all r
                    end) m
  | INull, INull => True
  | IBool a, IBool b => a = b
  | IInt a, IInt b => a = b
  | IBytes a, IBytes b => a = b
  | IText a, IText b => a = b
  | ILink a, ILink b => a = b
  | _, _ => False
  end.

(** What reading a property of a block for [v] must give: the one encoding, the
    one CID, and a value equal to [v]. *)
Definition sees (digest : list N -> list N) (v : ipld) (x : seen) : Prop :=
  match x with
  | SCid c => c = dag_cbor_cid digest v
  | SEncoded e => e = dag_cbor_encode v
  | SDecoded w => py_eq v w
  end.
