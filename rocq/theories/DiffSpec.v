(** What a diff of two dictionaries is. *)
From Coq Require Import String List NArith ZArith Bool.
From Verif Require Import Base Lists Ipld MstModel MstTree MstTrav DiffModel.
Import ListNotations.

(** The diff lists exactly the key changes from [a] to [b]. *)
Definition exact_diff (a b : list (str * cid)) (d : diff) : Prop := forall k,
  dget k (df_adds d) = match dget k a, dget k b with None, Some c => Some (Change k c None) | _, _ => None end /\
  dget k (df_deletes d) = match dget k a, dget k b with Some c, None => Some (Change k c None) | _, _ => None end /\
  dget k (df_updates d) = match dget k a, dget k b with
                          | Some x, Some y => if str_eqb x y then None else Some (Change k y (Some x))
                          | _, _ => None
                          end.

(** The value of a key after applying the diff to [a]. *)
Definition patched (d : diff) (a : list (str * cid)) (k : str) : option cid :=
  match dget k (df_deletes d) with
  | Some _ => None
  | None => match dget k (df_updates d) with
            | Some u => Some (ch_cid u)
            | None => match dget k (df_adds d) with
                      | Some x => Some (ch_cid x)
                      | None => dget k a
                      end
            end
  end.

(** Dicts have no key twice. *)
Definition dicts (d : diff) : Prop :=
  NoDup (keys (df_adds d)) /\ NoDup (keys (df_updates d)) /\ NoDup (keys (df_deletes d)).

(** The CID of the root or of a node below it. *)
Definition node_cid (digest : list N -> list N) (t : tree) (c : cid) : Prop := exists x, subtree x t /\ c = tcid digest x.

(** A reader that finds at least the blocks of a store. *)
Definition finds (rd : cid -> option ipld) (store : list (str * ipld)) : Prop :=
  forall k v, dget k store = Some v -> rd k = Some v.
