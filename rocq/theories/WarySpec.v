(** A client that does not trust where its blocks come from (no code of arroba): it knows the CID of
    a commit, takes blocks from a CAR file, and drops those whose bytes do not have their CID. *)
From Coq Require Import String List NArith ZArith Bool.
From Verif Require Import Base Lists Ipld MstModel CarModel StorageModel.
Import ListNotations.
Local Open Scope N_scope.

Section Spec.
Variable digest : list N -> list N.

(** The CID of these bytes: version 1, DAG-CBOR, SHA-256, 32 bytes. *)
Definition bytes_cid (data : list N) : cid := [1; 113; 18; 32] ++ digest data.

(** A reader that only gives values under CIDs of bytes that decode to them. *)
Definition hashed (rd : cid -> option ipld) : Prop :=
  forall c v, rd c = Some v -> exists data, c = bytes_cid data /\ decode data = Some v.

Definition wary_blocks (bl : list (cid * list N)) : list (cid * block) :=
  flat_map (fun cd => if str_eqb (fst cd) (bytes_cid (snd cd))
                      then match decode (snd cd) with Some v => [(fst cd, Block (fst cd) v 0 None None)] | None => [] end
                      else []) bl.

(** The blocks as a storage, and the repo of the commit [head] in it. The roots that the file names
    do not count. *)
Definition wary_client (head : cid) (car : list N) : option (state * repo) :=
  match read_car car with
  | None => None
  | Some (_, bl) =>
      let st := State 1 (wary_blocks bl) [] [] [] [] in
      match read st head with
      | None => None
      | Some b => match item_link (s "data") (b_val b) with
                  | Ok root => Some (st, Repo (mst_load root) (Some b) None None false 0)
                  | Err _ => None
                  end
      end
  end.
End Spec.
