(** Commits that follow each other, by what is stored. *)
From Coq Require Import String List NArith ZArith.
From Verif Require Import Base Ipld StorageModel.
Import ListNotations.

(** Following prev from the stored commit with the CID [d] leads to the CID [c]. *)
Inductive precedes (st : state) (c : cid) : cid -> Prop :=
| pr_same : precedes st c c
| pr_next d p b : read st d = Some b -> item (s "prev") (b_val b) = Ok (ILink p) -> precedes st c p -> precedes st c d.
