(** Reading a repo gives the same before and after. *)
From Coq Require Import String List NArith ZArith.
From Verif Require Import Base Ipld StorageModel RepoSpec.

(** The object [o'] in the state [b] is what [o] was in [a], but for the callback, and every read
    that succeeded gives the same. *)
Definition reads_same (kdigest : str -> list N) (a b : state) (o o' : repo) : Prop :=
  same_repo o o' /\
  (forall coll rkey v, get_record kdigest a o coll rkey = Ok v -> get_record kdigest b o' coll rkey = Ok v) /\
  (forall v, get_contents kdigest a o = Ok v -> get_contents kdigest b o' = Ok v).
