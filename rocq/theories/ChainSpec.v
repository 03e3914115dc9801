(** The commits that can be reached from a head, by what is stored. *)
From Coq Require Import String List NArith ZArith.
From Verif Require Import Base Ipld TidModel StorageModel RepoSpec.
Import ListNotations.

(** [v] is a commit of the repo [did], signed with [key], whose rev encodes a sequence number. *)
Definition commit_val (ecdsa : N -> Z -> list N -> list N) (did : str) (key : N) (prev : option cid) (rev : str) (v : ipld) : Prop :=
  exists root seq, int_to_tid seq 0 = Ok rev /\
    v = norm (IMap (unsigned_commit did rev prev root ++
                    [(s "sig", IBytes (ecdsa key seq (dag_cbor_encode (IMap (unsigned_commit did rev prev root)))))])).

(** The commit with the CID [c] and the rev [rev] is stored, and so are those before it, down to a first one.
    Each is for [did] and signed with [key], and the revs rise. *)
Inductive signed_chain (ecdsa : N -> Z -> list N -> list N) (st : state) (did : str) (key : N) : cid -> str -> Prop :=
| sc_first c rev b : read st c = Some b -> commit_val ecdsa did key None rev (b_val b) -> signed_chain ecdsa st did key c rev
| sc_next c rev b p rev' : read st c = Some b -> commit_val ecdsa did key (Some p) rev (b_val b) ->
    signed_chain ecdsa st did key p rev' -> slt rev' rev -> signed_chain ecdsa st did key c rev.
