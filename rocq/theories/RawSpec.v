(** A datastore that is asked for blocks. *)
From Coq Require Import String List NArith ZArith Bool.
From Verif Require Import Base Ipld StorageModel EventsModel RawModel.
Import ListNotations.

(** Blocks are added, but not changed. *)
Definition later (st st' : state) : Prop := forall c b, read st c = Some b -> read st' c = Some b.

(** The datastore is asked after [st] and before [st'], while others may write. It finds only blocks that
    are there and that it was asked for, and defers only what it was asked for; what is there from the start it finds or
    defers. *)
Record honest (name_of : cid -> str) (st st' : state) (ds : nat -> list str -> response) : Prop := {
  a_found : forall n keys name x, In (name, x) (fst (ds n keys)) ->
    In name keys /\ exists c b, name = name_of c /\ read st' c = Some b /\ x = (encode (b_val b), b_seq b);
  a_deferred : forall n keys name, In name (snd (ds n keys)) -> In name keys;
  a_all : forall n keys c b, In (name_of c) keys -> read st c = Some b ->
    In (name_of c) (map fst (fst (ds n keys))) \/ In (name_of c) (snd (ds n keys)) }.

(** It never defers everything. *)
Definition advances (ds : nat -> list str -> response) : Prop := forall n keys, keys <> [] -> length (snd (ds n keys)) < length keys.
