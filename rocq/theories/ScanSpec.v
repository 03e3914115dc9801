(** Queries while blocks are being written. *)
From Coq Require Import String List NArith ZArith Bool.
From Verif Require Import Base Lists Ipld StorageModel EventsModel EventsSpec.
Import ListNotations.

(** A query for the blocks from [cur] on that ran while the storage went from [before] to [after]: its rows are in order, each
    once, among them all blocks that were there before and none that was not there after. *)
Definition queried (before after : state) (cur : Z) (repo : option str) (rows : list block) : Prop :=
  NoDup (map b_cid rows) /\ in_order rows /\
  (forall b, (exists c, read before c = Some b) -> in_range cur repo b = true -> In b rows) /\
  (forall b, In b rows -> (exists c, read after c = Some b) /\ in_range cur repo b = true).
