(** What a covering proof is supposed to contain. *)
From Coq Require Import List NArith ZArith.
From Verif Require Import Base Lists Ipld MstModel MstTree MstTrav StorageModel CoverModel DiffSpec.
Import ListNotations.

(** The reader of a consumer who only has these blocks. *)
Definition consumer (d : blocks_dict) : cid -> option ipld :=
  fun c => match dget c d with Some (Some b) => Some (b_val b) | _ => None end.

(** The dict has no other blocks than the storage. *)
Definition from_storage (st : state) (d : blocks_dict) : Prop := forall c ob, dget c d = Some ob -> ob = read st c.

(** [out] has what [blocks] has, otherwise only stored nodes of the tree [t], and among them those on
    the search path of every given path. *)
Definition covers (digest : list N -> list N) (st : state) (t : tree) (paths : list str) (blocks out : blocks_dict) : Prop :=
  (forall c ob, dget c blocks = Some ob -> dget c out = Some ob) /\
  (forall c ob, dget c blocks = None -> dget c out = Some ob -> node_cid digest t c /\ exists b, ob = Some b /\ read st c = Some b) /\
  (forall path x, In path paths -> In x (spath path t) ->
     exists b, dget (tcid digest x) out = Some (Some b) /\ read st (tcid digest x) = Some b /\ b_val b = tnode digest x).
