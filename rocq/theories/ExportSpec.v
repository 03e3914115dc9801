(** What the CARs of repos are supposed to contain. *)
From Coq Require Import String List NArith ZArith Bool.
From Verif Require Import Base Lists Ipld MstModel StorageModel StorageSpec MessageSpec.
Import ListNotations.

(** The node [c] belongs to the tree with the given root: the blocks from the root to it say so. *)
Inductive node_of (rd : cid -> option ipld) (root : cid) : cid -> Prop :=
| node_root : node_of rd root root
| node_child p v d c : node_of rd root p -> rd p = Some v -> ipld_ndata v = Ok d ->
    (nd_l d = Some c \/ exists e, In e (nd_e d) /\ ed_t e = Some c) -> node_of rd root c.

Section Spec.
Variable digest : list N -> list N.
Variable kdigest : str -> list N.
Variable st : state.

(** The blocks of a repo: its head commit, the nodes of its tree, its records. *)
Definition block_of (h : block) (root : cid) (recs : records) (c : cid) : Prop :=
  c = b_cid h \/ node_of (rd st) root c \/ exists path v, dget path recs = Some v /\ c = rcid digest v.

(** Stored blocks under their right CIDs. *)
Definition genuine (bl : list (cid * list N)) : Prop :=
  forall c data, In (c, data) bl -> exists b, read st c = Some b /\ data = encode (b_val b) /\ c = cid_of digest (b_val b).

(** With this reader one has the repo: its commit, at every path the CID of the record there or that
    there is none, and the records. *)
Definition readable (rd : cid -> option ipld) (h : block) (root : cid) (recs : records) : Prop :=
  rd (b_cid h) = Some (b_val h) /\
  (forall path, get kdigest rd max_depth (mst_load root) path = Ok (option_map (rcid digest) (dget path recs))) /\
  (forall path v, dget path recs = Some v -> rd (rcid digest v) = Some (norm v)).

(** Someone with the blocks of a CAR and what they had before. *)
Definition with_car (bl : list (cid * list N)) (have : cid -> option ipld) : cid -> option ipld :=
  fun c => match car_reader bl c with Some v => Some v | None => have c end.
End Spec.
