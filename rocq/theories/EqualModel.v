(** Comparing and counting trees (arroba/mst.py). *)
From Coq Require Import String List NArith ZArith Bool Lia.
From Verif Require Import Base Lists Ipld MstModel.
Import ListNotations.

Section Equal.
Variable digest : list N -> list N.
Variable kdigest : str -> list N.
Variable rd : cid -> option ipld.

(** [MST.__eq__] (mst.py:137-139) for two trees. For anything else Python's method
    returns None; that case is left out. *)
Definition mst_equal (m m' : mst) : res bool :=
  do p <- get_pointer digest m; do p' <- get_pointer digest m'; Ok (str_eqb p p').

(** [MST.all_nodes] (mst.py:772-778): every node and leaf that [walk] yields. *)
Definition all_nodes (fuel : nat) (m : mst) : res (list entry) := walk kdigest rd fuel m.

(** [MST.leaf_count] (mst.py:788-794). *)
Definition leaf_count (fuel : nat) (m : mst) : res nat :=
  do l <- mst_leaves kdigest rd fuel m; Ok (length l).

End Equal.

(** The trees, not leaves, among what [all_nodes] returns. *)
Fixpoint only_nodes (es : list entry) : list mst :=
  match es with
  | [] => []
  | Leaf _ _ :: r => only_nodes r
  | Sub m :: r => m :: only_nodes r
  end.
