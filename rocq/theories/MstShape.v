(** What the tree of a mapping must look like. *)
From Coq Require Import List NArith.
From Verif Require Import Base Ipld MstTree MstSpec.
Import ListNotations.

(** No two subtrees next to each other. *)
Definition no_adjacent_subtrees (es : list tentry) : Prop :=
  forall l t1 t2 r, es <> l ++ TSub t1 :: TSub t2 :: r.

(** A node at layer [n]: the node's own keys have height [n], its subtrees are
    non-empty nodes one layer below, no two of them adjacent. *)
Inductive node_at (kdigest : str -> list N) : nat -> tree -> Prop :=
| node_at_intro n es :
    (forall k v, In (TLeaf k v) es -> height (kdigest k) = n /\ repo_key k) ->
    (forall t, In (TSub t) es -> t <> Node [] /\ exists m, n = S m /\ node_at kdigest m t) ->
    no_adjacent_subtrees es ->
    node_at kdigest n (Node es).

(** [child t' t]: a subtree directly below the node. *)
Definition child (t' t : tree) : Prop := In (TSub t') (tentries t).

(** Consecutive elements are parent and child. *)
Fixpoint descending (p : list tree) : Prop :=
  match p with
  | t :: ((t' :: _) as r) => child t' t /\ descending r
  | _ => True
  end.
