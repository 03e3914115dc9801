(** Specification level Merkle search trees: plain trees without caches or lazy
    loading, their well-formedness, and the canonical tree of a sorted list. *)
From Coq Require Import List NArith ZArith Bool.
From Verif Require Import Base Lists Ipld MstModel.
Import ListNotations.

Inductive tree := Node (es : list tentry)
with tentry := TLeaf (k : str) (v : cid) | TSub (t : tree).

Definition tentries (t : tree) : list tentry := match t with Node es => es end.

(** In-order contents. *)
Fixpoint leaves (t : tree) : list (str * cid) :=
  match t with
  | Node es => flat_map (fun e => match e with TLeaf k v => [(k, v)] | TSub t' => leaves t' end) es
  end.

Definition eleaves (e : tentry) : list (str * cid) :=
  match e with TLeaf k v => [(k, v)] | TSub t => leaves t end.

(** Contents of a list of entries. *)
Definition L (es : list tentry) : list (str * cid) := flat_map eleaves es.

(** No two adjacent subtrees. *)
Fixpoint noadj (es : list tentry) : Prop :=
  match es with
  | [] => True
  | TSub _ :: ((TSub _ :: _) as r) => False
  | _ :: r => noadj r
  end.

Section Tree.
Variable digest : list N -> list N.
Variable kdigest : str -> list N.

Definition zeros (k : str) : nat := zeros_of_digest (kdigest k).

(** A node at layer [n]: its own keys have exactly [n] leading zero bit pairs, its
    subtrees are non-empty nodes at layer [n - 1], no two of them adjacent. *)
Fixpoint wf (n : nat) (t : tree) : Prop :=
  match t with
  | Node es =>
      noadj es /\
      Forall (fun e => match e with
                       | TLeaf k _ => zeros k = n /\ valid_key k = true
                       | TSub t' => match n with
                                    | O => False
                                    | S n' => wf n' t' /\ t' <> Node []
                                    end
                       end) es
  end.

Definition wfE (n : nat) (e : tentry) : Prop :=
  match e with
  | TLeaf k _ => zeros k = n /\ valid_key k = true
  | TSub t' => match n with O => False | S n' => wf n' t' /\ t' <> Node [] end
  end.

(** Keys ascending across the whole tree. *)
Definition sorted_tree (t : tree) : Prop := ssorted (keys (leaves t)).

(** CID of a node, from the CIDs of its subtrees. *)
Definition ser (es : list pentry) : ndata :=
  match serialize_node_data es with Ok d => d | Err _ => Ndata None [] end.

Fixpoint tcid (t : tree) : cid :=
  match t with
  | Node es =>
      cid_of digest (ndata_ipld (ser (map (fun e => match e with
                                        | TLeaf k v => PLeaf k v
                                        | TSub t' => PSub (tcid t')
                                        end) es)))
  end.

Definition pent (e : tentry) : pentry :=
  match e with TLeaf k v => PLeaf k v | TSub t' => PSub (tcid t') end.

(** The block of a node. *)
Definition tnode (t : tree) : ipld := ndata_ipld (ser (map pent (tentries t))).

(** ** The canonical tree of a list of entries *)

(** [group n run kvs]: entries of the node at layer [n] for [kvs], where [run] are
    the pending entries of lower layers; [sub] builds a subtree from such a run. *)
Fixpoint group (sub : list (str * cid) -> tree) (n : nat) (run kvs : list (str * cid)) : list tentry :=
  match kvs with
  | [] => match run with [] => [] | _ => [TSub (sub run)] end
  | (k, v) :: r =>
      if Nat.eqb (zeros k) n
      then match run with [] => [] | _ => [TSub (sub run)] end ++ TLeaf k v :: group sub n [] r
      else group sub n (run ++ [(k, v)]) r
  end.

Fixpoint build (n : nat) (kvs : list (str * cid)) : tree :=
  match n with
  | O => Node (group (fun _ => Node []) 0 [] kvs)
  | S n' => Node (group (build n') (S n') [] kvs)
  end.

Definition max_zeros (kvs : list (str * cid)) : nat :=
  fold_right (fun kv m => Nat.max (zeros (fst kv)) m) 0 kvs.

(** The canonical tree of a mapping: the root's layer is the largest key layer. *)
Definition canonical (kvs : list (str * cid)) : tree := build (max_zeros kvs) kvs.

(** ** The search path of a key *)

(** The nodes visited when looking [key] up: at each node the search stops at a leaf
    with that key, otherwise continues in the subtree, if any, between the last
    smaller and the first larger leaf. *)
Fixpoint spath (key : str) (t : tree) : list tree :=
  match t with
  | Node es =>
      t :: (fix go (es : list tentry) (cand : list tree) : list tree :=
              match es with
              | [] => cand
              | TLeaf k _ :: r =>
                  if str_eqb key k then [] else if str_ltb key k then cand else go r []
              | TSub t' :: r => go r (spath key t')
              end) es []
  end.

Fixpoint spath_go (key : str) (es : list tentry) (cand : list tree) : list tree :=
  match es with
  | [] => cand
  | TLeaf k _ :: r => if str_eqb key k then [] else if str_ltb key k then cand else spath_go key r []
  | TSub t' :: r => spath_go key r (spath key t')
  end.

(** The plain tree an MST object stands for, read through its entries. *)
Fixpoint expand (rd : cid -> option ipld) (fuel : nat) (m : mst) : res tree :=
  match fuel with
  | O => Err OutOfFuel
  | S f =>
      do es <- get_entries kdigest rd m;
      do tes <-
        (fix go (es : list entry) : res (list tentry) :=
           match es with
           | [] => Ok []
           | Leaf k v :: r => do r' <- go r; Ok (TLeaf k v :: r')
           | Sub m' :: r => do t <- expand rd f m'; do r' <- go r; Ok (TSub t :: r')
           end) es;
      Ok (Node tes)
  end.

End Tree.
