(** Covering proofs: the blocks a consumer needs to check a commit (arroba/mst.py:871-949). *)
From Coq Require Import String List NArith ZArith Bool.
From Verif Require Import Base Lists Ipld MstModel StorageModel EventsModel.
Import ListNotations.

(** A dict of CIDs to blocks; [None] is a stored None, for a CID that was not found. *)
Definition blocks_dict := list (cid * option block).

(** [d.update(e)] *)
Definition dict_update {V} (d e : list (str * V)) : list (str * V) :=
  fold_left (fun d kv => dset (fst kv) (snd kv) d) e d.

(** [d.get(k)] with None among the values. *)
Definition lookup (d : blocks_dict) (c : option cid) : option block :=
  match c with
  | Some c => match dget c d with Some ob => ob | None => None end
  | None => None
  end.

Section Cover.
Variable st : state.

(** [load] without its result (mst.py:888-894). *)
Definition cover_load (d : blocks_dict) (cids : list (option cid)) : blocks_dict :=
  let to_read := flat_map (fun oc => match oc with
                                     | Some c => if is_some (dget c d) then [] else [c]
                                     | None => []
                                     end) cids in
  dict_update d (read_many st to_read).

(** The loop over the entries of a node (mst.py:903-922): [left_cid], [right_cid] and [cur_cid]
    after it. *)
Fixpoint cover_scan (path last_key : str) (lc rc cc : option cid) (es : list edata)
  : option cid * option cid * option cid :=
  match es with
  | [] => (lc, rc, cc)
  | e :: r =>
      let key := firstn (ed_p e) last_key ++ ed_k e in
      match ed_t e with
      | None => cover_scan path key lc None cc r
      | Some t =>
          if str_eqb key path then (lc, Some t, None)
          else if str_ltb path key then (lc, Some t, cc)
          else cover_scan path key (Some t) (Some t) (Some t) r
      end
  end.

(** [Data( **block.decoded )] (mst.py:902, 938, 946); a block that was not found has no attributes. *)
Definition block_data (b : option block) : res ndata :=
  match b with Some b => ipld_ndata (b_val b) | None => Err AttributeError end.

(** The loop over the layers (mst.py:901-930); also the final [left_block] and [right_block]. *)
Fixpoint cover_descend (fuel : nat) (d : blocks_dict) (path : str) (cur_block : option block)
  : res (blocks_dict * option block * option block) :=
  match fuel with
  | O => Err OutOfFuel
  | S f =>
      do data <- block_data cur_block;
      let l := nd_l data in
      let '(lc, rc, cc) := cover_scan path [] l l l (nd_e data) in
      let d' := cover_load d [lc; rc; cc] in
      match cc with
      | None => Ok (d', lookup d' lc, lookup d' rc)
      | Some _ => cover_descend f d' path (lookup d' cc)
      end
  end.

(** The right-most nodes of the left side (mst.py:935-942). *)
Fixpoint cover_left (fuel : nat) (d : blocks_dict) (left_block : option block) : res blocks_dict :=
  match fuel with
  | O => Err OutOfFuel
  | S f =>
      do data <- block_data left_block;
      let next := match rev (nd_e data) with e :: _ => ed_t e | [] => nd_l data end in
      match next with
      | None => Ok d
      | Some _ => let d' := cover_load d [next] in cover_left f d' (lookup d' next)
      end
  end.

(** The left-most nodes of the right side (mst.py:944-947). *)
Fixpoint cover_right (fuel : nat) (d : blocks_dict) (right_block : option block) : res blocks_dict :=
  match fuel with
  | O => Err OutOfFuel
  | S f =>
      do data <- block_data right_block;
      match nd_l data with
      | None => Ok d
      | Some l => let d' := cover_load d [Some l] in cover_right f d' (lookup d' (Some l))
      end
  end.

(** One operation (mst.py:897-947). *)
Definition cover_op (fuel : nat) (root : cid) (d : blocks_dict) (path : str) : res blocks_dict :=
  let d0 := cover_load d [Some root] in
  do r <- cover_descend fuel d0 path (lookup d0 (Some root));
  let '(d1, left_block, right_block) := r in
  do d2 <- match left_block with None => Ok d1 | Some _ => cover_left fuel d1 left_block end;
  match right_block with None => Ok d2 | Some _ => cover_right fuel d2 right_block end.

Fixpoint cover_ops (fuel : nat) (root : cid) (d : blocks_dict) (paths : list str) : res blocks_dict :=
  match paths with
  | [] => Ok d
  | p :: r => do d' <- cover_op fuel root d p; cover_ops fuel root d' r
  end.

(** [add_covering_proofs] (mst.py:871-949), for a tree whose [get_pointer] is [root]. Only the
    paths of the operations are used; a commit without list of operations is a TypeError. *)
Definition add_covering_proofs (fuel : nat) (root : cid) (ops : option (list commit_op)) (d : blocks_dict) : res blocks_dict :=
  match ops with
  | None => Err TypeError
  | Some ops => cover_ops fuel root d (map op_path ops)
  end.

End Cover.
