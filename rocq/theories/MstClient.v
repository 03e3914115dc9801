(** A caller that holds one MST object and one block store and runs a history of
    API calls, as the tests and Repo do. *)
From Coq Require Import String List NArith ZArith Bool.
From Verif Require Import Base Ipld MstModel.
Import ListNotations.

(** [dict.setdefault], as in MemoryStorage.write and write_blocks
    (storage.py:734-743). *)
Definition dsetdefault {V} (d : list (str * V)) (kv : str * V) : list (str * V) :=
  match dget (fst kv) d with Some _ => d | None => d ++ [kv] end.

(** Calls of a history. [OPersist] writes the blocks of get_unstored_blocks;
    [OReload] does that and then loads the tree by its root CID, as Repo.load does
    (repo.py:178-195). *)
Inductive mop :=
| OAdd (k : str) (v : cid)
| OUpdate (k : str) (v : cid)
| ODelete (k : str)
| OGet (k : str)
| OPersist
| OReload.

Inductive mout := Done | Got (v : option cid).

Record client := Client { cl_store : list (cid * ipld); cl_tree : mst }.

Section Client.
Variable digest : list N -> list N.
Variable kdigest : str -> list N.

(** An expression statement [tree = tree.op(...)]: on an exception the variable
    keeps its value. *)
Definition assign (c : client) (r : res mst) : client * res mout :=
  match r with
  | Ok m => (Client (cl_store c) m, Ok Done)
  | Err e => (c, Err e)
  end.

(** [root, blocks = tree.get_unstored_blocks(); storage.write_blocks(blocks)]
    (storage.py:592-600 and 741-743). *)
Definition persist (c : client) : res (cid * client) :=
  do rb <- get_unstored_blocks digest kdigest (fun k : str => dget k (cl_store c)) max_depth (cl_tree c);
  Ok (fst rb, Client (fold_left dsetdefault (snd rb) (cl_store c)) (cl_tree c)).

Definition cstep (c : client) (o : mop) : client * res mout :=
  let rd := fun k : str => dget k (cl_store c) in
  match o with
  | OAdd k v => assign c (add digest kdigest rd max_depth (cl_tree c) k v None)
  | OUpdate k v => assign c (update kdigest rd max_depth (cl_tree c) k v)
  | ODelete k => assign c (delete kdigest rd max_depth (cl_tree c) k)
  | OGet k => (c, do v <- get kdigest rd max_depth (cl_tree c) k; Ok (Got v))
  | OPersist => match persist c with
                | Ok (_, c') => (c', Ok Done)
                | Err e => (c, Err e)
                end
  | OReload => match persist c with
               | Ok (root, c') => (Client (cl_store c') (mst_load root), Ok Done)
               | Err e => (c, Err e)
               end
  end.

Fixpoint crun (c : client) (ops : list mop) : client * list (res mout) :=
  match ops with
  | [] => (c, [])
  | o :: r => let '(c1, out) := cstep c o in let '(c2, outs) := crun c1 r in (c2, out :: outs)
  end.

(** [MST.create(storage=storage)] on an empty storage (mst.py:120-135). *)
Definition cinit : client :=
  Client [] (match mst_create digest [] None with Ok m => m | Err _ => Mst None None None false end).

End Client.
