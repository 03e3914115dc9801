(** [DatastoreStorage.read_many_raw] with the datastore it asks, and getRepo on top of it
    (arroba/datastore_storage.py:749-812, arroba/mst.py:800-847, arroba/xrpc_sync.py:45-67). *)
From Coq Require Import String List NArith ZArith Bool.
From Verif Require Import Base Ipld MstModel TidModel CarModel StorageModel UriModel ServerModel.
Import ListNotations.

(** A [LookupResponse]: the entities that were found, as name, encoded and seq, in any order, and the keys
    that were deferred. Keys are given by their names. Simplified: a lookup that fails, which makes
    [future.result()] and so the call raise, is in FaultModel.v. *)
Definition response := (list (str * (list N * Z)) * list str)%type.

(** [range(0, len(pending), 1000)] and [pending[i:i + 1000]] (datastore_storage.py:790-799). *)
Definition lookup_limit : nat := 10 * (10 * 10).
Fixpoint batches (fuel : nat) (l : list str) : list (list str) :=
  match fuel, l with
  | S f, _ :: _ => firstn lookup_limit l :: batches f (skipn lookup_limit l)
  | _, _ => []
  end.

Section Raw.
(** What the datastore answers to the n-th lookup, for these keys. *)
Variable ds : nat -> list str -> response.
(** [libipld.encode_cid], the name of a block in the datastore. [cid_text] of RowModel.v for CIDs that are bytes; those of the
    theorems need a digest without collisions, whose values do not fit into 32 bytes. *)
Variable name_of : cid -> str.
(** How often [while pending] is run at most. *)
Variable rounds : nat.

Fixpoint lookups (n : nat) (bs : list (list str)) : list response :=
  match bs with [] => [] | b :: r => ds n b :: lookups (S n) r end.

(** [result[key_to_cid[name]] = (encoded, seq)] (lines 803-808) *)
Fixpoint take_found (key_to_cid : list (str * cid)) (found : list (str * (list N * Z))) (result : list (cid * (list N * Z)))
  : res (list (cid * (list N * Z))) :=
  match found with
  | [] => Ok result
  | (name, x) :: r =>
      match dget name key_to_cid with
      | None => Err KeyError
      | Some c => take_found key_to_cid r (dset c x result)
      end
  end.

(** [while pending] (lines 788-810). The second part of the result is the number of the next lookup. *)
Fixpoint raw_rounds (k : nat) (n : nat) (key_to_cid : list (str * cid)) (pending : list str) (result : list (cid * (list N * Z)))
  : res (list (cid * (list N * Z)) * nat) :=
  match pending with
  | [] => Ok (result, n)
  | _ =>
      match k with
      | O => Err OutOfFuel
      | S k =>
          let bs := batches (length pending) pending in
          let answers := lookups n bs in
          do result <- take_found key_to_cid (flat_map fst answers) result;
          raw_rounds k (n + length bs) key_to_cid (flat_map snd answers) result
      end
  end.

(** [read_many_raw] (lines 749-812). *)
Definition ds_read_many_raw (n : nat) (cids : list cid) : res (list (cid * (list N * Z)) * nat) :=
  raw_rounds rounds n (fold_left (fun d c => dset (name_of c) c d) cids []) (map name_of cids) [].

(** [load_all] (mst.py:800-847) on it; compare [ServerModel.load_nodes] and [load_all]. *)
Fixpoint ds_load_nodes (fuel n : nat) (start : Z) (to_fetch : list cid) : res (list (cid * list N) * list cid * nat) :=
  match to_fetch with
  | [] => Ok ([], [], n)
  | _ =>
      match fuel with
      | O => Err OutOfFuel
      | S f =>
          do bn <- ds_read_many_raw n to_fetch;
          do x <- load_layer start (fst bn);
          let '(out, leaves, next) := x in
          do y <- ds_load_nodes f (snd bn) start next;
          let '(out', leaves', n') := y in
          Ok (out ++ out', leaves ++ leaves', n')
      end
  end.

Variable digest : list N -> list N.

Definition ds_load_all (m : mst) (start : Z) : res (list (cid * list N)) :=
  do root <- get_pointer digest m;
  do x <- ds_load_nodes max_depth 0 start [root];
  let '(out, leaves, n) := x in
  do bn <- ds_read_many_raw n leaves;
  Ok (out ++ map (fun kv => (fst kv, fst (snd kv))) (fst bn)).

Local Open Scope m_scope.
Variable netloc_ok : str -> bool.

(** [get_repo] (xrpc_sync.py:45-67); compare [ServerModel.get_repo]. *)
Definition ds_get_repo (disabled : bool) (did : str) (since : option str) : M (list N) :=
  let! r := server_load Datastore netloc_ok did in
  (if disabled then throw NotImplementedError else ret tt);;
  let! start := (match since with Some ((_ :: _) as t) => lift (tid_to_int t) | _ => ret 0%Z end) in
  let! o := obj r in
  let! h := head_of o in
  let! blocks := lift (ds_load_all (r_mst o) start) in
  ret (write_car [b_cid h] ((b_cid h, encode (b_val h)) :: blocks)).
End Raw.
