(** [DatastoreStorage.read_many_raw] and getRepo with lookups that may fail, for example because they take longer than
    their timeout (arroba/datastore_storage.py:749-812, arroba/mst.py:800-847, arroba/xrpc_sync.py:45-67); RawModel.v is
    without failures. *)
From Coq Require Import String List NArith ZArith Bool.
From Verif Require Import Base Ipld MstModel TidModel CarModel StorageModel UriModel ServerModel RawModel.
Import ListNotations.

Section Fault.
(** What the n-th lookup raises, if it does, and what it answers otherwise. *)
Variable fails : nat -> list str -> option exn.
Variable ds : nat -> list str -> response.
Variable name_of : cid -> str.
Variable rounds : nat.

(** All lookups of a round are sent first (datastore_storage.py:789-800). *)
Fixpoint futures (n : nat) (bs : list (list str)) : list (res response) :=
  match bs with
  | [] => []
  | b :: r => match fails n b with Some e => Err e | None => Ok (ds n b) end :: futures (S n) r
  end.

(** [for future in futures] (lines 801-810): [future.result()] raises what the lookup raised. *)
Fixpoint take_futures (key_to_cid : list (str * cid)) (fs : list (res response)) (result : list (cid * (list N * Z))) (pending : list str)
  : res (list (cid * (list N * Z)) * list str) :=
  match fs with
  | [] => Ok (result, pending)
  | f :: r =>
      do answer <- f;
      do result <- take_found key_to_cid (fst answer) result;
      take_futures key_to_cid r result (pending ++ snd answer)
  end.

(** [while pending] (lines 788-810). *)
Fixpoint fault_rounds (k : nat) (n : nat) (key_to_cid : list (str * cid)) (pending : list str) (result : list (cid * (list N * Z)))
  : res (list (cid * (list N * Z)) * nat) :=
  match pending with
  | [] => Ok (result, n)
  | _ =>
      match k with
      | O => Err OutOfFuel
      | S k =>
          let bs := batches (length pending) pending in
          do rp <- take_futures key_to_cid (futures n bs) result [];
          fault_rounds k (n + length bs) key_to_cid (snd rp) (fst rp)
      end
  end.

(** [read_many_raw] (lines 749-812). *)
Definition fault_read_many_raw (n : nat) (cids : list cid) : res (list (cid * (list N * Z)) * nat) :=
  fault_rounds rounds n (fold_left (fun d c => dset (name_of c) c d) cids []) (map name_of cids) [].

(** [load_all] (mst.py:800-847); compare [RawModel.ds_load_nodes] and [ds_load_all]. *)
Fixpoint fault_load_nodes (fuel n : nat) (start : Z) (to_fetch : list cid) : res (list (cid * list N) * list cid * nat) :=
  match to_fetch with
  | [] => Ok ([], [], n)
  | _ =>
      match fuel with
      | O => Err OutOfFuel
      | S f =>
          do bn <- fault_read_many_raw n to_fetch;
          do x <- load_layer start (fst bn);
          let '(out, leaves, next) := x in
          do y <- fault_load_nodes f (snd bn) start next;
          let '(out', leaves', n') := y in
          Ok (out ++ out', leaves ++ leaves', n')
      end
  end.

Variable digest : list N -> list N.

Definition fault_load_all (m : mst) (start : Z) : res (list (cid * list N)) :=
  do root <- get_pointer digest m;
  do x <- fault_load_nodes max_depth 0 start [root];
  let '(out, leaves, n) := x in
  do bn <- fault_read_many_raw n leaves;
  Ok (out ++ map (fun kv => (fst kv, fst (snd kv))) (fst bn)).

Local Open Scope m_scope.
Variable netloc_ok : str -> bool.

(** [get_repo] (xrpc_sync.py:45-67). *)
Definition fault_get_repo (disabled : bool) (did : str) (since : option str) : M (list N) :=
  let! r := server_load Datastore netloc_ok did in
  (if disabled then throw NotImplementedError else ret tt);;
  let! start := (match since with Some ((_ :: _) as t) => lift (tid_to_int t) | _ => ret 0%Z end) in
  let! o := obj r in
  let! h := head_of o in
  let! blocks := lift (fault_load_all (r_mst o) start) in
  ret (write_car [b_cid h] ((b_cid h, encode (b_val h)) :: blocks)).
End Fault.
