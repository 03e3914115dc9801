(** Processes that die in the middle of an operation on a DatastoreStorage. *)
From Coq Require Import String List NArith ZArith Bool.
From Verif Require Import Base Lists Ipld MstModel CarModel TidModel StorageModel RepoSpec.
Import ListNotations.
Local Open Scope m_scope.

(** What is left when the process is gone: blocks, repo entities and sequence numbers. The repo objects
    and their callbacks were in its memory. [lost] numbers that were set aside in memcache may never be
    given out (datastore_storage.py:311-377). *)
Definition reboot (lost : nat) (st : state) : state := State (s_next st + Z.of_nat lost) (s_blocks st) [] [] (s_ents st) [].

(** A request that takes [st] to [st'] dies between its last two writes, which are those of its blocks and of the
    entity. createRecord, putRecord and deleteRecord write in one commit (storage.py:632-640), and importRepo does
    write_blocks and then create_repo (xrpc_repo.py:237-244). *)
Definition halfway (lost : nat) (st st' : state) : state := reboot lost (set_ents (s_ents st) st').

Section Crash.
Variable digest : list N -> list N.
Variable kdigest : str -> list N.
Variable validate : ipld -> res unit.
Variable ecdsa : N -> Z -> list N -> list N.
Variable now : Z -> str.
Variable cb : nat -> option exn.

(** [Repo.create] (repo.py:139-176) up to its write number [k] to the datastore. In order: the sequence
    number (datastore_storage.py:277-296), the blocks of the first commit, which go together
    (datastore_storage.py:875-884), a number and a block for each of the three events
    (storage.py:456-483, datastore_storage.py:868-873), and the entity
    (datastore_storage.py:636-662). Callbacks, which write nothing, are run with the write before. *)
Definition create_until (k : nat) (did : str) (handle status : option str) (has_callback : bool) (key : N) : M unit :=
  let number := (let! _ := allocate_seq in ret tt) in
  if Nat.leb 9 k then (let! _ := repo_create digest kdigest validate ecdsa now cb Datastore did handle status has_callback key in ret tt) else
  let! m := lift (mst_create digest [] None) in
  let! r := new_obj (Repo m None handle status has_callback key) in
  match k with 0 => ret tt | 1 => number | _ =>
  let! cd := commit digest kdigest validate ecdsa cb Datastore r [] (Some did) in
  let! o := obj r in
  let! _ := need_did o in
  match k with 2 => ret tt | 3 => number | _ =>
  write_event digest now cb Datastore r (s "identity") [(s "handle", opt_text handle)];;
  match k with 4 => ret tt | 5 => number | _ =>
  write_event digest now cb Datastore r (s "account") [(s "active", IBool true)];;
  match k with 6 => ret tt | 7 => number | _ =>
  let c := cd_commit cd in
  let! rev := lift (item (s "rev") (b_val c)) in
  write_event digest now cb Datastore r (s "sync") [(s "blocks", IBytes (write_car [b_cid c] [(b_cid c, encode (b_val c))])); (s "rev", rev)];;
  ret tt end end end end.

(** [_commit] (storage.py:526-644) until its blocks are written. [write_blocks] is not part of the
    transaction that [_commit] runs in (datastore_storage.py:876, 884). *)
Definition commit_blocks (r0 : nat) (ws : list write) (seq : Z) : M unit :=
  assert (negb (seq =? 0)%Z);;
  let! drp := commit_target Datastore r0 None in
  let '(did, r, prev) := drp in
  (if (max_operations <? len ws)%N then throw ValueError else ret tt);;
  let! bo := foldM (commit_write digest kdigest validate r did seq) ([], []) ws in
  let! o := obj r in
  let! ru := (fun st => (st, get_unstored_blocks digest kdigest (rd st) max_depth (r_mst o))) in
  let! rev := lift (int_to_tid seq 0) in
  let cblock := mk_block digest (commit_value ecdsa (r_key o) seq did rev prev (fst ru)) (Some did) seq (Some (snd bo)) in
  write_blocks (map snd (dset (b_cid cblock) cblock (add_nodes did seq (snd ru) (fst bo)))).

(** [commit] (storage.py:495-524): the number, the blocks, and the entity with the new head
    (datastore_storage.py:720-730). *)
Definition commit_until (k : nat) (r : nat) (ws : list write) : M unit :=
  match k with
  | 0 => ret tt
  | 1 => let! _ := allocate_seq in ret tt
  | 2 => let! seq := allocate_seq in commit_blocks r ws seq
  | _ => let! _ := commit digest kdigest validate ecdsa cb Datastore r ws None in ret tt
  end.

(** [deactivate_repo], [activate_repo], [tombstone_repo] (storage.py:256-308): the entity
    (datastore_storage.py:708-718), the number and the block of the event. *)
Definition status_until (k : nat) (r : nat) (x : option str) (type : str) (extra : list (str * ipld)) : M unit :=
  match k with 0 => ret tt | _ =>
  set_repo_status Datastore r x;;
  match k with
  | 1 => ret tt
  | 2 => let! _ := allocate_seq in ret tt
  | _ => let! _ := write_event digest now cb Datastore r type extra in ret tt
  end end.

(** The operation up to its write number [k]. Operations that write nothing stop before they begin. *)
Definition cut (w : world) (op : sop) (k : nat) : state :=
  let at_ref h f := match nth_error (w_refs w) h with Some r => fst (f r (w_state w)) | None => w_state w end in
  match op with
  | SCreate did handle status has_callback key => fst (create_until k did handle status has_callback key (w_state w))
  | SLoad _ | SLoadAt _ _ | SCallback _ _ => w_state w
  | SCommit h ws => at_ref h (fun r => commit_until k r ws)
  | SDeactivate h => at_ref h (fun r => status_until k r (Some (s "deactivated")) (s "account") [(s "active", IBool false); (s "status", IText (s "deactivated"))])
  | SActivate h => at_ref h (fun r => status_until k r None (s "account") [(s "active", IBool true)])
  | STombstone h => at_ref h (fun r => status_until k r (Some (s "tombstoned")) (s "tombstone") [])
  end.

(** The process dies after write number [k] of the operation, and another one starts. *)
Definition crash (w : world) (op : sop) (k lost : nat) : world := World (reboot lost (cut w op k)) [].
End Crash.
