(** Commits of several threads or processes to one DatastoreStorage
    (arroba/storage.py:495-644, arroba/datastore_storage.py:611-890).

    [_commit] runs in a datastore transaction, which is run again, up to ten more times, when it is
    aborted (datastore_storage.py:886-890). Only the entity of the repo takes part in the
    transaction: the sequence number is allocated before (storage.py:513), blocks are read outside
    of it (lines 732-748), and [write_blocks] writes them in a transaction of its own (876-884),
    which stays when the other one is aborted.

    Simplified: an attempt reads the blocks that it needs, and asks which of the new blocks exist, at
    one moment. What it reads is reachable from the head it started from, and blocks are never
    removed or changed, so only the last question depends on the moment. Creating repos and writing
    events in between are left out. *)
From Coq Require Import String List NArith ZArith Bool.
From Verif Require Import Base Ipld MstModel StorageModel.
Import ListNotations.
Local Open Scope Z_scope.

(** A call of [commit] for an existing repo, with its sequence number and the aborts so far. *)
Record job := { j_did : str; j_writes : list write; j_seq : Z; j_aborts : nat }.

(** Where a thread is. The number is the version of the entity that its transaction has read. *)
Inductive tx_pc :=
| XIdle
| XBegin (j : job)                                     (* about to read the entity, datastore_storage.py:667 *)
| XRead (j : job) (version : nat) (e : entity)         (* has read it *)
| XPut (j : job) (version : nat) (e : entity) (cd : commit_data) (new : list block)
                                                       (* about to put the blocks that are new, line 884 *)
| XCommit (j : job) (version : nat) (e : entity) (cd : commit_data).
                                                       (* about to commit the new head, lines 723-728 *)

(** What a call returned, with what it was asked for. The latest is at the head. *)
Record returned := { t_job : job; t_result : res commit_data }.

Record tx_world := {
  x_next : Z;                             (* the next sequence number *)
  x_blocks : list (cid * block);
  x_ents : list (str * (nat * entity));   (* AtpRepo, with a version that counts the writes *)
  x_threads : nat -> tx_pc;
  x_log : list returned }.

Inductive tx_event :=
| ECall (t : nat) (did : str) (ws : list write) (status : option str)
    (* thread [t] calls [commit] with a Repo object that has this status *)
| EStep (t : nat) (nonce : Z)       (* it does its next step; the nonce is for a signature *)
| EAbort (t : nat)                  (* its transaction is aborted *)
| EStatus (did : str) (status : option str).
    (* [_set_repo_status] (datastore_storage.py:707-718), by anyone *)

(** [retries=10], line 887. *)
Definition max_aborts : nat := 10.

Section Tx.
Variable digest : list N -> list N.
Variable kdigest : str -> list N.
Variable validate : ipld -> res unit.
Variable ecdsa : N -> Z -> list N -> list N.

(** [Storage._commit] (storage.py:526-644) as a transaction sees it that has read [e]. The Repo
    object of the caller only gives the DID, and has no status: that was checked before. *)
Definition attempt (bl : list (cid * block)) (j : job) (e : entity) (nonce : Z) : res commit_data :=
  let sig := fun key (_ : Z) m => ecdsa key nonce m in
  let head := Block [] (IMap [(s "did", IText (j_did j))]) 0 None None in
  let caller := Repo (mst_load []) (Some head) None None false 0 in
  snd (commit_ digest kdigest validate sig Datastore 0 (j_writes j) (j_seq j) None
         (State (j_seq j + 1) bl [caller] [] [(j_did j, e)] [])).

Definition at_pc (w : tx_world) (t : nat) (pc : tx_pc) : tx_world :=
  {| x_next := x_next w; x_blocks := x_blocks w; x_ents := x_ents w;
     x_threads := fun u => if Nat.eqb u t then pc else x_threads w u; x_log := x_log w |}.
Definition return_ (w : tx_world) (t : nat) (j : job) (r : res commit_data) : tx_world :=
  {| x_next := x_next w; x_blocks := x_blocks w; x_ents := x_ents w;
     x_threads := fun u => if Nat.eqb u t then XIdle else x_threads w u;
     x_log := {| t_job := j; t_result := r |} :: x_log w |}.
Definition with_ents (w : tx_world) (es : list (str * (nat * entity))) : tx_world :=
  {| x_next := x_next w; x_blocks := x_blocks w; x_ents := es; x_threads := x_threads w; x_log := x_log w |}.

(** The transaction was aborted: it starts over, or the call fails. *)
Definition abort (w : tx_world) (t : nat) (j : job) : tx_world :=
  if Nat.ltb (j_aborts j) max_aborts
  then at_pc w t (XBegin {| j_did := j_did j; j_writes := j_writes j; j_seq := j_seq j; j_aborts := S (j_aborts j) |})
  else return_ w t j (Err (OtherError (s "TransactionFailed"))).

(** A transaction commits if nobody has written the entity since it read it. *)
Definition tx_step (w : tx_world) (ev : tx_event) : tx_world :=
  match ev with
  | ECall t did ws status =>
      match x_threads w t with
      | XIdle =>
          let j := {| j_did := did; j_writes := ws; j_seq := x_next w; j_aborts := 0 |} in
          let w := {| x_next := x_next w + 1; x_blocks := x_blocks w; x_ents := x_ents w;
                      x_threads := x_threads w; x_log := x_log w |} in
          if is_some status then return_ w t j (Err InactiveRepo) else at_pc w t (XBegin j)
      | _ => w
      end
  | EStep t nonce =>
      match x_threads w t with
      | XIdle => w
      | XBegin j =>
          match dget (j_did j) (x_ents w) with
          | None => return_ w t j (Err AttributeError)
          | Some (v, e) => at_pc w t (XRead j v e)
          end
      | XRead j v e =>
          match attempt (x_blocks w) j e nonce with
          | Err x => return_ w t j (Err x)
          | Ok cd => at_pc w t (XPut j v e cd (filter (fun b => negb (is_some (dget (b_cid b) (x_blocks w)))) (map snd (cd_blocks cd))))
          end
      | XPut j v e cd new =>
          at_pc {| x_next := x_next w; x_blocks := fold_left (fun bl b => dset (b_cid b) b bl) new (x_blocks w);
                   x_ents := x_ents w; x_threads := x_threads w; x_log := x_log w |} t (XCommit j v e cd)
      | XCommit j v e cd =>
          match dget (j_did j) (x_ents w) with
          | Some (v', _) =>
              if Nat.eqb v' v
              then return_ (with_ents w (dset (j_did j) (S v, Entity (e_handle e) (b_cid (cd_commit cd)) (e_status e) (e_key e)) (x_ents w))) t j (Ok cd)
              else abort w t j
          | None => abort w t j
          end
      end
  | EAbort t =>
      match x_threads w t with
      | XRead j _ _ | XPut j _ _ _ _ | XCommit j _ _ _ => abort w t j
      | _ => w
      end
  | EStatus did status =>
      match dget did (x_ents w) with
      | Some (v, e) => with_ents w (dset did (S v, Entity (e_handle e) (e_head e) status (e_key e)) (x_ents w))
      | None => w
      end
  end.

Definition tx_run (w : tx_world) (evs : list tx_event) : tx_world := fold_left tx_step evs w.
End Tx.

(** What is stored when the threads start. *)
Definition tx_start (st : state) : tx_world :=
  {| x_next := s_next st; x_blocks := s_blocks st; x_ents := map (fun de => (fst de, (0%nat, snd de))) (s_ents st);
     x_threads := fun _ => XIdle; x_log := [] |}.

(** What is stored in the end, as others see it. *)
Definition tx_state (w : tx_world) : state :=
  State (x_next w) (x_blocks w) [] [] (map (fun de => (fst de, snd (snd de))) (x_ents w)) [].
