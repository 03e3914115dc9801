(** Sequence numbers for several NSIDs at once: arroba/datastore_storage.py:267-308 (DatastoreSequences) and 311-395
    (MemcacheSequences), whose allocations for one NSID are in SeqModel.v. *)
From Coq Require Import String List NArith ZArith Bool.
From Verif Require Import Base SeqModel.
Import ListNotations.
Local Open Scope Z_scope.

(** ** DatastoreSequences

    An AtpSequence per NSID, with the number of times that it was written. A thread is idle or in a transaction that
    has read the entity of an NSID. *)
Record nd_state := {
  nd_ents : list (str * (nat * Z));
  nd_threads : nat -> option (str * nat * Z);
  nd_log : list (str * Z) }. (* NSIDs and the numbers returned, oldest first *)

Definition nd_init : nd_state := {| nd_ents := []; nd_threads := fun _ => None; nd_log := [] |}.

(** [AtpSequence.get_or_insert(nsid, next=1)]. *)
Definition nd_entity (x : str) (a : nd_state) : nat * Z := match dget x (nd_ents a) with Some e => e | None => (O, 1) end.

(** One step of thread [i] (datastore_storage.py:277-296), which, if it is idle, begins an allocation for [x]. *)
Definition nd_step (a : nd_state) (ix : nat * str) : nd_state :=
  let (i, x) := ix in
  match nd_threads a i with
  | None => {| nd_ents := nd_ents a; nd_threads := put (nd_threads a) i (Some (x, fst (nd_entity x a), snd (nd_entity x a))); nd_log := nd_log a |}
  | Some (y, v, n) =>
      if Nat.eqb v (fst (nd_entity y a)) then
        {| nd_ents := dset y (S v, n + 1) (nd_ents a); nd_threads := put (nd_threads a) i None; nd_log := nd_log a ++ [(y, n)] |}
      else {| nd_ents := nd_ents a; nd_threads := put (nd_threads a) i None; nd_log := nd_log a |}
  end.

Definition nd_run (sched : list (nat * str)) : nd_state := fold_left nd_step sched nd_init.

(** [DatastoreSequences.last] (datastore_storage.py:297-308). *)
Definition nd_last (x : str) (a : nd_state) : option Z := match dget x (nd_ents a) with Some e => Some (snd e - 1) | None => None end.

(** ** MemcacheSequences *)

(** [_memcache_key] (datastore_storage.py:392-395); the assertion is in [nm_step]. *)
Definition memcache_key (x : str) : str := (x ++ s "-last-seq")%list.

(** The items of memcache, [AtpSequence.next] of the entities, and [max_seqs] of each process. A thread is idle or at
    a point of [allocate] for an NSID. *)
Record nm_state := {
  nm_mc : list (str * Z);
  nm_next : list (str * Z);
  nm_max : nat -> list (str * Z);
  nm_threads : nat -> option (str * mc_pc);
  nm_log : list (str * Z);
  nm_failed : list (str * exn) }.

Definition nm_init : nm_state := {| nm_mc := []; nm_next := []; nm_max := fun _ => []; nm_threads := fun _ => None; nm_log := []; nm_failed := [] |}.

Inductive nm_event :=
| NRun (t : nat) (x : str)   (* thread [t] does its next step; if it is idle it begins an allocation for [x] *)
| NFailCommit (t : nat)      (* the same, but the datastore transaction fails for good *)
| NEvict (k : str).          (* memcache drops an item *)

Section Memcache.
Variable proc : nat -> nat.
Variables batch buffer : Z.

Definition nm_at (a : nm_state) (t : nat) (pc : option (str * mc_pc)) : nm_state :=
  {| nm_mc := nm_mc a; nm_next := nm_next a; nm_max := nm_max a; nm_threads := put (nm_threads a) t pc; nm_log := nm_log a; nm_failed := nm_failed a |}.
Definition nm_fail (a : nm_state) (x : str) (e : exn) : nm_state :=
  {| nm_mc := nm_mc a; nm_next := nm_next a; nm_max := nm_max a; nm_threads := nm_threads a; nm_log := nm_log a; nm_failed := nm_failed a ++ [(x, e)] |}.
Definition nm_set_mc (a : nm_state) (d : list (str * Z)) : nm_state :=
  {| nm_mc := d; nm_next := nm_next a; nm_max := nm_max a; nm_threads := nm_threads a; nm_log := nm_log a; nm_failed := nm_failed a |}.
Definition nm_set_next (a : nm_state) (x : str) (n : Z) : nm_state :=
  {| nm_mc := nm_mc a; nm_next := dset x n (nm_next a); nm_max := nm_max a; nm_threads := nm_threads a; nm_log := nm_log a; nm_failed := nm_failed a |}.
Definition nm_set_max (a : nm_state) (p : nat) (x : str) (n : Z) : nm_state :=
  {| nm_mc := nm_mc a; nm_next := nm_next a; nm_max := put (nm_max a) p (dset x n (nm_max a p)); nm_threads := nm_threads a; nm_log := nm_log a; nm_failed := nm_failed a |}.
Definition nm_return (a : nm_state) (x : str) (n : Z) : nm_state :=
  {| nm_mc := nm_mc a; nm_next := nm_next a; nm_max := nm_max a; nm_threads := nm_threads a; nm_log := nm_log a ++ [(x, n)]; nm_failed := nm_failed a |}.

(** [AtpSequence.get_or_insert(nsid, next=1).next] and [max_seqs.get(nsid, 0)]. *)
Definition nm_stored (x : str) (a : nm_state) : Z := match dget x (nm_next a) with Some n => n | None => 1 end.
Definition nm_max_of (x : str) (a : nm_state) (p : nat) : Z := match dget x (nm_max a p) with Some n => n | None => 0 end.

(** [incr] of the item of [x], if there is one. *)
Definition nm_incr (a : nm_state) (t : nat) (x : str) (missing : nm_state) : nm_state :=
  match dget (memcache_key x) (nm_mc a) with
  | None => missing
  | Some v => nm_at (nm_set_mc a (dset (memcache_key x) (v + 1) (nm_mc a))) t (Some (x, MCheck (v + 1)))
  end.

(** [allocate] (datastore_storage.py:335-377), a step at a time. *)
Definition nm_step (a : nm_state) (ev : nm_event) : nm_state :=
  match ev with
  | NEvict k => nm_set_mc a (filter (fun kv => negb (str_eqb k (fst kv))) (nm_mc a))
  | NRun t x0 =>
      match nm_threads a t with
      | None | Some (_, MIdle) =>
          match x0 with
          | [] => nm_fail a x0 AssertionError
          | _ => nm_incr a t x0 (nm_at a t (Some (x0, MLoad)))
          end
      | Some (x, MLoad) => nm_at (nm_set_max (nm_set_next a x (nm_stored x a)) (proc t) x (nm_stored x a - 1)) t (Some (x, MAdd (nm_stored x a - 1)))
      | Some (x, MAdd m) =>
          nm_at (nm_set_mc a (match dget (memcache_key x) (nm_mc a) with None => dset (memcache_key x) m (nm_mc a) | Some _ => nm_mc a end)) t (Some (x, MIncr))
      | Some (x, MIncr) => nm_incr a t x (nm_at (nm_fail a x TypeError) t None)
      | Some (x, MCheck seq) =>
          nm_at (if nm_max_of x a (proc t) - seq <? buffer then
                   let n := batch_next batch buffer (nm_stored x a) seq in nm_set_max (nm_set_next a x n) (proc t) x n
                 else a) t (Some (x, MReturn seq))
      | Some (x, MReturn seq) =>
          nm_at (if (negb (seq =? 0)) && (seq <=? nm_max_of x a (proc t)) then nm_return a x seq else nm_fail a x AssertionError) t None
      end
  | NFailCommit t =>
      match nm_threads a t with
      | Some (x, MCheck seq) =>
          if nm_max_of x a (proc t) - seq <? buffer then
            nm_at (nm_fail (nm_set_max a (proc t) x (batch_next batch buffer (nm_stored x a) seq)) x (OtherError (s "TransactionFailed"))) t None
          else a
      | _ => a
      end
  end.

Definition nm_run (evs : list nm_event) : nm_state := fold_left nm_step evs nm_init.

(** [last] (datastore_storage.py:379-390). *)
Definition nm_last (x : str) (a : nm_state) : option Z := dget (memcache_key x) (nm_mc a).
End Memcache.
