(** Sequence numbers: arroba/storage.py:647-666 (MemorySequences),
    arroba/datastore_storage.py:267-308 (DatastoreSequences) and 311-395
    (MemcacheSequences). *)
From Coq Require Import String List NArith ZArith Bool.
From Verif Require Import Base.
Import ListNotations.
Local Open Scope Z_scope.

(** ** MemorySequences *)

(** [self.sequences]: NSID to next sequence number (storage.py:653-654). *)
Definition sequences := list (str * Z).

(** [MemorySequences.allocate] (storage.py:656-661). *)
Definition allocate (nsid : str) (m : sequences) : res (Z * sequences) :=
  match nsid with
  | [] => Err AssertionError
  | _ =>
      let next := match dget nsid m with Some n => n | None => 1 end in
      Ok (next, dset nsid (next + 1) m)
  end.

(** [MemorySequences.last] (storage.py:663-666). *)
Definition last_seq (nsid : str) (m : sequences) : res (option Z) :=
  match nsid with
  | [] => Err AssertionError
  | _ =>
      match dget nsid m with
      | None => Ok None
      | Some n => if n =? 0 then Ok None else Ok (Some (n - 1))
      end
  end.

(** A history of calls; failing calls leave the state as it is. *)
Inductive seq_op := Allocate (nsid : str) | Last (nsid : str).

Definition seq_step (m : sequences) (o : seq_op) : sequences :=
  match o with
  | Allocate n => match allocate n m with Ok (_, m') => m' | Err _ => m end
  | Last _ => m
  end.

Definition seq_run (ops : list seq_op) : sequences := fold_left seq_step ops [].

(** ** MemorySequences with several threads

    The interpreter may switch threads between the operations on the dict: [setdefault]
    (storage.py:658), and the read and the write of [+= 1] (line 660).
    Simplified: one NSID, whose entry is [mm_next]. Different NSIDs are different entries. *)
Inductive mm_pc :=
| AIdle                  (* about to do setdefault, line 658 *)
| AGot (next : Z)        (* about to read for +=, line 660 *)
| ARead (next v : Z).    (* about to write for +=, and return, lines 660-661 *)

Record mm_state := {
  mm_next : option Z;
  mm_threads : nat -> mm_pc;
  mm_log : list Z }. (* returned numbers, oldest first *)

Definition mm_init : mm_state := {| mm_next := None; mm_threads := fun _ => AIdle; mm_log := [] |}.

(** ** DatastoreSequences

    [allocate] is one independent datastore transaction (datastore_storage.py:
    274-295): it reads the entity, and commits only if nobody has written the
    entity since; otherwise it is run again. [ds_next] and [ds_version] are the
    stored entity, absent at first; each thread is idle, waiting to commit, or has
    given up (the transaction ran out of retries, which it may do after any
    conflict).
    Simplified: one NSID. Different NSIDs are different entities, which do not
    conflict. *)
Inductive ds_pc := DIdle | DRead (version : nat) (next : Z).

Record ds_state := {
  ds_next : option Z;
  ds_version : nat;
  ds_threads : nat -> ds_pc;
  ds_log : list Z }. (* returned numbers, oldest first *)

Definition ds_init : ds_state :=
  {| ds_next := None; ds_version := 0; ds_threads := fun _ => DIdle; ds_log := [] |}.

Definition put {A} (f : nat -> A) (i : nat) (a : A) : nat -> A :=
  fun j => if Nat.eqb j i then a else f j.

(** One step of thread [i] of MemorySequences. *)
Definition mm_step (st : mm_state) (i : nat) : mm_state :=
  let value := match mm_next st with Some n => n | None => 1 end in
  match mm_threads st i with
  | AIdle => {| mm_next := Some value; mm_threads := put (mm_threads st) i (AGot value); mm_log := mm_log st |}
  | AGot n => {| mm_next := mm_next st; mm_threads := put (mm_threads st) i (ARead n value); mm_log := mm_log st |}
  | ARead n v => {| mm_next := Some (v + 1); mm_threads := put (mm_threads st) i AIdle; mm_log := mm_log st ++ [n] |}
  end.

Definition mm_run (sched : list nat) : mm_state := fold_left mm_step sched mm_init.

(** One step of thread [i]: [get_or_insert] (line 289), then the commit of
    [seq.next += 1; seq.put()] (lines 291-292). *)
Definition ds_step (st : ds_state) (i : nat) : ds_state :=
  match ds_threads st i with
  | DIdle =>
      let n := match ds_next st with Some n => n | None => 1 end in
      {| ds_next := ds_next st; ds_version := ds_version st;
         ds_threads := put (ds_threads st) i (DRead (ds_version st) n); ds_log := ds_log st |}
  | DRead v n =>
      if Nat.eqb v (ds_version st) then
        {| ds_next := Some (n + 1); ds_version := S (ds_version st);
           ds_threads := put (ds_threads st) i DIdle; ds_log := ds_log st ++ [n] |}
      else
        {| ds_next := ds_next st; ds_version := ds_version st;
           ds_threads := put (ds_threads st) i DIdle; ds_log := ds_log st |}
  end.

Definition ds_run (sched : list nat) : ds_state := fold_left ds_step sched ds_init.

(** [DatastoreSequences.last] (datastore_storage.py:297-308). *)
Definition ds_last (st : ds_state) : option Z :=
  match ds_next st with Some n => Some (n - 1) | None => None end.

(** ** MemcacheSequences

    One NSID. [mc] is the memcache counter, [None] if absent or evicted. [st] is
    [AtpSequence.next] in the datastore. [maxs] is each process's [max_seqs[nsid]].
    A thread of process [p] runs [allocate] (lines 335-377) through these points.
    Simplified: [max_seqs_lock] is left out, so the model allows more
    interleavings within one process than the code; checking [max_seqs] and
    running [alloc_batch], which the lock makes one unit, is one step. *)
Inductive mc_pc :=
| MIdle                 (* about to do the first incr, line 351 *)
| MLoad                 (* not in memcache: about to read the datastore, line 355 *)
| MAdd (init : Z)       (* about to add the counter, line 357 *)
| MIncr                 (* about to do the second incr, line 359 *)
| MCheck (seq : Z)      (* has a number, about to check max_seqs, lines 371-373 *)
| MReturn (seq : Z).    (* about to assert and return, lines 375-377 *)

Record mc_state := {
  mc : option Z;
  st_next : option Z;
  maxs : nat -> option Z;
  mc_threads : nat -> mc_pc;
  mc_log : list Z;
  mc_failed : list exn }.

Definition mc_init : mc_state :=
  {| mc := None; st_next := None; maxs := fun _ => None;
     mc_threads := fun _ => MIdle; mc_log := []; mc_failed := [] |}.

Inductive mc_event :=
| Run (t : nat)       (* thread [t] does its next step *)
| FailCommit (t : nat) (* as [Run], but the datastore transaction fails for good *)
| Evict.              (* memcache drops the counter *)

Section Memcache.
(** The process a thread belongs to. *)
Variable proc : nat -> nat.
(** [MEMCACHE_SEQUENCE_BATCH] and [MEMCACHE_SEQUENCE_BUFFER], lines 55-56. *)
Variables batch buffer : Z.

Definition at_pc (x : mc_state) (t : nat) (pc : mc_pc) : mc_state :=
  {| mc := mc x; st_next := st_next x; maxs := maxs x;
     mc_threads := put (mc_threads x) t pc; mc_log := mc_log x; mc_failed := mc_failed x |}.

Definition mc_fail (x : mc_state) (t : nat) (e : exn) : mc_state :=
  {| mc := mc x; st_next := st_next x; maxs := maxs x;
     mc_threads := put (mc_threads x) t MIdle; mc_log := mc_log x;
     mc_failed := mc_failed x ++ [e] |}.

(** [AtpSequence.get_or_insert(nsid, next=1).next]. *)
Definition stored (x : mc_state) : Z := match st_next x with Some n => n | None => 1 end.

(** [max_seqs.get(nsid, 0)]. *)
Definition max_of (x : mc_state) (p : nat) : Z := match maxs x p with Some m => m | None => 0 end.

(** [alloc_batch] (lines 361-369): the new value of [AtpSequence.next]. *)
Definition batch_next (n seq : Z) : Z := if n - seq <? buffer then seq + batch else n.

Definition mc_step (x : mc_state) (ev : mc_event) : mc_state :=
  match ev with
  | Evict =>
      {| mc := None; st_next := st_next x; maxs := maxs x;
         mc_threads := mc_threads x; mc_log := mc_log x; mc_failed := mc_failed x |}
  | Run t =>
      match mc_threads x t with
      | MIdle =>
          match mc x with
          | None => at_pc x t MLoad
          | Some v =>
              {| mc := Some (v + 1); st_next := st_next x; maxs := maxs x;
                 mc_threads := put (mc_threads x) t (MCheck (v + 1));
                 mc_log := mc_log x; mc_failed := mc_failed x |}
          end
      | MLoad =>
          {| mc := mc x; st_next := Some (stored x);
             maxs := put (maxs x) (proc t) (Some (stored x - 1));
             mc_threads := put (mc_threads x) t (MAdd (stored x - 1));
             mc_log := mc_log x; mc_failed := mc_failed x |}
      | MAdd m =>
          {| mc := match mc x with None => Some m | Some v => Some v end;
             st_next := st_next x; maxs := maxs x;
             mc_threads := put (mc_threads x) t MIncr;
             mc_log := mc_log x; mc_failed := mc_failed x |}
      | MIncr =>
          match mc x with
          | None => mc_fail x t TypeError (* [max_seqs.get(nsid, 0) - None] *)
          | Some v =>
              {| mc := Some (v + 1); st_next := st_next x; maxs := maxs x;
                 mc_threads := put (mc_threads x) t (MCheck (v + 1));
                 mc_log := mc_log x; mc_failed := mc_failed x |}
          end
      | MCheck seq =>
          if max_of x (proc t) - seq <? buffer then
            let n := batch_next (stored x) seq in
            {| mc := mc x; st_next := Some n; maxs := put (maxs x) (proc t) (Some n);
               mc_threads := put (mc_threads x) t (MReturn seq);
               mc_log := mc_log x; mc_failed := mc_failed x |}
          else at_pc x t (MReturn seq)
      | MReturn seq =>
          if (negb (seq =? 0)) && (seq <=? max_of x (proc t)) then
            {| mc := mc x; st_next := st_next x; maxs := maxs x;
               mc_threads := put (mc_threads x) t MIdle;
               mc_log := mc_log x ++ [seq]; mc_failed := mc_failed x |}
          else mc_fail x t AssertionError
      end
  | FailCommit t =>
      match mc_threads x t with
      | MCheck seq =>
          if max_of x (proc t) - seq <? buffer then
            (* line 369 sets [max_seqs] before the transaction commits *)
            let n := batch_next (stored x) seq in
            {| mc := mc x; st_next := st_next x; maxs := put (maxs x) (proc t) (Some n);
               mc_threads := put (mc_threads x) t MIdle;
               mc_log := mc_log x; mc_failed := mc_failed x ++ [OtherError (s "TransactionFailed")] |}
          else x
      | _ => x
      end
  end.

Definition mc_run (evs : list mc_event) : mc_state := fold_left mc_step evs mc_init.

(** [MemcacheSequences.last] (lines 379-390): [int(val) if val else None]; the
    value is the byte string of a number, so never empty. *)
Definition mc_last (x : mc_state) : option Z := mc x.
End Memcache.
