(** Vocabulary for the sequence number properties. *)
From Coq Require Import List NArith ZArith Bool.
From Verif Require Import Base SeqModel.
Import ListNotations.
Local Open Scope Z_scope.

(** Number of allocations for [nsid] in a history. *)
Fixpoint allocations (nsid : str) (ops : list seq_op) : Z :=
  match ops with
  | [] => 0
  | Allocate n :: r => (if str_eqb nsid n then 1 else 0) + allocations nsid r
  | Last _ :: r => allocations nsid r
  end.

(** A number handed out by memcache whose batch may not be reserved yet. *)
Definition unreserved (x : mc_state) : Prop := exists t seq, mc_threads x t = MCheck seq.
(** A thread which is about to install a counter read earlier. *)
Definition installing (x : mc_state) : Prop := exists t m, mc_threads x t = MAdd m.

(** Which events keep the guarantee: the counter is not evicted while a number is
    unreserved or a counter is being installed, and no commit fails. *)
Definition benign (x : mc_state) (ev : mc_event) : Prop :=
  match ev with
  | Run _ => True
  | FailCommit _ => False
  | Evict => ~ unreserved x /\ ~ installing x
  end.

(** A run in which every event is benign at the point where it happens. *)
Fixpoint all_benign (proc : nat -> nat) (batch buffer : Z) (x : mc_state) (evs : list mc_event) : Prop :=
  match evs with
  | [] => True
  | ev :: r => benign x ev /\ all_benign proc batch buffer (mc_step proc batch buffer x ev) r
  end.

(** A schedule in which a thread only runs while no other is inside [allocate]. *)
Fixpoint one_at_a_time (x : mm_state) (sched : list nat) : Prop :=
  match sched with
  | [] => True
  | i :: r => (forall j, j <> i -> mm_threads x j = AIdle) /\ one_at_a_time (mm_step x i) r
  end.
