(** C17: sequence numbers are unique and increasing. C27: batched allocation. *)
From Coq Require Import String List NArith ZArith Bool Lia.
From Verif Require Import Base SeqModel SeqSpec SeqProofs.
Import ListNotations.
Local Open Scope Z_scope.

(** In memory: after any history of calls over any NSIDs, [allocate] returns one
    more than the number of earlier allocations for its own NSID. *)
Theorem C17_allocate ops nsid : nsid <> [] ->
  exists m, allocate nsid (seq_run ops) = Ok (1 + allocations nsid ops, m).
Proof. exact (memory_allocate ops nsid). Qed.
Print Assumptions C17_allocate.

(** ... and [last] returns the last allocated number, or None. *)
Theorem C17_last ops nsid : nsid <> [] ->
  last_seq nsid (seq_run ops) =
    Ok (if allocations nsid ops =? 0 then None else Some (allocations nsid ops)).
Proof. exact (memory_last ops nsid). Qed.
Print Assumptions C17_last.

(** In the datastore: whatever the interleaving of the transactions of any number
    of threads, the numbers returned are 1, 2, 3, ... in commit order, and [last]
    is the latest. *)
Theorem C17_datastore sched : let x := ds_run sched in
  (forall i, (i < length (ds_log x))%nat -> nth i (ds_log x) 0 = Z.of_nat i + 1) /\
  ds_last x = match ds_log x with [] => None | _ => Some (Z.of_nat (length (ds_log x))) end.
Proof. exact (datastore_consecutive sched). Qed.
Print Assumptions C17_datastore.

Example C17_case :
  let ops := [Allocate (s "a"); Allocate (s "b"); Last (s "a"); Allocate (s "a"); Allocate []] in
  (exists m, allocate (s "a") (seq_run ops) = Ok (3, m)) /\
  last_seq (s "b") (seq_run ops) = Ok (Some 1) /\ last_seq (s "c") (seq_run ops) = Ok None.
Proof. cbn. split; [eexists|split]; reflexivity. Qed.

(** Two threads read the same number; one of them has to retry. *)
Example C17_conflict : ds_log (ds_run [0; 1; 1; 0; 0; 0]%nat) = [1; 2] /\
  ds_log (ds_run [0; 1; 1; 0]%nat) = [1].
Proof. split; reflexivity. Qed.

(** No number is handed out twice, all are below the reserved maximum, and the
    code's own assertion never fails, for any number of processes and threads and
    every interleaving, provided that the counter is not evicted while some thread
    holds a number it has not reserved or is installing the counter, and that
    datastore transactions do not fail for good. The only failure is a TypeError
    when the counter is evicted between [add] and [incr]. *)
Theorem C27_unique_partial proc batch buffer evs : 1 < buffer < batch ->
  all_benign proc batch buffer mc_init evs ->
  let x := mc_run proc batch buffer evs in
  NoDup (mc_log x) /\ Forall (fun q => 1 <= q < stored x) (mc_log x) /\
  Forall (fun e => e = TypeError) (mc_failed x).
Proof. intros cfg. exact (memcache_unique proc batch buffer cfg evs). Qed.
Print Assumptions C27_unique_partial.

(** With the same provisos, [last] is not below any number that was handed out, and the next one is one more. *)
Theorem C27_last_partial proc batch buffer evs v : 1 < buffer < batch ->
  all_benign proc batch buffer mc_init evs ->
  let x := mc_run proc batch buffer evs in mc_last x = Some v ->
  Forall (fun q => q <= v) (mc_log x) /\
  forall t, mc_threads x t = MIdle ->
    let x' := mc_run proc batch buffer (evs ++ [Run t; Run t; Run t]) in
    mc_log x' = mc_log x ++ [v + 1] /\ mc_last x' = Some (v + 1).
Proof. intros cfg. exact (memcache_last proc batch buffer cfg evs v). Qed.
Print Assumptions C27_last_partial.

(** Without the first proviso it is false: an eviction between the [incr] of one
    process and its reservation makes another process hand out the same number. *)
Theorem C27_eviction_refuted : exists proc evs,
  (forall t, ~ In (FailCommit t) evs) /\
  mc_log (mc_run proc 1000 100 evs) = [1; 1].
Proof.
  exists (fun t => t), [Run 0%nat; Run 0%nat; Run 0%nat; Run 0%nat; Evict;
    Run 1%nat; Run 1%nat; Run 1%nat; Run 1%nat; Run 1%nat; Run 1%nat; Run 0%nat; Run 0%nat].
  split; [|reflexivity]. simpl. intros t H. intuition discriminate.
Qed.
Print Assumptions C27_eviction_refuted.

(** Without the second it is false as well: [alloc_batch] records the new maximum
    before its transaction commits, so after a failed transaction the process
    goes on handing out numbers which are not reserved. Here the eviction comes
    when all threads are idle. *)
Theorem C27_failed_commit_refuted : exists proc evs evs',
  (forall t, In t [0; 1]%nat -> mc_threads (mc_run proc 1000 100 evs) t = MIdle) /\
  (forall e, In e evs' -> exists t, e = Run t) /\
  ~ In Evict evs /\
  mc_log (mc_run proc 1000 100 (evs ++ Evict :: evs')) = [2; 1; 2].
Proof.
  exists (fun t => t), [Run 0%nat; Run 0%nat; Run 0%nat; Run 0%nat; FailCommit 0%nat;
                  Run 0%nat; Run 0%nat; Run 0%nat],
    [Run 1%nat; Run 1%nat; Run 1%nat; Run 1%nat; Run 1%nat; Run 1%nat; Run 1%nat; Run 1%nat; Run 1%nat].
  split; [|split; [|split; [|reflexivity]]].
  - simpl. intros t [<-|[<-|[]]]; reflexivity.
  - simpl. intros e H. repeat (destruct H as [<-|H]; [eauto|]). destruct H.
  - simpl. intuition discriminate.
Qed.
Print Assumptions C27_failed_commit_refuted.

(** A run meeting the hypotheses: two processes, three threads, an eviction. *)
Example C27_case : let proc := (fun t => match t with 2 => 1 | _ => t end)%nat in
  let evs := map Run [0;1;0;1;1;0;1;0; 0;1;2;2;1;0;2]%nat ++ Evict :: map Run [2;2;2;2;2;2]%nat in
  all_benign proc 10 3 mc_init evs /\ mc_log (mc_run proc 10 3 evs) = [1; 2; 3; 12] /\
  mc_last (mc_run proc 10 3 evs) = Some 12 /\ mc_threads (mc_run proc 10 3 evs) 1 = MIdle.
Proof.
  cbn zeta. split; [|split; [reflexivity|split; reflexivity]].
  repeat (split; [exact I|]). split; [|repeat (split; [exact I|]); exact I].
  split; intros (t & q & H); do 3 (destruct t as [|t]; [vm_compute in H; discriminate H|]); vm_compute in H; discriminate H.
Qed.

(** ** C73 *)

(** In memory, with threads that the interpreter switches between: if they do not meet inside
    [allocate], the numbers returned are 1, 2, 3, ... *)
Theorem C73_alone_partial sched : one_at_a_time mm_init sched ->
  let x := mm_run sched in forall i, (i < length (mm_log x))%nat -> nth i (mm_log x) 0 = Z.of_nat i + 1.
Proof. exact (memory_alone sched). Qed.
Print Assumptions C73_alone_partial.

Example C73_alone_case : one_at_a_time mm_init [0;0;0;1;1;1;0;0;0]%nat /\ mm_log (mm_run [0;0;0;1;1;1;0;0;0]%nat) = [1; 2; 3].
Proof.
  split; [|reflexivity]. cbn.
  repeat (split; [intros [|[|j]] H; [reflexivity || (exfalso; apply H; reflexivity)|reflexivity || (exfalso; apply H; reflexivity)|reflexivity]|]). exact I.
Qed.

(** Whatever they do, the numbers are positive and none is larger than it would be without other threads. *)
Theorem C73_low sched : let x := mm_run sched in forall i, (i < length (mm_log x))%nat -> 1 <= nth i (mm_log x) 0 <= Z.of_nat i + 1.
Proof. exact (memory_low sched). Qed.
Print Assumptions C73_low.

(** But two threads can get the same number (here and in the next theorem even though the two halves of
    [+= 1] come directly after each other); ... *)
Theorem C73_same_refuted : exists sched, mm_log (mm_run sched) = [1; 1] /\ (forall t, mm_threads (mm_run sched) t = AIdle).
Proof. exists [0;1;0;0;1;1]%nat. split; [reflexivity|]. intros [|[|t]]; reflexivity. Qed.
Print Assumptions C73_same_refuted.
(** ... a number can be skipped for good; ... *)
Theorem C73_skip_refuted : exists sched, mm_log (mm_run sched) = [1; 1; 3] /\ (forall t, mm_threads (mm_run sched) t = AIdle).
Proof. exists [0;1;1;1;0;0;0;0;0]%nat. split; [reflexivity|]. intros [|[|t]]; reflexivity. Qed.
Print Assumptions C73_skip_refuted.
(** ... and the counter can go back, so that old numbers are handed out again later, when a single thread is left. *)
Theorem C73_back_refuted : exists sched more, (forall t, mm_threads (mm_run sched) t = AIdle) /\ mm_log (mm_run sched) = [1; 2; 3; 1] /\
  (forall t, In t more -> t = 1%nat) /\ mm_log (mm_run (sched ++ more)) = [1; 2; 3; 1; 2; 3].
Proof.
  exists [0;0;1;1;1;1;1;1;1;1;1;0]%nat, [1;1;1;1;1;1]%nat. split; [intros [|[|t]]; reflexivity|]. split; [reflexivity|]. split; [|reflexivity].
  cbn. intuition.
Qed.
Print Assumptions C73_back_refuted.
