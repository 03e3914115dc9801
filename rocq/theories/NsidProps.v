(** C17 and C27 with allocations for several NSIDs at once. *)
From Coq Require Import String List NArith ZArith Bool Lia.
From Verif Require Import Base SeqModel NsidModel NsidSpec NsidProofs.
Import ListNotations.
Local Open Scope Z_scope.

(** In the datastore: whatever the interleaving of the transactions of any number of threads for any NSIDs, the numbers
    that are returned for one NSID are 1, 2, 3, ... in commit order, and [last] of it is the latest. *)
Theorem C17_nsids sched x : let a := nd_run sched in let l := of_nsid x (nd_log a) in
  (forall i, (i < length l)%nat -> nth i l 0 = Z.of_nat i + 1) /\
  nd_last x a = match l with [] => None | _ => Some (Z.of_nat (length l)) end.
Proof. exact (c17_nsids sched x). Qed.
Print Assumptions C17_nsids.

(** Three threads, two of which want a number for [a] at the same time. The first of them has to try again, after the
    third one had a number for [b]. *)
Example C17_nsids_case : let a := nd_run [(0, s "a"); (1, s "a"); (2, s "b"); (1, s "b"); (2, s "a"); (0, s "b"); (0, s "a"); (0, s "c")]%nat in
  nd_log a = [(s "a", 1); (s "b", 1); (s "a", 2)] /\ nd_last (s "a") a = Some 2 /\ nd_last (s "b") a = Some 1 /\ nd_last (s "c") a = None.
Proof. vm_compute. auto. Qed.

(** Through memcache: for any number of processes and threads that allocate for any NSIDs, and every interleaving, no
    number is handed out twice for one NSID, all of them are below what is reserved for it and not above [last], and
    no assertion fails for it. The provisos of C27_unique_partial are needed for this NSID only, see [spares]: counters
    of others are dropped and transactions for others fail at any time. *)
Theorem C27_nsids_partial proc batch buffer evs x : 1 < buffer < batch -> x <> [] -> all_spare proc batch buffer x nm_init evs ->
  let a := nm_run proc batch buffer evs in
  NoDup (of_nsid x (nm_log a)) /\ Forall (fun q => 1 <= q < nm_stored x a) (of_nsid x (nm_log a)) /\
  Forall (fun e => e = TypeError) (of_nsid x (nm_failed a)) /\
  forall v, nm_last x a = Some v -> Forall (fun q => q <= v) (of_nsid x (nm_log a)).
Proof. exact (c27_nsids proc batch buffer evs x). Qed.
Print Assumptions C27_nsids_partial.

(** Threads 0 and 1 of different processes allocate for [a]. Meanwhile thread 2 gets a number for [b], whose counter is
    dropped before it is reserved; a transaction for [b] fails; and the counter of [a] is dropped when no thread is allocating for [a]. *)
Definition na : str := s "a".
Definition nb : str := s "b".
Definition nsid_events : list nm_event :=
  [NRun 0 na; NRun 1 na; NRun 2 nb; NRun 0 nb; NRun 1 nb; NRun 2 na; NRun 2 na; NRun 2 na; NEvict (memcache_key nb); NFailCommit 2;
   NRun 0 na; NRun 1 na; NRun 1 na; NRun 0 na; NRun 0 na; NRun 1 na; NRun 0 na; NRun 1 na;
   NRun 2 nb; NEvict (memcache_key na); NRun 0 na; NRun 0 na; NRun 0 na; NRun 0 na; NRun 0 na; NRun 0 na; NRun 3 []].
Example C27_nsids_case : 1 < 2 < 4 /\ na <> [] /\ all_spare (fun t => t) 4 2 na nm_init nsid_events /\
  let a := nm_run (fun t => t) 4 2 nsid_events in
  nm_log a = [(na, 2); (na, 1); (na, 6)] /\ nm_failed a = [(nb, OtherError (s "TransactionFailed")); ([], AssertionError)] /\
  nm_last na a = Some 6 /\ nm_last nb a = None.
Proof.
  split; [lia|]. split; [discriminate|]. split.
  { unfold nsid_events. repeat (refine (conj _ _); [cbn [spares]; try exact Logic.I|]); try exact Logic.I.
    - intros E. vm_compute in E. discriminate E.
    - intros pc E. vm_compute in E. discriminate E.
    - intros _ t n. split; destruct t as [|[|[|t]]]; vm_compute; discriminate. }
  vm_compute. auto.
Qed.
