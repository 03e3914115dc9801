(** C73 with threads that allocate for several NSIDs. *)
From Coq Require Import String List NArith ZArith Bool Lia.
From Verif Require Import Base SeqModel NsidSpec NsidMemModel NsidMemSpec NsidMemProofs.
Import ListNotations.
Local Open Scope Z_scope.

(** In memory, whatever threads allocate for other NSIDs at the same time: the numbers for one NSID are positive and
    none is larger than it would be if they were given out one by one; and if no two threads meet inside [allocate]
    for this NSID, they are 1, 2, 3, ... Missing for the full claim: threads that do meet, see C73_same_refuted. *)
Theorem C73_nsids_partial sched x : x <> [] -> let l := of_nsid x (nt_log (nt_run sched)) in
  (forall i, (i < length l)%nat -> 1 <= nth i l 0 <= Z.of_nat i + 1) /\
  (never_meet x nt_init sched -> forall i, (i < length l)%nat -> nth i l 0 = Z.of_nat i + 1).
Proof. exact (c73_nsids sched x). Qed.
Print Assumptions C73_nsids_partial.

(** Threads 1 and 2 meet while they allocate for [b], and get the same number. Threads 0 and 3 allocate for [a]
    meanwhile, one after the other. *)
Definition meetings : list (nat * str) :=
  [(0, s "a"); (1, s "b"); (2, s "b"); (0, s "a"); (1, s "a"); (0, s "b"); (3, s "a"); (2, s "c"); (1, s "a"); (3, s "a"); (2, s "a"); (3, s "b")]%nat.
Example C73_nsids_case : s "a" <> [] /\ never_meet (s "a") nt_init meetings /\
  nt_log (nt_run meetings) = [(s "a", 1); (s "b", 1); (s "b", 1); (s "a", 2)].
Proof.
  split; [discriminate|]. split; [|reflexivity]. unfold meetings.
  repeat (refine (conj _ _); [intros E j pc NJ F; vm_compute in E; try discriminate E; cbn [fst] in NJ;
    destruct j as [|[|[|[|j]]]]; try (destruct (NJ eq_refl)); vm_compute in F; discriminate F|]). exact Logic.I.
Qed.
