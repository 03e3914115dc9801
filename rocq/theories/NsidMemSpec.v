(** Threads that do not meet. *)
From Coq Require Import String List NArith ZArith Bool.
From Verif Require Import Base SeqModel NsidMemModel.
Import ListNotations.

(** The NSID that the step is for. *)
Definition step_nsid (a : nt_state) (ix : nat * str) : str :=
  match nt_threads a (fst ix) with Some (x, _) => x | None => snd ix end.

(** While a thread is in [allocate] for [x], no other one is in [allocate] for [x]. For other NSIDs there may be any number. *)
Fixpoint never_meet (x : str) (a : nt_state) (sched : list (nat * str)) : Prop :=
  match sched with
  | [] => True
  | ix :: r => (step_nsid a ix = x -> forall j pc, j <> fst ix -> nt_threads a j <> Some (x, pc)) /\ never_meet x (nt_step a ix) r
  end.
