(** What concerns one NSID when there are several. *)
From Coq Require Import String List NArith ZArith Bool.
From Verif Require Import Base SeqModel NsidModel.
Import ListNotations.

(** The part of a log that is for [x]. *)
Definition of_nsid {A} (x : str) (l : list (str * A)) : list A := map snd (filter (fun kv => str_eqb x (fst kv)) l).

(** Memcache does not drop the counter of [x] while a number for [x] is not reserved yet or the counter is being
    installed, and no transaction for [x] fails for good. Anything may happen to other NSIDs. *)
Definition spares (x : str) (a : nm_state) (ev : nm_event) : Prop :=
  match ev with
  | NRun _ _ => True
  | NFailCommit t => forall pc, nm_threads a t <> Some (x, pc)
  | NEvict k => k = memcache_key x -> forall t n, nm_threads a t <> Some (x, MCheck n) /\ nm_threads a t <> Some (x, MAdd n)
  end.

Fixpoint all_spare (proc : nat -> nat) (batch buffer : Z) (x : str) (a : nm_state) (evs : list nm_event) : Prop :=
  match evs with
  | [] => True
  | ev :: r => spares x a ev /\ all_spare proc batch buffer x (nm_step proc batch buffer a ev) r
  end.
