(** MemorySequences (arroba/storage.py:647-666) with several threads and several NSIDs; SeqModel.v has one NSID. *)
From Coq Require Import String List NArith ZArith Bool.
From Verif Require Import Base SeqModel.
Import ListNotations.
Local Open Scope Z_scope.

(** [self.sequences], and threads that are idle or in [allocate] for an NSID. *)
Record nt_state := {
  nt_seqs : list (str * Z);
  nt_threads : nat -> option (str * mm_pc);
  nt_log : list (str * Z) }. (* NSIDs and the numbers returned, oldest first *)

Definition nt_init : nt_state := {| nt_seqs := []; nt_threads := fun _ => None; nt_log := [] |}.

(** [self.sequences.get(nsid, 1)]. *)
Definition nt_value (x : str) (a : nt_state) : Z := match dget x (nt_seqs a) with Some n => n | None => 1 end.

(** One operation on the dict by thread [i] (storage.py:656-661), which, if it is idle, begins an allocation for [x0]. *)
Definition nt_step (a : nt_state) (ix : nat * str) : nt_state :=
  let (i, x0) := ix in
  match nt_threads a i with
  | None | Some (_, AIdle) =>
      match x0 with
      | [] => a (* AssertionError *)
      | _ => {| nt_seqs := dset x0 (nt_value x0 a) (nt_seqs a); nt_threads := put (nt_threads a) i (Some (x0, AGot (nt_value x0 a))); nt_log := nt_log a |}
      end
  | Some (x, AGot n) => {| nt_seqs := nt_seqs a; nt_threads := put (nt_threads a) i (Some (x, ARead n (nt_value x a))); nt_log := nt_log a |}
  | Some (x, ARead n v) => {| nt_seqs := dset x (v + 1) (nt_seqs a); nt_threads := put (nt_threads a) i None; nt_log := nt_log a ++ [(x, n)] |}
  end.

Definition nt_run (sched : list (nat * str)) : nt_state := fold_left nt_step sched nt_init.
