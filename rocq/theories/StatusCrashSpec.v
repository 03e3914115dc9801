(** Which turns leave the status of a repo alone. *)
From Coq Require Import String List.
From Verif Require Import Base StorageModel RepoSpec CrashModel CrashSpec StatusSpec.

(** The call is not for the status of the repo, or the process dies before it is set. *)
Definition lets_be (w : world) (t : turn) (did : str) : Prop :=
  match t with
  | Died op k _ => decisive op <= k -> for_status op -> op_did w op <> Some did
  | Done op => for_status op -> op_did w op <> Some did
  end.
