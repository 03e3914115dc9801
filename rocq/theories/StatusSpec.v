(** Which calls are for the status of a repo. *)
From Coq Require Import String List.
From Verif Require Import Base StorageModel.

(** [Repo.create] gets a status, the others set it (repo.py:139-176, storage.py:256-308). *)
Definition for_status (op : sop) : Prop :=
  match op with SCreate _ _ _ _ _ | SDeactivate _ | SActivate _ | STombstone _ => True | _ => False end.
