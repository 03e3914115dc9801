(** What is common to two runs of the same history with different callbacks. *)

From Coq Require Import ZArith NArith String List.
From Verif Require Import Base StorageModel.
Import ListNotations.

(** The messages that callbacks were called with, last first. *)
Definition data_calls (cs : list call) : list message :=
  flat_map (fun c => match c with CData m => [m] | CLost _ => [] end) cs.

(** Same sequence, blocks, repo objects, repos in memory and entities; callbacks were given the
    same messages. The notices of lost numbers may differ. *)
Definition same_stored (a b : state) : Prop :=
  s_next a = s_next b /\ s_blocks a = s_blocks b /\ s_objs a = s_objs b /\ s_mem a = s_mem b /\ s_ents a = s_ents b /\
  data_calls (s_calls a) = data_calls (s_calls b).
Definition same_world (a b : world) : Prop := same_stored (w_state a) (w_state b) /\ w_refs a = w_refs b.

(** The same outcome, or an exception raised by a callback. *)
Definition same_or_raised (cb : nat -> option exn) (out out' : res sout) : Prop :=
  out = out' \/ exists e n, out = Err e /\ cb n = Some e.

(** Creating a repo that is not inactive and has a callback succeeded. *)
Definition created (op : sop) (out : res sout) : Prop :=
  match op with SCreate _ _ None true _ => exists x, out = Ok x | _ => True end.

Definition quiet : nat -> option exn := fun _ => None.
