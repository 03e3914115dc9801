(** Vocabulary for C51. *)
From Coq Require Import List NArith ZArith Bool.
From Verif Require Import Base SeqModel LeaseModel.
Import ListNotations.
Local Open Scope Z_scope.

(** User [p] thinks that it holds the lease: [acquire] has returned, [release] has
    not been called, and [expires_at] has not passed. *)
Definition thinks_it_holds (x : lease_state) (p : nat) : Prop :=
  exists a e, users x p = LHeld a e /\ now x <= a.

(** User [p] has added the item, has not deleted it, and its lifetime is not over
    by memcached's clock. *)
Definition holds (x : lease_state) (p : nat) : Prop :=
  match users x p with
  | LAdded e => alive e (now x) = true
  | LHeld _ e => alive e (now x) = true
  | LDeleting _ e => alive e (now x) = true
  | _ => False
  end.

(** User [p] has added the item and not released. *)
Definition unreleased (x : lease_state) (p : nat) : Prop :=
  match users x p with LAdded _ | LHeld _ _ | LDeleting _ _ => True | _ => False end.

(** A user is prompt if it sets [expires_at] and completes [release] within the
    lifetime of its item, or calls [release] only after [expires_at]. *)
Definition prompt (x : lease_state) (ev : lease_event) : Prop :=
  match ev with
  | Tick _ => True
  | Step p =>
      match users x p with
      | LHeld a e => alive e (now x) = true \/ a < now x
      | LDeleting _ e => alive e (now x) = true
      | _ => True
      end
  end.

Fixpoint all_prompt (expiration : Z) (retries : nat) (x : lease_state) (evs : list lease_event) : Prop :=
  match evs with
  | [] => True
  | ev :: r => prompt x ev /\ all_prompt expiration retries (lease_step expiration retries x ev) r
  end.
