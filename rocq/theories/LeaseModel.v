(** Memcache leases: arroba/memcache.py:10-92. *)
From Coq Require Import String List NArith ZArith Bool.
From Verif Require Import Base SeqModel.
Import ListNotations.
Local Open Scope Z_scope.

(** Times are in microseconds. memcached keeps time in whole seconds: an item set
    with [expire=n] at second [t] is gone from second [t + n] on; [expire=0] means
    it does not expire. *)
Definition second : Z := 1000000.
Definition mc_second (now : Z) : Z := now / second.

(** When an item goes: [None] is never. *)
Definition expiry := option Z.
Definition alive (e : expiry) (now : Z) : bool :=
  match e with None => true | Some t => mc_second now <? t end.

(** Where each user of a lease object is. *)
Inductive lease_pc :=
| LTry (attempt : nat)                    (* about to [add], memcache.py:60-64 *)
| LAdded (e : expiry)                     (* added, about to set [expires_at], line 65 *)
| LHeld (expires_at : Z) (e : expiry)     (* [acquire] has returned; next is [release] *)
| LDeleting (expires_at : Z) (e : expiry) (* [release] found it unexpired, line 83; about to [delete] *)
| LDone                                   (* released, or found expired *)
| LFailed.                                (* RuntimeError, line 76 *)

(** The item: memcache stores the string 'locked'. The owner is a ghost, as is
    the expiry kept in [lease_pc]; no step looks at them. *)
Record lease_state := {
  now : Z;
  item : option (nat * expiry);
  users : nat -> lease_pc }.

Definition lease_init (t : Z) : lease_state :=
  {| now := t; item := None; users := fun _ => LTry 0 |}.

Inductive lease_event :=
| Tick (d : N)     (* time passes *)
| Step (p : nat).  (* user [p] does its next memcache or clock access *)

Section Lease.
Variable expiration : Z.  (* [self.expiration], in microseconds *)
Variable retries : nat.   (* [self.retries] *)

Definition with_user (x : lease_state) (p : nat) (pc : lease_pc) : lease_state :=
  {| now := now x; item := item x; users := put (users x) p pc |}.

(** memcached's [add] sees an item that is there and not expired. *)
Definition item_alive (x : lease_state) : bool :=
  match item x with Some (_, e) => alive e (now x) | None => false end.

(** Simplified: the sleep between attempts (lines 69-74) is any passing of time. *)
Definition lease_step (x : lease_state) (ev : lease_event) : lease_state :=
  match ev with
  | Tick d => {| now := now x + Z.of_N d; item := item x; users := users x |}
  | Step p =>
      match users x p with
      | LTry k =>
          if item_alive x then
            with_user x p (if Nat.ltb k retries then LTry (S k) else LFailed)
          else
            let n := expiration / second in (* int(self.expiration.total_seconds()), line 64 *)
            let e := if n =? 0 then None else Some (mc_second (now x) + n) in
            {| now := now x; item := Some (p, e); users := put (users x) p (LAdded e) |}
      | LAdded e => with_user x p (LHeld (now x + expiration) e)
      | LHeld a e => with_user x p (if now x <=? a then LDeleting a e else LDone)
      | LDeleting _ _ => {| now := now x; item := None; users := put (users x) p LDone |}
      | LDone => x
      | LFailed => x
      end
  end.

Definition lease_run (x : lease_state) (evs : list lease_event) : lease_state :=
  fold_left lease_step evs x.
End Lease.
