(** The syntax of DIDs, collections and record keys. *)
From Coq Require Import String List NArith Bool.
From Verif Require Import Base.
Import ListNotations.
Local Open Scope N_scope.

Definition between (a b : string) (c : N) : bool :=
  match s a, s b with [x], [y] => (x <=? c) && (c <=? y) | _, _ => false end.
Definition alnum (c : N) : bool := between "a" "z" c || between "A" "Z" c || between "0" "9" c.
Definition one_of (x : string) (c : N) : bool := existsb (N.eqb c) (s x).

(** https://atproto.com/specs/did, /nsid and /record-key, as far as characters go. *)
Definition valid_did (x : str) : Prop :=
  starts_with (s "did:") x = true /\ forallb (fun c => alnum c || one_of "._:%-" c) x = true.
Definition valid_nsid (x : str) : Prop := x <> [] /\ forallb (fun c => alnum c || one_of ".-" c) x = true.
Definition valid_rkey (x : str) : Prop := x <> [] /\ forallb (fun c => alnum c || one_of "._:~-" c) x = true.
