(** C51: leases. *)
From Coq Require Import List NArith ZArith Bool Lia.
From Verif Require Import Base SeqModel LeaseModel LeaseSpec LeaseProofs.
Import ListNotations.
Local Open Scope Z_scope.

(** At most one user holds the lease by memcached's clock, for any number of
    users, every interleaving and every passing of time, provided that users
    release within the lifetime of their item (or after [expires_at]). *)
Theorem C51_exclusion_partial expiration retries t evs p q :
  all_prompt expiration retries (lease_init t) evs ->
  let x := lease_run expiration retries (lease_init t) evs in
  holds x p -> holds x q -> p = q.
Proof. exact (exclusion expiration retries t evs p q). Qed.
Print Assumptions C51_exclusion_partial.

(** ... and no step of another such user takes the lease away. *)
Theorem C51_release_partial expiration retries t evs p q :
  all_prompt expiration retries (lease_init t) evs ->
  let x := lease_run expiration retries (lease_init t) evs in
  prompt x (Step p) -> holds x q -> p <> q ->
  holds (lease_step expiration retries x (Step p)) q /\
  item (lease_step expiration retries x (Step p)) = item x.
Proof. exact (release_own expiration retries t evs p q). Qed.
Print Assumptions C51_release_partial.

(** Who gets the lease has it alone for its expiration, in whole seconds, less one. *)
Theorem C51_lasts_partial expiration retries t evs p k evs' :
  let x0 := lease_run expiration retries (lease_init t) evs in
  let x := lease_run expiration retries (lease_init t) (evs ++ Step p :: evs') in
  all_prompt expiration retries (lease_init t) (evs ++ Step p :: evs') ->
  users x0 p = LTry k -> item_alive x0 = false ->
  unreleased x p -> now x <= now x0 + (expiration / second - 1) * second ->
  holds x p /\ forall q, holds x q -> q = p.
Proof. exact (lasts expiration retries t evs p k evs'). Qed.
Print Assumptions C51_lasts_partial.

(** Who comes to release after [expires_at] leaves the item alone, then and ever after. *)
Theorem C51_late expiration retries x p a e evs : users x p = LHeld a e -> a < now x ->
  item (lease_step expiration retries x (Step p)) = item x /\
  let x' := lease_run expiration retries (lease_step expiration retries x (Step p)) evs in
  lease_step expiration retries x' (Step p) = x'.
Proof. exact (late expiration retries x p a e evs). Qed.
Print Assumptions C51_late.

(** A free lease can be acquired. *)
Theorem C51_acquire_free expiration retries x p k :
  users x p = LTry k -> item_alive x = false -> 0 < expiration / second ->
  holds (lease_step expiration retries x (Step p)) p.
Proof. exact (acquires_free expiration retries x p k). Qed.
Print Assumptions C51_acquire_free.

Definition five_minutes : Z := 300 * second.

(** By the lease objects' own reckoning exclusion fails with the default
    expiration, even if [expires_at] is set in the instant of the [add]: memcached
    drops the item up to a second before [expires_at]. *)
Theorem C51_exclusion_refuted : exists evs,
  let x := lease_run five_minutes 6 (lease_init 0) evs in
  thinks_it_holds x 0 /\ thinks_it_holds x 1.
Proof.
  exists [Tick 900000; Step 0; Step 0; Tick 299100000; Step 1; Step 1; Tick 500000].
  split; eexists; eexists; (split; [reflexivity|discriminate]).
Qed.
Print Assumptions C51_exclusion_refuted.

(** A release in that second deletes the item of the next holder, so that a third
    user acquires the lease too, and both have it for minutes. *)
Theorem C51_release_refuted : exists evs,
  let x := lease_run five_minutes 6 (lease_init 0) evs in
  holds x 1 /\ holds x 2 /\
  forall d, (d < 299 * 1000000)%N ->
    thinks_it_holds (lease_step five_minutes 6 x (Tick d)) 1 /\
    thinks_it_holds (lease_step five_minutes 6 x (Tick d)) 2.
Proof.
  exists [Tick 900000; Step 0; Step 0; Tick 299100000; Step 1; Step 1; Tick 500000; Step 0; Step 0;
          Step 2; Step 2].
  split; [reflexivity|]. split; [reflexivity|]. intros d D. split; eexists; eexists; (split; [reflexivity|]).
  - change (300500000 + Z.of_N d <= 600000000). lia.
  - change (300500000 + Z.of_N d <= 600500000). lia.
Qed.
Print Assumptions C51_release_refuted.

(** An expiration below a second is sent as 0, which memcached takes as never: a
    user that dies keeps the lease for ever. *)
Theorem C51_expires_refuted : exists evs, forall d,
  let x := lease_run (second / 2) 6 (lease_init 0) evs in
  ~ thinks_it_holds (lease_step (second / 2) 6 x (Tick (500001 + d))) 0 /\
  item_alive (lease_step (second / 2) 6 x (Tick (500001 + d))) = true.
Proof.
  exists [Step 0; Step 0]. intros d. split; [|reflexivity].
  intros (a & e & U & L). injection U as <- <-.
  change (0 + Z.of_N (500001 + d) <= 500000) in L. lia.
Qed.
Print Assumptions C51_expires_refuted.

(** A run that meets the hypotheses: user 1 waits, user 0 releases in time. *)
Example C51_case :
  let evs := [Step 0; Step 1; Step 0; Tick 5000000; Step 1; Tick 60000000; Step 0; Step 0; Step 1; Step 1] in
  all_prompt five_minutes 6 (lease_init 0) evs /\
  holds (lease_run five_minutes 6 (lease_init 0) evs) 1 /\
  users (lease_run five_minutes 6 (lease_init 0) evs) 0 = LDone.
Proof. cbn zeta. split; [|split; reflexivity]. simpl. intuition. Qed.

(** User 0 has the lease 298 seconds after it got it; user 1 comes to release after six minutes, when user 2 has it. *)
Example C51_lasts_case : let evs := [Tick 900000] in let evs' := [Step 0; Step 1; Tick 298000000; Step 1] in
  let x0 := lease_run five_minutes 6 (lease_init 0) evs in let x := lease_run five_minutes 6 (lease_init 0) (evs ++ Step 0 :: evs') in
  all_prompt five_minutes 6 (lease_init 0) (evs ++ Step 0%nat :: evs') /\ users x0 0 = LTry 0 /\ item_alive x0 = false /\
  unreleased x 0 /\ now x <= now x0 + (five_minutes / second - 1) * second.
Proof. cbn zeta. split; [simpl; intuition|]. split; [reflexivity|]. split; [reflexivity|]. split; [exact I|]. vm_compute. discriminate. Qed.
Example C51_late_case : let x := lease_run five_minutes 6 (lease_init 0) [Step 1; Step 1; Tick 360000000; Step 2; Step 2] in
  users x 1 = LHeld five_minutes (Some 300) /\ five_minutes < now x /\ holds x 2.
Proof. split; [reflexivity|]. split; reflexivity. Qed.
