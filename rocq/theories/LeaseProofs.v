(** Proofs about leases. *)
From Coq Require Import List NArith ZArith Bool Lia.
From Verif Require Import Base SeqModel SeqProofs LeaseModel LeaseSpec.
Import ListNotations.
Local Open Scope Z_scope.

Section Lease.
Variable expiration : Z.
Variable retries : nat.
Notation step := (lease_step expiration retries).

Definition owns (x : lease_state) : Prop :=
  forall p, match users x p with
            | LAdded e | LHeld _ e | LDeleting _ e => alive e (now x) = true -> item x = Some (p, e)
            | _ => True
            end.

Lemma alive_earlier e t t' : t <= t' -> alive e t' = true -> alive e t = true.
Proof.
  unfold alive, mc_second. destruct e as [z|]; auto. intros H. rewrite !Z.ltb_lt. intros.
  pose proof (Z.div_le_mono t t' second ltac:(reflexivity) H). lia.
Qed.

Lemma step_owns x ev : owns x -> prompt x ev -> owns (step x ev).
Proof.
  intros O P. destruct ev as [d|p].
  - intros q. specialize (O q). cbn [lease_step users item now].
    destruct (users x q); auto; intros A; apply O; (eapply alive_earlier; [|exact A]; lia).
  - pose proof (O p) as Op. cbn [lease_step]. cbn [prompt] in P.
    destruct (users x p) as [k|e|a e|a e| |] eqn:U; auto.
    + destruct (item_alive x) eqn:IA.
      * intros q. unfold with_user; cbn [users item now]. destruct (Nat.eq_dec q p) as [->|NE].
        -- rewrite put_same. destruct (Nat.ltb k retries); auto.
        -- rewrite put_other by auto. apply O.
      * intros q. cbn [users item now]. destruct (Nat.eq_dec q p) as [->|NE].
        -- rewrite put_same. auto.
        -- rewrite put_other by auto. specialize (O q). unfold item_alive in IA.
           destruct (users x q); auto; intros A; rewrite (O A) in IA; congruence.
    + intros q. unfold with_user; cbn [users item now]. destruct (Nat.eq_dec q p) as [->|NE].
      * rewrite put_same. auto.
      * rewrite put_other by auto. apply O.
    + intros q. unfold with_user; cbn [users item now]. destruct (Nat.eq_dec q p) as [->|NE].
      * rewrite put_same. destruct (now x <=? a); auto.
      * rewrite put_other by auto. apply O.
    + intros q. cbn [users item now]. destruct (Nat.eq_dec q p) as [->|NE].
      * rewrite put_same. auto.
      * rewrite put_other by auto. specialize (O q). specialize (Op P).
        destruct (users x q); auto; intros A; specialize (O A); congruence.
Qed.

Lemma run_owns evs : forall x, owns x -> all_prompt expiration retries x evs ->
  owns (lease_run expiration retries x evs).
Proof.
  induction evs as [|ev evs IH]; intros x O P; simpl; auto.
  destruct P as [P1 P2]. apply IH; auto. apply step_owns; auto.
Qed.

Lemma init_owns t : owns (lease_init t).
Proof. intros p. simpl. auto. Qed.

Lemma holds_item x p : owns x -> holds x p -> exists e, item x = Some (p, e) /\ alive e (now x) = true.
Proof.
  intros O H. specialize (O p). unfold holds in H. destruct (users x p); try tauto; eauto.
Qed.

Lemma exclusion t evs p q :
  all_prompt expiration retries (lease_init t) evs ->
  let x := lease_run expiration retries (lease_init t) evs in
  holds x p -> holds x q -> p = q.
Proof.
  intros P x Hp Hq. pose proof (run_owns evs _ (init_owns t) P) as O. fold x in O.
  destruct (holds_item _ _ O Hp) as (e & E & _), (holds_item _ _ O Hq) as (e' & E' & _). congruence.
Qed.

Lemma release_own t evs p q :
  all_prompt expiration retries (lease_init t) evs ->
  let x := lease_run expiration retries (lease_init t) evs in
  prompt x (Step p) -> holds x q -> p <> q -> holds (step x (Step p)) q /\ item (step x (Step p)) = item x.
Proof.
  intros P x Pp Hq NE. pose proof (run_owns evs _ (init_owns t) P) as O. fold x in O. clearbody x.
  destruct (holds_item _ _ O Hq) as (e & E & A).
  assert (I : item (step x (Step p)) = item x).
  { cbn [lease_step]. cbn [prompt] in Pp. pose proof (O p) as Op.
    destruct (users x p) eqn:U; auto.
    - unfold item_alive. rewrite E, A. auto.
    - cbn [item]. specialize (Op Pp). congruence. }
  split; auto. unfold holds in *.
  assert (U : users (step x (Step p)) q = users x q).
  { cbn [lease_step]. destruct (users x p); auto; try (unfold with_user; cbn [users]; apply put_other; auto).
    destruct (item_alive x); unfold with_user; cbn [users]; apply put_other; auto. }
  assert (N : now (step x (Step p)) = now x).
  { cbn [lease_step]. destruct (users x p); auto. destruct (item_alive x); auto. }
  rewrite U, N. auto.
Qed.

(** An [acquire] that has the item to itself succeeds at once. *)
Lemma acquires_free x p k : users x p = LTry k -> item_alive x = false -> 0 < expiration / second ->
  holds (step x (Step p)) p.
Proof.
  intros U I E. unfold holds. cbn [lease_step]. rewrite U, I. cbn [users now]. rewrite put_same.
  destruct (expiration / second =? 0) eqn:Z0; auto. unfold alive. apply Z.ltb_lt. lia.
Qed.

(** The item of a user that has not released is the one it added. *)
Definition has_added (e : expiry) (pc : lease_pc) : Prop :=
  match pc with LAdded e' | LHeld _ e' | LDeleting _ e' => e' = e | LDone => True | _ => False end.
Lemma step_added e x p ev : has_added e (users x p) -> has_added e (users (step x ev) p).
Proof.
  intros H. destruct ev as [d|q]; [exact H|]. destruct (Nat.eq_dec p q) as [->|NE].
  - cbn [lease_step]. destruct (users x q) as [k|e'|a e'|a e'| |] eqn:U; cbn [has_added] in H; try tauto; unfold with_user; cbn [users]; rewrite ?put_same, ?U; cbn; auto.
    destruct (now x <=? a); cbn; auto.
  - assert (E : users (step x (Step q)) p = users x p); [|rewrite E; exact H].
    cbn [lease_step]. destruct (users x q); auto; try (unfold with_user; cbn [users]; apply put_other; auto).
    destruct (item_alive x); unfold with_user; cbn [users]; apply put_other; auto.
Qed.
Lemma run_added e p evs : forall x, has_added e (users x p) -> has_added e (users (lease_run expiration retries x evs) p).
Proof. induction evs as [|ev evs IH]; intros x H; [exact H|]. cbn [lease_run fold_left]. apply IH, step_added, H. Qed.

Lemma lasts t evs p k evs' : let x0 := lease_run expiration retries (lease_init t) evs in let x := lease_run expiration retries (lease_init t) (evs ++ Step p :: evs') in
  all_prompt expiration retries (lease_init t) (evs ++ Step p :: evs') -> users x0 p = LTry k -> item_alive x0 = false ->
  unreleased x p -> now x <= now x0 + (expiration / second - 1) * second ->
  holds x p /\ forall q, holds x q -> q = p.
Proof.
  intros x0 x PR U IA UR LE. assert (HX : holds x p).
  { assert (X : x = lease_run expiration retries (step x0 (Step p)) evs') by (unfold x, x0, lease_run; rewrite fold_left_app; reflexivity).
    set (e0 := if expiration / second =? 0 then None else Some (mc_second (now x0) + expiration / second)).
    assert (A : has_added e0 (users x p)).
    { rewrite X. apply run_added. cbn [lease_step]. rewrite U, IA. cbn [users]. rewrite put_same. reflexivity. }
    assert (AL : alive e0 (now x) = true).
    { unfold e0, alive. destruct (expiration / second =? 0) eqn:Z0; [reflexivity|]. apply Z.ltb_lt. unfold mc_second.
      pose proof (Z.div_le_mono _ _ second ltac:(reflexivity) LE) as D. rewrite Z.div_add in D by discriminate. lia. }
    unfold holds. unfold unreleased in UR. destruct (users x p); cbn [has_added] in A; try tauto; subst; exact AL. }
  split; [exact HX|]. intros q HQ. symmetry. exact (exclusion t _ p q PR HX HQ).
Qed.

Lemma done_stays p evs : forall x, users x p = LDone -> users (lease_run expiration retries x evs) p = LDone.
Proof.
  induction evs as [|ev evs IH]; intros x H; [exact H|]. cbn [lease_run fold_left]. apply IH. destruct ev as [d|q]; [exact H|].
  destruct (Nat.eq_dec p q) as [->|NE]; cbn [lease_step]; [rewrite H; exact H|].
  destruct (users x q); auto; try (unfold with_user; cbn [users]; rewrite put_other; auto).
  destruct (item_alive x); unfold with_user; cbn [users]; rewrite put_other; auto.
Qed.
Lemma late x p a e evs : users x p = LHeld a e -> a < now x ->
  item (step x (Step p)) = item x /\ let x' := lease_run expiration retries (step x (Step p)) evs in step x' (Step p) = x'.
Proof.
  intros U L. assert (LF : (now x <=? a) = false) by (apply Z.leb_gt; lia). split; [cbn [lease_step]; rewrite U; reflexivity|].
  intros x'. assert (D : users x' p = LDone) by (apply done_stays; cbn [lease_step]; rewrite U, LF; apply put_same). cbn [lease_step]. rewrite D. reflexivity.
Qed.
End Lease.
