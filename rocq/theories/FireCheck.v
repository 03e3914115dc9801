(** Deciding the conditions of FireSpec along concrete runs. *)
From Coq Require Import String List NArith ZArith Bool Lia Sorted.
From Verif Require Import Base Lists FireModel FireSpec.
Import ListNotations.
Local Open Scope Z_scope.

Definition event_eqb (a b : event) : bool := (e_seq a =? e_seq b) && str_eqb (e_body a) (e_body b).
Lemma event_eqb_eq a b : event_eqb a b = true <-> a = b.
Proof.
  unfold event_eqb. rewrite andb_true_iff, Z.eqb_eq, str_eqb_eq. destruct a, b; cbn. split; [intros [-> ->]; reflexivity|intros [= -> ->]; auto].
Qed.

Definition givesb (log : list event) (q : query) (e : event) : bool :=
  existsb (event_eqb e) log && (q_pos q <=? e_seq e) && forallb (fun x => e_seq e <=? e_seq x) (q_left q).
Lemma givesb_ok log q e : givesb log q e = true -> gives log q e.
Proof.
  unfold givesb, gives. rewrite !andb_true_iff, existsb_exists, forallb_forall, Z.leb_le. intros (((x & Hx & E) & P) & F).
  apply event_eqb_eq in E. subst x. split; [assumption|]. split; [assumption|]. intros x Hq. apply Z.leb_le. auto.
Qed.

Definition nilb {A} (l : list A) : bool := match l with [] => true | _ => false end.
Lemma nilb_ok {A} (l : list A) : nilb l = true -> l = [].
Proof. now destruct l. Qed.

Definition honestb (f : fire) (a : act) : bool :=
  match a with
  | EAdd e => (0 <? e_seq e) && negb (existsb (Z.eqb (e_seq e)) (map e_seq (f_log f)))
  | CItem e => match f_coll f with CPreload _ q _ | CRead q => givesb (f_log f) q e | _ => true end
  | CEnd => match f_coll f with CPreload _ q _ | CRead q => nilb (q_left q) | _ => true end
  | SItem i e => match nth_error (f_threads f) i with Some (Sub (SQuery _ _ _ q) _) => givesb (f_log f) q e | _ => true end
  | SEnd i => match nth_error (f_threads f) i with Some (Sub (SQuery _ _ _ q) _) => nilb (q_left q) | _ => true end
  | _ => true
  end.
Lemma honestb_ok f a : honestb f a = true -> honest f a.
Proof.
  destruct a; cbn; auto.
  - rewrite andb_true_iff, Z.ltb_lt, negb_true_iff. intros [P N]. split; [assumption|]. intros H.
    assert (X : existsb (Z.eqb (e_seq e)) (map e_seq (f_log f)) = true). { apply existsb_exists. exists (e_seq e). split; [assumption|apply Z.eqb_refl]. } congruence.
  - destruct (f_coll f); auto; apply givesb_ok.
  - destruct (f_coll f); auto; apply nilb_ok.
  - intros H c pre last q out T. unfold thread in T. rewrite T in H. now apply givesb_ok.
  - intros H c pre last q out T. unfold thread in T. rewrite T in H. now apply nilb_ok.
Qed.

Definition windowed (f : fire) (i : nat) : bool :=
  match nth_error (f_threads f) i with
  | Some (Sub (SQuery _ _ _ _) _) | Some (Sub (SGot _ _ _ _) _) | Some (Sub (SCopy _) _) => true
  | _ => false
  end.
Lemma windowed_ok f i : catching_up f i \/ copying f i -> windowed f i = true.
Proof.
  unfold windowed, catching_up, copying, thread. intros [(out & [(c & pre & last & q & ->)|(c & pre & q & e & ->)])|(c & out & ->)]; reflexivity.
Qed.

Fixpoint events_eqb (a b : list event) : bool :=
  match a, b with
  | [], [] => true
  | x :: a', y :: b' => event_eqb x y && events_eqb a' b'
  | _, _ => false
  end.
Lemma events_eqb_eq a b : events_eqb a b = true <-> a = b.
Proof.
  revert b. induction a as [|x a IH]; intros [|y b]; cbn; try (split; [discriminate|discriminate]); [tauto|].
  rewrite andb_true_iff, event_eqb_eq, IH. split; [intros [-> ->]; reflexivity|intros [= -> ->]; auto].
Qed.

Definition undisturbedb (cf : config) (i : nat) (f : fire) (a : act) : bool :=
  match a with
  | SStep j =>
      negb (windowed f i) || (j =? i)%nat ||
      match step cf f a with Some f' => events_eqb (f_rollback f') (f_rollback f) | None => true end
  | _ => true
  end.
Lemma undisturbedb_ok cf i f a : undisturbedb cf i f a = true -> undisturbed cf i f a.
Proof.
  intros H j f' C -> NE E. unfold undisturbedb in H. rewrite E, (windowed_ok _ _ C) in H. cbn [negb orb] in H.
  apply Nat.eqb_neq in NE. rewrite NE in H. cbn [orb] in H. now apply events_eqb_eq.
Qed.

Definition aloneb (i : nat) (f : fire) (a : act) : bool := match a with SStep j => (j =? i)%nat | _ => true end.
Lemma aloneb_ok i f a : aloneb i f a = true -> alone i f a.
Proof. intros H j ->. cbn in H. now apply Nat.eqb_eq. Qed.

Definition copyingb (f : fire) (i : nat) : bool :=
  match nth_error (f_threads f) i with Some (Sub (SCopy _) _) => true | _ => false end.
Definition calmb (cf : config) (i : nat) (f : fire) (a : act) : bool :=
  negb (copyingb f i) || match step cf f a with Some f' => events_eqb (f_sent f') (f_sent f) | None => true end.
Lemma calmb_ok cf i f a : calmb cf i f a = true -> calm cf i f a.
Proof.
  intros H (c & out & T) f' E. unfold calmb, copyingb in H. unfold thread in T. rewrite T, E in H. cbn in H. now apply events_eqb_eq.
Qed.

Definition timelyb (cf : config) (i n : nat) (f : fire) : bool := negb (windowed f i) || (length (f_sent f) <=? n + rollback_window cf)%nat.
Lemma timelyb_ok cf i n f : timelyb cf i n f = true -> timely cf i n f.
Proof. intros H C. unfold timelyb in H. rewrite (windowed_ok _ _ C) in H. cbn in H. now apply Nat.leb_le. Qed.

(** A run with conditions on its actions and its states. *)
Fixpoint checked (cf : config) (p : fire -> act -> bool) (t : fire -> bool) (f : fire) (l : list act) : option fire :=
  if t f then
    match l with
    | [] => Some f
    | a :: r => if p f a then match step cf f a with Some f' => checked cf p t f' r | None => None end else None
    end
  else None.

Lemma checked_ok cf p t (P : fire -> act -> Prop) (Q : fire -> Prop) f l f' :
  (forall g a, p g a = true -> P g a) -> (forall g, t g = true -> Q g) -> checked cf p t f l = Some f' ->
  run cf f l = Some f' /\ along cf P f l /\ throughout cf Q f l.
Proof.
  intros HP HQ. revert f. induction l as [|a l IH]; intros f; cbn [checked run along throughout]; destruct (t f) eqn:T; try discriminate.
  - intros [= ->]. auto.
  - destruct (p f a) eqn:Pa; [|discriminate]. destruct (step cf f a) as [g|]; [|discriminate]. intros H. destruct (IH g H) as (H1 & H2 & H3). auto 6.
Qed.

Definition always {A} (_ : A) : bool := true.

Lemma checked_reached cf l f : checked cf honestb always fire0 l = Some f -> reached cf honest f.
Proof.
  intros H. destruct (checked_ok cf honestb always honest (fun _ => True) _ _ _ honestb_ok (fun _ _ => Logic.I) H) as (H1 & H2 & _). now exists l.
Qed.
