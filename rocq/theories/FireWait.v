(** Proofs about the wait for missing sequence numbers. *)
From Coq Require Import String List NArith ZArith Bool Sorted Lia Arith.
From Verif Require Import Base Lists FireModel FireSpec FireProofs.
Import ListNotations.
Local Open Scope Z_scope.

Lemma skip_lost_spec lost n k : n + Z.of_nat k <= skip_lost lost n k + 1 -> forall m, n <= m < n + Z.of_nat k - 1 -> In m lost.
Proof.
  revert n. induction k as [|k IH]; intros n H m Hm; [lia|]. cbn [skip_lost] in H. destruct k as [|k]; [lia|].
  destruct (existsb (Z.eqb n) lost) eqn:E; [|lia].
  destruct (Z.eq_dec m n) as [->|N].
  - apply existsb_exists in E. destruct E as (x & Hx & E). apply Z.eqb_eq in E. now subst.
  - apply (IH (n + 1)); lia.
Qed.

Section Wait.
Variable cf : config.
Hypothesis W : (0 < rollback_window cf)%nat.

Definition justified (f : fire) (e : event) : Prop :=
  exists p, previous cf f p /\ ((forall m, p < m < e_seq e -> In m (f_lost f)) \/ waited cf f \/ too_far cf f (e_seq e)).

(** The moment that [f_last_event] is the time of. *)
Definition marked (f : fire) : Prop :=
  exists f1 a f1', step cf f1 a = Some f1' /\ later cf f1' f /\ f_last_event f = f_now f1 /\
    match f_coll f with
    | CSend _ e => sets_out f1 a e /\ f_sent f = f_sent f1
    | _ => (begins f1 a /\ f_sent f = f_sent f1) \/ exists e, sets_out f1 a e /\ f_sent f = f_sent f1 ++ [e]
    end.

Definition counted (f : fire) : Prop :=
  match f_coll f with
  | CNew | CDead => True
  | CPreload last _ _ => exists f0, f_coll f0 = CNew /\ f_last f0 = Some last /\ later cf f0 f
  | CSend _ e => justified f e
  | CEmit _ e => previous cf f (f_last_seq f) /\ justified f e
  | _ => previous cf f (f_last_seq f)
  end.

Definition waiting (f : fire) : Prop := counted f /\ (f_started f = true -> marked f).

Lemma previous_later f f' n : later cf f f' -> collected f' = collected f -> previous cf f n -> previous cf f' n.
Proof.
  intros L E. unfold previous. rewrite E. destruct (last_of (collected f)); [auto|].
  intros (f0 & H1 & H2 & H3). exists f0. repeat split; auto. now apply (later_trans _ _ _ _ H3).
Qed.
Lemma waited_later f f' : later cf f f' -> f_sent f' = f_sent f -> waited cf f -> waited cf f'.
Proof.
  intros L E (f1 & a & f1' & f2 & H1 & H2 & H3 & H4 & H5). exists f1, a, f1', f2. rewrite E. repeat split; auto. now apply (later_trans _ _ _ _ H3).
Qed.
Lemma too_far_later f f' n : later cf f f' -> f_sent f' = f_sent f -> too_far cf f n -> too_far cf f' n.
Proof.
  intros L E (f1 & last & H1 & H2 & H3). exists f1, last. rewrite E. repeat split; try tauto. now apply (later_trans _ _ _ _ H1).
Qed.
Lemma justified_later f f' e : later cf f f' -> f_pre f' = f_pre f -> f_sent f' = f_sent f -> incl (f_lost f) (f_lost f') ->
  justified f e -> justified f' e.
Proof.
  intros L Ep Es I (p & H1 & H2). exists p. split; [apply (previous_later f); auto; unfold collected; congruence|].
  destruct H2 as [H2|[H2|H2]]; [left; intros m Hm; apply I; auto|right; left; now apply (waited_later f)|right; right; now apply (too_far_later f)].
Qed.
Lemma marked_later f f' : later cf f f' -> f_sent f' = f_sent f -> f_last_event f' = f_last_event f -> f_coll f' = f_coll f \/ ((forall q e, f_coll f <> CSend q e) /\ forall q e, f_coll f' <> CSend q e) ->
  marked f -> marked f'.
Proof.
  intros L E Ev C (f1 & a & f1' & H1 & H2 & H3 & H4). exists f1, a, f1'. split; [exact H1|]. split; [now apply (later_trans _ _ _ _ H2)|].
  split; [congruence|]. rewrite E. destruct C as [->|[C1 C2]]; [exact H4|].
  destruct (f_coll f); try (destruct (C1 _ _ eq_refl)); destruct (f_coll f'); try (destruct (C2 _ _ eq_refl)); exact H4.
Qed.

(** A step that only touches [f_coll] or what is around the collector. *)
Lemma counted_same f f' : later cf f f' -> f_coll f' = f_coll f -> f_last_seq f' = f_last_seq f -> f_pre f' = f_pre f -> f_sent f' = f_sent f ->
  incl (f_lost f) (f_lost f') -> counted f -> counted f'.
Proof.
  intros L C S Ep Es I. unfold counted. rewrite C, S.
  assert (P : forall n, previous cf f n -> previous cf f' n) by (intros n; apply previous_later; auto; unfold collected; congruence).
  destruct (f_coll f); auto.
  - intros (f0 & H1 & H2 & H3). exists f0. repeat split; auto. now apply (later_trans _ _ _ _ H3).
  - intros [H1 H2]. split; [auto|]. now apply (justified_later f).
  - intros H. now apply (justified_later f).
Qed.

Lemma waiting_step f a f' : ordered cf f /\ waiting f -> step cf f a = Some f' -> waiting f'.
Proof.
  intros (O & C & M) E. pose proof (later_step _ _ _ _ E) as L.
  assert (SS : forall f1, later cf f f1 -> f_coll f1 = f_coll f -> f_last_seq f1 = f_last_seq f -> f_pre f1 = f_pre f -> f_sent f1 = f_sent f ->
    incl (f_lost f) (f_lost f1) -> f_started f1 = f_started f -> f_last_event f1 = f_last_event f -> waiting f1).
  { intros f1 L1 H1 H2 H3 H4 H5 H6 H7. split; [now apply (counted_same f)|]. rewrite H6. intros S. apply (marked_later f); auto. }
  assert (PP : forall c n, previous cf f n -> later cf f (with_coll f c) -> previous cf (with_coll f c) n).
  { intros c n H L1. now apply (previous_later f). }
  assert (MM : forall c, later cf f (with_coll f c) -> (forall q e, f_coll f <> CSend q e) -> (forall q e, c <> CSend q e) -> f_started f = true -> marked (with_coll f c)).
  { intros c L1 H H' S. apply (marked_later f); auto. }
  pose proof (o_ahead _ _ O) as A. unfold ahead in A. unfold counted in C. unfold waiting.
  destruct (step_cases _ _ _ _ E) as [Mv|[Mv|Mv]].
  - inversion Mv; subst; clear Mv; apply SS; auto; try apply incl_refl. cbn. apply incl_appl, incl_refl.
  - assert (B : forall (b : begins f a) (En : f_last_event f' = f_now f) (Es : f_sent f' = f_sent f), (forall q e, f_coll f' <> CSend q e) -> marked f').
    { intros b En Es NS. exists f, a, f'. split; [exact E|]. split; [apply later_refl|]. split; [exact En|].
      assert (X : (begins f a /\ f_sent f' = f_sent f) \/ exists e, sets_out f a e /\ f_sent f' = f_sent f ++ [e]) by auto.
      destruct (f_coll f') eqn:Cf; try exact X. edestruct NS; reflexivity. }
    inversion Mv; subst; clear Mv; match goal with H : f_coll f = _ |- _ => rename H into Hc; rewrite Hc in C, A end; cbn [f_started with_coll restart].
    + split; [exact Logic.I|]. intros S. congruence.
    + split; [|congruence]. unfold counted. cbn. now exists f.
    + split; [unfold counted; cbn; now apply (previous_later f)|]. intros _. apply B; try reflexivity; [|discriminate]. unfold begins. now rewrite Hc.
    + split; [unfold counted; cbn; now apply PP|]. intros S. apply MM; auto; congruence.
    + split; [unfold counted; cbn; now apply PP|]. intros S. apply MM; auto; congruence.
    + split; [|intros S; apply MM; auto; congruence]. unfold counted. cbn. split; [now apply PP|].
      apply (justified_later f); auto; [apply incl_refl|]. exists (f_last_seq f). split; [exact C|]. left. intros m Hm.
      unfold next_seq in H0. apply (skip_lost_spec _ (f_last_seq f + 1) (Z.to_nat (e_seq e - f_last_seq f))); rewrite Z2Nat.id by lia; lia.
    + split; [unfold counted; cbn; now apply PP|]. intros S. apply MM; auto; congruence.
    + split; [|intros S; apply MM; auto; congruence]. unfold counted. cbn. split; [now apply PP|].
      apply (justified_later f); auto; [apply incl_refl|]. exists (f_last_seq f). split; [exact C|]. right. left.
      destruct (M (proj2 A)) as (f1 & a & f1' & H1 & H2 & H3 & H4). exists f1, a, f1', f. repeat split; auto.
      * apply later_refl.
      * rewrite <- H3. exact H0.
      * rewrite Hc in H4. exact H4.
    + split; [unfold counted; cbn; now apply PP|]. intros S. apply MM; auto; congruence.
    + split; [unfold counted; cbn; now apply PP|]. intros S. apply MM; auto; congruence.
    + split; [|intros S; apply MM; auto; congruence]. unfold counted. cbn. split; [now apply PP|].
      apply (justified_later f); auto; [apply incl_refl|]. exists (f_last_seq f). split; [exact C|]. right. right.
      exists f, last. repeat split; auto. apply later_refl.
    + split; [unfold counted; cbn; apply (justified_later f); auto; [apply incl_refl|tauto]|]. intros _.
      exists f, CStep. eexists. split; [exact E|]. split; [apply later_refl|]. split; [reflexivity|]. split; [now exists q|reflexivity].
    + split.
      * unfold counted. cbn. unfold previous, collected. cbn. rewrite app_assoc, last_of_app. tauto.
      * intros _. destruct (M (proj1 (proj2 (proj2 A)))) as (f1 & a & f1' & H1 & H2 & H3 & H4).
        exists f1, a, f1'. split; [exact H1|]. split; [now apply (later_trans _ _ _ _ H2)|]. split; [exact H3|].
        rewrite Hc in H4. cbn. right. exists e. destruct H4 as [H4 H5]. rewrite H5. auto.
    + split; [|congruence]. unfold counted. cbn. destruct C as (f0 & H1 & H2 & H3). exists f0. repeat split; auto. now apply (later_trans _ _ _ _ H3).
    + split; [unfold counted; cbn; now apply PP|]. intros S. apply MM; auto; congruence.
    + split; [unfold counted; cbn; now apply PP|]. intros S. apply MM; auto; congruence.
    + split; [|intros _; apply B; try reflexivity; [unfold begins; now rewrite Hc|discriminate]].
      unfold counted. cbn. unfold previous, collected. cbn. destruct (o_start _ _ O A) as [_ Es]. rewrite Es, app_nil_r, (lastn_last _ _ W).
      destruct (last_of got) eqn:Lg; [reflexivity|]. destruct C as (f0 & H1 & H2 & H3). exists f0. repeat split; auto. now apply (later_trans _ _ _ _ H3).
    + split; [unfold counted; cbn; now apply PP|]. intros S. apply MM; auto; congruence.
    + split; [exact Logic.I|]. congruence.
    + split; [unfold counted; cbn; now apply (previous_later f)|]. intros _. apply B; try reflexivity; [|discriminate]. unfold begins. now rewrite Hc.
    + split; [unfold counted; cbn; now apply (previous_later f)|]. intros _. apply B; try reflexivity; [|discriminate]. unfold begins. now rewrite Hc.
  - destruct (sub_fields _ _ _ _ Mv) as (Elog & Elast & Elost & Enow & Est & Ecoll & Eseq & Eev & Epre & Esent). apply SS; auto.
    rewrite Elost. apply incl_refl.
Qed.

Lemma reached_waiting P f : reached cf P f -> ordered cf f /\ waiting f.
Proof.
  apply (reached_invariant cf P (fun f => ordered cf f /\ waiting f)).
  - intros g a g' [O Wt] _ E. split; [now apply (ordered_step _ _ _ _ O E)|now apply (waiting_step _ _ _ (conj O Wt) E)].
  - split; [apply ordered0|]. split; [exact Logic.I|discriminate].
Qed.

Lemma c30 P f a f' e : reached cf P f -> step cf f a = Some f' -> f_sent f' = f_sent f ++ [e] -> justified f e.
Proof.
  intros R E Es. destruct (reached_waiting _ _ R) as (O & C & _).
  assert (X : f_sent f' <> f_sent f). { rewrite Es. intros X. apply (f_equal (@length event)) in X. rewrite app_length in X. cbn in X. lia. }
  destruct (step_cases _ _ _ _ E) as [Mv|[Mv|Mv]].
  - inversion Mv; subst; now destruct X.
  - unfold counted in C. inversion Mv; subst; try (now destruct X). cbn in Es. apply app_inv_head in Es. injection Es as ->. now rewrite H in C.
  - destruct (sub_fields _ _ _ _ Mv) as (_ & _ & _ & _ & _ & _ & _ & _ & _ & Y). now destruct X.
Qed.

End Wait.
