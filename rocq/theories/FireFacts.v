(** Facts about the messages of one subscriber, whatever everyone else does. *)
From Coq Require Import String List NArith ZArith Bool Lia Sorted.
From Verif Require Import Base Lists FireModel FireSpec FireProofs FireWait FireHonest.
Import ListNotations.
Local Open Scope Z_scope.

Section Facts.
Variable cf : config.

(** How a step changes the thread of a subscriber. *)
Inductive turns (f : fire) : sstate -> list msg -> sstate -> list msg -> Prop :=
| TuRequest c out : turns f (SRequest c) out (s_state (request_step cf f c out)) (s_out (request_step cf f c out))
| TuNew c out st : (forall c', st <> SRequest c') -> (forall x, st <> SLive x) -> (c = None -> st = SEnqueue None) -> turns f (SNew c) out st out
| TuQuiet st out st' : (forall c, st' <> SRequest c) -> (forall c, st <> SRequest c) -> (forall x, st <> SDead x) -> st <> SNew None -> st <> SEnqueue None -> turns f st out st' out
| TuEvent st out st' e : (forall c, st' <> SRequest c) -> (forall c, st <> SRequest c) -> (forall x, st <> SDead x) -> st <> SNew None -> st <> SEnqueue None -> turns f st out st' (out ++ [MEvent e])
| TuEnter out : turns f (SEnqueue None) out (SLive []) out
| TuClose st out : (forall x, st <> SDead x) -> turns f st out (SDead None) out
| TuNone st out : turns f st out st out.

Lemma turn f a f' i st out : thread f i st out -> step cf f a = Some f' -> exists st' out', thread f' i st' out' /\ turns f st out st' out'.
Proof.
  intros T E.
  assert (X : forall f1, f_threads f1 = f_threads f -> exists st' out', thread f1 i st' out' /\ turns f st out st' out').
  { intros f1 Et. exists st, out. split; [unfold thread; now rewrite Et|]. apply TuNone. }
  cases E; try (apply X; reflexivity).
  - eexists _, out. split; [exact (thread_put cf f q e _ _ _ T)|]. unfold put_one. cbn. destruct (existsb _ _); [|apply TuNone].
    destruct st; cbn; try apply TuNone. apply TuQuiet; discriminate.
  - assert (Y : forall j t, f_threads f' = set_nth j t (f_threads f) -> j <> i -> exists st' out', thread f' i st' out' /\ turns f st out st' out').
    { intros j t Et NE. exists st, out. split; [unfold thread; rewrite Et, set_nth_other by assumption; exact T|]. apply TuNone. }
    assert (Z : forall st1 out1, thread f i st1 out1 -> st1 = st /\ out1 = out).
    { intros st1 out1 T1. now apply (thread_fun _ _ _ _ _ _ T1 T). }
    assert (V : forall t, f_threads f' = set_nth i t (f_threads f) -> turns f st out (s_state t) (s_out t) -> exists st' out', thread f' i st' out' /\ turns f st out st' out').
    { intros [st1 out1] Et Tu. exists st1, out1. split; [|exact Tu]. unfold thread. rewrite Et. apply (set_nth_same _ _ _ _ T). }
    inversion Mv; subst; clear Mv;
    [exists st, out; split; [|apply TuNone]; unfold thread; cbn; rewrite nth_error_app1; [exact T|]; apply nth_error_Some; unfold thread in T; now rewrite T|..];
    (match goal with H : thread f ?j _ _ |- _ => destruct (Nat.eq_dec j i) as [->|NE]; [|exact (Y _ _ eq_refl NE)] end);
    (match goal with H : thread f i _ _ |- _ => destruct (Z _ _ H) as [Zs Zo]; subst end);
    (eapply V; [reflexivity|]); cbn; try (apply TuQuiet; discriminate); try (apply TuEvent; discriminate).
    + apply TuRequest.
    + apply TuNew; unfold new_step; destruct c; try discriminate; repeat destruct (_ <? _); try discriminate; reflexivity.
    + destruct (_ <=? _); [apply TuEvent|apply TuQuiet]; discriminate.
    + apply TuEnter.
    + apply TuQuiet; try discriminate. unfold query_item. now destruct (match lst with Some _ => _ | None => _ end).
    + now apply TuClose.
Qed.

Lemma dead_stays f i x out l f' : thread f i (SDead x) out -> run cf f l = Some f' -> thread f' i (SDead x) out.
Proof.
  intros T R. refine (run_invariant cf anything (fun g => thread g i (SDead x) out) _ _ _ _ T R (along_anything cf _ _)).
  intros g a g' T1 _ E. destruct (turn _ _ _ _ _ _ T1 E) as (st' & out' & T2 & Tu). inversion Tu; subst; try exact T2;
    match goal with H : forall x0, SDead ?x <> SDead x0 |- _ => now destruct (H x) end.
Qed.

(** After the request itself only events are sent. *)
Lemma streams f i st out l f' : thread f i st out -> (forall c, st <> SRequest c) -> run cf f l = Some f' ->
  exists st' D, thread f' i st' (out ++ map MEvent D) /\ (forall c, st' <> SRequest c).
Proof.
  intros T N R. refine (run_invariant cf anything (fun g => exists st' D, thread g i st' (out ++ map MEvent D) /\ (forall c, st' <> SRequest c)) _ _ _ _ _ R (along_anything cf _ _)).
  - intros g a g' (st' & D & T1 & N1) _ E. destruct (turn _ _ _ _ _ _ T1 E) as (st2 & out2 & T2 & Tu). inversion Tu; subst;
      try (eexists _, D; split; [exact T2|]; discriminate).
    + now destruct (N1 c).
    + exists st2, D. auto.
    + exists st2, D. auto.
    + exists st2, (D ++ [e]). rewrite map_app, app_assoc. auto.
    + exists st2, D. auto.
  - exists st, []. rewrite app_nil_r. auto.
Qed.

Lemma c34 f i cursor f1 l f2 : thread f i (SRequest cursor) [] -> step cf f (SStep i) = Some f1 -> run cf f1 l = Some f2 ->
  match f_last f, cursor with
  | None, _ => thread f2 i (SDead (Some AssertionError)) []
  | Some n, Some c =>
      let start := Z.max (n - Z.of_nat (rollback_window cf)) 0 in
      (n < c -> thread f2 i (SDead None) [MFuture c n]) /\
      (c <= n -> c < start -> thread f1 i (SNew (Some start)) [MOutdated] /\ exists st D, thread f2 i st (MOutdated :: map MEvent D)) /\
      (c <= n -> start <= c -> thread f1 i (SNew (Some c)) [] /\ exists st D, thread f2 i st (map MEvent D))
  | Some _, None => thread f1 i (SNew None) [] /\ exists st D, thread f2 i st (map MEvent D)
  end.
Proof.
  intros T E R. cbn [step] in E. unfold on_thread in E. pose proof T as T'. unfold thread in T'. rewrite T' in E. cbn in E. injection E as <-.
  assert (T1 : thread (with_sub f i (request_step cf f cursor [])) i (s_state (request_step cf f cursor [])) (s_out (request_step cf f cursor []))).
  { unfold thread. cbn. erewrite set_nth_same by exact T'. now destruct (request_step cf f cursor []). }
  set (g := with_sub f i (request_step cf f cursor [])) in *. clearbody g. unfold request_step in T1. destruct (f_last f) as [n|].
  2:{ exact (dead_stays _ _ _ _ _ _ T1 R). }
  destruct cursor as [c|].
  - cbn zeta. set (start := Z.max _ _) in *. destruct (Z.ltb_spec n c) as [L|L].
    + cbn in T1. split; [|lia]. intros _. exact (dead_stays _ _ _ _ _ _ T1 R).
    + split; [lia|]. destruct (Z.ltb_spec c start) as [L2|L2]; cbn in T1;
        destruct (streams _ _ _ _ _ _ T1 ltac:(discriminate) R) as (st & D & T2 & _).
      * split; [|lia]. intros _ _. split; [exact T1|]. exists st, D. exact T2.
      * split; [lia|]. intros _ _. split; [exact T1|]. exists st, D. exact T2.
  - cbn in T1. split; [exact T1|]. destruct (streams _ _ _ _ _ _ T1 ltac:(discriminate) R) as (st & D & T2 & _). exists st, D. exact T2.
Qed.

Lemma no_cursor P f i out l f2 : reached cf P f -> thread f i (SNew None) out -> run cf f l = Some f2 ->
  (exists st, thread f2 i st out /\ (st = SNew None \/ st = SEnqueue None \/ st = SDead None)) \/
  exists l1 g g' l2 sent' got rest st, l = l1 ++ SStep i :: l2 /\ run cf f l1 = Some g /\ thread g i (SEnqueue None) out /\
    step cf g (SStep i) = Some g' /\ thread g' i (SLive []) out /\
    f_sent f2 = f_sent g ++ sent' /\ sent' = got ++ rest /\ thread f2 i st (out ++ map MEvent got) /\
    (st = SLive rest \/ exists x, st = SDead x).
Proof.
  intros (l0 & R0 & A0) T R. assert (R1 : reached cf anything f). { exists l0. split; [assumption|apply along_anything]. } clear A0 R0.
  assert (K : forall st, st = SNew None \/ st = SEnqueue None -> thread f i st out ->
    (exists st, thread f2 i st out /\ (st = SNew None \/ st = SEnqueue None \/ st = SDead None)) \/
    exists l1 g g' l2 sent' got rest st, l = l1 ++ SStep i :: l2 /\ run cf f l1 = Some g /\ thread g i (SEnqueue None) out /\
    step cf g (SStep i) = Some g' /\ thread g' i (SLive []) out /\
    f_sent f2 = f_sent g ++ sent' /\ sent' = got ++ rest /\ thread f2 i st (out ++ map MEvent got) /\
    (st = SLive rest \/ exists x, st = SDead x)); [|eauto].
  clear T. revert f R R1. induction l as [|a l IH]; intros f R R1 st Hst T.
  { left. cbn in R. injection R as <-. exists st. intuition. }
  cbn [run] in R. destruct (step cf f a) as [f1|] eqn:E; [|discriminate].
  assert (R2 : reached cf anything f1).
  { destruct R1 as (m & R1 & _). exists (m ++ [a]). split; [|apply along_anything]. rewrite run_app, R1. cbn. now rewrite E. }
  assert (Go : forall st', st' = SNew None \/ st' = SEnqueue None -> thread f1 i st' out ->
    (exists st, thread f2 i st out /\ (st = SNew None \/ st = SEnqueue None \/ st = SDead None)) \/
    exists l1 g g' l2 sent' got rest st, a :: l = l1 ++ SStep i :: l2 /\ run cf f l1 = Some g /\ thread g i (SEnqueue None) out /\
    step cf g (SStep i) = Some g' /\ thread g' i (SLive []) out /\
    f_sent f2 = f_sent g ++ sent' /\ sent' = got ++ rest /\ thread f2 i st (out ++ map MEvent got) /\
    (st = SLive rest \/ exists x, st = SDead x)).
  { intros st' Hst' T'. destruct (IH f1 R R2 st' Hst' T') as [H|(l1 & g & g' & l2 & s' & got & rest & st2 & H1 & H2 & H3)]; [now left|right].
    exists (a :: l1), g, g', l2, s', got, rest, st2. split; [cbn; now rewrite H1|]. split; [cbn [run]; now rewrite E|]. exact H3. }
  destruct (turn _ _ _ _ _ _ T E) as (st' & out' & T' & Tu). inversion Tu; subst; try (destruct Hst; discriminate); eauto.
  - destruct Hst as [[= ->]|]; [|discriminate]. rewrite H1 in T' by reflexivity. eauto.
  - destruct Hst as [->| ->]; contradiction.
  - destruct Hst as [->| ->]; contradiction.
  - right. assert (Ea : a = SStep i).
    { clear - T T' E. rename out' into out. assert (NE : forall f', thread f' i (SEnqueue None) out -> thread f' i (SLive []) out -> False).
      { intros f' X Y. destruct (thread_fun _ _ _ _ _ _ X Y). discriminate. }
      assert (X : forall f', f_threads f' = f_threads f -> thread f' i (SLive []) out -> False).
      { intros f' Et Y. apply (NE f'); [unfold thread; now rewrite Et|exact Y]. }
      cases E; try (exfalso; refine (X _ _ T'); reflexivity).
      - exfalso. eapply NE; [|exact T']. pose proof (thread_put cf f q e _ _ _ T) as Z. unfold put_one in Z. cbn in Z. now destruct (existsb _ _).
      - assert (W : forall j t, f_threads f1 = set_nth j t (f_threads f) -> j = i \/ False).
        { intros j t Et. destruct (Nat.eq_dec j i); [now left|right]. apply (NE f1); [|exact T']. unfold thread. now rewrite Et, set_nth_other. }
        inversion Mv; subst; clear Mv;
        [exfalso; eapply NE; [|exact T']; unfold thread; cbn; rewrite nth_error_app1; [exact T|]; apply nth_error_Some; unfold thread in T; now rewrite T|..];
        (match goal with H : thread f ?j _ _ |- _ => destruct (W j _ eq_refl) as [->|[]]; destruct (thread_fun _ _ _ _ _ _ H T) as [Zs Zo]; subst; try discriminate Zs end); try reflexivity.
        unfold thread in T'. cbn in T'. erewrite set_nth_same in T' by exact T. discriminate. }
    subst a. destruct (fan_out cf _ _ _ _ _ _ _ R2 T' R) as (s' & got & rest & st2 & F1 & F2 & F3 & F4).
    exists [], f, f1, l, s', got, rest, st2. cbn in F2. split; [reflexivity|]. split; [reflexivity|]. split; [exact T|]. split; [exact E|]. split; [exact T'|].
    split; [|now split]. rewrite F1. f_equal. clear - T E. cbn [step] in E. unfold on_thread in E. unfold thread in T. rewrite T in E. cbn in E. now injection E as <-.
  - left. exists (SDead None). split; [|auto]. exact (dead_stays _ _ _ _ _ _ T' R).
Qed.


(** *** Numbers passed over *)

Lemma sent_grows f l f' : run cf f l = Some f' -> exists more, f_sent f' = f_sent f ++ more.
Proof.
  intros R. refine (run_invariant cf anything (fun g => exists more, f_sent g = f_sent f ++ more) _ _ _ _ _ R (along_anything cf _ _)).
  2:{ exists []. now rewrite app_nil_r. }
  intros g a g' (more & E) _ Es. cases Es; try (exists more; exact E).
  - exists (more ++ [e]). cbn. now rewrite E, app_assoc.
  - exists more. congruence.
Qed.

Definition collecting (c : cstate) : bool := match c with CNew | CPreload _ _ _ | CDead => false | _ => true end.

Lemma keeps_collecting f l f' : collecting (f_coll f) = true -> run cf f l = Some f' -> collecting (f_coll f') = true /\ f_pre f' = f_pre f.
Proof.
  intros S R. refine (run_invariant cf anything (fun g => collecting (f_coll g) = true /\ f_pre g = f_pre f) _ _ _ _ _ R (along_anything cf _ _)); [|auto].
  intros g a g' (S1 & K) _ E. cases E; cbn; try (split; [assumption|exact K]); try (split; [reflexivity|exact K]);
    try (match goal with H : f_coll g = _ |- _ => rewrite H in S1; discriminate S1 end). rewrite Ecoll, Epre. auto.
Qed.

Lemma started_collecting P f : reached cf P f -> f_started f = collecting (f_coll f).
Proof.
  apply (reached_invariant cf P (fun f => f_started f = collecting (f_coll f))); [|reflexivity].
  intros g a g' S _ E. cases E; cbn; try assumption; try reflexivity; try (rewrite S; match goal with H : f_coll g = _ |- _ => now rewrite H end).
  now rewrite Ecoll, Est.
Qed.

Lemma dead_collector f l f' : f_coll f = CDead -> run cf f l = Some f' -> f_coll f' = CDead.
Proof.
  intros S R. refine (run_invariant cf anything (fun g => f_coll g = CDead) _ _ _ _ S R (along_anything cf _ _)).
  intros g a g' S1 _ E. cases E; cbn; try assumption; try congruence.
Qed.

(** A number before one that the collector has taken up is never sent later. *)
Lemma passed_over P f m x l f' : (0 < rollback_window cf)%nat -> reached cf P f -> f_started f = true ->
  last_of (collected f) = Some x -> m < e_seq x -> ~ In m (map e_seq (f_sent f)) -> run cf f l = Some f' ->
  ~ In m (map e_seq (f_sent f')).
Proof.
  intros W R S L Lt N Ru. assert (R' : reached cf anything f').
  { destruct R as (l0 & R & _). exists (l0 ++ l). split; [now rewrite run_app, R|apply along_anything]. }
  destruct (sent_grows _ _ _ Ru) as (more & Es). pose proof (reached_ordered cf _ _ R') as O.
  rewrite (started_collecting _ _ R) in S. destruct (keeps_collecting _ _ _ S Ru) as [_ Ep].
  rewrite Es, map_app, in_app_iff. intros [H|H]; [now apply N|]. apply in_map_iff in H. destruct H as (e & <- & He).
  unfold collected in L. destruct (f_sent f) as [|z r] eqn:Ef.
  - rewrite app_nil_r in L. pose proof (o_first cf f' O x e W ltac:(now rewrite Ep) ltac:(now rewrite Es)). lia.
  - pose proof (o_sent cf f' O) as I. rewrite Es in I. apply ssorted_app in I. destruct I as (_ & _ & I).
    assert (Hx : In x (z :: r)).
    { apply last_of_In. now rewrite last_of_app2 in L by discriminate. }
    pose proof (I x e Hx He). cbn in H. lia.
Qed.

End Facts.

(** ** The properties *)

Lemma c29 : forall cf f, reached cf anything f ->
  increasing (f_sent f) /\ NoDup (map e_seq (f_sent f)) /\
  forall p x, (0 < rollback_window cf)%nat -> last_of (f_pre f) = Some p -> In x (f_sent f) -> e_seq p < e_seq x.
Proof.
  intros cf f R. pose proof (reached_ordered cf _ _ R) as O. split; [exact (o_sent _ _ O)|]. split; [|exact (o_first _ _ O)].
  generalize (o_sent _ _ O). generalize (f_sent f). intros l I. induction I as [|x l I IH F]; cbn; constructor; [|assumption].
  rewrite in_map_iff. intros (y & E & Hy). rewrite Forall_forall in F. specialize (F y Hy). lia.
Qed.

Lemma c29_honest : forall cf f, (0 < rollback_window cf)%nat -> reached cf honest f ->
  increasing (collected f) /\ incl (collected f) (f_log f).
Proof. intros cf f W R. destruct (reached_sound cf W honest f (fun _ _ H => H) R) as (_ & _ & _ & H). exact (conj (h_inc _ H) (h_log _ H)). Qed.

Lemma c30_wait : forall cf f a f' e, (0 < rollback_window cf)%nat -> reached cf anything f -> step cf f a = Some f' ->
  f_sent f' = f_sent f ++ [e] ->
  exists p, previous cf f p /\
    ((forall m, p < m < e_seq e -> In m (f_lost f)) \/ waited cf f \/ too_far cf f (e_seq e)).
Proof. intros cf f a f' e W R E Es. exact (c30 cf W anything f a f' e R E Es). Qed.

Lemma c33 : forall cf f, reached cf anything f ->
  (NoDup (f_subscribers f) /\ forall i, In i (f_subscribers f) <-> exists q out, thread f i (SLive q) out) /\
  forall i q out l f', In i (f_subscribers f) -> thread f i (SLive q) out -> run cf f l = Some f' ->
    exists sent' got rest st, f_sent f' = f_sent f ++ sent' /\ q ++ sent' = got ++ rest /\
      thread f' i st (out ++ map MEvent got) /\ (st = SLive rest \/ exists x, st = SDead x).
Proof. intros cf f R. split; [exact (reached_registered cf _ _ R)|]. intros i q out l f' _. exact (fan_out cf anything f i q out l f' R). Qed.

Lemma c33_sorted : forall cf f, (0 < rollback_window cf)%nat -> reached cf honest f ->
  increasing (f_rollback f) /\ incl (f_rollback f) (f_log f).
Proof. intros cf f W R. destruct (reached_sound cf W honest f (fun _ _ H => H) R) as (_ & _ & _ & H). exact (conj (h_rb _ H) (h_rblog _ H)). Qed.

Lemma c59 : forall cf f l f', reached cf anything f -> f_started f = true -> run cf f l = Some f' ->
  f_started f' = true /\ f_coll f' <> CDead /\
  forall g, step cf f' CFail = Some g -> f_coll g = CIdle /\ f_sent g = f_sent f' /\ f_rollback g = f_rollback f' /\ f_threads g = f_threads f' /\
    (forall x, In x (f_sent g) -> e_seq x <= f_last_seq g) /\
    forall e q, f_coll f' = CEmit q e -> f_last_seq g < e_seq e.
Proof.
  intros cf f l f' R S Ru. rewrite (started_collecting cf _ _ R) in S. destruct (keeps_collecting _ _ _ _ S Ru) as [C _].
  assert (R' : reached cf anything f').
  { destruct R as (l0 & R & _). exists (l0 ++ l). split; [now rewrite run_app, R|apply along_anything]. }
  split; [now rewrite (started_collecting cf _ _ R')|]. split; [intros X; now rewrite X in C|].
  intros g E. pose proof (reached_ordered cf _ _ R') as O. cbn [step] in E. unfold coll_fail in E.
  pose proof (o_ahead _ _ O) as A. unfold ahead in A.
  destruct (f_coll f') eqn:Ec; try discriminate E; try (now cbn in C); injection E as <-; cbn; repeat (split; [reflexivity|]);
    (split; [exact (o_last _ _ O)|]); intros e0 q0 X; try discriminate X. injection X as <- <-. exact (proj1 A).
Qed.
