(** Proofs about what one subscriber receives from an honest storage. *)
From Coq Require Import String List NArith ZArith Bool Sorted Lia Arith.
From Verif Require Import Base Lists FireModel FireSpec FireProofs FireHonest.
Import ListNotations.
Local Open Scope Z_scope.

Lemma throughout_along cf (Q : fire -> Prop) f l f' : run cf f l = Some f' -> throughout cf Q f l ->
  along cf (fun g _ => Q g) f l /\ Q f'.
Proof.
  revert f. induction l as [|a l IH]; intros f; cbn; [intros [= ->]; tauto|].
  destruct (step cf f a) as [g|]; [|discriminate]. intros R [H1 H2]. destruct (IH g R H2) as [H3 H4]. auto.
Qed.

Lemma inc_filter g l : increasing l -> increasing (filter g l).
Proof. apply ssorted_filter. Qed.

Section Serve.
Variable cf : config.
Hypothesis W : (0 < rollback_window cf)%nat.

Definition okay (f : fire) : Prop := ordered cf f /\ window cf f /\ registered f /\ sound f.

Lemma okay_step f a f' : okay f -> honest f a -> step cf f a = Some f' -> okay f'.
Proof.
  intros (H1 & H2 & H3 & H4) Hp E. split; [now apply (ordered_step _ _ _ _ H1 E)|]. split; [now apply (window_step _ _ _ _ (conj H1 H2) E)|].
  split; [now apply (registered_step _ _ _ _ H3 E)|]. now apply (sound_step _ W _ _ _ H1 H2 H4 Hp E).
Qed.

Lemma rollback_head f first rest y : okay f -> f_rollback f = first :: rest -> In y (f_rollback f) -> e_seq first <= e_seq y.
Proof.
  intros (_ & _ & _ & S) R Hy. pose proof (h_rb _ S) as I. rewrite R in I, Hy. apply inc_cons in I. destruct Hy as [<-|Hy]; [lia|].
  destruct I as [_ I]. specialize (I y Hy). lia.
Qed.

Lemma recent f a b : okay f -> collected f = a ++ b -> (length b <= rollback_window cf)%nat -> incl b (f_rollback f).
Proof.
  intros (_ & (_ & older & Wo) & _) E L x Hx. rewrite Wo, E, lastn_app by assumption. apply in_or_app. right. apply in_or_app. auto.
Qed.

Lemma in_rollback f first rest x : okay f -> f_rollback f = first :: rest -> In x (collected f) -> e_seq first <= e_seq x -> In x (f_rollback f).
Proof.
  intros K R Hx L. pose proof K as (_ & (Wl & older & Wo) & _ & S).
  destruct (le_lt_dec (length (collected f)) (rollback_window cf)) as [G|G].
  - rewrite Wo, (lastn_all _ _ G). apply in_or_app. auto.
  - destruct (lastn_split (rollback_window cf) (collected f)) as [r Er]. pose proof Hx as Hx'. rewrite Er in Hx'. apply in_app_or in Hx'.
    destruct Hx' as [Hx'|Hx']; [|rewrite Wo; apply in_or_app; auto]. exfalso.
    pose proof (h_inc _ S) as I. rewrite Er in I. apply inc_app in I. destruct I as (_ & _ & I).
    assert (older = []) as ->.
    { rewrite Wo, app_length, lastn_length in Wl. destruct older; [reflexivity|]. cbn in Wl. lia. }
    specialize (I x first Hx'). cbn [app] in Wo. rewrite <- Wo, R in I. specialize (I (or_introl eq_refl)). lia.
Qed.

Lemma rollback_last f : okay f -> collected f <> [] -> last_of (f_rollback f) = last_of (collected f).
Proof.
  intros (_ & (_ & older & Wo) & _) N. rewrite Wo, last_of_app2; [now apply lastn_last|]. intros E.
  apply (f_equal (@length event)) in E. rewrite lastn_length in E. destruct (collected f); [easy|]. cbn in E. lia.
Qed.

Lemma send_head f q e first rest : okay f -> okay (send cf f q e) -> f_rollback f = first :: rest ->
  exists first' rest', f_rollback (send cf f q e) = first' :: rest' /\ e_seq first <= e_seq first'.
Proof.
  intros K K' R. destruct (f_rollback (send cf f q e)) as [|first' rest'] eqn:R'.
  - exfalso. cbn in R'. apply (f_equal (@length event)) in R'. rewrite lastn_length, app_length in R'. cbn in R'. lia.
  - exists first', rest'. split; [reflexivity|]. assert (H : In first' (f_rollback f ++ [e])).
    { apply (lastn_In (rollback_window cf)). change (In first' (f_rollback (send cf f q e))). rewrite R'. cbn. auto. }
    apply in_app_or in H. destruct H as [H|[<-|[]]]; [now apply (rollback_head f first rest)|].
    destruct K' as (_ & _ & _ & S'). destruct K as (_ & _ & _ & S).
    destruct (h_rbc _ S first) as (y & Hy & L); [rewrite R; cbn; auto|].
    pose proof (h_inc _ S') as I. unfold collected in I. cbn in I. rewrite app_assoc in I. apply inc_app in I. destruct I as (_ & _ & I).
    specialize (I y e Hy (or_introl eq_refl)). lia.
Qed.

Lemma sent_later f q e y : okay (send cf f q e) -> In y (collected f) -> e_seq y < e_seq e.
Proof.
  intros (_ & _ & _ & S') Hy. pose proof (h_inc _ S') as I. unfold collected in I. cbn in I. rewrite app_assoc in I.
  apply inc_app in I. destruct I as (_ & _ & I). exact (I y e Hy (or_introl eq_refl)).
Qed.

Lemma catch_up_filter l rb : increasing rb -> catch_up l rb = filter (fun e => l <? e_seq e) rb.
Proof.
  revert l. induction rb as [|e rb IH]; intros l I; [reflexivity|]. cbn. apply inc_cons in I. destruct I as [I1 I2].
  destruct (l <? e_seq e) eqn:L; [|now apply IH]. rewrite IH by assumption. f_equal. apply filter_ext_in. intros x Hx. specialize (I2 x Hx).
  apply Z.ltb_lt in L. destruct (Z.ltb_spec (e_seq e) (e_seq x)), (Z.ltb_spec l (e_seq x)); lia || reflexivity.
Qed.

(** The events after the handoff are those that the subscriber still finds in the window. *)
Lemma caught_up f collh newh l first rest : okay f -> collected f = collh ++ newh -> last_of collh = Some l ->
  f_rollback f = first :: rest -> e_seq first <= e_seq l -> catch_up (e_seq l) (f_rollback f) = newh.
Proof.
  intros K E L R Lf. pose proof K as (_ & (Wl & older & Wo) & _ & S). rewrite catch_up_filter by apply (h_rb _ S).
  pose proof (h_inc _ S) as I. rewrite E in I. apply inc_app in I. destruct I as (I1 & I2 & I3).
  pose proof (last_of_In _ _ L) as Hl.
  assert (G : (length newh < rollback_window cf)%nat).
  { destruct (le_lt_dec (rollback_window cf) (length newh)) as [G|G]; [|exact G]. exfalso.
    rewrite E, lastn_longer in Wo by assumption.
    assert (older = []) as ->.
    { rewrite Wo, app_length, lastn_length in Wl. destruct older; [reflexivity|]. cbn in Wl. lia. }
    assert (In first newh) by (apply (lastn_In (rollback_window cf)); cbn in Wo; rewrite <- Wo, R; cbn; auto).
    specialize (I3 l first Hl H). lia. }
  rewrite E, lastn_app in Wo by lia. rewrite app_assoc in Wo. rewrite Wo, filter_app.
  replace (filter (fun e => e_seq l <? e_seq e) newh) with newh.
  2:{ symmetry. clear -I3 Hl. induction newh as [|y newh IH]; [reflexivity|]. cbn.
      assert (e_seq l < e_seq y) by (apply I3; [exact Hl|cbn; auto]). apply Z.ltb_lt in H. rewrite H. f_equal. apply IH.
      intros x z Hx Hz. apply I3; [exact Hx|cbn; auto]. }
  replace (filter _ (older ++ _)) with (@nil event); [reflexivity|].
  symmetry. pose proof (h_rb _ S) as Ir. rewrite Wo in Ir. apply inc_app in Ir. destruct Ir as (Ir & _ & _).
  assert (Ll : last_of (older ++ lastn (rollback_window cf - length newh) collh) = Some l).
  { rewrite last_of_app2; [rewrite lastn_last by lia; exact L|]. intros X. apply (f_equal (@length event)) in X. rewrite lastn_length in X.
    destruct collh; [discriminate|]. cbn in X. lia. }
  assert (X : forall x, In x (older ++ lastn (rollback_window cf - length newh) collh) -> e_seq x <= e_seq l) by (intros x; now apply inc_last).
  induction (older ++ lastn (rollback_window cf - length newh) collh) as [|y r IH]; [reflexivity|]. cbn.
  destruct (Z.ltb_spec (e_seq l) (e_seq y)) as [G1|G1].
  - specialize (X y (or_introl eq_refl)). lia.
  - clear -X. assert (X' : forall x, In x r -> e_seq x <= e_seq l) by (intros x Hx; apply X; cbn; auto). clear X.
    induction r as [|z r IH]; [reflexivity|]. cbn. destruct (Z.ltb_spec (e_seq l) (e_seq z)) as [G1|G1]; [specialize (X' z (or_introl eq_refl)); lia|].
    apply IH. intros x Hx. apply X'. cbn. auto.
Qed.

Lemma kept n l first rest x : increasing l -> lastn n l = first :: rest -> In x l -> e_seq first <= e_seq x -> In x (lastn n l).
Proof.
  intros I E Hx L. destruct (lastn_split n l) as (r & Er). rewrite Er in Hx, I. apply in_app_or in Hx. destruct Hx as [Hx|Hx]; [|exact Hx].
  apply inc_app in I. destruct I as (_ & _ & I). specialize (I x first Hx). rewrite E in I. specialize (I (or_introl eq_refl)). lia.
Qed.

(** ** One subscriber *)

Section One.
Variables (i : nat) (c : Z) (out0 : list msg) (f1 : fire).
(** Whether completeness is claimed, which takes a subscriber that is fast enough. *)
Variable Tm : Prop.
Definition due (f : fire) (e : event) : Prop := Tm /\ owed f1 f c e.
Hypothesis K1 : okay f1.
Hypothesis C0 : 0 <= c.
Hypothesis C1 : exists x, In x (collected f1) /\ c <= e_seq x.

Definition weak (D : list event) (f : fire) : Prop :=
  increasing D /\ incl D (f_log f) /\ (forall d, In d D -> c <= e_seq d /\ exists y, In y (collected f) /\ e_seq d <= e_seq y) /\
  forall d e, In d D -> due f e -> e_seq e <= e_seq d -> In e D.
Definition good (D P : list event) (f : fire) : Prop :=
  increasing (D ++ P) /\ incl (D ++ P) (f_log f) /\ (forall d, In d (D ++ P) -> c <= e_seq d /\ exists y, In y (collected f) /\ e_seq d <= e_seq y) /\
  forall e, due f e -> In e (D ++ P).

Lemma good_weak D P f : good D P f -> weak D f.
Proof.
  intros (G1 & G2 & G3 & G4). apply inc_app in G1. destruct G1 as (G1 & _ & G1'). repeat split; auto.
  - intros x Hx. apply G2. apply in_or_app. auto.
  - apply G3. apply in_or_app. auto.
  - apply G3. apply in_or_app. auto.
  - intros d e Hd Ho L. specialize (G4 e Ho). apply in_app_or in G4. destruct G4 as [G4|G4]; [exact G4|]. specialize (G1' d e Hd G4). lia.
Qed.

Definition catching (D : list event) (q : query) (cur : option event) (f : fire) : Prop :=
  c <= q_pos q /\ (forall d, In d D -> c <= e_seq d) /\
  (exists first rest, f_rollback f = first :: rest /\ (forall d, In d D -> e_seq d < e_seq first) /\
     exists first1 rest1, f_rollback f1 = first1 :: rest1 /\ e_seq first1 <= e_seq first /\
       forall x, In x (f_rollback f1) -> e_seq first <= e_seq x -> In x (f_rollback f)) /\
  incl (q_left q) (f_log f1) /\ (forall x, In x (q_left q) -> q_pos q <= e_seq x) /\
  (forall x, In x (f_log f1) -> c <= e_seq x -> In x D \/ In x (q_left q) \/ cur = Some x).

Definition handed (D : list event) (h P : list event) (f : fire) : Prop :=
  exists collh newh l, collected f = collh ++ newh /\ last_of h = Some l /\ last_of collh = Some l /\
    (length (f_sent f1) + length newh <= length (f_sent f))%nat /\ good D (P ++ newh) f.

Definition phase (D : list event) (st : sstate) (f : fire) : Prop :=
  match st with
  | SRequest _ | SNew _ => False
  | SQuery c' pre _ q => c' = c /\ pre = D /\ catching D q None f
  | SGot c' pre q e => c' = c /\ pre = D /\ c <= e_seq e /\ catching D q (Some e) f
  | SCopy c' => c' = c /\ increasing D /\ incl D (f_log f) /\ (forall d, In d D -> c <= e_seq d) /\
      (forall d y, In d D -> In y (f_rollback f) -> e_seq d < e_seq y) /\
      (forall e, due f e -> In e D \/ In e (f_rollback f))
  | SServe c' h todo => c' = c /\ handed D h (filter (fun e => c <=? e_seq e) todo) f
  | SEnqueue None => False
  | SEnqueue (Some h) => handed D h [] f
  | SLive q => good D q f
  | SDead x => weak D f /\ gone cf f1 x f
  end.

Definition served (f : fire) : Prop :=
  f_started f = true /\ f_pre f = f_pre f1 /\ (exists new, f_sent f = f_sent f1 ++ new) /\ incl (f_log f1) (f_log f) /\
  exists st D, thread f i st (out0 ++ map MEvent D) /\ phase D st f.

(** *** Changes elsewhere *)

Lemma due_same f f' e : collected f' = collected f -> due f' e <-> due f e.
Proof. unfold due, owed. now intros ->. Qed.

Lemma weak_same D f f' : collected f' = collected f -> incl (f_log f) (f_log f') -> weak D f -> weak D f'.
Proof.
  intros Ec I (G1 & G2 & G3 & G4). unfold weak. rewrite Ec. repeat split; auto; try (now apply G3); [intros x Hx; auto|].
  intros d e Hd Ho. apply (G4 d); auto. now apply (due_same f f').
Qed.
Lemma good_same D P f f' : collected f' = collected f -> incl (f_log f) (f_log f') -> good D P f -> good D P f'.
Proof.
  intros Ec I (G1 & G2 & G3 & G4). unfold good. rewrite Ec. repeat split; auto; try (now apply G3); [intros x Hx; auto|].
  intros e Ho. apply G4. now apply (due_same f f').
Qed.
Lemma handed_same D h P f f' : collected f' = collected f -> f_sent f' = f_sent f -> incl (f_log f) (f_log f') -> handed D h P f -> handed D h P f'.
Proof.
  intros Ec Es I (ch & nh & l & H1 & H2 & H3 & H4 & H5). exists ch, nh, l. rewrite Ec, Es.
  split; [exact H1|]. split; [exact H2|]. split; [exact H3|]. split; [exact H4|]. now apply (good_same D _ f f').
Qed.
Lemma phase_same D st f f' : collected f' = collected f -> f_sent f' = f_sent f -> incl (f_log f) (f_log f') ->
  (catching_up f i \/ copying f i -> f_rollback f' = f_rollback f) -> thread f i st (out0 ++ map MEvent D) -> phase D st f -> phase D st f'.
Proof.
  intros Ec Es I R T. destruct st; cbn; auto.
  - unfold catching. rewrite R; [auto|]. left. eexists. left. eauto.
  - unfold catching. rewrite R; [auto|]. left. eexists. right. eauto.
  - rewrite R by (right; eexists _, _; eauto). intros (H0 & H1 & H2 & H3 & H4 & H5). repeat split; auto; [intros x Hx; auto|].
    intros e Ho. apply H5. now apply (due_same f f').
  - intros [H1 H2]. split; [auto|]. now apply (handed_same D _ _ f f').
  - destruct handoff; [now apply handed_same|auto].
  - now apply good_same.
  - intros [H1 H2]. split; [now apply (weak_same D f f')|]. unfold gone in *. now rewrite Es.
Qed.

(** *** An event is sent *)

Lemma beyond D f q e : okay (send cf f q e) -> (forall d, In d D -> c <= e_seq d /\ exists y, In y (collected f) /\ e_seq d <= e_seq y) ->
  forall d, In d D -> e_seq d < e_seq e.
Proof. intros K' H d Hd. destruct (H d Hd) as (_ & y & Hy & L). pose proof (sent_later _ _ _ _ K' Hy). lia. Qed.

Lemma due_send f q e x : due (send cf f q e) x -> due f x \/ x = e.
Proof.
  unfold due, owed, collected. cbn. rewrite app_assoc. intros [Ht [H1 [H2|H2]]]; [|tauto]. apply in_app_or in H2. destruct H2 as [H2|[<-|[]]]; tauto.
Qed.

Lemma weak_send D f q e : okay (send cf f q e) -> weak D f -> weak D (send cf f q e).
Proof.
  intros K' (G1 & G2 & G3 & G4). repeat split; auto.
  - now apply G3.
  - destruct (G3 d H) as (_ & y & Hy & L). exists y. split; [|exact L]. unfold collected. cbn. rewrite app_assoc. apply in_or_app. auto.
  - intros d x Hd Ho L. apply due_send in Ho. destruct Ho as [Ho| ->]; [now apply (G4 d)|].
    pose proof (beyond D f q e K' G3 d Hd). lia.
Qed.

Lemma good_send D P f q e : okay f -> okay (send cf f q e) -> (exists new, f_sent f = f_sent f1 ++ new) -> f_pre f = f_pre f1 -> good D P f -> good D (P ++ [e]) (send cf f q e).
Proof.
  intros K K' (new & Es) Ep (G1 & G2 & G3 & G4). unfold good. rewrite app_assoc. repeat split.
  - apply sorted_snoc; [assumption|]. now apply (beyond (D ++ P) f q e).
  - intros x Hx. apply in_app_or in Hx. destruct Hx as [Hx|[<-|[]]]; [now apply G2|]. destruct K' as (_ & _ & _ & S').
    apply (h_log _ S'). unfold collected. cbn. rewrite app_assoc. apply in_or_app. cbn. auto.
  - apply in_app_or in H. destruct H as [H|[<-|[]]]; [now apply G3|]. destruct C1 as (x & Hx & L).
    assert (Hx' : In x (collected f)). { unfold collected in Hx |- *. rewrite Ep, Es, app_assoc. apply in_or_app. auto. }
    pose proof (sent_later _ _ _ _ K' Hx'). lia.
  - apply in_app_or in H. unfold collected. cbn. rewrite app_assoc. destruct H as [H|[<-|[]]].
    + destruct (G3 d H) as (_ & y & Hy & L). exists y. split; [apply in_or_app; auto|exact L].
    + exists e. split; [apply in_or_app; cbn; auto|lia].
  - intros x Ho. apply due_send in Ho. apply in_or_app. destruct Ho as [Ho| ->]; [auto|cbn; auto].
Qed.

Lemma handed_send D h P f q e : okay f -> okay (send cf f q e) -> (exists new, f_sent f = f_sent f1 ++ new) -> f_pre f = f_pre f1 ->
  handed D h P f -> handed D h P (send cf f q e).
Proof.
  intros K K' Es Ep (ch & nh & l & H1 & H2 & H3 & H4 & H5). exists ch, (nh ++ [e]), l. split; [|split; [exact H2|split; [exact H3|split]]].
  - unfold collected in H1 |- *. cbn. now rewrite app_assoc, H1, app_assoc.
  - cbn. rewrite !app_length. cbn. lia.
  - rewrite app_assoc. now apply good_send.
Qed.

Lemma served_send f q e : okay f -> okay (send cf f q e) -> (Tm -> ~ copying f i) -> served f -> served (send cf f q e).
Proof.
  intros K K' NC (S0 & Ep & Es & I & st & D & T & Ph). split; [exact S0|]. split; [exact Ep|]. split.
  { destruct Es as (new & Es). exists (new ++ [e]). cbn. now rewrite Es, app_assoc. }
  split; [exact I|]. pose proof (thread_put cf f q e _ _ _ T) as T'. eexists _, D. split; [exact T'|].
  assert (ST : (forall q0, st <> SLive q0) -> s_state (put_one (f_subscribers f) e i (Sub st (out0 ++ map MEvent D))) = st).
  { intros NL. unfold put_one. cbn. destruct (existsb _ _); [|reflexivity]. destruct st; try reflexivity. edestruct NL; reflexivity. }
  assert (CC : forall D q0 cur, catching D q0 cur f -> catching D q0 cur (send cf f q e)).
  { intros D0 q0 cur (H1 & H2 & (first & rest & R & L & X) & H4). split; [exact H1|]. split; [exact H2|]. split; [|exact H4].
    destruct (send_head f q e first rest K K' R) as (first' & rest' & R' & L'). exists first', rest'. split; [exact R'|]. split.
    - intros d Hd. specialize (L d Hd). lia.
    - destruct X as (a & b & X & Lx & Xr). exists a, b. split; [exact X|]. split; [lia|]. intros x Hx Lxx.
      apply (kept (rollback_window cf) (f_rollback f ++ [e]) first' rest'); auto.
      + apply sorted_snoc; [destruct K as (_ & _ & _ & S); apply (h_rb _ S)|]. intros z Hz. destruct K as (_ & _ & _ & S).
        destruct (h_rbc _ S z Hz) as (y & Hy & Ly). pose proof (sent_later _ _ _ _ K' Hy). lia.
      + apply in_or_app. left. apply Xr; [exact Hx|lia]. }
  destruct st; try (rewrite ST by discriminate); cbn in Ph |- *; auto.
  - destruct Ph as (-> & -> & Ph). auto.
  - destruct Ph as (-> & -> & Lc & Ph). auto.
  - destruct Ph as (-> & P1 & P2 & P3 & P4 & P5). split; [reflexivity|]. split; [exact P1|]. split; [exact P2|]. split; [exact P3|].
    assert (NE : collected f <> []).
    { intros Ec. destruct C1 as (x & Hx & _). destruct Es as (new & Es). unfold collected in *. rewrite Ep, Es, app_assoc in Ec.
      apply app_eq_nil in Ec. destruct Ec as [Ec _]. now rewrite Ec in Hx. }
    split.
    + intros d y Hd Hy. apply lastn_In in Hy. apply in_app_or in Hy. destruct Hy as [Hy|[<-|[]]]; [now apply P4|].
      pose proof (rollback_last f K NE) as RL. destruct (last_of (collected f)) as [l|] eqn:Ll; [|apply last_of_None in Ll; contradiction].
      specialize (P4 d l Hd (last_of_In _ _ RL)). pose proof (sent_later _ _ _ _ K' (last_of_In _ _ Ll)). lia.
    + intros x [Ht _]. destruct (NC Ht). exists c. eexists. exact T.
  - destruct Ph as (-> & Ph). split; [reflexivity|]. now apply handed_send.
  - destruct handoff; [|contradiction]. now apply handed_send.
  - unfold put_one. cbn. destruct (existsb _ _) eqn:Ex; [cbn; now apply good_send|]. exfalso.
    destruct K as (_ & _ & (_ & R) & _). assert (In i (f_subscribers f)) as Hi by (apply R; eauto). apply existsb_nat in Hi. congruence.
  - destruct Ph as [Ph Ca]. split; [now apply weak_send|]. unfold gone in *. cbn. destruct why as [x|]; [|exact Logic.I]. destruct x; auto.
    rewrite app_length. lia.
Qed.

(** *** Steps of the subscriber *)

Definition fair (f : fire) : Prop := Tm -> timely cf i (length (f_sent f1)) f.

Lemma recent_window f x : okay f -> f_pre f = f_pre f1 -> (exists new, f_sent f = f_sent f1 ++ new) ->
  (length (f_sent f) <= length (f_sent f1) + rollback_window cf)%nat -> In x (collected f) -> In x (collected f1) \/ In x (f_rollback f).
Proof.
  intros K Ep (new & Es) L Hx. assert (Ec : collected f = collected f1 ++ new) by (unfold collected; now rewrite Ep, Es, app_assoc).
  rewrite Ec in Hx. apply in_app_or in Hx. destruct Hx as [Hx|Hx]; [auto|]. right. apply (recent f (collected f1) new); auto.
  rewrite Es, app_length in L. lia.
Qed.

(** What was owed before the window has been delivered. *)
Lemma caught f D q cur x first rest : okay f -> f_pre f = f_pre f1 -> (exists new, f_sent f = f_sent f1 ++ new) ->
  (length (f_sent f) <= length (f_sent f1) + rollback_window cf)%nat -> catching D q cur f -> f_rollback f = first :: rest ->
  owed f1 f c x -> In x D \/ In x (f_rollback f) \/ (In x (q_left q) \/ cur = Some x) /\ e_seq x < e_seq first.
Proof.
  intros K Ep Es L (H1 & H2 & (first0 & rest0 & R0 & L0 & first1 & rest1 & R1 & L1 & Rr) & H4 & H5 & H6) R [Lc Ho].
  rewrite R in R0. injection R0 as <- <-.
  destruct (Z.le_gt_cases (e_seq first) (e_seq x)) as [G|G].
  - destruct Ho as [Ho|[Ho [Hb|Hb]]]; [right; left; now apply (in_rollback f first rest)| |right; left; now apply Rr].
    unfold before_window in Hb. rewrite R1 in Hb. lia.
  - assert (Hl : In x (f_log f1)).
    { destruct Ho as [Ho|[Ho _]]; [|exact Ho]. destruct (recent_window f x K Ep Es L Ho) as [Hc|Hr].
      - destruct K1 as (_ & _ & _ & S1). now apply (h_log _ S1).
      - pose proof (rollback_head f first rest x K R Hr). lia. }
    destruct (H6 x Hl Lc) as [Hd|Hd]; [auto|]. right. right. split; [exact Hd|exact G].
Qed.

Lemma good_window D f first : okay f -> (exists new, f_sent f = f_sent f1 ++ new) -> collected f <> [] -> increasing D -> incl D (f_log f) -> (forall d, In d D -> c <= e_seq d) ->
  In first (f_rollback f) -> (forall d y, In d D -> In y (f_rollback f) -> e_seq d < e_seq y) ->
  (forall e, due f e -> In e D \/ In e (f_rollback f)) ->
  handed D (f_rollback f) (filter (fun e => c <=? e_seq e) (f_rollback f)) f.
Proof.
  intros K Es NC I1 I2 I3 Hf I4 I5. pose proof (rollback_last f K NC) as RL.
  destruct (last_of (collected f)) as [l|] eqn:Ll; [|apply last_of_None in Ll; congruence].
  exists (collected f), [], l. rewrite !app_nil_r. pose proof K as (_ & _ & _ & S). 
  split; [reflexivity|]. split; [exact RL|]. split; [exact Ll|].
  split; [destruct Es as (new & ->); rewrite app_length; cbn; lia|]. split; [|split; [|split]].
  - apply inc_app. split; [exact I1|]. split; [apply inc_filter, (h_rb _ S)|]. intros x y Hx Hy. apply filter_In in Hy. now apply I4.
  - intros x Hx. apply in_app_or in Hx. destruct Hx as [Hx|Hx]; [auto|]. apply filter_In in Hx. now apply (h_rblog _ S).
  - intros d Hd. apply in_app_or in Hd. destruct Hd as [Hd|Hd].
    + split; [auto|]. destruct (h_rbc _ S first Hf) as (y & Hy & L). exists y. split; [exact Hy|]. specialize (I4 d first Hd Hf). lia.
    + apply filter_In in Hd. destruct Hd as [Hd L]. apply Z.leb_le in L. split; [exact L|]. now apply (h_rbc _ S).
  - intros e Ho. apply in_or_app. destruct (I5 e Ho) as [H|H]; [auto|]. right. apply filter_In. split; [exact H|]. apply Z.leb_le. apply Ho.
Qed.

Lemma catch_weak f D q cur : okay f -> f_pre f = f_pre f1 -> (exists new, f_sent f = f_sent f1 ++ new) ->
  (Tm -> length (f_sent f) <= length (f_sent f1) + rollback_window cf)%nat -> increasing D -> incl D (f_log f) ->
  (forall d, In d D -> e_seq d < q_pos q) -> (forall d e, In d D -> cur = Some e -> e_seq d < e_seq e) -> catching D q cur f -> weak D f.
Proof.
  intros K Ep Es L I1 I2 I3 I4 Ca. pose proof Ca as (H1 & H2 & (first & rest & R & L0 & first1 & rest1 & R1 & L1 & Rr) & H4 & H5 & H6).
  pose proof K as (_ & _ & _ & S).
  split; [exact I1|]. split; [exact I2|]. split.
  - intros d Hd. split; [auto|]. destruct (h_rbc _ S first) as (y & Hy & Ly); [rewrite R; cbn; auto|]. exists y. split; [exact Hy|].
    specialize (L0 d Hd). lia.
  - intros d e Hd [Ht Ho] Le. destruct (caught f D q cur e first rest K Ep Es (L Ht) Ca R Ho) as [H|[H|[[H|H] _]]].
    + exact H.
    + pose proof (rollback_head f first rest e K R H). specialize (L0 d Hd). lia.
    + specialize (H5 e H). specialize (I3 d Hd). lia.
    + specialize (I4 d e Hd H). lia.
Qed.

Lemma nonempty f : f_pre f = f_pre f1 -> (exists new, f_sent f = f_sent f1 ++ new) -> collected f <> [].
Proof.
  intros Ep (new & Es) E. destruct C1 as (x & Hx & _). unfold collected in *. rewrite Ep, Es, app_assoc in E. apply app_eq_nil in E.
  destruct E as [E _]. now rewrite E in Hx.
Qed.

Lemma phase_weak f st D : okay f -> f_pre f = f_pre f1 -> (exists new, f_sent f = f_sent f1 ++ new) -> fair f ->
  thread f i st (out0 ++ map MEvent D) -> phase D st f -> weak D f.
Proof.
  intros K Ep Es Fair T Ph. pose proof K as (_ & _ & _ & S). destruct st; cbn in Ph; try contradiction.
  - destruct Ph as (-> & -> & Ca). pose proof (h_threads _ S _ _ _ T) as (P1 & P2 & P3 & P4). apply (catch_weak f D q None); auto; [|discriminate].
    intros Ht. apply (Fair Ht). left. eexists. left. eauto.
  - destruct Ph as (-> & -> & Lc & Ca). pose proof (h_threads _ S _ _ _ T) as (P1 & P2 & P3). apply inc_app in P1. destruct P1 as (P1 & _ & P1').
    apply (catch_weak f D q (Some e)); auto.
    + intros Ht. apply (Fair Ht). left. eexists. right. eauto.
    + intros x Hx. apply P2. apply in_or_app. auto.
    + intros d Hd. specialize (P1' d e Hd (or_introl eq_refl)). lia.
    + intros d x Hd [= <-]. apply P1'; cbn; auto.
  - destruct Ph as (-> & P1 & P2 & P3 & P4 & P5). split; [exact P1|]. split; [exact P2|].
    destruct (f_rollback f) as [|first rest] eqn:R.
    { exfalso. pose proof (nonempty f Ep Es) as NC. pose proof (rollback_last f K NC) as RL. rewrite R in RL. symmetry in RL. apply last_of_None in RL. contradiction. }
    rewrite <- R in *. assert (Hf : In first (f_rollback f)) by (rewrite R; cbn; auto). split.
    + intros d Hd. split; [auto|]. destruct (h_rbc _ S first Hf) as (y & Hy & L). exists y. split; [exact Hy|]. specialize (P4 d first Hd Hf). lia.
    + intros d e Hd Ho L. destruct (P5 e Ho) as [H|H]; [exact H|]. specialize (P4 d e Hd H). lia.
  - destruct Ph as (-> & ch & nh & l & G1 & G2 & G3 & G4 & G5). now apply good_weak in G5.
  - destruct handoff; [|contradiction]. destruct Ph as (ch & nh & l' & G1 & G2 & G3 & G4 & G5). now apply good_weak in G5.
  - now apply good_weak in Ph.
  - apply Ph.
Qed.

Lemma served_step f a f' : okay f -> honest f a -> undisturbed cf i f a -> (Tm -> calm cf i f a) -> fair f -> served f ->
  step cf f a = Some f' -> served f'.
Proof.
  intros K Hon Un Calm Fair Sv E. pose proof (okay_step _ _ _ K Hon E) as K'.
  pose proof Sv as (S0 & Ep & Es & I & st & D & T & Ph). pose proof (nonempty f Ep Es) as NC.
  pose proof K as (Or & _ & Re & S). pose proof (o_ahead _ _ Or) as Ah. unfold ahead in Ah.
  assert (Same : forall g, f_started g = f_started f -> f_pre g = f_pre f -> f_sent g = f_sent f -> incl (f_log f) (f_log g) ->
    (catching_up f i \/ copying f i -> f_rollback g = f_rollback f) -> thread g i st (out0 ++ map MEvent D) -> served g).
  { intros g G1 G2 G3 G4 G5 G6. split; [congruence|]. split; [congruence|]. split; [rewrite G3; exact Es|]. split; [exact (incl_tran I G4)|].
    exists st, D. split; [exact G6|]. apply (phase_same D st f g); auto. unfold collected. congruence. }
  assert (Step : forall g st' D', f_started g = f_started f -> f_pre g = f_pre f -> f_sent g = f_sent f -> f_log g = f_log f ->
    f_threads g = set_nth i (Sub st' (out0 ++ map MEvent D')) (f_threads f) -> phase D' st' g -> served g).
  { intros g st' D' G1 G2 G3 G4 G5 G6. split; [congruence|]. split; [congruence|]. split; [rewrite G3; exact Es|]. split; [rewrite G4; exact I|].
    exists st', D'. split; [|exact G6]. unfold thread. rewrite G5. apply (set_nth_same _ _ _ _ T). }
  destruct (step_cases _ _ _ _ E) as [Mv|[Mv|Mv]].
  - inversion Mv; subst; clear Mv; apply Same; auto; try apply incl_refl. cbn. apply incl_appl, incl_refl.
  - inversion Mv; subst; clear Mv; try (apply Same; auto; apply incl_refl).
    + apply served_send; auto. intros Ht Cp. specialize (Calm Ht Cp _ E). cbn in Calm. apply (f_equal (@length event)) in Calm.
      rewrite app_length in Calm. cbn in Calm. lia.
    + rewrite H in Ah. congruence.
  - destruct (sub_fields _ _ _ _ Mv) as (Elog & Elast & Elost & Enow & Est & Ecoll & Eseq & Eev & Epre & Esent).
    pose proof (sub_rollback _ _ _ _ Mv) as SR.
    assert (Other : forall j t st1 out1, thread f j st1 out1 -> f_threads f' = set_nth j t (f_threads f) -> j <> i -> served f').
    { intros j t st1 out1 T1 Et NE. apply Same; auto; [rewrite Elog; apply incl_refl| |unfold thread; rewrite Et, set_nth_other by auto; exact T].
      intros Cp. destruct SR as [SR|(k & c0 & pre & q & e & out & first & rest & Ea & Tk & R & L & SR & Et')]; [exact SR|].
      destruct (Nat.eq_dec k i) as [->|Nk]; [|now apply (Un k f' Cp Ea Nk E)]. subst a.
      exfalso. rewrite Et' in Et. apply (f_equal (fun l => nth_error l i)) in Et. rewrite (set_nth_other j) in Et by auto.
      rewrite (set_nth_same _ _ _ _ Tk) in Et. unfold thread in Tk. rewrite Tk in Et. discriminate Et. }
    inversion Mv; subst; clear Mv; try (match goal with H : thread f ?j _ _ |- _ => destruct (Nat.eq_dec j i) as [->|NE];
      [destruct (thread_fun _ _ _ _ _ _ T H) as [Zs Zo]; subst st out|exact (Other _ _ _ _ H eq_refl NE)] end); cbn in Ph; try contradiction.
    + apply Same; auto; [apply incl_refl|]. unfold thread. cbn. rewrite nth_error_app1; [exact T|]. apply nth_error_Some. unfold thread in T. now rewrite T.
    + (* no rollback *) destruct Ph as (_ & _ & _ & _ & _ & (first & rest & R & _) & _). congruence.
    + (* reach *) destruct Ph as (-> & -> & Lc & Ca). pose proof (h_threads _ S _ _ _ T) as (P1 & P2 & P3).
      assert (Lt : Tm -> (length (f_sent f) <= length (f_sent f1) + rollback_window cf)%nat).
      { intros Ht. apply (Fair Ht). left. eexists. right. eauto. }
      apply (Step _ (SServe c (f_rollback f) (f_rollback f)) D); try reflexivity. split; [reflexivity|].
      apply (handed_same D _ _ f); try reflexivity; [apply incl_refl|].
      pose proof Ca as (Q1 & Q2 & (first0 & rest0 & R0 & L0 & _) & Q4 & Q5 & Q6). rewrite H0 in R0. injection R0 as <- <-.
      apply (good_window D f first); auto.
      * now apply inc_app in P1.
      * intros x Hx. apply P2. apply in_or_app. auto.
      * rewrite H0. cbn. auto.
      * intros d y Hd Hy. specialize (L0 d Hd). pose proof (rollback_head f first rest y K H0 Hy). lia.
      * intros x [Ht Ho]. destruct (caught f D q (Some e) x first rest K Ep Es (Lt Ht) Ca H0 Ho) as [X|[X|[[X|X] Lx]]]; auto; exfalso.
        -- specialize (Q5 x X). lia.
        -- injection X as ->. lia.
    + (* assertion *) exfalso. destruct Ph as (-> & -> & Lc & Ca). destruct K as (_ & (Wl & _) & _ & _). destruct H2 as [H2|H2].
      * pose proof (merged_length cf (f_rollback f) D Wl). lia.
      * pose proof (merged_before cf (f_rollback f) D first rest H0 l (last_of_In _ _ H1)). lia.
    + (* before *) destruct Ph as (-> & -> & Lc & Ca). pose proof (h_threads _ S _ _ _ T) as (P1 & P2 & P3).
      apply (Step _ (SQuery c (D ++ [e]) (Some (e_seq e)) q) (D ++ [e])); try reflexivity.
      { cbn. now rewrite map_app, app_assoc. }
      cbn. split; [reflexivity|]. split; [reflexivity|]. destruct Ca as (Q1 & Q2 & (first0 & rest0 & R0 & L0 & X) & Q4 & Q5 & Q6).
      rewrite H0 in R0. injection R0 as <- <-. split; [exact Q1|]. split.
      { intros d Hd. apply in_app_or in Hd. destruct Hd as [Hd|[<-|[]]]; auto. }
      split.
      { exists first, rest. split; [exact H0|]. split; [|exact X]. intros d Hd. apply in_app_or in Hd. destruct Hd as [Hd|[<-|[]]]; auto. }
      split; [exact Q4|]. split; [exact Q5|]. intros x Hx Lx. destruct (Q6 x Hx Lx) as [Y|[Y|Y]]; auto; [left; apply in_or_app; auto|].
      injection Y as <-. left. apply in_or_app. cbn. auto.
    + (* no copy *) exfalso. pose proof (rollback_last f K NC) as RL. rewrite H0 in RL. symmetry in RL. apply last_of_None in RL. contradiction.
    + (* copy *) destruct Ph as (-> & P1 & P2 & P3 & P4 & P5). destruct (f_rollback f) as [|first rest] eqn:R; [easy|]. rewrite <- R in *.
      apply (Step _ (SServe c (f_rollback f) (f_rollback f)) D); try reflexivity. split; [reflexivity|].
      apply (handed_same D _ _ f); try reflexivity; [apply incl_refl|]. apply (good_window D f first); auto. rewrite R. cbn. auto.
    + (* served *) destruct Ph as (-> & Ph). apply (Step _ (SEnqueue (Some h)) D); try reflexivity. now apply (handed_same D h [] f).
    + (* serve *) destruct Ph as (-> & ch & nh & l & G1 & G2 & G3 & G4 & G5). cbn in G5. destruct (c <=? e_seq e) eqn:L.
      * apply (Step _ (SServe c h r) (D ++ [e])); try reflexivity; [cbn; now rewrite map_app, app_assoc|].
        split; [reflexivity|]. exists ch, nh, l. split; [exact G1|]. split; [exact G2|]. split; [exact G3|]. split; [exact G4|].
        apply (good_same _ _ f); [reflexivity|apply incl_refl|]. unfold good in *. rewrite <- !app_assoc in *. exact G5.
      * apply (Step _ (SServe c h r) D); try reflexivity.
        split; [reflexivity|]. exists ch, nh, l. split; [exact G1|]. split; [exact G2|]. split; [exact G3|]. split; [exact G4|].
        apply (good_same _ _ f); [reflexivity|apply incl_refl|]. exact G5.
    + (* enqueue *) destruct Ph as (ch & nh & l' & G1 & G2 & G3 & G4 & G5). rewrite H0 in G2. injection G2 as <-.
      rewrite (caught_up f ch nh l first rest K G1 G3 H1 H2). apply (Step _ (SLive nh) D); try reflexivity.
      apply (good_same _ _ f); [reflexivity|apply incl_refl|]. exact G5.
    + (* slow *) destruct Ph as (ch & nh & l' & G1 & G2 & G3 & G4 & G5). pose proof (rollback_last f K NC) as RL.
      destruct H0 as [X|[X|(l & first & rest & X1 & X2 & X3 & ->)]].
      * congruence.
      * rewrite X in RL. symmetry in RL. apply last_of_None in RL. contradiction.
      * apply (Step _ (SDead (Some AssertionError)) D); try reflexivity. split; [apply (weak_same D f); [reflexivity|apply incl_refl|]; now apply (good_weak D nh)|].
        cbn. rewrite X1 in G2. injection G2 as <-. destruct (le_lt_dec (rollback_window cf) (length nh)) as [G|G]; [lia|]. exfalso.
        assert (Hl : In l (f_rollback f)).
        { destruct K as (_ & (_ & older & Wo) & _). rewrite Wo, G1, lastn_app by lia. apply in_or_app. right. apply in_or_app. left.
          apply last_of_In. rewrite lastn_last by lia. exact G3. }
        pose proof (rollback_head f first rest l K X2 Hl). lia.
    + (* live *) apply (Step _ (SLive r) (D ++ [e])); try reflexivity; [cbn; now rewrite map_app, app_assoc|].
      apply (good_same _ _ f); [reflexivity|apply incl_refl|]. unfold good in *. rewrite <- !app_assoc in *. exact Ph.
    + (* item *) destruct Ph as (-> & -> & Ca). destruct (Hon _ _ _ _ _ H) as (G1 & G2 & G3).
      destruct (query_item_ok cf W (f_log f) c D lst q e (h_threads _ S _ _ _ T) G1 G2) as [Eq Ok].
      apply (Step _ (SGot c D (query_past e q) e) D); try reflexivity; [cbn; now rewrite Eq|].
      cbn. destruct Ca as (Q1 & Q2 & Q3 & Q4 & Q5 & Q6). split; [reflexivity|]. split; [reflexivity|]. split; [lia|].
      split; [cbn; lia|]. split; [exact Q2|]. split; [exact Q3|]. split; [|split].
      * intros x Hx. cbn in Hx. apply filter_In in Hx. now apply Q4.
      * intros x Hx. cbn in Hx |- *. apply filter_In in Hx. destruct Hx as [_ Hx]. now apply Z.leb_le.
      * intros x Hx Lx. destruct (Q6 x Hx Lx) as [Y|[Y|Y]]; auto; [|discriminate]. pose proof (G3 x Y) as Le.
        destruct (Z.eq_dec (e_seq x) (e_seq e)) as [Z|Z].
        -- right. right. f_equal. apply (h_unique _ S); auto.
        -- right. left. cbn. apply filter_In. split; [exact Y|]. apply Z.leb_le. lia.
    + (* end *) destruct Ph as (-> & -> & Ca). pose proof (Hon _ _ _ _ _ H) as Hq. pose proof (h_threads _ S _ _ _ T) as (P1 & P2 & P3 & P4).
      assert (Lt : Tm -> (length (f_sent f) <= length (f_sent f1) + rollback_window cf)%nat).
      { intros Ht. apply (Fair Ht). left. eexists. left. eauto. }
      apply (Step _ (SCopy c) D); try reflexivity. cbn.
      pose proof Ca as (Q1 & Q2 & (first & rest & R & L0 & _) & Q4 & Q5 & Q6).
      split; [reflexivity|]. split; [exact P1|]. split; [exact P2|]. split; [exact Q2|]. split.
      * intros d y Hd Hy. specialize (L0 d Hd). pose proof (rollback_head f first rest y K R Hy). lia.
      * intros x Ho. apply (due_same f) in Ho; [|reflexivity]. destruct Ho as [Ht Ho].
        destruct (caught f D q None x first rest K Ep Es (Lt Ht) Ca R Ho) as [X|[X|[[X|X] Lx]]]; auto; [rewrite Hq in X; contradiction|discriminate].
    + (* fail *) destruct Ph as (-> & -> & Ca). pose proof (h_threads _ S _ _ _ T) as (P1 & P2 & P3 & P4).
      assert (Lt : Tm -> (length (f_sent f) <= length (f_sent f1) + rollback_window cf)%nat).
      { intros Ht. apply (Fair Ht). left. eexists. left. eauto. }
      apply (Step _ (SDead (Some (OtherError (Base.s "read")))) D); try reflexivity. split; [|exact Logic.I].
      apply (weak_same D f); [reflexivity|apply incl_refl|]. apply (catch_weak f D q None); auto. discriminate.
    + (* close *) apply (Step _ (SDead None) D); try reflexivity. split; [|exact Logic.I].
      apply (weak_same D f); [reflexivity|apply incl_refl|]. apply (phase_weak f st0 D); auto.
Qed.

(** The start. *)
Lemma served_start f' : thread f1 i (SNew (Some c)) out0 -> step cf f1 (SStep i) = Some f' -> served f'.
Proof.
  intros T E. cbn in E. unfold on_thread in E. unfold thread in T. rewrite T in E. cbn in E.
  destruct (f_started f1) eqn:S0; [|discriminate]. injection E as <-. split; [exact S0|]. split; [reflexivity|]. split; [exists []; now rewrite app_nil_r|].
  split; [apply incl_refl|]. exists (new_step f1 (Some c)), []. rewrite app_nil_r. split; [apply (set_nth_same _ _ _ _ T)|].
  assert (NC : collected f1 <> []) by (apply (nonempty f1); [reflexivity|exists []; now rewrite app_nil_r]).
  destruct (f_rollback f1) as [|first rest] eqn:R.
  { exfalso. pose proof (rollback_last f1 K1 NC) as RL. rewrite R in RL. symmetry in RL. apply last_of_None in RL. contradiction. }
  unfold new_step. rewrite R. destruct (Z.ltb_spec c (e_seq first)) as [L|L].
  - destruct (Z.ltb_spec c 0) as [L2|L2]; [lia|]. cbn. split; [reflexivity|]. split; [reflexivity|].
    split; [cbn; lia|]. split; [contradiction|]. split; [exists first, rest; split; [exact R|split; [contradiction|]]; exists first, rest; split; [exact R|]; split; [lia|auto]|].
    cbn. unfold seqs_from. split; [intros x Hx; now apply filter_In in Hx|]. split.
    + intros x Hx. apply filter_In in Hx. destruct Hx as [_ Hx]. now apply Z.leb_le.
    + intros x Hx Lx. right. left. apply filter_In. split; [exact Hx|]. now apply Z.leb_le.
  - cbn. split; [reflexivity|]. split; [constructor|]. split; [now intros ? []|]. split; [contradiction|]. split; [contradiction|].
    intros e [_ [Lc [Ho|[Ho [Hb|Hb]]]]].
    + right. apply (in_rollback f1 first rest); auto. lia.
    + unfold before_window in Hb. rewrite R in Hb. lia.
    + right. exact Hb.
Qed.

End One.

Lemma throughout_head (Q : fire -> Prop) f l : throughout cf Q f l -> Q f.
Proof. destruct l; cbn; tauto. Qed.

Lemma serve_all (Tm : Prop) i c out0 f1 l f2 : reached cf honest f1 -> thread f1 i (SNew (Some c)) out0 -> 0 <= c ->
  (exists x, In x (collected f1) /\ c <= e_seq x) -> run cf f1 (SStep i :: l) = Some f2 ->
  along cf (fun f a => honest f a /\ undisturbed cf i f a /\ (Tm -> calm cf i f a)) f1 (SStep i :: l) ->
  throughout cf (fun f => Tm -> timely cf i (length (f_sent f1)) f) f1 (SStep i :: l) ->
  exists st D, thread f2 i st (out0 ++ map MEvent D) /\ increasing D /\
    (forall e, In e D -> In e (f_log f2) /\ c <= e_seq e) /\
    (Tm -> forall d e, In d D -> owed f1 f2 c e -> e_seq e <= e_seq d -> In e D) /\
    (Tm -> st = SLive [] -> forall e, owed f1 f2 c e -> In e D) /\
    (forall x, st = SDead x -> gone cf f1 x f2).
Proof.
  intros R T C0 C1 Ru Al Th. pose proof (reached_sound cf W honest f1 (fun _ _ H => H) R) as K1.
  destruct (throughout_along _ _ _ _ _ Ru Th) as [Al2 Fin].
  assert (Inv : okay f2 /\ served i c out0 f1 Tm f2).
  { cbn [run] in Ru. cbn [along] in Al, Al2. destruct (step cf f1 (SStep i)) as [g|] eqn:E; [|discriminate].
    destruct Al as [(Hon & _) Al]. destruct Al2 as [_ Al2].
    refine (run_invariant cf _ (fun f => okay f /\ served i c out0 f1 Tm f) g l f2 _ _ Ru (along_and _ _ _ _ _ Al Al2)).
    - intros f a f' [K Sv] [(H1 & H2 & H3) H4] E1. split; [exact (okay_step _ _ _ K H1 E1)|].
      exact (served_step i c out0 f1 Tm K1 C1 f a f' K H1 H2 H3 H4 Sv E1).
    - split; [exact (okay_step _ _ _ K1 Hon E)|]. exact (served_start i c out0 f1 Tm K1 C0 C1 g T E). }
  destruct Inv as (K & S0 & Ep & Es & I & st & D & T2 & Ph). exists st, D. split; [exact T2|].
  pose proof (phase_weak i c out0 f1 Tm K1 C1 f2 st D K Ep Es Fin T2 Ph) as (G1 & G2 & G3 & G4).
  split; [exact G1|]. split; [intros e He; split; [auto|now apply G3]|]. split; [intros Ht d e Hd Ho; apply (G4 d e Hd); now split|]. split.
  - intros Ht ->. cbn in Ph. destruct Ph as (_ & _ & _ & Ph). intros e Ho. specialize (Ph e (conj Ht Ho)). now rewrite app_nil_r in Ph.
  - intros x ->. apply Ph.
Qed.

Lemma along_throughout (Q : fire -> Prop) f l : (forall g, Q g) -> throughout cf Q f l.
Proof. intros H. revert f. induction l as [|a l IH]; intros f; cbn; [auto|]. split; [auto|]. destruct (step cf f a); auto. Qed.

Lemma throughout_weaken (P Q : fire -> Prop) f l : (forall g, P g -> Q g) -> throughout cf P f l -> throughout cf Q f l.
Proof. intros H. revert f. induction l as [|a l IH]; intros f; cbn; [intuition|]. intros [H1 H2]. split; [auto|]. destruct (step cf f a); auto. Qed.

Lemma c32 i c out0 f1 l f2 : reached cf honest f1 -> thread f1 i (SNew (Some c)) out0 -> 0 <= c ->
  (exists x, In x (collected f1) /\ c <= e_seq x) -> run cf f1 (SStep i :: l) = Some f2 ->
  along cf (fun f a => honest f a /\ undisturbed cf i f a /\ calm cf i f a) f1 (SStep i :: l) ->
  throughout cf (timely cf i (length (f_sent f1))) f1 (SStep i :: l) ->
  exists st D, thread f2 i st (out0 ++ map MEvent D) /\ increasing D /\
    (forall e, In e D -> In e (f_log f2) /\ c <= e_seq e) /\
    (forall d e, In d D -> owed f1 f2 c e -> e_seq e <= e_seq d -> In e D) /\
    (st = SLive [] -> forall e, owed f1 f2 c e -> In e D) /\
    (forall x, st = SDead x -> gone cf f1 x f2).
Proof.
  intros R T C0 C1 Ru Al Th. destruct (serve_all True i c out0 f1 l f2 R T C0 C1 Ru) as (st & D & H1 & H2 & H3 & H4 & H5 & H6).
  - eapply along_weaken; [|exact Al]. cbn. tauto.
  - eapply throughout_weaken; [|exact Th]. cbn. auto.
  - exists st, D. split; [exact H1|]. split; [exact H2|]. split; [exact H3|]. split; [exact (H4 Logic.I)|]. split; [exact (H5 Logic.I)|exact H6].
Qed.

Lemma c32_order i c out0 f1 l f2 : reached cf honest f1 -> thread f1 i (SNew (Some c)) out0 -> 0 <= c ->
  (exists x, In x (collected f1) /\ c <= e_seq x) -> run cf f1 (SStep i :: l) = Some f2 ->
  along cf (fun f a => honest f a /\ undisturbed cf i f a) f1 (SStep i :: l) ->
  exists st D, thread f2 i st (out0 ++ map MEvent D) /\ increasing D /\
    (forall e, In e D -> In e (f_log f2) /\ c <= e_seq e).
Proof.
  intros R T C0 C1 Ru Al. destruct (serve_all False i c out0 f1 l f2 R T C0 C1 Ru) as (st & D & H1 & H2 & H3 & _).
  - eapply along_weaken; [|exact Al]. cbn. tauto.
  - apply along_throughout. contradiction.
  - exists st, D. auto.
Qed.

(** *** A subscriber on its own *)

Lemma alone_undisturbed i f a : alone i f a -> undisturbed cf i f a.
Proof. intros A j f' _ -> NE _. destruct NE. now apply A. Qed.

End Serve.

Lemma c31 : forall cf i c out0 f1 l f2, (0 < rollback_window cf)%nat ->
  reached cf honest f1 -> thread f1 i (SNew (Some c)) out0 -> 0 <= c ->
  (exists x, In x (collected f1) /\ c <= e_seq x) -> run cf f1 (SStep i :: l) = Some f2 ->
  along cf (fun f a => honest f a /\ alone i f a /\ calm cf i f a) f1 (SStep i :: l) ->
  throughout cf (timely cf i (length (f_sent f1))) f1 (SStep i :: l) ->
  exists st D, thread f2 i st (out0 ++ map MEvent D) /\ increasing D /\
    (forall e, In e D -> In e (f_log f2) /\ c <= e_seq e) /\
    (forall d e, In d D -> owed f1 f2 c e -> e_seq e <= e_seq d -> In e D) /\
    (st = SLive [] -> forall e, owed f1 f2 c e -> In e D) /\
    (forall x, st = SDead x -> gone cf f1 x f2).
Proof.
  intros cf i c out0 f1 l f2 W R T C0 C1 Ru Al Th. apply (c32 cf W i c out0 f1 l f2 R T C0 C1 Ru); [|exact Th].
  eapply along_weaken; [|exact Al]. cbn. intros g a (H1 & H2 & H3). split; [exact H1|]. split; [exact (alone_undisturbed cf i g a H2)|exact H3].
Qed.

Lemma c31_order : forall cf i c out0 f1 l f2, (0 < rollback_window cf)%nat ->
  reached cf honest f1 -> thread f1 i (SNew (Some c)) out0 -> 0 <= c ->
  (exists x, In x (collected f1) /\ c <= e_seq x) -> run cf f1 (SStep i :: l) = Some f2 ->
  along cf (fun f a => honest f a /\ alone i f a) f1 (SStep i :: l) ->
  exists st D, thread f2 i st (out0 ++ map MEvent D) /\ increasing D /\
    (forall e, In e D -> In e (f_log f2) /\ c <= e_seq e).
Proof.
  intros cf i c out0 f1 l f2 W R T C0 C1 Ru Al. apply (c32_order cf W i c out0 f1 l f2 R T C0 C1 Ru).
  eapply along_weaken; [|exact Al]. cbn. intros g a (H1 & H2). split; [exact H1|exact (alone_undisturbed cf i g a H2)].
Qed.
