(** The log of a datastore whose processes die. *)
From Coq Require Import String List NArith ZArith Bool Lia Sorted.
From Coq Require Import ZifyBool ZifyNat ZifyN.
From Verif Require Import Base Lists Ipld IpldProofs MstModel MstRep TidModel BlockModel MstSane StorageModel StorageSpec RepoSpec EventsModel EventsSpec EventsProofs EventsHist EventsFacts
  IsolateProofs StoreProofs LogSpec LogProofs CrashModel CrashSpec CrashProofs.
Import ListNotations.
Local Open Scope m_scope.

Section Fire.
Variable digest : list N -> list N.
Variable kdigest : str -> list N.
Variable validate : ipld -> res unit.
Variable ecdsa : N -> Z -> list N -> list N.
Variable now : Z -> str.
Variable cb : nat -> option exn.
Hypothesis inj : forall a b, digest a = digest b -> a = b.
Hypothesis plains : forall v, validate v = Ok tt -> plain v.
Notation J := (J digest ecdsa (fun _ => True) (fun _ => False)).
Notation JW := (JW digest ecdsa (fun _ => True) (fun _ => False)).
Notation hop := (hop digest ecdsa (fun _ => True) (fun _ => False)).
Notation told := (told digest ecdsa now).
Notation sstep := (sstep digest kdigest validate ecdsa now cb Datastore).
Notation take_turn := (take_turn digest kdigest validate ecdsa now cb).
Let NE : forall v t, (fun _ : ipld => False) v -> vtype v <> Some (IText (nsid_hash ++ t)) := fun v t f => match f with end.
Let NC : forall b did key prev root, (fun _ : ipld => False) (b_val b) -> (fun _ : N => True) key -> ~ commit_of ecdsa b did key prev root := fun b did key prev root f => match f with end.

Lemma J_up B B' st : (B <= B')%Z -> J B st -> J B' st.
Proof. intros LE [A0 A1 A2 A3 A4 A5]. split; auto; [lia|]. intros c b R. destruct (A3 c b R) as [X|X]; [left; lia|auto]. Qed.
Lemma J_reboot lost st : J (s_next st) st -> J (s_next (reboot lost st)) (reboot lost st).
Proof.
  intros HJ. apply (J_up (s_next st)); [cbn [reboot s_next]; lia|]. apply (J_same _ _ _ _ _ st); [reflexivity| |exact HJ].
  split; [intros [|r] o H; discriminate H|auto].
Qed.
Lemma J_like st c lost : J (s_next st) st -> s_blocks c = s_blocks st -> s_next c = s_next st -> J (s_next (reboot lost c)) (reboot lost c).
Proof.
  intros HJ B N. apply (J_up (s_next st)); [cbn [reboot s_next]; lia|]. apply (J_same _ _ _ _ _ st); [exact B| |exact HJ].
  split; [intros [|r] o H; discriminate H|auto].
Qed.

Lemma hop_done {A B} st (m : M A) (f : A -> B) Q : hop st Q (m st) -> hop st (fun _ _ => True) ((let! a := m in ret (f a)) st).
Proof. intros H. eapply hop_bind; [exact H|]. intros a st1 J1 _ _. apply hop_ret; auto. Qed.
Lemma hop_number st : J (s_next st) st -> hop st (fun _ _ => True) ((let! _ := allocate_seq in ret tt) st).
Proof.
  intros HJ. unfold LogProofs.hop. cbn [bindM allocate_seq ret fst snd s_next]. split; [|split; [intros c x X; exact X|exact I]].
  apply (J_up (s_next st)); [cbn; lia|]. apply (J_same _ _ _ _ _ st); [reflexivity| |exact HJ].
  apply (sanes_same _ _ st); [reflexivity|reflexivity|exact (j_sane _ _ _ _ _ _ HJ)].
Qed.
Lemma hop_event r type extra st : J (s_next st) st -> eventful now type extra -> hop st (fun _ _ => True) (write_event digest now cb Datastore r type extra st).
Proof.
  intros HJ EV. eapply hop_weaken; [apply hop_after, (event_log digest kdigest validate ecdsa now cb Datastore inj plains _ _ NE NC); [exact HJ|exact EV]|]. auto.
Qed.

Lemma create_hop k did handle status hc key st : J (s_next st) st -> is_did did -> hop st (fun _ _ => True) (create_until digest kdigest validate ecdsa now cb k did handle status hc key st).
Proof.
  intros HJ ID. unfold create_until. cbv zeta. destruct (Nat.leb 9 k).
  - eapply hop_done. apply (create_log digest kdigest validate ecdsa now cb Datastore inj plains _ _ NE NC did handle status hc key st HJ ID I).
  - eapply hop_bind; [apply hop_pure; [exact HJ|apply pure_lift]|]. intros m st0 J0 _ [MC ->].
    assert (SM : sane digest m) by (apply (sane_create digest [] None m); [constructor|]; unfold lift in MC; destruct (mst_create digest [] None); congruence).
    eapply hop_bind; [apply hop_mild; [exact HJ|apply mild_new; split; [exact SM|exact I]]|]. intros r st1 J1 _ _.
    assert (DONE : forall st2, J (s_next st2) st2 -> hop st2 (fun _ _ => True) (ret tt st2)) by (intros st2 J2; apply hop_ret; auto).
    destruct k as [|[|k]]; [apply DONE, J1|apply hop_number, J1|].
    eapply hop_bind; [apply hop_after, (commit_log digest kdigest validate ecdsa now cb Datastore inj plains _ _ NE NC); exact J1|]. intros cd st2 J2 _ _.
    eapply hop_bind; [apply hop_pure; [exact J2|apply pure_obj]|]. intros o st3 J3 _ [_ ->].
    eapply hop_bind; [apply hop_pure; [exact J2|unfold need_did; apply pure_bind; [apply pure_lift|intros [d|]; [apply pure_ret|apply pure_throw]]]|]. intros d st4 J4 _ [_ ->].
    destruct k as [|[|k]]; [apply DONE, J2|apply hop_number, J2|].
    eapply hop_bind; [apply hop_event; [exact J2|apply eventful_identity]|]. intros _ st5 J5 _ _.
    destruct k as [|[|k]]; [apply DONE, J5|apply hop_number, J5|].
    eapply hop_bind; [apply hop_event; [exact J5|apply eventful_active]|]. intros _ st6 J6 _ _.
    destruct k as [|[|k]]; [apply DONE, J6|apply hop_number, J6|].
    eapply hop_bind; [apply hop_pure; [exact J6|apply pure_lift]|]. intros rev st7 J7 _ [_ ->].
    eapply hop_bind; [apply hop_event; [exact J6|intros d8 n8; split; reflexivity]|]. intros _ st8 J8 _ _. apply DONE, J8.
Qed.

Lemma status_hop k r x type extra st : J (s_next st) st -> eventful now type extra -> hop st (fun _ _ => True) (status_until digest now cb k r x type extra st).
Proof.
  intros HJ EV. destruct k as [|k]; [apply hop_ret; auto|]. unfold status_until.
  eapply hop_bind; [apply hop_mild; [exact HJ|apply mild_status]|]. intros _ st1 J1 _ _.
  destruct k as [|[|k]]; [apply hop_ret; auto|apply hop_number, J1|]. eapply hop_done. apply hop_event; [exact J1|exact EV].
Qed.

(** Each turn. *)
Lemma turn_J w t : JW w -> turn_ok t -> JW (take_turn w t) /\ grows (w_state w) (w_state (take_turn w t)) /\
  Forall (told (w_state (take_turn w t))) (match t with Done op => log_entries w op (snd (sstep w op)) | Died _ _ _ => [] end).
Proof.
  intros HJ ON. destruct t as [op|op k lost]; cbn [CrashSpec.take_turn].
  - destruct (step_log digest kdigest validate ecdsa now cb Datastore inj plains _ _ NE NC w op HJ ON (fun _ _ => I)) as (A1 & A2 & A3). auto.
  - unfold LogProofs.JW, crash. cbn [w_state]. unfold turn_ok in ON. cbn [turn_op] in ON.
    assert (C : exists st, J (s_next st) st /\ grows (w_state w) st /\ s_blocks (cut digest kdigest validate ecdsa now cb w op k) = s_blocks st /\ s_next (cut digest kdigest validate ecdsa now cb w op k) = s_next st).
    { assert (SAME : exists st, J (s_next st) st /\ grows (w_state w) st /\ s_blocks (w_state w) = s_blocks st /\ s_next (w_state w) = s_next st).
      { exists (w_state w). splits; auto. intros c b R. exact R. }
      assert (HOP : forall A (m : M A), hop (w_state w) (fun _ _ => True) (m (w_state w)) ->
        exists st, J (s_next st) st /\ grows (w_state w) st /\ s_blocks (fst (m (w_state w))) = s_blocks st /\ s_next (fst (m (w_state w))) = s_next st).
      { intros A m (H1 & H2 & _). exists (fst (m (w_state w))). auto. }
      destruct op as [did handle status hc key|x|h key|h x|h ws|h|h|h]; cbn [cut]; cbv zeta; auto.
      - apply HOP, create_hop; [exact HJ|exact (proj1 ON)].
      - destruct (nth_error (w_refs w) h) as [r|]; [|exact SAME]. destruct k as [|[|[|k]]]; cbn [commit_until].
        + exact SAME.
        + apply HOP, hop_number, HJ.
        + destruct (commit_same digest kdigest validate ecdsa cb r ws (w_state w)) as (B & N & _). eexists. split; [|split; [|split; [exact B|exact N]]].
          * exact (proj1 (hop_after _ _ _ _ _ _ _ (commit_log digest kdigest validate ecdsa now cb Datastore inj plains _ _ NE NC r ws None (w_state w) HJ))).
          * exact (proj1 (proj2 (hop_after _ _ _ _ _ _ _ (commit_log digest kdigest validate ecdsa now cb Datastore inj plains _ _ NE NC r ws None (w_state w) HJ)))).
        + apply HOP. eapply hop_done, hop_after, (commit_log digest kdigest validate ecdsa now cb Datastore inj plains _ _ NE NC). exact HJ.
      - destruct (nth_error (w_refs w) h) as [r|]; [|exact SAME]. apply HOP, status_hop; [exact HJ|apply eventful_off].
      - destruct (nth_error (w_refs w) h) as [r|]; [|exact SAME]. apply HOP, status_hop; [exact HJ|apply eventful_active].
      - destruct (nth_error (w_refs w) h) as [r|]; [|exact SAME]. apply HOP, status_hop; [exact HJ|apply eventful_gone]. }
    destruct C as (st & J1 & G & B & N). split; [|split; [|constructor]].
    + eapply J_like; eauto.
    + intros c b R. apply G in R. unfold read in *. cbn [reboot s_blocks]. rewrite B. exact R.
Qed.

Lemma turns_J l : forall w, JW w -> Forall turn_ok l -> let w' := fold_left take_turn l w in
  JW w' /\ grows (w_state w) (w_state w') /\ Forall (told (w_state w')) (turns_log digest kdigest validate ecdsa now cb w l).
Proof.
  induction l as [|t l IH]; intros w HJ F; cbn [fold_left turns_log]; cbv zeta.
  - split; [exact HJ|]. split; [intros c b R; exact R|constructor].
  - inversion F as [|? ? F1 F2]; subst. destruct (turn_J w t HJ F1) as (J1 & G1 & T1). destruct (IH _ J1 F2) as (J2 & G2 & T2). split; [exact J2|]. split.
    + eapply grows_trans; eauto.
    + apply Forall_app. split; [|exact T2]. eapply Forall_impl; [|exact T1]. intros e. apply told_grows. exact G2.
Qed.

Lemma crash_fire l start repo query fails : Forall turn_ok l -> (0 <= start)%Z ->
  let st := w_state (turns digest kdigest validate ecdsa now cb l) in
  (forall i cur, enumerates st cur repo (query i cur)) ->
  exists items lg, read_events st (scan query fails start) = (items, None) /\
    logged ecdsa st start repo lg /\ Forall2 (item_for ecdsa st) items lg /\
    forall e, In e (turns_log digest kdigest validate ecdsa now cb init_world l) -> entry_selected start repo e = true ->
      exists i, In i items /\ entry_item ecdsa now st i e.
Proof.
  intros F S0 st Q. destruct (turns_J l init_world (JW_init digest ecdsa (fun _ => True) (fun _ => False)) F) as (HJ & _ & TD). fold (turns digest kdigest validate ecdsa now cb l) in HJ, TD. unfold LogProofs.JW in HJ. fold st in HJ, TD.
  destruct (scan_ok st start repo (proj2 (J_keyed _ _ _ _ _ _ HJ)) query fails Q S0) as (bs & -> & EN).
  destruct (events_of digest ecdsa now (fun _ => True) (fun _ => False) _ _ start repo bs HJ EN) as (items & lg & A & B & C & D).
  - intros b HB. apply EN in HB as [(c & R) _]. destruct (j_low _ _ _ _ _ _ HJ c b R) as [X|[_ []]]. lia.
  - exists items, lg. splits; auto. intros e IE. rewrite Forall_forall in TD. auto.
Qed.
Lemma crash_keyed l : Forall turn_ok l -> keyed_store (w_state (turns digest kdigest validate ecdsa now cb l)).
Proof.
  intros F. destruct (turns_J l init_world (JW_init digest ecdsa (fun _ => True) (fun _ => False)) F) as (HJ & _ & _). exact (J_keyed _ _ _ _ _ _ HJ).
Qed.
End Fire.
