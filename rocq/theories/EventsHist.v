(** The commits and events in the storage of a history. *)
From Coq Require Import String List NArith ZArith Bool Lia Sorted.
From Coq Require Import ZifyBool ZifyNat ZifyN.
From Verif Require Import Base Lists Ipld IpldProofs MstModel MstTree MstRep MstHist TidModel
  CarModel StorageModel StorageSpec CommitProofs StoreProofs ExecProofs RepoSpec RepoProofs RepoHist RepoSteps RepoFacts
  EventsModel EventsSpec EventsProofs.
Import ListNotations.

(** ** Shapes of blocks *)

Lemma other_node b d : b_val b = ndata_ipld d -> other b.
Proof. intros E. unfold other. rewrite E. split; reflexivity. Qed.

Lemma other_record b v : plain v -> b_val b = norm v -> other b.
Proof.
  intros P E. destruct (vtype_plain v P) as (t & T & NS). unfold other. rewrite E. destruct (norm v) as [| | | | | |m|]; cbn [vtype] in T; try discriminate.
  unfold event_block_value, commit_keys. rewrite T, NS. split; auto.
  apply andb_false_iff. left. destruct (forallb _ (map fst m)) eqn:F; auto. rewrite forallb_forall in F.
  apply dget_In in T. apply (in_map fst) in T. apply F in T. cbn in T. discriminate T.
Qed.

Lemma event_type_item b t : vtype (b_val b) = Some (IText (nsid_hash ++ t)) -> is_item_event b.
Proof.
  unfold is_item_event, vtype, event_block_value. destruct (b_val b); try discriminate. intros ->. reflexivity.
Qed.

Section Hist.
Variable digest : list N -> list N.
Variable kdigest : str -> list N.
Variable validate : ipld -> res unit.
Variable ecdsa : N -> Z -> list N -> list N.
Variable now : Z -> str.
Variable cb : nat -> option exn.
Variable be : backend.
Notation inv := (inv digest kdigest validate ecdsa be).
Notation committed := (committed digest kdigest validate ecdsa be).
Notation created := (created digest kdigest validate ecdsa now be).
Notation effect := (effect digest kdigest validate ecdsa now be).
Notation event_block := (event_block digest now).
Notation sstep := (sstep digest kdigest validate ecdsa now cb be).
Notation srun := (srun digest kdigest validate ecdsa now cb be).
Notation history := (history digest kdigest validate ecdsa now cb be).
Notation clean_from := (clean_from digest kdigest validate ecdsa now cb be).
Notation log_from := (log_from digest kdigest validate ecdsa now cb be).
Notation commit_of := (commit_of ecdsa).
Hypothesis SET : setting digest kdigest validate cb.

Lemma commit_of_shape b did key prev root : commit_of b did key prev root ->
  event_block_value (b_val b) = Ok false /\ commit_keys (b_val b) = true /\ prev_of (b_val b) = prev /\
  item_link (s "data") (b_val b) = Ok root /\ b_repo b = Some did.
Proof. clear. intros (rev & _ & R & ->). destruct prev; splits; auto. Qed.

Lemma root_stored bl m root d : snapshot digest kdigest bl m root d -> exists x, dget root bl = Some x.
Proof.
  clear. intros (n & t & _ & _ & _ & _ & ST & <- & _). destruct ST as [es H _].
  cbn beta in H. rewrite dget_vals in H. destruct (dget (tcid digest (Node es)) bl) as [x|]; [eauto|discriminate].
Qed.

Lemma ops_records recs ws op : In op (commit_ops digest recs ws) -> op_action op <> DELETE ->
  exists w v, In w ws /\ w_action w <> DELETE /\ w_record w = Some v /\ op_cid op = Some (rcid digest v).
Proof.
  clear. revert recs. induction ws as [|w ws IH]; intros recs; cbn [commit_ops]; [intros []|].
  intros H ND. apply in_app_or in H as [H|H].
  - exists w. unfold write_ops in H. cbv zeta in H. destruct (w_action w) eqn:A, (w_record w) as [v|] eqn:V.
    + destruct H as [<-|[]]. exists v. cbn. splits; auto; discriminate.
    + destruct H.
    + destruct (option_map _ _) as [c|]; [|destruct H]. destruct (str_eqb c _); [destruct H|]. destruct H as [<-|[]].
      exists v. cbn. splits; auto; discriminate.
    + destruct H.
    + destruct H as [<-|[]]. exfalso. apply ND. reflexivity.
    + destruct H as [<-|[]]. exfalso. apply ND. reflexivity.
  - destruct (IH _ H ND) as (w' & v & A & B). exists w', v. split; [right; auto|auto].
Qed.

(** ** The log *)

Record log_ok (st : state) (lg : list block) : Prop := {
  lo_sorted : StronglySorted (fun a b => (b_seq a < b_seq b)%Z) lg;
  lo_in : forall e, In e lg -> read st (b_cid e) = Some e;
  lo_item : forall e, In e lg -> is_item_event e \/ is_item_commit st e;
  lo_part : forall c b, read st c = Some b -> exists e, In e lg /\ b_seq e = b_seq b /\ b_repo e = b_repo b /\
    (b = e \/ is_item_commit st e /\ other b)
}.

Lemma item_mono st st' e : extends (s_blocks st) (s_blocks st') -> is_item_commit st e -> is_item_commit st' e.
Proof.
  clear. intros EX [A B (ops & C & D) (root & x & E & F)]. split; auto.
  - exists ops. split; auto. intros op HO N. destruct (D op HO N) as (c & y & G & H). exists c, y. split; auto. apply EX. auto.
  - exists root, x. split; auto. apply EX. auto.
Qed.

Lemma log_extend st st' lg new : log_ok st lg -> extends (s_blocks st) (s_blocks st') ->
  (forall c b, read st c = Some b -> (b_seq b < s_next st)%Z) ->
  StronglySorted (fun a b => (b_seq a < b_seq b)%Z) new -> (forall e, In e new -> (s_next st <= b_seq e)%Z) ->
  (forall e, In e new -> read st' (b_cid e) = Some e) -> (forall e, In e new -> is_item_event e \/ is_item_commit st' e) ->
  (forall c b, read st' c = Some b -> read st c = Some b \/ exists e, In e new /\ b_seq e = b_seq b /\ b_repo e = b_repo b /\
    (b = e \/ is_item_commit st' e /\ other b)) -> log_ok st' (lg ++ new).
Proof.
  clear. intros [L1 L2 L3 L4] EX LT N1 N2 N3 N4 N5. split.
  - apply StronglySorted_app. splits; auto. apply Forall_forall. intros a HA. apply Forall_forall. intros b HB. specialize (N2 b HB). specialize (LT _ _ (L2 a HA)). lia.
  - intros e HE. apply in_app_or in HE as [HE|HE]; auto. apply EX. apply L2. auto.
  - intros e HE. apply in_app_or in HE as [HE|HE]; auto. destruct (L3 e HE); auto. right. eapply item_mono; eauto.
  - intros c b H. destruct (N5 c b H) as [O|(e & A & B)].
    + destruct (L4 c b O) as (e & A & B & C & D). exists e. splits; auto; [apply in_or_app; auto|].
      destruct D as [D|[D1 D2]]; auto. right. split; auto. eapply item_mono; eauto.
    + exists e. split; [apply in_or_app; auto|exact B].
Qed.

(** The block of a log entry. *)
Definition entry_block (st : state) (b : block) (e : entry) : Prop :=
  match e with
  | LCommit n did (Some cd) => b = cd_commit cd /\ b_seq b = n /\ cd_prev cd = prev_of (b_val b) /\
      exists key prev root, commit_of b did key prev root
  | LCommit n did None => b_seq b = n /\ b_ops b = Some [] /\ exists key root, commit_of b did key None root
  | LEvent n did type extra => b = event_block did type n extra /\ is_item_event b
  | LSync n did => is_item_event b /\ exists c rev, b = event_block did (s "sync") n (sync_extra c rev) /\
      read st (b_cid c) = Some c /\ b_seq c = (n - 3)%Z /\ int_to_tid (n - 3) 0 = Ok rev /\
      exists key root, commit_of c did key None root
  end.

Lemma entry_block_mono st st' b e : extends (s_blocks st) (s_blocks st') -> entry_block st b e -> entry_block st' b e.
Proof.
  clear. intros EX. destruct e as [n did [cd|]|n did type extra|n did]; cbn; auto.
  intros (A & c & rev & B & C & D). split; auto. exists c, rev. splits; auto; try tauto. apply EX. auto.
Qed.

Lemma entry_block_facts st b e : entry_block st b e -> b_seq b = entry_seq e /\ b_repo b = Some (entry_did e).
Proof.
  clear. destruct e as [n did [cd|]|n did type extra|n did]; cbn.
  - intros (_ & A & _ & k & p & r & C). split; auto. apply commit_of_shape in C. tauto.
  - intros (A & _ & k & r & C). split; auto. apply commit_of_shape in C. tauto.
  - intros (-> & _). auto.
  - intros (_ & c & rev & -> & _). auto.
Qed.

Lemma entry_filter st lg es start repo : Forall2 (entry_block st) lg es ->
  Forall2 (entry_block st) (filter (in_range start repo) lg) (filter (entry_selected start repo) es).
Proof.
  clear. induction 1 as [|b e lg es H F IH]; cbn [filter]; auto.
  assert (X : in_range start repo b = entry_selected start repo e).
  { destruct (entry_block_facts _ _ _ H) as [A B]. unfold in_range, entry_selected. rewrite A, B. reflexivity. }
  rewrite X. destruct (entry_selected start repo e); auto.
Qed.

Lemma entry_block_item st i b e : block_item st i b -> entry_block st b e -> read st (b_cid b) = Some b -> entry_item ecdsa now st i e.
Proof.
  clear. intros BI EB RB.
  assert (CASE : (is_item_event b -> i = EEvent (b_val b)) /\ (event_block_value (b_val b) = Ok false ->
    exists cd, i = ECommit cd /\ cd_commit cd = b /\ cd_prev cd = prev_of (b_val b) /\ commit_blocks st b (cd_blocks cd))).
  { unfold is_item_event. destruct BI as [[A ->]|[A B]]; (split; [intros X|intros X]).
    - auto.
    - unfold is_item_event in A. congruence.
    - pose proof (ic_event _ _ A). congruence.
    - exact B. }
  destruct CASE as [CE CC]. destruct e as [n did [cd|]|n did type extra|n did]; cbn in EB.
  - destruct EB as (-> & SQ & PV & key & prev & root & CO). destruct (commit_of_shape _ _ _ _ _ CO) as (S1 & S2 & S3 & S4 & S5).
    destruct (CC S1) as (cd' & -> & E1 & E2 & E3). cbn. splits; auto. congruence.
  - destruct EB as (SQ & OP & key & root & CO). destruct (commit_of_shape _ _ _ _ _ CO) as (S1 & S2 & S3 & S4 & S5).
    destruct (CC S1) as (cd' & -> & E1 & E2 & E3). cbn. rewrite E1. splits; auto; try congruence. exists key, root. exact CO.
  - destruct EB as (-> & EV). rewrite (CE EV). cbn [entry_item]. reflexivity.
  - destruct EB as (EV & c & rev & -> & RC & SC & RV & key & root & CO). rewrite (CE EV). cbn [entry_item]. exists c, rev. splits; auto.
    exists key, root. auto.
Qed.

(** ** One operation *)

Lemma log_same st st' lg : s_blocks st' = s_blocks st -> log_ok st lg -> log_ok st' (lg ++ []).
Proof.
  clear. intros E [L1 L2 L3 L4]. rewrite app_nil_r.
  assert (R : forall c, read st' c = read st c) by (intros; unfold read; rewrite E; auto).
  assert (IM : forall e, is_item_commit st e -> is_item_commit st' e).
  { intros e. apply item_mono. rewrite E. apply extends_refl. }
  split; auto.
  - intros e HE. rewrite R. auto.
  - intros e HE. destruct (L3 e HE); auto.
  - intros c b. rewrite R. intros H. destruct (L4 c b H) as (e & A & B & C & [D|[D1 D2]]); exists e; splits; auto.
Qed.

Lemma event_item did type seq extra : is_event type seq (event now type seq (Some did) extra) ->
  is_item_event (event_block did type seq extra).
Proof. clear. intros [A _]. eapply event_type_item. exact A. Qed.

Lemma effect_log st refs bk op st' refs' out lg : inv st refs bk -> effect st refs bk op st' refs' out -> log_ok st lg ->
  exists new, log_ok st' (lg ++ new) /\ Forall2 (entry_block st') new (log_entries (World st refs) op out).
Proof.
  intros I E L. pose proof (effect_extends digest kdigest validate ecdsa now be _ _ _ _ _ _ _ I E) as [EX _].
  assert (LT : forall c b, read st c = Some b -> (b_seq b < s_next st)%Z).
  { intros c b H. apply (fresh_seq digest kdigest validate ecdsa be st refs bk c b I H). }
  destruct E.
  - exists []. split; [apply (log_same st); auto|]. destruct op, out as [v|e]; cbn [log_entries]; try constructor;
      destruct (H v eq_refl) as (-> & x & E); try discriminate E; constructor.
  - exists []. split; [|constructor]. apply (log_same st); auto. apply (loaded_facts be _ _ _ _ _ H H2).
  - exists []. split; [|constructor]. apply (log_same st); auto.
  - exists []. split; [|constructor]. apply (log_same st); auto.
  - exists []. split; [|constructor]. apply (log_same st); auto. rewrite called_blocks. reflexivity.
  - assert (CD : commit_did cd = did) by (eapply committed_did; eauto).
    pose proof H5 as C. destruct (c_objs _ _ _ _ _ _ _ _ _ _ _ _ _ _ C) as (o & root & m' & HS & SN & CH & _).
    destruct (c_prev _ _ _ _ _ _ _ _ _ _ _ _ _ _ C) as (o' & hb & _ & _ & PV & root' & CO).
    destruct (commit_of_shape _ _ _ _ _ CO) as (S1 & S2 & S3 & S4 & S5).
    assert (RT : root' = root).
    { pose proof (chain_data _ _ _ _ _ _ _ _ _ _ CH) as X. congruence. }
    subst root'.
    assert (GET : forall c, read st' c = match read st c with Some b => Some b | None => dget c (cd_blocks cd) end).
    { intros c. unfold read. rewrite (c_blocks _ _ _ _ _ _ _ _ _ _ _ _ _ _ C). apply fold_setdefault_get. }
    assert (RC : read st' (b_cid (cd_commit cd)) = Some (cd_commit cd)).
    { rewrite GET. unfold read. rewrite (c_fresh _ _ _ _ _ _ _ _ _ _ _ _ _ _ C). apply (c_in _ _ _ _ _ _ _ _ _ _ _ _ _ _ C). }
    assert (IC : is_item_commit st' (cd_commit cd)).
    { split; auto.
      - exists (commit_ops digest recs ws). split; [apply (c_ops _ _ _ _ _ _ _ _ _ _ _ _ _ _ C)|].
        intros op HO ND. destruct (ops_records _ _ _ HO ND) as (w & v & W1 & W2 & W3 & W4).
        pose proof (c_written _ _ _ _ _ _ _ _ _ _ _ _ _ _ C w v W1 W2 W3) as X.
        destruct (stored_read digest st' v X) as (b & RB & _). exists (rcid digest v), b. auto.
      - destruct (root_stored _ _ _ _ SN) as (x & RX). exists root, x. auto. }
    exists [cd_commit cd]. split.
    + apply (log_extend st); auto.
      * constructor; constructor.
      * intros e [<-|[]]. rewrite (c_seq _ _ _ _ _ _ _ _ _ _ _ _ _ _ C). lia.
      * intros e [<-|[]]. auto.
      * intros e [<-|[]]. auto.
      * intros c b HB. rewrite GET in HB. destruct (read st c) as [x|]; [left; congruence|]. right.
        destruct (c_new _ _ _ _ _ _ _ _ _ _ _ _ _ _ C c b HB) as (N1 & N2 & N3 & N4).
        exists (cd_commit cd). rewrite (c_seq _ _ _ _ _ _ _ _ _ _ _ _ _ _ C). splits; [left; auto|auto|congruence|].
        destruct N4 as [->|(_ & [(d & N4)|(w & v & _ & _ & _ & N4 & N5)])]; auto; right; split; auto.
        -- eapply other_node; eauto.
        -- eapply other_record; eauto.
    + cbn [log_entries]. rewrite CD. constructor; [|constructor]. cbn [entry_block w_state].
      splits; auto; [apply (c_seq _ _ _ _ _ _ _ _ _ _ _ _ _ _ C)|congruence|]. exists key, (Some (b_cid hb)), root. exact CO.
  - exists []. split; [|constructor]. apply (log_same st); auto.
    destruct (loaded_facts be (alloc st) did o st1 r) as (F1 & F2 & _); auto.
    rewrite called_blocks. cbn [upd set_objs s_blocks]. rewrite F2. reflexivity.
  - destruct (status_facts digest kdigest validate ecdsa be st refs bk r0 o0 did key recs x I H1 H2 H3)
      as (I1 & N1 & B1 & C1 & M1 & O1 & _).
    set (e := event_block did type (s_next st) extra) in *.
    assert (EV : is_item_event e).
    { apply event_item. eapply status_event; eauto. }
    destruct (after_event_facts (status_set be st r0 o0 did x) (with_status x o0) e) as (E1 & E2 & _).
    rewrite B1 in E2.
    assert (GET : forall c, read (after_event (status_set be st r0 o0 did x) (with_status x o0) e) c
      = match read st c with Some b => Some b | None => if str_eqb c (b_cid e) then Some e else None end).
    { intros c. unfold read. rewrite E2, dget_app. cbn [dget]. reflexivity. }
    exists [e]. split.
    + apply (log_extend st); auto.
      * constructor; constructor.
      * intros y [<-|[]]. cbn. lia.
      * intros y [<-|[]]. rewrite GET. unfold read. rewrite H4, str_eqb_refl. auto.
      * intros y [<-|[]]. auto.
      * intros c b HB. rewrite GET in HB. destruct (read st c) as [y|]; [left; congruence|]. right.
        destruct (str_eqb c (b_cid e)); [|discriminate]. injection HB as <-. exists e. splits; auto. left. auto.
    + assert (HD : handle_did (World st refs) h = Some did) by (eapply good_handle_did; eauto).
      assert (LE : log_entries (World st refs) op (Ok OutDone) = [LEvent (s_next st) did type extra]).
      { unfold log_entries. destruct op; try discriminate H; rewrite H, HD; reflexivity. }
      rewrite LE. constructor; [|constructor]. cbn. auto.
  - pose proof H2 as C. destruct (n_commit _ _ _ _ _ _ _ _ _ _ _ _ _ _ C) as (rev & RV & EB & _ & ND & FR).
    destruct (n_chain _ _ _ _ _ _ _ _ _ _ _ _ _ _ C) as (root & CH & CO).
    set (e1 := event_block did (s "identity") (s_next st + 1) (identity_extra handle)) in *.
    set (e2 := event_block did (s "account") (s_next st + 2) active_extra) in *.
    set (e3 := event_block did (s "sync") (s_next st + 3) (sync_extra (cd_commit cd) rev)) in *.
    set (c0 := cd_commit cd) in *.
    destruct (commit_of_shape _ _ _ _ _ CO) as (S1 & S2 & S3 & S4 & S5).
    assert (EV : is_item_event e1 /\ is_item_event e2 /\ is_item_event e3).
    { splits; apply event_item; split; reflexivity. }
    destruct EV as (V1 & V2 & V3).
    assert (GET : forall c, read st' c = match read st c with Some b => Some b | None =>
       match dget c (cd_blocks cd) with Some b => Some b | None => dget c [(b_cid e1, e1); (b_cid e2, e2); (b_cid e3, e3)] end end).
    { intros c. unfold read. rewrite EB, dget_app, fold_setdefault_get. destruct (dget c (s_blocks st)); auto. }
    assert (RC : read st' (b_cid c0) = Some c0).
    { rewrite GET. unfold read, c0. rewrite (n_fresh _ _ _ _ _ _ _ _ _ _ _ _ _ _ C), (n_in _ _ _ _ _ _ _ _ _ _ _ _ _ _ C). auto. }
    assert (RE : forall e, In e [e1; e2; e3] -> read st' (b_cid e) = Some e).
    { intros e HE. rewrite GET. specialize (FR e HE). rewrite fold_setdefault_get in FR. unfold read.
      destruct (dget (b_cid e) (s_blocks st)); [discriminate|]. rewrite FR.
      apply In_dget; [exact ND|]. destruct HE as [<-|[<-|[<-|[]]]]; cbn; auto. }
    assert (OPS : b_ops c0 = Some []).
    { clear - CH S3. inversion CH as [b rt A1 A2 A3 A4|b' root' recs ws b rt C A1 A2 A3 A4 A5 A6 A7 A8]; auto.
      exfalso. destruct (commit_of_shape _ _ _ _ _ A2) as (_ & _ & X & _). congruence. }
    assert (IC : is_item_commit st' c0).
    { split; auto.
      - exists []. split; auto. intros op [].
      - destruct (root_stored _ _ _ _ (chain_snapshot _ _ _ _ _ _ _ _ _ _ CH)) as (x & RX). exists root, x. auto. }
    exists [c0; e1; e2; e3].
    assert (SQ : b_seq c0 = s_next st) by exact (n_seq _ _ _ _ _ _ _ _ _ _ _ _ _ _ C).
    split.
    + apply (log_extend st); auto.
      * repeat constructor; rewrite ?SQ; cbn; lia.
      * intros e [<-|[<-|[<-|[<-|[]]]]]; rewrite ?SQ; cbn; lia.
      * intros e [<-|HE]; auto.
      * intros e [<-|[<-|[<-|[<-|[]]]]]; auto.
      * intros c b HB. rewrite GET in HB. destruct (read st c) as [y|]; [left; congruence|]. right.
        destruct (dget c (cd_blocks cd)) as [y|] eqn:DC.
        -- injection HB as ->. destruct (n_new _ _ _ _ _ _ _ _ _ _ _ _ _ _ C c b DC) as (N1 & N2 & N3 & N4).
           exists c0. rewrite SQ. splits; [left; auto|auto|congruence|].
           destruct N4 as [->|(_ & d & N4)]; auto. right. split; auto. eapply other_node; eauto.
        -- apply dget_In in HB. assert (IB : In b [e1; e2; e3]) by (destruct HB as [[= _ <-]|[[= _ <-]|[[= _ <-]|[]]]]; cbn; auto).
           exists b. splits; auto. right. exact IB.
    + cbn [log_entries w_state]. constructor; [|constructor; [|constructor; [|constructor; [|constructor]]]].
      * cbn [entry_block]. splits; auto. exists key, root. exact CO.
      * cbn [entry_block]. split; auto.
      * cbn [entry_block]. split; auto.
      * cbn [entry_block]. split; auto. exists c0, rev. replace (s_next st + 3 - 3)%Z with (s_next st) by lia. splits; auto. exists key, root. exact CO.
  - exists []. split; [|constructor]. apply (log_same st); auto. rewrite called_blocks. reflexivity.
Qed.
End Hist.
