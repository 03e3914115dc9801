(** The event log, whatever fails. *)
From Coq Require Import String List NArith ZArith Bool Lia Sorted.
From Coq Require Import ZifyBool ZifyNat ZifyN.
From Verif Require Import Base Lists Ipld IpldProofs MstModel MstRep MstClient MstSane TidModel TidProofs BlockModel CarModel StorageModel StorageSpec StoreProofs ExecProofs
  RepoSpec RepoProofs EventsModel EventsSpec EventsProofs EventsHist EventsFacts CallbackProofs IsolateSpec IsolateProofs ChainProofs TellProofs LogSpec.
Import ListNotations.
Local Open Scope m_scope.

Section Log.
Variable digest : list N -> list N.
Variable kdigest : str -> list N.
Variable validate : ipld -> res unit.
Variable ecdsa : N -> Z -> list N -> list N.
Variable now : Z -> str.
Variable cb : nat -> option exn.
Variable be : backend.
Hypothesis inj : forall a b, digest a = digest b -> a = b.
Hypothesis plains : forall v, validate v = Ok tt -> plain v.
Notation wf := (wf digest).
Notation sane := (sane digest).
Notation commit_of := (commit_of ecdsa).
Notation is_commit_block := (is_commit_block ecdsa).
Notation event_block := (event_block digest now).
Notation entry_block := (entry_block digest ecdsa now).

(** The keys of this server, and the values that came with imports. *)
Variable K : N -> Prop.
Variable alien : ipld -> Prop.
Hypothesis alien_event : forall v t, alien v -> vtype v <> Some (IText (nsid_hash ++ t)).
Hypothesis alien_commit : forall b did key prev root, alien (b_val b) -> K key -> ~ commit_of b did key prev root.

Definition fine (o : repo) : Prop := sane (r_mst o) /\ K (r_key o).
Record sanes (st : state) : Prop := {
  sa_objs : forall r o, nth_error (s_objs st) r = Some o -> fine o;
  sa_ents : forall d e, In (d, e) (s_ents st) -> K (e_key e)
}.
Lemma sanes_same st st' : s_objs st' = s_objs st -> s_ents st' = s_ents st -> sanes st -> sanes st'.
Proof. intros A B [S1 S2]. split; rewrite ?A, ?B; assumption. Qed.
Definition numbered (b : block) : Prop :=
  (exists t, vtype (b_val b) = Some (IText (nsid_hash ++ t)) /\ item (s "seq") (b_val b) = Ok (IInt (b_seq b))) \/
  exists did key prev root, K key /\ commit_of b did key prev root.

(** [log_ok] without the blocks of imports. *)
Record logp (st : state) (lg : list block) : Prop := {
  lp_sorted : StronglySorted (fun a b => (b_seq a < b_seq b)%Z) lg;
  lp_in : forall e, In e lg -> read st (b_cid e) = Some e;
  lp_item : forall e, In e lg -> is_item_event e \/ is_item_commit st e;
  lp_part : forall c b, read st c = Some b -> b_seq b <> 0%Z -> exists e, In e lg /\ b_seq e = b_seq b /\ b_repo e = b_repo b /\
    (b = e \/ is_item_commit st e /\ other b)
}.
Lemma logp_mono st st' lg : grows st st' -> (forall c b, read st' c = Some b -> b_seq b <> 0%Z -> read st c = Some b) -> logp st lg -> logp st' lg.
Proof.
  intros G B [L1 L2 L3 L4]. assert (IM : forall e, is_item_commit st e -> is_item_commit st' e) by (intros e; apply item_mono; exact G). split; auto.
  - intros e HE. destruct (L3 e HE); auto.
  - intros c b R N. destruct (L4 c b (B c b R N) N) as (e & X1 & X2 & X3 & [X4|[X4 X5]]); exists e; splits; auto.
Qed.

(** Blocks have numbers below [B]; each belongs to a commit or is an event. *)
Record J (B : Z) (st : state) : Prop := {
  j_pos : (0 < B)%Z;
  j_nodup : NoDup (keys (s_blocks st));
  j_wf : forall c b, read st c = Some b -> b_cid b = c /\ wf b;
  j_low : forall c b, read st c = Some b -> (0 < b_seq b < B)%Z \/ b_seq b = 0%Z /\ alien (b_val b);
  j_sane : sanes st;
  j_log : exists lg, logp st lg /\ Forall numbered lg /\ forall e, In e lg -> b_seq e <> 0%Z
}.
Lemma J_more B B' st : (B <= B')%Z -> J B st -> J B' st.
Proof. intros LE [A0 A1 A2 A3 A4 A5]. split; auto; [lia|]. intros c b R. destruct (A3 c b R) as [X|X]; [left; lia|auto]. Qed.
Lemma J_same B st st' : s_blocks st' = s_blocks st -> sanes st' -> J B st -> J B st'.
Proof.
  intros E S [A0 A1 A2 A3 A4 (lg & A5 & A6 & A7)]. split; auto.
  - rewrite E. exact A1.
  - intros c b. unfold read. rewrite E. apply A2.
  - intros c b. unfold read. rewrite E. apply A3.
  - exists lg. split; [|split; [exact A6|exact A7]]. apply (logp_mono st); [| |exact A5]; intros c x; unfold read; rewrite E; auto.
Qed.

Lemma nodup_setdefault (l : list (cid * block)) : forall d, NoDup (keys d) -> NoDup (keys (fold_left dsetdefault l d)).
Proof.
  induction l as [|[k v] l IH]; intros d ND; cbn [fold_left]; [exact ND|]. apply IH. unfold dsetdefault. cbn [fst snd].
  destruct (dget k d) as [x|] eqn:E; [exact ND|]. unfold keys. rewrite map_app. cbn [map fst]. apply NoDup_app_intro; [exact ND|repeat constructor; intros []|].
  intros x I [<-|[]]. apply in_map_iff in I as ([k' v'] & EK & I). cbn in EK. subst k'. apply (In_dget _ _ _ ND) in I. congruence.
Qed.

(** Values of commits and events differ. *)
Lemma numbered_shape b : numbered b -> (is_item_event b \/ event_block_value (b_val b) = Ok false /\ commit_keys (b_val b) = true).
Proof.
  intros [(t & T & _)|(did & key & prev & root & _ & C)]; [left; eapply event_type_item; eauto|right].
  destruct (commit_of_shape _ _ _ _ _ _ C) as (A & X & _). auto.
Qed.
Lemma numbered_other b : numbered b -> other b -> False.
Proof. intros N [O1 O2]. apply numbered_shape in N as [N|[_ N]]; [unfold is_item_event in N|]; congruence. Qed.
Lemma commit_rev b did key prev root : commit_of b did key prev root -> exists rev, int_to_tid (b_seq b) 0 = Ok rev /\ item_text (s "rev") (b_val b) = Ok rev.
Proof. intros (rev & T & _ & ->). exists rev. split; [exact T|]. destruct prev; reflexivity. Qed.
Lemma numbered_seq a b : numbered a -> numbered b -> b_val a = b_val b -> (0 < b_seq a)%Z -> (0 < b_seq b)%Z -> b_seq a = b_seq b.
Proof.
  intros NA NB V PA PB. destruct NA as [(t & TA & SA)|(d & k & p & r & _ & CA)], NB as [(u & TB & SB)|(d' & k' & p' & r' & _ & CB)].
  - rewrite V, SB in SA. injection SA as ->. reflexivity.
  - destruct (commit_of_shape _ _ _ _ _ _ CB) as (X & _). rewrite <- V in X. apply event_type_item in TA. unfold is_item_event in TA. congruence.
  - destruct (commit_of_shape _ _ _ _ _ _ CA) as (X & _). rewrite V in X. apply event_type_item in TB. unfold is_item_event in TB. congruence.
  - destruct (commit_rev _ _ _ _ _ CA) as (ra & TA & IA), (commit_rev _ _ _ _ _ CB) as (rb & TB & IB). rewrite V, IB in IA. injection IA as <-.
    pose proof (tid_below digest kdigest ecdsa now inj _ _ PA TA) as LA. pose proof (tid_below digest kdigest ecdsa now inj _ _ PB TB) as LB.
    destruct (Z.lt_trichotomy (b_seq a) (b_seq b)) as [L|[E|L]]; [exfalso|exact E|exfalso].
    + apply (tid_order _ _ 0 rb rb LA LB) in L; auto; [|lia]. revert L. apply slt_irrefl.
    + apply (tid_order _ _ 0 rb rb LB LA) in L; auto; [|lia]. revert L. apply slt_irrefl.
Qed.

Lemma fresh B st e : J B st -> wf e -> numbered e -> (B <= b_seq e)%Z -> read st (b_cid e) = None.
Proof.
  intros HJ W N LE. destruct (read st (b_cid e)) as [y|] eqn:R; [exfalso|reflexivity].
  destruct (j_wf _ _ HJ _ _ R) as [C WY]. pose proof (wf_val digest inj y e WY W C) as V. pose proof (j_pos _ _ HJ) as BP.
  destruct (j_low _ _ HJ _ _ R) as [LO|[_ AL]].
  2: { destruct N as [(t & T & _)|(did & key & prev & root & KK & CO)]; [rewrite <- V in T; eapply alien_event; eauto|]. rewrite V in AL. eapply alien_commit; eauto. }
  destruct (j_log _ _ HJ) as (lg & L & F & _). destruct (lp_part _ _ L _ _ R) as (x & I & _ & _ & D); [lia|].
  assert (NO : ~ other y) by (intros O; apply (numbered_other e N); unfold other in *; rewrite <- V; exact O).
  destruct D as [->|[_ O]]; [|contradiction]. rewrite Forall_forall in F.
  assert (b_seq x = b_seq e) by (apply numbered_seq; auto; lia). lia.
Qed.

(** Blocks of one number are written, with the commit or event [e]. *)
Lemma J_write B st st' e blocks : J B st -> sanes st' -> s_blocks st' = fold_left dsetdefault (map (fun b => (b_cid b, b)) (map snd blocks)) (s_blocks st) ->
  all_ok digest B blocks -> dget (b_cid e) blocks = Some e -> numbered e ->
  (is_item_event e \/ is_item_commit st' e) ->
  (forall c b, In (c, b) blocks -> b_repo b = b_repo e /\ (b = e \/ is_item_commit st' e /\ other b)) ->
  J (B + 1) st' /\ grows st st' /\ read st' (b_cid e) = Some e.
Proof.
  intros HJ S EB AO IE NU IT PT. pose proof (j_pos _ _ HJ) as BP.
  assert (RD : forall c, read st' c = match read st c with Some b => Some b | None => dget c blocks end).
  { intros c. pose proof (read_write_blocks (map snd blocks) st c) as X. unfold read at 1 in X. unfold write_blocks, modify in X. cbn [fst set_blocks s_blocks] in X.
    unfold read at 1. rewrite EB, X. destruct (read st c); [reflexivity|]. exact (f_equal (dget c) (keyed _ _ _ AO)). }
  destruct (AO _ _ (In_dget1 _ _ _ IE)) as (WE & CE & SE).
  assert (FR : read st (b_cid e) = None) by (apply (fresh B); auto; lia).
  assert (RE : read st' (b_cid e) = Some e) by (rewrite RD, FR; exact IE).
  assert (G : grows st st') by (intros c x R; rewrite RD, R; reflexivity).
  split; [|split; assumption]. destruct HJ as [A0 A1 A2 A3 A4 (lg & A5 & A6 & A7)]. split.
  - lia.
  - rewrite EB. apply nodup_setdefault. exact A1.
  - intros c b. rewrite RD. destruct (read st c) as [y|] eqn:R; [intros [= <-]; apply A2; exact R|]. intros D. apply In_dget1 in D. destruct (AO _ _ D) as (X & Y & _). auto.
  - intros c b. rewrite RD. destruct (read st c) as [y|] eqn:R; [intros [= <-]; destruct (A3 _ _ R) as [X|X]; [left; lia|auto]|]. intros D. apply In_dget1 in D. destruct (AO _ _ D) as (_ & _ & X). left. lia.
  - exact S.
  - exists (lg ++ [e]). split.
    + destruct A5 as [L1 L2 L3 L4]. split.
      * apply StronglySorted_app. splits; auto; [repeat constructor|]. apply Forall_forall. intros a HA. apply Forall_forall. intros b [<-|[]]. destruct (A3 _ _ (L2 a HA)) as [X|[X _]]; lia.
      * intros x HX. apply in_app_or in HX as [HX|[<-|[]]]; auto.
      * intros x HX. apply in_app_or in HX as [HX|[<-|[]]]; auto. destruct (L3 x HX); auto. right. eapply item_mono; eauto.
      * intros c b R NZ. rewrite RD in R. destruct (read st c) as [y|] eqn:R0.
        -- injection R as ->. destruct (L4 c b R0 NZ) as (x & X1 & X2 & X3 & X4). exists x. splits; auto; [apply in_or_app; auto|].
           destruct X4 as [X4|[X4 X5]]; auto. right. split; auto. eapply item_mono; eauto.
        -- apply In_dget1 in R. destruct (PT _ _ R) as [P1 P2]. destruct (AO _ _ R) as (_ & _ & SB). exists e. splits; [apply in_or_app; right; left; reflexivity|congruence|auto|exact P2].
    + split; [apply Forall_app; split; [exact A6|]; constructor; [exact NU|constructor]|]. intros x HX. apply in_app_or in HX as [HX|[<-|[]]]; [auto|lia].
Qed.

(** Computations that leave the blocks alone. *)
Definition mild {A} (m : M A) (Q : A -> Prop) : Prop := forall st, sanes st ->
  s_blocks (fst (m st)) = s_blocks st /\ s_next (fst (m st)) = s_next st /\ sanes (fst (m st)) /\ match snd (m st) with Ok a => Q a | Err _ => True end.
Lemma mild_pure {A} (m : M A) : pure m -> mild m (fun _ => True).
Proof. intros P st S. rewrite P. splits; auto. destruct (snd (m st)); auto. Qed.
Lemma mild_bind {A C} (m : M A) (f : A -> M C) Q R : mild m Q -> (forall a, Q a -> mild (f a) R) -> mild (bindM m f) R.
Proof.
  intros H F st S. destruct (H st S) as (A1 & A2 & A3 & A4). unfold bindM. destruct (m st) as [st1 [a|e]]; cbn [fst snd] in *; [|auto].
  destruct (F a A4 st1 A3) as (B1 & B2 & B3 & B4). splits; congruence || auto.
Qed.
Lemma mild_skip {A C} (m : M A) (f : A -> M C) R : pure m -> (forall a, mild (f a) R) -> mild (bindM m f) R.
Proof. intros P F. eapply mild_bind; [apply mild_pure; exact P|auto]. Qed.
Lemma mild_ret {A} (a : A) (Q : A -> Prop) : Q a -> mild (ret a) Q.
Proof. intros H st S. splits; auto. Qed.
Lemma mild_throw {A} e Q : mild (@throw A e) Q.
Proof. intros st S. splits; auto; exact I. Qed.
Lemma mild_weaken {A} (m : M A) (Q R : A -> Prop) : mild m Q -> (forall a, Q a -> R a) -> mild m R.
Proof. intros H W st S. destruct (H st S) as (A1 & A2 & A3 & A4). splits; auto. destruct (snd (m st)); auto. Qed.
Lemma mild_new o : fine o -> mild (new_obj o) (fun _ => True).
Proof.
  intros H st S. unfold new_obj. cbn. splits; auto. split; [|exact (sa_ents _ S)]. intros r x E. cbn [set_objs s_objs] in E. destruct (Nat.lt_ge_cases r (length (s_objs st))) as [L|L].
  - rewrite nth_error_app1 in E by exact L. eapply sa_objs; eauto.
  - rewrite nth_error_app2 in E by exact L. destruct (r - length (s_objs st)) as [|[|?]]; cbn in E; try discriminate. injection E as <-. exact H.
Qed.
Lemma mild_attr r f : (forall o, fine o -> fine (f o)) -> mild (set_attr r f) (fun _ => True).
Proof.
  intros H st S. destruct (nth_error (s_objs st) r) as [o|] eqn:E; [rewrite (set_attr_ok r f st o E)|unfold set_attr, bindM, obj; rewrite E]; cbn [fst snd]; [|splits; auto].
  splits; auto. split; [|exact (sa_ents _ S)]. intros k x X. cbn [set_objs s_objs] in X. rewrite nth_put in X by congruence. destruct (Nat.eqb r k); [injection X as <-; apply H|]; eapply sa_objs; eauto.
Qed.
Lemma mild_modify f : (forall st, s_blocks (f st) = s_blocks st /\ s_next (f st) = s_next st /\ s_objs (f st) = s_objs st /\ forall d e, In (d, e) (s_ents (f st)) -> In (d, e) (s_ents st) \/ K (e_key e)) -> mild (modify f) (fun _ => True).
Proof. intros H st S. destruct (H st) as (A & B & C & D). unfold modify. cbn [fst snd]. splits; auto. split; [rewrite C; apply S|]. intros d e I. destruct (D d e I); [eapply sa_ents; eauto|assumption]. Qed.
Lemma ents_put d e : K (e_key e) -> mild (modify (fun st => set_ents (ent_put d e (s_ents st)) st)) (fun _ => True).
Proof. intros H. apply mild_modify. intros st. splits; auto. intros d' e' I. apply In_ent_put in I as [[= -> ->]|I]; auto. Qed.
Lemma mild_sees {A C} (m : M A) (f : A -> M C) (P : A -> Prop) R : pure m -> (forall st a, sanes st -> m st = (st, Ok a) -> P a) -> (forall a, P a -> mild (f a) R) -> mild (bindM m f) R.
Proof.
  intros PM S F. eapply mild_bind; [|exact F]. intros st SS. pose proof (PM st) as E. pose proof (S st) as T. destruct (m st) as [st1 [a|e]]; cbn [fst snd] in *; subst st1; splits; auto.
Qed.
Lemma mild_obj {C} r (f : repo -> M C) R : (forall o, fine o -> mild (f o) R) -> mild (bindM (obj r) f) R.
Proof.
  apply mild_sees; [apply pure_obj|]. intros st o SS E. unfold obj in E. destruct (nth_error (s_objs st) r) as [x|] eqn:X; [|discriminate E]. injection E as <-. eapply sa_objs; eauto.
Qed.
Lemma mild_ent {C} (g : list (str * entity) -> option entity) (f : option entity -> M C) R : (forall l e, g l = Some e -> exists d, In (d, e) l) ->
  (forall x, match x with Some e => K (e_key e) | None => True end -> mild (f x) R) -> mild (bindM (reads (fun st => g (s_ents st))) f) R.
Proof.
  intros G. apply mild_sees; [apply pure_reads|]. intros st x SS E. unfold reads in E. injection E as <-. destruct (g (s_ents st)) as [e|] eqn:X; [|exact I]. destruct (G _ _ X). eapply sa_ents; eauto.
Qed.
Lemma mild_load x : mild (load_repo be x) (fun _ => True).
Proof.
  unfold load_repo. apply mild_skip; [apply pure_assert|]. intros []. destruct be.
  - apply mild_skip; [apply pure_reads|]. intros l. apply mild_pure, pure_mem_find.
  - eapply (mild_sees _ _ (fun x => match x with Some (_, e) => K (e_key e) | None => True end)); [apply pure_reads| |].
    { intros st y SS E. unfold reads in E. injection E as <-. destruct (ent_find x (s_ents st)) as [[k e]|] eqn:X; [|exact I]. apply (ent_find_in digest inj) in X as [X _]. eapply sa_ents; eauto. }
    intros [[k e]|] KE; [|apply mild_ret; auto]. eapply mild_bind; [|intros r _; apply mild_ret; auto].
    unfold repo_load. apply mild_skip; [apply pure_reads|]. intros [b|]; [|apply mild_throw]. apply mild_skip; [apply pure_lift|]. intros d. apply mild_new. split; [constructor|exact KE].
Qed.
Lemma mild_callback r c : mild (callback cb r c) (fun _ => True).
Proof.
  intros st S. rewrite callback_eq. destruct (nth_error (s_objs st) r) as [o|]; [destruct (r_callback o)|]; cbn [fst snd]; splits; auto; try (split; apply S). destruct (cb (length (s_calls st))); auto.
Qed.
Lemma mild_store r : mild (store_repo be r) (fun _ => True).
Proof.
  unfold store_repo. apply mild_skip; [apply pure_obj|]. intros o. apply mild_skip; [apply pure_need_did|]. intros d. destruct be.
  - apply mild_modify. auto.
  - apply (mild_ent (dget d)); [intros l e E; exists d; apply In_dget1; exact E|]. intros [e|] KE; [|apply mild_throw]. destruct (r_head o); [|apply mild_throw]. apply ents_put. exact KE.
Qed.
Lemma mild_create_repo r : mild (create_repo be r) (fun _ => True).
Proof.
  unfold create_repo. apply mild_obj. intros o [_ KO]. apply mild_skip; [apply pure_need_did|]. intros d. destruct be.
  - apply mild_modify. auto.
  - destruct (r_head o); [|apply mild_throw]. apply ents_put. exact KO.
Qed.
Lemma mild_status r x : mild (set_repo_status be r x) (fun _ => True).
Proof.
  unfold set_repo_status. eapply mild_bind; [apply mild_attr; auto|]. intros _ _. destruct be; [apply mild_ret; auto|].
  apply mild_skip; [apply pure_obj|]. intros o. apply mild_skip; [apply pure_lift|]. intros d. 
  apply (mild_ent (fun l => match d with Some d => dget d l | None => None end)); [intros l e E; destruct d as [d|]; [exists d; apply In_dget1; exact E|discriminate E]|]. intros e KE.
  destruct d; [|apply mild_throw]. destruct e; [|apply mild_throw]. apply ents_put. exact KE.
Qed.
Lemma mild_target r first : mild (commit_target be r first)
  (fun drp => match first with Some ((_ :: _) as d) => drp = (d, r, None) | _ => True end).
Proof.
  unfold commit_target. apply mild_skip; [apply pure_obj|]. intros o. apply mild_skip; [destruct (is_some _); [apply pure_throw|apply pure_ret]|]. intros [].
  assert (X : mild (let! d := need_did o in let! x := load_repo be d in
     match x with None => throw AttributeError | Some r => let! o := obj r in match r_head o with None => throw AttributeError | Some h => ret (d, r, Some (b_cid h)) end end) (fun _ => True)).
  { apply mild_skip; [apply pure_need_did|]. intros d. eapply mild_bind; [apply mild_load|]. intros [r'|] _; [|apply mild_throw].
    apply mild_skip; [apply pure_obj|]. intros o'. destruct (r_head o'); [apply mild_ret; auto|apply mild_throw]. }
  destruct first as [[|c d]|]; [exact X| |exact X].
  apply (mild_bind _ _ (fun _ => True)); [|intros _ _; apply mild_ret; reflexivity].
  destruct (r_head o) as [h|]; [|apply mild_ret; auto]. apply mild_skip; [apply pure_lift|]. intros hd. apply mild_skip; [apply pure_assert|]. intros []. apply mild_skip; [apply pure_lift|]. intros p.
  apply mild_skip; [apply pure_assert|]. intros []. apply mild_attr. auto.
Qed.

(** The blocks and operations of a batch. *)
Definition batch (d : str) (seq : Z) (acc : list (cid * block) * list commit_op) : Prop :=
  all_ok digest seq (fst acc) /\ (forall c b, In (c, b) (fst acc) -> b_repo b = Some d /\ other b) /\
  (forall op, In op (snd acc) -> op_action op <> DELETE -> exists c, op_cid op = Some c /\ dget c (fst acc) <> None).
Lemma batch_add d seq blocks ops v : batch d seq (blocks, ops) -> plain v ->
  let b := mk_block digest v (Some d) seq None in
  batch d seq (dset (b_cid b) b blocks, ops) /\ forall a p prev, batch d seq (dset (b_cid b) b blocks, ops ++ [CommitOp a p (Some (b_cid b)) prev]).
Proof.
  intros (A1 & A2 & A3) P b. cbn [fst snd] in *.
  assert (B1 : all_ok digest seq (dset (b_cid b) b blocks)).
  { intros c x J0. apply In_dset in J0 as [J0|J0]; [injection J0 as -> ->; splits; reflexivity|apply A1; exact J0]. }
  assert (B2 : forall c x, In (c, x) (dset (b_cid b) b blocks) -> b_repo x = Some d /\ other x).
  { intros c x J0. apply In_dset in J0 as [J0|J0]; [injection J0 as -> ->; split; [reflexivity|]|apply (A2 c); exact J0]. eapply other_record; [exact P|reflexivity]. }
  assert (B3 : forall op, In op ops -> op_action op <> DELETE -> exists c, op_cid op = Some c /\ dget c (dset (b_cid b) b blocks) <> None).
  { intros op I N. destruct (A3 op I N) as (c & X & Y). exists c. split; [exact X|]. rewrite dget_dset. destruct (str_eqb c (b_cid b)); [discriminate|exact Y]. }
  split; [split; [exact B1|split; [exact B2|exact B3]]|]. intros a p prev. split; [exact B1|]. split; [exact B2|]. cbn [fst snd]. intros op I N.
  apply in_app_or in I as [I|[<-|[]]]; [auto|]. exists (b_cid b). split; [reflexivity|]. rewrite dget_dset, str_eqb_refl. discriminate.
Qed.
Lemma mild_write d r seq acc w : batch d seq acc -> mild (commit_write digest kdigest validate r d seq acc w) (batch d seq).
Proof.
  intros W. destruct acc as [blocks ops]. unfold commit_write.
  assert (S : forall m, sane m -> mild (set_attr r (with_mst m)) (fun _ => True)).
  { intros m SM. apply mild_attr. intros o [_ KO]. split; [exact SM|exact KO]. }
  apply mild_skip.
  { destruct (w_action w); [apply pure_ret|..]; (apply pure_bind; [apply pure_obj|]; intros o; apply pure_bind;
     [exact (pure_rd (fun rd => get kdigest rd max_depth (r_mst o) (path_of w)))|]; intros [v|]; [destruct (nonempty v); [apply pure_ret|apply pure_throw]|apply pure_throw]). }
  intros prev.
  assert (OBJ : forall A (f : repo -> M A) R, (forall o, sane (r_mst o) -> mild (f o) R) -> mild (let! o := obj r in f o) R).
  { intros A f R F st SS. unfold bindM, obj. destruct (nth_error (s_objs st) r) as [o|] eqn:E; cbn [fst snd]; [|splits; auto]. apply F; [eapply SS; eauto|exact SS]. }
  assert (RDB : forall A B (g : (cid -> option ipld) -> res A) (f : A -> M B) R, (forall rd a, g rd = Ok a -> mild (f a) R) -> mild (let! a := (fun st => (st, g (rd st))) in f a) R).
  { intros A B g f R F st SS. unfold bindM. destruct (g (rd st)) as [a|e] eqn:E; cbn [fst snd]; [eapply F; eauto|splits; auto]. }
  assert (REC : forall a, mild
    (match w_record w with
      | None => throw AssertionError
      | Some v =>
          (match v with IMap _ => ret tt | _ => throw AttributeError end);;
          lift (validate v);;
          assert (truthy v);;
          let b := mk_block digest v (Some d) seq None in
          (if (max_record_size <? len (encode (b_val b)))%N then throw ValueError else ret tt);;
          let blocks := dset (b_cid b) b blocks in
          let op := CommitOp a (path_of w) (Some (b_cid b)) prev in
          let! o := obj r in
          match a with
          | CREATE =>
              let! m := (fun st => (st, add digest kdigest (rd st) max_depth (r_mst o) (path_of w) (b_cid b) None)) in
              set_attr r (with_mst m);;
              ret (blocks, ops ++ [op])
          | _ =>
              let! orig := lift (get_pointer digest (r_mst o)) in
              let! m := (fun st => (st, update kdigest (rd st) max_depth (r_mst o) (path_of w) (b_cid b))) in
              set_attr r (with_mst m);;
              let! pointer := lift (get_pointer digest m) in
              ret (blocks, if str_eqb pointer orig then ops else ops ++ [op])
          end
      end) (batch d seq)).
  { intros a. destruct (w_record w) as [v|]; [|apply mild_throw].
    apply mild_skip; [destruct v; first [apply pure_ret|apply pure_throw]|]. intros [].
    destruct (validate v) as [[]|] eqn:V; [|intros st SS; splits; auto; exact I].
    destruct (batch_add d seq blocks ops v W (plains v V)) as [W1 W2].
    apply mild_skip; [apply pure_lift|]. intros []. apply mild_skip; [apply pure_assert|]. intros []. cbv zeta.
    apply mild_skip; [destruct (_ <? _)%N; [apply pure_throw|apply pure_ret]|]. intros [].
    apply OBJ. intros o SO.
    assert (UP : mild (let! orig := lift (get_pointer digest (r_mst o)) in
              let! m := (fun st => (st, update kdigest (rd st) max_depth (r_mst o) (path_of w) (b_cid (mk_block digest v (Some d) seq None)))) in
              set_attr r (with_mst m);;
              let! pointer := lift (get_pointer digest m) in
              ret (dset (b_cid (mk_block digest v (Some d) seq None)) (mk_block digest v (Some d) seq None) blocks,
                   if str_eqb pointer orig then ops else ops ++ [CommitOp a (path_of w) (Some (b_cid (mk_block digest v (Some d) seq None))) prev])) (batch d seq)).
    { apply mild_skip; [apply pure_lift|]. intros orig.
      apply (RDB _ _ (fun rd => update kdigest rd max_depth (r_mst o) (path_of w) (b_cid (mk_block digest v (Some d) seq None)))). intros rd0 m E.
      eapply mild_bind; [apply S; eapply sane_update; eauto|]. intros [] _. apply mild_skip; [apply pure_lift|]. intros p. apply mild_ret. destruct (str_eqb p orig); [exact W1|apply W2]. }
    destruct a; [|exact UP|exact UP].
    apply (RDB _ _ (fun rd => add digest kdigest rd max_depth (r_mst o) (path_of w) (b_cid (mk_block digest v (Some d) seq None)) None)). intros rd0 m E.
    eapply mild_bind; [apply S; eapply sane_add; eauto|]. intros [] _. apply mild_ret. apply W2. }
  destruct (w_action w) eqn:WA; [apply (REC CREATE)|apply (REC UPDATE)|].
  apply OBJ. intros o SO.
  apply (RDB _ _ (fun rd => delete kdigest rd max_depth (r_mst o) (path_of w))). intros rd0 m E.
  eapply mild_bind; [apply S; eapply sane_delete; eauto|]. intros [] _. apply mild_ret.
  destruct W as (W1 & W2 & W3). split; [exact W1|]. split; [exact W2|]. cbn [fst snd] in *. intros op I N. apply in_app_or in I as [I|[<-|[]]]; [auto|]. exfalso. apply N. reflexivity.
Qed.
Lemma mild_fold d r seq : forall ws acc, batch d seq acc -> mild (foldM (commit_write digest kdigest validate r d seq) acc ws) (batch d seq).
Proof.
  induction ws as [|w ws IH]; intros acc W; cbn [foldM]; [apply mild_ret; exact W|].
  eapply mild_bind; [apply mild_write; exact W|]. intros acc' W'. apply IH. exact W'.
Qed.

(** The operations. *)
Definition yields {A} (m : M A) (Q : A -> Prop) : Prop := forall st, match snd (m st) with Ok a => Q a | Err _ => True end.
Lemma yields_bind {A C} (m : M A) (f : A -> M C) Q : (forall a, yields (f a) Q) -> yields (bindM m f) Q.
Proof. intros H st. unfold bindM. destruct (m st) as [st1 [a|e]]; cbn [snd]; [apply H|exact I]. Qed.
Lemma yields_ret {A} (a : A) (Q : A -> Prop) : Q a -> yields (ret a) Q.
Proof. intros H st. exact H. Qed.
Lemma yields_throw {A} e (Q : A -> Prop) : yields (throw e) Q.
Proof. intros st. exact I. Qed.
Lemma mild_yields {A} (m : M A) Q R : mild m Q -> yields m R -> mild m (fun a => Q a /\ R a).
Proof. intros H Y st S. destruct (H st S) as (A1 & A2 & A3 & A4). specialize (Y st). splits; auto. destruct (snd (m st)); auto. Qed.
Notation made := (made digest).
Lemma made_app ws ops ws' ops' : made ws ops -> made ws' ops' -> made (ws ++ ws') (ops ++ ops').
Proof. induction 1; intros X; cbn [app]; [exact X|apply made_op; auto|apply made_same; auto]. Qed.
Lemma write_ops d r seq acc w : yields (commit_write digest kdigest validate r d seq acc w) (fun acc' => exists new, snd acc' = snd acc ++ new /\ made [w] new).
Proof.
  destruct acc as [blocks ops]. unfold commit_write. cbn [snd]. apply yields_bind. intros prev.
  destruct (w_action w) eqn:A.
  - destruct (w_record w) as [v|] eqn:V; [|apply yields_throw]. do 3 (apply yields_bind; intros []). cbv zeta. apply yields_bind. intros []. do 3 (apply yields_bind; intros ?). apply yields_ret.
    eexists. split; [reflexivity|]. apply made_op; [symmetry; exact A|reflexivity|rewrite A; exists v; split; [exact V|reflexivity]|constructor].
  - destruct (w_record w) as [v|] eqn:V; [|apply yields_throw]. do 3 (apply yields_bind; intros []). cbv zeta. apply yields_bind. intros []. do 5 (apply yields_bind; intros ?). apply yields_ret.
    cbn [snd]. destruct (str_eqb _ _).
    + exists []. rewrite app_nil_r. split; [reflexivity|]. apply made_same; [exact A|constructor].
    + eexists. split; [reflexivity|]. apply made_op; [symmetry; exact A|reflexivity|rewrite A; exists v; split; [exact V|reflexivity]|constructor].
  - do 3 (apply yields_bind; intros ?). apply yields_ret. eexists. split; [reflexivity|]. apply made_op; [symmetry; exact A|reflexivity|rewrite A; reflexivity|constructor].
Qed.
Lemma fold_ops d r seq : forall ws acc, yields (foldM (commit_write digest kdigest validate r d seq) acc ws) (fun acc' => exists new, snd acc' = snd acc ++ new /\ made ws new).
Proof.
  induction ws as [|w ws IH]; intros acc; cbn [foldM]; [apply yields_ret; exists []; rewrite app_nil_r; split; [reflexivity|constructor]|].
  intros st. unfold bindM. pose proof (write_ops d r seq acc w st) as H. destruct (commit_write digest kdigest validate r d seq acc w st) as [st1 [a|e]]; cbn [snd] in *; [|exact I].
  specialize (IH a st1). destruct (snd (foldM _ a ws st1)) as [b|]; [|exact I]. destruct H as (n1 & E1 & M1), IH as (n2 & E2 & M2). exists (n1 ++ n2). rewrite E2, E1, <- app_assoc. split; [reflexivity|].
  change (w :: ws) with ([w] ++ ws). apply made_app; assumption.
Qed.

(** A commit that is in the storage, and the head of [r0]. *)
Definition posted (seq : Z) (d : str) (prev : option cid) (ops : list commit_op) (cd : commit_data) (st : state) : Prop :=
  let c := cd_commit cd in read st (b_cid c) = Some c /\ b_seq c = seq /\ cd_prev cd = prev /\ b_ops c = Some ops /\ exists key root, commit_of c d key prev root.
Definition heads_at (r0 : nat) (c : block) (st : state) : Prop := exists o, nth_error (s_objs st) r0 = Some o /\ r_head o = Some c.

Lemma nodes_in d seq l : forall blocks c b, In (c, b) (add_nodes d seq l blocks) -> In (c, b) blocks \/ exists v, In (c, v) l /\ b = Block c v seq None (Some d).
Proof.
  unfold add_nodes. induction l as [|[k v] l IH]; intros blocks c b J0; cbn [fold_left] in J0; [auto|]. apply IH in J0 as [J0|(x & J1 & J2)].
  - cbn [fst snd] in J0. apply In_dset in J0 as [J0|J0]; [right|auto]. injection J0 as -> ->. exists v. split; [left; reflexivity|reflexivity].
  - right. exists x. split; [right; exact J1|exact J2].
Qed.
Lemma nodes_get d seq l c : forall blocks, dget c blocks <> None \/ In c (keys l) -> dget c (add_nodes d seq l blocks) <> None.
Proof.
  unfold add_nodes. induction l as [|[k v] l IH]; intros blocks H; cbn [fold_left]; [destruct H as [H|[]]; exact H|]. apply IH. cbn [fst snd keys map In] in *. rewrite dget_dset.
  destruct (str_eqb c k) eqn:E; [left; discriminate|]. destruct H as [H|[H|H]]; auto. subst k. rewrite str_eqb_refl in E. discriminate.
Qed.

Lemma last_head (m0 : M unit) r0 m c (x : commit_data) st :
  match snd ((m0;; set_attr r0 (with_mst m);; set_attr r0 (with_head (Some c));; ret x) st) with
  | Ok y => y = x /\ heads_at r0 c (fst ((m0;; set_attr r0 (with_mst m);; set_attr r0 (with_head (Some c));; ret x) st))
  | Err _ => True
  end.
Proof.
  unfold bindM. destruct (m0 st) as [st2 [[]|]]; cbn [fst snd]; [|exact I].
  destruct (nth_error (s_objs st2) r0) as [y|] eqn:Y.
  2: { unfold set_attr, bindM, obj. rewrite Y. exact I. }
  rewrite (set_attr_ok _ _ _ _ Y). set (st3 := set_objs _ st2).
  assert (Y3 : nth_error (s_objs st3) r0 = Some (with_mst m y)) by (unfold st3; cbn [set_objs s_objs]; rewrite nth_put, PeanoNat.Nat.eqb_refl by congruence; reflexivity).
  rewrite (set_attr_ok _ _ _ _ Y3). unfold ret. cbn [fst snd]. split; [reflexivity|].
  eexists. cbn [set_objs s_objs]. rewrite nth_put, PeanoNat.Nat.eqb_refl by congruence. split; reflexivity.
Qed.
Definition after {A} (B : Z) (st : state) (Q : A -> state -> Prop) (x : state * res A) : Prop :=
  J B (fst x) /\ grows st (fst x) /\ s_next (fst x) = s_next st /\ match snd x with Ok a => Q a (fst x) | Err _ => True end.
Lemma finish_log seq r0 r d prev bo st : J seq st -> batch d seq bo ->
  after (seq + 1) st (fun cd st' => posted seq d prev (snd bo) cd st' /\ heads_at r0 (cd_commit cd) st') (commit_finish digest kdigest ecdsa be r0 r d prev seq bo st).
Proof.
  intros HJ (BA1 & BA2 & BA3). unfold commit_finish, bindM at 1, obj.
  assert (E0 : forall Q e, after (seq + 1) st Q (st, @Err commit_data e)) by (intros Q e; unfold after; cbn [fst snd]; splits; auto; [apply (J_more seq); [lia|exact HJ]|intros c x X; exact X]).
  destruct (nth_error (s_objs st) r) as [o|] eqn:E; [|apply E0]. unfold bindM at 1.
  destruct (get_unstored_blocks digest kdigest (rd st) max_depth (r_mst o)) as [[root l]|] eqn:U; [|apply E0].
  unfold bindM at 1, lift. destruct (int_to_tid seq 0) as [rev|] eqn:T; [|apply E0]. cbv zeta. cbn [fst snd].
  pose proof (unstored_wf _ _ _ _ _ _ _ U) as UW. pose proof (unstored_nodes _ _ _ _ _ _ _ U) as UN. pose proof (unstored_root _ _ _ _ _ _ _ (proj1 (sa_objs _ (j_sane _ _ HJ) _ _ E)) U) as UR.
  set (cblock := mk_block digest _ _ _ _). set (blocks := dset (b_cid cblock) cblock _).
  assert (AB : all_ok digest seq blocks).
  { intros c b J0. unfold blocks in J0. apply In_dset in J0 as [J0|J0]; [injection J0 as -> ->; split; [apply mk_block_wf|split; reflexivity]|].
    apply (add_nodes_ok digest inj d seq l (fst bo) UW); [exact BA1|exact J0]. }
  assert (CO : commit_of cblock d (r_key o) prev root) by (exists rev; split; [exact T|split; reflexivity]).
  destruct (commit_of_shape _ _ _ _ _ _ CO) as (S1 & S2 & S3 & S4 & S5).
  unfold bindM at 1. change (write_blocks (map snd blocks) st) with (fst (write_blocks (map snd blocks) st), @Ok unit tt).
  set (st1 := fst (write_blocks (map snd blocks) st)).
  assert (KB : forall c, dget c (add_nodes d seq l (fst bo)) <> None -> exists x, read st1 c = Some x).
  { intros c D. assert (RD : read st1 c = match read st c with Some b => Some b | None => dget c blocks end).
    { unfold st1. rewrite read_write_blocks. destruct (read st c); [reflexivity|]. exact (f_equal (dget c) (keyed _ _ _ AB)). }
    rewrite RD. destruct (read st c) as [y|]; [eauto|]. unfold blocks. rewrite dget_dset.
    destruct (str_eqb c (b_cid cblock)); [eauto|]. destruct (dget c (add_nodes d seq l (fst bo))) as [x|]; [eauto|contradiction]. }
  assert (IC : is_item_commit st1 cblock).
  { split; auto.
    - exists (snd bo). split; [reflexivity|]. intros op I N. destruct (BA3 op I N) as (c & C1 & C2). destruct (KB c) as (x & RX); [apply nodes_get; auto|]. exists c, x. auto.
    - assert (X : exists x, read st1 root = Some x).
      { destruct UR as [(v & RV)|IK]; [|apply KB, nodes_get; auto]. unfold rd in RV. rewrite dget_vals in RV. fold (read st root) in RV.
        unfold st1. rewrite read_write_blocks. destruct (read st root) as [y|]; [eauto|discriminate]. }
      destruct X as (x & RX). exists root, x. auto. }
  destruct (J_write seq st st1 cblock blocks HJ) as (J1 & G1 & R1); auto.
  { apply (sanes_same st); [reflexivity|reflexivity|exact (j_sane _ _ HJ)]. }
  { unfold blocks. rewrite dget_dset, str_eqb_refl. reflexivity. }
  { right. exists d, (r_key o), prev, root. split; [exact (proj2 (sa_objs _ (j_sane _ _ HJ) _ _ E))|exact CO]. }
  { intros c b J0. unfold blocks in J0. apply In_dset in J0 as [J0|J0]; [injection J0 as -> ->; auto|]. apply nodes_in in J0 as [J0|(v & J0 & ->)].
    - destruct (BA2 c b J0). auto.
    - split; [reflexivity|]. right. split; [exact IC|]. destruct (UN _ _ J0) as (nd & ->). eapply other_node. reflexivity. }
  match goal with |- after _ _ _ (?m st1) => set (fin := m) end. unfold after.
  assert (MF : mild fin (fun _ => True)).
  { unfold fin. eapply mild_bind with (Q := fun _ => True).
    - destruct (is_some (r_head o)); [|apply mild_ret; auto]. eapply mild_bind; [apply mild_attr; auto|]. intros _ _. apply mild_store.
    - intros _ _. eapply mild_bind; [apply mild_attr; intros x [_ KX]; split; [exact (proj1 (sa_objs _ (j_sane _ _ HJ) _ _ E))|exact KX]|]. intros _ _. eapply mild_bind; [apply mild_attr; auto|]. intros _ _. apply mild_ret. auto. }
  destruct (MF st1 (j_sane _ _ J1)) as (B1 & N1 & SS1 & _).
  assert (G2 : grows st1 (fst (fin st1))) by (intros c x; unfold read; rewrite B1; auto).
  splits.
  - eapply J_same; [exact B1|exact SS1|exact J1].
  - intros c x X. apply G2, G1, X.
  - rewrite N1. reflexivity.
  - destruct (snd (fin st1)) as [cd|] eqn:EF; [|exact I].
    assert (X : cd = CommitData cblock blocks prev /\ heads_at r0 cblock (fst (fin st1))).
    { pose proof (last_head _ _ _ _ _ st1 : match snd (fin st1) with Ok y => y = _ /\ heads_at r0 _ (fst (fin st1)) | Err _ => True end) as LH. rewrite EF in LH. exact LH. }
    destruct X as [-> HA]. split; [|exact HA]. unfold posted. cbn [cd_commit cd_prev]. splits; auto. exists (r_key o), root. exact CO.
Qed.

Lemma grows_trans a b c : grows a b -> grows b c -> grows a c.
Proof. intros H G x y R. apply G, H, R. Qed.
Lemma after_bind {A C} B B' st (m : M A) (f : A -> M C) Q R : (B <= B')%Z -> after B st Q (m st) ->
  (forall a st1, J B st1 -> grows st st1 -> Q a st1 -> after B' st1 R (f a st1)) -> after B' st R (bindM m f st).
Proof.
  intros LE (A1 & A2 & A3 & A4) F. unfold bindM. destruct (m st) as [st1 [a|e]]; cbn [fst snd] in *.
  - destruct (F a st1 A1 A2 A4) as (B1 & B2 & B3 & B4). unfold after. splits; auto; [eapply grows_trans; eauto|congruence].
  - unfold after. cbn [fst snd]. splits; auto. eapply J_more; eauto.
Qed.
Lemma after_mild {A} B B' st (m : M A) Q : (B <= B')%Z -> J B st -> mild m Q -> after B' st (fun a st' => Q a /\ s_blocks st' = s_blocks st) (m st).
Proof.
  intros LE HJ H. destruct (H st (j_sane _ _ HJ)) as (A1 & A2 & A3 & A4). unfold after. splits; auto.
  - eapply J_more; [exact LE|]. eapply J_same; [exact A1|exact A3|exact HJ].
  - intros c x. unfold read. rewrite A1. auto.
  - destruct (snd (m st)); auto.
Qed.
Lemma after_pure {A} B B' st (m : M A) : (B <= B')%Z -> J B st -> pure m -> after B' st (fun a st' => m st = (st, Ok a) /\ st' = st) (m st).
Proof.
  intros LE HJ P. unfold after. specialize (P st). destruct (m st) as [st1 [a|e]]; cbn [fst snd] in *; subst st1; splits; auto; try (intros c x X; exact X); eapply J_more; eauto.
Qed.
Lemma after_weaken {A} B st (Q R : A -> state -> Prop) x : after B st Q x -> (forall a st', grows st st' -> Q a st' -> R a st') -> after B st R x.
Proof. intros (A1 & A2 & A3 & A4) W. unfold after. splits; auto. destruct (snd x); auto. Qed.
Lemma after_ret {A} B B' st (a : A) (Q : A -> state -> Prop) : (B <= B')%Z -> J B st -> Q a st -> after B' st Q (ret a st).
Proof. intros LE HJ H. unfold after, ret. cbn [fst snd]. splits; auto; [eapply J_more; eauto|intros c x X; exact X]. Qed.
Lemma after_throw {A} B B' st e (Q : A -> state -> Prop) : (B <= B')%Z -> J B st -> after B' st Q (throw e st).
Proof. intros LE HJ. unfold after, throw. cbn [fst snd]. splits; auto; [eapply J_more; eauto|intros c x X; exact X]. Qed.
Lemma after_exc {A} B st (m : M A) h Q : after B st Q (m st) -> mild h (fun _ => True) -> after B st Q (on_exception m h st).
Proof.
  intros (A1 & A2 & A3 & A4) H. unfold on_exception. destruct (m st) as [st1 [a|e]]; cbn [fst snd] in *; [unfold after; cbn [fst snd]; splits; auto|].
  destruct (H st1 (j_sane _ _ A1)) as (B1 & B2 & B3 & _). destruct (h st1) as [st2 [[]|e2]]; cbn [fst snd] in *; unfold after; cbn [fst snd];
    (splits; auto; [eapply J_same; [exact B1|exact B3|exact A1]|intros c x X; unfold read; rewrite B1; apply A2, X|congruence]).
Qed.

(** A commit. *)
Lemma after_and {A} B st (m : M A) Q (R : A -> Prop) : after B st Q (m st) -> match snd (m st) with Ok a => R a | Err _ => True end -> after B st (fun a st' => Q a st' /\ R a) (m st).
Proof. intros (A1 & A2 & A3 & A4) H. unfold after. splits; auto. destruct (snd (m st)); auto. Qed.
Definition own_did (st : state) (r : nat) (d : str) : Prop := exists o, nth_error (s_objs st) r = Some o /\ repo_did o = Ok (Some d).
Lemma target_did r first st : match snd (commit_target be r first st) with
  | Ok (d, _, _) => match first with Some (_ :: _) => True | _ => own_did st r d end
  | Err _ => True
  end.
Proof.
  unfold commit_target, bindM at 1, obj. destruct (nth_error (s_objs st) r) as [o|] eqn:E; cbn [snd]; [|exact I].
  unfold bindM at 1. destruct (is_some (r_status o)); [exact I|]. cbn [ret].
  assert (X : match snd ((let! d := need_did o in let! x := load_repo be d in
     match x with None => throw AttributeError | Some r => let! o := obj r in match r_head o with None => throw AttributeError | Some h => ret (d, r, Some (b_cid h)) end end) st) with
    | Ok (d, _, _) => own_did st r d | Err _ => True end).
  { unfold need_did. unfold bindM at 1 2, lift. destruct (repo_did o) as [[d|]|] eqn:D; try exact I. cbn [ret].
    assert (OD : own_did st r d) by (exists o; auto).
    unfold bindM. destruct (load_repo be d st) as [st1 [[r'|]|]]; try exact I. unfold obj. destruct (nth_error (s_objs st1) r') as [o'|]; [|exact I]. destruct (r_head o'); [exact OD|exact I]. }
  destruct first as [[|c d]|]; [exact X| |exact X].
  match goal with |- match snd ?y with _ => _ end => destruct (snd y) as [[[d' r'] p']|]; exact I end.
Qed.
Definition commit_post (st0 : state) (seq : Z) (r0 : nat) (ws : list write) (first : option str) (cd : commit_data) (st : state) : Prop :=
  exists d prev ops, posted seq d prev ops cd st /\ heads_at r0 (cd_commit cd) st /\ made ws ops /\
    match first with Some ((_ :: _) as d0) => d = d0 /\ prev = None | _ => own_did st0 r0 d end.
Lemma commit__log seq r0 ws first st : J seq st -> after (seq + 1) st (commit_post st seq r0 ws first) (commit_ digest kdigest validate ecdsa be r0 ws seq first st).
Proof.
  intros HJ. unfold commit_. eapply (after_bind seq); [lia|apply (after_pure seq); [lia|exact HJ|apply pure_assert]|]. intros [] st1 J1 _ [_ ->].
  eapply (after_bind seq); [lia|apply after_and; [apply (after_mild seq); [lia|exact J1|apply mild_target]|apply target_did]|]. intros [[d r] prev] st2 J2 _ [[T _] OD].
  eapply (after_bind seq); [lia|apply (after_pure seq); [lia|exact J2|destruct (_ <? _)%N; [apply pure_throw|apply pure_ret]]|]. intros [] st3 J3 _ _.
  assert (B0 : batch d seq ([], [])) by (split; [intros c b []|split; [intros c b []|intros op []]]).
  assert (MF : mild (foldM (commit_write digest kdigest validate r d seq) ([], []) ws) (fun bo => batch d seq bo /\ exists new, snd bo = [] ++ new /\ made ws new)).
  { apply mild_yields; [apply mild_fold; exact B0|]. exact (fold_ops d r seq ws ([], [])). }
  eapply (after_bind seq); [lia|apply (after_mild seq); [lia|exact J3|exact MF]|]. intros bo st4 J4 _ [[BO E0] _].
  eapply after_weaken; [apply finish_log; [exact J4|exact BO]|]. cbn beta. intros cd st' _ [P H]. exists d, prev, (snd bo). splits; auto.
  - destruct E0 as (new & -> & E0). exact E0.
  - destruct first as [[|c d0]|]; [exact OD| |exact OD]. injection T as -> _ ->. auto.
Qed.
Lemma posted_same seq d prev ops cd st st' : s_blocks st' = s_blocks st -> posted seq d prev ops cd st -> posted seq d prev ops cd st'.
Proof. intros E. unfold posted, read. rewrite E. auto. Qed.
Lemma posted_grows seq d prev ops cd st st' : grows st st' -> posted seq d prev ops cd st -> posted seq d prev ops cd st'.
Proof. intros G (A & B). split; auto. Qed.
Lemma callback_objs r c st : s_objs (fst (callback cb r c st)) = s_objs st.
Proof. rewrite callback_eq. destruct (nth_error (s_objs st) r) as [o|]; [destruct (r_callback o)|]; reflexivity. Qed.
Lemma callback_blocks r c st : s_blocks (fst (callback cb r c st)) = s_blocks st.
Proof. rewrite callback_eq. destruct (nth_error (s_objs st) r) as [o|]; [destruct (r_callback o)|]; reflexivity. Qed.
Lemma after_callback B st r c : J B st -> after B st (fun _ st' => s_objs st' = s_objs st /\ s_blocks st' = s_blocks st) (callback cb r c st).
Proof.
  intros HJ. destruct (after_mild B B st _ _ ltac:(lia) HJ (mild_callback r c)) as (A1 & A2 & A3 & _). unfold after. splits; auto.
  destruct (snd (callback cb r c st)); auto. split; [apply callback_objs|apply callback_blocks].
Qed.
Lemma commit_log r ws first st : J (s_next st) st ->
  after (s_next st + 1) (set_next (s_next st + 1) st) (commit_post st (s_next st) r ws first) (commit digest kdigest validate ecdsa cb be r ws first st).
Proof.
  intros HJ. set (n := s_next st). set (st1 := set_next (n + 1) st).
  assert (J1 : J n st1) by (apply (J_same n st); [reflexivity|apply (sanes_same st); [reflexivity|reflexivity|exact (j_sane _ _ HJ)]|exact HJ]).
  change (commit digest kdigest validate ecdsa cb be r ws first st) with
    (on_exception (bindM (commit_ digest kdigest validate ecdsa be r ws n first) (fun cd => callback cb r (CData (MCommit cd));; ret cd)) (callback cb r (CLost n)) st1).
  apply after_exc; [|apply mild_callback]. eapply (after_bind (n + 1)); [lia|apply commit__log; exact J1|]. intros cd st2 J2 _ P.
  eapply (after_bind (n + 1)); [lia|apply after_callback; exact J2|]. intros [] st3 J3 _ [O B]. apply (after_ret (n + 1)); [lia|exact J3|].
  destruct P as (d & prev & ops & P & (o & H1 & H2) & W & F). exists d, prev, ops. splits; auto; [eapply posted_same; eauto|]. exists o. rewrite O. auto.
Qed.

(** An event. *)
Definition eventful (type : str) (extra : list (str * ipld)) : Prop := forall d n, is_event type n (event now type n d extra).
Lemma write_log d type extra seq st : J seq st -> eventful type extra ->
  let v := event now type seq d extra in let e := mk_block digest v d seq None in
  after (seq + 1) st (fun _ st' => read st' (b_cid e) = Some e /\ is_item_event e /\ s_objs st' = s_objs st) (write_obj digest be d v seq st).
Proof.
  intros HJ EV v e. destruct (EV d seq) as [T Q]. fold v in T, Q. change (norm v) with (b_val e) in T, Q.
  assert (IE : is_item_event e) by (eapply event_type_item; exact T).
  assert (W : forall st, J seq st -> after (seq + 1) st (fun _ st' => read st' (b_cid e) = Some e /\ is_item_event e /\ s_objs st' = s_objs st) (write_blocks [e] st)).
  { intros st0 J0. destruct (J_write seq st0 (fst (write_blocks [e] st0)) e [(b_cid e, e)] J0) as (A1 & A2 & A3); auto.
    - apply (sanes_same st0); [reflexivity|reflexivity|exact (j_sane _ _ J0)].
    - intros c b [X|[]]. injection X as <- <-. splits; reflexivity.
    - cbn [dget]. rewrite str_eqb_refl. reflexivity.
    - left. exists type. split; [exact T|exact Q].
    - intros c b [X|[]]. injection X as <- <-. auto.
    - unfold after. splits; auto. cbn [write_blocks modify snd]. splits; auto. }
  unfold write_obj. fold e. destruct be.
  - eapply (after_bind seq); [lia|apply (after_pure seq); [lia|exact HJ|apply pure_assert]|]. intros [] st1 J1 _ [_ ->].
    eapply (after_bind (seq + 1)); [lia|apply W; exact J1|]. intros [] st2 J2 _ P. apply (after_ret (seq + 1)); [lia|exact J2|exact P].
  - eapply (after_bind seq); [lia|apply (after_pure seq); [lia|exact HJ|apply pure_assert]|]. intros [] st1 J1 _ [_ ->].
    eapply (after_bind (seq + 1)); [lia|apply W; exact J1|]. intros [] st2 J2 _ P.
    eapply (after_bind (seq + 1)); [lia|apply (after_pure (seq + 1)); [lia|exact J2|apply pure_reads]|]. intros [x|] st3 J3 _ [_ ->]; [|apply (after_throw (seq + 1)); [lia|exact J2]].
    eapply (after_bind (seq + 1)); [lia|apply (after_pure (seq + 1)); [lia|exact J3|apply pure_assert]|]. intros [] st4 J4 _ [_ ->]. apply (after_ret (seq + 1)); [lia|exact J4|exact P].
Qed.
Lemma event_log r type extra st : J (s_next st) st -> eventful type extra ->
  after (s_next st + 1) (set_next (s_next st + 1) st) (fun _ st' => s_objs st' = s_objs st /\
    forall o did, nth_error (s_objs st) r = Some o -> repo_did o = Ok (Some did) ->
      let e := event_block did type (s_next st) extra in read st' (b_cid e) = Some e /\ is_item_event e) (write_event digest now cb be r type extra st).
Proof.
  intros HJ EV. set (n := s_next st). set (st1 := set_next (n + 1) st).
  assert (J1 : J n st1) by (apply (J_same n st); [reflexivity|apply (sanes_same st); [reflexivity|reflexivity|exact (j_sane _ _ HJ)]|exact HJ]).
  change (write_event digest now cb be r type extra st) with ((let! o := obj r in let! d := lift (repo_did o) in
    let! b := write_obj digest be d (event now type n d extra) n in callback cb r (CData (MEvent (b_val b)));; ret b) st1).
  eapply (after_bind n); [lia|apply (after_pure n); [lia|exact J1|apply pure_obj]|]. intros o st2 J2 _ [O ->].
  eapply (after_bind n); [lia|apply (after_pure n); [lia|exact J2|apply pure_lift]|]. intros d st3 J3 _ [D ->].
  eapply (after_bind (n + 1)); [lia|apply write_log; [exact J3|exact EV]|]. intros b st4 J4 _ (W1 & W2 & W3).
  eapply (after_bind (n + 1)); [lia|apply after_callback; exact J4|]. intros [] st5 J5 _ [C1 C2]. apply (after_ret (n + 1)); [lia|exact J5|].
  split; [rewrite C1, W3; reflexivity|]. intros o' did E' D'.
  unfold obj in O. change (s_objs st1) with (s_objs st) in O. rewrite E' in O. injection O as <-. unfold lift in D. rewrite D' in D. injection D as <-.
  unfold read. rewrite C2. split; [exact W1|exact W2].
Qed.

(** Several numbers. *)
Definition hop {A} (st : state) (Q : A -> state -> Prop) (x : state * res A) : Prop :=
  J (s_next (fst x)) (fst x) /\ grows st (fst x) /\ match snd x with Ok a => Q a (fst x) | Err _ => True end.
Lemma hop_bind {A C} st (m : M A) (f : A -> M C) Q R : hop st Q (m st) ->
  (forall a st1, J (s_next st1) st1 -> grows st st1 -> Q a st1 -> hop st1 R (f a st1)) -> hop st R (bindM m f st).
Proof.
  intros (A1 & A2 & A3) F. unfold bindM. destruct (m st) as [st1 [a|e]]; cbn [fst snd] in *; [|unfold hop; cbn [fst snd]; splits; auto].
  destruct (F a st1 A1 A2 A3) as (B1 & B2 & B3). unfold hop. splits; auto. eapply grows_trans; eauto.
Qed.
Lemma hop_mild {A} st (m : M A) Q : J (s_next st) st -> mild m Q -> hop st (fun a st' => Q a /\ s_next st' = s_next st /\ s_blocks st' = s_blocks st) (m st).
Proof.
  intros HJ H. destruct (H st (j_sane _ _ HJ)) as (A1 & A2 & A3 & A4). unfold hop. splits.
  - rewrite A2. eapply J_same; [exact A1|exact A3|exact HJ].
  - intros c x. unfold read. rewrite A1. auto.
  - destruct (snd (m st)); auto.
Qed.
Lemma hop_pure {A} st (m : M A) : J (s_next st) st -> pure m -> hop st (fun a st' => m st = (st, Ok a) /\ st' = st) (m st).
Proof. intros HJ P. unfold hop. specialize (P st). destruct (m st) as [st1 [a|e]]; cbn [fst snd] in *; subst st1; splits; auto; intros c x X; exact X. Qed.
Lemma hop_ret {A} st (a : A) (Q : A -> state -> Prop) : J (s_next st) st -> Q a st -> hop st Q (ret a st).
Proof. intros HJ H. unfold hop, ret. cbn [fst snd]. splits; auto; intros c x X; exact X. Qed.
Lemma hop_throw {A} st e (Q : A -> state -> Prop) : J (s_next st) st -> hop st Q (throw e st).
Proof. intros HJ. unfold hop, throw. cbn [fst snd]. splits; auto; intros c x X; exact X. Qed.
Lemma hop_weaken {A} st (Q R : A -> state -> Prop) x : hop st Q x -> (forall a st', grows st st' -> Q a st' -> R a st') -> hop st R x.
Proof. intros (A1 & A2 & A3) W. unfold hop. splits; auto. destruct (snd x); auto. Qed.
Lemma hop_after {A} st (Q : A -> state -> Prop) x : after (s_next st + 1) (set_next (s_next st + 1) st) Q x -> hop st (fun a st' => Q a st' /\ s_next st' = (s_next st + 1)%Z) x.
Proof.
  intros (A1 & A2 & A3 & A4). unfold hop. change (s_next (set_next (s_next st + 1) st)) with (s_next st + 1)%Z in A3. rewrite A3. splits; auto. destruct (snd x); auto.
Qed.

Definition told (st : state) (e : entry) : Prop := exists b, read st (b_cid b) = Some b /\ entry_block st b e.
Lemma told_grows st st' e : grows st st' -> told st e -> told st' e.
Proof. intros G (b & R & E). exists b. split; [apply G; exact R|]. eapply entry_block_mono; [|exact E]. exact G. Qed.

Lemma eventful_identity h : eventful (s "identity") [(s "handle", opt_text h)].
Proof. intros d n. split; reflexivity. Qed.
Lemma eventful_active : eventful (s "account") [(s "active", IBool true)].
Proof. intros d n. split; reflexivity. Qed.
Lemma eventful_off : eventful (s "account") [(s "active", IBool false); (s "status", IText (s "deactivated"))].
Proof. intros d n. split; reflexivity. Qed.
Lemma eventful_gone : eventful (s "tombstone") [].
Proof. intros d n. split; reflexivity. Qed.
Lemma eventful_sync c rev : eventful (s "sync") (sync_extra c rev).
Proof. intros d n. split; reflexivity. Qed.

Lemma create_log did handle status x key st : J (s_next st) st -> is_did did -> K key ->
  hop st (fun _ st' => Forall (told st') [LCommit (s_next st) did None; LEvent (s_next st + 1) did (s "identity") [(s "handle", opt_text handle)];
       LEvent (s_next st + 2) did (s "account") [(s "active", IBool true)]; LSync (s_next st + 3) did])
    (repo_create digest kdigest validate ecdsa now cb be did handle status x key st).
Proof.
  intros HJ ID KK. unfold repo_create.
  eapply hop_bind; [apply hop_pure; [exact HJ|apply pure_lift]|]. intros m st0 J0 _ [MC ->].
  assert (SM : sane m) by (apply (sane_create digest [] None m); [constructor|]; unfold lift in MC; destruct (mst_create digest [] None); congruence).
  eapply hop_bind; [apply hop_mild; [exact HJ|apply mild_new; split; [exact SM|exact KK]]|]. intros r st1 J1 _ (_ & N1 & _).
  eapply hop_bind; [apply hop_after, commit_log; exact J1|]. intros cd st2 J2 _ [(d & prev & ops & P & HD & W & F) N2].
  destruct did as [|ch did]; [discriminate ID|]. destruct F as [-> ->]. inversion W; subst ops. clear W. set (D := ch :: did) in *.
  destruct HD as (o & O2 & H2). destruct P as (P1 & P2 & P3 & P4 & (ck & root & P5)).
  assert (RD : repo_did o = Ok (Some D)).
  { unfold repo_did. rewrite H2. destruct P5 as (rev & _ & _ & ->). reflexivity. }
  pose proof P5 as (rev & T & RP & V).
  eapply hop_bind; [apply hop_pure; [exact J2|apply pure_obj]|]. intros o' st3 J3 _ [_ ->].
  eapply hop_bind; [apply hop_pure; [exact J3|apply pure_need_did]|]. intros d' st4 J4 _ [_ ->]. clear J3 J4.
  eapply hop_bind; [apply hop_after, event_log; [exact J2|apply eventful_identity]|]. intros b1 st3 J3 G3 [[O3 E1] N3]. specialize (E1 o D O2 RD).
  rewrite <- O3 in O2.
  eapply hop_bind; [apply hop_after, event_log; [exact J3|apply eventful_active]|]. intros b2 st4 J4 G4 [[O4 E2] N4]. specialize (E2 o D O2 RD).
  rewrite <- O4 in O2.
  eapply hop_bind; [apply hop_pure; [exact J4|apply pure_lift]|]. intros rv st5 _ _ [RV ->].
  assert (rv = IText rev) by (unfold lift in RV; rewrite V in RV; injection RV as <-; reflexivity). subst rv.
  eapply hop_bind; [apply hop_after; apply (event_log r (s "sync") (sync_extra (cd_commit cd) rev)); [exact J4|apply eventful_sync]|]. intros b3 st5 J5 G5 [[O5 E3] N5]. specialize (E3 o D O2 RD).
  eapply hop_bind; [apply hop_mild; [exact J5|apply mild_create_repo]|]. intros [] st6 J6 G6 _.
  eapply hop_bind; [apply hop_mild; [exact J6|apply mild_callback]|]. intros [] st7 J7 G7 _. apply hop_ret; [exact J7|].
  rewrite N2 in N3. rewrite N3 in N4. rewrite N4 in N5. rewrite N1 in *. set (n := s_next st) in *.
  assert (A0 : grows st5 st7) by (eapply grows_trans; eauto). assert (A1 : grows st4 st7) by (eapply grows_trans; eauto). assert (A2 : grows st3 st7) by (eapply grows_trans; eauto).
  assert (A3 : grows st2 st7) by (eapply grows_trans; eauto). rewrite N2 in E1. rewrite N3 in E2. rewrite N4 in E3.
  replace (n + 1 + 1)%Z with (n + 2)%Z in * by lia. replace (n + 2 + 1)%Z with (n + 3)%Z in * by lia.
  constructor; [|constructor; [|constructor; [|constructor; [|constructor]]]].
  - exists (cd_commit cd). split; [apply A3, P1|]. cbn. splits; auto. exists ck, root. exact P5.
  - destruct E1 as [X Y]. eexists. split; [apply A2; exact X|]. cbn [EventsHist.entry_block]. auto.
  - destruct E2 as [X Y]. eexists. split; [apply A1; exact X|]. cbn [EventsHist.entry_block]. auto.
  - destruct E3 as [X Y]. eexists. split; [apply A0; exact X|]. cbn [EventsHist.entry_block]. split; [exact Y|]. exists (cd_commit cd), rev. rewrite Z.add_simpl_r. splits; auto.
    + rewrite <- P2. exact T.
    + exists ck, root. exact P5.
Qed.

Lemma status_head r x st o : nth_error (s_objs st) r = Some o -> exists o', nth_error (s_objs (fst (set_repo_status be r x st))) r = Some o' /\ r_head o' = r_head o.
Proof.
  intros E. unfold set_repo_status, bindM at 1. rewrite (set_attr_ok r _ st o E). set (o' := with_status x o). set (st1 := set_objs _ st).
  assert (E1 : nth_error (s_objs st1) r = Some o') by (cbn [st1 set_objs s_objs]; rewrite nth_put by congruence; rewrite Nat.eqb_refl; reflexivity).
  exists o'. split; [|reflexivity]. destruct be; [exact E1|]. unfold bindM, obj, lift, reads, modify, throw. rewrite E1. destruct (repo_did o') as [[d|]|]; [|exact E1|exact E1].
  destruct (dget d (s_ents st1)); exact E1.
Qed.
Lemma status_log r x type extra st : J (s_next st) st -> eventful type extra ->
  hop st (fun _ st' => forall o did, nth_error (s_objs st) r = Some o -> repo_did o = Ok (Some did) -> told st' (LEvent (s_next st) did type extra))
    ((set_repo_status be r x;; write_event digest now cb be r type extra;; ret tt) st).
Proof.
  intros HJ EV. pose proof (status_head r x st) as SH. destruct (hop_mild st _ _ HJ (mild_status r x)) as (A1 & A2 & A3).
  unfold bindM at 1. destruct (set_repo_status be r x st) as [st1 [[]|e]]; cbn [fst snd] in *; [|unfold hop; cbn [fst snd]; auto].
  destruct A3 as (_ & N1 & _).
  assert (H : hop st1 (fun _ st' => forall o did, nth_error (s_objs st) r = Some o -> repo_did o = Ok (Some did) -> told st' (LEvent (s_next st) did type extra))
    ((write_event digest now cb be r type extra;; ret tt) st1)).
  { eapply hop_bind; [apply hop_after, event_log; [exact A1|exact EV]|]. intros b st2 J2 _ [[_ E] _]. apply hop_ret; [exact J2|].
    intros o did O D. destruct (SH o O) as (o' & O' & H'). assert (D' : repo_did o' = Ok (Some did)) by (unfold repo_did in *; rewrite H'; exact D).
    destruct (E o' did O' D') as [X Y]. rewrite N1 in X, Y. eexists. split; [exact X|]. cbn [EventsHist.entry_block]. auto. }
  destruct H as (B1 & B2 & B3). unfold hop. splits; auto. eapply grows_trans; eauto.
Qed.

Definition JW (w : world) : Prop := J (s_next (w_state w)) (w_state w).
Definition leap (w : world) (op : sop) (x : world * res sout) : Prop :=
  JW (fst x) /\ grows (w_state w) (w_state (fst x)) /\ Forall (told (w_state (fst x))) (log_entries w op (snd x)).
Lemma log_err w op e : log_entries w op (Err e) = [].
Proof. destruct op; reflexivity. Qed.
Lemma leap_same w op e : JW w -> leap w op (w, Err e).
Proof. intros H. unfold leap. cbn [fst snd]. rewrite log_err. split; [exact H|]. split; [intros c x X; exact X|constructor]. Qed.
Lemma leap_new w op m Q : hop (w_state w) Q (m (w_state w)) ->
  (forall a st', Q a st' -> Forall (told st') (log_entries w op (Ok match a with Some _ => OutRepo | None => OutNone end))) -> leap w op (on_new w m).
Proof.
  intros (A1 & A2 & A3) F. unfold on_new. destruct (m (w_state w)) as [st [[r|]|e]]; cbn [fst snd] in *; unfold leap, JW; cbn [fst snd w_state]; splits; auto; try (apply (F _ _ A3)). rewrite log_err. constructor.
Qed.
Lemma leap_ref w op h f Q : JW w -> (forall r, nth_error (w_refs w) h = Some r -> hop (w_state w) (Q r) (f r (w_state w))) ->
  (forall r a st', nth_error (w_refs w) h = Some r -> Q r a st' -> Forall (told st') (log_entries w op (Ok a))) -> leap w op (on_ref w h f).
Proof.
  intros HJ H F. unfold on_ref. destruct (nth_error (w_refs w) h) as [r|] eqn:E; [|apply leap_same; exact HJ].
  destruct (H r eq_refl) as (A1 & A2 & A3). destruct (f r (w_state w)) as [st [a|e]]; cbn [fst snd] in *; unfold leap, JW; cbn [fst snd w_state]; splits; auto; [apply (F r a st eq_refl A3)|rewrite log_err; constructor].
Qed.
Lemma leap_status w op h x type extra f : JW w -> eventful type extra -> status_op op = Some (h, x, type, extra) ->
  (forall out, log_entries w op (Ok out) = match handle_did w h with Some did => [LEvent (s_next (w_state w)) did type extra] | None => [] end) ->
  (forall r st, f r st = (bindM (set_repo_status be r x;; write_event digest now cb be r type extra;; ret tt) (fun _ => ret OutDone)) st) ->
  leap w op (on_ref w h f).
Proof.
  intros HJ EV SO LE FE. eapply (leap_ref w op h f (fun r _ st' => forall o did, nth_error (s_objs (w_state w)) r = Some o -> repo_did o = Ok (Some did) -> told st' (LEvent (s_next (w_state w)) did type extra))); [exact HJ| |].
  - intros r _. rewrite FE. eapply hop_bind; [apply status_log; [exact HJ|exact EV]|]. intros [] st1 J1 _ T. apply hop_ret; [exact J1|exact T].
  - intros r a st' E T. rewrite LE. unfold handle_did, handle_obj. rewrite E. destruct (nth_error (s_objs (w_state w)) r) as [o|]; [|constructor].
    specialize (T o). destruct (repo_did o) as [[did|]|]; constructor; auto.
Qed.
Lemma step_log w op : JW w -> op_named op -> (forall k, op_key op = Some k -> K k) -> leap w op (sstep digest kdigest validate ecdsa now cb be w op).
Proof.
  intros HW ON OK. assert (HJ : J (s_next (w_state w)) (w_state w)) by exact HW. destruct op as [d handle status x key|x|h key|h x|h ws|h|h|h]; cbn [sstep op_named] in *.
  - destruct ON as [ID _]. apply (leap_new _ _ _ (fun _ st' => Forall (told st') (log_entries w (SCreate d handle status x key) (Ok OutRepo)))).
    + eapply hop_bind; [apply create_log; [exact HJ|exact ID|apply OK; reflexivity]|]. intros r st1 J1 _ T. apply hop_ret; [exact J1|exact T].
    + intros a st' T. destruct a; exact T.
  - eapply leap_new; [apply hop_mild; [exact HJ|apply mild_load]|]. intros [a|] st' _; constructor.
  - destruct (nth_error (w_refs w) h) as [r|]; [|apply leap_same; exact HW]. eapply leap_new.
    + apply hop_mild; [exact HJ|]. instantiate (1 := fun _ => True). apply mild_skip; [apply pure_obj|]. intros o. destruct (r_head o) as [b|]; [|apply mild_throw].
      apply (mild_bind _ _ (fun _ => True)); [|intros r' _; apply mild_ret; exact I].
      unfold repo_load. apply mild_skip; [apply pure_reads|]. intros [b'|]; [|apply mild_throw]. apply mild_skip; [apply pure_lift|]. intros d. apply mild_new. split; [constructor|apply OK; reflexivity].
    + intros [a|] st' _; constructor.
  - eapply leap_ref; [exact HW| |].
    + intros r _. apply hop_mild; [exact HJ|]. instantiate (1 := fun _ => True). apply (mild_bind _ _ (fun _ => True)); [apply mild_attr; auto|]. intros _ _. apply mild_ret. exact I.
    + intros r a st' _ _. destruct a; constructor.
  - eapply (leap_ref _ _ _ _ (fun _ out st' => exists cd, out = OutCommit cd /\ told st' (LCommit (s_next (w_state w)) (commit_did cd) (Some cd)))); [exact HW| |].
    + intros r _. eapply hop_bind; [apply hop_after, commit_log; exact HJ|]. intros cd st1 J1 _ [(d & prev & ops & P & _) _]. apply hop_ret; [exact J1|]. exists cd. split; [reflexivity|].
      destruct P as (P1 & P2 & P3 & P4 & (ck & root & P5)). exists (cd_commit cd). split; [exact P1|]. cbn [EventsHist.entry_block]. splits; auto.
      * destruct (commit_of_shape _ _ _ _ _ _ P5) as (_ & _ & X & _). congruence.
      * exists ck, prev, root. replace (commit_did cd) with d; [exact P5|]. destruct P5 as (rev & _ & _ & V). unfold commit_did. rewrite V. destruct prev; reflexivity.
    + intros r a st' _ (cd & -> & T). constructor; [exact T|constructor].
  - eapply (leap_status w _ h (Some (s "deactivated"))); [exact HW|apply eventful_off|reflexivity|reflexivity|reflexivity].
  - eapply (leap_status w _ h None); [exact HW|apply eventful_active|reflexivity|reflexivity|reflexivity].
  - eapply (leap_status w _ h (Some (s "tombstoned"))); [exact HW|apply eventful_gone|reflexivity|reflexivity|reflexivity].
Qed.
Lemma run_log_any ops : forall w w' outs, JW w -> Forall op_named ops -> (forall op k, In op ops -> op_key op = Some k -> K k) -> srun digest kdigest validate ecdsa now cb be w ops = (w', outs) ->
  JW w' /\ grows (w_state w) (w_state w') /\ Forall (told (w_state w')) (log_from digest kdigest validate ecdsa now cb be w ops).
Proof.
  induction ops as [|op ops IH]; intros w w' outs HW ON OK E; cbn [StorageModel.srun log_from] in *.
  - injection E as <- _. split; [exact HW|]. split; [intros c x X; exact X|constructor].
  - inversion ON; subst. assert (HS : leap w op (sstep digest kdigest validate ecdsa now cb be w op)) by (apply step_log; [assumption|assumption|intros k; apply OK; left; reflexivity]).
    destruct (sstep digest kdigest validate ecdsa now cb be w op) as [w1 o1]. destruct HS as (S1 & S2 & S3). cbn [fst snd] in *.
    destruct (srun digest kdigest validate ecdsa now cb be w1 ops) as [w2 os] eqn:E2. injection E as <- _. destruct (IH w1 w2 os S1) as (R1 & R2 & R3); auto; [intros op' k I; apply OK; right; exact I|].
    splits; auto; [eapply grows_trans; eauto|]. apply Forall_app. split; [|exact R3]. eapply Forall_impl; [|exact S3]. intros e. apply told_grows. exact R2.
Qed.
Lemma JW_init : JW init_world.
Proof.
  split; try (intros; contradiction); try (cbn; lia).
  - constructor.
  - intros c b H. discriminate H.
  - intros c b H. discriminate H.
  - split; [intros [|r] o H; discriminate H|intros d e []].
  - exists []. split; [|split; [constructor|intros e []]]. split; cbn; try tauto; try constructor. intros c b H. discriminate H.
Qed.

Lemma event_block_item b : is_event_block b -> is_item_event b.
Proof.
  intros (t & T). apply (event_type_item b t). unfold vtype. unfold item_text, item in T. destruct (b_val b) as [| | | | | |mm|]; try discriminate T.
  destruct (dget (s "$type") mm) as [x|]; [|discriminate T]. destruct x; try discriminate T. injection T as ->. reflexivity.
Qed.
Lemma item_event_block b : numbered b -> is_item_event b -> is_event_block b.
Proof.
  intros [(t & T & _)|(did & key & prev & root & _ & C)] I.
  - exists t. unfold vtype in T. unfold item_text, item. destruct (b_val b); try discriminate T. rewrite T. reflexivity.
  - destruct (commit_of_shape _ _ _ _ _ _ C) as (A & _). unfold is_item_event in I. congruence.
Qed.
Lemma logged_any st lg start repo : (forall c b, read st c = Some b -> b_cid b = c) -> (forall c b, read st c = Some b -> in_range start repo b = true -> b_seq b <> 0%Z) ->
  logp st lg -> Forall numbered lg -> logged ecdsa st start repo (filter (in_range start repo) lg).
Proof.
  intros CK NZ L F. rewrite Forall_forall in F. split; [apply StronglySorted_filter; apply L|]. intros b. rewrite filter_In. split.
  - intros [I R]. split; [exists (b_cid b); apply (lp_in _ _ L); exact I|]. split; [exact R|]. destruct (F b I) as [N|N].
    + left. apply item_event_block; [left; exact N|]. destruct N as (t & T & _). eapply event_type_item; eauto.
    + right. destruct N as (did & key & prev & root & _ & C). exists did, key, prev, root. exact C.
  - intros [(c & RB) [R N]]. split; [|exact R]. destruct (lp_part _ _ L c b RB (NZ c b RB R)) as (e & A & _ & _ & [->|[_ [O1 O2]]]); [exact A|exfalso].
    destruct N as [N|(did & key & prev & root & C)].
    + apply event_block_item in N. unfold is_item_event in N. congruence.
    + destruct (commit_of_shape _ _ _ _ _ _ C) as (_ & X & _). congruence.
Qed.
Lemma item_for_any st i b : numbered b -> block_item st i b -> item_for ecdsa st i b.
Proof.
  intros N [[A ->]|[A (cd & -> & B1 & B2 & B3)]]; cbn [item_for].
  - split; [apply item_event_block; auto|reflexivity].
  - splits; auto. pose proof (ic_event _ _ A) as X. destruct N as [(t & T & _)|(did & key & prev & root & _ & C)].
    + apply event_type_item in T. unfold is_item_event in T. congruence.
    + exists did, key, root. destruct (commit_of_shape _ _ _ _ _ _ C) as (_ & _ & P & _). rewrite B2, P. exact C.
Qed.
Lemma Forall2_in_r {A C} (R : A -> C -> Prop) l l' y : Forall2 R l l' -> In y l' -> exists x, In x l /\ R x y.
Proof. clear. induction 1 as [|a b l l' H F IH]; [intros []|]. intros [<-|I]; [exists a; split; [left; reflexivity|exact H]|]. destruct (IH I) as (x & X & Y). exists x. split; [right; exact X|exact Y]. Qed.
Lemma heads_pos st lg start repo bs : logp st lg -> (forall e, In e lg -> b_seq e <> 0%Z) -> enumerates st start repo bs -> (forall b, In b bs -> b_seq b <> 0%Z) ->
  (forall k b, read st k = Some b -> b_cid b = k) -> heads st (filter (in_range start repo) lg) bs.
Proof.
  intros [L1 L2 L3 L4] ZL (ND & SO & EN) ZB CK.
  assert (RG : forall a b, b_seq a = b_seq b -> b_repo a = b_repo b -> in_range start repo a = in_range start repo b).
  { intros a b A B. unfold in_range. rewrite A, B. auto. }
  assert (UN : forall a b, In a lg -> In b lg -> b_seq a = b_seq b -> a = b).
  { clear - L1. induction L1 as [|x l S IH F]; [intros a b []|]. rewrite Forall_forall in F.
    intros a b [<-|A] [<-|B] E; auto; [specialize (F _ B)|specialize (F _ A)]; lia. }
  split.
  - apply StronglySorted_filter. auto.
  - intros e HE. apply filter_In in HE as [HE R]. apply EN. split; eauto.
  - intros e HE. apply filter_In in HE as [HE R]. auto.
  - intros b HB. pose proof (ZB b HB) as NZ. apply EN in HB as [(c & RB) R]. destruct (L4 c b RB NZ) as (e & A & B & C & D).
    exists e. splits; auto. apply filter_In. split; auto. rewrite (RG e b); auto.
  - intros e c b HE RB SB. apply filter_In in HE as [HE R]. apply EN. split; [eauto|].
    destruct (L4 c b RB) as (e' & A & B & C & D); [rewrite SB; auto|]. assert (e' = e) by (apply UN; auto; congruence). subst e'.
    rewrite <- (RG e b); auto.
Qed.
Lemma events_of B st start repo bs : J B st -> enumerates st start repo bs -> (forall b, In b bs -> b_seq b <> 0%Z) ->
  exists items lg, read_events st (Ok bs) = (items, None) /\ logged ecdsa st start repo lg /\ Forall2 (item_for ecdsa st) items lg /\
    forall e, told st e -> entry_selected start repo e = true -> exists i, In i items /\ entry_item ecdsa now st i e.
Proof.
  intros HJ EN ZB. destruct (j_log _ _ HJ) as (lg & L & F & ZL).
  assert (CK : forall k b, read st k = Some b -> b_cid b = k) by (intros k b R; apply (j_wf _ _ HJ k b R)).
  assert (HD : heads st (filter (in_range start repo) lg) bs) by (apply heads_pos; auto).
  destruct EN as (ND & SO & EN).
  destruct (heads_loop st CK _ bs None None [] [] HD SO ND) as (items & EV & FI).
  - intros b HB. split; [|apply ZB; exact HB]. apply EN in HB as [(c & R) _]. rewrite (CK c b R). exact R.
  - constructor.
  - discriminate.
  - exists items, (filter (in_range start repo) lg). split; [exact EV|]. split; [apply logged_any; auto; intros c b R G; apply ZB, EN; eauto|]. split.
    + assert (FN : Forall numbered (filter (in_range start repo) lg)) by (rewrite Forall_forall in *; intros b HB; apply filter_In in HB as [HB _]; auto).
      clear - FI FN. induction FI as [|i b items l BI FI IH]; constructor; inversion FN; subst; auto. apply item_for_any; auto.
    + intros e (b & RB & EB) SE.
      destruct (entry_block_facts _ _ _ _ _ _ EB) as [S1 S2].
      assert (RG : in_range start repo b = true) by (unfold in_range; unfold entry_selected in SE; rewrite S1, S2; exact SE).
      assert (IL : In b (filter (in_range start repo) lg)).
      { apply filter_In. split; [|exact RG]. destruct (lp_part _ _ L _ b RB) as (x & A & _ & _ & [->|[_ [O1 O2]]]); [apply ZB, EN; eauto|exact A|exfalso].
        destruct e as [n did [cd|]|n did type extra|n did]; cbn in EB.
        - destruct EB as (_ & _ & _ & k & p & r & C). destruct (commit_of_shape _ _ _ _ _ _ C) as (_ & X & _). congruence.
        - destruct EB as (_ & _ & k & r & C). destruct (commit_of_shape _ _ _ _ _ _ C) as (_ & X & _). congruence.
        - destruct EB as (_ & X). unfold is_item_event in X. congruence.
        - destruct EB as (X & _). unfold is_item_event in X. congruence. }
      destruct (Forall2_in_r _ _ _ _ FI IL) as (i & II & BI). exists i. split; [exact II|]. eapply entry_block_item; eauto.
Qed.
Lemma J_keyed B st : J B st -> keyed_store st.
Proof. intros HJ. split; [apply HJ|]. intros k b R. apply (j_wf _ _ HJ k b R). Qed.
End Log.

Section Top.
Variable digest : list N -> list N.
Variable kdigest : str -> list N.
Variable validate : ipld -> res unit.
Variable ecdsa : N -> Z -> list N -> list N.
Variable now : Z -> str.
Variable cb : nat -> option exn.
Hypothesis inj : forall a b, digest a = digest b -> a = b.
Hypothesis plains : forall v, validate v = Ok tt -> plain v.

(** Without imports. *)
Lemma hist_J be ops w outs : srun digest kdigest validate ecdsa now cb be init_world ops = (w, outs) -> Forall op_named ops ->
  J digest ecdsa (fun _ => True) (fun _ => False) (s_next (w_state w)) (w_state w) /\ Forall (told digest ecdsa now (w_state w)) (log_from digest kdigest validate ecdsa now cb be init_world ops).
Proof.
  intros E ON. destruct (run_log_any digest kdigest validate ecdsa now cb be inj plains (fun _ => True) (fun _ => False)
    ltac:(intros v t []) ltac:(intros b did key prev root []) ops _ _ _ (JW_init digest ecdsa (fun _ => True) (fun _ => False)) ON (fun _ _ _ _ => I) E) as (HJ & _ & TD). auto.
Qed.
Lemma events_any be ops w outs start repo bs : srun digest kdigest validate ecdsa now cb be init_world ops = (w, outs) -> Forall op_named ops ->
  enumerates (w_state w) start repo bs ->
  exists items lg, read_events (w_state w) (Ok bs) = (items, None) /\ logged ecdsa (w_state w) start repo lg /\ Forall2 (item_for ecdsa (w_state w)) items lg /\
    forall e, In e (log_from digest kdigest validate ecdsa now cb be init_world ops) -> entry_selected start repo e = true -> exists i, In i items /\ entry_item ecdsa now (w_state w) i e.
Proof.
  intros E ON EN. destruct (hist_J be ops w outs E ON) as [HJ TD].
  destruct (events_of digest ecdsa now (fun _ => True) (fun _ => False) _ _ start repo bs HJ EN) as (items & lg & A & B & C & D).
  - intros b HB. apply EN in HB as [(c & R) _]. destruct (j_low _ _ _ _ _ _ HJ c b R) as [X|[_ []]]. lia.
  - exists items, lg. splits; auto. intros e IE. rewrite Forall_forall in TD. auto.
Qed.
Lemma keyed_any be ops w outs : srun digest kdigest validate ecdsa now cb be init_world ops = (w, outs) -> Forall op_named ops -> keyed_store (w_state w).
Proof. intros E ON. destruct (hist_J be ops w outs E ON) as [HJ _]. eapply J_keyed; eauto. Qed.

Lemma c25_memory_any ops w outs start repo : srun digest kdigest validate ecdsa now cb Memory init_world ops = (w, outs) -> Forall op_named ops -> (0 <= start)%Z ->
  exists items lg, read_events (w_state w) (mem_blocks_by_seq (w_state w) start repo) = (items, None) /\
    logged ecdsa (w_state w) start repo lg /\ Forall2 (item_for ecdsa (w_state w)) items lg /\
    forall e, In e (log_from digest kdigest validate ecdsa now cb Memory init_world ops) -> entry_selected start repo e = true ->
      exists i, In i items /\ entry_item ecdsa now (w_state w) i e.
Proof.
  intros E ON S0. destruct (mem_enumerates (w_state w) start repo (keyed_any Memory _ _ _ E ON) S0) as (bs & -> & EN).
  eapply events_any; eauto.
Qed.
Lemma c25_datastore_any ops w outs start repo query fails : srun digest kdigest validate ecdsa now cb Datastore init_world ops = (w, outs) -> Forall op_named ops -> (0 <= start)%Z ->
  (forall i cur, enumerates (w_state w) cur repo (query i cur)) ->
  exists items lg, read_events (w_state w) (scan query fails start) = (items, None) /\
    logged ecdsa (w_state w) start repo lg /\ Forall2 (item_for ecdsa (w_state w)) items lg /\
    forall e, In e (log_from digest kdigest validate ecdsa now cb Datastore init_world ops) -> entry_selected start repo e = true ->
      exists i, In i items /\ entry_item ecdsa now (w_state w) i e.
Proof.
  intros E ON S0 Q. destruct (scan_ok (w_state w) start repo (proj2 (keyed_any Datastore _ _ _ E ON)) query fails Q S0) as (bs & -> & EN).
  eapply events_any; eauto.
Qed.
End Top.
