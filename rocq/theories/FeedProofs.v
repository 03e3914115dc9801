(** The event log of servers that also take requests and imports: proofs. *)
From Coq Require Import String List NArith ZArith Bool Lia Sorted.
From Verif Require Import Base Lists Ipld IpldProofs MstModel MstRep MstClient MstSane TidModel BlockModel CarModel StorageModel StorageSpec StoreProofs ExecProofs
  RepoSpec RepoProofs EventsModel EventsSpec EventsProofs EventsHist EventsFacts CallbackProofs IsolateSpec IsolateProofs ChainProofs TellProofs UriModel ServerModel ServerSpec LogSpec LogProofs AnySpec AnyProofs FeedSpec.
Import ListNotations.
Local Open Scope m_scope.

Section Feed.
Variable digest : list N -> list N.
Variable kdigest : str -> list N.
Variable validate : ipld -> res unit.
Variable ecdsa : N -> Z -> list N -> list N.
Variable now : Z -> str.
Variable cb : nat -> option exn.
Variable be : backend.
Hypothesis inj : forall a b, digest a = digest b -> a = b.
Hypothesis plains : forall v, validate v = Ok tt -> plain v.
Variable K : N -> Prop.
Variable alien : ipld -> Prop.
Notation commit_of := (commit_of ecdsa).
Hypothesis alien_event : forall v t, alien v -> vtype v <> Some (IText (nsid_hash ++ t)).
Hypothesis alien_commit : forall b did key prev root, alien (b_val b) -> K key -> ~ commit_of b did key prev root.
Notation J := (LogProofs.J digest ecdsa K alien).
Notation hop := (LogProofs.hop digest ecdsa K alien).
Notation mild := (LogProofs.mild digest K).
Notation told := (LogProofs.told digest ecdsa now).
Notation posted := (LogProofs.posted ecdsa).
Notation JW := (LogProofs.JW digest ecdsa K alien).

(** ** Requests *)

Section Request.
Variable netloc_ok : str -> bool.
Variable cfg : config.
Notation named_did := (named_did be netloc_ok).

Definition loaded (st : state) (x : str) (r : nat) (st1 : state) : Prop :=
  (exists o, nth_error (s_objs st1) r = Some o /\ named_did st x = match repo_did o with Ok d => d | Err _ => None end) /\
  s_next st1 = s_next st /\ s_blocks st1 = s_blocks st /\ (forall y, named_did st1 y = named_did st y).
Lemma hop_load st x : J (s_next st) st -> hop st (fun r st1 => loaded st x r st1) (server_load be netloc_ok x st).
Proof.
  intros HJ. unfold server_load.
  eapply (LogProofs.hop_bind _ _ _ _ _ _ _ (fun y st1 => repo_name netloc_ok x = Ok y /\ st1 = st)).
  { eapply LogProofs.hop_weaken; [apply LogProofs.hop_pure; [exact HJ|]|].
    - destruct (starts_with (s "at://") x); [apply pure_bind; [apply pure_lift|intros; apply pure_ret]|apply pure_ret].
    - intros y st1 _ [E ->]. split; [|reflexivity]. unfold repo_name. destruct (starts_with (s "at://") x); [|injection E as ->; reflexivity].
      unfold bindM, lift in E. destruct (parse_at_uri netloc_ok x); [|discriminate]. injection E as E. cbn [bind]. rewrite E. reflexivity. }
  intros y st1 _ _ [RN ->].
  eapply (LogProofs.hop_bind _ _ _ _ _ _ _ (fun out st1 => forall r, out = Some r -> seen be st y = nth_error (s_objs st1) r /\
    s_next st1 = s_next st /\ s_blocks st1 = s_blocks st /\ forall y, named_did st1 y = named_did st y)).
  { destruct (LogProofs.hop_mild _ _ _ _ _ _ _ HJ (mild_load digest be inj K y)) as (A1 & A2 & A3). unfold LogProofs.hop. split; [exact A1|]. split; [exact A2|].
    destruct (load_repo be y st) as [st1 [[r|]|e]] eqn:L; cbn [fst snd] in *; auto; [|discriminate]. destruct A3 as (_ & N1 & B1). intros r' [= <-].
    split; [exact (seen_load be _ _ _ _ L)|]. split; [exact N1|]. split; [exact B1|]. intros z. unfold ServerSpec.named_did. destruct (repo_name netloc_ok z); [|reflexivity]. rewrite (load_same be _ _ _ _ L). reflexivity. }
  intros [r|] st1 J1 _ Q; [|apply LogProofs.hop_throw; exact J1]. destruct (Q r eq_refl) as (SE & N1 & B1 & ND).
  eapply LogProofs.hop_bind; [apply LogProofs.hop_pure; [exact J1|apply pure_obj]|]. intros o st2 J2 _ [EO ->]. unfold obj in EO.
  destruct (nth_error (s_objs st1) r) as [o'|] eqn:E; [|discriminate EO]. injection EO as <-.
  assert (LD : loaded st x r st1).
  { split; [|auto]. exists o'. split; [exact E|]. unfold ServerSpec.named_did. rewrite RN, SE. reflexivity. }
  destruct (r_status o') as [[|]|]; first [apply LogProofs.hop_throw; exact J2|apply LogProofs.hop_ret; [exact J2|exact LD]].
Qed.

(** A write of a request. *)
Definition wrote (st : state) (x coll rkey : str) (v : option ipld) (st' : state) : Prop :=
  exists did, named_did st x = Some did /\ exists cd action ops prev, posted (s_next st) did prev ops cd st' /\ made digest [Write action coll rkey v] ops.
Lemma hop_request_commit st st1 x r a coll rkey v : J (s_next st1) st1 -> loaded st x r st1 ->
  hop st1 (fun _ st' => wrote st x coll rkey v st') (commit digest kdigest validate ecdsa cb be r [Write a coll rkey v] None st1).
Proof.
  intros J1 ((o & EO & ND) & N1 & _). eapply LogProofs.hop_weaken; [apply LogProofs.hop_after, commit_log; auto|]. cbn beta.
  intros cd st' _ [(d & prev & ops & P & _ & M & (o' & EO' & D)) _]. rewrite EO in EO'. injection EO' as <-. rewrite D in ND. rewrite N1 in P.
  exists d. split; [exact ND|]. exists cd, a, ops, prev. auto.
Qed.
Lemma wrote_same st x coll rkey v st' st'' : s_blocks st'' = s_blocks st' -> wrote st x coll rkey v st' -> wrote st x coll rkey v st''.
Proof. intros E (did & ND & cd & a & ops & prev & P & M). exists did. split; [exact ND|]. exists cd, a, ops, prev. split; [eapply posted_same; eauto|exact M]. Qed.

Ltac skip := eapply LogProofs.hop_bind; [apply LogProofs.hop_pure; [eassumption|first [apply pure_lift|apply pure_obj|apply pure_find|apply pure_did_of]]|].
Lemma hop_put st header i : J (s_next st) st -> hop st (fun _ st' => forall x coll rkey v, i_repo i = Some x -> i_collection i = Some coll -> i_rkey i = Some rkey -> i_record i = Some v ->
    wrote st x coll rkey (Some v) st') (put_record digest kdigest validate ecdsa cb be netloc_ok cfg header i st).
Proof.
  intros HJ. unfold put_record. skip. intros [] st0 _ _ [_ ->]. skip. intros [] st0 _ _ [_ ->]. skip. intros x st0 _ _ [X ->].
  eapply LogProofs.hop_bind; [apply hop_load; exact HJ|]. intros r st1 J1 _ LD.
  skip. intros coll st0 _ _ [C ->]. skip. intros rkey st0 _ _ [RK ->]. skip. intros o st0 _ _ [_ ->]. skip. intros ex st0 _ _ [_ ->].
  unfold lift, arg in X, C, RK. destruct (i_repo i) as [x'|]; [|discriminate X]. destruct (i_collection i) as [c'|]; [|discriminate C]. destruct (i_rkey i) as [k'|]; [|discriminate RK].
  injection X as ->. injection C as ->. injection RK as ->.
  destruct (i_record i) as [v|]; [|apply LogProofs.hop_throw; exact J1].
  eapply LogProofs.hop_bind; [apply (hop_request_commit st st1 x r); [exact J1|exact LD]|]. intros cd st2 J2 _ W. cbn beta in W.
  skip. intros o2 st0 _ _ [_ ->]. skip. intros did st0 _ _ [_ ->]. skip. intros uri st0 _ _ [_ ->]. apply LogProofs.hop_ret; [exact J2|].
  intros x2 c2 k2 v2 [= <-] [= <-] [= <-] [= <-]. exact W.
Qed.
Lemma hop_create st header i tid : J (s_next st) st -> hop st (fun _ st' => forall x coll v, i_repo i = Some x -> i_collection i = Some coll -> i_record i = Some v ->
    wrote st x coll (match i_rkey i with Some k => k | None => tid end) (Some v) st') (create_record digest kdigest validate ecdsa cb be netloc_ok cfg header i tid st).
Proof.
  intros HJ. unfold create_record.
  eapply LogProofs.hop_bind; [apply LogProofs.hop_pure; [exact HJ|destruct (given (i_collection i)); [apply pure_ret|apply pure_lift]]|]. intros co st0 _ _ [_ ->].
  skip. intros [] st0 _ _ [_ ->]. skip. intros [] st0 _ _ [_ ->]. skip. intros y st0 _ _ [_ ->].
  eapply LogProofs.hop_bind; [apply hop_load; exact HJ|]. intros r st1 J1 _ (_ & N1 & _ & ND).
  eapply LogProofs.hop_weaken; [apply hop_put; exact J1|]. cbn beta. intros a st' _ W x coll v X C V.
  assert (W' : wrote st1 x coll (match i_rkey i with Some k => k | None => tid end) (Some v) st') by (apply W; destruct (i_rkey i) eqn:E; auto).
  destruct W' as (did & D & cd & ac & ops & prev & P & M). exists did. split; [rewrite <- ND; exact D|]. exists cd, ac, ops, prev. rewrite <- N1. auto.
Qed.
Lemma hop_delete st header i : J (s_next st) st -> hop st (fun _ st' => forall x coll rkey, i_repo i = Some x -> i_collection i = Some coll -> i_rkey i = Some rkey ->
    wrote st x coll rkey None st' \/ s_blocks st' = s_blocks st) (delete_record digest kdigest validate ecdsa cb be netloc_ok cfg header i st).
Proof.
  intros HJ. unfold delete_record. skip. intros [] st0 _ _ [_ ->]. skip. intros [] st0 _ _ [_ ->]. skip. intros x st0 _ _ [X ->].
  eapply LogProofs.hop_bind; [apply hop_load; exact HJ|]. intros r st1 J1 _ LD.
  skip. intros coll st0 _ _ [C ->]. skip. intros rkey st0 _ _ [RK ->]. skip. intros o st0 _ _ [EO ->]. skip. intros ex st0 _ _ [_ ->].
  unfold lift, arg in X, C, RK. destruct (i_repo i) as [x'|]; [|discriminate X]. destruct (i_collection i) as [c'|]; [|discriminate C]. destruct (i_rkey i) as [k'|]; [|discriminate RK].
  injection X as ->. injection C as ->. injection RK as ->.
  destruct ex as [ex|].
  - eapply LogProofs.hop_bind; [apply (hop_request_commit st st1 x r); [exact J1|exact LD]|]. intros cd st2 J2 _ W. cbn beta in W. apply LogProofs.hop_ret; [exact J2|].
    intros x2 c2 k2 [= <-] [= <-] [= <-]. left. exact W.
  - apply LogProofs.hop_ret; [exact J1|]. intros x2 c2 k2 [= <-] [= <-] [= <-]. right. apply LD.
Qed.
Lemma hop_get st repo coll rkey c : J (s_next st) st -> hop st (fun _ _ => True) (xrpc_get_record digest kdigest be netloc_ok cfg repo coll rkey c st).
Proof.
  intros HJ. unfold xrpc_get_record. skip. intros [] st0 _ _ [_ ->].
  eapply LogProofs.hop_bind; [apply LogProofs.hop_pure; [exact HJ|destruct (given c); [apply pure_throw|apply pure_ret]]|]. intros [] st0 _ _ [_ ->]. skip. intros x st0 _ _ [_ ->].
  eapply LogProofs.hop_bind; [apply hop_load; exact HJ|]. intros r st1 J1 _ _. skip. intros o st0 _ _ [_ ->]. skip. intros ex st0 _ _ [_ ->].
  destruct ex as [v|]; [|apply LogProofs.hop_throw; exact J1]. destruct (negb _); [apply LogProofs.hop_throw; exact J1|].
  skip. intros d st0 _ _ [_ ->]. skip. intros u st0 _ _ [_ ->]. apply LogProofs.hop_ret; [exact J1|exact I].
Qed.
Lemma hop_serve st q : J (s_next st) st -> hop st (fun _ st' => forall x coll rkey v, request_write q = Some (x, coll, rkey, v) -> wrote st x coll rkey v st' \/ v = None /\ s_blocks st' = s_blocks st)
  (serve digest kdigest validate ecdsa cb be netloc_ok cfg q st).
Proof.
  intros HJ. destruct q as [header i tid|header i|header i|repo coll rkey c]; cbn [serve request_write].
  - eapply LogProofs.hop_bind; [apply hop_create; exact HJ|]. intros a st1 J1 _ W. apply LogProofs.hop_ret; [exact J1|]. intros x coll rkey v.
    destruct (i_repo i) as [x'|]; [|discriminate]. destruct (i_collection i) as [c'|]; [|discriminate]. destruct (i_record i) as [v'|]; [|discriminate]. intros [= <- <- <- <-]. left. apply W; reflexivity.
  - eapply LogProofs.hop_bind; [apply hop_put; exact HJ|]. intros a st1 J1 _ W. apply LogProofs.hop_ret; [exact J1|]. intros x coll rkey v.
    destruct (i_repo i) as [x'|]; [|discriminate]. destruct (i_collection i) as [c'|]; [|discriminate]. destruct (i_rkey i) as [k'|]; [|discriminate]. destruct (i_record i) as [v'|]; [|discriminate].
    intros [= <- <- <- <-]. left. apply W; reflexivity.
  - eapply LogProofs.hop_bind; [apply hop_delete; exact HJ|]. intros a st1 J1 _ W. apply LogProofs.hop_ret; [exact J1|]. intros x coll rkey v.
    destruct (i_repo i) as [x'|]; [|discriminate]. destruct (i_collection i) as [c'|]; [|discriminate]. destruct (i_rkey i) as [k'|]; [|discriminate].
    intros [= <- <- <- <-]. destruct (W x' c' k' eq_refl eq_refl eq_refl); auto.
  - eapply LogProofs.hop_bind; [apply hop_get; exact HJ|]. intros a st1 J1 _ W. apply LogProofs.hop_ret; [exact J1|]. discriminate.
Qed.
End Request.

(** ** Imports *)

Definition imported (b : block) : Prop := wf digest b /\ b_seq b = 0%Z /\ alien (b_val b).
Lemma J_import B st bs : J B st -> Forall imported bs -> J B (fst (write_blocks bs st)) /\ grows st (fst (write_blocks bs st)).
Proof.
  intros HJ F. set (st' := fst (write_blocks bs st)).
  assert (RD : forall c, read st' c = match read st c with Some b => Some b | None => dget c (map (fun b => (b_cid b, b)) bs) end) by (intros c; apply read_write_blocks).
  assert (IN : forall c b, dget c (map (fun b => (b_cid b, b)) bs) = Some b -> b_cid b = c /\ imported b).
  { intros c b D. apply In_dget1 in D. apply in_map_iff in D as (x & [= <- <-] & I). rewrite Forall_forall in F. auto. }
  assert (G : grows st st') by (intros c b R; rewrite RD, R; reflexivity). split; [|exact G].
  destruct HJ as [A0 A1 A2 A3 A4 (lg & A5 & A6 & A7)]. split; auto.
  - unfold st', write_blocks, modify. cbn [fst set_blocks s_blocks]. apply nodup_setdefault. exact A1.
  - intros c b. rewrite RD. destruct (read st c) as [y|] eqn:R; [intros [= <-]; apply A2; exact R|]. intros D. apply IN in D as [D1 (D2 & _)]. auto.
  - intros c b. rewrite RD. destruct (read st c) as [y|] eqn:R; [intros [= <-]; apply (A3 c); exact R|]. intros D. apply IN in D as [_ (_ & D1 & D2)]. auto.
  - apply (sanes_same digest K st); [reflexivity|reflexivity|exact A4].
  - exists lg. split; [|split; [exact A6|exact A7]]. apply (logp_mono st); [exact G| |exact A5]. intros c b. rewrite RD. destruct (read st c) as [y|] eqn:R; [auto|].
    intros D N. apply IN in D as [_ (_ & D & _)]. contradiction.
Qed.
Section Import.
Variable cfg : config.
Variable resolve : str -> res ipld.
Variable signing_key : ipld -> option (list N).
Variable verify : ipld -> list N -> bool.
Variable handle_of : ipld -> option str.
Lemma mild_blocks hc : forall bl acc,
  (forall c data v, In (c, data) bl -> decode data = Some v -> c = cid_of digest v /\ alien v) -> Forall imported (fst acc) ->
  mild (import_blocks be resolve signing_key verify hc bl acc) (fun acc' => Forall imported (fst acc')).
Proof.
  induction bl as [|[c data] bl IH]; intros acc HO F; cbn [import_blocks]; [apply mild_ret; exact F|].
  apply mild_skip; [apply pure_assert|]. intros []. destruct (decode data) as [v|] eqn:DE; [|apply mild_throw].
  destruct (HO c data v (or_introl eq_refl) DE) as [H1 H2].
  assert (F' : Forall imported (fst acc ++ [Block c v 0 None None])) by (apply Forall_app; split; [exact F|]; constructor; [split; [exact H1|split; [reflexivity|exact H2]]|constructor]).
  assert (HO' : forall c data v, In (c, data) bl -> decode data = Some v -> c = cid_of digest v /\ alien v) by (intros; eapply HO; [right; eassumption|assumption]).
  destruct (str_eqb c hc); [|apply IH; [exact HO'|exact F']].
  apply mild_skip; [apply pure_lift|]. intros d. eapply mild_bind; [apply (mild_load digest be inj K)|]. intros ex _.
  apply mild_skip; [destruct (is_some ex); [apply pure_throw|apply pure_ret]|]. intros []. apply mild_skip; [apply pure_lift|]. intros doc.
  destruct (signing_key doc) as [k|]; [|apply mild_throw]. destruct (verify v k); [|apply mild_throw]. apply IH; [exact HO'|exact F'].
Qed.
Lemma hop_import st header car key : J (s_next st) st -> K key ->
  (forall roots bl c data v, read_car car = Some (roots, bl) -> In (c, data) bl -> decode data = Some v -> c = cid_of digest v /\ alien v) ->
  hop st (fun _ _ => True) (import_repo be cfg resolve signing_key verify handle_of header car key st).
Proof.
  intros HJ KK CA. unfold import_repo. eapply LogProofs.hop_bind; [apply LogProofs.hop_pure; [exact HJ|apply pure_lift]|]. intros [] st0 _ _ [_ ->].
  destruct (read_car car) as [[[|hc roots] bl]|] eqn:RC; try (apply LogProofs.hop_throw; exact HJ).
  eapply LogProofs.hop_bind; [apply LogProofs.hop_mild; [exact HJ|apply (mild_blocks hc bl ([], None)); [intros c data v; apply (CA (hc :: roots) bl); reflexivity|constructor]]|].
  intros bh st1 J1 _ [F _]. destruct (snd bh) as [[[h did] doc]|]; [|apply LogProofs.hop_throw; exact J1].
  eapply LogProofs.hop_bind; [apply LogProofs.hop_pure; [exact J1|destruct (nonempty did); [apply pure_ret|apply pure_throw]]|]. intros [] st2 _ _ [_ ->].
  set (own := fun b : block => Block (b_cid b) (b_val b) (b_seq b) (b_ops b) (Some did)).
  assert (F' : Forall imported (map own (fst bh))).
  { apply Forall_map. eapply Forall_impl; [|exact F]. intros b (X1 & X2 & X3). split; [exact X1|split; [exact X2|exact X3]]. }
  eapply (LogProofs.hop_bind _ _ _ _ _ _ _ (fun _ _ => True)).
  { destruct (J_import _ _ _ J1 F') as [J2 G2]. split; [exact J2|split; [exact G2|exact I]]. }
  intros [] st2 J2 _ _. eapply LogProofs.hop_bind; [apply LogProofs.hop_pure; [exact J2|apply pure_lift]|]. intros data st3 _ _ [_ ->].
  eapply LogProofs.hop_bind; [apply LogProofs.hop_mild; [exact J2|apply mild_new; split; [constructor|exact KK]]|]. intros r st3 J3 _ _.
  eapply LogProofs.hop_weaken; [apply LogProofs.hop_mild; [exact J3|apply (mild_create_repo digest be K)]|]. auto.
Qed.
End Import.

(** ** Servers *)
Notation astep := (astep digest kdigest validate ecdsa now cb be).
Notation arun := (arun digest kdigest validate ecdsa now cb be).
Definition act_fine (a : act) : Prop :=
  (forall k, act_key a = Some k -> K k) /\
  match a with
  | AStorage op => op_named op
  | ARequest _ _ _ => True
  | AImport _ _ _ _ _ _ car _ => forall roots bl c data v, read_car car = Some (roots, bl) -> In (c, data) bl -> decode data = Some v -> c = cid_of digest v /\ alien v
  end.
(** What an act leaves in the storage. *)
Definition left_by (w : world) (a : act) (st' : state) : Prop :=
  match a with
  | AStorage op => Forall (told st') (log_entries w op (snd (sstep digest kdigest validate ecdsa now cb be w op)))
  | ARequest netloc_ok cfg q => forall ans x coll rkey v, snd (serve digest kdigest validate ecdsa cb be netloc_ok cfg q (w_state w)) = Ok ans -> request_write q = Some (x, coll, rkey, v) ->
      wrote netloc_ok (w_state w) x coll rkey v st' \/ v = None /\ s_blocks (w_state (fst (astep w a))) = s_blocks (w_state w)
  | AImport _ _ _ _ _ _ _ _ => True
  end.
Lemma left_grows w a st st' : grows st st' -> left_by w a st -> left_by w a st'.
Proof.
  intros G. destruct a as [op|nl cfg q|cfg resolve sk vf ho header car key]; cbn [left_by]; auto.
  - intros F. eapply Forall_impl; [|exact F]. intros e. apply told_grows. exact G.
  - intros H ans x coll rkey v E R. destruct (H ans x coll rkey v E R) as [(did & D & cd & ac & ops & prev & P & M)|X]; [left|right; exact X].
    exists did. split; [exact D|]. exists cd, ac, ops, prev. split; [eapply posted_grows; eauto|exact M].
Qed.
Lemma astep_log w a : JW w -> act_fine a -> JW (fst (astep w a)) /\ grows (w_state w) (w_state (fst (astep w a))) /\ left_by w a (w_state (fst (astep w a))).
Proof.
  intros HW [AK AF]. destruct a as [op|nl cfg q|cfg resolve sk vf ho header car key]; cbn [AnySpec.astep left_by].
  - pose proof (step_log digest kdigest validate ecdsa now cb be inj plains K alien alien_event alien_commit w op HW AF AK) as (L1 & L2 & L3).
    destruct (sstep digest kdigest validate ecdsa now cb be w op) as [w' out]. cbn [fst snd] in *. auto.
  - pose proof (hop_serve nl cfg (w_state w) q HW) as (L1 & L2 & L3). destruct (serve digest kdigest validate ecdsa cb be nl cfg q (w_state w)) as [st out]. cbn [fst snd w_state] in *.
    split; [exact L1|]. split; [exact L2|]. intros ans x coll rkey v -> RW. apply L3. exact RW.
  - pose proof (hop_import cfg resolve sk vf ho (w_state w) header car key HW (AK _ eq_refl) AF) as (L1 & L2 & _).
    destruct (import_repo be cfg resolve sk vf ho header car key (w_state w)) as [st out]. cbn [fst snd w_state] in *. auto.
Qed.
Lemma arun_log l : forall w, JW w -> Forall act_fine l -> JW (arun w l) /\ grows (w_state w) (w_state (arun w l)) /\
  forall n a, nth_error l n = Some a -> left_by (arun w (firstn n l)) a (w_state (arun w l)).
Proof.
  induction l as [|a l IH]; intros w HW F.
  - split; [exact HW|]. split; [intros c b R; exact R|]. intros [|n] a; discriminate.
  - inversion F; subst. destruct (astep_log w a) as (S1 & S2 & S3); auto. destruct (IH (fst (astep w a))) as (R1 & R2 & R3); auto.
    change (arun w (a :: l)) with (arun (fst (astep w a)) l). split; [exact R1|]. split; [eapply grows_trans; eauto|].
    intros [|n] a' E; cbn [nth_error firstn] in *.
    + injection E as <-. eapply left_grows; [exact R2|exact S3].
    + exact (R3 n a' E).
Qed.
End Feed.

Section Top.
Variable digest : list N -> list N.
Variable kdigest : str -> list N.
Variable validate : ipld -> res unit.
Variable ecdsa : N -> Z -> list N -> list N.
Variable now : Z -> str.
Variable cb : nat -> option exn.
Hypothesis inj : forall a b, digest a = digest b -> a = b.
Hypothesis plains : forall v, validate v = Ok tt -> plain v.
Notation keys l := (fun k => exists a, In a l /\ act_key a = Some k).
(** The values of imports. *)
Definition got (l : list act) (v : ipld) : Prop :=
  foreign ecdsa (keys l) v /\ exists a, In a l /\ imports a.

Lemma feed_J be l : Forall (act_ok digest) l -> unforged ecdsa l ->
  let w := arun digest kdigest validate ecdsa now cb be init_world l in
  J digest ecdsa (keys l) (got l) (s_next (w_state w)) (w_state w) /\
  forall n a, nth_error l n = Some a -> left_by digest kdigest validate ecdsa now cb be (world_at digest kdigest validate ecdsa now cb be l n) a (w_state w).
Proof.
  intros OK UF. cbv zeta.
  destruct (arun_log digest kdigest validate ecdsa now cb be inj plains (keys l) (got l)) with (l := l) (w := init_world) as (A & _ & C).
  - intros v t [[F _] _]. unfold item_text in F. intros V. apply (F t). revert V. unfold vtype, item. destruct v; try discriminate. cbn [bind]. intros ->. reflexivity.
  - intros b did key prev root [[_ F] _] KK CO. exact (F b did key prev root KK eq_refl CO).
  - apply JW_init.
  - apply Forall_forall. intros a IA. rewrite Forall_forall in OK. specialize (OK a IA). split; [eauto|].
    destruct a as [op|nl cfg q|cfg resolve sk vf ho header car key]; cbn [act_ok] in OK; auto. intros roots bl c data v RC IB D. split; [exact (proj1 OK roots bl c data v RC IB D)|].
    split; [eapply UF; eauto|]. eexists. split; [exact IA|exact I].
  - auto.
Qed.
Lemma world_S be l n a : nth_error l n = Some a ->
  world_at digest kdigest validate ecdsa now cb be l (S n) = fst (astep digest kdigest validate ecdsa now cb be (world_at digest kdigest validate ecdsa now cb be l n) a).
Proof.
  unfold world_at, arun. intros N. assert (E : firstn (S n) l = firstn n l ++ [a]).
  { revert n N. induction l as [|y l IH]; intros [|n] N; try discriminate; cbn [nth_error firstn app] in *; [congruence|]. f_equal. apply IH, N. }
  rewrite E, fold_left_app. reflexivity.
Qed.
Lemma feed_any be l start repo bs : Forall (act_ok digest) l -> unforged ecdsa l -> (0 < start)%Z \/ Forall (fun a => ~ imports a) l ->
  let st := w_state (arun digest kdigest validate ecdsa now cb be init_world l) in
  enumerates st start repo bs ->
  exists items lg, read_events st (Ok bs) = (items, None) /\ logged ecdsa st start repo lg /\ Forall2 (item_for ecdsa st) items lg /\
    tells_operations digest kdigest validate ecdsa now cb be st start repo l items /\ tells_requests digest kdigest validate ecdsa now cb be start repo l items.
Proof.
  intros OK UF S0. cbv zeta. intros EN. destruct (feed_J be l OK UF) as [HJ LB].
  set (st := w_state (arun digest kdigest validate ecdsa now cb be init_world l)) in *.
  destruct (events_of digest ecdsa now (keys l) (got l) _ _ start repo bs HJ EN) as (items & lg & A & B & C & D).
  - intros b HB. apply EN in HB as [(c & R) IR]. destruct (j_low _ _ _ _ _ _ HJ c b R) as [X|[Z [_ (a & IA & IM)]]]; [lia|].
    destruct S0 as [S0|S0]; [|rewrite Forall_forall in S0; destruct (S0 a IA IM)]. unfold in_range in IR. apply andb_true_iff in IR as [IR _]. apply Z.leb_le in IR. lia.
  - exists items, lg. split; [exact A|]. split; [exact B|]. split; [exact C|]. split.
    + intros n op e N IE. specialize (LB n _ N). cbn [left_by] in LB. rewrite Forall_forall in LB. apply D. apply LB. exact IE.
    + intros n nl cfg q x coll rkey v ans N RW E. cbv zeta. specialize (LB n _ N). cbn [left_by] in LB.
      destruct (LB ans x coll rkey v E RW) as [(did & ND & cd & ac & ops & prev & (P1 & P2 & _ & P3 & key & root & P4) & MD)|[-> X]].
      * right. exists did. split; [exact ND|]. intros SL RP. destruct P4 as (rev & T & RB & BV).
        assert (IL : In (cd_commit cd) lg).
        { apply B. split; [eauto|]. split; [|right; exists did, key, prev, root, rev; auto].
          unfold in_range. rewrite P2, RB. apply andb_true_iff. split; [apply Z.leb_le; exact SL|]. destruct repo as [[|z d]|]; auto. rewrite RP. apply str_eqb_refl. }
        destruct (Forall2_in_r _ _ _ _ C IL) as (i & II & IF). destruct i as [v'|cd'].
        2: { destruct IF as (CE & _ & _). exists cd', ac, ops. rewrite CE. auto 6. }
        exfalso. destruct IF as [(t & IE) _]. rewrite BV in IE. destruct prev; discriminate IE.
      * left. split; [reflexivity|]. rewrite <- X. rewrite (world_S _ _ _ _ N). reflexivity.
Qed.
Lemma feed_keyed be l : Forall (act_ok digest) l -> unforged ecdsa l -> keyed_store (w_state (arun digest kdigest validate ecdsa now cb be init_world l)).
Proof. intros OK UF. destruct (feed_J be l OK UF) as [HJ _]. eapply J_keyed; eauto. Qed.

Lemma c25_feed_memory l start repo : Forall (act_ok digest) l -> unforged ecdsa l -> (0 < start)%Z \/ start = 0%Z /\ Forall (fun a => ~ imports a) l ->
  let st := w_state (arun digest kdigest validate ecdsa now cb Memory init_world l) in
  exists items lg, read_events st (mem_blocks_by_seq st start repo) = (items, None) /\ logged ecdsa st start repo lg /\ Forall2 (item_for ecdsa st) items lg /\
    tells_operations digest kdigest validate ecdsa now cb Memory st start repo l items /\ tells_requests digest kdigest validate ecdsa now cb Memory start repo l items.
Proof.
  intros OK UF S0 st. destruct (mem_enumerates st start repo (feed_keyed Memory l OK UF) ltac:(lia)) as (bs & -> & EN).
  apply feed_any; auto. tauto.
Qed.
Lemma c25_feed_datastore l start repo query fails : Forall (act_ok digest) l -> unforged ecdsa l -> (0 < start)%Z \/ start = 0%Z /\ Forall (fun a => ~ imports a) l ->
  let st := w_state (arun digest kdigest validate ecdsa now cb Datastore init_world l) in
  (forall i cur, enumerates st cur repo (query i cur)) ->
  exists items lg, read_events st (scan query fails start) = (items, None) /\ logged ecdsa st start repo lg /\ Forall2 (item_for ecdsa st) items lg /\
    tells_operations digest kdigest validate ecdsa now cb Datastore st start repo l items /\ tells_requests digest kdigest validate ecdsa now cb Datastore start repo l items.
Proof.
  intros OK UF S0 st Q. destruct (scan_ok st start repo (proj2 (feed_keyed Datastore l OK UF)) query fails Q ltac:(lia)) as (bs & -> & EN).
  apply feed_any; auto. tauto.
Qed.
End Top.
