(** Sessions. *)
From Coq Require Import String List NArith ZArith Bool Lia.
From Verif Require Import Base Lists Ipld MstModel MstRep StorageModel StorageSpec RepoSpec RepoProofs RepoSteps RepoFacts UriModel ServerModel ServerSpec ServerProofs
  RepoExamples MessageExamples ServerExamples SessionModel.
Import ListNotations.

Lemma obj_run r st st' o : obj r st = (st', Ok o) -> st' = st /\ nth_error (s_objs st) r = Some o.
Proof. unfold obj. destruct (nth_error (s_objs st) r) as [x|]; intros [= <- <-]; auto. Qed.

Lemma c65_answer : forall be cfg i st st' x, create_session be cfg i st = (st', Ok x) ->
  exists o token, seen be st (l_identifier i) = Some o /\ repo_did o = Ok (se_did x) /\ se_handle x = r_handle o /\
    c_token cfg = Some token /\ se_access x = token /\ se_refresh x = token.
Proof.
  intros be cfg i st st' x. unfold create_session, bindM, seen. destruct (load_repo be (l_identifier i) st) as [st1 [[r|]|e]]; try discriminate.
  unfold lift at 1. unfold env_token. destruct (c_token cfg) as [token|]; [|discriminate]. destruct (obj r st1) as [st2 [o|]] eqn:O; [|discriminate].
  destruct (obj_run _ _ _ _ O) as [-> E]. unfold lift. destruct (repo_did o) as [d|] eqn:D; [|discriminate]. intros [= <- <-].
  exists o, token. auto 8.
Qed.

(** The identifier is enough. *)
Lemma c65_anyone : forall digest kdigest validate ecdsa now cb be netloc_ok cfg, setting digest kdigest validate cb ->
  forall w bk did key recs password, serves digest kdigest validate ecdsa now cb be netloc_ok cfg w bk -> dget did bk = Some (key, recs) ->
  (exists token, c_token cfg = Some token /\ token <> []) ->
  exists st' x, create_session be cfg (Login did password) (w_state w) = (st', Ok x) /\ se_did x = Some did /\ has_token cfg (Some (s "Bearer " ++ se_access x)).
Proof.
  intros digest kdigest validate ecdsa now cb be netloc_ok cfg SET w bk did key recs password S B (token & T & TN).
  destruct (serves_inv digest kdigest validate ecdsa now cb be netloc_ok cfg SET w bk S) as [I _].
  destruct (seen_stored digest kdigest validate ecdsa cb be SET _ _ _ _ _ _ I B) as (o & SN & _ & G & _).
  unfold create_session, bindM. cbn [l_identifier]. unfold seen in SN. destruct (load_repo be did (w_state w)) as [st1 [[r|]|e]]; try discriminate.
  unfold lift at 1. unfold env_token. rewrite T. unfold obj. rewrite SN. unfold lift.
  assert (D : repo_did o = Ok (Some did)) by (eapply good_repo_did; eassumption). rewrite D.
  eexists _, _. split; [reflexivity|]. split; [reflexivity|]. exists token. auto.
Qed.

Lemma auth_run cfg header st st' u : lift (auth cfg header) st = (st', Ok u) -> st' = st /\ authorized cfg header.
Proof.
  unfold lift, auth. destruct (c_token cfg) as [[|c token]|] eqn:T; try discriminate.
  destruct (c_flask cfg && negb (opt_str_eqb (s "Bearer " ++ c :: token) header)) eqn:F; [discriminate|]. intros [= <-]. split; [reflexivity|].
  exists (c :: token). split; [assumption|]. split; [discriminate|]. intros Fl. rewrite Fl in F. cbn [andb] in F. apply negb_false_iff in F.
  unfold opt_str_eqb in F. destruct header as [h|]; [|discriminate]. apply str_eqb_eq in F. now rewrite F.
Qed.

Lemma c65_get : forall cfg sr header st st' out, get_session cfg sr header st = (st', out) -> st' = st /\
  forall h d, out = Ok (h, d) -> authorized cfg header /\ exists r o, sr = Some r /\ nth_error (s_objs st) r = Some o /\ h = r_handle o /\ repo_did o = Ok d.
Proof.
  intros cfg sr header st st' out. unfold get_session, bindM. destruct (lift (auth cfg header) st) as [st1 [u|e]] eqn:A.
  - destruct (auth_run _ _ _ _ _ A) as [-> AU]. unfold global_repo. destruct sr as [r|]; [|intros [= <- <-]; split; [reflexivity|discriminate]].
    unfold obj. destruct (nth_error (s_objs st) r) as [o|] eqn:E; [|intros [= <- <-]; split; [reflexivity|discriminate]].
    unfold lift. destruct (repo_did o) as [d|] eqn:D; intros [= <- <-]; (split; [reflexivity|]); [|discriminate].
    intros h d' [= <- <-]. split; [assumption|]. exists r, o. auto.
  - intros [= <- <-]. split; [|discriminate]. unfold lift in A. congruence.
Qed.

Lemma c65_refresh : forall cfg sr header st st' out, refresh_session cfg sr header st = (st', out) -> st' = st /\
  forall x, out = Ok x -> authorized cfg header /\ c_token cfg = Some (se_access x) /\ se_refresh x = se_access x /\
    exists r o, sr = Some r /\ nth_error (s_objs st) r = Some o /\ se_handle x = r_handle o /\ repo_did o = Ok (se_did x).
Proof.
  intros cfg sr header st st' out. unfold refresh_session, bindM. destruct (lift (auth cfg header) st) as [st1 [u|e]] eqn:A.
  - destruct (auth_run _ _ _ _ _ A) as [-> AU]. unfold env_token. destruct (c_token cfg) as [token|] eqn:T; [|intros [= <- <-]; split; [reflexivity|discriminate]].
    unfold lift at 1. unfold global_repo. destruct sr as [r|]; [|intros [= <- <-]; split; [reflexivity|discriminate]].
    unfold obj. destruct (nth_error (s_objs st) r) as [o|] eqn:E; [|intros [= <- <-]; split; [reflexivity|discriminate]].
    unfold lift. destruct (repo_did o) as [d|] eqn:D; intros [= <- <-]; (split; [reflexivity|]); [|discriminate].
    intros x [= <-]. split; [assumption|]. cbn [se_access se_refresh se_handle se_did]. split; [reflexivity|]. split; [reflexivity|]. exists r, o. auto.
  - intros [= <- <-]. split; [|discriminate]. unfold lift in A. congruence.
Qed.

Lemma c65_unset : forall cfg header st, (exists e, get_session cfg None header st = (st, Err e)) /\ exists e, refresh_session cfg None header st = (st, Err e).
Proof.
  intros cfg header st. unfold get_session, refresh_session, bindM, lift, env_token, global_repo, throw.
  destruct (auth cfg header); [|eauto]. destruct (c_token cfg); eauto.
Qed.

(** With the session of one repo, and any password, a record of another one. *)
Definition other_put (x : session) : request :=
  RPut (Some (s "Bearer " ++ se_access x)) (Input (Some alice) (Some (s "app.post")) (Some (s "k7")) (Some (post 1)) false).
Definition record_seen (be : backend) (st : state) : option ipld :=
  match snd (vserve be (vget alice (s "k7")) st) with Ok (ARecord _ _ v) => Some v | _ => None end.
Definition other_run (be : backend) (st : state) : option (option str * option ipld * option ipld) :=
  match create_session be vcfg (Login bob (s "wrong")) st with
  | (st1, Ok x) => match vserve be (other_put x) st1 with
                   | (st2, Ok a) => Some (se_did x, record_seen be st1, record_seen be st2)
                   | _ => None
                   end
  | _ => None
  end.
Lemma other_run_eq be : other_run be (vst be) = Some (Some bob, None, Some (norm (post 1))).
Proof. destruct be; vm_compute; reflexivity. Qed.

Lemma c65_other : forall be, exists st1 x st2 a,
  create_session be vcfg (Login bob (s "wrong")) (vst be) = (st1, Ok x) /\ se_did x = Some bob /\
  vserve be (other_put x) st1 = (st2, Ok a) /\ record_seen be st1 = None /\ record_seen be st2 = Some (norm (post 1)).
Proof.
  intros be. pose proof (other_run_eq be) as E. revert E. generalize (vst be). intros st. unfold other_run.
  destruct (create_session be vcfg (Login bob (s "wrong")) st) as [st1 [x|]]; [|discriminate].
  destruct (vserve be (other_put x) st1) as [st2 [a|]] eqn:V; [|discriminate]. intros E. exists st1, x, st2, a.
  assert (Z : forall A (x y : A), Some x = Some y -> x = y) by congruence. apply Z in E. 
  pose proof (f_equal (fun y => fst (fst y)) E) as E1. pose proof (f_equal (fun y => snd (fst y)) E) as E2. pose proof (f_equal snd E) as E3. cbn [fst snd] in E1, E2, E3.
  splits; auto.
Qed.
