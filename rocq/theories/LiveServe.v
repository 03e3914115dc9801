(** Requests on a storage that repos were moved to.  This follows ServerProofs, with the weaker invariant of LiveProofs. *)
From Coq Require Import String List NArith ZArith Bool Lia Sorted.
From Coq Require Import ZifyBool ZifyNat ZifyN.
From Verif Require Import Base Lists Ipld IpldProofs MstModel MstTree MstTreeProofs MstRep MstTrav
  MstClient MstSpec MstHist MstFacts TidModel TidProofs BlockModel BlockSpec BlockProofs
  CarModel StorageModel StorageSpec CommitProofs StoreProofs ExecProofs RepoSpec RepoProofs RepoHist RepoSteps RepoFacts
  UriModel EventsModel ServerModel ServerSpec ServerProofs LiveStore LiveProofs.
Import ListNotations.

Section Server.
Variable digest : list N -> list N.
Variable kdigest : str -> list N.
Variable validate : ipld -> res unit.
Variable ecdsa : N -> Z -> list N -> list N.
Variable cb : nat -> option exn.
Variable be : backend.
Variable netloc_ok : str -> bool.
Variable cfg : config.
Notation live := (live digest kdigest be).
Notation sound := (sound digest kdigest).
Notation stored_repo := (stored_repo be).
Notation loaded := (loaded be).
Notation server_load := (server_load be netloc_ok).
Notation commit := (commit digest kdigest validate ecdsa cb be).
Notation repo_name := (repo_name netloc_ok).
Notation names := (names be netloc_ok).
Notation named_did := (named_did be netloc_ok).
Notation names_fun := (names_fun be netloc_ok).
Notation names_did := (names_did be netloc_ok).
Hypothesis SET : setting digest kdigest validate cb.

Definition steps (st : state) (refs : list nat) (bk : book) (st1 : state) (refs1 : list nat) (bk1 : book) : Prop :=
  live st refs bk -> live st1 refs1 bk1.

Lemma steps_none st refs bk : steps st refs bk st refs bk.
Proof. intros H. exact H. Qed.

Lemma steps_trans st refs bk st1 refs1 bk1 st2 refs2 bk2 : steps st refs bk st1 refs1 bk1 -> steps st1 refs1 bk1 st2 refs2 bk2 ->
  steps st refs bk st2 refs2 bk2.
Proof. unfold steps. auto. Qed.

Lemma steps_live st refs bk st1 refs1 bk1 : steps st refs bk st1 refs1 bk1 -> live st refs bk -> live st1 refs1 bk1.
Proof. auto. Qed.

Lemma load_effect st refs bk did key recs o st1 r : live st refs bk -> stored_repo st did = Some o -> dget did bk = Some (key, recs) ->
  loaded st did o st1 r -> steps st refs bk st1 (refs ++ [r]) bk.
Proof. intros I HS B L _. eapply live_load; eauto. Qed.

Lemma sound_repo_did bl did recs o : sound bl did recs o -> repo_did o = Ok (Some did).
Proof. intros H. apply sound_head in H as (h & A & B). unfold repo_did. rewrite A, B. reflexivity. Qed.

Lemma server_load_spec st refs bk x : live st refs bk ->
  (exists e, repo_name x = Err e /\ server_load x st = (st, Err e)) \/
  exists y, repo_name x = Ok y /\
    ((y = [] /\ server_load x st = (st, Err AssertionError) /\ seen be st y = None) \/
     (load_repo be y st = (st, Ok None) /\ server_load x st = (st, Err (XrpcError (s "RepoNotFound"))) /\ seen be st y = None) \/
     exists did o st1 r key recs, stored_repo st did = Some o /\ dget did bk = Some (key, recs) /\ (did = y \/ r_handle o = Some y) /\
       loaded st did o st1 r /\ nth_error (s_objs st1) r = Some o /\ sound (s_blocks st1) did recs o /\ seen be st y = Some o /\ repo_did o = Ok (Some did) /\
       server_load x st = (st1, match r_status o with Some (_ :: _) => Err (XrpcError (s "RepoDeactivated")) | _ => Ok r end)).
Proof.
  intros I.
  assert (SL : forall y, repo_name x = Ok y -> server_load x st = bindM (load_repo be y)
     (fun r => match r with None => throw (XrpcError (s "RepoNotFound")) | Some r => bindM (obj r) (fun o =>
        match r_status o with Some (_ :: _) => throw (XrpcError (s "RepoDeactivated")) | _ => ret r end) end) st).
  { intros y. unfold ServerSpec.repo_name, ServerModel.server_load. destruct (starts_with (s "at://") x).
    - destruct (parse_at_uri netloc_ok x) as [p|e]; [|discriminate]. cbn [bind]. intros [= <-]. reflexivity.
    - intros [= <-]. reflexivity. }
  destruct (repo_name x) as [y|e] eqn:RN.
  2:{ left. exists e. split; auto. unfold ServerSpec.repo_name in RN. unfold ServerModel.server_load.
      destruct (starts_with (s "at://") x); [|discriminate]. destruct (parse_at_uri netloc_ok x) as [p|e']; [discriminate|].
      injection RN as <-. reflexivity. }
  right. exists y. split; auto. rewrite (SL y eq_refl). unfold seen.
  destruct (load_spec digest be (s_inj _ _ _ _ SET) st y (live_named _ _ _ _ _ _ I)) as [(-> & E)|[(E & _)|(did & o & st1 & r & HS & RG & D & L & E)]];
    rewrite E.
  - left. rewrite (bindM_err _ _ _ _ _ E). auto.
  - right. left. rewrite (bindM_ok _ _ _ _ _ E). auto.
  - right. right. destruct (dget did bk) as [[key recs]|] eqn:B; [|exfalso; exact (l_none _ _ _ _ _ _ I _ B RG)].
    destruct (loaded_facts be _ _ _ _ _ HS L) as (F1 & F2 & F3 & F4 & F5 & F6 & F7 & F8 & F9).
    destruct (l_book _ _ _ _ _ _ I _ _ _ B) as (_ & _ & o' & HS' & G & _). rewrite HS in HS'. injection HS' as <-.
    exists did, o, st1, r, key, recs. rewrite (bindM_ok _ _ _ _ _ E), (bindM_ok _ _ _ _ _ (obj_some _ _ _ F6)). rewrite F2.
    splits; auto.
    + eapply sound_repo_did; eauto.
    + destruct (r_status o) as [[|]|]; reflexivity.
Qed.


Lemma commit_request st refs bk did key recs o st1 r w : live st refs bk -> stored_repo st did = Some o -> dget did bk = Some (key, recs) ->
  loaded st did o st1 r -> nth_error (s_objs st1) r = Some o -> r_status o = None ->
  (be = Memory -> (s_next st < 2 ^ 55)%Z) ->
  (write_allowed validate recs w /\ (s_next st < 2 ^ 55)%Z /\ exists st' cd o', commit r [w] None st1 = (st', Ok cd) /\
     nth_error (s_objs st') r = Some o' /\ repo_did o' = Ok (Some did) /\
     steps st refs bk st' (refs ++ [r]) (dset did (key, apply_write recs w) bk)) \/
  (~ (write_allowed validate recs w /\ (s_next st < 2 ^ 55)%Z) /\ exists st' e, commit r [w] None st1 = (st', Err e) /\ steps st refs bk st' (refs ++ [r]) bk).
Proof.
  intros I HS B L HO ST LIM. pose proof (load_effect _ _ _ _ _ _ _ _ _ I HS B L) as S1. pose proof (steps_live _ _ _ _ _ _ S1 I) as I1.
  destruct (loaded_facts be _ _ _ _ _ HS L) as (F1 & F2 & F3 & F4 & F5 & F6 & F7 & F8 & F9).
  destruct (l_book _ _ _ _ _ _ I _ _ _ B) as (_ & _ & o' & HS' & G & _). rewrite HS in HS'. injection HS' as <-.
  rewrite <- F2 in G.
  destruct (live_commit digest kdigest validate ecdsa cb be (s_klen _ _ _ _ SET) (s_inj _ _ _ _ SET) (s_plain _ _ _ _ SET) (s_quiet _ _ _ _ SET)
    st1 (refs ++ [r]) bk r o did recs key recs [w] I1 HO G B ST)
    as [(CP & st' & cd & E & C)|(NC & oo & st2 & r1 & m' & e & HS2 & L2 & E & KEEP)].
  - left. destruct CP as (C2 & C1 & C3). cbn [writes_allowed] in C2. rewrite F1 in C3.
    split; [tauto|]. split; [exact C3|].
    destruct (wc_objs _ _ _ _ _ _ _ _ _ _ _ C) as (so & o0' & o' & _ & _ & _ & _ & _ & _ & N0 & S0 & _).
    exists st', cd, o0'. split; [exact E|]. split; [exact N0|]. split; [eapply sound_repo_did; eauto|].
    intros _. exact (wcommitted_live digest kdigest ecdsa cb be st1 (refs ++ [r]) bk st' r o did recs key recs [w] cd I1 HO G B C).
  - right. split.
    { intros [A1 A2]. apply NC. split; [cbn; auto|]. split; [cbn; lia|]. rewrite F1. auto. }
    eexists _, e. split; [exact E|]. intros _. eapply live_failed; eauto. intros BE. apply KEEP; [left; cbn; lia|]. rewrite F1. auto.
Qed.

(** A request finds its repo active, or fails. *)
Record found (st : state) (refs : list nat) (bk : book) (x did : str) (o : repo) (st1 : state) (r : nat) (key : N) (recs : records) : Prop := {
  f_names : names st x did o;
  f_status : r_status o = None;
  f_stored : stored_repo st did = Some o;
  f_book : dget did bk = Some (key, recs);
  f_name : exists y, did = y \/ r_handle o = Some y;
  f_loaded : loaded st did o st1 r;
  f_obj : nth_error (s_objs st1) r = Some o;
  f_good : sound (s_blocks st1) did recs o;
  f_load : server_load x st = (st1, Ok r);
  f_steps : steps st refs bk st1 (refs ++ [r]) bk;
  f_same : same_storage st st1
}.


Lemma load_cases st refs bk x : live st refs bk ->
  (exists did o st1 r key recs, found st refs bk x did o st1 r key recs) \/
  (exists e st1 extra, server_load x st = (st1, Err e) /\ steps st refs bk st1 (refs ++ extra) bk /\ same_storage st st1 /\
    (forall did o, names st x did o -> r_status o <> None)).
Proof.
  intros I. destruct (server_load_spec st refs bk x I) as [(e & RN & E)|(y & RN & [(-> & E & SN)|[(LD & E & SN)|
    (did & o & st1 & r & key & recs & HS & B & D & L & HO & G & SN & RD & E)]])].
  - right. exists e, st, []. rewrite app_nil_r. splits; auto using steps_none, same_refl.
    intros did o (y & RN' & _). congruence.
  - right. exists AssertionError, st, []. rewrite app_nil_r. splits; auto using steps_none, same_refl.
    intros did o (y & RN' & SN' & _). congruence.
  - right. eexists _, st, []. rewrite app_nil_r. splits; eauto using steps_none, same_refl.
    intros did o (y' & RN' & SN' & _). congruence.
  - assert (NM : names st x did o) by (exists y; auto).
    pose proof (load_effect _ _ _ _ _ _ _ _ _ I HS B L) as S1.
    destruct (loaded_facts be _ _ _ _ _ HS L) as (F1 & F2 & F3 & F4 & F5 & F6 & F7 & F8 & F9).
    assert (SS : same_storage st st1) by (unfold same_storage; splits; auto).
    destruct (l_book _ _ _ _ _ _ I _ _ _ B) as (_ & _ & oo & HS' & _ & _ & _ & ST). rewrite HS in HS'. injection HS' as <-.
    destruct ST as [R|R].
    + left. exists did, o, st1, r, key, recs. rewrite R in E. split; eauto.
    + right. assert (E' : server_load x st = (st1, Err (XrpcError (s "RepoDeactivated")))) by (destruct R as [R|R]; rewrite R in E; exact E).
      exists (XrpcError (s "RepoDeactivated")), st1, [r]. split; [exact E'|]. split; [exact S1|]. split; [exact SS|]. intros did' o' NM'.
      destruct (names_fun _ _ _ _ _ _ NM NM') as [_ <-]. destruct R; congruence.
Qed.


Lemma record_norm v : (exists m, v = IMap m /\ m <> []) -> plain v -> norm (norm v) = norm v /\ truthy (norm v) = true.
Proof.
  clear. intros (m & -> & NE) PV. split; [apply norm_idem, PV|].
  rewrite norm_map. pose proof (Permutation.Permutation_length (sort_keys_perm (map norm_pair m))) as P. rewrite map_length in P.
  destruct (sort_keys (map norm_pair m)); [|reflexivity]. destruct m; [congruence|discriminate].
Qed.

Lemma sound_find st did recs o coll rkey : sound (s_blocks st) did recs o ->
  find_record kdigest o coll rkey st = (st, Ok (option_map norm (dget (record_path coll rkey) recs))).
Proof.
  intros G. unfold find_record.
  destruct (sound_shows digest kdigest _ _ _ _ G) as [X _]. rewrite X. reflexivity.
Qed.

Lemma sound_keys bl did recs o : sound bl did recs o -> NoDup (keys recs) /\ (forall k, dget k recs <> None -> repo_key k) /\
  forall k v, dget k recs = Some v -> norm (norm v) = norm v /\ truthy (norm v) = true.
Proof.
  intros G. destruct (sound_fine _ _ _ _ _ _ G) as [ND F]. split; auto. split.
  - intros k D. destruct (dget k recs) as [v|] eqn:E; [|congruence]. apply (F k v E).
  - intros k v D. destruct (F k v D) as (_ & A & B). apply record_norm; auto.
Qed.

(** ** Requests *)
Notation request_ok := (request_ok validate be netloc_ok cfg).
Notation request_book := (request_book be netloc_ok).
Notation answered := (answered digest be netloc_ok).
Notation serve := (serve digest kdigest validate ecdsa cb be netloc_ok cfg).

Definition outcome (st : state) (refs : list nat) (bk : book) (q : request) (st' : state) (out : res answer) : Prop :=
  (exists extra, steps st refs bk st' (refs ++ extra) (request_book st bk q out)) /\
  ((request_ok (World st refs) bk q /\ exists a, out = Ok a /\ answered st bk q a) \/ (~ request_ok (World st refs) bk q /\ exists e, out = Err e)).

Lemma outcome_err st refs bk q st' extra e : steps st refs bk st' (refs ++ extra) bk -> ~ request_ok (World st refs) bk q ->
  outcome st refs bk q st' (Err e).
Proof. clear. intros S N. split; [exists extra; exact S|]. right. eauto. Qed.

Lemma outcome_same st refs bk q e : ~ request_ok (World st refs) bk q -> outcome st refs bk q st (Err e).
Proof. clear. intros N. apply (outcome_err _ _ _ _ _ []); auto. rewrite app_nil_r. apply steps_none. Qed.

Lemma found_name st refs bk x did o st1 r key recs : found st refs bk x did o st1 r key recs -> 
  exists y, did = y \/ r_handle o = Some y.
Proof. clear. intros F. exists did. auto. Qed.

Lemma found_commit st refs bk x did o st1 r key recs w : live st refs bk -> found st refs bk x did o st1 r key recs ->
  (be = Memory -> (s_next st < 2 ^ 55)%Z) ->
  (write_allowed validate recs w /\ (s_next st < 2 ^ 55)%Z /\ exists st' cd o', commit r [w] None st1 = (st', Ok cd) /\
     nth_error (s_objs st') r = Some o' /\ repo_did o' = Ok (Some did) /\
     steps st refs bk st' (refs ++ [r]) (dset did (key, apply_write recs w) bk)) \/
  (~ (write_allowed validate recs w /\ (s_next st < 2 ^ 55)%Z) /\ exists st' e, commit r [w] None st1 = (st', Err e) /\ steps st refs bk st' (refs ++ [r]) bk).
Proof.
  intros I F LIM. destruct F. eapply (commit_request st refs bk); eauto.
Qed.

Lemma put_outcome st refs bk header i st' out : live st refs bk -> (be = Memory -> (s_next st < 2 ^ 55)%Z) ->
  serve (RPut header i) st = (st', out) -> outcome st refs bk (RPut header i) st' out.
Proof.
  intros I LIM E. cbn [ServerSpec.serve] in E. unfold put_record in E. rewrite bind_assoc, bind_unit in E.
  destruct (validate_input cfg i None) as [[]|e] eqn:V.
  2:{ injection E as <- <-. apply outcome_same. intros (A & SW & SU & x & coll & rkey & v & did & o & key & recs & RW & NX & NM & _).
      assert (X : validate_input cfg i None = Ok tt); [|congruence]. apply validate_ok. splits; auto; [|discriminate].
      cbn [request_write] in RW. destruct (i_repo i) as [x'|]; [|discriminate]. destruct (i_collection i), (i_rkey i), (i_record i); try discriminate.
      injection RW as -> _ _ _. eauto. }
  apply validate_ok in V as (SW & (x & RX & NX) & _ & SU).
  rewrite bind_assoc, bind_unit in E. destruct (auth cfg header) as [[]|e] eqn:AU.
  2:{ injection E as <- <-. apply outcome_same. intros (A & _). apply auth_ok in A. congruence. }
  apply auth_ok in AU. rewrite RX in E. rewrite bind_assoc, bind_lift in E. cbn [arg] in E. rewrite bind_assoc in E.
  destruct (load_cases st refs bk x I) as [(did & o & st1 & r & key & recs & F)|(e & st1 & extra & LE & SS & _ & NN)].
  2:{ rewrite (bindM_err _ _ _ _ _ LE) in E. injection E as <- <-. eapply outcome_err; eauto.
      intros (_ & _ & _ & x' & coll & rkey & v & did & o & key & recs & RW & _ & NM & R & _). cbn [request_write] in RW. rewrite RX in RW.
      destruct (i_collection i), (i_rkey i), (i_record i); try discriminate. injection RW as <- _ _ _. exact (NN _ _ NM R). }
  rewrite (bindM_ok _ _ _ _ _ (f_load _ _ _ _ _ _ _ _ _ _ F)) in E.
  rewrite bind_assoc, bind_lift in E. destruct (i_collection i) as [coll|] eqn:CO; cbn [arg] in E.
  2:{ injection E as <- <-. eapply outcome_err; [exact (f_steps _ _ _ _ _ _ _ _ _ _ F)|].
      intros (_ & _ & _ & x' & coll & rkey & v & ? & ? & ? & ? & RW & _). cbn [request_write] in RW. rewrite RX, CO in RW. discriminate. }
  rewrite bind_assoc, bind_lift in E. destruct (i_rkey i) as [rkey|] eqn:RK; cbn [arg] in E.
  2:{ injection E as <- <-. eapply outcome_err; [exact (f_steps _ _ _ _ _ _ _ _ _ _ F)|].
      intros (_ & _ & _ & x' & ? & rkey & v & ? & ? & ? & ? & RW & _). cbn [request_write] in RW. rewrite RX, CO, RK in RW. discriminate. }
  rewrite bind_assoc, (bindM_ok _ _ _ _ _ (obj_some _ _ _ (f_obj _ _ _ _ _ _ _ _ _ _ F))) in E.
  rewrite bind_assoc, (bindM_ok _ _ _ _ _ (sound_find _ _ _ _ coll rkey (f_good _ _ _ _ _ _ _ _ _ _ F))) in E.
  destruct (i_record i) as [v|] eqn:RE.
  2:{ injection E as <- <-. eapply outcome_err; [exact (f_steps _ _ _ _ _ _ _ _ _ _ F)|].
      intros (_ & _ & _ & x' & ? & ? & v & ? & ? & ? & ? & RW & _). cbn [request_write] in RW. rewrite RX, CO, RK, RE in RW. discriminate. }
  destruct (sound_keys _ _ _ _ (f_good _ _ _ _ _ _ _ _ _ _ F)) as (ND & RKS & ROK).
  pose proof (names_did _ _ _ _ (f_names _ _ _ _ _ _ _ _ _ _ F)) as NDID. pose proof (f_book _ _ _ _ _ _ _ _ _ _ F) as B.
  destruct (l_book _ _ _ _ _ _ I _ _ _ B) as (ISD & _).
  set (w := Write _ coll rkey (Some v)) in E.
  assert (WA : write_allowed validate recs w <-> repo_key (record_path coll rkey) /\ record_ok validate v).
  { unfold write_allowed, w, has_record. cbn [w_action w_collection w_rkey w_record]. cbv zeta.
    destruct (dget (record_path coll rkey) recs) as [v0|] eqn:D; cbn [option_map].
    - split; [intros (_ & ? & [= <-] & R)|intros [_ R]]; split; eauto; [|congruence]. apply RKS. congruence.
    - split; [intros (K & _ & ? & [= <-] & R)|intros [K R]]; auto. splits; eauto. }
  assert (AW : apply_write recs w = dset (record_path coll rkey) v recs).
  { unfold apply_write, w. cbn [w_action w_collection w_rkey w_record]. cbv zeta. destruct (option_map norm _); reflexivity. }
  assert (RW : request_write (RPut header i) = Some (x, coll, rkey, Some v)) by (cbn [request_write]; rewrite RX, CO, RK, RE; reflexivity).
  assert (RO : request_ok (World st refs) bk (RPut header i) <-> write_allowed validate recs w /\ (s_next st < 2 ^ 55)%Z).
  { rewrite WA. unfold ServerSpec.request_ok. split.
    - intros (_ & _ & _ & x' & c' & k' & v' & did' & o' & key' & recs' & RW' & _ & NM & _ & B' & X). rewrite RW in RW'. injection RW' as <- <- <- <-.
      cbn in X. tauto.
    - intros ((K & R) & L). splits; auto. { rewrite CO. auto. } exists x, coll, rkey, (Some v), did, o, key, recs. destruct F. splits; auto. }
  rewrite bind_assoc in E.
  destruct (found_commit _ _ _ _ _ _ _ _ _ _ w I F LIM) as [(W1 & L & st2 & cd & o2 & EC & NO & RD & SS)|(NW & st2 & e & EC & SS)].
  - rewrite (bindM_ok _ _ _ _ _ EC) in E. rewrite bind_assoc, (bindM_ok _ _ _ _ _ (obj_some _ _ _ NO)) in E.
    assert (DO : did_of o2 st2 = (st2, Ok did)) by (unfold did_of, need_did, lift, bindM; rewrite RD; reflexivity).
    rewrite bind_assoc, (bindM_ok _ _ _ _ _ DO) in E. rewrite bind_assoc, bind_lift in E. rewrite (uri_ok did coll rkey ISD) in E by apply WA, W1.
    cbn in E. injection E as <- <-. split.
    + exists [r]. rewrite AW in SS. unfold ServerSpec.request_book. rewrite RW, NDID, B. exact SS.
    + left. split; [apply RO; auto|]. eexists. split; [reflexivity|]. exists x, coll, rkey, v, did. splits; auto.
  - rewrite (bindM_err _ _ _ _ _ EC) in E. injection E as <- <-. eapply outcome_err; [exact SS|]. rewrite RO. exact NW.
Qed.

Lemma delete_outcome st refs bk header i st' out : live st refs bk -> (be = Memory -> (s_next st < 2 ^ 55)%Z) ->
  serve (RDelete header i) st = (st', out) -> outcome st refs bk (RDelete header i) st' out.
Proof.
  intros I LIM E. cbn [ServerSpec.serve] in E. unfold delete_record in E. rewrite bind_assoc, bind_unit in E.
  destruct (validate_input cfg i None) as [[]|e] eqn:V.
  2:{ injection E as <- <-. apply outcome_same. intros (A & SW & SU & x & coll & rkey & v & did & o & key & recs & RW & NX & NM & _).
      assert (X : validate_input cfg i None = Ok tt); [|congruence]. apply validate_ok. splits; auto; [|discriminate].
      cbn [request_write] in RW. destruct (i_repo i) as [x'|]; [|discriminate]. destruct (i_collection i), (i_rkey i); try discriminate.
      injection RW as -> _ _ _. eauto. }
  apply validate_ok in V as (SW & (x & RX & NX) & _ & SU).
  rewrite bind_assoc, bind_unit in E. destruct (auth cfg header) as [[]|e] eqn:AU.
  2:{ injection E as <- <-. apply outcome_same. intros (A & _). apply auth_ok in A. congruence. }
  apply auth_ok in AU. rewrite RX in E. rewrite bind_assoc, bind_lift in E. cbn [arg] in E. rewrite bind_assoc in E.
  destruct (load_cases st refs bk x I) as [(did & o & st1 & r & key & recs & F)|(e & st1 & extra & LE & SS & _ & NN)].
  2:{ rewrite (bindM_err _ _ _ _ _ LE) in E. injection E as <- <-. eapply outcome_err; eauto.
      intros (_ & _ & _ & x' & coll & rkey & v & did & o & key & recs & RW & _ & NM & R & _). cbn [request_write] in RW. rewrite RX in RW.
      destruct (i_collection i), (i_rkey i); try discriminate. injection RW as <- _ _ _. exact (NN _ _ NM R). }
  rewrite (bindM_ok _ _ _ _ _ (f_load _ _ _ _ _ _ _ _ _ _ F)) in E.
  rewrite bind_assoc, bind_lift in E. destruct (i_collection i) as [coll|] eqn:CO; cbn [arg] in E.
  2:{ injection E as <- <-. eapply outcome_err; [exact (f_steps _ _ _ _ _ _ _ _ _ _ F)|].
      intros (_ & _ & _ & x' & coll & rkey & v & ? & ? & ? & ? & RW & _). cbn [request_write] in RW. rewrite RX, CO in RW. discriminate. }
  rewrite bind_assoc, bind_lift in E. destruct (i_rkey i) as [rkey|] eqn:RK; cbn [arg] in E.
  2:{ injection E as <- <-. eapply outcome_err; [exact (f_steps _ _ _ _ _ _ _ _ _ _ F)|].
      intros (_ & _ & _ & x' & ? & rkey & v & ? & ? & ? & ? & RW & _). cbn [request_write] in RW. rewrite RX, CO, RK in RW. discriminate. }
  rewrite bind_assoc, (bindM_ok _ _ _ _ _ (obj_some _ _ _ (f_obj _ _ _ _ _ _ _ _ _ _ F))) in E.
  rewrite bind_assoc, (bindM_ok _ _ _ _ _ (sound_find _ _ _ _ coll rkey (f_good _ _ _ _ _ _ _ _ _ _ F))) in E.
  destruct (sound_keys _ _ _ _ (f_good _ _ _ _ _ _ _ _ _ _ F)) as (ND & RKS & ROK).
  pose proof (names_did _ _ _ _ (f_names _ _ _ _ _ _ _ _ _ _ F)) as NDID. pose proof (f_book _ _ _ _ _ _ _ _ _ _ F) as B.
  assert (RW : request_write (RDelete header i) = Some (x, coll, rkey, None)) by (cbn [request_write]; rewrite RX, CO, RK; reflexivity).
  assert (RO : request_ok (World st refs) bk (RDelete header i) <-> (dget (record_path coll rkey) recs <> None -> (s_next st < 2 ^ 55)%Z)).
  { unfold ServerSpec.request_ok. split.
    - intros (_ & _ & _ & x' & c' & k' & v' & did' & o' & key' & recs' & RW' & _ & NM & _ & B' & X). rewrite RW in RW'. injection RW' as <- <- <- <-.
      destruct (names_fun _ _ _ _ _ _ NM (f_names _ _ _ _ _ _ _ _ _ _ F)) as [-> ->]. rewrite B in B'. injection B' as <- <-. exact X.
    - intros L. splits; auto. { rewrite CO. auto. } exists x, coll, rkey, None, did, o, key, recs. destruct F. splits; auto. }
  destruct (dget (record_path coll rkey) recs) as [v|] eqn:D; cbn [option_map] in E.
  - rewrite bind_assoc in E.
    destruct (found_commit _ _ _ _ _ _ _ _ _ _ (Write DELETE coll rkey None) I F LIM) as [(W1 & L & st2 & cd & o2 & EC & NO & RD & SS)|(NW & st2 & e & EC & SS)].
    + rewrite (bindM_ok _ _ _ _ _ EC) in E. cbn in E. injection E as <- <-. split.
      * exists [r]. unfold ServerSpec.request_book. rewrite RW, NDID, B. exact SS.
      * left. split; [apply RO; auto|]. exists ADone. split; reflexivity.
    + rewrite (bindM_err _ _ _ _ _ EC) in E. injection E as <- <-. eapply outcome_err; [exact SS|]. rewrite RO. intros X. apply NW.
      split; [|apply X; discriminate]. unfold write_allowed. cbn [w_action w_collection w_rkey]. cbv zeta. rewrite D. discriminate.
  - cbn in E. injection E as <- <-. split.
    + exists [r]. unfold ServerSpec.request_book. rewrite RW, NDID, B.
      assert (X : ddel (record_path coll rkey) recs = recs).
      { clear - D. induction recs as [|[k' v'] l IH]; [reflexivity|]. cbn [dget ddel] in *. destruct (str_eqb (record_path coll rkey) k'); [discriminate|].
        f_equal. auto. }
      rewrite X, dset_id by auto. exact (f_steps _ _ _ _ _ _ _ _ _ _ F).
    + left. split; [apply RO; congruence|]. exists ADone. split; reflexivity.
Qed.

Lemma create_outcome st refs bk header i tid st' out : live st refs bk -> (be = Memory -> (s_next st < 2 ^ 55)%Z) ->
  serve (RCreate header i tid) st = (st', out) -> outcome st refs bk (RCreate header i tid) st' out.
Proof.
  intros I LIM E. cbn [ServerSpec.serve] in E. unfold create_record in E.
  set (i' := match i_rkey i with Some _ => i | None => with_rkey i tid end) in *.
  assert (RW : request_write (RCreate header i tid) = request_write (RPut header i')).
  { unfold i'. cbn [request_write]. destruct i as [a b [k|] d f]; reflexivity. }
  assert (FI : i_swap i' = i_swap i /\ i_collection i' = i_collection i) by (unfold i'; destruct (i_rkey i); auto).
  set (coll := (if given (i_collection i) then ret (i_collection i) else lift (record_type (i_record i)))) in *.
  assert (CE : (exists c, coll st = (st, Ok c) /\ (given (i_collection i) = true -> c = i_collection i)) \/
     exists e, coll st = (st, Err e) /\ given (i_collection i) = false).
  { unfold coll. destruct (given (i_collection i)); [left; eexists; split; [reflexivity|auto]|].
    unfold lift. destruct (record_type (i_record i)); [left; eexists; split; [reflexivity|discriminate]|right; eauto]. }
  assert (GC : request_ok (World st refs) bk (RCreate header i tid) -> given (i_collection i) = true).
  { intros (_ & _ & _ & x & c & k & v & did & o & key & recs & RW' & _ & _ & _ & _ & X). rewrite RW in RW'. cbn [request_write] in RW'.
    rewrite (proj2 FI) in RW'. destruct (i_repo i'), (i_collection i) as [c'|], (i_rkey i'), (i_record i'); try discriminate.
    injection RW' as <- <- <- <-. apply given_ok. destruct (path_parts _ _ (proj1 X)). eauto. }
  rewrite bind_assoc in E. destruct CE as [(c & CE & GE)|(e & CE & GF)].
  2:{ rewrite (bindM_err _ _ _ _ _ CE) in E. injection E as <- <-. apply outcome_same. intros X. apply GC in X. congruence. }
  rewrite (bindM_ok _ _ _ _ _ CE) in E. rewrite bind_assoc, bind_unit in E.
  destruct (validate_input cfg i c) as [[]|e] eqn:V.
  2:{ injection E as <- <-. apply outcome_same. intros RO. specialize (GE (GC RO)).
      destruct RO as (A & SW & SU & x & cl & rkey & v & did & o & key & recs & RW' & NX & NM & _).
      assert (X : validate_input cfg i c = Ok tt); [|congruence]. apply validate_ok. splits; auto; [|rewrite GE; auto].
      cbn [request_write] in RW'. destruct (i_repo i) as [x'|]; [|discriminate]. destruct (i_collection i), (i_record i); try discriminate.
      injection RW' as -> _ _ _. eauto. }
  apply validate_ok in V as (SW & (x & RX & NX) & _ & SU).
  rewrite bind_assoc, bind_unit in E. destruct (auth cfg header) as [[]|e] eqn:AU.
  2:{ injection E as <- <-. apply outcome_same. intros (A & _). apply auth_ok in A. congruence. }
  rewrite RX in E. rewrite bind_assoc, bind_lift in E. cbn [arg] in E. rewrite bind_assoc in E.
  destruct (load_cases st refs bk x I) as [(did & o & st1 & r & key & recs & F)|(e & st1 & extra & LE & SS & _ & NN)].
  2:{ rewrite (bindM_err _ _ _ _ _ LE) in E. injection E as <- <-. eapply outcome_err; eauto.
      intros (_ & _ & _ & x' & cl & rkey & v & did & o & key & recs & RW' & _ & NM & R & _). cbn [request_write] in RW'. rewrite RX in RW'.
      destruct (i_collection i), (i_record i); try discriminate. injection RW' as <- _ _ _. exact (NN _ _ NM R). }
  rewrite (bindM_ok _ _ _ _ _ (f_load _ _ _ _ _ _ _ _ _ _ F)) in E.
  pose proof (f_steps _ _ _ _ _ _ _ _ _ _ F) as S1. pose proof (f_same _ _ _ _ _ _ _ _ _ _ F) as SM.
  assert (SN : forall y, seen be st1 y = seen be st y) by (intros; eapply loaded_seen; [exact (f_stored _ _ _ _ _ _ _ _ _ _ F)|exact (f_loaded _ _ _ _ _ _ _ _ _ _ F)]).
  assert (NM : forall x did o, names st1 x did o <-> names st x did o).
  { intros. unfold ServerSpec.names. split; intros (y & A & B & C); exists y; rewrite SN in *; auto. }
  assert (ND : forall x, named_did st1 x = named_did st x) by (intros; unfold ServerSpec.named_did; destruct (repo_name x0); [rewrite SN|]; reflexivity).
  destruct (put_outcome st1 (refs ++ [r]) bk header i' st' out) as [(extra & SS) O].
  { eapply steps_live; eauto. } { rewrite (proj1 SM). auto. } { exact E. }
  assert (RO : request_ok (World st1 (refs ++ [r])) bk (RPut header i') <-> request_ok (World st refs) bk (RCreate header i tid)).
  { unfold ServerSpec.request_ok. cbn [w_state]. rewrite RW, (proj1 FI), (proj2 FI), (proj1 SM).
    split; intros (A1 & A2 & A3 & x' & c' & k' & v' & did' & o' & key' & recs' & A4 & A5 & A6 & A7); splits; auto;
      exists x', c', k', v', did', o', key', recs'; splits; try apply NM; auto; tauto. }
  split.
  - exists ([r] ++ extra). rewrite app_assoc. eapply steps_trans; [exact S1|].
    replace (request_book st bk (RCreate header i tid) out) with (request_book st1 bk (RPut header i') out); [exact SS|].
    unfold ServerSpec.request_book. rewrite RW. destruct out; auto. destruct (request_write (RPut header i')) as [[[[x' c'] k'] v']|]; auto. rewrite ND. reflexivity.
  - rewrite RO in O. destruct O as [[O (a & OA & AN)]|O]; [left|right; exact O]. split; auto. exists a. split; auto.
    destruct AN as (x' & c' & k' & v' & did' & A1 & A2 & A3). rewrite ND in A2. exists x', c', k', v', did'. splits; auto. rewrite RW. exact A1.
Qed.

(** Reading a record. *)
Lemma get_outcome st refs bk repo collection rkey cid st' out : live st refs bk ->
  serve (RGet repo collection rkey cid) st = (st', out) ->
  outcome st refs bk (RGet repo collection rkey cid) st' out /\ same_storage st st' /\
  (forall x coll k did o key recs, repo = Some x -> x <> [] -> collection = Some coll -> rkey = Some k -> supported cfg coll -> given cid = false ->
     names st x did o -> r_status o = None -> dget did bk = Some (key, recs) -> dget (record_path coll k) recs = None ->
     out = Err (XrpcError (s "RecordNotFound"))).
Proof.
  intros I E. cbn [ServerSpec.serve] in E. unfold xrpc_get_record in E. rewrite bind_assoc, bind_unit in E.
  destruct (validate_input cfg (Input repo collection rkey None false) None) as [[]|e] eqn:V.
  2:{ injection E as <- <-.
      assert (VC : forall x, repo = Some x -> x <> [] -> (forall c, collection = Some c -> supported cfg c) -> False).
      { intros x RX NX SU. assert (X : validate_input cfg (Input repo collection rkey None false) None = Ok tt); [|congruence].
        apply validate_ok. cbn. splits; eauto; discriminate. }
      split; [|split; [apply same_refl|]].
      - apply outcome_same. intros (_ & SU & x & coll & k & did & o & key & recs & RX & _ & _ & NX & _). eauto.
      - intros x coll k did o key recs RX NX -> _ SU. exfalso. eapply VC; eauto. intros c [= <-]. exact SU. }
  apply validate_ok in V as (_ & (x & RX & NX) & _ & SU). cbn [i_repo i_collection] in RX, SU.
  rewrite bind_assoc in E. destruct (given cid) eqn:GI.
  { cbn in E. injection E as <- <-. split; [|split; [apply same_refl|discriminate]]. apply outcome_same. intros (X & _). congruence. }
  rewrite (bindM_ok (ret tt) _ _ _ tt eq_refl) in E.
  rewrite RX in E. rewrite bind_assoc, bind_lift in E. cbn [arg] in E. rewrite bind_assoc in E.
  destruct (load_cases st refs bk x I) as [(did & o & st1 & r & key & recs & F)|(e & st1 & extra & LE & SS & SM & NN)].
  2:{ rewrite (bindM_err _ _ _ _ _ LE) in E. injection E as <- <-. split; [|split; [exact SM|]].
      - eapply outcome_err; eauto. intros (_ & _ & x' & coll & k & did & o & key & recs & RX' & _ & _ & _ & NM & R & _). rewrite RX in RX'. injection RX' as <-.
        exact (NN _ _ NM R).
      - intros x' coll k did o key recs RX' _ _ _ _ _ NM R. rewrite RX in RX'. injection RX' as <-. exfalso. exact (NN _ _ NM R). }
  rewrite (bindM_ok _ _ _ _ _ (f_load _ _ _ _ _ _ _ _ _ _ F)) in E.
  rewrite bind_assoc, (bindM_ok _ _ _ _ _ (obj_some _ _ _ (f_obj _ _ _ _ _ _ _ _ _ _ F))) in E.
  rewrite bind_assoc, (bindM_ok _ _ _ _ _ (sound_find _ _ _ _ (py_str collection) (py_str rkey) (f_good _ _ _ _ _ _ _ _ _ _ F))) in E.
  destruct (sound_keys _ _ _ _ (f_good _ _ _ _ _ _ _ _ _ _ F)) as (ND & RKS & ROK).
  pose proof (names_did _ _ _ _ (f_names _ _ _ _ _ _ _ _ _ _ F)) as NDID. pose proof (f_book _ _ _ _ _ _ _ _ _ _ F) as B.
  pose proof (f_same _ _ _ _ _ _ _ _ _ _ F) as SM. pose proof (f_steps _ _ _ _ _ _ _ _ _ _ F) as S1.
  destruct (l_book _ _ _ _ _ _ I _ _ _ B) as (ISD & _).
  assert (NOT : dget (record_path (py_str collection) (py_str rkey)) recs = None \/ collection = None \/ rkey = None ->
     ~ request_ok (World st refs) bk (RGet (Some x) collection rkey cid)).
  { intros Y (_ & _ & x' & coll & k & did' & o' & key' & recs' & [= <-] & -> & -> & _ & NM & _ & B' & P).
    destruct (names_fun _ _ _ _ _ _ NM (f_names _ _ _ _ _ _ _ _ _ _ F)) as [-> ->]. rewrite B in B'. injection B' as <- <-.
    destruct Y as [Y|[Y|Y]]; try discriminate. exact (P Y). }
  subst repo.
  destruct (dget (record_path (py_str collection) (py_str rkey)) recs) as [v|] eqn:D; cbn [option_map] in E.
  - destruct (ROK _ _ D) as [NI TR]. rewrite TR in E. cbn [negb] in E.
    assert (DO : did_of o st1 = (st1, Ok did)).
    { unfold did_of, need_did, lift, bindM. rewrite (sound_repo_did _ _ _ _ (f_good _ _ _ _ _ _ _ _ _ _ F)). reflexivity. }
    rewrite bind_assoc, (bindM_ok _ _ _ _ _ DO), bind_assoc, bind_lift in E.
    destruct collection as [coll|]; [destruct rkey as [k|]|]; cbn [py_str] in *.
    + rewrite uri_ok in E; [|exact ISD|apply RKS; congruence]. cbn in E. injection E as <- <-. split; [|split; [exact SM|]].
      * split; [exists [r]; exact S1|]. left. split.
        { unfold ServerSpec.request_ok. splits; auto. exists x, coll, k, did, o, key, recs. destruct F. splits; auto. congruence. }
        eexists. split; [reflexivity|]. exists x, coll, k, did, key, recs, v. splits; auto. unfold dag_cbor_cid. rewrite NI. reflexivity.
      * intros x' coll' k' did' o' key' recs' [= <-] _ [= <-] [= <-] _ _ NM _ B' D'.
        destruct (names_fun _ _ _ _ _ _ NM (f_names _ _ _ _ _ _ _ _ _ _ F)) as [-> ->]. congruence.
    + cbn in E. injection E as <- <-. split; [|split; [exact SM|discriminate]]. eapply outcome_err; [exact S1|]. auto.
    + cbn in E. injection E as <- <-. split; [|split; [exact SM|discriminate]]. eapply outcome_err; [exact S1|]. auto.
  - cbn in E. injection E as <- <-. split; [|split; [exact SM|auto]]. eapply outcome_err; [exact S1|]. auto.
Qed.

Lemma serve_outcome st refs bk q st' out : live st refs bk -> (be = Memory -> (s_next st < 2 ^ 55)%Z) ->
  serve q st = (st', out) -> outcome st refs bk q st' out.
Proof.
  intros I LIM E. destruct q.
  - eapply create_outcome; eauto.
  - eapply put_outcome; eauto.
  - eapply delete_outcome; eauto.
  - eapply get_outcome; eauto.
Qed.


End Server.
