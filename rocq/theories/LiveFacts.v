(** Facts behind the theorems about repos that are moved. *)
From Coq Require Import String List NArith ZArith Bool Lia Sorted.
From Coq Require Import ZifyBool ZifyNat ZifyN.
From Verif Require Import Base Lists Ipld IpldProofs MstModel MstTree MstTreeProofs MstRep MstTrav
  MstClient MstSpec MstHist MstFacts TidModel TidProofs BlockModel BlockSpec BlockProofs
  CarModel CarProofs StorageModel StorageSpec CommitProofs StoreProofs ExecProofs RepoSpec RepoProofs RepoHist RepoSteps RepoFacts
  UriModel EventsModel CoverModel MessageSpec MessageProofs
  ServerModel ServerSpec ServerProofs ExportSpec ExportProofs ImportProofs ImportFacts LiveStore LiveProofs LiveServe LiveMove CrashModel CrashSpec LiveCrash LiveSpec.
Import ListNotations.

Section Facts.
Variable digest : list N -> list N.
Variable kdigest : str -> list N.
Hypothesis D32 : forall a, length (digest a) = 32%nat.
Notation hosts := (hosts digest kdigest).
Notation proper := (proper digest kdigest).
Notation live sv := (live digest kdigest (p_be sv)).
Notation moved := (moved digest kdigest).

Lemma exported sv w bk x did o key recs since car : setting digest kdigest (p_validate sv) (p_cb sv) -> live sv (w_state w) (w_refs w) bk ->
  names (p_be sv) (p_netloc sv) (w_state w) x did o -> dget did bk = Some (key, recs) -> since = None \/ since = Some [] ->
  snd (on_get_repo digest sv x since (w_state w)) = Ok car ->
  r_status o = None /\ exists h bl, r_head o = Some h /\ moved (w_state w) car did h recs bl.
Proof.
  intros SET L NM B SI EC. unfold on_get_repo in EC.
  destruct (exported_named digest kdigest (p_validate sv) (p_cb sv) (p_be sv) (p_netloc sv) SET _ _ _ _ _ _ L EC) as (did' & o' & key' & recs' & NM' & R & B').
  destruct (names_fun _ _ _ _ _ _ _ _ NM NM') as [<- <-]. split; auto.
  destruct (live_export digest kdigest (p_validate sv) (p_ecdsa sv) (p_cb sv) (p_be sv) (p_netloc sv) SET _ _ _ _ _ _ _ _ since L NM R B D32 SI)
    as (st1 & h & root & n & t & bl & E & _ & HH & T & TA & RC & G & K).
  rewrite E in EC. cbn [snd] in EC. injection EC as <-. exists h, bl. split; auto. split; auto.
  - exists (s_next (w_state w)). exact (l_store _ _ _ _ _ _ L).
  - apply (l_book _ _ _ _ _ _ L _ _ _ B).
  - exists root, n, t. auto.
Qed.

Lemma hosts_live sv w bk : hosts sv w bk -> proper sv /\ live sv (w_state w) (w_refs w) bk.
Proof.
  induction 1 as [sv P|sv w bk op w' out H [P L] ON CL E|sv w bk q st' out H [P L] LIM E
    |sv w bk sv0 w0 bk0 x did o key0 recs since car header key st' out H [P L] H0 [P0 L0] NM B SI EC E
    |sv w bk op k lost H [P L] BE ON|sv w bk q lost H [P L] BE
    |sv w bk sv0 w0 bk0 x did o key0 recs since car header key lost H [P L] H0 [P0 L0] BE NM B SI EC].
  - split; auto. apply live_init.
  - split; auto. destruct w as [st refs]. destruct P as [SET _].
    exact (live_step digest kdigest (p_validate sv) (p_ecdsa sv) (p_now sv) (p_cb sv) (p_be sv) (s_klen _ _ _ _ SET) (s_inj _ _ _ _ SET) (s_plain _ _ _ _ SET)
      (s_quiet _ _ _ _ SET) st refs bk op w' out L ON CL E).
  - split; auto. destruct P as [SET _]. cbn [w_state w_refs].
    destruct (serve_outcome digest kdigest (p_validate sv) (p_ecdsa sv) (p_cb sv) (p_be sv) (p_netloc sv) (p_cfg sv) SET _ (w_refs w) bk q st' out L LIM E) as [(extra & S) _].
    eapply live_weaken; [|exact (S L)]. apply incl_appl, incl_refl.
  - split; auto. destruct P as [SET HO]. destruct P0 as [SET0 _]. cbn [w_state w_refs].
    destruct (exported sv0 w0 bk0 x did o key0 recs since car SET0 L0 NM B SI EC) as (_ & h & bl & _ & MV).
    destruct (live_import_cases digest kdigest (p_validate sv) (p_cb sv) (p_be sv) (p_cfg sv) (p_resolve sv) (p_signing_key sv) (p_verify sv) (p_handle sv) SET
      _ _ _ _ _ _ _ _ _ header key st' out L MV HO E) as [(_ & -> & LL)|(_ & e & -> & LL)]; exact LL.
  - split; auto. destruct P as [SET _]. rewrite BE in *. unfold on_storage_dies, dies_book.
    exact (live_crash digest kdigest (p_validate sv) (p_ecdsa sv) (p_now sv) (p_cb sv) (p_netloc sv) (s_klen _ _ _ _ SET) (s_inj _ _ _ _ SET) (s_plain _ _ _ _ SET) (s_quiet _ _ _ _ SET) w bk op k lost L ON).
  - split; auto. destruct P as [SET _]. cbn [w_state w_refs]. unfold halfway.
    destruct (on_request digest kdigest sv q (w_state w)) as [st' out] eqn:E. unfold on_request in E.
    destruct (serve_outcome digest kdigest (p_validate sv) (p_ecdsa sv) (p_cb sv) (p_be sv) (p_netloc sv) (p_cfg sv) SET _ (w_refs w) bk q st' out L ltac:(rewrite BE; discriminate) E) as [(extra & S) _].
    specialize (S L). rewrite BE in *. pose proof (live_half digest kdigest (p_cb sv) (serve digest kdigest (p_validate sv) (p_ecdsa sv) (p_cb sv) Datastore (p_netloc sv) (p_cfg sv) q) (w_state w) (w_refs w) bk) as X.
    rewrite E in X. eapply X; [apply ups_serve|exact L|exact S].
  - split; auto. destruct P as [SET HO]. destruct P0 as [SET0 _]. cbn [w_state w_refs]. unfold halfway.
    destruct (exported sv0 w0 bk0 x did o key0 recs since car SET0 L0 NM B SI EC) as (_ & h & bl & _ & MV).
    destruct (on_import sv header car key (w_state w)) as [st' out] eqn:E. unfold on_import in E.
    assert (LL : exists bk', live sv st' (w_refs w) bk').
    { destruct (live_import_cases digest kdigest (p_validate sv) (p_cb sv) (p_be sv) (p_cfg sv) (p_resolve sv) (p_signing_key sv) (p_verify sv) (p_handle sv) SET
        _ _ _ _ _ _ _ _ _ header key st' out L MV HO E) as [(_ & _ & LL)|(_ & e & _ & LL)]; eauto. }
    destruct LL as (bk' & LL). rewrite BE in *.
    pose proof (live_half digest kdigest (p_cb sv) (import_repo Datastore (p_cfg sv) (p_resolve sv) (p_signing_key sv) (p_verify sv) (p_handle sv) header car key) (w_state w) (w_refs w) bk) as X.
    rewrite E in X. eapply X; [apply ups_import|exact L|exact LL].
Qed.

Lemma live_seen sv w bk did key recs : proper sv -> live sv (w_state w) (w_refs w) bk -> dget did bk = Some (key, recs) ->
  exists o, stored_repo (p_be sv) (w_state w) did = Some o /\ seen (p_be sv) (w_state w) did = Some o /\ sound digest kdigest (s_blocks (w_state w)) did recs o /\ r_key o = key.
Proof.
  intros [SET _] L B. destruct (l_book _ _ _ _ _ _ L _ _ _ B) as (ID & RG & o & HS & G & K & _). exists o. splits; auto.
  unfold seen. destruct (load_did digest (p_be sv) (s_inj _ _ _ _ SET) (w_state w) did (live_named _ _ _ _ _ _ L) ID) as [(_ & NR)|(o3 & st4 & r4 & S3 & _ & LD & LE)];
    [contradiction|].
  rewrite LE. destruct (loaded_facts (p_be sv) _ _ _ _ _ S3 LD) as (_ & _ & _ & _ & _ & F6 & _). congruence.
Qed.

Lemma c72_hosted sv w bk did : hosts sv w bk ->
  (forall key recs, dget did bk = Some (key, recs) ->
     exists o, seen (p_be sv) (w_state w) did = Some o /\ repo_did o = Ok (Some did) /\ r_key o = key /\ shows kdigest (w_state w) o recs) /\
  (is_did did -> dget did bk = None -> seen (p_be sv) (w_state w) did = None).
Proof.
  intros H. destruct (hosts_live _ _ _ H) as [P L]. split.
  - intros key recs B. destruct (live_seen _ _ _ _ _ _ P L B) as (o & _ & S & G & K). exists o. splits; auto.
    + eapply sound_repo_did; eauto.
    + eapply sound_shows; eauto.
  - intros ID BN. destruct P as [SET _]. unfold seen. rewrite (live_no_repo digest kdigest (p_validate sv) (p_cb sv) (p_be sv) SET _ _ _ _ L BN ID). reflexivity.
Qed.

Lemma c72_commits sv w bk h o did key recs ws w' out : hosts sv w bk -> handle_obj w h = Some o -> repo_did o = Ok (Some did) ->
  dget did bk = Some (key, recs) -> on_storage digest kdigest sv w (SCommit h ws) = (w', out) ->
  (exists cd, out = Ok (OutCommit cd)) <->
  r_status o = None /\ writes_allowed (p_validate sv) recs ws /\ (len ws <= 200)%N /\ (s_next (w_state w) < 2 ^ 55)%Z.
Proof.
  intros H HO RD B E. destruct (hosts_live _ _ _ H) as [[SET _] L]. unfold handle_obj in HO. destruct w as [st refs]. cbn [w_state w_refs] in *.
  destruct (nth_error refs h) as [r|] eqn:HR; [|discriminate].
  destruct (l_ref _ _ _ _ _ _ L r (nth_error_In _ _ HR)) as (o2 & did2 & recs2 & HO2 & G & DB). rewrite HO in HO2. injection HO2 as <-.
  pose proof (sound_repo_did _ _ _ _ _ _ G) as RD2. rewrite RD in RD2. injection RD2 as <-.
  unfold on_storage, sstep, on_ref in E. cbn [w_state w_refs] in E. rewrite HR in E.
  destruct (r_status o) as [x|] eqn:ST.
  - rewrite (bindM_err _ _ _ _ _ (commit_inactive digest kdigest (p_validate sv) (p_ecdsa sv) (p_cb sv) (p_be sv) (s_klen _ _ _ _ SET) (s_inj _ _ _ _ SET) (s_quiet _ _ _ _ SET)
       st r o x ws HO ST (l_next _ _ _ _ _ _ L) None)) in E. injection E as <- <-. split; [intros (cd & X); discriminate|intros (X & _); discriminate].
  - destruct (live_commit digest kdigest (p_validate sv) (p_ecdsa sv) (p_cb sv) (p_be sv) (s_klen _ _ _ _ SET) (s_inj _ _ _ _ SET) (s_plain _ _ _ _ SET) (s_quiet _ _ _ _ SET)
      st refs bk r o did recs2 key recs ws L HO G B ST) as [(CP & st' & cd & EX & C)|(NC & oo & st1 & r1 & m' & e & HS & LD & EX & KEEP)].
    + rewrite (bindM_ok _ _ _ _ _ EX) in E. cbn [ret] in E. injection E as <- <-. split; [intros _; split; auto|intros _; eauto].
    + rewrite (bindM_err _ _ _ _ _ EX) in E. injection E as <- <-. split; [intros (cd & X); discriminate|]. intros (_ & X). exfalso. exact (NC X).
Qed.

Lemma c72_requests sv w bk q st' out : hosts sv w bk -> (p_be sv = Memory -> (s_next (w_state w) < 2 ^ 55)%Z) ->
  on_request digest kdigest sv q (w_state w) = (st', out) ->
  (request_ok (p_validate sv) (p_be sv) (p_netloc sv) (p_cfg sv) w bk q /\
    exists a, out = Ok a /\ answered digest (p_be sv) (p_netloc sv) (w_state w) bk q a) \/
  (~ request_ok (p_validate sv) (p_be sv) (p_netloc sv) (p_cfg sv) w bk q /\ exists e, out = Err e).
Proof.
  intros H LIM E. destruct (hosts_live _ _ _ H) as [[SET _] L]. destruct w as [st refs].
  exact (proj2 (serve_outcome digest kdigest (p_validate sv) (p_ecdsa sv) (p_cb sv) (p_be sv) (p_netloc sv) (p_cfg sv) SET _ refs bk q st' out L LIM E)).
Qed.

Lemma c72_exports sv w bk x did o key recs since : hosts sv w bk -> names (p_be sv) (p_netloc sv) (w_state w) x did o -> r_status o = None ->
  dget did bk = Some (key, recs) -> since = None \/ since = Some [] ->
  exists h root car bl, r_head o = Some h /\ item_link (s "data") (b_val h) = Ok root /\
    snd (on_get_repo digest sv x since (w_state w)) = Ok car /\ read_car car = Some ([b_cid h], bl) /\
    genuine digest (w_state w) bl /\ (forall c, In c (keys bl) <-> block_of digest (w_state w) h root recs c) /\
    readable digest kdigest (car_reader bl) h root recs.
Proof.
  intros H NM R B SI. destruct (hosts_live _ _ _ H) as [[SET _] L].
  destruct (live_export digest kdigest (p_validate sv) (p_ecdsa sv) (p_cb sv) (p_be sv) (p_netloc sv) SET _ _ _ _ _ _ _ _ since L NM R B D32 SI)
    as (st1 & h & root & n & t & bl & E & _ & HH & T & TA & RC & G & K).
  exists h, root, (write_car [b_cid h] bl), bl. splits; auto.
  - apply T.
  - unfold on_get_repo. rewrite E. reflexivity.
  - destruct T as ((h' & RH & VH) & _). pose proof (w_block _ _ _ _ (l_store _ _ _ _ _ _ L) _ _ RH) as (CH & _).
    assert (X : readable digest kdigest (car_reader bl) h' root recs).
    { eapply (readable_all digest kdigest (p_netloc sv)); [exact TA|unfold read; rewrite CH; exact RH|].
      intros c b BO RB. eapply car_reader_genuine; eauto. apply K. unfold block_of in *. rewrite CH in BO. exact BO. }
    unfold readable in *. rewrite CH, VH in X. exact X.
Qed.

Lemma c72_imports sv w bk sv0 w0 bk0 x did o h key0 recs since car header key st' out : hosts sv w bk -> hosts sv0 w0 bk0 ->
  names (p_be sv0) (p_netloc sv0) (w_state w0) x did o -> r_head o = Some h -> dget did bk0 = Some (key0, recs) -> since = None \/ since = Some [] ->
  snd (on_get_repo digest sv0 x since (w_state w0)) = Ok car ->
  on_import sv header car key (w_state w) = (st', out) ->
  (takes sv header bk did h /\ out = Ok tt /\
    exists o' h', seen (p_be sv) st' did = Some o' /\ r_head o' = Some h' /\ b_cid h' = b_cid h /\ b_val h' = b_val h /\
      r_status o' = Some (s "deactivated") /\ r_key o' = key /\ shows kdigest st' o' recs) \/
  (~ takes sv header bk did h /\ exists e, out = Err e).
Proof.
  intros H H0 NM HH B SI EC E. destruct (hosts_live _ _ _ H) as [P L]. destruct P as [SET HO]. destruct (hosts_live _ _ _ H0) as [[SET0 _] L0].
  destruct (exported sv0 w0 bk0 x did o key0 recs since car SET0 L0 NM B SI EC) as (_ & h1 & bl & HH1 & MV). rewrite HH in HH1. injection HH1 as <-.
  assert (TA : takes sv header bk did h <-> acceptable (p_cfg sv) (p_resolve sv) (p_signing_key sv) (p_verify sv) header bk did h).
  { unfold takes, acceptable. rewrite auth_ok. reflexivity. }
  destruct (live_import_cases digest kdigest (p_validate sv) (p_cb sv) (p_be sv) (p_cfg sv) (p_resolve sv) (p_signing_key sv) (p_verify sv) (p_handle sv) SET
      _ _ _ _ _ _ _ _ _ header key st' out L MV HO E) as [(A & -> & LL)|(A & e & -> & LL)].
  - left. rewrite TA. split; auto. split; auto. destruct A as (AU & BN & doc & k & RS & SK & VF).
    destruct (live_import digest kdigest (p_validate sv) (p_cb sv) (p_be sv) (p_cfg sv) (p_resolve sv) (p_signing_key sv) (p_verify sv) (p_handle sv) SET
      _ _ _ _ _ _ _ _ _ header key doc k L MV BN AU RS SK VF (HO doc)) as (st2 & o' & E2 & _ & SR & ST & _ & (h' & A1 & A2 & A3) & _).
    unfold on_import in E. rewrite E2 in E. injection E as <-.
    destruct (live_seen sv (World st2 (w_refs w)) (dset did (key, recs) bk) did key recs (conj SET HO) LL) as (o2 & S2 & SE & G & K).
    { rewrite dget_dset, str_eqb_refl. reflexivity. }
    cbn [w_state] in *. rewrite SR in S2. injection S2 as <-. exists o', h'. splits; auto. eapply sound_shows; eauto.
  - right. rewrite TA. eauto.
Qed.

(** Servers without imports. *)
Lemma serves_hosts sv w bk : proper sv -> serves digest kdigest (p_validate sv) (p_ecdsa sv) (p_now sv) (p_cb sv) (p_be sv) (p_netloc sv) (p_cfg sv) w bk -> hosts sv w bk.
Proof.
  intros P. induction 1; [apply h_new; exact P|eapply h_storage; eauto|eapply h_request; eauto].
Qed.
End Facts.
