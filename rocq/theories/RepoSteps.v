(** What single operations do to each repo of a storage. *)
From Coq Require Import String List NArith ZArith Bool Lia Sorted.
From Coq Require Import ZifyBool ZifyNat ZifyN.
From Verif Require Import Base Lists Ipld IpldProofs MstModel MstTree MstTreeProofs MstRep MstTrav
  MstClient MstSpec MstHist MstFacts TidModel TidProofs BlockModel BlockSpec
  CarModel StorageModel StorageSpec CommitProofs StoreProofs ExecProofs RepoSpec RepoProofs RepoHist.
Import ListNotations.

Section Steps.
Variable digest : list N -> list N.
Variable kdigest : str -> list N.
Variable validate : ipld -> res unit.
Variable ecdsa : N -> Z -> list N -> list N.
Variable now : Z -> str.
Variable be : backend.
Notation inv := (inv digest kdigest validate ecdsa be).
Notation good := (good digest kdigest validate ecdsa).
Notation committed := (committed digest kdigest validate ecdsa be).
Notation created := (created digest kdigest validate ecdsa now be).
Notation stored_repo := (stored_repo be).
Notation effect := (effect digest kdigest validate ecdsa now be).

Lemma same_repo_refl o : same_repo o o.
Proof. unfold same_repo. auto 6. Qed.

Lemma good_handle_did w h r0 o0 bl did key recs : nth_error (w_refs w) h = Some r0 -> nth_error (s_objs (w_state w)) r0 = Some o0 ->
  good bl did key recs o0 -> handle_did w h = Some did.
Proof.
  intros H H0 G. destruct (good_head _ _ _ _ _ _ _ _ _ G) as (hd & HH & HD).
  unfold handle_did, handle_obj. rewrite H, H0. unfold repo_did. rewrite HH, HD. reflexivity.
Qed.

Lemma committed_did st st' r0 o0 did key recs ws cd : committed st st' r0 o0 did key recs ws cd -> commit_did cd = did.
Proof.
  intros C. destruct (c_prev _ _ _ _ _ _ _ _ _ _ _ _ _ _ C) as (o & hb & _ & _ & _ & root & CO). unfold commit_did.
  rewrite (commit_of_did _ _ _ _ _ _ CO). auto.
Qed.

Lemma effect_extends st refs bk op st' refs' out : inv st refs bk -> effect st refs bk op st' refs' out ->
  extends (s_blocks st) (s_blocks st') /\ (s_next st <= s_next st')%Z.
Proof.
  intros I E. destruct E.
  - split; [apply extends_refl|lia].
  - destruct (loaded_facts be _ _ _ _ _ H H2) as (F1 & F2 & _). rewrite F1, F2. split; [apply extends_refl|lia].
  - cbn. split; [apply extends_refl|lia].
  - cbn. split; [apply extends_refl|lia].
  - rewrite called_blocks, called_next. cbn. split; [apply extends_refl|lia].
  - split; [eapply committed_extends; eauto|]. rewrite (c_next _ _ _ _ _ _ _ _ _ _ _ _ _ _ H5). lia.
  - destruct (loaded_facts be (alloc st) did o st1 r) as (F1 & F2 & _); auto.
    rewrite called_blocks, called_next. cbn [upd set_objs s_blocks s_next]. rewrite F1, F2. cbn. split; [apply extends_refl|lia].
  - destruct (status_facts digest kdigest validate ecdsa be st refs bk r0 o0 did key recs x I H1 H2 H3)
      as (I1 & N1 & B1 & C1 & M1 & O1 & _).
    destruct (after_event_facts (status_set be st r0 o0 did x) (with_status x o0) (event_block digest now did type (s_next st) extra))
      as (E1 & E2 & _). rewrite E1, E2, N1, B1. split; [|lia].
    intros c b HC. rewrite dget_app, HC. auto.
  - destruct (n_commit _ _ _ _ _ _ _ _ _ _ _ _ _ _ H2) as (rev & _ & EB & _). rewrite EB.
    rewrite (n_next _ _ _ _ _ _ _ _ _ _ _ _ _ _ H2). split; [|lia].
    intros c b HC. rewrite dget_app. rewrite (extends_setdefault _ _ _ _ HC). auto.
  - rewrite called_blocks, called_next. cbn. split; [apply extends_refl|lia].
Qed.

(** Repos that an operation does not touch stay as they are. *)
Lemma effect_untouched st refs bk op st' refs' out d o : inv st refs bk -> effect st refs bk op st' refs' out ->
  (be = Memory -> clean_step (World st refs) op out) -> dget d bk <> None -> stored_repo st d = Some o ->
  ~ touches be (World st refs) op out d -> exists o', stored_repo st' d = Some o' /\ same_repo o o'.
Proof.
  intros I E CL DB HS NT. pose proof (effect_extends _ _ _ _ _ _ _ I E) as [EX _].
  assert (K : stored_repo st' d = Some o -> exists o', stored_repo st' d = Some o' /\ same_repo o o').
  { intros X. exists o. split; auto using same_repo_refl. }
  destruct E.
  - auto.
  - apply K. destruct (loaded_facts be _ _ _ _ _ H H2) as (F1 & F2 & F3 & F4 & F5 & F6 & F7 & F8 & F9).
    eapply stored_same; eauto.
    + intros BE r' D. rewrite F4. split; auto. unfold RepoProofs.stored_repo in HS. rewrite BE, D in HS. rewrite HS. auto.
    + intros _. rewrite F5. auto.
  - apply K. eapply stored_same; eauto.
    intros BE r' D. split; auto. unfold RepoProofs.stored_repo in HS. rewrite BE, D in HS. rewrite HS. cbn. apply nth_app_some. auto.
  - clear - H0 HS. unfold RepoProofs.stored_repo in *. destruct be.
    + cbn [s_mem s_objs upd set_objs]. destruct (dget d (s_mem st)) as [r|]; [|discriminate].
      destruct (Nat.eq_dec r0 r) as [->|NE].
      * exists (with_callback x o0). replace o with o0 by congruence. split; [eapply nth_replace_same; eauto|].
        unfold same_repo. auto 6.
      * exists o. rewrite nth_replace_other by auto. split; auto using same_repo_refl.
    + exists o. cbn [s_ents s_blocks upd set_objs]. split; auto using same_repo_refl.
  - apply K. eapply stored_same; eauto.
    + intros BE r' D. rewrite called_mem, called_objs. auto.
    + intros _. rewrite called_ents. auto.
  - apply K. eapply committed_other; eauto.
    + eapply nth_error_In; eauto.
    + intros ->. apply NT. cbn. eapply committed_did; eauto.
  - apply K. rename o1 into oo.
    destruct (failed_inv digest kdigest validate ecdsa be st refs bk did oo st1 r m' o0 (CLost (s_next st)) I H5 H6)
      as (_ & _ & F2 & F3 & F4 & F5 & _).
    { intros BE. specialize (CL BE). cbn [clean_step] in CL.
      destruct CL as [(ob & x & HOB & SX)|(A & B)]; [|exact (H8 A B)].
      unfold handle_obj in HOB. cbn [w_refs w_state] in HOB. rewrite H, H0 in HOB. injection HOB as <-. congruence. }
    eapply stored_same; eauto.
    + intros BE r' D. rewrite F3. split; auto. unfold RepoProofs.stored_repo in HS. rewrite BE, D in HS. rewrite HS. auto.
    + intros _. rewrite F4. auto.
  - apply K.
    destruct (status_facts digest kdigest validate ecdsa be st refs bk r0 o0 did key recs x I H1 H2 H3)
      as (I1 & N1 & B1 & C1 & M1 & O1 & OO & AT & NA & OTH).
    assert (HD : handle_did (World st refs) h = Some did) by (eapply good_handle_did; eauto).
    assert (X : stored_repo (status_set be st r0 o0 did x) d = Some o).
    { destruct (str_eqb_spec d did) as [->|NE]; [|auto]. rewrite NA; auto.
      intros A. apply NT. assert (AR : attached_ref be (World st refs) did h).
      { intros BE. exists r0. cbn. split; auto. }
      destruct op; try discriminate H; injection H as <- <- <- <-; cbn; auto. }
    destruct (after_event_facts (status_set be st r0 o0 did x) (with_status x o0) (event_block digest now did type (s_next st) extra))
      as (E1 & E2 & E3 & E4 & E5 & E6).
    eapply stored_same; eauto.
    + rewrite E2. intros c b HC. rewrite dget_app, HC. auto.
    + intros BE r' D. rewrite E4, E3. auto.
    + intros _. rewrite E5. auto.
  - apply K. cbn [touches] in NT.
    eapply stored_same; eauto.
    + intros BE r' D. rewrite (n_mem _ _ _ _ _ _ _ _ _ _ _ _ _ _ H2), (n_objs _ _ _ _ _ _ _ _ _ _ _ _ _ _ H2).
      unfold RepoProofs.stored_repo in HS. rewrite BE in *. rewrite D in HS. rewrite dget_dset.
      destruct (str_eqb_spec d did); [congruence|]. split; auto. rewrite HS. apply nth_app_some. auto.
    + intros BE. rewrite (n_ents _ _ _ _ _ _ _ _ _ _ _ _ _ _ H2), BE. rewrite ent_put_get.
      * destruct (str_eqb_spec d did); congruence.
      * exact (i_ents _ _ _ _ _ _ _ _ I).
  - apply K. eapply stored_same; eauto.
    + intros BE r' D. rewrite called_mem, called_objs. cbn. split; auto.
      unfold RepoProofs.stored_repo in HS. rewrite BE, D in HS. rewrite HS. apply nth_app_some. auto.
    + intros _. rewrite called_ents. auto.
Qed.

Lemma good_repo_did bl did key recs o : good bl did key recs o -> repo_did o = Ok (Some did).
Proof. intros G. destruct (good_head _ _ _ _ _ _ _ _ _ G) as (hd & HH & HD). unfold repo_did. rewrite HH, HD. reflexivity. Qed.

(** What becomes of the objects behind the caller's references. *)
Lemma effect_obj st refs bk op st' refs' out r o : inv st refs bk -> effect st refs bk op st' refs' out ->
  (be = Memory -> clean_step (World st refs) op out) -> In r refs -> nth_error (s_objs st) r = Some o ->
  exists o', nth_error (s_objs st') r = Some o' /\ repo_did o' = repo_did o /\ r_handle o' = r_handle o /\ r_key o' = r_key o /\
    (r_status o' = r_status o \/ exists h x t e, status_op op = Some (h, x, t, e) /\ nth_error refs h = Some r /\ r_status o' = x) /\
    (r_head o' = r_head o /\ r_mst o' = r_mst o \/ exists h ws cd did, op = SCommit h ws /\ out = Ok (OutCommit cd) /\
       repo_did o = Ok (Some did) /\ commit_did cd = did).
Proof.
  intros I E CL IR HO.
  assert (K : nth_error (s_objs st') r = Some o -> exists o', nth_error (s_objs st') r = Some o' /\ repo_did o' = repo_did o /\
    r_handle o' = r_handle o /\ r_key o' = r_key o /\
    (r_status o' = r_status o \/ exists h x t e, status_op op = Some (h, x, t, e) /\ nth_error refs h = Some r /\ r_status o' = x) /\
    (r_head o' = r_head o /\ r_mst o' = r_mst o \/ exists h ws cd did, op = SCommit h ws /\ out = Ok (OutCommit cd) /\
       repo_did o = Ok (Some did) /\ commit_did cd = did)).
  { intros X. exists o. splits; auto. }
  destruct E.
  - auto.
  - apply K. destruct (loaded_facts be _ _ _ _ _ H H2) as (F1 & F2 & F3 & F4 & F5 & F6 & F7 & F8 & F9). auto.
  - apply K. cbn. apply nth_app_some. auto.
  - cbn [upd set_objs s_objs] in *. destruct (Nat.eq_dec r0 r) as [->|NE].
    + replace o0 with o in * by congruence. exists (with_callback x o). splits; auto. eapply nth_replace_same; eauto.
    + apply K. rewrite nth_replace_other by auto. auto.
  - apply K. rewrite called_objs. auto.
  - pose proof (committed_did _ _ _ _ _ _ _ _ _ H5) as CD.
    destruct (c_objs _ _ _ _ _ _ _ _ _ _ _ _ _ _ H5) as (so & root & m' & HS & SN & CH & N0 & MS).
    pose proof (chain_did _ _ _ _ _ _ _ _ _ _ CH) as HD.
    assert (REP : forall x, repo_did (with_head (Some (cd_commit cd)) (with_mst m' x)) = Ok (Some did)).
    { intros x. unfold repo_did. cbn [r_head with_head]. rewrite HD. reflexivity. }
    destruct (Nat.eq_dec r r0) as [->|NE].
    + replace o0 with o in * by congruence. rewrite N0. eexists. split; [reflexivity|].
      rewrite REP, (good_repo_did _ _ _ _ _ H1). splits; auto. right. exists h, ws, cd, did. auto.
    + assert (DEC : (be = Memory -> dget did (s_mem st) <> Some r) \/ (be = Memory /\ dget did (s_mem st) = Some r)).
      { destruct be; [|left; discriminate]. destruct (dget did (s_mem st)) as [x|]; [|left; congruence].
        destruct (Nat.eq_dec x r) as [->|]; [right; auto|left; congruence]. }
      destruct DEC as [D|[BE D]].
      * apply K. apply (c_other _ _ _ _ _ _ _ _ _ _ _ _ _ _ H5); auto.
      * rewrite BE in MS. unfold RepoProofs.stored_repo in HS, MS. rewrite BE in HS. rewrite D in HS.
        rewrite (proj2 (c_mem _ _ _ _ _ _ _ _ _ _ _ _ _ _ H5)), D in MS. replace so with o in * by congruence.
        rewrite MS. eexists. split; [reflexivity|]. rewrite REP.
        destruct (i_book _ _ _ _ _ _ _ _ I _ _ _ H2) as (_ & _ & o' & HS' & G & _).
        unfold RepoProofs.stored_repo in HS'. rewrite BE, D in HS'. replace o' with o in * by congruence.
        rewrite (good_repo_did _ _ _ _ _ G). splits; auto. right. exists h, ws, cd, did. auto.
  - apply K. rename o1 into oo.
    destruct (failed_inv digest kdigest validate ecdsa be st refs bk did oo st1 r1 m' o0 (CLost (s_next st)) I H5 H6)
      as (_ & _ & F2 & F3 & F4 & F5 & _); auto.
    intros BE. specialize (CL BE). cbn [clean_step] in CL.
    destruct CL as [(ob & x & HOB & SX)|(A & B)]; [|exact (H8 A B)].
    unfold handle_obj in HOB. cbn [w_refs w_state] in HOB. rewrite H, H0 in HOB. injection HOB as <-. congruence.
  - destruct (status_facts digest kdigest validate ecdsa be st refs bk r0 o0 did key recs x I H1 H2 H3)
      as (I1 & N1 & B1 & C1 & M1 & O1 & OO & _).
    destruct (after_event_facts (status_set be st r0 o0 did x) (with_status x o0) (event_block digest now did type (s_next st) extra))
      as (E1 & E2 & E3 & _). rewrite E3 in *.
    destruct (Nat.eq_dec r r0) as [->|NE].
    + replace o0 with o in * by congruence. exists (with_status x o). splits; auto. right. eauto 10.
    + apply K. rewrite OO by auto. auto.
  - apply K. rewrite (n_objs _ _ _ _ _ _ _ _ _ _ _ _ _ _ H2). apply nth_app_some. auto.
  - apply K. rewrite called_objs. cbn. apply nth_app_some. auto.
Qed.

(** New references. *)
Lemma effect_new st refs bk op st' refs' out : inv st refs bk -> effect st refs bk op st' refs' out ->
  (refs' = refs /\ out <> Ok OutRepo) \/ exists r o, refs' = refs ++ [r] /\ out = Ok OutRepo /\ nth_error (s_objs st') r = Some o /\
    match op with
    | SCreate did handle _ hc key => repo_did o = Ok (Some did) /\ r_handle o = handle /\ r_status o = None /\ r_key o = key
    | SLoad x => exists did, stored_repo st did = Some o /\ repo_did o = Ok (Some did) /\ (did = x \/ r_handle o = Some x)
    | SLoadAt h key => exists r0 o0, nth_error refs h = Some r0 /\ nth_error (s_objs st) r0 = Some o0 /\
        repo_did o = repo_did o0 /\ r_head o = r_head o0 /\ r_key o = key
    | _ => False
    end.
Proof.
  intros I E. destruct E; try (left; split; [reflexivity|discriminate]).
  - left. split; auto. intros ->. destruct (H _ eq_refl) as [X _]. discriminate X.
  - right. destruct (loaded_facts be _ _ _ _ _ H H2) as (F1 & F2 & F3 & F4 & F5 & F6 & F7 & F8 & F9).
    exists r, o. splits; auto. exists did. splits; auto.
    destruct (i_book _ _ _ _ _ _ _ _ I _ _ _ H0) as (_ & _ & o' & HS & G & _). rewrite H in HS. injection HS as <-.
    eapply good_repo_did; eauto.
  - right. eexists _, _. splits; eauto. { cbn. apply nth_app_last. } exists r0, o0. splits; auto. unfold repo_did. cbn. rewrite H1. auto.
  - right. destruct (n_chain _ _ _ _ _ _ _ _ _ _ _ _ _ _ H2) as (root & CH & _).
    exists (length (s_objs st)), (first_repo digest handle has_callback key (cd_commit cd)). splits; auto.
    + rewrite (n_objs _ _ _ _ _ _ _ _ _ _ _ _ _ _ H2). apply nth_app_last.
    + unfold repo_did. cbn [first_repo r_head]. rewrite (chain_did _ _ _ _ _ _ _ _ _ _ CH). reflexivity.
Qed.

(** Status changes through a reference that the storage keeps. *)
Lemma effect_status st refs bk op st' refs' out h x type extra d o : inv st refs bk -> effect st refs bk op st' refs' out ->
  status_op op = Some (h, x, type, extra) -> out = Ok OutDone -> handle_did (World st refs) h = Some d ->
  stored_repo st d = Some o ->
  (attached_ref be (World st refs) d h -> stored_repo st' d = Some (with_status x o)) /\
  exists r o0, nth_error refs h = Some r /\ nth_error (s_objs st) r = Some o0 /\
    nth_error (s_objs st') r = Some (with_status x o0) /\ s_next st' = (s_next st + 1)%Z /\
    (let b := event_block digest now d type (s_next st) extra in
     s_blocks st' = s_blocks st ++ [(b_cid b, b)] /\ dget (b_cid b) (s_blocks st) = None /\
     s_calls st' = if r_callback o0 then CData (MEvent (b_val b)) :: s_calls st else s_calls st).
Proof.
  intros I E SO OK HD HS. destruct E; try discriminate SO; try discriminate OK.
  - subst out. destruct (H _ eq_refl) as [X _]. discriminate X.
  - assert (h0 = h /\ x0 = x /\ type0 = type /\ extra0 = extra) as (-> & -> & -> & ->) by (splits; congruence).
    assert (did = d) as ->.
    { pose proof (good_handle_did (World st refs) h r0 o0 _ _ _ _ H0 H1 H2). congruence. }
    destruct (status_facts digest kdigest validate ecdsa be st refs bk r0 o0 d key recs x I H1 H2 H3)
      as (I1 & N1 & B1 & C1 & M1 & O1 & OO & AT & _).
    destruct (after_event_facts (status_set be st r0 o0 d x) (with_status x o0) (event_block digest now d type (s_next st) extra))
      as (E1 & E2 & E3 & E4 & E5 & E6). split.
    + intros A. assert (A' : attached be st d r0).
      { intros BE. destruct (A BE) as (r & A1 & A2). cbn in A1, A2. congruence. }
      specialize (AT A'). rewrite HS in AT. cbn [option_map] in AT. eapply stored_same; eauto.
      * rewrite E2. intros c b HC. rewrite dget_app, HC. auto.
      * intros BE r' D. rewrite E4, E3. auto.
      * intros _. rewrite E5. auto.
    + exists r0, o0. rewrite E1, E2, E3, E6, N1, B1, C1. splits; auto.
Qed.

Lemma effect_commit st refs bk h ws st' refs' cd : inv st refs bk ->
  effect st refs bk (SCommit h ws) st' refs' (Ok (OutCommit cd)) ->
  exists r0 o0 did key0 recs0 key recs, nth_error refs h = Some r0 /\ nth_error (s_objs st) r0 = Some o0 /\
    good (s_blocks st) did key0 recs0 o0 /\ dget did bk = Some (key, recs) /\ r_status o0 = None /\
    commit_possible validate recs ws (s_next st) /\ committed st st' r0 o0 did key recs ws cd /\ refs' = refs.
Proof.
  intros I E. inversion E; subst; eauto 20.
  destruct (H _ eq_refl) as [X _]. discriminate X.
Qed.

Lemma effect_create st refs bk did handle status hc key st' refs' out : inv st refs bk ->
  effect st refs bk (SCreate did handle status hc key) st' refs' (Ok out) -> exists cd, status = None /\ out = OutRepo /\
    created st st' (length (s_objs st)) did handle hc key cd /\ refs' = refs ++ [length (s_objs st)] /\
    exists o, stored_repo st' did = Some o /\ r_head o = Some (cd_commit cd) /\ r_status o = None /\ r_handle o = handle /\ r_key o = key.
Proof.
  intros I E. inversion E; subst.
  - destruct (H _ eq_refl) as (_ & ? & ?). discriminate.
  - discriminate.
  - exists cd. splits; auto. match goal with H : created _ _ _ _ _ _ _ _ |- _ => rename H into CR end.
    destruct (n_chain _ _ _ _ _ _ _ _ _ _ _ _ _ _ CR) as (root & CH & CO). clear - CR CH I. unfold RepoProofs.stored_repo.
    rewrite (n_mem _ _ _ _ _ _ _ _ _ _ _ _ _ _ CR), (n_objs _ _ _ _ _ _ _ _ _ _ _ _ _ _ CR), (n_ents _ _ _ _ _ _ _ _ _ _ _ _ _ _ CR).
    pose proof (i_ents _ _ _ _ _ _ _ _ I) as SE. destruct be.
    + rewrite dget_dset. destruct (str_eqb_spec did did); [|congruence]. rewrite nth_app_last. eexists. split; [reflexivity|]. auto.
    + rewrite ent_put_get by auto. destruct (str_eqb_spec did did); [|congruence]. cbn [e_head].
      rewrite (chain_read _ _ _ _ _ _ _ _ _ _ CH), (chain_data _ _ _ _ _ _ _ _ _ _ CH). eexists. split; [reflexivity|]. auto.
Qed.

(** ** The chain of commits *)

Notation chain := (chain digest kdigest validate ecdsa).

Inductive tchain (bl : store) (did : str) (key : N) : block -> list (commit_data * records) -> Prop :=
| t_first b root : chain bl did key b root [] -> commit_of ecdsa b did key None root -> tchain bl did key b []
| t_next cd root recs b' l : tchain bl did key b' l -> chain bl did key (cd_commit cd) root recs ->
    commit_of ecdsa (cd_commit cd) did key (Some (b_cid b')) root -> (b_seq b' < b_seq (cd_commit cd))%Z ->
    tchain bl did key (cd_commit cd) ((cd, recs) :: l).

Lemma tchain_mono bl bl' did key b l : extends bl bl' -> tchain bl did key b l -> tchain bl' did key b l.
Proof.
  intros EX. induction 1 as [b root C CO|cd root recs b' l T IH C CO LT].
  - eapply t_first; eauto. eapply chain_mono; eauto.
  - eapply t_next; eauto. eapply chain_mono; eauto.
Qed.

Lemma tchain_seq bl did key b l : tchain bl did key b l -> dget (b_cid b) bl = Some b.
Proof. destruct 1; eapply chain_read; eauto. Qed.

Definition trails (st : state) (bk : book) (tr : trail) : Prop :=
  forall did key recs, dget did bk = Some (key, recs) -> exists l o b, dget did tr = Some l /\ stored_repo st did = Some o /\
    r_head o = Some b /\ tchain (s_blocks st) did key b l /\ last_recs l = recs.

Lemma effect_trails st refs bk op st' refs' out tr : inv st refs bk -> effect st refs bk op st' refs' out ->
  (be = Memory -> clean_step (World st refs) op out) -> trails st bk tr ->
  trails st' (book_step bk op out) (trail_step tr op out).
Proof.
  intros I E CL T did key recs HB. pose proof (effect_extends _ _ _ _ _ _ _ I E) as [EX _].
  assert (KEEP : ~ touches be (World st refs) op out did -> dget did bk = Some (key, recs) ->
    dget did (trail_step tr op out) = dget did tr -> exists l o b, dget did (trail_step tr op out) = Some l /\ stored_repo st' did = Some o /\
    r_head o = Some b /\ tchain (s_blocks st') did key b l /\ last_recs l = recs).
  { intros NT B ET. destruct (T _ _ _ B) as (l & o & b & A1 & A2 & A3 & A4 & A5).
    destruct (effect_untouched _ _ _ _ _ _ _ did o I E CL) as (o' & HS' & SR & _); auto; [congruence|].
    exists l, o', b. splits; auto; try congruence. eapply tchain_mono; eauto. }
  assert (STAT : forall h x type extra, status_op op = Some (h, x, type, extra) -> dget did bk = Some (key, recs) ->
    dget did (trail_step tr op out) = dget did tr -> exists l o b, dget did (trail_step tr op out) = Some l /\ stored_repo st' did = Some o /\
    r_head o = Some b /\ tchain (s_blocks st') did key b l /\ last_recs l = recs).
  { intros h x type extra SO B ET. destruct out as [[]|].
    1,2,4,5: apply KEEP; auto; intros TT.
    - inversion E; subst; try discriminate SO. destruct (H _ eq_refl) as [X _]. discriminate X.
    - inversion E; subst; try discriminate SO. destruct (H _ eq_refl) as [_ [? ?]]. subst. discriminate SO.
    - inversion E; subst; try discriminate SO. destruct (H _ eq_refl) as [X _]. discriminate X.
    - destruct op; try discriminate SO; destruct TT.
    - destruct (T _ _ _ B) as (l & o & b & A1 & A2 & A3 & A4 & A5).
      destruct (handle_did (World st refs) h) as [d|] eqn:HD.
      + destruct (str_eqb_spec d did) as [ED|NE].
        * subst d. destruct (effect_status _ _ _ _ _ _ _ _ _ _ _ _ _ I E SO eq_refl HD A2) as (AT & _).
          assert (DEC : attached_ref be (World st refs) did h \/ ~ attached_ref be (World st refs) did h).
          { unfold attached_ref. cbn. destruct be; [|left; discriminate]. destruct (nth_error refs h) as [r|].
            - destruct (dget did (s_mem st)) as [r'|].
              + destruct (Nat.eq_dec r r') as [->|NE]; [left; eauto|]. right. intros X. destruct (X eq_refl) as (? & ? & ?). congruence.
              + right. intros X. destruct (X eq_refl) as (? & ? & ?). congruence.
            - right. intros X. destruct (X eq_refl) as (? & ? & ?). congruence. }
          destruct DEC as [A|NA].
          -- exists l, (with_status x o), b. rewrite ET. splits; auto. eapply tchain_mono; eauto.
          -- apply KEEP; auto. intros TT. apply NA. destruct op; try discriminate SO; injection SO as <- <- <- <-; apply TT.
        * apply KEEP; auto. intros TT. destruct op; try discriminate SO; injection SO as <- <- <- <-; destruct TT; congruence.
      + apply KEEP; auto. intros TT. destruct op; try discriminate SO; injection SO as <- <- <- <-; destruct TT; congruence. }
  destruct op as [did' handle status hc key'|x|h k|h x|h ws|h|h|h].
  - destruct out as [out|e]; [|apply KEEP; auto].
    cbn [book_step trail_step touches] in *.
    assert (DS : forall A k (v : A) d, dget did (dset k v d) = if str_eqb did k then Some v else dget did d).
    { intros. apply dget_dset. }
    rewrite (DS (N * records)%type) in HB. rewrite (DS (list (commit_data * records))) in KEEP |- *.
    destruct (str_eqb_spec did did') as [ED|NE].
    + subst did'. injection HB as <- <-.
      destruct (effect_create _ _ _ _ _ _ _ _ _ _ _ I E) as (cd & _ & _ & CR & _ & o & HS & HH & _).
      destruct (n_chain _ _ _ _ _ _ _ _ _ _ _ _ _ _ CR) as (root & CH & CO).
      exists [], o, (cd_commit cd). splits; auto. eapply t_first; eauto.
    + apply KEEP; auto.
  - apply KEEP; auto.
  - apply KEEP; auto.
  - apply KEEP; auto.
  - destruct out as [[| | |cd]|e]; try (apply KEEP; auto; fail).
    cbn [book_step trail_step touches] in *.
    destruct (effect_commit _ _ _ _ _ _ _ _ I E) as (r0 & o0 & did' & key0 & recs0 & key1 & recs1 & HR & HO & G & B1 & ST & CP & C & _).
    pose proof (committed_did _ _ _ _ _ _ _ _ _ C) as CD. rewrite CD in *. rewrite B1 in HB.
    destruct (T _ _ _ B1) as (l & o & b & A1 & A2 & A3 & A4 & A5). rewrite A1 in KEEP |- *.
    assert (DS : forall A k (v : A) d, dget did (dset k v d) = if str_eqb did k then Some v else dget did d).
    { intros. apply dget_dset. }
    rewrite (DS (N * records)%type) in HB. rewrite (DS (list (commit_data * records))) in KEEP |- *.
    destruct (str_eqb_spec did did') as [ED|NE].
    + rewrite <- ED in *. clear did' ED. injection HB as <- <-.
      destruct (c_objs _ _ _ _ _ _ _ _ _ _ _ _ _ _ C) as (so & root & m' & HS & SN & CH & N0 & MS).
      destruct (c_prev _ _ _ _ _ _ _ _ _ _ _ _ _ _ C) as (o2 & hb & HS2 & HH & _ & root2 & CO).
      replace o2 with o in * by congruence. replace hb with b in * by congruence.
      assert (root2 = root) as ->.
      { pose proof (commit_of_data _ _ _ _ _ _ CO) as X. pose proof (chain_data _ _ _ _ _ _ _ _ _ _ CH) as Y. congruence. }
      assert (LT : (b_seq b < b_seq (cd_commit cd))%Z).
      { rewrite (c_seq _ _ _ _ _ _ _ _ _ _ _ _ _ _ C).
        destruct (so_block _ _ _ _ (i_store _ _ _ _ _ _ _ _ I) _ _ (tchain_seq _ _ _ _ _ A4)) as (_ & _ & X & _). lia. }
      assert (TC : tchain (s_blocks st') did key1 (cd_commit cd) ((cd, apply_writes (last_recs l) ws) :: l)).
      { rewrite A5. exact (t_next _ _ _ _ _ _ _ _ (tchain_mono _ _ _ _ _ _ EX A4) CH CO LT). }
      destruct be.
      * eexists _, _, _. splits; [reflexivity|exact MS|reflexivity|exact TC|]. cbn. rewrite A5. auto.
      * eexists _, _, _. splits; [reflexivity|exact MS|reflexivity|exact TC|]. cbn. rewrite A5. auto.
    + apply KEEP; auto.
  - eapply STAT; reflexivity || auto.
  - eapply STAT; reflexivity || auto.
  - eapply STAT; reflexivity || auto.
Qed.

End Steps.
