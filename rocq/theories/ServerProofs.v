(** Requests on a storage. *)
From Coq Require Import String List NArith ZArith Bool Lia Sorted.
From Coq Require Import ZifyBool ZifyNat ZifyN.
From Verif Require Import Base Lists Ipld IpldProofs MstModel MstTree MstTreeProofs MstRep MstTrav
  MstClient MstSpec MstHist MstFacts TidModel TidProofs BlockModel BlockSpec BlockProofs
  CarModel StorageModel StorageSpec CommitProofs StoreProofs ExecProofs RepoSpec RepoProofs RepoHist RepoSteps RepoFacts
  UriModel EventsModel ServerModel ServerSpec.
Import ListNotations.

Section Server.
Variable digest : list N -> list N.
Variable kdigest : str -> list N.
Variable validate : ipld -> res unit.
Variable ecdsa : N -> Z -> list N -> list N.
Variable now : Z -> str.
Variable cb : nat -> option exn.
Variable be : backend.
Variable netloc_ok : str -> bool.
Variable cfg : config.
Notation rcid := (rcid digest).
Notation cids_of := (cids_of digest).
Notation inv := (inv digest kdigest validate ecdsa be).
Notation good := (good digest kdigest validate ecdsa).
Notation committed := (committed digest kdigest validate ecdsa be).
Notation stored_repo := (stored_repo be).
Notation loaded := (loaded be).
Notation effect := (effect digest kdigest validate ecdsa now be).
Notation server_load := (server_load be netloc_ok).
Notation commit := (commit digest kdigest validate ecdsa cb be).
Notation repo_name := (repo_name netloc_ok).
Notation names := (names be netloc_ok).
Notation named_did := (named_did be netloc_ok).
Hypothesis SET : setting digest kdigest validate cb.

(** ** Statuses *)

Definition status_ok (x : option str) : Prop := x = None \/ x = Some (s "deactivated") \/ x = Some (s "tombstoned").
Definition statuses (st : state) (bk : book) : Prop :=
  forall did o, dget did bk <> None -> stored_repo st did = Some o -> status_ok (r_status o).

Lemma attached_dec w did h : attached_ref be w did h \/ ~ attached_ref be w did h.
Proof.
  unfold attached_ref. destruct be; [|left; discriminate].
  destruct (dget did (s_mem (w_state w))) as [r|] eqn:E.
  - destruct (nth_error (w_refs w) h) as [r'|] eqn:E2.
    + destruct (Nat.eq_dec r r') as [->|NE]; [left; eauto|right]. intros X. destruct (X eq_refl) as (r2 & A & B). congruence.
    + right. intros X. destruct (X eq_refl) as (r2 & A & B). discriminate.
  - right. intros X. destruct (X eq_refl) as (r2 & A & B). discriminate.
Qed.

Lemma book_step_other bk op out d : (forall w, ~ touches be w op out d) -> dget d (book_step bk op out) = dget d bk.
Proof.
  intros NT. specialize (NT init_world). unfold book_step. destruct op; auto.
  - destruct out; auto. cbn in NT. rewrite dget_dset. destruct (str_eqb_spec d did); congruence.
  - destruct out as [[]|]; auto. cbn in NT. destruct (dget (commit_did cd) bk) as [[k r]|]; auto.
    rewrite dget_dset. destruct (str_eqb_spec d (commit_did cd)); congruence.
Qed.

Lemma book_keeps bk op out d : dget d (book_step bk op out) <> None -> dget d bk <> None \/ exists h c k st, op = SCreate d h st c k /\ exists x, out = Ok x.
Proof.
  unfold book_step. destruct op; auto.
  - destruct out; auto. rewrite dget_dset. destruct (str_eqb_spec d did) as [->|]; auto. right. eauto 10.
  - destruct out as [[]|]; auto. destruct (dget (commit_did cd) bk) as [[k r]|] eqn:B; auto.
    rewrite dget_dset. destruct (str_eqb_spec d (commit_did cd)) as [->|]; auto. left. congruence.
Qed.

Lemma effect_statuses st refs bk op st' refs' out : inv st refs bk -> effect st refs bk op st' refs' out ->
  (be = Memory -> clean_step (World st refs) op out) -> statuses st bk -> statuses st' (book_step bk op out).
Proof.
  intros I E CL H d o D HS.
  assert (UN : ~ touches be (World st refs) op out d -> dget d bk <> None -> status_ok (r_status o)).
  { intros NT DB. destruct (dget d bk) as [[key recs]|] eqn:B; [|congruence].
    destruct (i_book _ _ _ _ _ _ _ _ I _ _ _ B) as (_ & _ & o1 & HS1 & _).
    destruct (effect_untouched digest kdigest validate ecdsa now be _ _ _ _ _ _ _ d o1 I E CL ltac:(congruence) HS1 NT) as (o2 & HS2 & SR).
    rewrite HS in HS2. injection HS2 as <-. rewrite (proj1 (proj2 (proj2 SR))). apply (H d o1); congruence. }
  assert (ST : forall h x t e, status_op op = Some (h, x, t, e) -> status_ok x).
  { destruct op; try discriminate; intros ? ? ? ? [= <- <- <- <-]; unfold status_ok; auto. }
  assert (STAT : forall h x t e, status_op op = Some (h, x, t, e) -> out = Ok OutDone -> dget d bk <> None ->
    (touches be (World st refs) op out d <-> handle_did (World st refs) h = Some d /\ attached_ref be (World st refs) d h) -> status_ok (r_status o)).
  { intros h x t e SO -> DB TI. destruct (handle_did (World st refs) h) as [d'|] eqn:HD.
    2:{ apply UN; auto. rewrite TI. intros [X _]. discriminate X. }
    destruct (str_eqb_spec d' d) as [->|NE].
    2:{ apply UN; auto. rewrite TI. intros [X _]. congruence. }
    destruct (attached_dec (World st refs) d h) as [A|A]; [|apply UN; auto; rewrite TI; tauto].
    destruct (dget d bk) as [[key recs]|] eqn:B; [|congruence].
    destruct (i_book _ _ _ _ _ _ _ _ I _ _ _ B) as (_ & _ & o1 & HS1 & _).
    destruct (effect_status digest kdigest validate ecdsa now be _ _ _ _ _ _ _ _ _ _ _ d o1 I E SO eq_refl HD HS1) as (X & _).
    rewrite (X A) in HS. injection HS as <-. cbn. eauto. }
  destruct op as [did handle status hc key|x|h key|h x|h ws|h|h|h].
  - destruct out as [x|e].
    + destruct (str_eqb_spec did d) as [->|NE].
      * destruct (effect_create digest kdigest validate ecdsa now be _ _ _ _ _ _ _ _ _ _ _ I E) as (cd & _ & _ & _ & _ & o2 & S2 & _ & X & _).
        rewrite HS in S2. injection S2 as <-. left. auto.
      * apply UN; [exact NE|]. cbn [book_step] in D. rewrite dget_dset in D. destruct (str_eqb_spec d did); congruence.
    + apply UN; auto.
  - apply UN; auto.
  - apply UN; auto.
  - apply UN; auto.
  - destruct out as [[| | |cd]|e]; try (apply UN; [cbn; auto|exact D]).
    destruct (effect_commit digest kdigest validate ecdsa now be _ _ _ _ _ _ _ _ I E) as (r0 & o0 & did & k0 & rc0 & k & rc & H1 & H2 & H3 & H4 & H5 & H6 & H7 & _).
    pose proof (committed_did digest kdigest validate ecdsa be _ _ _ _ _ _ _ _ _ H7) as CD.
    destruct (str_eqb_spec did d) as [->|NE].
    + destruct (c_objs _ _ _ _ _ _ _ _ _ _ _ _ _ _ H7) as (so & root & m' & HS0 & _ & _ & _ & MS).
      assert (X : r_status o = r_status so).
      { clear - MS HS. destruct be; rewrite HS in MS; injection MS as ->; reflexivity. }
      rewrite X. apply (H d so); congruence.
    + apply UN; [cbn; congruence|]. cbn [book_step] in D. rewrite CD in D. rewrite H4 in D. rewrite dget_dset in D. destruct (str_eqb_spec d did); congruence.
  - destruct out as [[| | |cd]|e]; try solve [apply UN; [cbn; auto|exact D]];
    try (inversion E; subst; match goal with X : forall v, Ok _ = Ok v -> _ |- _ => destruct (X _ eq_refl) as [Y (? & ?)]; discriminate end).
    exact (STAT _ _ _ _ eq_refl eq_refl D (iff_refl _)).
  - destruct out as [[| | |cd]|e]; try solve [apply UN; [cbn; auto|exact D]];
    try (inversion E; subst; match goal with X : forall v, Ok _ = Ok v -> _ |- _ => destruct (X _ eq_refl) as [Y (? & ?)]; discriminate end).
    exact (STAT _ _ _ _ eq_refl eq_refl D (iff_refl _)).
  - destruct out as [[| | |cd]|e]; try solve [apply UN; [cbn; auto|exact D]];
    try (inversion E; subst; match goal with X : forall v, Ok _ = Ok v -> _ |- _ => destruct (X _ eq_refl) as [Y (? & ?)]; discriminate end).
    exact (STAT _ _ _ _ eq_refl eq_refl D (iff_refl _)).
Qed.

(** ** Steps *)

(** Requests load repos and commit to them. *)
Definition mild (op : sop) : Prop := match op with SLoad _ | SCommit _ _ => True | _ => False end.

Inductive steps : state -> list nat -> book -> state -> list nat -> book -> Prop :=
| steps_none st refs bk : steps st refs bk st refs bk
| steps_more st refs bk op st1 refs1 out st2 refs2 bk2 : inv st refs bk -> mild op -> effect st refs bk op st1 refs1 out ->
    (be = Memory -> clean_step (World st refs) op out) -> steps st1 refs1 (book_step bk op out) st2 refs2 bk2 ->
    steps st refs bk st2 refs2 bk2.

Lemma steps_trans st refs bk st1 refs1 bk1 st2 refs2 bk2 : steps st refs bk st1 refs1 bk1 -> steps st1 refs1 bk1 st2 refs2 bk2 ->
  steps st refs bk st2 refs2 bk2.
Proof. induction 1; auto. intros X. eapply steps_more; eauto. Qed.

Lemma steps_one st refs bk op st1 refs1 out : inv st refs bk -> mild op -> effect st refs bk op st1 refs1 out ->
  (be = Memory -> clean_step (World st refs) op out) -> steps st refs bk st1 refs1 (book_step bk op out).
Proof. intros. eapply steps_more; eauto. apply steps_none. Qed.

Lemma step_inv st refs bk op st1 refs1 out : inv st refs bk -> op_named op -> effect st refs bk op st1 refs1 out ->
  (be = Memory -> clean_step (World st refs) op out) -> inv st1 refs1 (book_step bk op out).
Proof.
  intros. eapply (effect_inv digest kdigest validate ecdsa now cb be (s_klen _ _ _ _ SET) (s_inj _ _ _ _ SET) (s_quiet _ _ _ _ SET)); eauto.
Qed.

Lemma mild_named op : mild op -> op_named op.
Proof. clear. destruct op; cbn; tauto. Qed.

Lemma steps_inv st refs bk st1 refs1 bk1 : steps st refs bk st1 refs1 bk1 -> inv st refs bk -> inv st1 refs1 bk1.
Proof. induction 1; auto. intros I. apply IHsteps. eapply step_inv; eauto using mild_named. Qed.

(** Anything that operations keep, requests keep. *)
Lemma steps_keep (P : state -> book -> Prop) :
  (forall st refs bk op st1 refs1 out, inv st refs bk -> mild op -> effect st refs bk op st1 refs1 out ->
     (be = Memory -> clean_step (World st refs) op out) -> P st bk -> P st1 (book_step bk op out)) ->
  forall st refs bk st1 refs1 bk1, steps st refs bk st1 refs1 bk1 -> P st bk -> P st1 bk1.
Proof. intros K. induction 1; auto. intros X. apply IHsteps. eapply K; eauto. Qed.

Lemma steps_statuses st refs bk st1 refs1 bk1 : steps st refs bk st1 refs1 bk1 -> statuses st bk -> statuses st1 bk1.
Proof. apply (steps_keep statuses). intros. eapply effect_statuses; eauto. Qed.

(** Requests do not change whether a repo is active, nor its handle. *)
Definition kept (st st' : state) (bk : book) : Prop := forall did o, dget did bk <> None -> stored_repo st did = Some o ->
  exists o', stored_repo st' did = Some o' /\ r_status o' = r_status o /\ r_handle o' = r_handle o.

Lemma effect_kept st refs bk op st1 refs1 out : inv st refs bk -> mild op -> effect st refs bk op st1 refs1 out ->
  (be = Memory -> clean_step (World st refs) op out) -> kept st st1 bk.
Proof.
  intros I MI E CL d o D HS.
  assert (UN : ~ touches be (World st refs) op out d -> exists o', stored_repo st1 d = Some o' /\ r_status o' = r_status o /\ r_handle o' = r_handle o).
  { intros NT. destruct (effect_untouched digest kdigest validate ecdsa now be _ _ _ _ _ _ _ d o I E CL D HS NT) as (o2 & HS2 & _ & _ & A & B & _). eauto. }
  destruct op as [did handle status hc key|x|h key|h x|h ws|h|h|h]; try contradiction; [apply UN; auto|].
  destruct out as [[| | |cd]|e]; try (apply UN; cbn; auto; fail).
  destruct (effect_commit digest kdigest validate ecdsa now be _ _ _ _ _ _ _ _ I E) as (r0 & o0 & did & k0 & rc0 & k & rc & H1 & H2 & H3 & H4 & H5 & H6 & H7 & _).
  pose proof (committed_did digest kdigest validate ecdsa be _ _ _ _ _ _ _ _ _ H7) as CD.
  destruct (str_eqb_spec did d) as [->|NE]; [|apply UN; cbn; congruence].
  destruct (c_objs _ _ _ _ _ _ _ _ _ _ _ _ _ _ H7) as (so & root & m' & HS0 & _ & _ & _ & MS). rewrite HS in HS0. injection HS0 as <-.
  clear - MS. destruct be; (eexists; split; [exact MS|auto]).
Qed.

Lemma book_mild bk op out d : mild op -> dget d bk <> None -> dget d (book_step bk op out) <> None.
Proof.
  clear. unfold book_step. destruct op; try contradiction; auto. destruct out as [[]|]; auto. intros _ D.
  destruct (dget (commit_did cd) bk) as [[k r]|] eqn:B; auto. rewrite dget_dset. destruct (str_eqb_spec d (commit_did cd)); congruence.
Qed.

Lemma steps_kept st refs bk st1 refs1 bk1 : steps st refs bk st1 refs1 bk1 -> kept st st1 bk.
Proof.
  induction 1 as [|st refs bk op st1 refs1 out st2 refs2 bk2 I MI E CL S IH].
  - intros did o _ HS. eauto.
  - intros did o D HS. destruct (effect_kept _ _ _ _ _ _ _ I MI E CL did o D HS) as (o1 & H1 & A1 & B1).
    destruct (IH did o1 (book_mild _ _ _ _ MI D) H1) as (o2 & H2 & A2 & B2). exists o2. split; auto. split; congruence.
Qed.

Lemma inv_weaken st refs refs' bk : incl refs refs' -> inv st refs' bk -> inv st refs bk.
Proof. intros IN [I1 I2 I3 I4 I5 I6 I7]. split; auto. Qed.

(** ** Loading *)

Lemma load_effect st refs bk y did key recs o st1 r : inv st refs bk -> stored_repo st did = Some o -> dget did bk = Some (key, recs) ->
  (did = y \/ r_handle o = Some y) -> loaded st did o st1 r -> steps st refs bk st1 (refs ++ [r]) bk.
Proof.
  intros I HS B D L. apply (steps_one _ _ _ (SLoad y) st1 (refs ++ [r]) (Ok OutRepo)); auto; [exact Logic.I| |].
  - eapply ef_load; eauto.
  - intros _. exact Logic.I.
Qed.

Lemma server_load_spec st refs bk x : inv st refs bk ->
  (exists e, repo_name x = Err e /\ server_load x st = (st, Err e)) \/
  exists y, repo_name x = Ok y /\
    ((y = [] /\ server_load x st = (st, Err AssertionError) /\ seen be st y = None) \/
     (load_repo be y st = (st, Ok None) /\ server_load x st = (st, Err (XrpcError (s "RepoNotFound"))) /\ seen be st y = None) \/
     exists did o st1 r key recs, stored_repo st did = Some o /\ dget did bk = Some (key, recs) /\ (did = y \/ r_handle o = Some y) /\
       loaded st did o st1 r /\ nth_error (s_objs st1) r = Some o /\ good (s_blocks st1) did key recs o /\ seen be st y = Some o /\ repo_did o = Ok (Some did) /\
       server_load x st = (st1, match r_status o with Some (_ :: _) => Err (XrpcError (s "RepoDeactivated")) | _ => Ok r end)).
Proof.
  intros I.
  assert (SL : forall y, repo_name x = Ok y -> server_load x st = bindM (load_repo be y)
     (fun r => match r with None => throw (XrpcError (s "RepoNotFound")) | Some r => bindM (obj r) (fun o =>
        match r_status o with Some (_ :: _) => throw (XrpcError (s "RepoDeactivated")) | _ => ret r end) end) st).
  { intros y. unfold ServerSpec.repo_name, ServerModel.server_load. destruct (starts_with (s "at://") x).
    - destruct (parse_at_uri netloc_ok x) as [p|e]; [|discriminate]. cbn [bind]. intros [= <-]. reflexivity.
    - intros [= <-]. reflexivity. }
  destruct (repo_name x) as [y|e] eqn:RN.
  2:{ left. exists e. split; auto. unfold ServerSpec.repo_name in RN. unfold ServerModel.server_load.
      destruct (starts_with (s "at://") x); [|discriminate]. destruct (parse_at_uri netloc_ok x) as [p|e']; [discriminate|].
      injection RN as <-. reflexivity. }
  right. exists y. split; auto. rewrite (SL y eq_refl). unfold seen.
  destruct (load_spec digest be (s_inj _ _ _ _ SET) st y (inv_named _ _ _ _ _ _ _ _ I)) as [(-> & E)|[(E & _)|(did & o & st1 & r & HS & RG & D & L & E)]];
    rewrite E.
  - left. rewrite (bindM_err _ _ _ _ _ E). auto.
  - right. left. rewrite (bindM_ok _ _ _ _ _ E). auto.
  - right. right. destruct (dget did bk) as [[key recs]|] eqn:B; [|exfalso; exact (i_none _ _ _ _ _ _ _ _ I _ B RG)].
    destruct (loaded_facts be _ _ _ _ _ HS L) as (F1 & F2 & F3 & F4 & F5 & F6 & F7 & F8 & F9).
    destruct (i_book _ _ _ _ _ _ _ _ I _ _ _ B) as (_ & _ & o' & HS' & G & _). rewrite HS in HS'. injection HS' as <-.
    exists did, o, st1, r, key, recs. rewrite (bindM_ok _ _ _ _ _ E), (bindM_ok _ _ _ _ _ (obj_some _ _ _ F6)). rewrite F2.
    splits; auto.
    + eapply good_repo_did; eauto.
    + destruct (r_status o) as [[|]|]; reflexivity.
Qed.

(** ** One write *)

Lemma dset_id {V} k (v : V) l : dget k l = Some v -> dset k v l = l.
Proof.
  clear. induction l as [|[k' v'] l IH]; [discriminate|]. cbn [dget dset]. destruct (str_eqb_spec k k') as [->|NE]; [congruence|].
  intros H. f_equal. auto.
Qed.

Lemma commit_request st refs bk y did key recs o st1 r w : inv st refs bk -> stored_repo st did = Some o -> dget did bk = Some (key, recs) ->
  (did = y \/ r_handle o = Some y) -> loaded st did o st1 r -> nth_error (s_objs st1) r = Some o -> r_status o = None ->
  (be = Memory -> (s_next st < 2 ^ 55)%Z) ->
  (write_allowed validate recs w /\ (s_next st < 2 ^ 55)%Z /\ exists st' cd o', commit r [w] None st1 = (st', Ok cd) /\
     nth_error (s_objs st') r = Some o' /\ repo_did o' = Ok (Some did) /\
     steps st refs bk st' (refs ++ [r]) (dset did (key, apply_write recs w) bk)) \/
  (~ (write_allowed validate recs w /\ (s_next st < 2 ^ 55)%Z) /\ exists st' e, commit r [w] None st1 = (st', Err e) /\ steps st refs bk st' (refs ++ [r]) bk).
Proof.
  intros I HS B D L HO ST LIM. pose proof (load_effect _ _ _ _ _ _ _ _ _ _ I HS B D L) as S1. pose proof (steps_inv _ _ _ _ _ _ S1 I) as I1.
  destruct (loaded_facts be _ _ _ _ _ HS L) as (F1 & F2 & F3 & F4 & F5 & F6 & F7 & F8 & F9).
  destruct (i_book _ _ _ _ _ _ _ _ I _ _ _ B) as (_ & _ & o' & HS' & G & _). rewrite HS in HS'. injection HS' as <-.
  rewrite <- F2 in G.
  destruct (commit_ok digest kdigest validate ecdsa now cb be (s_klen _ _ _ _ SET) (s_inj _ _ _ _ SET) (s_plain _ _ _ _ SET) (s_quiet _ _ _ _ SET)
    st1 (refs ++ [r]) bk r o did key recs key recs [w] I1 (in_elt r refs []) HO G B ST)
    as [(CP & st' & cd & E & C)|(NC & oo & st2 & r1 & m' & e & HS2 & L2 & E & CF & KEEP)].
  - left. destruct CP as (C2 & C1 & C3). cbn [writes_allowed] in C2. rewrite F1 in C3.
    split; [tauto|]. split; [exact C3|].
    destruct (c_objs _ _ _ _ _ _ _ _ _ _ _ _ _ _ C) as (so & root & m' & _ & _ & CH & N0 & _).
    exists st', cd. eexists. split; [exact E|]. split; [exact N0|]. split.
    { unfold repo_did. cbn [r_head with_head]. rewrite (chain_did _ _ _ _ _ _ _ _ _ _ CH). reflexivity. }
    eapply steps_trans; [exact S1|].
    pose proof (steps_one st1 (refs ++ [r]) bk (SCommit (length refs) [w]) st' (refs ++ [r]) (Ok (OutCommit cd)) I1 Logic.I) as X.
    cbn [book_step] in X. rewrite (committed_did digest kdigest validate ecdsa be _ _ _ _ _ _ _ _ _ C), B in X. apply X.
    + eapply ef_commit; eauto. apply nth_app_last. split; [cbn; exact C2|]. split; [exact C1|]. rewrite F1. exact C3.
    + intros _. exact Logic.I.
  - right. split.
    { intros [A1 A2]. apply NC. split; [cbn; auto|]. split; [cbn; lia|]. rewrite F1. auto. }
    eexists _, e. split; [exact E|]. eapply steps_trans; [exact S1|].
    pose proof (steps_one st1 (refs ++ [r]) bk (SCommit (length refs) [w]) _ (refs ++ [r]) (Err e) I1 Logic.I
      (ef_failed digest kdigest validate ecdsa now be st1 (refs ++ [r]) bk (length refs) [w] r o did key recs key recs oo st2 r1 m' e (nth_app_last _ _) HO G B ST NC HS2 L2 CF KEEP)) as X.
    cbn [book_step] in X. apply X. intros BE. cbn [clean_step w_state]. right. split; [left; cbn; lia|]. rewrite F1. auto.
Qed.

(** ** Parameters *)

Lemma auth_ok header : auth cfg header = Ok tt <-> authorized cfg header.
Proof.
  clear. unfold auth, authorized. destruct (c_token cfg) as [[|t0 t]|].
  - split; [discriminate|]. intros (x & E & NE & _). congruence.
  - destruct (c_flask cfg) eqn:F; cbn [andb].
    + destruct (opt_str_eqb (s "Bearer " ++ t0 :: t) header) eqn:O; cbn [negb].
      * apply opt_str_eqb_spec in O. split; auto. intros _. exists (t0 :: t). splits; auto. discriminate.
      * split; [discriminate|]. intros (x & [= <-] & NE & H). rewrite (H eq_refl) in O.
        cbn [opt_str_eqb] in O. rewrite str_eqb_refl in O. discriminate.
    + split; auto. intros _. exists (t0 :: t). splits; auto; discriminate.
  - split; [discriminate|]. intros (x & E & _). discriminate.
Qed.

Lemma mem_str_In x l : mem_str x l = true <-> In x l.
Proof.
  clear. induction l as [|y l IH]; cbn [mem_str In]; [split; [discriminate|tauto]|].
  rewrite orb_true_iff, IH. destruct (str_eqb_spec x y); split; intros [A|A]; auto; try congruence; discriminate.
Qed.

Lemma unsupported_ok coll : unsupported cfg coll = false <-> forall c, coll = Some c -> supported cfg c.
Proof.
  clear. unfold unsupported, supported. destruct coll as [[|c0 c]|].
  - split; auto. intros _ c [= <-]. auto.
  - destruct (c_supported cfg) as [|x l] eqn:E; cbn [nonempty andb].
    { split; auto. }
    destruct (mem_str (c0 :: c) (x :: l)) eqn:M; cbn [negb].
    + split; auto. intros _ d [= <-]. right. right. apply mem_str_In. auto.
    + split; [discriminate|]. intros H. destruct (H _ eq_refl) as [A|[A|A]]; try discriminate.
      apply mem_str_In in A. congruence.
  - split; auto. discriminate.
Qed.

Lemma given_ok x : given x = true <-> exists y, x = Some y /\ y <> [].
Proof.
  clear. destruct x as [[|c y]|]; cbn [given].
  - split; [discriminate|]. intros (y & [= <-] & H). congruence.
  - split; auto. intros _. eexists. split; [reflexivity|discriminate].
  - split; [discriminate|]. intros (y & E & _). discriminate.
Qed.

Lemma validate_ok i coll : validate_input cfg i coll = Ok tt <->
  i_swap i = false /\ (exists x, i_repo i = Some x /\ x <> []) /\ (forall c, coll = Some c -> supported cfg c) /\
  (forall c, i_collection i = Some c -> supported cfg c).
Proof.
  clear. unfold validate_input. rewrite <- !unsupported_ok, <- given_ok. destruct (i_swap i); [split; [discriminate|intuition discriminate]|].
  destruct (given (i_repo i)); cbn [negb]; [|split; [discriminate|intuition discriminate]].
  destruct (unsupported cfg coll), (unsupported cfg (i_collection i)); cbn [orb]; split; try discriminate; intuition discriminate.
Qed.

Lemma res_dec {A} (r : res A) : (exists a, r = Ok a) \/ exists e, r = Err e.
Proof. clear. destruct r; eauto. Qed.

Lemma bind_lift {A B} (x : res A) (f : A -> M B) st : bindM (lift x) f st = match x with Ok a => f a st | Err e => (st, Err e) end.
Proof. reflexivity. Qed.

Lemma bind_assoc {A B C} (m : M A) (f : A -> M B) (g : B -> M C) st : bindM (bindM m f) g st = bindM m (fun a => bindM (f a) g) st.
Proof. unfold bindM. destruct (m st) as [st' [a|e]]; reflexivity. Qed.

Lemma bind_reads {A B} (f : state -> A) (g : A -> M B) st : bindM (reads f) g st = g (f st) st.
Proof. reflexivity. Qed.

(** ** The repo of a request *)

Lemma seen_same st st' y : s_mem st' = s_mem st -> s_ents st' = s_ents st -> s_blocks st' = s_blocks st ->
  (be = Memory -> s_objs st' = s_objs st) -> seen be st' y = seen be st y.
Proof.
  clear. intros EM EE EB EO. unfold seen, load_repo. destruct y as [|y0 y]; [reflexivity|]. set (x := y0 :: y) in *.
  unfold assert. cbn [nonempty x].
  rewrite !(bindM_ok (ret tt) _ _ _ tt eq_refl).
  destruct be.
  - rewrite !bind_reads. rewrite EM. specialize (EO eq_refl).
    assert (X : forall l, exists q, mem_find x l st' = (st', q) /\ mem_find x l st = (st, q)).
    { induction l as [|[d r] l IH]; cbn [mem_find]; [eexists; split; reflexivity|].
      destruct (nth_error (s_objs st) r) as [o|] eqn:NO.
      - assert (O1 : obj r st' = (st', Ok o)) by (unfold obj; rewrite EO, NO; reflexivity).
        assert (O2 : obj r st = (st, Ok o)) by (unfold obj; rewrite NO; reflexivity).
        rewrite (bindM_ok _ _ _ _ _ O1), (bindM_ok _ _ _ _ _ O2). unfold lift, bindM. destruct (repo_did o) as [a|]; [|eauto].
        destruct (opt_str_eqb x a || opt_str_eqb x (r_handle o)); [eexists; split; reflexivity|exact IH].
      - eexists. unfold bindM, obj. rewrite EO, NO. auto. }
    destruct (X (s_mem st)) as (q & -> & ->). rewrite EO. reflexivity.
  - rewrite !bind_reads. rewrite EE. destruct (ent_find x (s_ents st)) as [[d e]|]; [|reflexivity].
    unfold repo_load. unfold bindM, reads, read, lift. rewrite EB. destruct (dget (e_head e) (s_blocks st)) as [b|]; [|reflexivity].
    destruct (item_link (s "data") (b_val b)); [|reflexivity]. cbn. rewrite !nth_app_last. reflexivity.
Qed.

Lemma loaded_seen st did o st1 r y : stored_repo st did = Some o -> loaded st did o st1 r -> seen be st1 y = seen be st y.
Proof.
  clear. intros HS L. destruct (loaded_facts be _ _ _ _ _ HS L) as (F1 & F2 & F3 & F4 & F5 & _).
  apply seen_same; auto. intros BE. unfold RepoProofs.loaded in L. rewrite BE in L. destruct L as [_ ->]. reflexivity.
Qed.

Lemma names_did st x did o : names st x did o -> named_did st x = Some did.
Proof. clear. intros (y & A & B & C). unfold ServerSpec.named_did. rewrite A, B, C. reflexivity. Qed.

Lemma names_fun st x did o did' o' : names st x did o -> names st x did' o' -> did = did' /\ o = o'.
Proof. clear. intros (y & A & B & C) (y' & A' & B' & C'). split; congruence. Qed.

(** A request finds its repo active, or fails. *)
Record found (st : state) (refs : list nat) (bk : book) (x did : str) (o : repo) (st1 : state) (r : nat) (key : N) (recs : records) : Prop := {
  f_names : names st x did o;
  f_status : r_status o = None;
  f_stored : stored_repo st did = Some o;
  f_book : dget did bk = Some (key, recs);
  f_name : exists y, did = y \/ r_handle o = Some y;
  f_loaded : loaded st did o st1 r;
  f_obj : nth_error (s_objs st1) r = Some o;
  f_good : good (s_blocks st1) did key recs o;
  f_load : server_load x st = (st1, Ok r);
  f_steps : steps st refs bk st1 (refs ++ [r]) bk;
  f_same : same_storage st st1
}.

Lemma same_refl st : same_storage st st.
Proof. clear. unfold same_storage. splits; auto. Qed.

Lemma load_cases st refs bk x : inv st refs bk -> statuses st bk ->
  (exists did o st1 r key recs, found st refs bk x did o st1 r key recs) \/
  (exists e st1 extra, server_load x st = (st1, Err e) /\ steps st refs bk st1 (refs ++ extra) bk /\ same_storage st st1 /\
    (forall did o, names st x did o -> r_status o <> None)).
Proof.
  intros I ST. destruct (server_load_spec st refs bk x I) as [(e & RN & E)|(y & RN & [(-> & E & SN)|[(LD & E & SN)|
    (did & o & st1 & r & key & recs & HS & B & D & L & HO & G & SN & RD & E)]])].
  - right. exists e, st, []. rewrite app_nil_r. splits; auto using steps_none, same_refl.
    intros did o (y & RN' & _). congruence.
  - right. exists AssertionError, st, []. rewrite app_nil_r. splits; auto using steps_none, same_refl.
    intros did o (y & RN' & SN' & _). congruence.
  - right. eexists _, st, []. rewrite app_nil_r. splits; eauto using steps_none, same_refl.
    intros did o (y' & RN' & SN' & _). congruence.
  - assert (NM : names st x did o) by (exists y; auto).
    pose proof (load_effect _ _ _ _ _ _ _ _ _ _ I HS B D L) as S1.
    destruct (loaded_facts be _ _ _ _ _ HS L) as (F1 & F2 & F3 & F4 & F5 & F6 & F7 & F8 & F9).
    assert (SS : same_storage st st1) by (unfold same_storage; splits; auto).
    destruct (ST did o ltac:(congruence) HS) as [R|R].
    + left. exists did, o, st1, r, key, recs. rewrite R in E. split; eauto.
    + right. assert (E' : server_load x st = (st1, Err (XrpcError (s "RepoDeactivated")))) by (destruct R as [R|R]; rewrite R in E; exact E).
      exists (XrpcError (s "RepoDeactivated")), st1, [r]. split; [exact E'|]. split; [exact S1|]. split; [exact SS|]. intros did' o' NM'.
      destruct (names_fun _ _ _ _ _ _ NM NM') as [_ <-]. destruct R; congruence.
Qed.

(** ** Records *)

Lemma allowed_records recs ws : (forall k v, dget k recs = Some v -> record_ok validate v) -> writes_allowed validate recs ws ->
  NoDup (keys recs) -> forall k v, dget k (apply_writes recs ws) = Some v -> record_ok validate v.
Proof.
  clear. revert recs. induction ws as [|w ws IH]; intros recs H WA ND; [exact H|].
  destruct WA as [A WA]. cbn [apply_writes fold_left]. apply IH; auto.
  - intros k v HK. unfold apply_write, write_allowed in *. cbv zeta in *. set (p := record_path _ _) in *.
    destruct (w_action w).
    + destruct A as (A1 & A2 & v' & V & R). rewrite V in HK. rewrite dget_dset in HK.
      destruct (str_eqb_spec k p); [congruence|eauto].
    + destruct A as (A1 & v' & V & R). rewrite V in HK. rewrite dget_dset in HK.
      destruct (str_eqb_spec k p); [congruence|eauto].
    + rewrite dget_ddel in HK by auto. destruct (str_eqb_spec k p); [congruence|eauto].
  - unfold apply_write. cbv zeta. destruct (w_action w), (w_record w); auto using dset_NoDup, ddel_NoDup.
Qed.

Lemma chain_records bl did key b root recs : chain digest kdigest validate ecdsa bl did key b root recs ->
  forall k v, dget k recs = Some v -> record_ok validate v.
Proof.
  induction 1 as [b root H1 H2 H3 H4|b' root' recs ws b root C IH H1 H2 H3 H4 H5 H6 H7 H8].
  - discriminate.
  - eapply allowed_records; eauto. eapply (chain_keys digest kdigest validate ecdsa); eauto.
Qed.

Lemma record_norm v : record_ok validate v -> norm (norm v) = norm v /\ truthy (norm v) = true.
Proof.
  intros ((m & -> & NE) & V & _). destruct (s_plain _ _ _ _ SET _ V) as [PV _]. split; [apply norm_idem; auto|].
  rewrite norm_map. pose proof (Permutation.Permutation_length (sort_keys_perm (map norm_pair m))) as P. rewrite map_length in P.
  destruct (sort_keys (map norm_pair m)); [|reflexivity]. destruct m; [congruence|discriminate].
Qed.

Lemma good_find st did key recs o coll rkey : good (s_blocks st) did key recs o ->
  find_record kdigest o coll rkey st = (st, Ok (option_map norm (dget (record_path coll rkey) recs))).
Proof.
  intros G. unfold find_record.
  destruct (good_shows _ _ _ _ _ _ _ _ _ G) as [X _]. rewrite X. reflexivity.
Qed.

Lemma good_keys bl did key recs o : good bl did key recs o -> NoDup (keys recs) /\ (forall k, dget k recs <> None -> repo_key k) /\
  forall k v, dget k recs = Some v -> record_ok validate v.
Proof.
  intros (h & root & _ & CH & _). destruct (chain_keys _ _ _ _ _ _ _ _ _ _ CH). split; auto. split; auto. eapply chain_records; eauto.
Qed.

Lemma path_parts coll rkey : repo_key (record_path coll rkey) -> coll <> [] /\ rkey <> [].
Proof.
  clear. intros (_ & a & b & E & A & B). destruct (path_inj coll rkey a b) as [-> ->]; auto using segment_no_slash.
  split; [apply A|apply B].
Qed.

Lemma uri_ok did coll rkey : is_did did -> repo_key (record_path coll rkey) -> at_uri did coll rkey = Ok (uri_of did coll rkey).
Proof.
  clear. intros D K. apply path_parts in K as [A B]. unfold at_uri, uri_of. destruct did; [discriminate D|]. destruct coll; [congruence|].
  destruct rkey; [congruence|]. reflexivity.
Qed.

(** ** Requests *)
Notation request_ok := (request_ok validate be netloc_ok cfg).
Notation request_book := (request_book be netloc_ok).
Notation answered := (answered digest be netloc_ok).
Notation serve := (serve digest kdigest validate ecdsa cb be netloc_ok cfg).

Definition outcome (st : state) (refs : list nat) (bk : book) (q : request) (st' : state) (out : res answer) : Prop :=
  (exists extra, steps st refs bk st' (refs ++ extra) (request_book st bk q out)) /\
  ((request_ok (World st refs) bk q /\ exists a, out = Ok a /\ answered st bk q a) \/ (~ request_ok (World st refs) bk q /\ exists e, out = Err e)).

Lemma outcome_err st refs bk q st' extra e : steps st refs bk st' (refs ++ extra) bk -> ~ request_ok (World st refs) bk q ->
  outcome st refs bk q st' (Err e).
Proof. clear. intros S N. split; [exists extra; exact S|]. right. eauto. Qed.

Lemma outcome_same st refs bk q e : ~ request_ok (World st refs) bk q -> outcome st refs bk q st (Err e).
Proof. clear. intros N. apply (outcome_err _ _ _ _ _ []); auto. rewrite app_nil_r. apply steps_none. Qed.

Lemma found_name st refs bk x did o st1 r key recs : found st refs bk x did o st1 r key recs -> 
  exists y, did = y \/ r_handle o = Some y.
Proof. clear. intros F. exists did. auto. Qed.

Lemma found_commit st refs bk x did o st1 r key recs w : inv st refs bk -> found st refs bk x did o st1 r key recs ->
  (be = Memory -> (s_next st < 2 ^ 55)%Z) ->
  (write_allowed validate recs w /\ (s_next st < 2 ^ 55)%Z /\ exists st' cd o', commit r [w] None st1 = (st', Ok cd) /\
     nth_error (s_objs st') r = Some o' /\ repo_did o' = Ok (Some did) /\
     steps st refs bk st' (refs ++ [r]) (dset did (key, apply_write recs w) bk)) \/
  (~ (write_allowed validate recs w /\ (s_next st < 2 ^ 55)%Z) /\ exists st' e, commit r [w] None st1 = (st', Err e) /\ steps st refs bk st' (refs ++ [r]) bk).
Proof.
  intros I F LIM. destruct F. eapply (commit_request st refs bk did); eauto.
Qed.

Lemma bind_unit {B} (m : res unit) (g : unit -> M B) st : bindM (lift m) g st = match m with Ok tt => g tt st | Err e => (st, Err e) end.
Proof. clear. destruct m as [[]|]; reflexivity. Qed.

Lemma put_outcome st refs bk header i st' out : inv st refs bk -> statuses st bk -> (be = Memory -> (s_next st < 2 ^ 55)%Z) ->
  serve (RPut header i) st = (st', out) -> outcome st refs bk (RPut header i) st' out.
Proof.
  intros I ST LIM E. cbn [ServerSpec.serve] in E. unfold put_record in E. rewrite bind_assoc, bind_unit in E.
  destruct (validate_input cfg i None) as [[]|e] eqn:V.
  2:{ injection E as <- <-. apply outcome_same. intros (A & SW & SU & x & coll & rkey & v & did & o & key & recs & RW & NX & NM & _).
      assert (X : validate_input cfg i None = Ok tt); [|congruence]. apply validate_ok. splits; auto; [|discriminate].
      cbn [request_write] in RW. destruct (i_repo i) as [x'|]; [|discriminate]. destruct (i_collection i), (i_rkey i), (i_record i); try discriminate.
      injection RW as -> _ _ _. eauto. }
  apply validate_ok in V as (SW & (x & RX & NX) & _ & SU).
  rewrite bind_assoc, bind_unit in E. destruct (auth cfg header) as [[]|e] eqn:AU.
  2:{ injection E as <- <-. apply outcome_same. intros (A & _). apply auth_ok in A. congruence. }
  apply auth_ok in AU. rewrite RX in E. rewrite bind_assoc, bind_lift in E. cbn [arg] in E. rewrite bind_assoc in E.
  destruct (load_cases st refs bk x I ST) as [(did & o & st1 & r & key & recs & F)|(e & st1 & extra & LE & SS & _ & NN)].
  2:{ rewrite (bindM_err _ _ _ _ _ LE) in E. injection E as <- <-. eapply outcome_err; eauto.
      intros (_ & _ & _ & x' & coll & rkey & v & did & o & key & recs & RW & _ & NM & R & _). cbn [request_write] in RW. rewrite RX in RW.
      destruct (i_collection i), (i_rkey i), (i_record i); try discriminate. injection RW as <- _ _ _. exact (NN _ _ NM R). }
  rewrite (bindM_ok _ _ _ _ _ (f_load _ _ _ _ _ _ _ _ _ _ F)) in E.
  rewrite bind_assoc, bind_lift in E. destruct (i_collection i) as [coll|] eqn:CO; cbn [arg] in E.
  2:{ injection E as <- <-. eapply outcome_err; [exact (f_steps _ _ _ _ _ _ _ _ _ _ F)|].
      intros (_ & _ & _ & x' & coll & rkey & v & ? & ? & ? & ? & RW & _). cbn [request_write] in RW. rewrite RX, CO in RW. discriminate. }
  rewrite bind_assoc, bind_lift in E. destruct (i_rkey i) as [rkey|] eqn:RK; cbn [arg] in E.
  2:{ injection E as <- <-. eapply outcome_err; [exact (f_steps _ _ _ _ _ _ _ _ _ _ F)|].
      intros (_ & _ & _ & x' & ? & rkey & v & ? & ? & ? & ? & RW & _). cbn [request_write] in RW. rewrite RX, CO, RK in RW. discriminate. }
  rewrite bind_assoc, (bindM_ok _ _ _ _ _ (obj_some _ _ _ (f_obj _ _ _ _ _ _ _ _ _ _ F))) in E.
  rewrite bind_assoc, (bindM_ok _ _ _ _ _ (good_find _ _ _ _ _ coll rkey (f_good _ _ _ _ _ _ _ _ _ _ F))) in E.
  destruct (i_record i) as [v|] eqn:RE.
  2:{ injection E as <- <-. eapply outcome_err; [exact (f_steps _ _ _ _ _ _ _ _ _ _ F)|].
      intros (_ & _ & _ & x' & ? & ? & v & ? & ? & ? & ? & RW & _). cbn [request_write] in RW. rewrite RX, CO, RK, RE in RW. discriminate. }
  destruct (good_keys _ _ _ _ _ (f_good _ _ _ _ _ _ _ _ _ _ F)) as (ND & RKS & ROK).
  pose proof (names_did _ _ _ _ (f_names _ _ _ _ _ _ _ _ _ _ F)) as NDID. pose proof (f_book _ _ _ _ _ _ _ _ _ _ F) as B.
  destruct (i_book _ _ _ _ _ _ _ _ I _ _ _ B) as (ISD & _).
  set (w := Write _ coll rkey (Some v)) in E.
  assert (WA : write_allowed validate recs w <-> repo_key (record_path coll rkey) /\ record_ok validate v).
  { unfold write_allowed, w, has_record. cbn [w_action w_collection w_rkey w_record]. cbv zeta.
    destruct (dget (record_path coll rkey) recs) as [v0|] eqn:D; cbn [option_map].
    - split; [intros (_ & ? & [= <-] & R)|intros [_ R]]; split; eauto; [|congruence]. apply RKS. congruence.
    - split; [intros (K & _ & ? & [= <-] & R)|intros [K R]]; auto. splits; eauto. }
  assert (AW : apply_write recs w = dset (record_path coll rkey) v recs).
  { unfold apply_write, w. cbn [w_action w_collection w_rkey w_record]. cbv zeta. destruct (option_map norm _); reflexivity. }
  assert (RW : request_write (RPut header i) = Some (x, coll, rkey, Some v)) by (cbn [request_write]; rewrite RX, CO, RK, RE; reflexivity).
  assert (RO : request_ok (World st refs) bk (RPut header i) <-> write_allowed validate recs w /\ (s_next st < 2 ^ 55)%Z).
  { rewrite WA. unfold ServerSpec.request_ok. split.
    - intros (_ & _ & _ & x' & c' & k' & v' & did' & o' & key' & recs' & RW' & _ & NM & _ & B' & X). rewrite RW in RW'. injection RW' as <- <- <- <-.
      cbn in X. tauto.
    - intros ((K & R) & L). splits; auto. { rewrite CO. auto. } exists x, coll, rkey, (Some v), did, o, key, recs. destruct F. splits; auto. }
  rewrite bind_assoc in E.
  destruct (found_commit _ _ _ _ _ _ _ _ _ _ w I F LIM) as [(W1 & L & st2 & cd & o2 & EC & NO & RD & SS)|(NW & st2 & e & EC & SS)].
  - rewrite (bindM_ok _ _ _ _ _ EC) in E. rewrite bind_assoc, (bindM_ok _ _ _ _ _ (obj_some _ _ _ NO)) in E.
    assert (DO : did_of o2 st2 = (st2, Ok did)) by (unfold did_of, need_did, lift, bindM; rewrite RD; reflexivity).
    rewrite bind_assoc, (bindM_ok _ _ _ _ _ DO) in E. rewrite bind_assoc, bind_lift in E. rewrite (uri_ok did coll rkey ISD) in E by apply WA, W1.
    cbn in E. injection E as <- <-. split.
    + exists [r]. rewrite AW in SS. unfold ServerSpec.request_book. rewrite RW, NDID, B. exact SS.
    + left. split; [apply RO; auto|]. eexists. split; [reflexivity|]. exists x, coll, rkey, v, did. splits; auto.
  - rewrite (bindM_err _ _ _ _ _ EC) in E. injection E as <- <-. eapply outcome_err; [exact SS|]. rewrite RO. exact NW.
Qed.

Lemma delete_outcome st refs bk header i st' out : inv st refs bk -> statuses st bk -> (be = Memory -> (s_next st < 2 ^ 55)%Z) ->
  serve (RDelete header i) st = (st', out) -> outcome st refs bk (RDelete header i) st' out.
Proof.
  intros I ST LIM E. cbn [ServerSpec.serve] in E. unfold delete_record in E. rewrite bind_assoc, bind_unit in E.
  destruct (validate_input cfg i None) as [[]|e] eqn:V.
  2:{ injection E as <- <-. apply outcome_same. intros (A & SW & SU & x & coll & rkey & v & did & o & key & recs & RW & NX & NM & _).
      assert (X : validate_input cfg i None = Ok tt); [|congruence]. apply validate_ok. splits; auto; [|discriminate].
      cbn [request_write] in RW. destruct (i_repo i) as [x'|]; [|discriminate]. destruct (i_collection i), (i_rkey i); try discriminate.
      injection RW as -> _ _ _. eauto. }
  apply validate_ok in V as (SW & (x & RX & NX) & _ & SU).
  rewrite bind_assoc, bind_unit in E. destruct (auth cfg header) as [[]|e] eqn:AU.
  2:{ injection E as <- <-. apply outcome_same. intros (A & _). apply auth_ok in A. congruence. }
  apply auth_ok in AU. rewrite RX in E. rewrite bind_assoc, bind_lift in E. cbn [arg] in E. rewrite bind_assoc in E.
  destruct (load_cases st refs bk x I ST) as [(did & o & st1 & r & key & recs & F)|(e & st1 & extra & LE & SS & _ & NN)].
  2:{ rewrite (bindM_err _ _ _ _ _ LE) in E. injection E as <- <-. eapply outcome_err; eauto.
      intros (_ & _ & _ & x' & coll & rkey & v & did & o & key & recs & RW & _ & NM & R & _). cbn [request_write] in RW. rewrite RX in RW.
      destruct (i_collection i), (i_rkey i); try discriminate. injection RW as <- _ _ _. exact (NN _ _ NM R). }
  rewrite (bindM_ok _ _ _ _ _ (f_load _ _ _ _ _ _ _ _ _ _ F)) in E.
  rewrite bind_assoc, bind_lift in E. destruct (i_collection i) as [coll|] eqn:CO; cbn [arg] in E.
  2:{ injection E as <- <-. eapply outcome_err; [exact (f_steps _ _ _ _ _ _ _ _ _ _ F)|].
      intros (_ & _ & _ & x' & coll & rkey & v & ? & ? & ? & ? & RW & _). cbn [request_write] in RW. rewrite RX, CO in RW. discriminate. }
  rewrite bind_assoc, bind_lift in E. destruct (i_rkey i) as [rkey|] eqn:RK; cbn [arg] in E.
  2:{ injection E as <- <-. eapply outcome_err; [exact (f_steps _ _ _ _ _ _ _ _ _ _ F)|].
      intros (_ & _ & _ & x' & ? & rkey & v & ? & ? & ? & ? & RW & _). cbn [request_write] in RW. rewrite RX, CO, RK in RW. discriminate. }
  rewrite bind_assoc, (bindM_ok _ _ _ _ _ (obj_some _ _ _ (f_obj _ _ _ _ _ _ _ _ _ _ F))) in E.
  rewrite bind_assoc, (bindM_ok _ _ _ _ _ (good_find _ _ _ _ _ coll rkey (f_good _ _ _ _ _ _ _ _ _ _ F))) in E.
  destruct (good_keys _ _ _ _ _ (f_good _ _ _ _ _ _ _ _ _ _ F)) as (ND & RKS & ROK).
  pose proof (names_did _ _ _ _ (f_names _ _ _ _ _ _ _ _ _ _ F)) as NDID. pose proof (f_book _ _ _ _ _ _ _ _ _ _ F) as B.
  assert (RW : request_write (RDelete header i) = Some (x, coll, rkey, None)) by (cbn [request_write]; rewrite RX, CO, RK; reflexivity).
  assert (RO : request_ok (World st refs) bk (RDelete header i) <-> (dget (record_path coll rkey) recs <> None -> (s_next st < 2 ^ 55)%Z)).
  { unfold ServerSpec.request_ok. split.
    - intros (_ & _ & _ & x' & c' & k' & v' & did' & o' & key' & recs' & RW' & _ & NM & _ & B' & X). rewrite RW in RW'. injection RW' as <- <- <- <-.
      destruct (names_fun _ _ _ _ _ _ NM (f_names _ _ _ _ _ _ _ _ _ _ F)) as [-> ->]. rewrite B in B'. injection B' as <- <-. exact X.
    - intros L. splits; auto. { rewrite CO. auto. } exists x, coll, rkey, None, did, o, key, recs. destruct F. splits; auto. }
  destruct (dget (record_path coll rkey) recs) as [v|] eqn:D; cbn [option_map] in E.
  - rewrite bind_assoc in E.
    destruct (found_commit _ _ _ _ _ _ _ _ _ _ (Write DELETE coll rkey None) I F LIM) as [(W1 & L & st2 & cd & o2 & EC & NO & RD & SS)|(NW & st2 & e & EC & SS)].
    + rewrite (bindM_ok _ _ _ _ _ EC) in E. cbn in E. injection E as <- <-. split.
      * exists [r]. unfold ServerSpec.request_book. rewrite RW, NDID, B. exact SS.
      * left. split; [apply RO; auto|]. exists ADone. split; reflexivity.
    + rewrite (bindM_err _ _ _ _ _ EC) in E. injection E as <- <-. eapply outcome_err; [exact SS|]. rewrite RO. intros X. apply NW.
      split; [|apply X; discriminate]. unfold write_allowed. cbn [w_action w_collection w_rkey]. cbv zeta. rewrite D. discriminate.
  - cbn in E. injection E as <- <-. split.
    + exists [r]. unfold ServerSpec.request_book. rewrite RW, NDID, B.
      assert (X : ddel (record_path coll rkey) recs = recs).
      { clear - D. induction recs as [|[k' v'] l IH]; [reflexivity|]. cbn [dget ddel] in *. destruct (str_eqb (record_path coll rkey) k'); [discriminate|].
        f_equal. auto. }
      rewrite X, dset_id by auto. exact (f_steps _ _ _ _ _ _ _ _ _ _ F).
    + left. split; [apply RO; congruence|]. exists ADone. split; reflexivity.
Qed.

Lemma create_outcome st refs bk header i tid st' out : inv st refs bk -> statuses st bk -> (be = Memory -> (s_next st < 2 ^ 55)%Z) ->
  serve (RCreate header i tid) st = (st', out) -> outcome st refs bk (RCreate header i tid) st' out.
Proof.
  intros I ST LIM E. cbn [ServerSpec.serve] in E. unfold create_record in E.
  set (i' := match i_rkey i with Some _ => i | None => with_rkey i tid end) in *.
  assert (RW : request_write (RCreate header i tid) = request_write (RPut header i')).
  { unfold i'. cbn [request_write]. destruct i as [a b [k|] d f]; reflexivity. }
  assert (FI : i_swap i' = i_swap i /\ i_collection i' = i_collection i) by (unfold i'; destruct (i_rkey i); auto).
  set (coll := (if given (i_collection i) then ret (i_collection i) else lift (record_type (i_record i)))) in *.
  assert (CE : (exists c, coll st = (st, Ok c) /\ (given (i_collection i) = true -> c = i_collection i)) \/
     exists e, coll st = (st, Err e) /\ given (i_collection i) = false).
  { unfold coll. destruct (given (i_collection i)); [left; eexists; split; [reflexivity|auto]|].
    unfold lift. destruct (record_type (i_record i)); [left; eexists; split; [reflexivity|discriminate]|right; eauto]. }
  assert (GC : request_ok (World st refs) bk (RCreate header i tid) -> given (i_collection i) = true).
  { intros (_ & _ & _ & x & c & k & v & did & o & key & recs & RW' & _ & _ & _ & _ & X). rewrite RW in RW'. cbn [request_write] in RW'.
    rewrite (proj2 FI) in RW'. destruct (i_repo i'), (i_collection i) as [c'|], (i_rkey i'), (i_record i'); try discriminate.
    injection RW' as <- <- <- <-. apply given_ok. destruct (path_parts _ _ (proj1 X)). eauto. }
  rewrite bind_assoc in E. destruct CE as [(c & CE & GE)|(e & CE & GF)].
  2:{ rewrite (bindM_err _ _ _ _ _ CE) in E. injection E as <- <-. apply outcome_same. intros X. apply GC in X. congruence. }
  rewrite (bindM_ok _ _ _ _ _ CE) in E. rewrite bind_assoc, bind_unit in E.
  destruct (validate_input cfg i c) as [[]|e] eqn:V.
  2:{ injection E as <- <-. apply outcome_same. intros RO. specialize (GE (GC RO)).
      destruct RO as (A & SW & SU & x & cl & rkey & v & did & o & key & recs & RW' & NX & NM & _).
      assert (X : validate_input cfg i c = Ok tt); [|congruence]. apply validate_ok. splits; auto; [|rewrite GE; auto].
      cbn [request_write] in RW'. destruct (i_repo i) as [x'|]; [|discriminate]. destruct (i_collection i), (i_record i); try discriminate.
      injection RW' as -> _ _ _. eauto. }
  apply validate_ok in V as (SW & (x & RX & NX) & _ & SU).
  rewrite bind_assoc, bind_unit in E. destruct (auth cfg header) as [[]|e] eqn:AU.
  2:{ injection E as <- <-. apply outcome_same. intros (A & _). apply auth_ok in A. congruence. }
  rewrite RX in E. rewrite bind_assoc, bind_lift in E. cbn [arg] in E. rewrite bind_assoc in E.
  destruct (load_cases st refs bk x I ST) as [(did & o & st1 & r & key & recs & F)|(e & st1 & extra & LE & SS & _ & NN)].
  2:{ rewrite (bindM_err _ _ _ _ _ LE) in E. injection E as <- <-. eapply outcome_err; eauto.
      intros (_ & _ & _ & x' & cl & rkey & v & did & o & key & recs & RW' & _ & NM & R & _). cbn [request_write] in RW'. rewrite RX in RW'.
      destruct (i_collection i), (i_record i); try discriminate. injection RW' as <- _ _ _. exact (NN _ _ NM R). }
  rewrite (bindM_ok _ _ _ _ _ (f_load _ _ _ _ _ _ _ _ _ _ F)) in E.
  pose proof (f_steps _ _ _ _ _ _ _ _ _ _ F) as S1. pose proof (f_same _ _ _ _ _ _ _ _ _ _ F) as SM.
  assert (SN : forall y, seen be st1 y = seen be st y) by (intros; eapply loaded_seen; [exact (f_stored _ _ _ _ _ _ _ _ _ _ F)|exact (f_loaded _ _ _ _ _ _ _ _ _ _ F)]).
  assert (NM : forall x did o, names st1 x did o <-> names st x did o).
  { intros. unfold ServerSpec.names. split; intros (y & A & B & C); exists y; rewrite SN in *; auto. }
  assert (ND : forall x, named_did st1 x = named_did st x) by (intros; unfold ServerSpec.named_did; destruct (repo_name x0); [rewrite SN|]; reflexivity).
  destruct (put_outcome st1 (refs ++ [r]) bk header i' st' out) as [(extra & SS) O].
  { eapply steps_inv; eauto. } { eapply steps_statuses; eauto. } { rewrite (proj1 SM). auto. } { exact E. }
  assert (RO : request_ok (World st1 (refs ++ [r])) bk (RPut header i') <-> request_ok (World st refs) bk (RCreate header i tid)).
  { unfold ServerSpec.request_ok. cbn [w_state]. rewrite RW, (proj1 FI), (proj2 FI), (proj1 SM).
    split; intros (A1 & A2 & A3 & x' & c' & k' & v' & did' & o' & key' & recs' & A4 & A5 & A6 & A7); splits; auto;
      exists x', c', k', v', did', o', key', recs'; splits; try apply NM; auto; tauto. }
  split.
  - exists ([r] ++ extra). rewrite app_assoc. eapply steps_trans; [exact S1|].
    replace (request_book st bk (RCreate header i tid) out) with (request_book st1 bk (RPut header i') out); [exact SS|].
    unfold ServerSpec.request_book. rewrite RW. destruct out; auto. destruct (request_write (RPut header i')) as [[[[x' c'] k'] v']|]; auto. rewrite ND. reflexivity.
  - rewrite RO in O. destruct O as [[O (a & OA & AN)]|O]; [left|right; exact O]. split; auto. exists a. split; auto.
    destruct AN as (x' & c' & k' & v' & did' & A1 & A2 & A3). rewrite ND in A2. exists x', c', k', v', did'. splits; auto. rewrite RW. exact A1.
Qed.

(** Reading a record. *)
Lemma get_outcome st refs bk repo collection rkey cid st' out : inv st refs bk -> statuses st bk ->
  serve (RGet repo collection rkey cid) st = (st', out) ->
  outcome st refs bk (RGet repo collection rkey cid) st' out /\ same_storage st st' /\
  (forall x coll k did o key recs, repo = Some x -> x <> [] -> collection = Some coll -> rkey = Some k -> supported cfg coll -> given cid = false ->
     names st x did o -> r_status o = None -> dget did bk = Some (key, recs) -> dget (record_path coll k) recs = None ->
     out = Err (XrpcError (s "RecordNotFound"))).
Proof.
  intros I ST E. cbn [ServerSpec.serve] in E. unfold xrpc_get_record in E. rewrite bind_assoc, bind_unit in E.
  destruct (validate_input cfg (Input repo collection rkey None false) None) as [[]|e] eqn:V.
  2:{ injection E as <- <-.
      assert (VC : forall x, repo = Some x -> x <> [] -> (forall c, collection = Some c -> supported cfg c) -> False).
      { intros x RX NX SU. assert (X : validate_input cfg (Input repo collection rkey None false) None = Ok tt); [|congruence].
        apply validate_ok. cbn. splits; eauto; discriminate. }
      split; [|split; [apply same_refl|]].
      - apply outcome_same. intros (_ & SU & x & coll & k & did & o & key & recs & RX & _ & _ & NX & _). eauto.
      - intros x coll k did o key recs RX NX -> _ SU. exfalso. eapply VC; eauto. intros c [= <-]. exact SU. }
  apply validate_ok in V as (_ & (x & RX & NX) & _ & SU). cbn [i_repo i_collection] in RX, SU.
  rewrite bind_assoc in E. destruct (given cid) eqn:GI.
  { cbn in E. injection E as <- <-. split; [|split; [apply same_refl|discriminate]]. apply outcome_same. intros (X & _). congruence. }
  rewrite (bindM_ok (ret tt) _ _ _ tt eq_refl) in E.
  rewrite RX in E. rewrite bind_assoc, bind_lift in E. cbn [arg] in E. rewrite bind_assoc in E.
  destruct (load_cases st refs bk x I ST) as [(did & o & st1 & r & key & recs & F)|(e & st1 & extra & LE & SS & SM & NN)].
  2:{ rewrite (bindM_err _ _ _ _ _ LE) in E. injection E as <- <-. split; [|split; [exact SM|]].
      - eapply outcome_err; eauto. intros (_ & _ & x' & coll & k & did & o & key & recs & RX' & _ & _ & _ & NM & R & _). rewrite RX in RX'. injection RX' as <-.
        exact (NN _ _ NM R).
      - intros x' coll k did o key recs RX' _ _ _ _ _ NM R. rewrite RX in RX'. injection RX' as <-. exfalso. exact (NN _ _ NM R). }
  rewrite (bindM_ok _ _ _ _ _ (f_load _ _ _ _ _ _ _ _ _ _ F)) in E.
  rewrite bind_assoc, (bindM_ok _ _ _ _ _ (obj_some _ _ _ (f_obj _ _ _ _ _ _ _ _ _ _ F))) in E.
  rewrite bind_assoc, (bindM_ok _ _ _ _ _ (good_find _ _ _ _ _ (py_str collection) (py_str rkey) (f_good _ _ _ _ _ _ _ _ _ _ F))) in E.
  destruct (good_keys _ _ _ _ _ (f_good _ _ _ _ _ _ _ _ _ _ F)) as (ND & RKS & ROK).
  pose proof (names_did _ _ _ _ (f_names _ _ _ _ _ _ _ _ _ _ F)) as NDID. pose proof (f_book _ _ _ _ _ _ _ _ _ _ F) as B.
  pose proof (f_same _ _ _ _ _ _ _ _ _ _ F) as SM. pose proof (f_steps _ _ _ _ _ _ _ _ _ _ F) as S1.
  destruct (i_book _ _ _ _ _ _ _ _ I _ _ _ B) as (ISD & _).
  assert (NOT : dget (record_path (py_str collection) (py_str rkey)) recs = None \/ collection = None \/ rkey = None ->
     ~ request_ok (World st refs) bk (RGet (Some x) collection rkey cid)).
  { intros Y (_ & _ & x' & coll & k & did' & o' & key' & recs' & [= <-] & -> & -> & _ & NM & _ & B' & P).
    destruct (names_fun _ _ _ _ _ _ NM (f_names _ _ _ _ _ _ _ _ _ _ F)) as [-> ->]. rewrite B in B'. injection B' as <- <-.
    destruct Y as [Y|[Y|Y]]; try discriminate. exact (P Y). }
  subst repo.
  destruct (dget (record_path (py_str collection) (py_str rkey)) recs) as [v|] eqn:D; cbn [option_map] in E.
  - destruct (record_norm v (ROK _ _ D)) as [NI TR]. rewrite TR in E. cbn [negb] in E.
    assert (DO : did_of o st1 = (st1, Ok did)).
    { unfold did_of, need_did, lift, bindM. rewrite (good_repo_did _ _ _ _ _ _ _ _ _ (f_good _ _ _ _ _ _ _ _ _ _ F)). reflexivity. }
    rewrite bind_assoc, (bindM_ok _ _ _ _ _ DO), bind_assoc, bind_lift in E.
    destruct collection as [coll|]; [destruct rkey as [k|]|]; cbn [py_str] in *.
    + rewrite uri_ok in E; [|exact ISD|apply RKS; congruence]. cbn in E. injection E as <- <-. split; [|split; [exact SM|]].
      * split; [exists [r]; exact S1|]. left. split.
        { unfold ServerSpec.request_ok. splits; auto. exists x, coll, k, did, o, key, recs. destruct F. splits; auto. congruence. }
        eexists. split; [reflexivity|]. exists x, coll, k, did, key, recs, v. splits; auto. unfold dag_cbor_cid. rewrite NI. reflexivity.
      * intros x' coll' k' did' o' key' recs' [= <-] _ [= <-] [= <-] _ _ NM _ B' D'.
        destruct (names_fun _ _ _ _ _ _ NM (f_names _ _ _ _ _ _ _ _ _ _ F)) as [-> ->]. congruence.
    + cbn in E. injection E as <- <-. split; [|split; [exact SM|discriminate]]. eapply outcome_err; [exact S1|]. auto.
    + cbn in E. injection E as <- <-. split; [|split; [exact SM|discriminate]]. eapply outcome_err; [exact S1|]. auto.
  - cbn in E. injection E as <- <-. split; [|split; [exact SM|auto]]. eapply outcome_err; [exact S1|]. auto.
Qed.

Lemma serve_outcome st refs bk q st' out : inv st refs bk -> statuses st bk -> (be = Memory -> (s_next st < 2 ^ 55)%Z) ->
  serve q st = (st', out) -> outcome st refs bk q st' out.
Proof.
  intros I ST LIM E. destruct q.
  - eapply create_outcome; eauto.
  - eapply put_outcome; eauto.
  - eapply delete_outcome; eauto.
  - eapply get_outcome; eauto.
Qed.

(** ** Servers *)

Notation serves := (serves digest kdigest validate ecdsa now cb be netloc_ok cfg).

Lemma serves_inv w bk : serves w bk -> inv (w_state w) (w_refs w) bk /\ statuses (w_state w) bk.
Proof.
  induction 1 as [|w bk op w' out H [I ST] ON CL E|w bk q st' out H [I ST] LIM E].
  - split; [exact (init_inv digest kdigest validate ecdsa be)|]. intros did o D. exfalso. apply D. reflexivity.
  - pose proof (step_eff digest kdigest validate ecdsa now cb be SET _ _ _ _ _ I ON E) as X.
    rewrite <- (world_eta w) in CL. split; [eapply step_inv; eauto|eapply effect_statuses; eauto].
  - destruct (serve_outcome _ (w_refs w) _ _ _ _ I ST LIM E) as [(extra & SS) _]. cbn [w_state w_refs]. split.
    + eapply inv_weaken; [|eapply steps_inv; eauto]. intros r HR. apply in_or_app. auto.
    + eapply steps_statuses; eauto.
Qed.

End Server.
