(** Facts about histories, in the form of the properties. *)
From Coq Require Import String List NArith ZArith Bool Lia Sorted.
From Coq Require Import ZifyBool ZifyNat ZifyN.
From Verif Require Import Base Lists Ipld IpldProofs MstModel MstTree MstTreeProofs MstRep MstTrav
  MstClient MstSpec MstHist MstFacts TidModel TidProofs BlockModel BlockSpec
  CarModel StorageModel StorageSpec CommitProofs StoreProofs ExecProofs RepoSpec RepoProofs RepoHist RepoSteps.
Import ListNotations.

Lemma write_fails_not validate recs w e : write_fails validate recs w e -> ~ write_allowed validate recs w.
Proof.
  intros F A. unfold write_allowed in A.
  assert (HR : w_action w <> DELETE -> has_record validate w).
  { intros N. destruct (w_action w); [exact (proj2 (proj2 A))|exact (proj2 A)|congruence]. }
  inversion F; subst.
  - destruct (w_action w); [congruence| |]; [destruct A as [A _]|]; congruence.
  - destruct (HR H) as (v & V & _). congruence.
  - destruct (HR H) as (v' & V & RO). assert (v' = v) as -> by congruence. destruct RO as ((m & -> & M) & VA & SZ).
    inversion H2; subst; try congruence; try lia.
  - rewrite H in A. destruct A as (A1 & A2 & _). apply H2. auto.
Qed.

Section Facts.
Variable digest : list N -> list N.
Variable kdigest : str -> list N.
Variable validate : ipld -> res unit.
Variable ecdsa : N -> Z -> list N -> list N.
Variable now : Z -> str.
Variable cb : nat -> option exn.
Variable be : backend.
Notation inv := (inv digest kdigest validate ecdsa be).
Notation good := (good digest kdigest validate ecdsa).
Notation chain := (chain digest kdigest validate ecdsa).
Notation committed := (committed digest kdigest validate ecdsa be).
Notation stored_repo := (stored_repo be).
Notation effect := (effect digest kdigest validate ecdsa now be).
Notation trails := (trails digest kdigest validate ecdsa be).
Notation sstep := (sstep digest kdigest validate ecdsa now cb be).
Notation srun := (srun digest kdigest validate ecdsa now cb be).
Notation history := (history digest kdigest validate ecdsa now cb be).
Notation clean_from := (clean_from digest kdigest validate ecdsa now cb be).
Hypothesis SET : setting digest kdigest validate cb.

Lemma s_klen : forall k, length (kdigest k) = 32. Proof. apply SET. Qed.
Lemma s_inj : forall a b, digest a = digest b -> a = b. Proof. apply SET. Qed.
Lemma s_plain : forall v, validate v = Ok tt -> plain v. Proof. apply SET. Qed.
Lemma s_quiet : forall n, cb n = None. Proof. apply SET. Qed.

Lemma step_eff w bk op w' out : inv (w_state w) (w_refs w) bk -> op_named op -> sstep w op = (w', out) ->
  effect (w_state w) (w_refs w) bk op (w_state w') (w_refs w') out.
Proof.
  intros I ON E.
  pose proof (step_effect digest kdigest validate ecdsa now cb be s_klen s_inj s_plain s_quiet (w_state w) (w_refs w) bk op I ON) as X.
  assert (WE : World (w_state w) (w_refs w) = w) by (destruct w; reflexivity). rewrite WE, E in X. exact X.
Qed.

Lemma world_eta w : World (w_state w) (w_refs w) = w.
Proof. destruct w; reflexivity. Qed.

Lemma run_inv ops : forall w bk tr w' outs, inv (w_state w) (w_refs w) bk -> trails (w_state w) bk tr -> Forall op_named ops ->
  (be = Memory -> clean_from w ops) -> srun w ops = (w', outs) ->
  inv (w_state w') (w_refs w') (book_of bk ops outs) /\ trails (w_state w') (book_of bk ops outs) (trail_of tr ops outs).
Proof.
  induction ops as [|o ops IH]; intros w bk tr w' outs I T F CL E.
  - injection E as <- <-. auto.
  - inversion F as [|? ? F1 F2]; subst. cbn [StorageModel.srun] in E.
    destruct (sstep w o) as [w1 out] eqn:S1. pose proof (step_eff _ _ _ _ _ I F1 S1) as EF.
    assert (CS : be = Memory -> clean_step (World (w_state w) (w_refs w)) o out).
    { intros BE. specialize (CL BE). cbn [RepoSpec.clean_from] in CL. rewrite world_eta. rewrite S1 in CL. exact (proj1 CL). }
    assert (I1 : inv (w_state w1) (w_refs w1) (book_step bk o out)).
    { eapply (effect_inv digest kdigest validate ecdsa now cb be s_klen s_inj s_quiet); eauto. }
    assert (T1 : trails (w_state w1) (book_step bk o out) (trail_step tr o out)).
    { eapply effect_trails; eauto. }
    destruct (srun w1 ops) as [w2 outs2] eqn:S2. injection E as <- <-.
    cbn [book_of trail_of]. eapply IH; eauto.
    intros BE. specialize (CL BE). cbn [RepoSpec.clean_from] in CL. rewrite S1 in CL. exact (proj2 CL).
Qed.

Lemma hist_facts ops w outs : history ops w outs ->
  inv (w_state w) (w_refs w) (book_of [] ops outs) /\ trails (w_state w) (book_of [] ops outs) (trail_of [] ops outs).
Proof.
  intros (R & F & CL). eapply run_inv; eauto.
  - exact (init_inv digest kdigest validate ecdsa be).
  - intros did key recs H. discriminate H.
Qed.

Lemma srun_app a : forall b w w1 outs, srun w a = (w1, outs) ->
  srun w (a ++ b) = (fst (srun w1 b), outs ++ snd (srun w1 b)).
Proof.
  clear. induction a as [|o a IH]; intros b w w1 outs E; cbn [app StorageModel.srun] in *.
  - injection E as <- <-. destruct (srun w b); reflexivity.
  - destruct (sstep w o) as [w2 out]. destruct (srun w2 a) as [w3 outs'] eqn:E2. injection E as <- <-.
    rewrite (IH b _ _ _ E2). reflexivity.
Qed.

Lemma clean_app a : forall b w, clean_from w (a ++ b) <-> clean_from w a /\ clean_from (fst (srun w a)) b.
Proof.
  clear. induction a as [|o a IH]; intros b w; cbn [app RepoSpec.clean_from StorageModel.srun]; [cbn; tauto|].
  rewrite IH. destruct (sstep w o) as [w1 out]. cbn [fst snd]. destruct (srun w1 a) as [w2 outs]. cbn [fst]. tauto.
Qed.

Lemma hist_snoc ops w outs op w' out : history ops w outs -> op_named op -> (be = Memory -> clean_step w op out) ->
  sstep w op = (w', out) -> history (ops ++ [op]) w' (outs ++ [out]).
Proof.
  intros (R & F & CL) ON CS E. split; [|split].
  - rewrite (srun_app _ _ _ _ _ R). cbn [StorageModel.srun]. rewrite E. reflexivity.
  - apply Forall_app. split; auto.
  - intros BE. apply clean_app. split; auto. rewrite R. cbn [fst RepoSpec.clean_from]. rewrite E. cbn. auto.
Qed.

Lemma book_app a : forall outs b outs' bk, length a = length outs -> book_of bk (a ++ b) (outs ++ outs') = book_of (book_of bk a outs) b outs'.
Proof.
  clear. induction a as [|o a IH]; intros [|out outs] b outs' bk L; cbn in *; try discriminate; auto.
Qed.

Lemma srun_length ops : forall w w' outs, srun w ops = (w', outs) -> length ops = length outs.
Proof.
  clear. induction ops as [|o ops IH]; intros w w' outs E; cbn [StorageModel.srun] in E.
  - injection E as _ <-. reflexivity.
  - destruct (sstep w o) as [w1 out]. destruct (srun w1 ops) as [w2 outs2] eqn:E2. injection E as _ <-. cbn. f_equal. eauto.
Qed.

Lemma book_snoc ops w outs op out : history ops w outs ->
  book_of [] (ops ++ [op]) (outs ++ [out]) = book_step (book_of [] ops outs) op out.
Proof. intros (R & _). rewrite book_app; [reflexivity|]. eapply srun_length; eauto. Qed.

(** ** Loading *)

Lemma seen_stored st refs bk did key recs : inv st refs bk -> dget did bk = Some (key, recs) ->
  exists o, seen be st did = Some o /\ stored_repo st did = Some o /\ good (s_blocks st) did key recs o /\ r_key o = key.
Proof.
  intros I B. destruct (i_book _ _ _ _ _ _ _ _ I _ _ _ B) as (ID & RG & o & HS & G & K & HN).
  exists o. splits; auto. unfold seen.
  destruct (load_did digest be s_inj st did (inv_named _ _ _ _ _ _ _ _ I) ID) as [(_ & NR)|(o' & st' & r & HS' & _ & L & LD)].
  - exfalso. auto.
  - rewrite LD. destruct (loaded_facts be _ _ _ _ _ HS' L) as (_ & _ & _ & _ & _ & F6 & _). congruence.
Qed.

Lemma seen_none st refs bk did : inv st refs bk -> dget did bk = None -> is_did did -> load_repo be did st = (st, Ok None).
Proof.
  intros I B ID. destruct (load_did digest be s_inj st did (inv_named _ _ _ _ _ _ _ _ I) ID) as [(L & NR)|(o' & st' & r & HS' & RG & _)]; auto.
  exfalso. exact (i_none _ _ _ _ _ _ _ _ I _ B RG).
Qed.

(** ** C18 *)

Lemma c18_map ops w outs did key recs : history ops w outs -> dget did (book_of [] ops outs) = Some (key, recs) ->
  exists o, seen be (w_state w) did = Some o /\ shows kdigest (w_state w) o recs /\ r_key o = key.
Proof.
  intros H B. destruct (hist_facts _ _ _ H) as [I _].
  destruct (seen_stored _ _ _ _ _ _ I B) as (o & S1 & _ & G & K). exists o. splits; auto.
  eapply good_shows; eauto.
Qed.

Lemma c18_none ops w outs did : history ops w outs -> dget did (book_of [] ops outs) = None -> is_did did ->
  load_repo be did (w_state w) = (w_state w, Ok None).
Proof. intros H B ID. destruct (hist_facts _ _ _ H) as [I _]. eapply seen_none; eauto. Qed.

Lemma chain_det bl did key did' key' b root root' recs recs' : chain bl did key b root recs -> chain bl did' key' b root' recs' ->
  root = root' /\ forall k, dget k (cids_of digest recs) = dget k (cids_of digest recs').
Proof.
  intros C C'. assert (root = root') as <-.
  { pose proof (chain_data _ _ _ _ _ _ _ _ _ _ C). pose proof (chain_data _ _ _ _ _ _ _ _ _ _ C'). congruence. }
  split; auto. intros k.
  pose proof (rel_get digest kdigest _ _ _ k (snapshot_rel _ _ _ _ _ _ (chain_snapshot _ _ _ _ _ _ _ _ _ _ C))) as E.
  pose proof (rel_get digest kdigest _ _ _ k (snapshot_rel _ _ _ _ _ _ (chain_snapshot _ _ _ _ _ _ _ _ _ _ C'))) as E'.
  cbn [cl_tree cl_store] in E, E'. rewrite E in E'. injection E' as E'. exact E'.
Qed.

Lemma shows_eq st o recs recs' : shows kdigest st o recs ->
  (forall k, option_map norm (dget k recs) = option_map norm (dget k recs')) -> shows kdigest st o recs'.
Proof.
  intros (A & m & B1 & B2 & B3) E. split.
  - intros coll rkey. rewrite <- E. auto.
  - exists m. splits; auto. intros coll rkey. rewrite <- E. auto.
Qed.

Lemma same_norm bl recs recs' : recs_stored digest bl recs -> recs_stored digest bl recs' ->
  (forall k, dget k (cids_of digest recs) = dget k (cids_of digest recs')) ->
  forall k, option_map norm (dget k recs) = option_map norm (dget k recs').
Proof.
  intros R R' E k. specialize (E k). rewrite !dget_cids_of in E. specialize (R k). specialize (R' k).
  destruct (dget k recs) as [v|], (dget k recs') as [v'|]; cbn in *; try discriminate; auto.
  injection E as E. specialize (R _ eq_refl). specialize (R' _ eq_refl). congruence.
Qed.

Lemma c18_handle ops w outs h o : history ops w outs -> handle_obj w h = Some o ->
  exists b recs, r_head o = Some b /\ shows kdigest (w_state w) o recs /\
    (forall k, exists st' r o', repo_load (b_cid b) None None k (w_state w) = (st', Ok r) /\ nth_error (s_objs st') r = Some o' /\
       shows kdigest st' o' recs) /\
    (forall did key recs' o', handle_did w h = Some did -> dget did (book_of [] ops outs) = Some (key, recs') ->
       seen be (w_state w) did = Some o' -> r_head o' = r_head o -> shows kdigest (w_state w) o recs').
Proof.
  intros H HO. destruct (hist_facts _ _ _ H) as [I _]. unfold handle_obj in HO.
  destruct (nth_error (w_refs w) h) as [r|] eqn:HR; [|discriminate].
  destruct (i_ref _ _ _ _ _ _ _ _ I r (nth_error_In _ _ HR)) as (o1 & did & key & recs & HO' & G & HB).
  rewrite HO in HO'. injection HO' as <-. pose proof (good_shows digest kdigest validate ecdsa _ _ _ _ _ G) as SH.
  destruct G as (b & root & HH & CH & SN). exists b, recs. splits; auto.
  - intros k. exists (add_obj (Repo (mst_load root) (Some b) None None false k) (w_state w)), (length (s_objs (w_state w))),
      (Repo (mst_load root) (Some b) None None false k). splits.
    + unfold repo_load. unfold bindM at 1, reads, read. rewrite (chain_read _ _ _ _ _ _ _ _ _ _ CH).
      rewrite (bindM_ok (lift (item_link (s "data") (b_val b))) _ (w_state w) (w_state w) root)
        by (unfold lift; rewrite (chain_data _ _ _ _ _ _ _ _ _ _ CH); exact eq_refl). reflexivity.
    + cbn. apply nth_app_last.
    + apply (good_shows digest kdigest validate ecdsa _ did key). exists b, root. splits; auto. eapply chain_snapshot; eauto.
  - intros d k' recs' o' HD B S1 HE. destruct (seen_stored _ _ _ _ _ _ I B) as (o2 & S2 & _ & G2 & _).
    rewrite S1 in S2. injection S2 as <-. destruct G2 as (b2 & root2 & HH2 & CH2 & _).
    assert (b2 = b) as -> by congruence. destruct (chain_det _ _ _ _ _ _ _ _ _ _ CH CH2) as [<- EK].
    eapply shows_eq; [exact SH|]. eapply same_norm; eauto; eapply chain_stored; eauto.
Qed.

(** Read your writes. *)
Lemma c18_commit ops w outs h ws w' cd : history ops w outs -> sstep w (SCommit h ws) = (w', Ok (OutCommit cd)) ->
  exists did key recs, handle_did w h = Some did /\ commit_did cd = did /\ dget did (book_of [] ops outs) = Some (key, recs) /\
    exists o o', handle_obj w' h = Some o /\ seen be (w_state w') did = Some o' /\
      r_head o = Some (cd_commit cd) /\ r_head o' = Some (cd_commit cd) /\ handle_did w' h = Some did /\
      shows kdigest (w_state w') o (apply_writes recs ws) /\ shows kdigest (w_state w') o' (apply_writes recs ws).
Proof.
  intros H E. destruct (hist_facts _ _ _ H) as [I _].
  pose proof (step_eff w _ (SCommit h ws) _ _ I Logic.I E) as EF.
  destruct (effect_commit _ _ _ _ _ _ _ _ _ _ _ _ _ _ I EF) as (r0 & o0 & did & key0 & recs0 & key & recs & HR & HO & G & B & ST & CP & C & RE).
  exists did, key, recs. pose proof (committed_did _ _ _ _ _ _ _ _ _ _ _ _ _ _ C) as CD.
  pose proof (committed_inv digest kdigest validate ecdsa cb be _ _ _ _ _ _ _ _ _ _ _ _ _ I (nth_error_In _ _ HR) HO G B C) as I'.
  destruct (c_objs _ _ _ _ _ _ _ _ _ _ _ _ _ _ C) as (so & root & m' & HS & SN & CH & N0 & MS).
  assert (G0 : good (s_blocks (w_state w')) did key (apply_writes recs ws) (with_head (Some (cd_commit cd)) (with_mst m' o0))).
  { exists (cd_commit cd), root. splits; auto. }
  assert (B' : dget did (dset did (key, apply_writes recs ws) (book_of [] ops outs)) = Some (key, apply_writes recs ws)).
  { rewrite dget_dset. destruct (str_eqb_spec did did); congruence. }
  destruct (seen_stored _ _ _ _ _ _ I' B') as (o' & S1 & HS' & G' & K').
  splits; auto; [eapply good_handle_did; eauto|].
  exists (with_head (Some (cd_commit cd)) (with_mst m' o0)), o'.
  assert (HOB : handle_obj w' h = Some (with_head (Some (cd_commit cd)) (with_mst m' o0))).
  { unfold handle_obj. rewrite RE, HR. exact N0. }
  splits; auto.
  - destruct be; rewrite MS in HS'; injection HS' as <-; reflexivity.
  - eapply (good_handle_did digest kdigest validate ecdsa w' h r0); eauto. rewrite RE. auto.
  - eapply good_shows; eauto.
  - eapply good_shows; eauto.
Qed.

(** ** Failing operations *)

Lemma view_keep st refs bk st' refs' bk' did : inv st refs bk -> inv st' refs' bk' -> is_did did ->
  (forall o, dget did bk <> None -> stored_repo st did = Some o -> exists o', stored_repo st' did = Some o' /\ same_repo o o') ->
  (dget did bk = None <-> dget did bk' = None) -> same_view (seen be st did) (seen be st' did).
Proof.
  intros I I' ID K E. destruct (dget did bk) as [[key recs]|] eqn:B.
  - destruct (seen_stored _ _ _ _ _ _ I B) as (o & S1 & HS & _).
    destruct (K o ltac:(discriminate) HS) as (o' & HS' & SR).
    destruct (dget did bk') as [[key' recs']|] eqn:B'.
    + destruct (seen_stored _ _ _ _ _ _ I' B') as (o2 & S2 & HS2 & _). rewrite S1, S2. cbn. congruence.
    + exfalso. assert (X : Some (key, recs) = None) by (apply E; auto). discriminate X.
  - assert (B' : dget did bk' = None) by (apply E; auto).
    unfold seen. rewrite (seen_none _ _ _ _ I B ID), (seen_none _ _ _ _ I' B' ID). exact Logic.I.
Qed.

Lemma failed_unchanged w bk op w' e : inv (w_state w) (w_refs w) bk -> op_named op -> (be = Memory -> clean_step w op (Err e)) ->
  sstep w op = (w', Err e) -> unchanged be w w'.
Proof.
  intros I ON CL E. pose proof (step_eff _ _ _ _ _ I ON E) as EF.
  assert (CL' : be = Memory -> clean_step (World (w_state w) (w_refs w)) op (Err e)) by (rewrite world_eta; auto).
  pose proof (effect_inv digest kdigest validate ecdsa now cb be s_klen s_inj s_quiet _ _ _ _ _ _ _ I ON EF CL') as I'.
  assert (BS : book_step bk op (Err e) = bk) by (destruct op; reflexivity). rewrite BS in I'.
  assert (NT : forall d, ~ touches be (World (w_state w) (w_refs w)) op (Err e) d) by (intros d; destruct op; cbn; auto).
  assert (SEEN : forall did, is_did did -> same_view (seen be (w_state w) did) (seen be (w_state w') did)).
  { intros did ID. eapply view_keep; eauto; [|tauto].
    intros o DB HS. exact (effect_untouched _ _ _ _ _ _ _ _ _ _ _ _ _ _ _ I EF CL' DB HS (NT did)). }
  assert (K : s_blocks (w_state w') = s_blocks (w_state w) -> w_refs w' = w_refs w ->
    (forall r o, nth_error (s_objs (w_state w)) r = Some o -> nth_error (s_objs (w_state w')) r = Some o) ->
    (s_next (w_state w') = s_next (w_state w) \/ s_next (w_state w') = (s_next (w_state w) + 1)%Z) -> unchanged be w w').
  { intros A1 A2 A3 A4. split; auto. intros h o. unfold handle_obj. rewrite A2.
    destruct (nth_error (w_refs w) h); [|discriminate]. auto. }
  destruct w as [st refs], w' as [st' refs']; cbn [w_state w_refs] in *.
  inversion EF; subst.
  - apply K; auto.
  - apply K; auto; rewrite ?called_blocks, ?called_next; auto. intros r o. rewrite called_objs. auto.
  - destruct (failed_inv digest kdigest validate ecdsa be st refs' bk did o st1 r m' o0 (CLost (s_next st)) I) as (_ & F1 & F2 & F3 & F4 & F5 & _); auto.
    { intros BE. specialize (CL BE). cbn [clean_step] in CL.
      destruct CL as [(ob & x & HOB & SX)|(A & B)]; [|auto].
      unfold handle_obj in HOB. cbn [w_refs w_state] in HOB.
      repeat match goal with HN : nth_error _ _ = Some _ |- _ => rewrite HN in HOB end. congruence. }
  - apply K; auto; rewrite ?called_blocks, ?called_next; auto. intros r o'. rewrite called_objs. apply nth_app_some.
Qed.

Lemma c19_failed ops w outs op w' e : history ops w outs -> op_named op -> (be = Memory -> clean_step w op (Err e)) ->
  sstep w op = (w', Err e) -> unchanged be w w'.
Proof. intros H. destruct (hist_facts _ _ _ H) as [I _]. eapply failed_unchanged; eauto. Qed.

(** ** Commits: ops *)

Lemma hist_commit ops w outs h ws w' cd : history ops w outs -> sstep w (SCommit h ws) = (w', Ok (OutCommit cd)) ->
  exists r0 o0 did key0 recs0 key recs, nth_error (w_refs w) h = Some r0 /\ nth_error (s_objs (w_state w)) r0 = Some o0 /\
    good (s_blocks (w_state w)) did key0 recs0 o0 /\ dget did (book_of [] ops outs) = Some (key, recs) /\ r_status o0 = None /\
    commit_possible validate recs ws (s_next (w_state w)) /\ committed (w_state w) (w_state w') r0 o0 did key recs ws cd /\
    w_refs w' = w_refs w /\ handle_did w h = Some did /\ commit_did cd = did /\ inv (w_state w) (w_refs w) (book_of [] ops outs).
Proof.
  intros H E. destruct (hist_facts _ _ _ H) as [I _].
  pose proof (step_eff w _ (SCommit h ws) _ _ I Logic.I E) as EF.
  destruct (effect_commit _ _ _ _ _ _ _ _ _ _ _ _ _ _ I EF) as (r0 & o0 & did & key0 & recs0 & key & recs & HR & HO & G & B & ST & CP & C & RE).
  exists r0, o0, did, key0, recs0, key, recs. splits; auto.
  - eapply good_handle_did; eauto.
  - eapply committed_did; eauto.
Qed.

Lemma dget_cids_dset p v recs k : dget k (dset p (rcid digest v) (cids_of digest recs)) = dget k (cids_of digest (dset p v recs)).
Proof.
  rewrite dget_dset, !dget_cids_of, dget_dset. destruct (str_eqb k p); auto.
Qed.

Lemma replay_same ops : forall d d' x, NoDup (keys d) -> NoDup (keys d') -> (forall k, dget k d = dget k d') -> replay d ops = Some x ->
  exists x', replay d' ops = Some x' /\ forall k, dget k x = dget k x'.
Proof.
  clear. induction ops as [|op ops IH]; intros d d' x ND ND' E R; cbn [replay] in *.
  - injection R as <-. eauto.
  - rewrite <- E. destruct (op_action op), (op_cid op) as [c|], (op_prev op) as [p|], (dget (op_path op) d) as [c0|]; try discriminate R.
    + refine (IH _ (dset (op_path op) c d') _ _ _ _ R); auto using dset_NoDup. intros k. rewrite !dget_dset. destruct (str_eqb k (op_path op)); auto.
    + destruct (str_eqb p c0); [|discriminate R].
      refine (IH _ (dset (op_path op) c d') _ _ _ _ R); auto using dset_NoDup. intros k. rewrite !dget_dset. destruct (str_eqb k (op_path op)); auto.
    + destruct (str_eqb p c0); [|discriminate R].
      refine (IH _ (ddel (op_path op) d') _ _ _ _ R); auto using ddel_NoDup. intros k. rewrite !dget_ddel by auto. destruct (str_eqb k (op_path op)); auto.
Qed.

Lemma keys_cids_of recs : keys (cids_of digest recs) = keys recs.
Proof. clear. unfold keys, cids_of. rewrite map_map. reflexivity. Qed.

Lemma apply_write_nodup recs w : NoDup (keys recs) -> NoDup (keys (apply_write recs w)).
Proof.
  clear. intros ND. unfold apply_write. cbv zeta. destruct (w_action w), (w_record w); auto using dset_NoDup, ddel_NoDup.
Qed.

Lemma replay_write recs w r : NoDup (keys recs) -> write_allowed validate recs w ->
  exists d, replay (cids_of digest recs) (write_ops digest recs w ++ r) = replay d r /\ NoDup (keys d) /\
    forall k, dget k d = dget k (cids_of digest (apply_write recs w)).
Proof.
  clear. intros ND A. unfold write_allowed, write_ops, apply_write in *. cbv zeta in *. set (p := record_path _ _) in *.
  assert (NC : NoDup (keys (cids_of digest recs))) by (rewrite keys_cids_of; auto).
  destruct (w_action w).
  - destruct A as (_ & G & v & V & _). rewrite V. cbn [app replay op_action op_cid op_prev op_path].
    rewrite dget_cids_of, G. cbn [option_map]. eexists. split; [reflexivity|]. split; [apply dset_NoDup; auto|].
    intros k. rewrite dget_dset, !dget_cids_of, dget_dset. destruct (str_eqb k p); auto.
  - destruct A as (G & v & V & _). rewrite V. destruct (dget p recs) as [x|] eqn:GX; [|congruence]. cbn [option_map].
    destruct (str_eqb_spec (rcid digest x) (rcid digest v)) as [EQ|NE].
    + cbn [app]. eexists. split; [reflexivity|]. split; auto. intros k. rewrite !dget_cids_of, dget_dset.
      destruct (str_eqb_spec k p) as [->|]; auto. rewrite GX. cbn [option_map]. rewrite EQ. reflexivity.
    + cbn [app replay op_action op_cid op_prev op_path]. rewrite dget_cids_of, GX. cbn [option_map]. rewrite str_eqb_refl.
      eexists. split; [reflexivity|]. split; [apply dset_NoDup; auto|].
      intros k. rewrite dget_dset, !dget_cids_of, dget_dset. destruct (str_eqb k p); auto.
  - destruct (dget p recs) as [x|] eqn:GX; [|congruence]. cbn [app replay op_action op_cid op_prev op_path option_map].
    rewrite dget_cids_of, GX. cbn [option_map]. rewrite str_eqb_refl.
    eexists. split; [reflexivity|]. split; [apply ddel_NoDup; auto|].
    intros k. rewrite dget_ddel, !dget_cids_of, dget_ddel by auto. destruct (str_eqb k p); auto.
Qed.

Lemma replay_ops ws : forall recs, NoDup (keys recs) -> writes_allowed validate recs ws ->
  exists d, replay (cids_of digest recs) (commit_ops digest recs ws) = Some d /\
    forall k, dget k d = dget k (cids_of digest (apply_writes recs ws)).
Proof.
  clear. induction ws as [|w ws IH]; intros recs ND WA.
  - exists (cids_of digest recs). auto.
  - destruct WA as [A WA]. cbn [commit_ops apply_writes fold_left].
    destruct (replay_write recs w (commit_ops digest (apply_write recs w) ws) ND A) as (d & E & NDd & ED). rewrite E.
    assert (ND1 : NoDup (keys (apply_write recs w))) by (apply apply_write_nodup; auto).
    destruct (IH _ ND1 WA) as (d' & E' & ED').
    destruct (replay_same (commit_ops digest (apply_write recs w) ws) (cids_of digest (apply_write recs w)) d d') as (x & E2 & EX); auto.
    { rewrite keys_cids_of. auto. }
    exists x. split; auto. intros k. rewrite <- EX. apply ED'.
Qed.

Lemma commit_ops_update ws : forall recs op, In op (commit_ops digest recs ws) -> op_action op = UPDATE -> op_cid op <> op_prev op.
Proof.
  clear. induction ws as [|w ws IH]; intros recs op HI; [destruct HI|].
  cbn [commit_ops] in HI. apply in_app_or in HI as [HI|HI]; [|eapply IH; eauto].
  unfold write_ops in HI. cbv zeta in HI. set (p := record_path _ _) in *.
  destruct (w_action w), (w_record w) as [v|]; cbn [In option_map] in HI; try (destruct HI as [<-|[]]; discriminate); try (destruct HI; fail).
  destruct (dget p recs) as [x|]; cbn [In option_map] in HI; [|destruct HI].
  destruct (str_eqb_spec (rcid digest x) (rcid digest v)); [destruct HI|]. destruct HI as [<-|[]]. cbn [op_cid op_prev]. intros _ X. congruence.
Qed.

Lemma commit_ops_app a : forall recs b, commit_ops digest recs (a ++ b) = commit_ops digest recs a ++ commit_ops digest (apply_writes recs a) b.
Proof. clear. induction a as [|w a IH]; intros recs b; cbn; auto. rewrite IH, app_assoc. reflexivity. Qed.

Lemma apply_writes_app a recs b : apply_writes recs (a ++ b) = apply_writes (apply_writes recs a) b.
Proof. clear. unfold apply_writes. apply fold_left_app. Qed.

(** Contents with the same CIDs give the same ops. *)
Lemma commit_ops_same ws : forall recs recs', NoDup (keys recs) -> NoDup (keys recs') ->
  (forall k, dget k (cids_of digest recs) = dget k (cids_of digest recs')) ->
  commit_ops digest recs ws = commit_ops digest recs' ws /\
  forall k, dget k (cids_of digest (apply_writes recs ws)) = dget k (cids_of digest (apply_writes recs' ws)).
Proof.
  clear. induction ws as [|w ws IH]; intros recs recs' ND ND' E; [auto|].
  cbn [commit_ops apply_writes fold_left].
  destruct (IH (apply_write recs w) (apply_write recs' w)) as [E1 E2]; auto using apply_write_nodup.
  - intros k. unfold apply_write. cbv zeta. set (p := record_path _ _). specialize (E k). rewrite !dget_cids_of in *.
    destruct (w_action w), (w_record w) as [v|]; rewrite ?dget_dset, ?dget_ddel by auto; destruct (str_eqb k p); auto.
  - rewrite E1. split; auto. f_equal. unfold write_ops. cbv zeta. set (p := record_path _ _).
    specialize (E p). rewrite !dget_cids_of in E. rewrite E. reflexivity.
Qed.

Lemma recs_nodup st refs bk did key recs : inv st refs bk -> dget did bk = Some (key, recs) -> NoDup (keys recs).
Proof.
  intros I B. destruct (i_book _ _ _ _ _ _ _ _ I _ _ _ B) as (_ & _ & o & _ & (b & root & _ & CH & _) & _).
  eapply chain_keys; eauto.
Qed.

Lemma c20_ops ops w outs h ws w' cd : history ops w outs -> sstep w (SCommit h ws) = (w', Ok (OutCommit cd)) ->
  exists did key recs, handle_did w h = Some did /\ dget did (book_of [] ops outs) = Some (key, recs) /\
    b_ops (cd_commit cd) = Some (commit_ops digest recs ws) /\
    exists d, replay (cids_of digest recs) (commit_ops digest recs ws) = Some d /\
      forall p, dget p d = dget p (cids_of digest (apply_writes recs ws)).
Proof.
  intros H E. destruct (hist_commit _ _ _ _ _ _ _ H E) as (r0 & o0 & did & key0 & recs0 & key & recs & HR & HO & G & B & ST & CP & C & RE & HD & CD & I).
  exists did, key, recs. splits; auto.
  - exact (c_ops _ _ _ _ _ _ _ _ _ _ _ _ _ _ C).
  - apply replay_ops; [eapply recs_nodup; eauto|apply CP].
Qed.

Lemma c21_updates ops w outs h ws w' cd l : history ops w outs -> sstep w (SCommit h ws) = (w', Ok (OutCommit cd)) ->
  b_ops (cd_commit cd) = Some l -> forall op, In op l -> op_action op = UPDATE -> op_cid op <> op_prev op.
Proof.
  intros H E BO. destruct (hist_commit _ _ _ _ _ _ _ H E) as (r0 & o0 & did & key0 & recs0 & key & recs & HR & HO & G & B & ST & CP & C & RE & HD & CD & I).
  rewrite (c_ops _ _ _ _ _ _ _ _ _ _ _ _ _ _ C) in BO. injection BO as <-. intros op. apply commit_ops_update.
Qed.

Lemma c21_noop ops w outs h a u b w' cd : history ops w outs ->
  sstep w (SCommit h (a ++ u :: b)) = (w', Ok (OutCommit cd)) ->
  exists did key recs, handle_did w h = Some did /\ dget did (book_of [] ops outs) = Some (key, recs) /\
    forall v v', w_action u = UPDATE -> w_record u = Some v ->
      dget (record_path (w_collection u) (w_rkey u)) (apply_writes recs a) = Some v' -> norm v' = norm v ->
      b_ops (cd_commit cd) = Some (commit_ops digest recs (a ++ b)) /\
      forall p, dget p (cids_of digest (apply_writes recs (a ++ u :: b))) = dget p (cids_of digest (apply_writes recs (a ++ b))).
Proof.
  intros H E. destruct (hist_commit _ _ _ _ _ _ _ H E) as (r0 & o0 & did & key0 & recs0 & key & recs & HR & HO & G & B & ST & CP & C & RE & HD & CD & I).
  exists did, key, recs. splits; auto. intros v v' WU WR GV EN.
  rewrite (c_ops _ _ _ _ _ _ _ _ _ _ _ _ _ _ C).
  pose proof (recs_nodup _ _ _ _ _ _ I B) as ND.
  assert (ER : rcid digest v' = rcid digest v) by (unfold rcid; congruence).
  assert (SAME : forall k, dget k (cids_of digest (apply_write (apply_writes recs a) u)) = dget k (cids_of digest (apply_writes recs a))).
  { intros k. unfold apply_write. cbv zeta. rewrite WU, WR. rewrite !dget_cids_of, dget_dset.
    destruct (str_eqb_spec k (record_path (w_collection u) (w_rkey u))) as [->|]; auto. rewrite GV. cbn. congruence. }
  assert (NDA : NoDup (keys (apply_writes recs a))) by (apply apply_writes_nodup; auto).
  destruct (commit_ops_same b (apply_write (apply_writes recs a) u) (apply_writes recs a)) as [E1 E2]; auto using apply_write_nodup.
  split.
  - rewrite !commit_ops_app. cbn [commit_ops]. rewrite E1. do 2 f_equal.
    unfold write_ops. cbv zeta. rewrite WU, WR, GV. cbn [option_map]. rewrite ER, str_eqb_refl. reflexivity.
  - intros p. rewrite !apply_writes_app. cbn [apply_writes fold_left]. apply E2.
Qed.

(** ** Success and failure *)

Lemma c57_iff ops w outs h ws w' out o did key recs : history ops w outs -> handle_obj w h = Some o -> r_status o = None ->
  handle_did w h = Some did -> dget did (book_of [] ops outs) = Some (key, recs) -> sstep w (SCommit h ws) = (w', out) ->
  (writes_allowed validate recs ws /\ (len ws <= 200)%N /\ (s_next (w_state w) < 2 ^ 55)%Z /\ (exists cd, out = Ok (OutCommit cd))) \/
  (~ (writes_allowed validate recs ws /\ (len ws <= 200)%N /\ (s_next (w_state w) < 2 ^ 55)%Z) /\
   (exists e, out = Err e /\ commit_fails validate recs ws (s_next (w_state w)) e) /\
   s_blocks (w_state w') = s_blocks (w_state w) /\ s_ents (w_state w') = s_ents (w_state w)).
Proof.
  intros H HOB ST HD B E. destruct (hist_facts _ _ _ H) as [I _].
  pose proof (step_eff w _ (SCommit h ws) _ _ I Logic.I E) as EF.
  unfold handle_obj in HOB. destruct (nth_error (w_refs w) h) as [r|] eqn:HR; [|discriminate].
  assert (HD' : forall bl d k rc, good bl d k rc o -> d = did).
  { intros bl d k rc G. pose proof (good_handle_did _ _ _ _ w h r o bl d k rc HR HOB G). congruence. }
  destruct w as [st refs], w' as [st' refs']; cbn [w_state w_refs] in *.
  inversion EF; subst.
  - exfalso. unfold StorageModel.sstep, on_ref in E. cbn [w_refs w_state] in E. rewrite HR in E.
    destruct (i_ref _ _ _ _ _ _ _ _ I r (nth_error_In _ _ HR)) as (o1 & d1 & k1 & rc1 & HO1 & G1 & _).
    rewrite HOB in HO1. injection HO1 as <-. assert (d1 = did) as -> by eauto.
    destruct (commit_ok digest kdigest validate ecdsa now cb be s_klen s_inj s_plain s_quiet st' refs' _ r o did k1 rc1 key recs ws I
        (nth_error_In _ _ HR) HOB G1 B ST) as [(CP & st2 & cd & E2 & C)|(NC & oo & st1 & r1 & m' & e & HS & L & E2 & CF & KEEP)].
    + rewrite (bindM_ok _ _ _ _ _ E2) in E. injection E as E3 E4. subst out. destruct (H0 _ eq_refl) as [X _]. discriminate X.
    + rewrite (bindM_err _ _ _ _ _ E2) in E. injection E as E3 E4.
      apply (f_equal s_next) in E3. rewrite called_next in E3. cbn [upd set_objs s_next] in E3.
      destruct (loaded_facts be (alloc st') did oo st1 r1) as (F1 & _); auto. rewrite F1 in E3. cbn in E3. lia.
  - exfalso. congruence.
  - left. assert (o0 = o) as -> by congruence. assert (did0 = did) as -> by eauto.
    assert (recs1 = recs) as -> by congruence. match goal with HC : commit_possible _ _ _ _ |- _ => destruct HC as (A1 & A2 & A3) end. splits; eauto.
  - right. assert (o0 = o) as -> by congruence. assert (did0 = did) as -> by eauto.
    assert (recs1 = recs) as -> by congruence.
    destruct (loaded_facts be (alloc st) did o1 st1 r1) as (F1 & F2 & F3 & F4 & F5 & _); auto.
    splits; auto; eauto.
    + rewrite called_blocks. cbn [upd set_objs s_blocks]. rewrite F2. reflexivity.
    + rewrite called_ents. cbn [upd set_objs s_ents]. rewrite F5. reflexivity.
  - discriminate.
Qed.

(** ** The chain of commits *)

Lemma commit_of_rev b did key prev root : commit_of ecdsa b did key prev root ->
  exists rev, item_text (s "rev") (b_val b) = Ok rev /\ int_to_tid (b_seq b) 0 = Ok rev.
Proof. intros (rev & A & _ & ->). exists rev. split; auto. Qed.

Lemma tchain_chain st did key b l : store_ok digest kdigest (s_blocks st) (s_next st) ->
  tchain digest kdigest validate ecdsa (s_blocks st) did key b l -> commit_chain kdigest ecdsa st did key b l.
Proof.
  intros SO. assert (SH : forall b root recs, chain (s_blocks st) did key b root recs ->
    shows kdigest st (Repo (mst_load root) (Some b) None None false key) recs).
  { intros b1 root recs C. eapply good_shows. exists b1, root. splits; eauto. eapply chain_snapshot; eauto. }
  assert (SQ : forall b, dget (b_cid b) (s_blocks st) = Some b -> (0 < b_seq b)%Z).
  { intros b1 H. destruct (so_block _ _ _ _ SO _ _ H) as (_ & _ & X & _). lia. }
  induction 1 as [b root C CO|cd root recs b' l T IH C CO LT].
  - eapply cc_first; eauto. eapply chain_read; eauto.
  - assert (CB : exists prev' root', commit_of ecdsa b' did key prev' root' /\ dget (b_cid b') (s_blocks st) = Some b').
    { inversion T; subst; eauto 10 using chain_read. }
    destruct CB as (prev' & root' & CO' & RB').
    destruct (commit_of_rev _ _ _ _ _ CO') as (x & X1 & X2). destruct (commit_of_rev _ _ _ _ _ CO) as (y & Y1 & Y2).
    eapply cc_next; eauto; [eapply chain_read; eauto|].
    assert (BND : forall b r, int_to_tid (b_seq b) 0 = Ok r -> dget (b_cid b) (s_blocks st) = Some b -> (0 <= b_seq b < 2 ^ 55)%Z).
    { intros b1 r E H. split; [specialize (SQ _ H); lia|]. destruct (Z_lt_le_dec (b_seq b1) (2 ^ 55)) as [L|L]; auto.
      rewrite (tid_too_large _ 0 L) in E. discriminate. }
    apply (tid_order (b_seq b') (b_seq (cd_commit cd)) 0); eauto.
    + eapply BND; eauto. eapply chain_read; eauto.
    + lia.
Qed.

Lemma c22_chain ops w outs did key recs : history ops w outs -> dget did (book_of [] ops outs) = Some (key, recs) ->
  exists l o b, dget did (trail_of [] ops outs) = Some l /\ seen be (w_state w) did = Some o /\ r_head o = Some b /\
    commit_chain kdigest ecdsa (w_state w) did key b l /\ last_recs l = recs.
Proof.
  intros H B. destruct (hist_facts _ _ _ H) as [I T]. destruct (T _ _ _ B) as (l & o & b & T1 & T2 & T3 & T4 & T5).
  destruct (seen_stored _ _ _ _ _ _ I B) as (o' & S1 & HS & _). exists l, o, b. splits; auto; [congruence|].
  apply tchain_chain; auto. exact (i_store _ _ _ _ _ _ _ _ I).
Qed.

(** ** Inactive repos *)

Lemma c23_object ops w outs h o x ws : history ops w outs -> handle_obj w h = Some o -> r_status o = Some x ->
  exists w', sstep w (SCommit h ws) = (w', Err InactiveRepo) /\ unchanged be w w'.
Proof.
  intros H HO ST. destruct (hist_facts _ _ _ H) as [I _].
  assert (E : exists w', sstep w (SCommit h ws) = (w', Err InactiveRepo)).
  { unfold handle_obj in HO. unfold StorageModel.sstep, on_ref. destruct (nth_error (w_refs w) h) as [r|]; [|discriminate].
    rewrite (bindM_err _ _ _ _ _ (commit_inactive digest kdigest validate ecdsa cb be s_klen s_inj s_quiet (w_state w) r o x ws HO ST
         (i_next _ _ _ _ _ _ _ _ I) None)). eauto. }
  destruct E as (w' & E). exists w'. split; auto. eapply failed_unchanged; eauto; [exact Logic.I|].
  intros _. left. eauto.
Qed.

Lemma c23_inactive ops w outs h o did o' x ws : history ops w outs -> handle_obj w h = Some o -> handle_did w h = Some did ->
  seen be (w_state w) did = Some o' -> r_status o' = Some x ->
  (r_status o = r_status o' \/ be = Memory /\ attached_ref be w did h) ->
  exists w', sstep w (SCommit h ws) = (w', Err InactiveRepo) /\ unchanged be w w'.
Proof.
  intros H HO HD S1 ST [E|[BE AT]].
  - apply (c23_object ops w outs h o x ws H HO). congruence.
  - destruct (hist_facts _ _ _ H) as [I _].
    assert (o' = o).
    { destruct (AT BE) as (r & A1 & A2). unfold handle_obj in HO. rewrite A2 in HO.
      destruct (i_ref _ _ _ _ _ _ _ _ I r (nth_error_In _ _ A2)) as (o1 & d1 & k1 & rc1 & HO1 & G1 & B1).
      rewrite HO in HO1. injection HO1 as <-.
      assert (d1 = did) as -> by (pose proof (good_handle_did _ _ _ _ w h r o _ _ _ _ A2 HO G1); congruence).
      destruct (dget did (book_of [] ops outs)) as [[k rc]|] eqn:B; [|congruence].
      destruct (seen_stored _ _ _ _ _ _ I B) as (o2 & S2 & HS & _). rewrite S1 in S2. injection S2 as <-.
      unfold RepoProofs.stored_repo in HS. rewrite BE, A1 in HS. congruence. }
    subst o'. eapply c23_object; eauto.
Qed.

(** A repo that is loaded now. *)
Lemma c23_fresh ops w outs did o x ws : history ops w outs -> seen be (w_state w) did = Some o -> r_status o = Some x -> is_did did ->
  exists w1 w2, sstep w (SLoad did) = (w1, Ok OutRepo) /\
    sstep w1 (SCommit (length (w_refs w)) ws) = (w2, Err InactiveRepo) /\ unchanged be w1 w2 /\
    s_blocks (w_state w1) = s_blocks (w_state w).
Proof.
  intros H S1 ST ID. unfold seen in S1.
  destruct (load_repo be did (w_state w)) as [st1 [[r|]|e]] eqn:L; try discriminate S1.
  assert (E1 : sstep w (SLoad did) = (World st1 (w_refs w ++ [r]), Ok OutRepo)).
  { unfold StorageModel.sstep, on_new. rewrite L. reflexivity. }
  assert (H1 : history (ops ++ [SLoad did]) (World st1 (w_refs w ++ [r])) (outs ++ [Ok OutRepo])).
  { eapply hist_snoc; eauto; [exact Logic.I|]. intros _. exact Logic.I. }
  assert (HO : handle_obj (World st1 (w_refs w ++ [r])) (length (w_refs w)) = Some o).
  { unfold handle_obj. cbn [w_refs w_state]. rewrite nth_error_app2 by auto. rewrite Nat.sub_diag. exact S1. }
  destruct (c23_object _ _ _ _ _ _ ws H1 HO ST) as (w2 & E2 & U).
  exists (World st1 (w_refs w ++ [r])), w2. splits; auto.
  destruct (hist_facts _ _ _ H) as [I _]. pose proof (step_eff w _ (SLoad did) _ _ I Logic.I E1) as EF.
  cbn [w_state] in *. destruct (load_did digest be s_inj (w_state w) did (inv_named _ _ _ _ _ _ _ _ I) ID)
    as [(L' & _)|(o2 & st2 & r2 & HS' & _ & L' & LD)]; [congruence|].
  destruct (loaded_facts be _ _ _ _ _ HS' L') as (_ & F2 & _). congruence.
Qed.

(** ** Status changes *)

Lemma event_value_block did type seq extra :
  b_val (event_block digest now did type seq extra) = event_value now type seq did extra.
Proof. reflexivity. Qed.

Lemma c24_status ops w outs op h x type extra o : history ops w outs -> status_op op = Some (h, x, type, extra) ->
  handle_obj w h = Some o ->
  exists w' did, sstep w op = (w', Ok OutDone) /\ handle_did w h = Some did /\ w_refs w' = w_refs w /\
    handle_obj w' h = Some (with_status x o) /\
    (attached_ref be w did h -> exists o1, seen be (w_state w) did = Some o1 /\ seen be (w_state w') did = Some (with_status x o1)) /\
    s_next (w_state w') = (s_next (w_state w) + 1)%Z /\
    exists b, s_blocks (w_state w') = s_blocks (w_state w) ++ [(b_cid b, b)] /\ read (w_state w) (b_cid b) = None /\
      b_val b = event_value now type (s_next (w_state w)) did extra /\ b_seq b = s_next (w_state w) /\ b_repo b = Some did /\
      s_calls (w_state w') = (if r_callback o then [CData (MEvent (b_val b))] else []) ++ s_calls (w_state w).
Proof.
  intros H SO HO. destruct (hist_facts _ _ _ H) as [I _].
  assert (ON : op_named op) by (destruct op; try discriminate SO; exact Logic.I).
  destruct (sstep w op) as [w' out] eqn:E. pose proof (step_eff _ _ _ _ _ I ON E) as EF.
  unfold handle_obj in HO. destruct (nth_error (w_refs w) h) as [r|] eqn:HR; [|discriminate].
  destruct (i_ref _ _ _ _ _ _ _ _ I r (nth_error_In _ _ HR)) as (o1 & did & key & recs & HO1 & G & B).
  rewrite HO in HO1. injection HO1 as <-.
  assert (HD : handle_did w h = Some did) by (eapply good_handle_did; eauto).
  destruct (dget did (book_of [] ops outs)) as [[k2 recs2]|] eqn:BK; [|congruence].
  destruct (seen_stored _ _ _ _ _ _ I BK) as (os & S1 & HS & _).
  assert (OUT : out = Ok OutDone /\ w_refs w' = w_refs w).
  { destruct w as [st refs], w' as [st' refs']. cbn [w_state w_refs] in *. inversion EF; subst; try discriminate SO; auto.
    assert (OR : op_ref op = Some h) by (destruct op; try discriminate SO; injection SO as -> _ _ _; reflexivity).
    match goal with N : forall h, op_ref op = Some h -> _ |- _ => rewrite (N _ OR) in HR end. discriminate HR. }
  destruct OUT as [-> RE].
  destruct (effect_status _ _ _ _ _ _ _ _ _ _ _ _ _ _ _ _ _ _ _ I EF SO eq_refl ltac:(rewrite world_eta; exact HD) HS)
    as (AT & r1 & o2 & A1 & A2 & A3 & A4 & A5 & A6 & A7).
  replace r1 with r in * by congruence. replace o2 with o in * by congruence.
  exists w', did. splits; auto.
  - unfold handle_obj. rewrite RE, HR. auto.
  - intros AR. exists os. split; auto. specialize (AT ltac:(rewrite world_eta; exact AR)).
    assert (H' : history (ops ++ [op]) w' (outs ++ [Ok OutDone])).
    { eapply hist_snoc; eauto. intros _. destruct op; try discriminate SO; exact Logic.I. }
    destruct (hist_facts _ _ _ H') as [I' _]. rewrite (book_snoc _ _ _ _ _ H) in I'.
    assert (BS : book_step (book_of [] ops outs) op (Ok OutDone) = book_of [] ops outs) by (destruct op; try discriminate SO; reflexivity).
    rewrite BS in I'. destruct (seen_stored _ _ _ _ _ _ I' BK) as (os' & S1' & HS' & _). congruence.
  - exists (event_block digest now did type (s_next (w_state w)) extra). splits; auto.
    rewrite A7. destruct (r_callback o); reflexivity.
Qed.

(** ** Sequence numbers *)

Lemma fresh_seq st refs bk c b : inv st refs bk -> read st c = Some b -> (0 < b_seq b < s_next st)%Z /\ b_cid b = c.
Proof.
  intros I H. destruct (so_block _ _ _ _ (i_store _ _ _ _ _ _ _ _ I) _ _ H) as (A & _ & X & _). split; auto.
Qed.

Lemma c28_commit ops w outs h o ws w' out : history ops w outs -> handle_obj w h = Some o -> sstep w (SCommit h ws) = (w', out) ->
  s_next (w_state w') = (s_next (w_state w) + 1)%Z /\
  match out with
  | Ok (OutCommit cd) =>
      read (w_state w') (b_cid (cd_commit cd)) = Some (cd_commit cd) /\ b_seq (cd_commit cd) = s_next (w_state w) /\
      s_calls (w_state w') = (if r_callback o then [CData (MCommit cd)] else []) ++ s_calls (w_state w)
  | Ok _ => False
  | Err _ =>
      (forall c b, read (w_state w') c = Some b -> b_seq b <> s_next (w_state w)) /\
      s_calls (w_state w') = (if r_callback o then [CLost (s_next (w_state w))] else []) ++ s_calls (w_state w)
  end.
Proof.
  intros H HO E. destruct (hist_facts _ _ _ H) as [I _]. pose proof (step_eff w _ (SCommit h ws) _ _ I Logic.I E) as EF.
  unfold handle_obj in HO. destruct (nth_error (w_refs w) h) as [r|] eqn:HR; [|discriminate].
  assert (CALLED : forall o c st, s_calls (called o c st) = (if r_callback o then [c] else []) ++ s_calls st).
  { clear. intros o c st. unfold called. destruct (r_callback o); reflexivity. }
  assert (FR : forall c b, read (w_state w) c = Some b -> b_seq b <> s_next (w_state w)).
  { intros c b R. destruct (fresh_seq _ _ _ _ _ I R). lia. }
  destruct w as [st refs], w' as [st' refs']. cbn [w_state w_refs] in *.
  inversion EF; subst.
  - match goal with N : forall h, op_ref _ = Some h -> _ |- _ => rewrite (N _ eq_refl) in HR end. discriminate HR.
  - assert (r0 = r) as -> by congruence. assert (o0 = o) as -> by congruence.
    rewrite called_next, CALLED. splits; auto. unfold read. rewrite called_blocks. exact FR.
  - assert (r0 = r) as -> by congruence. assert (o0 = o) as -> by congruence.
    match goal with X : committed _ _ _ _ _ _ _ _ _ |- _ => pose proof X as C end.
    rewrite (c_next _ _ _ _ _ _ _ _ _ _ _ _ _ _ C), (c_seq _ _ _ _ _ _ _ _ _ _ _ _ _ _ C), (c_calls _ _ _ _ _ _ _ _ _ _ _ _ _ _ C).
    splits; auto; [|destruct (r_callback o); reflexivity].
    destruct (c_objs _ _ _ _ _ _ _ _ _ _ _ _ _ _ C) as (so & root & m' & _ & _ & CH & _). exact (chain_read _ _ _ _ _ _ _ _ _ _ CH).
  - assert (r0 = r) as -> by congruence. assert (o0 = o) as -> by congruence.
    destruct (loaded_facts be (alloc st) did o1 st1 r1) as (F1 & F2 & F3 & F4 & F5 & F6 & F7 & F8 & F9); auto.
    rewrite called_next, CALLED. splits; auto.
    + unfold read. rewrite called_blocks. cbn [upd set_objs s_blocks]. rewrite F2. exact FR.
    + cbn [upd set_objs s_calls]. rewrite F3. reflexivity.
  - discriminate.
Qed.

Lemma c28_create ops w outs did handle status hc key w' out : history ops w outs -> is_did did -> handle_ok handle ->
  sstep w (SCreate did handle status hc key) = (w', out) ->
  let n := s_next (w_state w) in
  match out with
  | Ok _ => s_next (w_state w') = (n + 4)%Z /\ exists cd e1 e2 e3,
      (forall b, In b [cd_commit cd; e1; e2; e3] -> read (w_state w') (b_cid b) = Some b /\ read (w_state w) (b_cid b) = None) /\
      b_seq (cd_commit cd) = n /\ b_seq e1 = (n + 1)%Z /\ b_seq e2 = (n + 2)%Z /\ b_seq e3 = (n + 3)%Z /\
      b_val e1 = event_value now (s "identity") (n + 1) did [(s "handle", opt_text handle)] /\
      b_val e2 = event_value now (s "account") (n + 2) did [(s "active", IBool true)] /\
      (exists rev, int_to_tid n 0 = Ok rev /\ b_val e3 = event_value now (s "sync") (n + 3) did
         [(s "blocks", IBytes (write_car [b_cid (cd_commit cd)] [(b_cid (cd_commit cd), encode (b_val (cd_commit cd)))])); (s "rev", IText rev)]) /\
      s_calls (w_state w') = (if hc then [CData (MCommit cd); CData (MEvent (b_val e3)); CData (MEvent (b_val e2));
          CData (MEvent (b_val e1)); CData (MCommit cd)] else []) ++ s_calls (w_state w)
  | Err _ => s_next (w_state w') = (n + 1)%Z /\ (forall c b, read (w_state w') c = Some b -> b_seq b <> n) /\
      s_calls (w_state w') = (if hc then [CLost n] else []) ++ s_calls (w_state w)
  end.
Proof.
  intros H ID HN E. destruct (hist_facts _ _ _ H) as [I _]. pose proof (step_eff w _ (SCreate did handle status hc key) _ _ I (conj ID HN) E) as EF.
  assert (FR : forall c b, read (w_state w) c = Some b -> b_seq b <> s_next (w_state w)).
  { intros c b R. destruct (fresh_seq _ _ _ _ _ I R). lia. }
  destruct w as [st refs], w' as [st' refs']. cbn [w_state w_refs] in *. cbv zeta.
  destruct out as [v|e].
  - destruct (effect_create _ _ _ _ _ _ _ _ _ _ _ _ _ _ _ _ _ I EF) as (cd & -> & -> & CR & _).
    split; [exact (n_next _ _ _ _ _ _ _ _ _ _ _ _ _ _ CR)|].
    destruct (n_commit _ _ _ _ _ _ _ _ _ _ _ _ _ _ CR) as (rev & RV & BL & CA & ND & FRE).
    exists cd, (event_block digest now did (s "identity") (s_next st + 1) (identity_extra handle)),
      (event_block digest now did (s "account") (s_next st + 2) active_extra),
      (event_block digest now did (s "sync") (s_next st + 3) (sync_extra (cd_commit cd) rev)).
    splits; auto.
    + assert (CB : dget (b_cid (cd_commit cd)) (fold_left dsetdefault (cd_blocks cd) (s_blocks st)) = Some (cd_commit cd)).
      { destruct (n_chain _ _ _ _ _ _ _ _ _ _ _ _ _ _ CR) as (root & CH & _). pose proof (chain_read _ _ _ _ _ _ _ _ _ _ CH) as R.
        rewrite BL, dget_app in R. destruct (dget (b_cid (cd_commit cd)) (fold_left _ _ _)) as [x|] eqn:X; auto.
        exfalso. rewrite fold_setdefault_get in X. rewrite (n_fresh _ _ _ _ _ _ _ _ _ _ _ _ _ _ CR) in X.
        pose proof (n_in _ _ _ _ _ _ _ _ _ _ _ _ _ _ CR). congruence. }
      intros b [<-|IN].
      * split; [|exact (n_fresh _ _ _ _ _ _ _ _ _ _ _ _ _ _ CR)]. unfold read. rewrite BL, dget_app, CB. reflexivity.
      * pose proof (FRE _ IN) as FB. split.
        -- unfold read. rewrite BL, dget_app, FB. clear - IN ND. apply NoDup_cons_iff in ND. destruct ND as [N1 ND].
           apply NoDup_cons_iff in ND. destruct ND as [N2 ND]. cbn [In] in *. cbn [dget].
           destruct IN as [<-|[<-|[<-|[]]]].
           ++ rewrite str_eqb_refl. reflexivity.
           ++ destruct (str_eqb_spec (b_cid (event_block digest now did (s "account") (s_next st + 2) active_extra))
                (b_cid (event_block digest now did (s "identity") (s_next st + 1) (identity_extra handle)))) as [X|]; [exfalso; apply N1; auto|].
              rewrite str_eqb_refl. reflexivity.
           ++ destruct (str_eqb_spec (b_cid (event_block digest now did (s "sync") (s_next st + 3) (sync_extra (cd_commit cd) rev)))
                (b_cid (event_block digest now did (s "identity") (s_next st + 1) (identity_extra handle)))) as [X|]; [exfalso; apply N1; auto|].
              destruct (str_eqb_spec (b_cid (event_block digest now did (s "sync") (s_next st + 3) (sync_extra (cd_commit cd) rev)))
                (b_cid (event_block digest now did (s "account") (s_next st + 2) active_extra))) as [X|]; [exfalso; apply N2; auto|].
              rewrite str_eqb_refl. reflexivity.
        -- rewrite fold_setdefault_get in FB. unfold read. destruct (dget (b_cid b) (s_blocks st)); [discriminate FB|reflexivity].
    + exact (n_seq _ _ _ _ _ _ _ _ _ _ _ _ _ _ CR).
    + exists rev. split; auto.
  - inversion EF; subst.
    + discriminate.
    + rewrite called_next. splits; auto.
      * unfold read. rewrite called_blocks. exact FR.
      * unfold called. destruct (r_callback o); reflexivity.
Qed.

(** Other operations use no number and call nobody. *)
Lemma c28_other ops w outs op w' out : history ops w outs -> sstep w op = (w', out) ->
  match op with SLoad _ | SLoadAt _ _ | SCallback _ _ => True | _ => False end ->
  s_next (w_state w') = s_next (w_state w) /\ s_blocks (w_state w') = s_blocks (w_state w) /\ s_calls (w_state w') = s_calls (w_state w).
Proof.
  intros H E C. destruct (hist_facts _ _ _ H) as [I _].
  assert (ON : op_named op) by (destruct op; try contradiction; exact Logic.I).
  pose proof (step_eff w _ op _ _ I ON E) as EF. destruct w as [st refs], w' as [st' refs']. cbn [w_state w_refs] in *.
  inversion EF; subst; try contradiction; auto.
  - match goal with X : loaded _ _ _ _ _ _ |- _ => rename X into L end.
    destruct (loaded_facts be st did o st' r) as (F1 & F2 & F3 & _); auto.
  - destruct op; contradiction || discriminate.
Qed.

(** ** Blocks stay *)

Lemma c26_kept ops w outs op w' out c b : history ops w outs -> op_named op -> sstep w op = (w', out) ->
  read (w_state w) c = Some b -> read (w_state w') c = Some b.
Proof.
  intros H ON E R. destruct (hist_facts _ _ _ H) as [I _]. pose proof (step_eff w _ op _ _ I ON E) as EF.
  destruct (effect_extends _ _ _ _ _ _ _ _ _ _ _ _ _ I EF) as [EX _]. exact (EX _ _ R).
Qed.

Lemma c26_cid ops w outs c b : history ops w outs -> read (w_state w) c = Some b ->
  b_cid b = c /\ c = cid_of digest (b_val b) /\ (0 < b_seq b < s_next (w_state w))%Z.
Proof.
  intros H R. destruct (hist_facts _ _ _ H) as [I _].
  destruct (so_block _ _ _ _ (i_store _ _ _ _ _ _ _ _ I) _ _ R) as (A & B & X & _). auto.
Qed.

(** ** Isolation *)

Lemma c58_isolated ops w outs op w' out did key recs : history ops w outs -> op_named op ->
  (be = Memory -> clean_step w op out) -> sstep w op = (w', out) -> op_did w op <> Some did ->
  dget did (book_of [] ops outs) = Some (key, recs) ->
  (exists o o', seen be (w_state w) did = Some o /\ seen be (w_state w') did = Some o' /\ same_repo o o' /\
     shows kdigest (w_state w) o recs /\ shows kdigest (w_state w') o' recs) /\
  (forall h o, handle_obj w h = Some o -> handle_did w h = Some did ->
     exists o', handle_obj w' h = Some o' /\ handle_did w' h = Some did /\ same_repo o o').
Proof.
  intros H ON CL E ND B. destruct (hist_facts _ _ _ H) as [I _].
  pose proof (hist_snoc _ _ _ _ _ _ H ON CL E) as H'. destruct (hist_facts _ _ _ H') as [I' _].
  pose proof (step_eff w _ op _ _ I ON E) as EF.
  assert (CM : forall h ws cd, op = SCommit h ws -> out = Ok (OutCommit cd) -> commit_did cd <> did).
  { intros h ws cd -> -> ED. destruct (hist_commit _ _ _ _ _ _ _ H E) as (_ & _ & d & _ & _ & _ & _ & _ & _ & _ & _ & _ & _ & _ & _ & HD & CD & _).
    cbn [op_did] in ND. congruence. }
  assert (NT : ~ touches be w op out did).
  { destruct op; cbn [touches op_did] in *; auto; destruct out as [v|]; try tauto; try congruence.
    destruct v; auto. intros X. eapply CM; eauto. }
  assert (B' : dget did (book_of [] (ops ++ [op]) (outs ++ [out])) = Some (key, recs)).
  { rewrite (book_snoc _ _ _ _ _ H). destruct op; auto; cbn [book_step]; destruct out as [v|]; auto.
    - rewrite dget_dset. cbn [op_did] in ND. destruct (str_eqb_spec did did0); congruence.
    - destruct v; auto. destruct (dget (commit_did cd) (book_of [] ops outs)) as [[k2 r2]|]; auto.
      rewrite dget_dset. destruct (str_eqb_spec did (commit_did cd)) as [->|]; auto. exfalso. eapply CM; eauto. }
  assert (CL' : be = Memory -> clean_step (World (w_state w) (w_refs w)) op out) by (rewrite world_eta; auto).
  split.
  - destruct (seen_stored _ _ _ _ _ _ I B) as (o & S1 & HS & G & _). destruct (seen_stored _ _ _ _ _ _ I' B') as (o' & S1' & HS' & G' & _).
    exists o, o'. splits; auto; try (eapply good_shows; eauto).
    destruct (effect_untouched _ _ _ _ _ _ _ _ _ _ _ _ _ did o I EF CL') as (o2 & X & Y); auto; congruence.
  - intros h o HO HD. unfold handle_obj in HO. destruct (nth_error (w_refs w) h) as [r|] eqn:HR; [|discriminate].
    destruct (effect_obj _ _ _ _ _ _ _ _ _ _ _ _ _ r o I EF CL' (nth_error_In _ _ HR) HO) as (o' & N & D & HH & K & ST & HE).
    assert (HR' : nth_error (w_refs w') h = Some r).
    { destruct (effect_new _ _ _ _ _ _ _ _ _ _ _ _ _ I EF) as [(-> & _)|(r2 & o2 & -> & _)]; auto. apply nth_app_some. auto. }
    assert (HD' : handle_did w' h = Some did).
    { unfold handle_did, handle_obj in *. rewrite HR'. rewrite HR in HD. rewrite HO in HD. rewrite N, D. auto. }
    exists o'. unfold handle_obj at 1. rewrite HR'. splits; auto. unfold same_repo.
    assert (RD : repo_did o = Ok (Some did)).
    { unfold handle_did, handle_obj in HD. rewrite HR, HO in HD. destruct (repo_did o); congruence. }
    assert (ST' : r_status o' = r_status o).
    { destruct ST as [?|(h2 & x & t & e & SO & H2 & _)]; auto. exfalso. apply ND.
      assert (HD2 : handle_did w h2 = Some did).
      { unfold handle_did, handle_obj in *. rewrite H2, HO. rewrite HR, HO in HD. auto. }
      destruct op; try discriminate SO; injection SO as -> _ _ _; exact HD2. }
    destruct HE as [[A1 A2]|(h2 & ws & cd & d & -> & -> & RD' & CD)]; [auto 6|].
    exfalso. eapply CM; eauto. congruence.
Qed.

(** ** Final forms *)

Lemma c18_full ops w outs did : history ops w outs ->
  match dget did (book_of [] ops outs) with
  | Some (key, recs) => exists o, seen be (w_state w) did = Some o /\ shows kdigest (w_state w) o recs /\ r_key o = key
  | None => is_did did -> load_repo be did (w_state w) = (w_state w, Ok None)
  end.
Proof.
  intros H. destruct (dget did (book_of [] ops outs)) as [[key recs]|] eqn:B; [eapply c18_map; eauto|].
  intros ID. eapply c18_none; eauto.
Qed.

Lemma hist_book ops w outs h o : history ops w outs -> handle_obj w h = Some o ->
  exists did key recs, handle_did w h = Some did /\ dget did (book_of [] ops outs) = Some (key, recs).
Proof.
  intros H HO. destruct (hist_facts _ _ _ H) as [I _]. unfold handle_obj in HO.
  destruct (nth_error (w_refs w) h) as [r|] eqn:HR; [|discriminate].
  destruct (i_ref _ _ _ _ _ _ _ _ I r (nth_error_In _ _ HR)) as (o1 & did & key & recs & HO1 & G & B).
  destruct (dget did (book_of [] ops outs)) as [[k rc]|] eqn:BK; [|congruence]. exists did, k, rc. split; auto.
  eapply good_handle_did; eauto.
Qed.

Lemma c57_too_many ops w outs h ws o : history ops w outs -> handle_obj w h = Some o -> r_status o = None -> (200 < len ws)%N ->
  (s_next (w_state w) < 2 ^ 55)%Z ->
  exists w', sstep w (SCommit h ws) = (w', Err ValueError) /\ unchanged be w w'.
Proof.
  intros H HO ST L LT. destruct (hist_book _ _ _ _ _ H HO) as (did & key & recs & HD & B).
  destruct (sstep w (SCommit h ws)) as [w' out] eqn:E.
  destruct (c57_iff _ _ _ _ _ _ _ _ _ _ _ H HO ST HD B E) as [(_ & X & _)|(_ & (e & -> & CF) & _)]; [lia|].
  assert (e = ValueError) as -> by (destruct CF as [[_ ?]|[[? _]|[? _]]]; [auto|lia|lia]).
  exists w'. split; auto. eapply c19_failed; eauto; [exact Logic.I|].
  intros _. right. split; auto. right. unfold len in L. lia.
Qed.

Lemma c57_too_large ops w outs h before u v after o did key recs : history ops w outs -> handle_obj w h = Some o -> r_status o = None ->
  handle_did w h = Some did -> dget did (book_of [] ops outs) = Some (key, recs) ->
  writes_allowed validate recs before -> w_record u = Some v -> w_action u <> DELETE -> validate v = Ok tt ->
  (w_action u = UPDATE -> dget (record_path (w_collection u) (w_rkey u)) (apply_writes recs before) <> None) ->
  (1000000 < len (dag_cbor_encode v))%N ->
  exists w', sstep w (SCommit h (before ++ u :: after)) = (w', Err ValueError) /\
    s_blocks (w_state w') = s_blocks (w_state w) /\ s_ents (w_state w') = s_ents (w_state w).
Proof.
  intros H HO ST HD B WA WR WD V UP L. destruct (sstep w (SCommit h (before ++ u :: after))) as [w' out] eqn:E.
  assert (NA : forall recs', (w_action u = UPDATE -> True) -> ~ write_allowed validate recs' u).
  { intros recs' _ A. unfold write_allowed in A. destruct (w_action u); [destruct A as (_ & _ & A)|destruct A as (_ & A)|congruence];
      destruct A as (v' & V' & _ & _ & X); rewrite WR in V'; injection V' as <-; lia. }
  assert (NAP : forall bs recs', writes_allowed validate recs' (bs ++ u :: after) -> False).
  { induction bs as [|x bs IH]; intros recs' X; cbn [app writes_allowed] in X; destruct X as [X1 X2]; [eapply NA; eauto|eauto]. }
  destruct (c57_iff _ _ _ _ _ _ _ _ _ _ _ H HO ST HD B E) as [(X & _)|(_ & (e & -> & CF) & SB & SE)]; [exfalso; eauto|].
  exists w'. splits; auto. f_equal. f_equal.
  destruct CF as [[_ ?]|[[_ BF]|(_ & X & _)]]; auto; [|exfalso; eauto].
  destruct BF as (bf & x & af & EQ & WA' & WF).
  (* the first write that is not allowed is [u] *)
  assert (X : bf = before /\ x = u).
  { clear - EQ WA WA' WF NA WR L UP V WD. revert recs bf EQ WA WA' WF UP. induction before as [|b0 before IH]; intros recs bf EQ WA WA' WF UP.
    - destruct bf as [|b1 bf]; cbn in EQ; injection EQ as <- EQ; [auto|]. exfalso. destruct WA' as [A _]. eapply NA; eauto.
    - destruct bf as [|b1 bf]; cbn in EQ; injection EQ as -> EQ.
      + exfalso. cbn [app apply_writes fold_left] in WF. destruct WA as [A _]. revert WF A. apply write_fails_not.
      + destruct WA as [A1 A2], WA' as [B1 B2]. destruct (IH (apply_write recs b1) bf EQ A2 B2 WF UP) as [-> ->]. auto. }
  destruct X as [-> ->]. inversion WF; subst; auto; try congruence.
  match goal with R : w_record u = Some ?y |- _ => replace y with v in * by congruence end.
  match goal with R : record_fails _ _ _ |- _ => inversion R; subst; auto; try congruence end.
  - exfalso. pose proof (s_plain _ V) as (_ & m & t & EV & _). match goal with N : forall m, v <> IMap m |- _ => exact (N _ EV) end.
  - exfalso. cbn in L. lia.
Qed.

End Facts.

Lemma c18_datastore digest kdigest validate ecdsa now cb : setting digest kdigest validate cb ->
  forall ops did key recs, Forall op_named ops ->
  let '(w, outs) := srun digest kdigest validate ecdsa now cb Datastore init_world ops in
  dget did (book_of [] ops outs) = Some (key, recs) ->
  exists o, seen Datastore (w_state w) did = Some o /\ shows kdigest (w_state w) o recs /\ r_key o = key.
Proof.
  intros SET ops did key recs F. destruct (srun digest kdigest validate ecdsa now cb Datastore init_world ops) as [w outs] eqn:E.
  intros B. eapply (c18_map digest kdigest validate ecdsa now cb Datastore SET ops); eauto. split; [exact E|]. split; auto. discriminate.
Qed.

Lemma c19_datastore digest kdigest validate ecdsa now cb : setting digest kdigest validate cb ->
  forall ops op w' e, Forall op_named ops -> op_named op ->
  let w := fst (srun digest kdigest validate ecdsa now cb Datastore init_world ops) in
  sstep digest kdigest validate ecdsa now cb Datastore w op = (w', Err e) -> unchanged Datastore w w'.
Proof.
  intros SET ops op w' e F ON w E. subst w.
  destruct (srun digest kdigest validate ecdsa now cb Datastore init_world ops) as [w outs] eqn:ER. cbn [fst] in *.
  eapply (c19_failed digest kdigest validate ecdsa now cb Datastore SET ops); eauto; [|discriminate]. split; [exact ER|]. split; auto. discriminate.
Qed.
