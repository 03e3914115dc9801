(** The commits that requests make. *)
From Coq Require Import String List NArith ZArith Bool Lia.
From Verif Require Import Base Lists Ipld MstModel MstSpec MstRep StorageModel StorageSpec ExecProofs RepoSpec RepoProofs RepoSteps RepoHist RepoFacts UriModel ServerModel ServerSpec ServerProofs ServerFacts
  CommitProofs RequestSpec.
Import ListNotations.
Local Open Scope m_scope.

Section Ops.
Variable digest : list N -> list N.
Variable kdigest : str -> list N.
Variable validate : ipld -> res unit.
Variable ecdsa : N -> Z -> list N -> list N.
Variable now : Z -> str.
Variable cb : nat -> option exn.
Variable be : backend.
Variable netloc_ok : str -> bool.
Variable cfg : config.
Hypothesis SET : setting digest kdigest validate cb.

Notation sstep := (sstep digest kdigest validate ecdsa now cb be).
Notation commit := (commit digest kdigest validate ecdsa cb be).
Notation inv := (inv digest kdigest validate ecdsa be).
Notation found := (found digest kdigest validate ecdsa now be netloc_ok).
Notation statuses := (statuses be).
Notation rcid := (rcid digest).
Notation put_record := (put_record digest kdigest validate ecdsa cb be netloc_ok cfg).
Notation serve := (serve digest kdigest validate ecdsa cb be netloc_ok cfg).
Notation named_did := (named_did be netloc_ok).

Record made (st : state) (did : str) (key : N) (ops : list commit_op) (st' : state) (o o' : repo) (h h' : block) : Prop := {
  m_before : seen be st did = Some o;
  m_head : r_head o = Some h;
  m_after : seen be st' did = Some o';
  m_head' : r_head o' = Some h';
  m_seq : b_seq h' = s_next st;
  m_next : s_next st' = (s_next st + 1)%Z;
  m_ops : b_ops h' = Some ops;
  m_prev : exists root, commit_of ecdsa h' did key (Some (b_cid h)) root;
  m_kept : read st' (b_cid h) = Some h
}.

Lemma found_made st refs bk x did o st1 r key recs w st' cd : inv st refs bk -> found st refs bk x did o st1 r key recs ->
  commit r [w] None st1 = (st', Ok cd) -> write_allowed validate recs w /\ exists o o' h, made st did key (write_ops digest recs w) st' o o' h (cd_commit cd).
Proof.
  intros I F E. pose proof F as F0. destruct F. pose proof (steps_inv _ _ _ _ _ _ _ SET _ _ _ _ _ _ f_steps I) as I1.
  assert (S : sstep (World st1 (refs ++ [r])) (SCommit (length refs) [w]) = (World st' (refs ++ [r]), Ok (OutCommit cd))).
  { cbn [StorageModel.sstep]. unfold on_ref. cbn [w_refs w_state]. rewrite nth_error_app2, Nat.sub_diag by lia. cbn [nth_error]. unfold bindM, ret. rewrite E. reflexivity. }
  pose proof (step_eff digest kdigest validate ecdsa now cb be SET (World st1 (refs ++ [r])) _ (SCommit (length refs) [w]) _ _ I1 Logic.I S) as EF. cbn [w_state w_refs] in EF.
  destruct (effect_commit _ _ _ _ _ _ _ _ _ _ _ _ _ _ I1 EF) as (r0 & o0 & did0 & key0 & recs0 & key1 & recs1 & HR & HO & G & B & ST & CP & C & RE).
  rewrite nth_error_app2, Nat.sub_diag in HR by lia. cbn [nth_error] in HR. injection HR as <-. rewrite f_obj in HO. injection HO as <-.
  assert (did0 = did) as -> by (eapply good_did; eauto). rewrite f_book in B. injection B as <- <-.
  split. { destruct CP as ((WA & _) & _). exact WA. }
  pose proof (committed_inv digest kdigest validate ecdsa cb be _ _ _ _ _ _ _ _ _ _ _ _ _ I1 (in_or_app refs [r] r (or_intror (or_introl eq_refl))) f_obj G f_book C) as I'.
  destruct (c_objs _ _ _ _ _ _ _ _ _ _ _ _ _ _ C) as (so & root & m' & HS & SN & CH & N0 & MS).
  assert (B' : dget did (dset did (key, apply_writes recs [w]) bk) = Some (key, apply_writes recs [w])) by (rewrite dget_dset, str_eqb_refl; reflexivity).
  destruct (seen_stored _ _ _ _ _ _ SET _ _ _ _ _ _ I' B') as (o' & S1 & HS' & G' & K').
  destruct (c_prev _ _ _ _ _ _ _ _ _ _ _ _ _ _ C) as (o2 & hb & HS2 & HH & _ & CO).
  destruct (seen_stored _ _ _ _ _ _ SET _ _ _ _ _ _ I1 f_book) as (o3 & S3 & HS3 & (h3 & root3 & H3 & CH3 & _) & _).
  assert (SS : forall y, seen be st1 y = seen be st y) by (intros; eapply loaded_seen; [exact f_stored|exact f_loaded]).
  exists o2, o', hb. constructor.
  - rewrite <- SS. congruence.
  - exact HH.
  - exact S1.
  - destruct be; rewrite MS in HS'; injection HS' as <-; reflexivity.
  - rewrite (c_seq _ _ _ _ _ _ _ _ _ _ _ _ _ _ C). apply f_same.
  - rewrite (c_next _ _ _ _ _ _ _ _ _ _ _ _ _ _ C). f_equal. apply f_same.
  - rewrite (c_ops _ _ _ _ _ _ _ _ _ _ _ _ _ _ C). cbn [commit_ops]. rewrite app_nil_r. reflexivity.
  - exact CO.
  - assert (hb = h3) as -> by congruence. unfold read. rewrite (c_blocks _ _ _ _ _ _ _ _ _ _ _ _ _ _ C). apply extends_setdefault. exact (chain_read _ _ _ _ _ _ _ _ _ _ CH3).
Qed.

Definition wrote (st : state) (bk : book) (q : request) (st' : state) : Prop :=
  forall x coll rkey v, request_write q = Some (x, coll, rkey, v) ->
  exists did key recs, named_did st x = Some did /\ dget did bk = Some (key, recs) /\
    let old := dget (record_path coll rkey) recs in
    (v = None /\ old = None /\ same_storage st st') \/
    ((v <> None \/ old <> None) /\
     exists o o' h h', made st did key (request_ops (record_path coll rkey) (option_map rcid old) (option_map rcid v)) st' o o' h h').

Lemma put_made st refs bk header i st' out : inv st refs bk -> statuses st bk ->
  serve (RPut header i) st = (st', Ok out) -> wrote st bk (RPut header i) st'.
Proof.
  intros I ST E. cbn [ServerSpec.serve] in E. unfold ServerModel.put_record in E.
  rewrite bind_assoc, bind_unit in E. destruct (validate_input cfg i None) as [[]|e]; [|discriminate E].
  rewrite bind_assoc, bind_unit in E. destruct (auth cfg header) as [[]|e]; [|discriminate E].
  rewrite bind_assoc, bind_lift in E. destruct (i_repo i) as [x|] eqn:RX; cbn [arg] in E; [|discriminate E]. rewrite bind_assoc in E.
  destruct (load_cases digest kdigest validate ecdsa now cb be netloc_ok SET st refs bk x I ST) as [(did & o & st1 & r & key & recs & F)|(e & st1 & extra & LE & _)].
  2:{ rewrite (bindM_err _ _ _ _ _ LE) in E. discriminate E. }
  rewrite (bindM_ok _ _ _ _ _ (f_load _ _ _ _ _ _ _ _ _ _ _ _ _ _ _ _ _ F)) in E.
  rewrite bind_assoc, bind_lift in E. destruct (i_collection i) as [coll|] eqn:CO; cbn [arg] in E; [|discriminate E].
  rewrite bind_assoc, bind_lift in E. destruct (i_rkey i) as [rkey|] eqn:RK; cbn [arg] in E; [|discriminate E].
  rewrite bind_assoc, (bindM_ok _ _ _ _ _ (obj_some _ _ _ (f_obj _ _ _ _ _ _ _ _ _ _ _ _ _ _ _ _ _ F))) in E.
  rewrite bind_assoc, (bindM_ok _ _ _ _ _ (good_find _ _ _ _ _ _ _ _ _ coll rkey (f_good _ _ _ _ _ _ _ _ _ _ _ _ _ _ _ _ _ F))) in E.
  destruct (i_record i) as [v|] eqn:RE; [|discriminate E].
  set (w := Write _ coll rkey (Some v)) in E. rewrite bind_assoc in E.
  destruct (commit r [w] None st1) as [st2 [cd|e]] eqn:EC; [|rewrite (bindM_err _ _ _ _ _ EC) in E; discriminate E].
  rewrite (bindM_ok _ _ _ _ _ EC) in E.
  assert (st2 = st').
  { unfold obj, did_of, need_did, lift, bindM, ret, throw in E. destruct (nth_error (s_objs st2) r) as [o0|]; [|discriminate E]. destruct (repo_did o0) as [[d|]|]; try discriminate E.
    destruct (at_uri _ _ _); [|discriminate E]. injection E as <- _. reflexivity. }
  subst st2. clear E. destruct (found_made _ _ _ _ _ _ _ _ _ _ _ _ _ I F EC) as (WA & o1 & o' & h & MD).
  intros x' coll' rkey' v' RW. cbn [request_write] in RW. rewrite RX, CO, RK, RE in RW. injection RW as <- <- <- <-.
  exists did, key, recs. split; [exact (names_did _ _ _ _ _ _ (f_names _ _ _ _ _ _ _ _ _ _ _ _ _ _ _ _ _ F))|].
  split; [exact (f_book _ _ _ _ _ _ _ _ _ _ _ _ _ _ _ _ _ F)|]. right. split; [left; discriminate|].
  exists o1, o', h, (cd_commit cd). revert MD. unfold write_ops, w. cbn [w_action w_collection w_rkey w_record]. cbv zeta.
  destruct (dget (record_path coll rkey) recs) as [v0|]; cbn [option_map request_ops]; auto.
Qed.

Lemma delete_made st refs bk header i st' out : inv st refs bk -> statuses st bk ->
  serve (RDelete header i) st = (st', Ok out) -> wrote st bk (RDelete header i) st'.
Proof.
  intros I ST E. cbn [ServerSpec.serve] in E. unfold ServerModel.delete_record in E.
  rewrite bind_assoc, bind_unit in E. destruct (validate_input cfg i None) as [[]|e]; [|discriminate E].
  rewrite bind_assoc, bind_unit in E. destruct (auth cfg header) as [[]|e]; [|discriminate E].
  rewrite bind_assoc, bind_lift in E. destruct (i_repo i) as [x|] eqn:RX; cbn [arg] in E; [|discriminate E]. rewrite bind_assoc in E.
  destruct (load_cases digest kdigest validate ecdsa now cb be netloc_ok SET st refs bk x I ST) as [(did & o & st1 & r & key & recs & F)|(e & st1 & extra & LE & _)].
  2:{ rewrite (bindM_err _ _ _ _ _ LE) in E. discriminate E. }
  rewrite (bindM_ok _ _ _ _ _ (f_load _ _ _ _ _ _ _ _ _ _ _ _ _ _ _ _ _ F)) in E.
  rewrite bind_assoc, bind_lift in E. destruct (i_collection i) as [coll|] eqn:CO; cbn [arg] in E; [|discriminate E].
  rewrite bind_assoc, bind_lift in E. destruct (i_rkey i) as [rkey|] eqn:RK; cbn [arg] in E; [|discriminate E].
  rewrite bind_assoc, (bindM_ok _ _ _ _ _ (obj_some _ _ _ (f_obj _ _ _ _ _ _ _ _ _ _ _ _ _ _ _ _ _ F))) in E.
  rewrite bind_assoc, (bindM_ok _ _ _ _ _ (good_find _ _ _ _ _ _ _ _ _ coll rkey (f_good _ _ _ _ _ _ _ _ _ _ _ _ _ _ _ _ _ F))) in E.
  intros x' coll' rkey' v' RW. cbn [request_write] in RW. rewrite RX, CO, RK in RW. injection RW as <- <- <- <-.
  exists did, key, recs. split; [exact (names_did _ _ _ _ _ _ (f_names _ _ _ _ _ _ _ _ _ _ _ _ _ _ _ _ _ F))|].
  split; [exact (f_book _ _ _ _ _ _ _ _ _ _ _ _ _ _ _ _ _ F)|]. cbv zeta.
  destruct (dget (record_path coll rkey) recs) as [v0|] eqn:D; cbn [option_map] in E.
  - right. split; [right; discriminate|]. rewrite bind_assoc in E.
    destruct (commit r [Write DELETE coll rkey None] None st1) as [st2 [cd|e]] eqn:EC; [|rewrite (bindM_err _ _ _ _ _ EC) in E; discriminate E].
    rewrite (bindM_ok _ _ _ _ _ EC) in E. cbn in E. injection E as <- _.
    destruct (found_made _ _ _ _ _ _ _ _ _ _ _ _ _ I F EC) as (WA & o1 & o' & h & MD).
    exists o1, o', h, (cd_commit cd). revert MD. unfold write_ops. cbn [w_action w_collection w_rkey w_record]. cbv zeta. rewrite D. auto.
  - left. cbn in E. injection E as <- _. splits; auto. exact (f_same _ _ _ _ _ _ _ _ _ _ _ _ _ _ _ _ _ F).
Qed.

Lemma create_made st refs bk header i tid st' out : inv st refs bk -> statuses st bk ->
  serve (RCreate header i tid) st = (st', Ok out) -> wrote st bk (RCreate header i tid) st'.
Proof.
  intros I ST E. cbn [ServerSpec.serve] in E. unfold ServerModel.create_record in E.
  set (i' := match i_rkey i with Some _ => i | None => with_rkey i tid end) in *.
  assert (RW : request_write (RCreate header i tid) = request_write (RPut header i')).
  { unfold i'. cbn [request_write]. destruct i as [a b [k|] d f]; reflexivity. }
  set (coll := (if given (i_collection i) then ret (i_collection i) else lift (record_type (i_record i)))) in *.
  assert (CE : (exists c, coll st = (st, Ok c)) \/ exists e, coll st = (st, Err e)).
  { unfold coll. destruct (given (i_collection i)); [left; eexists; reflexivity|].
    unfold lift. destruct (record_type (i_record i)); [left|right]; eauto. }
  rewrite bind_assoc in E. destruct CE as [(c & CE)|(e & CE)].
  2:{ rewrite (bindM_err _ _ _ _ _ CE) in E. discriminate E. }
  rewrite (bindM_ok _ _ _ _ _ CE) in E.
  rewrite bind_assoc, bind_unit in E. destruct (validate_input cfg i c) as [[]|e]; [|discriminate E].
  rewrite bind_assoc, bind_unit in E. destruct (auth cfg header) as [[]|e]; [|discriminate E].
  rewrite bind_assoc, bind_lift in E. destruct (i_repo i) as [x|] eqn:RX; cbn [arg] in E; [|discriminate E]. rewrite bind_assoc in E.
  destruct (load_cases digest kdigest validate ecdsa now cb be netloc_ok SET st refs bk x I ST) as [(did & o & st1 & r & key & recs & F)|(e & st1 & extra & LE & _)].
  2:{ rewrite (bindM_err _ _ _ _ _ LE) in E. discriminate E. }
  rewrite (bindM_ok _ _ _ _ _ (f_load _ _ _ _ _ _ _ _ _ _ _ _ _ _ _ _ _ F)) in E.
  pose proof (f_steps _ _ _ _ _ _ _ _ _ _ _ _ _ _ _ _ _ F) as S1. pose proof (f_same _ _ _ _ _ _ _ _ _ _ _ _ _ _ _ _ _ F) as SM.
  assert (SN : forall y, seen be st1 y = seen be st y).
  { intros. eapply loaded_seen; [exact (f_stored _ _ _ _ _ _ _ _ _ _ _ _ _ _ _ _ _ F)|exact (f_loaded _ _ _ _ _ _ _ _ _ _ _ _ _ _ _ _ _ F)]. }
  assert (ND : forall x, named_did st1 x = named_did st x) by (intros; unfold ServerSpec.named_did; destruct (repo_name _ x0); [rewrite SN|]; reflexivity).
  assert (W1 : wrote st1 bk (RPut header i') st').
  { apply (put_made st1 (refs ++ [r]) bk header i' st' out); [eapply steps_inv; eauto|eapply steps_statuses; eauto|exact E]. }
  intros x' c' k' v' R. rewrite RW in R. destruct (W1 _ _ _ _ R) as (did' & key' & recs' & N & B & X). exists did', key', recs'. rewrite ND in N.
  split; [exact N|]. split; [exact B|]. cbv zeta in *. destruct X as [(V & O & S)|(NE & o1 & o' & h & h' & [])]; [left|right].
  - splits; auto. destruct S as (? & ? & ? & ? & ? & ?), SM as (? & ? & ? & ? & ? & ?). unfold same_storage. splits; try congruence. auto.
  - split; [exact NE|]. exists o1, o', h, h'. rewrite SN in *. rewrite (proj1 SM) in *. constructor; auto.
Qed.

Lemma request_made st refs bk q st' a : inv st refs bk -> statuses st bk -> serve q st = (st', Ok a) -> wrote st bk q st'.
Proof.
  intros I ST E. destruct q.
  - eapply create_made; eauto.
  - eapply put_made; eauto.
  - eapply delete_made; eauto.
  - intros x c k v [=].
Qed.

Notation serves := (serves digest kdigest validate ecdsa now cb be netloc_ok cfg).

Theorem answered_write w bk q st' a x coll rkey v : serves w bk -> serve q (w_state w) = (st', Ok a) -> request_write q = Some (x, coll, rkey, v) ->
  exists did key recs, named_did (w_state w) x = Some did /\ dget did bk = Some (key, recs) /\
    let old := dget (record_path coll rkey) recs in
    (v = None /\ old = None /\ same_storage (w_state w) st') \/
    ((v <> None \/ old <> None) /\
     exists o o' h h', seen be (w_state w) did = Some o /\ r_head o = Some h /\ seen be st' did = Some o' /\ r_head o' = Some h' /\
       b_seq h' = s_next (w_state w) /\ s_next st' = (s_next (w_state w) + 1)%Z /\
       (exists root, commit_of ecdsa h' did key (Some (b_cid h)) root) /\
       b_ops h' = Some (request_ops (record_path coll rkey) (option_map rcid old) (option_map rcid v))).
Proof.
  intros H E R. destruct (serves_inv _ _ _ _ _ _ _ _ _ SET _ _ H) as [I ST].
  destruct (request_made _ _ _ _ _ _ I ST E _ _ _ _ R) as (did & key & recs & N & B & X). exists did, key, recs. split; [exact N|]. split; [exact B|].
  cbv zeta in *. destruct X as [X|(NE & o & o' & h & h' & [])]; [left; exact X|right]. split; [exact NE|]. exists o, o', h, h'. splits; auto.
Qed.
End Ops.
