(** Concurrent commits to DatastoreStorage. *)
From Coq Require Import String List NArith ZArith Bool Lia.
From Coq Require Import ZifyBool ZifyNat ZifyN.
From Verif Require Import Base Lists Ipld IpldProofs MstModel MstTree MstRep MstTrav
  MstClient MstSpec MstHist MstFacts TidModel TidProofs BlockModel BlockSpec
  StorageModel StorageSpec CommitProofs StoreProofs ExecProofs RepoSpec RepoProofs RepoHist RepoFacts
  TxModel TxSpec.
Import ListNotations.

Section Tx.
Variable digest : list N -> list N.
Variable kdigest : str -> list N.
Variable validate : ipld -> res unit.
Variable ecdsa : N -> Z -> list N -> list N.
Hypothesis klen : forall k, length (kdigest k) = 32.
Hypothesis inj : forall a b, digest a = digest b -> a = b.
Hypothesis valid_plain : forall v, validate v = Ok tt -> plain v.
Notation rcid := (rcid digest).
Notation cids_of := (cids_of digest).
Notation snapshot := (snapshot digest kdigest).
Notation recs_stored := (recs_stored digest).
Notation writes_allowed := (writes_allowed validate).
Notation commit_ops := (commit_ops digest).
Notation rdv bl := (fun k : str => dget k (vals bl)).
Notation attempt := (attempt digest kdigest validate ecdsa).
Notation tx_step := (tx_step digest kdigest validate ecdsa).
Notation tx_run := (tx_run digest kdigest validate ecdsa).
Notation signed_commit := (signed_commit ecdsa).

(** ** Values of blocks *)

Definition more (bl bl' : list (cid * block)) : Prop := forall c v, dget c (vals bl) = Some v -> dget c (vals bl') = Some v.

Lemma more_refl bl : more bl bl.
Proof. intros c v H. exact H. Qed.
Lemma more_trans a b c : more a b -> more b c -> more a c.
Proof. intros A B k v H. auto. Qed.

Lemma more_snapshot bl bl' m root d : more bl bl' -> snapshot bl m root d -> snapshot bl' m root d.
Proof.
  clear. intros M (n & t & R & W & Srt & Hn & ST & RT & SM & ND). exists n, t. splits; auto.
  - exact (rep_mono digest (rdv bl) (rdv bl') n M _ _ R).
  - exact (stored_mono digest (rdv bl) (rdv bl') t M ST).
Qed.

Lemma more_recs bl bl' recs : more bl bl' -> recs_stored bl recs -> recs_stored bl' recs.
Proof. clear. intros M H k v G. apply M. eapply H; eauto. Qed.

(** A store whose blocks are keyed by their CIDs, and whose nodes have all their subtrees. *)
Record sound (bl : list (cid * block)) : Prop := {
  sd_key : forall c b, dget c bl = Some b -> b_cid b = c /\ c = cid_of digest (b_val b);
  sd_closed : closed digest kdigest (rdv bl)
}.

(** The commit [h] of [did] is stored with the records [recs]. *)
Definition at_head (bl : list (cid * block)) (did : str) (recs : records) (h root : cid) : Prop :=
  (exists b, dget h bl = Some b /\ item_text (s "did") (b_val b) = Ok did /\ item_link (s "data") (b_val b) = Ok root) /\
  snapshot bl (mst_load root) root (cids_of recs) /\ recs_stored bl recs.

Lemma more_head bl bl' did recs h root : sound bl -> sound bl' -> more bl bl' -> at_head bl did recs h root -> at_head bl' did recs h root.
Proof.
  clear. intros S1 S2 M ((b & G & D & R) & SN & RS). unfold at_head. splits; [|eapply more_snapshot; eauto|eapply more_recs; eauto].
  assert (V : dget h (vals bl) = Some (b_val b)) by (rewrite dget_vals, G; reflexivity).
  apply M in V. rewrite dget_vals in V. destruct (dget h bl') as [b'|]; [|discriminate]. injection V as V.
  exists b'. rewrite V. auto.
Qed.

(** ** One attempt *)

(** What a successful attempt made, on a store [bl] and from the head [h]. *)
Definition attempted (bl : list (cid * block)) (j : job) (key : N) (recs : records) (h : cid) (cd : commit_data) : Prop :=
  exists m' root bs rev nonce n t,
    let sig := fun k (_ : Z) m => ecdsa k nonce m in
    let ops := commit_ops recs (j_writes j) in
    sound bl /\ (exists root0, at_head bl (j_did j) recs h root0) /\
    writes_allowed recs (j_writes j) /\ int_to_tid (j_seq j) 0 = Ok rev /\
    cd = CommitData (finish_block digest sig (j_did j) (j_seq j) ops key (Some h) rev root)
           (finish_new digest sig (j_did j) (j_seq j) (j_writes j) ops key (Some h) rev root bs) (Some h) /\
    rep digest (rdv bl) n m' t /\ wf kdigest n t /\ sorted_tree t /\ n <= 128 /\ root = tcid digest t /\
    (forall k, dget k (leaves t) = dget k (cids_of (apply_writes recs (j_writes j)))) /\
    NoDup (keys (cids_of (apply_writes recs (j_writes j)))) /\
    NoDup (keys bs) /\
    (forall c v, In (c, v) bs -> exists s, subtree s t /\ c = tcid digest s /\ v = tnode digest s /\ dget c (vals bl) = None) /\
    (forall s, subtree s t -> dget (tcid digest s) (vals bl) <> None \/ In (tcid digest s) (keys bs)).

Lemma attempt_ok bl j e nonce recs root0 : sound bl -> at_head bl (j_did j) recs (e_head e) root0 ->
  (exists cd, attempt bl j e nonce = Ok cd /\ attempted bl j (e_key e) recs (e_head e) cd) \/
  ((exists x, attempt bl j e nonce = Err x) /\
   ~ (writes_allowed recs (j_writes j) /\ (len (j_writes j) <= 200)%N /\ (0 < j_seq j < 2 ^ 55)%Z /\ j_did j <> [])).
Proof.
  intros SD AH. pose proof AH as ((b & G & D & RT) & SN & RS). unfold TxModel.attempt.
  set (sig := fun key (_ : Z) m => ecdsa key nonce m).
  set (head := Block [] (IMap [(s "did", IText (j_did j))]) 0 None None).
  set (caller := Repo (mst_load []) (Some head) None None false 0).
  set (st := State (j_seq j + 1) bl [caller] [] [(j_did j, e)] []).
  assert (UC : commit_ digest kdigest validate sig Datastore 0 (j_writes j) (j_seq j) None st
    = bindM (if negb (j_seq j =? 0)%Z then ret tt else throw AssertionError) (fun _ =>
      bindM (commit_target Datastore 0 None) (fun drp => let '(did, r, prev) := drp in
        bindM (if (max_operations <? len (j_writes j))%N then throw ValueError else ret tt) (fun _ =>
        bindM (foldM (commit_write digest kdigest validate r did (j_seq j)) ([], []) (j_writes j)) (fun bo =>
        commit_finish digest kdigest sig Datastore 0 r did prev (j_seq j) bo)))) st) by exact eq_refl.
  rewrite UC. clear UC. destruct (negb (j_seq j =? 0)%Z) eqn:Z0.
  2:{ right. split; [eexists; reflexivity|]. lia. }
  rewrite (bindM_ok (ret tt) _ st st tt eq_refl).
  destruct (nonempty (j_did j)) eqn:NE.
  2:{ assert (DJ : j_did j = []) by (destruct (j_did j); [auto|discriminate]).
      right. split; [|tauto]. eexists. subst st caller head. rewrite DJ. unfold commit_target. cbn. reflexivity. }
  set (o := Repo (mst_load root0) (Some b) (e_handle e) (e_status e) false (e_key e)).
  set (st1 := add_obj o st).
  assert (LD : load_repo Datastore (j_did j) st = (st1, Ok (Some 1))).
  { unfold load_repo. rewrite NE. unfold assert.
    rewrite (bindM_ok (ret tt) _ st st tt eq_refl).
    assert (EF : ent_find (j_did j) (s_ents st) = Some (j_did j, e)).
    { unfold ent_find. cbn. rewrite str_eqb_refl. reflexivity. }
    unfold bindM at 1, reads. rewrite EF. unfold repo_load. unfold bindM at 1. unfold bindM at 1, reads, read. change (s_blocks st) with bl. rewrite G.
    unfold bindM at 1, lift. rewrite RT. reflexivity. }
  assert (TGT : commit_target Datastore 0 None st = (st1, Ok (j_did j, 1, Some (b_cid b)))).
  { unfold commit_target. assert (HOA : nth_error (s_objs st) 0 = Some caller) by reflexivity.
    rewrite (bindM_ok _ _ _ _ _ (obj_some _ _ _ HOA)). cbn [r_status caller is_some].
    unfold bindM at 1. cbn [ret].
    assert (HH : r_head caller = Some head) by reflexivity.
    rewrite (bindM_ok _ _ _ _ _ (need_did_ok st caller head (j_did j) HH eq_refl)).
    rewrite (bindM_ok _ _ _ _ _ LD).
    assert (HO : nth_error (s_objs st1) 1 = Some o) by reflexivity.
    rewrite (bindM_ok _ _ _ _ _ (obj_some _ _ _ HO)). reflexivity. }
  rewrite (bindM_ok _ _ _ _ _ TGT).
  destruct (max_operations <? len (j_writes j))%N eqn:LIM.
  { right. split; [eexists; reflexivity|]. unfold max_operations in LIM. lia. }
  rewrite (bindM_ok (ret tt) _ st1 st1 tt eq_refl).
  assert (HO : nth_error (s_objs st1) 1 = Some o) by reflexivity.
  assert (HR : holds digest kdigest st1 (r_mst o) recs).
  { exact (snapshot_rel digest kdigest _ _ _ _ SN). }
  destruct (foldM_commit_ok digest kdigest validate klen inj (j_did j) (j_seq j) 1 (j_writes j) st1 o recs [] [] HO HR)
    as (m' & out & EF & C).
  destruct C as [(AL & HM & ->)|(NA & (x & -> & _) & _)].
  2:{ right. split; [|tauto]. exists x. rewrite (bindM_err _ _ _ _ _ EF). reflexivity. }
  rewrite (bindM_ok _ _ _ _ _ EF). cbn [app].
  set (st2 := upd st1 1 (with_mst m' o)).
  assert (HO2 : nth_error (s_objs st2) 1 = Some (with_mst m' o)) by reflexivity.
  assert (HOz : nth_error (s_objs st2) 0 = Some caller) by reflexivity.
  pose proof HM as (n & t & R & W & Srt & Hn & Same & ND & _). cbn [cl_tree cl_store] in R. pose proof md as MD.
  destruct (get_unstored_ok digest kdigest (rdv bl) n max_depth m' t ltac:(lia) R W (sd_closed _ SD))
    as (bs & E & NDb & B1 & B2).
  assert (HC : b_cid b = e_head e) by (destruct (sd_key _ SD _ _ G); auto). rewrite HC.
  destruct (int_to_tid (j_seq j) 0) as [rev|x] eqn:REV.
  2:{ right. split.
      - exists x. unfold commit_finish. rewrite (bindM_ok _ _ _ _ _ (obj_some _ _ _ HO2)).
        rewrite (bindM_ok (fun st0 => (st0, get_unstored_blocks digest kdigest (rd st0) max_depth (r_mst (with_mst m' o)))) _ st2 st2 (tcid digest t, bs))
          by (cbn [r_mst with_mst]; unfold rd; cbn [s_blocks st2 upd set_objs st1 add_obj st]; rewrite E; exact eq_refl).
        unfold bindM at 1, lift. rewrite REV. reflexivity.
      - intros (_ & _ & P & _). destruct (tid_form (j_seq j) 0) as (y & Y & _); [unfold p55; lia|lia|]. congruence. }
  left.
  assert (EN : Datastore = Datastore -> dget (j_did j) (s_ents st2) <> None).
  { intros _. cbn. rewrite str_eqb_refl. discriminate. }
  pose proof (commit_finish_run digest kdigest sig Datastore st2 0 1 (with_mst m' o) caller b (j_did j) (Some (e_head e)) (j_seq j)
    (j_writes j) (commit_ops recs (j_writes j)) rev (tcid digest t) bs HO2 HOz eq_refl EN E REV) as RUN.
  rewrite RUN. cbn [snd]. eexists. split; [reflexivity|].
  exists m', (tcid digest t), bs, rev, nonce, n, t. cbv zeta. splits; eauto.
Qed.


(** ** Putting the blocks *)

Definition put (new : list block) (bl : list (cid * block)) : list (cid * block) := fold_left (fun bl b => dset (b_cid b) b bl) new bl.

Lemma put_get c b : forall new bl, dget c (put new bl) = Some b -> dget c bl = Some b \/ (In b new /\ b_cid b = c).
Proof.
  clear. induction new as [|x new IH]; intros bl H; [auto|]. cbn [put fold_left] in H. apply IH in H as [H|[H1 H2]].
  - rewrite dget_dset in H. destruct (str_eqb_spec c (b_cid x)) as [->|NE]; [|auto]. injection H as ->. right. split; [left|]; auto.
  - right. split; [right|]; auto.
Qed.
Lemma put_keep c : forall new bl, dget c bl <> None -> dget c (put new bl) <> None.
Proof.
  clear. induction new as [|x new IH]; intros bl H; [auto|]. cbn [put fold_left]. apply IH. rewrite dget_dset.
  destruct (str_eqb c (b_cid x)); [discriminate|auto].
Qed.
Lemma put_has b : forall new bl, In b new -> dget (b_cid b) (put new bl) <> None.
Proof.
  clear. induction new as [|x new IH]; intros bl H; [destruct H|]. cbn [put fold_left]. destruct H as [->|H]; [|apply IH; auto].
  apply put_keep. rewrite dget_dset, str_eqb_refl. discriminate.
Qed.

(** The blocks of [cd] that are not in [bl] (datastore_storage.py:879-883). *)
Definition lacking (bl : list (cid * block)) (cd : commit_data) : list block :=
  filter (fun b => negb (is_some (dget (b_cid b) bl))) (map snd (cd_blocks cd)).

(** What a commit made, in a store that has its blocks. *)
Definition finished (bl : list (cid * block)) (j : job) (key : N) (recs : records) (h : cid) (cd : commit_data) : Prop :=
  exists rev root, writes_allowed recs (j_writes j) /\ cd_prev cd = Some h /\
    b_ops (cd_commit cd) = Some (commit_ops recs (j_writes j)) /\ b_seq (cd_commit cd) = j_seq j /\
    int_to_tid (j_seq j) 0 = Ok rev /\ signed_commit (b_val (cd_commit cd)) (j_did j) rev h root key /\
    dget (b_cid (cd_commit cd)) (vals bl) = Some (b_val (cd_commit cd)) /\
    at_head bl (j_did j) (apply_writes recs (j_writes j)) (b_cid (cd_commit cd)) root.

Lemma more_finished bl bl' j key recs h cd : sound bl -> sound bl' -> more bl bl' ->
  finished bl j key recs h cd -> finished bl' j key recs h cd.
Proof.
  clear. intros S1 S2 M (rev & root & H). exists rev, root. decompose [and] H. splits; auto. apply (more_head bl bl'); auto.
Qed.

Lemma put_ok blA bl j key recs h cd : attempted blA j key recs h cd -> sound bl -> more blA bl ->
  let bl' := put (lacking blA cd) bl in
  sound bl' /\ more bl bl' /\ finished bl' j key recs h cd.
Proof.
  intros (m' & root & bs & rev & nonce & n & t & H). cbv zeta in H.
  destruct H as (SA & (root0 & AH) & AL & REV & CD & R & W & Srt & Hn & RT & Same & ND & NDb & B1 & B2).
  intros SD MO. cbv zeta. set (bl' := put (lacking blA cd) bl). set (ws := j_writes j) in *.
  set (sig := fun k (_ : Z) m => ecdsa k nonce m) in *. set (ops := commit_ops recs ws) in *.
  set (fb := finish_block digest sig (j_did j) (j_seq j) ops key (Some h) rev root) in *.
  set (fn := finish_new digest sig (j_did j) (j_seq j) ws ops key (Some h) rev root bs) in *.
  pose proof (allowed_plain validate valid_plain recs ws AL) as PL.
  assert (GN : forall c, dget c fn = if str_eqb c (b_cid fb) then Some fb
       else match dget c bs with Some v => Some (Block c v (j_seq j) None (Some (j_did j)))
            | None => dget c (writes_blocks_of digest (j_did j) (j_seq j) [] ws) end).
  { intros c. unfold fn, finish_new. rewrite dget_dset, add_nodes_get by auto. auto. }
  assert (VK : forall c b, dget c fn = Some b -> b_cid b = c /\ c = cid_of digest (b_val b) /\
    (b = fb \/ In (c, b_val b) bs \/ exists v, plain v /\ c = rcid v)).
  { intros c b G. rewrite GN in G. destruct (str_eqb_spec c (b_cid fb)) as [->|NE].
    - injection G as <-. splits; auto.
    - destruct (dget c bs) as [v|] eqn:EB.
      + injection G as <-. cbn [b_cid b_val]. apply dget_In in EB. destruct (B1 _ _ EB) as (s' & HS & EC & EV & _). splits; auto.
        rewrite EC, EV. destruct s' as [es]. apply tcid_eq.
      + apply writes_blocks_get in G as [G|(w & v & HI & A & RR & EC & EV)]; [discriminate|]. subst c b. splits; auto.
        right. right. exists v. split; eauto. }
  assert (LK : forall b, In b (lacking blA cd) -> dget (b_cid b) fn = Some b /\ dget (b_cid b) blA = None).
  { intros b HI. unfold lacking in HI. apply filter_In in HI as [HI NG]. rewrite CD in HI. cbn [cd_blocks] in HI. fold fn in HI.
    apply in_map_iff in HI as ([c b'] & <- & HI). cbn [snd] in *.
    pose proof (finish_keyed digest sig _ _ _ _ _ _ _ _ _ _ _ HI) as K.
    apply In_dget in HI; [|apply finish_nodup]. rewrite <- K. split; auto.
    rewrite <- K in NG. destruct (dget c blA); [discriminate|auto]. }
  assert (HV : forall c b, dget c bl' = Some b -> b_cid b = c /\ c = cid_of digest (b_val b)).
  { intros c b G. apply put_get in G as [G|[G <-]]; [apply (sd_key _ SD _ _ G)|]. apply LK in G as [G _].
    destruct (VK _ _ G) as (_ & K & _). auto. }
  assert (MO' : more bl bl').
  { intros c v. rewrite !dget_vals. destruct (dget c bl) as [b|] eqn:G; [|discriminate]. cbn [option_map]. intros [= <-].
    destruct (dget c bl') as [b'|] eqn:G'; [|exfalso; revert G'; apply put_keep; congruence]. cbn [option_map]. f_equal.
    destruct (sd_key _ SD _ _ G) as [_ K]. destruct (HV _ _ G') as [_ K']. apply (cid_of_inj digest); [exact inj|congruence]. }
  assert (ALLN : forall c, dget c fn <> None -> dget c bl' <> None).
  { intros c HN. destruct (dget c fn) as [b|] eqn:G; [|congruence]. destruct (VK _ _ G) as (<- & _ & _).
    destruct (dget (b_cid b) blA) as [x|] eqn:GA.
    - apply put_keep. assert (X : dget (b_cid b) (vals blA) = Some (b_val x)) by (rewrite dget_vals, GA; auto).
      apply MO in X. rewrite dget_vals in X. destruct (dget (b_cid b) bl); [discriminate|discriminate X].
    - apply put_has. unfold lacking. apply filter_In. rewrite GA. split; auto. rewrite CD. cbn [cd_blocks]. fold fn.
      apply in_map_iff. exists (b_cid b, b). split; auto. apply dget_In. auto. }
  assert (NT : forall n' t', wf kdigest n' t' -> b_cid fb <> tcid digest t').
  { intros n' [es] _ X. rewrite tcid_eq in X. unfold fb in X. cbn [finish_block mk_block b_cid] in X. apply cid_of_inj in X; auto.
    rewrite commit_norm in X. symmetry in X. eapply node_not_commit; eauto. }
  set (bs' := filter (fun cv => negb (is_some (dget (fst cv) bl))) bs).
  destruct (closed_extend digest kdigest inj (rdv bl) (rdv bl') bs' n t (sd_closed _ SD) W) as [ST CL].
  { intros c v HI. apply filter_In in HI as [HI NG]. destruct (B1 _ _ HI) as (s' & H1 & H2 & H3 & _).
    exists s'. splits; auto. rewrite dget_vals. cbn [fst] in NG. destruct (dget c bl); [discriminate|auto]. }
  { intros s' HS. destruct (B2 _ HS) as [X|X].
    - left. destruct (dget (tcid digest s') (vals blA)) as [v|] eqn:E; [|congruence]. rewrite (MO _ _ E). discriminate.
    - destruct (dget (tcid digest s') bl) as [b|] eqn:E; [left; rewrite dget_vals, E; discriminate|].
      right. unfold keys in *. apply in_map_iff in X as ([c v] & EC & HI). cbn [fst] in EC. subst c. apply in_map_iff.
      exists (tcid digest s', v). split; auto. apply filter_In. split; auto. cbn [fst]. rewrite E. auto. }
  { exact MO'. }
  { intros c HI. rewrite dget_vals. unfold keys in HI. apply in_map_iff in HI as ([c' v] & EC & HI). cbn [fst] in EC. subst c'.
    apply filter_In in HI as [HI _].
    assert (X : dget c bl' <> None).
    { apply ALLN. rewrite GN. destruct (str_eqb c (b_cid fb)); [discriminate|]. apply In_dget in HI; auto. rewrite HI. discriminate. }
    destruct (dget c bl'); [discriminate|congruence]. }
  { intros c v. rewrite !dget_vals. destruct (dget c bl') as [b|] eqn:E; [|discriminate]. cbn [option_map]. intros [= <-].
    apply put_get in E as [E|[E <-]]; [left; rewrite E; auto|]. apply LK in E as [E _].
    destruct (VK _ _ E) as (_ & K & [->|[HI|(v & PV & EC)]]).
    - right. right. exact NT.
    - destruct (dget (b_cid b) bl) as [b0|] eqn:G.
      + left. cbn [option_map]. f_equal. destruct (sd_key _ SD _ _ G) as [_ K0]. apply (cid_of_inj digest); [exact inj|congruence].
      + right. left. apply filter_In. split; auto. cbn [fst]. rewrite G. auto.
    - right. right. rewrite EC. intros n' t' W'. apply (plain_not_node digest kdigest inj v n' t'); auto. }
  assert (SD' : sound bl') by (split; [exact HV|exact CL]).
  assert (VAL : forall c b, dget c fn = Some b -> dget c (vals bl') = Some (b_val b)).
  { intros c b G. rewrite dget_vals. destruct (dget c bl') as [b'|] eqn:E; [|exfalso; revert E; apply ALLN; congruence].
    cbn [option_map]. f_equal. destruct (HV _ _ E) as [_ K]. destruct (VK _ _ G) as (_ & K' & _). apply (cid_of_inj digest); [exact inj|congruence]. }
  assert (FB : dget (b_cid fb) fn = Some fb) by (rewrite GN, str_eqb_refl; auto).
  split; [exact SD'|]. split; [exact MO'|]. exists rev, root. rewrite CD. cbn [cd_prev cd_commit]. fold fb. splits; auto.
  - exists nonce. reflexivity.
  - unfold at_head. splits.
    + pose proof (VAL _ _ FB) as X. rewrite dget_vals in X. destruct (dget (b_cid fb) bl') as [b|]; [|discriminate].
      injection X as X. exists b. rewrite X. splits; reflexivity.
    + apply (snapshot_load digest kdigest bl' m'). exists n, t. splits; auto.
      exact (rep_mono digest (rdv blA) (rdv bl') n (more_trans _ _ _ MO MO') _ _ R).
    + destruct AH as (_ & SN & RS). apply apply_stored.
      * eapply more_recs; [|exact RS]. eapply more_trans; eauto.
      * intros w v HI A RR. fold ws in HI.
        pose proof (writes_blocks_has digest (j_did j) (j_seq j) w v ws [] HI A RR) as X.
        assert (Y : dget (rcid v) fn <> None).
        { rewrite GN. destruct (str_eqb (rcid v) (b_cid fb)); [discriminate|]. destruct (dget (rcid v) bs); [discriminate|exact X]. }
        destruct (dget (rcid v) fn) as [b|] eqn:G; [|congruence]. rewrite (VAL _ _ G). f_equal.
        destruct (VK _ _ G) as (_ & K & _). unfold StorageSpec.rcid in K. apply cid_of_inj in K; auto.
      * destruct SN as (? & ? & SN). decompose [and] SN. rewrite <- (keys_cids digest). auto.
Qed.


(** ** The invariant *)

Inductive chained (bl : list (cid * block)) (did : str) (key : N) (h0 : cid) (recs0 : records) : list (job * commit_data) -> cid -> records -> Prop :=
| chained_none : chained bl did key h0 recs0 [] h0 recs0
| chained_commit l h recs j cd : chained bl did key h0 recs0 l h recs -> j_did j = did -> finished bl j key recs h cd ->
    chained bl did key h0 recs0 ((j, cd) :: l) (b_cid (cd_commit cd)) (apply_writes recs (j_writes j)).

Lemma more_chained bl bl' did key h0 recs0 l h recs : sound bl -> sound bl' -> more bl bl' ->
  chained bl did key h0 recs0 l h recs -> chained bl' did key h0 recs0 l h recs.
Proof.
  clear. intros S1 S2 M. induction 1 as [|l h recs j cd C IH D F]; [constructor|]. apply chained_commit with (h := h); auto.
  apply (more_finished bl bl'); auto.
Qed.

Section Machine.
Variable bk : book.
Variable ents0 : list (str * entity).

(** The transaction of [j] has read version [v] with the entity [e] and the records [recs]. *)
Definition has_read (w : tx_world) (cur : str -> records) (j : job) (v : nat) (e : entity) (recs : records) : Prop :=
  exists v' e', dget (j_did j) (x_ents w) = Some (v', e') /\ v <= v' /\ (v = v' -> e = e' /\ recs = cur (j_did j)).

Definition thread_ok (w : tx_world) (cur : str -> records) (pc : tx_pc) : Prop :=
  match pc with
  | XIdle | XBegin _ => True
  | XRead j v e => exists recs root, has_read w cur j v e recs /\ at_head (x_blocks w) (j_did j) recs (e_head e) root
  | XPut j v e cd new => exists recs blA, has_read w cur j v e recs /\ attempted blA j (e_key e) recs (e_head e) cd /\
      more blA (x_blocks w) /\ new = lacking blA cd
  | XCommit j v e cd => exists recs, has_read w cur j v e recs /\ finished (x_blocks w) j (e_key e) recs (e_head e) cd
  end.

Definition entity_ok (w : tx_world) (cur : str -> records) (did : str) (e : entity) : Prop :=
  exists key recs0 e0, dget did bk = Some (key, recs0) /\ dget did ents0 = Some e0 /\ e_key e = key /\
    (exists root, at_head (x_blocks w) did (cur did) (e_head e) root) /\
    chained (x_blocks w) did key (e_head e0) recs0 (commits did (x_log w)) (e_head e) (cur did).

Record xinv (w : tx_world) (cur : str -> records) : Prop := {
  xi_sound : sound (x_blocks w);
  xi_ent : forall did v e, dget did (x_ents w) = Some (v, e) -> entity_ok w cur did e;
  xi_dom : forall did, dget did ents0 <> None -> dget did (x_ents w) <> None;
  xi_thread : forall t, thread_ok w cur (x_threads w t)
}.

Lemma thread_same w w' cur pc : x_ents w' = x_ents w -> x_blocks w' = x_blocks w -> thread_ok w cur pc -> thread_ok w' cur pc.
Proof.
  clear. intros E B H. destruct pc; cbn [thread_ok] in *; auto; rewrite B; unfold has_read in *; rewrite E; auto.
Qed.

Lemma inv_at w cur t pc : xinv w cur -> thread_ok w cur pc -> xinv (at_pc w t pc) cur.
Proof.
  clear. intros [A B C D] H. split; auto. intros u. apply thread_same with w; auto. cbn.
  destruct (Nat.eqb u t); auto.
Qed.

Lemma inv_fail w cur t j x : xinv w cur -> xinv (return_ w t j (Err x)) cur.
Proof.
  clear. intros [A B C D]. split; auto. intros u. apply thread_same with w; auto. cbn.
  destruct (Nat.eqb u t); cbn; auto.
Qed.

Lemma inv_abort w cur t j : xinv w cur -> xinv (abort w t j) cur.
Proof.
  clear. intros H. unfold abort. destruct (Nat.ltb (j_aborts j) max_aborts); [apply inv_at; cbn; auto|apply inv_fail; auto].
Qed.

(** The entity of [did] gets a new version. *)
Lemma inv_version w w' cur did v e e' recs' :
  xinv w cur -> dget did (x_ents w) = Some (v, e) -> x_blocks w' = x_blocks w -> x_ents w' = dset did (S v, e') (x_ents w) ->
  (forall t, x_threads w' t = x_threads w t \/ x_threads w' t = XIdle) ->
  (forall d, d <> did -> commits d (x_log w') = commits d (x_log w)) ->
  let cur' := fun d => if str_eqb d did then recs' else cur d in
  entity_ok w' cur' did e' -> xinv w' cur'.
Proof.
  clear. intros [A B C D] G EB EE ET EL cur' EO.
  assert (CO : forall d, d <> did -> cur' d = cur d).
  { intros d NE. unfold cur'. destruct (str_eqb_spec d did); congruence. }
  assert (HRD : forall j v0 e0 recs, has_read w cur j v0 e0 recs -> has_read w' cur' j v0 e0 recs).
  { intros j v0 e0 recs (v1 & e1 & X1 & X2 & X3). unfold has_read. rewrite EE, dget_dset.
    destruct (str_eqb_spec (j_did j) did) as [E|NE].
    - rewrite E, G in X1. injection X1 as <- <-. exists (S v), e'. splits; auto; intros; lia.
    - exists v1, e1. rewrite (CO _ NE). auto. }
  split.
  - rewrite EB. exact A.
  - intros d v0 e0. rewrite EE, dget_dset. destruct (str_eqb_spec d did) as [->|NE].
    + intros [= <- <-]. exact EO.
    + intros X. destruct (B _ _ _ X) as (key & recs0 & e1 & H). unfold entity_ok. rewrite EB, (EL _ NE), (CO _ NE).
      exists key, recs0, e1. exact H.
  - intros d X. rewrite EE, dget_dset. destruct (str_eqb d did); [discriminate|auto].
  - intros t. destruct (ET t) as [->| ->]; [|exact Logic.I]. specialize (D t).
    destruct (x_threads w t); cbn [thread_ok] in *; auto; rewrite EB.
    + destruct D as (recs & root & X & Y). exists recs, root. auto.
    + destruct D as (recs & blA & X & Y & Z). exists recs, blA. auto.
    + destruct D as (recs & X & Y). exists recs. auto.
Qed.

Lemma inv_step w cur ev : xinv w cur -> exists cur', xinv (tx_step w ev) cur'.
Proof.
  intros H. pose proof H as [A B C D]. destruct ev as [t did ws status|t nonce|t|did status]; cbn [TxModel.tx_step].
  - exists cur. destruct (x_threads w t) eqn:T; auto. destruct (is_some status).
    + apply inv_fail. split; auto.
    + apply inv_at; [|exact Logic.I]. split; auto.
  - specialize (D t). destruct (x_threads w t) as [|j|j v e|j v e cd new|j v e cd] eqn:T; cbn [thread_ok] in D.
    + exists cur. auto.
    + exists cur. destruct (dget (j_did j) (x_ents w)) as [[v e]|] eqn:G; [|apply inv_fail; auto]. apply inv_at; auto.
      cbn [thread_ok]. destruct (B _ _ _ G) as (key & recs0 & e0 & _ & _ & _ & (root & AH) & _).
      exists (cur (j_did j)), root. split; auto. exists v, e. auto.
    + exists cur. destruct D as (recs & root & X & Y).
      destruct (attempt_ok (x_blocks w) j e nonce recs root A Y) as [(cd & -> & AT)|((x & ->) & _)]; [|apply inv_fail; auto].
      apply inv_at; auto. cbn [thread_ok]. exists recs, (x_blocks w). splits; auto. apply more_refl.
    + exists cur. destruct D as (recs & blA & X & AT & M & ->).
      destruct (put_ok _ _ _ _ _ _ _ AT A M) as (SD & M' & F). fold (put (lacking blA cd) (x_blocks w)).
      set (bl' := put (lacking blA cd) (x_blocks w)) in *.
      apply inv_at.
      * split; cbn [x_blocks x_ents x_threads x_log]; auto.
        -- intros d v0 e0 G. destruct (B _ _ _ G) as (key & recs0 & e1 & H1 & H2 & H3 & (root & H4) & H5).
           exists key, recs0, e1. cbn [x_blocks x_log]. splits; auto.
           ++ exists root. apply (more_head (x_blocks w) bl'); auto.
           ++ apply (more_chained (x_blocks w) bl'); auto.
        -- intros u. pose proof (xi_thread _ _ H u) as D. destruct (x_threads w u); cbn [thread_ok x_blocks] in *; auto.
           ++ destruct D as (recs1 & root & X1 & Y1). exists recs1, root. split; auto. apply (more_head (x_blocks w) bl'); auto.
           ++ destruct D as (recs1 & blA1 & X1 & Y1 & Z1 & W1). exists recs1, blA1. splits; auto. eapply more_trans; eauto.
           ++ destruct D as (recs1 & X1 & Y1). exists recs1. split; auto. apply (more_finished (x_blocks w) bl'); auto.
      * cbn [thread_ok x_blocks]. exists recs. split; auto.
    + destruct D as (recs & (v' & e' & G & LE & EQ) & F). rewrite G.
      destruct (Nat.eqb_spec v' v) as [->|NE].
      2:{ exists cur. apply inv_abort. auto. }
      destruct (EQ eq_refl) as [-> ->]. eexists.
      apply (inv_version w _ cur (j_did j) v e' (Entity (e_handle e') (b_cid (cd_commit cd)) (e_status e') (e_key e'))
               (apply_writes (cur (j_did j)) (j_writes j)) H G); try reflexivity.
      * intros u. cbn. destruct (Nat.eqb u t); auto.
      * intros d NEd. cbn [return_ x_log commits t_result t_job]. destruct (str_eqb_spec (j_did j) d); [congruence|auto].
      * destruct (B _ _ _ G) as (key & recs0 & e0 & H1 & H2 & H3 & _ & H5). exists key, recs0, e0. rewrite str_eqb_refl.
        cbn [return_ with_ents x_blocks x_log commits t_result t_job e_key e_head]. rewrite str_eqb_refl. splits; auto.
        -- destruct F as (rev & root & F). exists root. tauto.
        -- rewrite <- H3. apply chained_commit with (h := e_head e'); auto. rewrite H3. exact H5.
  - exists cur. destruct (x_threads w t); auto; apply inv_abort; auto.
  - destruct (dget did (x_ents w)) as [[v e]|] eqn:G; [|exists cur; auto]. eexists.
    apply (inv_version w _ cur did v e (Entity (e_handle e) (e_head e) status (e_key e)) (cur did) H G); try reflexivity.
    + intros u. auto.
    + destruct (B _ _ _ G) as (key & recs0 & e0 & H1 & H2 & H3 & H4 & H5). exists key, recs0, e0. rewrite str_eqb_refl. splits; auto.
Qed.

Lemma inv_run evs : forall w cur, xinv w cur -> exists cur', xinv (tx_run w evs) cur'.
Proof.
  induction evs as [|ev evs IH]; intros w cur H; [exists cur; exact H|].
  destruct (inv_step w cur ev H) as (cur1 & H1). exact (IH _ _ H1).
Qed.
End Machine.

End Tx.
