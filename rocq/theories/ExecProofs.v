(** What the storage operations compute, step by step. *)
From Coq Require Import String List NArith ZArith Bool Lia.
From Coq Require Import ZifyBool ZifyNat ZifyN.
From Verif Require Import Base Lists Ipld IpldProofs MstModel MstTree MstRep MstTrav
  MstClient MstSpec MstHist MstFacts TidModel TidProofs BlockModel BlockSpec
  StorageModel StorageSpec CommitProofs StoreProofs.
Import ListNotations.

Definition alloc (st : state) : state := set_next (s_next st + 1) st.

(** [st] after a callback of a repo object. *)
Definition called (o : repo) (c : call) (st : state) : state := if r_callback o then add_call c st else st.

Section Exec.
Variable digest : list N -> list N.
Variable kdigest : str -> list N.
Variable validate : ipld -> res unit.
Variable ecdsa : N -> Z -> list N -> list N.
Variable now : Z -> str.
Variable cb : nat -> option exn.
Variable be : backend.
Hypothesis klen : forall k, length (kdigest k) = 32.
Hypothesis inj : forall a b, digest a = digest b -> a = b.
Hypothesis valid_plain : forall v, validate v = Ok tt -> plain v.
Hypothesis quiet : forall n, cb n = None.
Notation rcid := (rcid digest).
Notation holds := (holds digest kdigest).
Notation writes_allowed := (writes_allowed validate).
Notation commit_ops := (commit_ops digest).
Notation store_ok := (store_ok digest kdigest).
Notation snapshot := (snapshot digest kdigest).
Notation finish_block := (finish_block digest ecdsa).
Notation finish_new := (finish_new digest ecdsa).
Notation finish_store := (finish_store digest ecdsa).

Lemma callback_ok st r o c : nth_error (s_objs st) r = Some o -> callback cb r c st = (called o c st, Ok tt).
Proof.
  intros H. unfold callback. rewrite (bindM_ok _ _ _ _ _ (obj_some _ _ _ H)). unfold called.
  destruct (r_callback o); [rewrite quiet|]; reflexivity.
Qed.

(** [store_repo] of an object with this head. *)
Definition after_store (st : state) (did : str) (r : nat) (o : repo) (h : block) : state :=
  match be with
  | Memory => set_mem (dset did r (s_mem st)) st
  | Datastore =>
      match dget did (s_ents st) with
      | Some e => set_ents (ent_put did (Entity (r_handle o) (b_cid h) (r_status o) (e_key e)) (s_ents st)) st
      | None => st
      end
  end.

Lemma need_did_ok st o h did : r_head o = Some h -> item_text (s "did") (b_val h) = Ok did ->
  need_did o st = (st, Ok did).
Proof. intros H D. unfold need_did, bindM, lift, repo_did. rewrite H, D. reflexivity. Qed.

Lemma store_repo_ok st r o h did : nth_error (s_objs st) r = Some o -> r_head o = Some h ->
  item_text (s "did") (b_val h) = Ok did -> (be = Datastore -> dget did (s_ents st) <> None) ->
  store_repo be r st = (after_store st did r o h, Ok tt).
Proof.
  intros HO HH HD EN. unfold store_repo. rewrite (bindM_ok _ _ _ _ _ (obj_some _ _ _ HO)).
  rewrite (bindM_ok _ _ _ _ _ (need_did_ok _ _ _ _ HH HD)). unfold after_store. destruct be; auto.
  unfold bindM at 1, reads. destruct (dget did (s_ents st)) as [e|]; [|exfalso; apply EN; auto].
  rewrite HH. reflexivity.
Qed.

Lemma finish_did root did seq ops key prev rev :
  item_text (s "did") (b_val (finish_block did seq ops key prev rev root)) = Ok did.
Proof. unfold StoreProofs.finish_block. cbn [mk_block b_val]. rewrite commit_norm. reflexivity. Qed.

(** The state after a commit that worked on object [r] on behalf of [r0]. *)
Definition after_finish (st : state) (r0 r : nat) (o : repo) (did : str) (bl : store) (cblock : block) : state :=
  let o1 := with_head (Some cblock) o in
  let st1 := after_store (upd (set_blocks bl st) r o1) did r o1 cblock in
  match nth_error (s_objs st1) r0 with
  | Some o0 => upd st1 r0 (with_head (Some cblock) (with_mst (r_mst o) o0))
  | None => st1
  end.

Lemma after_store_objs st did r o h : s_objs (after_store st did r o h) = s_objs st.
Proof. unfold after_store. destruct be; auto. destruct (dget did (s_ents st)); auto. Qed.
Lemma after_store_blocks st did r o h : s_blocks (after_store st did r o h) = s_blocks st.
Proof. unfold after_store. destruct be; auto. destruct (dget did (s_ents st)); auto. Qed.
Lemma after_store_next st did r o h : s_next (after_store st did r o h) = s_next st.
Proof. unfold after_store. destruct be; auto. destruct (dget did (s_ents st)); auto. Qed.
Lemma after_store_calls st did r o h : s_calls (after_store st did r o h) = s_calls st.
Proof. unfold after_store. destruct be; auto. destruct (dget did (s_ents st)); auto. Qed.

Lemma unstored_ok st m recs : closed digest kdigest (rd st) -> holds st m recs ->
  exists root bs, get_unstored_blocks digest kdigest (rd st) max_depth m = Ok (root, bs).
Proof.
  clear inj valid_plain quiet. intros CL (n & t & R & W & Srt & Hn & Same & ND & _). pose proof md as MD.
  destruct (get_unstored_ok digest kdigest (rd st) n max_depth m t ltac:(lia) R W CL) as (bs & E & _). eauto.
Qed.

Lemma commit_finish_run st r0 r o o0 hb did prev seq ws ops rev root bs :
  nth_error (s_objs st) r = Some o -> nth_error (s_objs st) r0 = Some o0 -> r_head o = Some hb ->
  (be = Datastore -> dget did (s_ents st) <> None) ->
  get_unstored_blocks digest kdigest (rd st) max_depth (r_mst o) = Ok (root, bs) -> int_to_tid seq 0 = Ok rev ->
  commit_finish digest kdigest ecdsa be r0 r did prev seq (writes_blocks_of digest did seq [] ws, ops) st
  = (after_finish st r0 r o did (finish_store (s_blocks st) did seq ws ops (r_key o) prev rev root bs)
       (finish_block did seq ops (r_key o) prev rev root),
     Ok (CommitData (finish_block did seq ops (r_key o) prev rev root)
           (finish_new did seq ws ops (r_key o) prev rev root bs) prev)).
Proof.
  clear klen inj valid_plain quiet. intros HO HO0 HH EN E REV.
  unfold commit_finish. rewrite (bindM_ok _ _ _ _ _ (obj_some _ _ _ HO)).
  rewrite (bindM_ok (fun st0 => (st0, get_unstored_blocks digest kdigest (rd st0) max_depth (r_mst o))) _ st st (root, bs))
    by (rewrite E; exact eq_refl).
  rewrite (bindM_ok (lift (int_to_tid seq 0)) _ st st rev) by (unfold lift; rewrite REV; exact eq_refl).
  cbn [fst snd].
  set (cblock := mk_block digest (commit_value ecdsa (r_key o) seq did rev prev root) (Some did) seq (Some ops)).
  change (StoreProofs.finish_block digest ecdsa did seq ops (r_key o) prev rev root) with cblock.
  unfold StoreProofs.finish_store, StoreProofs.finish_new.
  change (StoreProofs.finish_block digest ecdsa did seq ops (r_key o) prev rev root) with cblock.
  set (new := dset (b_cid cblock) cblock (add_nodes did seq bs (writes_blocks_of digest did seq [] ws))).
  unfold write_blocks. unfold bindM at 1, modify.
  set (bl := fold_left dsetdefault (map (fun b : block => (b_cid b, b)) (map snd new)) (s_blocks st)).
  rewrite HH. cbn [is_some].
  assert (HO1 : nth_error (s_objs (set_blocks bl st)) r = Some o) by exact HO.
  set (o1 := with_head (Some cblock) o).
  assert (HO2 : nth_error (s_objs (upd (set_blocks bl st) r o1)) r = Some o1).
  { cbn. eapply nth_replace_same; eauto. }
  assert (FD : item_text (s "did") (b_val cblock) = Ok did) by apply finish_did.
  assert (EX : bindM (set_attr r (with_head (Some cblock))) (fun _ => store_repo be r) (set_blocks bl st)
     = (after_store (upd (set_blocks bl st) r o1) did r o1 cblock, Ok tt)).
  { rewrite (bindM_ok _ _ _ _ _ (set_attr_some _ _ _ _ HO1)). fold o1.
    apply (store_repo_ok _ r o1 cblock did HO2); auto. }
  rewrite (bindM_ok _ _ _ _ _ EX). unfold after_finish. cbv zeta. fold o1.
  set (st1 := after_store (upd (set_blocks bl st) r o1) did r o1 cblock).
  assert (HO3 : exists o', nth_error (s_objs st1) r0 = Some o').
  { unfold st1. rewrite after_store_objs. cbn. destruct (Nat.eq_dec r r0) as [<-|NE].
    - exists o1. eapply nth_replace_same; eauto.
    - rewrite nth_replace_other by auto. eauto. }
  destruct HO3 as (o' & HO3).
  match goal with |- context [nth_error (s_objs ?x) r0] => change x with st1 end.
  rewrite HO3.
  rewrite (bindM_ok _ _ _ _ _ (set_attr_some _ _ _ _ HO3)).
  assert (HO4 : nth_error (s_objs (upd st1 r0 (with_mst (r_mst o) o'))) r0 = Some (with_mst (r_mst o) o')).
  { cbn. eapply nth_replace_same; eauto. }
  rewrite (bindM_ok _ _ _ _ _ (set_attr_some _ _ _ _ HO4)). rewrite upd_upd. reflexivity.
Qed.

Lemma commit_finish_ok st r0 r o o0 hb did prev seq ws ops recs rev :
  nth_error (s_objs st) r = Some o -> nth_error (s_objs st) r0 = Some o0 -> r_head o = Some hb ->
  (be = Datastore -> dget did (s_ents st) <> None) ->
  closed digest kdigest (rd st) -> holds st (r_mst o) recs -> int_to_tid seq 0 = Ok rev ->
  exists root bs,
    get_unstored_blocks digest kdigest (rd st) max_depth (r_mst o) = Ok (root, bs) /\
    commit_finish digest kdigest ecdsa be r0 r did prev seq (writes_blocks_of digest did seq [] ws, ops) st
    = (after_finish st r0 r o did (finish_store (s_blocks st) did seq ws ops (r_key o) prev rev root bs)
         (finish_block did seq ops (r_key o) prev rev root),
       Ok (CommitData (finish_block did seq ops (r_key o) prev rev root)
             (finish_new did seq ws ops (r_key o) prev rev root bs) prev)).
Proof.
  clear inj valid_plain quiet. intros HO HO0 HH EN CL HR REV. destruct (unstored_ok st (r_mst o) recs CL HR) as (root & bs & E).
  exists root, bs. split; [exact E|]. eapply commit_finish_run; eauto.
Qed.

(** With an unusable sequence number nothing is written. *)
Lemma commit_finish_err st r0 r o did prev seq bo recs e :
  nth_error (s_objs st) r = Some o -> closed digest kdigest (rd st) -> holds st (r_mst o) recs ->
  int_to_tid seq 0 = Err e ->
  commit_finish digest kdigest ecdsa be r0 r did prev seq bo st = (st, Err e).
Proof.
  intros HO SO HR REV. unfold commit_finish. rewrite (bindM_ok _ _ _ _ _ (obj_some _ _ _ HO)).
  destruct (unstored_ok st (r_mst o) recs SO HR) as (root & bs & E).
  rewrite (bindM_ok (fun st0 => (st0, get_unstored_blocks digest kdigest (rd st0) max_depth (r_mst o))) _ st st (root, bs))
    by (rewrite E; exact eq_refl).
  apply bindM_err. unfold lift. rewrite REV. reflexivity.
Qed.

Lemma allowed_plain recs ws : writes_allowed recs ws ->
  forall w v, In w ws -> w_action w <> DELETE -> w_record w = Some v -> plain v.
Proof.
  clear - valid_plain. revert recs. induction ws as [|w' ws IH]; intros recs AB w v HI NA R; [destruct HI|].
  destruct AB as [A B].
  destruct HI as [->|HI]; [|eapply IH; eauto].
  apply valid_plain. unfold write_allowed in A.
  destruct (w_action w); try congruence; [destruct A as (_ & _ & v' & R' & _ & V & _)|destruct A as (_ & v' & R' & _ & V & _)];
    congruence.
Qed.

(** ** commit on an existing repo *)

Definition commit_possible (recs : records) (ws : list write) (seq : Z) : Prop :=
  writes_allowed recs ws /\ (len ws <= 200)%N /\ (seq < 2 ^ 55)%Z.

Lemma commit_exec st r0 o0 h0 did st1 r o hb recs ws :
  nth_error (s_objs st) r0 = Some o0 -> r_status o0 = None -> r_head o0 = Some h0 ->
  item_text (s "did") (b_val h0) = Ok did ->
  load_repo be did (alloc st) = (st1, Ok (Some r)) ->
  s_next st1 = (s_next st + 1)%Z -> s_blocks st1 = s_blocks st -> s_calls st1 = s_calls st ->
  nth_error (s_objs st1) r0 = Some o0 ->
  nth_error (s_objs st1) r = Some o -> r_head o = Some hb ->
  (be = Datastore -> dget did (s_ents st1) <> None) ->
  closed digest kdigest (rd st) -> (0 < s_next st)%Z -> holds st1 (r_mst o) recs ->
  (commit_possible recs ws (s_next st) /\
   exists m' root bs rev, holds st1 m' (apply_writes recs ws) /\ int_to_tid (s_next st) 0 = Ok rev /\
     let ops := commit_ops recs ws in
     let seq := s_next st in
     let cd := CommitData (finish_block did seq ops (r_key o) (Some (b_cid hb)) rev root)
                 (finish_new did seq ws ops (r_key o) (Some (b_cid hb)) rev root bs) (Some (b_cid hb)) in
     let bl := finish_store (s_blocks st) did seq ws ops (r_key o) (Some (b_cid hb)) rev root bs in
     get_unstored_blocks digest kdigest (rd st1) max_depth m' = Ok (root, bs) /\
     commit digest kdigest validate ecdsa cb be r0 ws None st
     = (called o0 (CData (MCommit cd)) (after_finish st1 r0 r (with_mst m' o) did bl (cd_commit cd)), Ok cd)) \/
  (~ commit_possible recs ws (s_next st) /\
   exists m' e, commit digest kdigest validate ecdsa cb be r0 ws None st
     = (called o0 (CLost (s_next st)) (upd st1 r (with_mst m' o)), Err e) /\
     commit_fails validate recs ws (s_next st) e /\
     (length ws <= 1 \/ 200 < length ws -> (s_next st < 2 ^ 55)%Z -> m' = r_mst o)).
Proof.
  intros HO0 ST HH0 DID LD NX BL CL HO01 HO HH EN SO POS HR.
  assert (TGT : commit_target be r0 None (alloc st) = (st1, Ok (did, r, Some (b_cid hb)))).
  { unfold commit_target.
    assert (HOA : nth_error (s_objs (alloc st)) r0 = Some o0) by exact HO0.
    rewrite (bindM_ok _ _ _ _ _ (obj_some _ _ _ HOA)). rewrite ST. cbn [is_some].
    unfold bindM at 1. cbn [ret].
    rewrite (bindM_ok _ _ _ _ _ (need_did_ok _ _ _ _ HH0 DID)).
    rewrite (bindM_ok _ _ _ _ _ LD). rewrite (bindM_ok _ _ _ _ _ (obj_some _ _ _ HO)). rewrite HH. reflexivity. }
  assert (UN : commit digest kdigest validate ecdsa cb be r0 ws None st
    = on_exception (bindM (commit_ digest kdigest validate ecdsa be r0 ws (s_next st) None)
        (fun cd => bindM (callback cb r0 (CData (MCommit cd))) (fun _ => ret cd)))
        (callback cb r0 (CLost (s_next st))) (alloc st)) by exact eq_refl.
  rewrite UN; clear UN.
  assert (UC : commit_ digest kdigest validate ecdsa be r0 ws (s_next st) None (alloc st)
    = bindM (if (max_operations <? len ws)%N then throw ValueError else ret tt) (fun _ =>
        bindM (foldM (commit_write digest kdigest validate r did (s_next st)) ([], []) ws) (fun bo =>
        commit_finish digest kdigest ecdsa be r0 r did (Some (b_cid hb)) (s_next st) bo)) st1).
  { unfold commit_. assert (X : negb (s_next st =? 0)%Z = true) by lia. rewrite X. unfold assert.
    rewrite (bindM_ok (ret tt) _ (alloc st) (alloc st) tt eq_refl). rewrite (bindM_ok _ _ _ _ _ TGT). reflexivity. }
  assert (FAIL : forall m' e, commit_ digest kdigest validate ecdsa be r0 ws (s_next st) None (alloc st)
      = (upd st1 r (with_mst m' o), Err e) ->
    on_exception (bindM (commit_ digest kdigest validate ecdsa be r0 ws (s_next st) None)
        (fun cd => bindM (callback cb r0 (CData (MCommit cd))) (fun _ => ret cd)))
        (callback cb r0 (CLost (s_next st))) (alloc st)
    = (called o0 (CLost (s_next st)) (upd st1 r (with_mst m' o)), Err e)).
  { intros m' e E. unfold on_exception. rewrite (bindM_err _ _ _ _ _ E).
    destruct (Nat.eq_dec r r0) as [->|NE].
    - assert (o0 = o) by congruence. subst o0.
      assert (X : nth_error (s_objs (upd st1 r0 (with_mst m' o))) r0 = Some (with_mst m' o)).
      { cbn. eapply nth_replace_same; eauto. }
      rewrite (callback_ok _ _ _ _ X). reflexivity.
    - assert (X : nth_error (s_objs (upd st1 r (with_mst m' o))) r0 = Some o0).
      { cbn. rewrite nth_replace_other; auto. }
      rewrite (callback_ok _ _ _ _ X). reflexivity. }
  assert (SO1 : closed digest kdigest (rd st1)) by (unfold rd; rewrite BL; exact SO).
  destruct (max_operations <? len ws)%N eqn:LIM.
  { right. split.
    - intros (_ & A & _). unfold max_operations in LIM. lia.
    - exists (r_mst o), ValueError. splits; [|left; split; auto; unfold max_operations in LIM; lia|reflexivity || (intros; reflexivity)].
      apply FAIL. rewrite UC. unfold bindM at 1. cbn [throw]. rewrite upd_mst_same by auto. reflexivity. }
  rewrite (bindM_ok (ret tt) _ st1 st1 tt eq_refl) in UC.
  destruct (foldM_commit_ok digest kdigest validate klen inj did (s_next st) r ws st1 o recs [] [] HO HR)
    as (m' & out & EF & C).
  assert (HOm : nth_error (s_objs (upd st1 r (with_mst m' o))) r = Some (with_mst m' o)).
  { cbn. eapply nth_replace_same; eauto. }
  destruct C as [(AL & HM & ->)|(NA & (e & -> & BF) & KEEP)].
  2:{ right. split; [intros (A & _); exact (NA A)|]. exists m', e. splits.
      - apply FAIL. rewrite UC. apply bindM_err. exact EF.
      - right. left. split; auto. unfold max_operations in LIM. lia.
      - unfold max_operations, len in LIM. intros L _. apply KEEP. lia. }
  rewrite (bindM_ok _ _ _ _ _ EF) in UC. cbn [app] in UC.
  destruct (Z_lt_le_dec (s_next st) (2 ^ 55)) as [LT|GE].
  2:{ right. split; [intros (_ & _ & A); exact (Z.lt_irrefl _ (Z.lt_le_trans _ _ _ A GE))|].
      exists m', AssertionError. splits; [|right; right; splits; auto; unfold max_operations in LIM; lia|intros _ A; exfalso; exact (Z.lt_irrefl _ (Z.lt_le_trans _ _ _ A GE))].
      apply FAIL. rewrite UC.
      exact (commit_finish_err _ r0 r (with_mst m' o) did _ (s_next st) _ (apply_writes recs ws) AssertionError HOm SO1 HM
               (tid_too_large _ 0 GE)). }
  left. split.
  { unfold commit_possible. splits; auto. unfold max_operations in LIM. lia. }
  destruct (tid_round_trip (s_next st) 0 (conj (Z.lt_le_incl _ _ POS) LT) ltac:(lia)) as (rev & REV & _).
  assert (HO0m : exists o0', nth_error (s_objs (upd st1 r (with_mst m' o))) r0 = Some o0' /\ r_callback o0' = r_callback o0).
  { destruct (Nat.eq_dec r r0) as [->|NE].
    - exists (with_mst m' o). split; auto. replace o0 with o by congruence. reflexivity.
    - exists o0. split; auto. cbn. rewrite nth_replace_other; auto. }
  destruct HO0m as (o0' & HO0m & CBK).
  destruct (commit_finish_ok (upd st1 r (with_mst m' o)) r0 r (with_mst m' o) o0' hb did (Some (b_cid hb)) (s_next st) ws
     (commit_ops recs ws) (apply_writes recs ws) rev HOm HO0m HH EN SO1 HM REV)
    as (root & bs & GU & EX).
  exists m', root, bs, rev. splits; auto.
  cbn zeta. split; [exact GU|]. rewrite EX in UC. cbn [cd_commit].
  unfold on_exception. rewrite (bindM_ok _ _ _ _ _ UC).
  assert (AF : after_finish (upd st1 r (with_mst m' o)) r0 r (with_mst m' o) did
       (finish_store (s_blocks (upd st1 r (with_mst m' o))) did (s_next st) ws (commit_ops recs ws) (r_key (with_mst m' o)) (Some (b_cid hb)) rev root bs)
       (finish_block did (s_next st) (commit_ops recs ws) (r_key (with_mst m' o)) (Some (b_cid hb)) rev root)
    = after_finish st1 r0 r (with_mst m' o) did (finish_store (s_blocks st) did (s_next st) ws (commit_ops recs ws) (r_key o) (Some (b_cid hb)) rev root bs)
       (finish_block did (s_next st) (commit_ops recs ws) (r_key o) (Some (b_cid hb)) rev root)).
  { unfold after_finish. cbv zeta. cbn [upd s_blocks set_objs]. rewrite BL.
    cbn [r_key with_mst r_mst]. unfold upd, set_blocks, set_objs. cbn [s_objs s_next s_blocks s_mem s_ents s_calls].
    rewrite replace_nth_twice. reflexivity. }
  rewrite AF. clear AF. cbn [r_key with_mst].
  set (cblock := finish_block did (s_next st) (commit_ops recs ws) (r_key o) (Some (b_cid hb)) rev root).
  set (bl := finish_store (s_blocks st) did (s_next st) ws (commit_ops recs ws) (r_key o) (Some (b_cid hb)) rev root bs).
  assert (FO : exists x, nth_error (s_objs (after_finish st1 r0 r (with_mst m' o) did bl cblock)) r0 = Some x /\
    r_callback x = r_callback o0).
  { unfold after_finish. cbv zeta. set (s1 := after_store _ _ _ _ _).
    assert (Y : exists y, nth_error (s_objs s1) r0 = Some y /\ r_callback y = r_callback o0).
    { unfold s1. rewrite after_store_objs. cbn. destruct (Nat.eq_dec r r0) as [->|NE].
      - eexists. split; [eapply nth_replace_same; eauto|]. replace o0 with o by congruence. reflexivity.
      - exists o0. rewrite nth_replace_other by auto. auto. }
    destruct Y as (y & Y1 & Y2). rewrite Y1. eexists. split; [cbn; eapply nth_replace_same; eauto|]. exact Y2. }
  destruct FO as (x & FO & CX). rewrite (bindM_ok _ _ _ _ _ (callback_ok _ _ _ _ FO)). unfold ret, called.
  rewrite CX. reflexivity.
Qed.

(** A caller whose handle says that the repo is inactive. *)
Lemma commit_inactive st r0 o0 x ws : nth_error (s_objs st) r0 = Some o0 -> r_status o0 = Some x -> (0 < s_next st)%Z ->
  forall first, commit digest kdigest validate ecdsa cb be r0 ws first st
  = (called o0 (CLost (s_next st)) (alloc st), Err InactiveRepo).
Proof.
  intros HO ST POS first. unfold commit.
  rewrite (bindM_ok allocate_seq _ st (alloc st) (s_next st) eq_refl).
  unfold on_exception.
  assert (E : commit_ digest kdigest validate ecdsa be r0 ws (s_next st) first (alloc st) = (alloc st, Err InactiveRepo)).
  { unfold commit_. assert (X : negb (s_next st =? 0)%Z = true) by lia. rewrite X. unfold assert.
    rewrite (bindM_ok (ret tt) _ (alloc st) (alloc st) tt eq_refl). apply bindM_err. unfold commit_target.
    assert (HOA : nth_error (s_objs (alloc st)) r0 = Some o0) by exact HO.
    rewrite (bindM_ok _ _ _ _ _ (obj_some _ _ _ HOA)). rewrite ST. reflexivity. }
  rewrite (bindM_err _ _ _ _ _ E). assert (HOA : nth_error (s_objs (alloc st)) r0 = Some o0) by exact HO.
  rewrite (callback_ok _ _ _ _ HOA). reflexivity.
Qed.

(** ** The first commit of a repo *)

Lemma commit_first_ok st r o x did' rev :
  nth_error (s_objs st) r = Some o -> r_status o = None -> r_head o = None ->
  closed digest kdigest (rd st) -> (0 < s_next st)%Z -> holds st (r_mst o) [] ->
  int_to_tid (s_next st) 0 = Ok rev ->
  let did := x :: did' in
  exists root bs,
    get_unstored_blocks digest kdigest (rd st) max_depth (r_mst o) = Ok (root, bs) /\
    let seq := s_next st in
    let cblock := finish_block did seq [] (r_key o) None rev root in
    let cd := CommitData cblock (finish_new did seq [] [] (r_key o) None rev root bs) None in
    let bl := finish_store (s_blocks st) did seq [] [] (r_key o) None rev root bs in
    commit digest kdigest validate ecdsa cb be r [] (Some did) st
    = (called o (CData (MCommit cd)) (upd (set_blocks bl (alloc st)) r (with_head (Some cblock) o)), Ok cd).
Proof.
  intros HO ST HH SO POS HR REV did.
  destruct (unstored_ok st (r_mst o) [] SO HR) as (root & bs & E).
  exists root, bs. split; [exact E|]. cbv zeta.
  unfold commit.
  rewrite (bindM_ok allocate_seq _ st (alloc st) (s_next st) eq_refl).
  unfold on_exception.
  assert (HOA : nth_error (s_objs (alloc st)) r = Some o) by exact HO.
  set (cblock := finish_block did (s_next st) [] (r_key o) None rev root).
  set (new := finish_new did (s_next st) [] [] (r_key o) None rev root bs).
  set (bl := finish_store (s_blocks st) did (s_next st) [] [] (r_key o) None rev root bs).
  assert (X : commit_ digest kdigest validate ecdsa be r [] (s_next st) (Some did) (alloc st)
    = (upd (set_blocks bl (alloc st)) r (with_head (Some cblock) o), Ok (CommitData cblock new None))).
  { unfold commit_. assert (X : negb (s_next st =? 0)%Z = true) by lia. rewrite X. unfold assert.
    rewrite (bindM_ok (ret tt) _ (alloc st) (alloc st) tt eq_refl).
    assert (TGT : commit_target be r (Some did) (alloc st) = (alloc st, Ok (did, r, None))).
    { unfold commit_target. rewrite (bindM_ok _ _ _ _ _ (obj_some _ _ _ HOA)). rewrite ST, HH. reflexivity. }
    rewrite (bindM_ok _ _ _ _ _ TGT). cbn [foldM len].
    assert (L : (max_operations <? len (@nil write))%N = false) by reflexivity. rewrite L.
    rewrite (bindM_ok (ret tt) _ (alloc st) (alloc st) tt eq_refl).
    rewrite (bindM_ok (ret ([], [])) _ (alloc st) (alloc st) ([], []) eq_refl).
    unfold commit_finish. rewrite (bindM_ok _ _ _ _ _ (obj_some _ _ _ HOA)).
    rewrite (bindM_ok (fun st0 => (st0, get_unstored_blocks digest kdigest (rd st0) max_depth (r_mst o))) _ (alloc st) (alloc st) (root, bs))
      by (change (rd (alloc st)) with (rd st); rewrite E; exact eq_refl).
    rewrite (bindM_ok (lift (int_to_tid (s_next st) 0)) _ (alloc st) (alloc st) rev) by (unfold lift; rewrite REV; exact eq_refl).
    cbn [fst snd]. unfold write_blocks. unfold bindM at 1, modify. rewrite HH. cbn [is_some].
    match goal with |- bindM _ _ ?x = _ => change x with (set_blocks bl (alloc st)) end.
    rewrite (bindM_ok (ret tt) _ (set_blocks bl (alloc st)) (set_blocks bl (alloc st)) tt eq_refl).
    assert (HO1 : nth_error (s_objs (set_blocks bl (alloc st))) r = Some o) by exact HO.
    rewrite (bindM_ok _ _ _ _ _ (set_attr_some _ _ _ _ HO1)). rewrite upd_mst_same by auto.
    rewrite (bindM_ok _ _ _ _ _ (set_attr_some _ _ _ _ HO1)). reflexivity. }
  rewrite (bindM_ok _ _ _ _ _ X).
  assert (HO2 : nth_error (s_objs (upd (set_blocks bl (alloc st)) r (with_head (Some cblock) o))) r = Some (with_head (Some cblock) o)).
  { cbn. eapply nth_replace_same; eauto. }
  rewrite (bindM_ok _ _ _ _ _ (callback_ok _ _ _ _ HO2)). reflexivity.
Qed.

Lemma commit_first_err st r o x did' e :
  nth_error (s_objs st) r = Some o -> r_status o = None -> r_head o = None ->
  closed digest kdigest (rd st) -> (0 < s_next st)%Z -> holds st (r_mst o) [] ->
  int_to_tid (s_next st) 0 = Err e ->
  commit digest kdigest validate ecdsa cb be r [] (Some (x :: did')) st
  = (called o (CLost (s_next st)) (alloc st), Err e).
Proof.
  intros HO ST HH SO POS HR REV. unfold commit.
  rewrite (bindM_ok allocate_seq _ st (alloc st) (s_next st) eq_refl).
  unfold on_exception.
  assert (HOA : nth_error (s_objs (alloc st)) r = Some o) by exact HO.
  assert (X : commit_ digest kdigest validate ecdsa be r [] (s_next st) (Some (x :: did')) (alloc st) = (alloc st, Err e)).
  { unfold commit_. assert (X : negb (s_next st =? 0)%Z = true) by lia. rewrite X. unfold assert.
    rewrite (bindM_ok (ret tt) _ (alloc st) (alloc st) tt eq_refl).
    assert (TGT : commit_target be r (Some (x :: did')) (alloc st) = (alloc st, Ok (x :: did', r, None))).
    { unfold commit_target. rewrite (bindM_ok _ _ _ _ _ (obj_some _ _ _ HOA)). rewrite ST, HH. reflexivity. }
    rewrite (bindM_ok _ _ _ _ _ TGT). cbn [foldM len].
    assert (L : (max_operations <? len (@nil write))%N = false) by reflexivity. rewrite L.
    rewrite (bindM_ok (ret tt) _ (alloc st) (alloc st) tt eq_refl).
    rewrite (bindM_ok (ret ([], [])) _ (alloc st) (alloc st) ([], []) eq_refl).
    exact (commit_finish_err (alloc st) r r o (x :: did') None (s_next st) ([], []) [] e HOA SO HR REV). }
  rewrite (bindM_err _ _ _ _ _ X). rewrite (callback_ok _ _ _ _ HOA). reflexivity.
Qed.

(** ** Events *)

Definition add_block (b : block) (st : state) : state := set_blocks (s_blocks st ++ [(b_cid b, b)]) st.

Definition is_event (type : str) (seq : Z) (v : ipld) : Prop :=
  vtype (norm v) = Some (IText (nsid_hash ++ type)) /\ item (s "seq") (norm v) = Ok (IInt seq).

Lemma event_fresh bl seq type v : store_ok bl seq -> is_event type seq v -> dget (cid_of digest (norm v)) bl = None.
Proof.
  clear - inj. intros SO [T Q]. destruct (dget _ bl) as [b|] eqn:E; auto. exfalso.
  destruct (so_block _ _ _ _ SO _ _ E) as (_ & C & SQ & K). apply cid_of_inj in C; auto.
  destruct K as [d K|v' P K|t T' Q'|did' rev' prev' data' sig' ops' K R].
  - rewrite C, K, vtype_node in T. discriminate.
  - destruct (vtype_plain _ P) as (t & T' & NS). rewrite C, K, T' in T. assert (TE : t = nsid_hash ++ type) by congruence. subst t.
    assert (X : starts_with nsid_hash (nsid_hash ++ type) = true) by (apply starts_with_app; eauto). congruence.
  - rewrite C, Q' in Q. injection Q as Q. lia.
  - rewrite C, K, vtype_commit in T. discriminate.
Qed.

Lemma event_store bl seq type v did : store_ok bl seq -> (0 < seq)%Z -> is_event type seq v ->
  let b := mk_block digest v did seq None in store_ok (bl ++ [(b_cid b, b)]) (seq + 1).
Proof.
  clear - inj. intros SO POS EV b. pose proof (event_fresh _ _ _ _ SO EV) as FR. destruct EV as [T Q].
  assert (G : forall c, dget c (bl ++ [(b_cid b, b)]) = match dget c bl with Some x => Some x | None =>
     if str_eqb c (b_cid b) then Some b else None end).
  { intros c. rewrite dget_app. destruct (dget c bl); auto. }
  assert (NT : forall n t, wf kdigest n t -> b_cid b <> tcid digest t).
  { intros n [es] _ X. rewrite tcid_eq in X. cbn [b mk_block b_cid] in X. apply cid_of_inj in X; auto.
    rewrite X, vtype_node in T. discriminate. }
  split.
  - intros c x H. rewrite G in H. destruct (dget c bl) as [y|] eqn:E.
    + injection H as ->. destruct (so_block _ _ _ _ SO _ _ E) as (A & B & C & D). unfold block_ok. splits; auto; lia.
    + destruct (str_eqb_spec c (b_cid b)) as [->|NE]; [|discriminate]. injection H as <-. unfold block_ok.
      cbn [b mk_block b_cid b_val b_seq]. splits; auto; [lia|]. eapply k_event; [exact T|exact Q|reflexivity].
  - assert (M : forall c v, dget c (vals bl) = Some v -> dget c (vals (bl ++ [(b_cid b, b)])) = Some v).
    { intros c y. rewrite !dget_vals, G. destruct (dget c bl); [auto|discriminate]. }
    intros n t W HR. apply (stored_mono digest (fun k : str => dget k (vals bl)) _ t M).
    apply (so_closed _ _ _ _ SO n t W). rewrite dget_vals, G in HR. rewrite dget_vals.
    destruct (dget (tcid digest t) bl); [discriminate|]. exfalso. apply HR.
    destruct (str_eqb_spec (tcid digest t) (b_cid b)) as [E|NE]; auto. exfalso. eapply NT; eauto.
  - rewrite keys_app. apply dget_None in FR. pose proof (so_nodup _ _ _ _ SO) as ND.
    apply NoDup_rev in ND. rewrite <- (rev_involutive (keys bl ++ _)). apply NoDup_rev.
    rewrite rev_app_distr. cbn [keys map rev app fst]. constructor; auto. rewrite <- in_rev. exact FR.
Qed.

Lemma write_event_ok st r o h did type extra :
  nth_error (s_objs st) r = Some o -> r_head o = Some h -> item_text (s "did") (b_val h) = Ok did ->
  (0 < s_next st)%Z -> dget (cid_of digest (norm (event now type (s_next st) (Some did) extra))) (s_blocks st) = None ->
  let b := mk_block digest (event now type (s_next st) (Some did) extra) (Some did) (s_next st) None in
  write_event digest now cb be r type extra st
  = (called o (CData (MEvent (b_val b))) (add_block b (alloc st)), Ok b).
Proof.
  intros HO HH HD POS FR b. unfold write_event.
  rewrite (bindM_ok allocate_seq _ st (alloc st) (s_next st) eq_refl).
  assert (HOA : nth_error (s_objs (alloc st)) r = Some o) by exact HO.
  rewrite (bindM_ok _ _ _ _ _ (obj_some _ _ _ HOA)).
  rewrite (bindM_ok (lift (repo_did o)) _ (alloc st) (alloc st) (Some did))
    by (unfold lift, repo_did; rewrite HH, HD; exact eq_refl).
  assert (WB : write_blocks [b] (alloc st) = (add_block b (alloc st), Ok tt)).
  { unfold write_blocks, modify, add_block. cbn [map fold_left]. unfold dsetdefault. cbn [fst snd].
    cbn [s_blocks alloc set_next]. change (b_cid b) with (cid_of digest (norm (event now type (s_next st) (Some did) extra))) at 1.
    rewrite FR. reflexivity. }
  assert (WO : write_obj digest be (Some did) (event now type (s_next st) (Some did) extra) (s_next st) (alloc st)
     = (add_block b (alloc st), Ok b)).
  { unfold write_obj. assert (TR : truthy (event now type (s_next st) (Some did) extra) = true) by reflexivity.
    fold b. destruct be.
    - rewrite TR. unfold assert. rewrite (bindM_ok (ret tt) _ (alloc st) (alloc st) tt eq_refl). rewrite (bindM_ok _ _ _ _ _ WB). reflexivity.
    - assert (X : (0 <? s_next st)%Z = true) by lia. rewrite X. unfold assert at 1.
      rewrite (bindM_ok (ret tt) _ (alloc st) (alloc st) tt eq_refl). rewrite (bindM_ok _ _ _ _ _ WB).
      unfold bindM at 1, reads.
      assert (RDB : read (add_block b (alloc st)) (b_cid b) = Some b).
      { unfold read, add_block. cbn [s_blocks set_blocks]. rewrite dget_app. cbn [s_blocks alloc set_next].
        change (b_cid b) with (cid_of digest (norm (event now type (s_next st) (Some did) extra))) at 1.
        rewrite FR. cbn [dget]. rewrite str_eqb_refl. reflexivity. }
      rewrite RDB. assert (Y : (b_seq b <=? s_next st)%Z = true) by (cbn [b mk_block b_seq]; lia). rewrite Y.
      reflexivity. }
  rewrite (bindM_ok _ _ _ _ _ WO).
  assert (HOB : nth_error (s_objs (add_block b (alloc st))) r = Some o) by exact HO.
  rewrite (bindM_ok _ _ _ _ _ (callback_ok _ _ _ _ HOB)). reflexivity.
Qed.

End Exec.
