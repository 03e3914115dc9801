(** Servers the processes of which die. *)
From Coq Require Import String List NArith ZArith Bool Lia Sorted.
From Coq Require Import ZifyBool ZifyNat ZifyN.
From Verif Require Import Base Lists Ipld IpldProofs MstModel MstTree MstTreeProofs MstRep MstTrav
  MstClient MstSpec MstHist MstFacts TidModel TidProofs BlockModel BlockSpec
  CarModel StorageModel StorageSpec CommitProofs StoreProofs ExecProofs RepoSpec RepoProofs RepoHist EventsProofs TellProofs
  UriModel ServerModel ServerSpec LiveStore LiveProofs CrashModel CrashSpec CrashProofs.
Import ListNotations.
Local Open Scope m_scope.

(** Takes no block away and gives no number twice. *)
Definition ups {A} (m : M A) : Prop := forall st, extends (s_blocks st) (s_blocks (fst (m st))) /\ (s_next st <= s_next (fst (m st)))%Z.
Lemma ups_front {A} (m : M A) : front m -> ups m.
Proof. intros F st. destruct (F st) as [-> ->]. split; [apply extends_refl|lia]. Qed.
Lemma ups_bind {A B} (m : M A) (f : A -> M B) : ups m -> (forall a, ups (f a)) -> ups (bindM m f).
Proof.
  intros H F st. specialize (H st). unfold bindM. destruct (m st) as [st1 [a|e]]; cbn [fst] in *; [|exact H].
  destruct H as [H1 H2], (F a st1) as [F1 F2]. split; [eapply extends_trans; eauto|lia].
Qed.
Lemma ups_blocks bs : ups (write_blocks bs).
Proof. intros st. split; [apply adds_blocks|]. cbn. lia. Qed.
Lemma ups_alloc : ups allocate_seq.
Proof. intros st. split; [apply extends_refl|]. cbn. lia. Qed.
Ltac ups := repeat first [apply ups_blocks|apply ups_alloc|apply ups_front; solve [fronts]
  |match goal with |- ups (bindM _ _) => apply ups_bind; [|intros ?] | |- ups (match ?x with _ => _ end) => destruct x | |- ups (let '_ := ?x in _) => destruct x end].

Lemma ups_catch {A} (m : M A) (h : M unit) : ups m -> ups h -> ups (on_exception m h).
Proof.
  intros H F st. specialize (H st). unfold on_exception. destruct (m st) as [st1 [a|e]]; cbn [fst] in *; [exact H|].
  destruct H as [H1 H2], (F st1) as [F1 F2]. destruct (h st1) as [st2 [[]|e2]]; cbn [fst] in *; (split; [eapply extends_trans; eauto|lia]).
Qed.

Section Crash.
Variable digest : list N -> list N.
Variable kdigest : str -> list N.
Variable validate : ipld -> res unit.
Variable ecdsa : N -> Z -> list N -> list N.
Variable now : Z -> str.
Variable cb : nat -> option exn.
Variable netloc_ok : str -> bool.
Variable cfg : config.
Notation live := (live digest kdigest Datastore).
Notation sound := (sound digest kdigest).
Notation weak := (weak digest kdigest).
Notation sstep := (sstep digest kdigest validate ecdsa now cb Datastore).
Notation cut := (cut digest kdigest validate ecdsa now cb).

Lemma ups_commit r ws : ups (commit digest kdigest validate ecdsa cb Datastore r ws None).
Proof.
  unfold commit. ups. apply ups_catch; [|apply ups_front, front_callback]. unfold commit_, commit_finish. ups; try (apply ups_front, front_target).
  - apply ups_front, front_fold.
  - apply ups_front. intros st. split; reflexivity.
  - apply ups_front, front_store.
  - apply ups_front, front_callback.
Qed.
Lemma ups_serve q : ups (serve digest kdigest validate ecdsa cb Datastore netloc_ok cfg q).
Proof.
  assert (L : forall x, ups (server_load Datastore netloc_ok x)) by (intros x; unfold server_load; ups; apply ups_front, front_load).
  assert (F : forall o c k, ups (find_record kdigest o c k)) by (intros o c k; apply ups_front; intros st; split; reflexivity).
  assert (P : forall h i, ups (put_record digest kdigest validate ecdsa cb Datastore netloc_ok cfg h i)).
  { intros h i. unfold put_record, did_of. ups; auto using ups_commit. }
  destruct q as [h i tid|h i|h i|a b c d]; cbn [serve].
  - unfold create_record. ups; auto.
  - ups; auto.
  - unfold delete_record. ups; auto using ups_commit.
  - unfold xrpc_get_record, did_of. ups; auto.
Qed.
Lemma ups_import resolve signing verify handle header car key : ups (import_repo Datastore cfg resolve signing verify handle header car key).
Proof.
  assert (B : forall hc bl acc, ups (import_blocks Datastore resolve signing verify hc bl acc)).
  { intros hc bl. induction bl as [|[c data] bl IH]; intros acc; cbn [import_blocks]; ups; auto; apply ups_front, front_load. }
  unfold import_repo. ups; auto; apply ups_front, front_create_repo.
Qed.

(** Enough to start again with. *)
Definition ready (st c : state) : Prop := (s_next st <= s_next c)%Z /\ weak (s_blocks c) (s_next c) /\ extends (s_blocks st) (s_blocks c) /\ s_ents c = s_ents st.
Lemma live_reboot st refs bk c lost : live st refs bk -> ready st c -> live (reboot lost c) [] bk.
Proof.
  intros I (LE & SO & EX & EE). split; cbn [reboot s_next s_blocks s_objs s_mem s_ents].
  - pose proof (l_next _ _ _ _ _ _ I). lia.
  - eapply weak_le; [|exact SO]. lia.
  - constructor.
  - rewrite EE. exact (l_ents _ _ _ _ _ _ I).
  - intros r [].
  - intros did key recs E. destruct (l_book _ _ _ _ _ _ I _ _ _ E) as (A & B & o & C & D & K). splits; auto.
    + unfold registered in *. cbn [reboot s_ents]. rewrite EE. exact B.
    + exists o. split; [|split; [eapply sound_mono; eauto|exact K]]. apply (stored_same Datastore st); auto; [discriminate|]. intros _. cbn [reboot s_ents]. rewrite EE. reflexivity.
  - intros did E. unfold registered. cbn [reboot s_ents]. rewrite EE. exact (l_none _ _ _ _ _ _ I did E).
Qed.
Lemma ready_same st refs bk : live st refs bk -> ready st st.
Proof. intros I. unfold ready. splits; auto; [lia|exact (l_store _ _ _ _ _ _ I)|apply extends_refl]. Qed.
Lemma ready_alloc st c : ready st c -> ready st (alloc c).
Proof. intros (A & B & C & D). unfold ready. cbn. splits; auto; [lia|]. eapply weak_le; [|exact B]. lia. Qed.
Lemma ready_called st c o x : ready st c -> ready st (called o x c).
Proof. unfold ready. rewrite called_next, called_blocks, called_ents. auto. Qed.

Hypothesis klen : forall k, length (kdigest k) = 32.
Hypothesis inj : forall a b, digest a = digest b -> a = b.
Hypothesis valid_plain : forall v, validate v = Ok tt -> plain v.
Hypothesis quiet : forall n, cb n = None.

Lemma live_create_cut st refs bk k did handle status has_callback key : live st refs bk -> is_did did -> handle_ok handle -> k < 9 ->
  ready st (fst (create_until digest kdigest validate ecdsa now cb k did handle status has_callback key st)).
Proof.
  intros I ID HN LT9. pose proof (ready_same _ _ _ I) as FS.
  set (m0 := Mst (Some []) (Some (tcid digest (Node []))) None false).
  set (o := Repo m0 None handle status has_callback key).
  set (r := length (s_objs st)).
  set (st0 := add_obj o st).
  pose proof (live_add_obj _ _ _ _ _ _ o I) as I0. fold st0 in I0.
  assert (F0 : ready st st0) by exact FS.
  assert (HO : nth_error (s_objs st0) r = Some o) by (cbn; apply nth_app_last).
  pose proof (l_store _ _ _ _ _ _ I0) as SO. pose proof (l_next _ _ _ _ _ _ I0) as POS.
  assert (HR : holds digest kdigest st0 (r_mst o) []) by (apply empty_rel).
  assert (NE : exists x did', did = x :: did') by (destruct did as [|x did']; [discriminate ID|eauto]).
  destruct NE as (x & did' & DE).
  assert (START : forall f : nat -> M unit, bindM (lift (mst_create digest [] None)) (fun m =>
     bindM (new_obj (Repo m None handle status has_callback key)) f) st = f r st0) by (intros f; reflexivity).
  unfold create_until. replace (Nat.leb 9 k) with false by (symmetry; apply Nat.leb_gt; exact LT9). cbv zeta.
  rewrite START. cbv beta.
  destruct k as [|[|k]]; [exact F0|exact (ready_alloc _ _ F0)|].
  assert (CASE : status = None /\ (s_next st < 2 ^ 55)%Z \/ status <> None \/ status = None /\ (2 ^ 55 <= s_next st)%Z).
  { destruct status; [right; left; discriminate|]. destruct (Z_lt_le_dec (s_next st) (2 ^ 55)); auto. }
  destruct CASE as [(ST & LT)|[ST|(ST & GE)]].
  2:{ destruct status as [y|] eqn:SE; [|congruence].
      rewrite (bindM_err _ _ _ _ _ (ExecProofs.commit_inactive digest kdigest validate ecdsa cb Datastore klen inj quiet st0 r o y [] HO eq_refl POS (Some did))).
      cbn [fst]. apply ready_called, ready_alloc. exact F0. }
  2:{ rewrite DE. rewrite (bindM_err _ _ _ _ _ (commit_first_err digest kdigest validate ecdsa cb Datastore klen inj quiet st0 r o x did' AssertionError HO ST eq_refl (w_closed _ _ _ _ SO) POS HR
               (tid_too_large _ 0 GE))). cbn [fst]. apply ready_called, ready_alloc. exact F0. }
  destruct (tid_round_trip (s_next st) 0 (conj (Z.lt_le_incl _ _ POS) LT) ltac:(lia)) as (rev & REV & _).
  destruct (commit_first_ok digest kdigest validate ecdsa cb Datastore klen inj quiet st0 r o x did' rev HO ST eq_refl (w_closed _ _ _ _ SO) POS HR REV)
    as (root & bs & GU & EX).
  cbv zeta in EX. rewrite <- DE in EX.
  change (s_next st0) with (s_next st) in *. change (s_blocks st0) with (s_blocks st) in *.
  change (r_key o) with key in *.
  set (seq := s_next st) in *.
  set (cblock := finish_block digest ecdsa did seq [] key None rev root) in *.
  set (new := finish_new digest ecdsa did seq [] [] key None rev root bs) in *.
  set (bl := finish_store digest ecdsa (s_blocks st) did seq [] [] key None rev root bs) in *.
  set (cd := CommitData cblock new None) in *.
  set (o1 := with_head (Some cblock) o) in *.
  set (st1 := called o (CData (MCommit cd)) (upd (set_blocks bl (alloc st0)) r o1)) in *.
  destruct (weak_finish digest kdigest klen inj ecdsa (s_blocks st) m0 [] did seq [] [] key None rev root bs
     SO POS HR ltac:(intros ? ? []) GU) as (SO' & EXT & _).
  fold cblock bl in SO', EXT.
  assert (OB1 : s_objs st1 = s_objs st ++ [o1]).
  { unfold st1. rewrite called_objs. cbn [s_objs upd set_objs set_blocks alloc set_next st0 add_obj]. unfold r. clear.
    induction (s_objs st) as [|y l IH]; cbn; [reflexivity|]. f_equal. exact IH. }
  assert (B1 : s_blocks st1 = bl) by (unfold st1; rewrite called_blocks; reflexivity).
  assert (N1 : s_next st1 = (seq + 1)%Z) by (unfold st1; rewrite called_next; reflexivity).
  assert (M1 : s_mem st1 = s_mem st) by (unfold st1; rewrite called_mem; reflexivity).
  assert (E1 : s_ents st1 = s_ents st) by (unfold st1; rewrite called_ents; reflexivity).
  assert (F1 : ready st st1).
  { unfold ready. rewrite B1, N1, E1. splits; auto. fold seq. lia. }
  assert (I1 : live st1 refs bk).
  { eapply live_frame; [exact I| | | | | |]; auto.
    - fold seq. lia.
    - rewrite B1, N1. exact SO'.
    - rewrite B1. exact EXT.
    - intros r' o'. rewrite OB1. apply nth_app_some. }
  clearbody st1.
  assert (HO1 : nth_error (s_objs st1) r = Some o1) by (rewrite OB1; apply nth_app_last).
  assert (HD : item_text (s "did") (b_val cblock) = Ok did) by reflexivity.
  rewrite (bindM_ok _ _ _ _ _ EX). rewrite (bindM_ok _ _ _ _ _ (obj_some _ _ _ HO1)).
  rewrite (bindM_ok _ _ _ _ _ (ExecProofs.need_did_ok _ o1 cblock _ eq_refl HD)).
  destruct k as [|[|k]]; [exact F1|exact (ready_alloc _ _ F1)|].
  assert (FE : forall s0 b, ready st s0 -> live (after_event s0 o1 b) refs bk -> ready st (after_event s0 o1 b)).
  { intros s0 b (A1 & A2 & A3 & A4) I'. destruct (after_event_facts s0 o1 b) as (N2 & B2 & OB2 & M2 & E2 & C2). unfold ready. splits; [rewrite N2; lia|exact (l_store _ _ _ _ _ _ I')|rewrite B2|congruence].
    eapply extends_trans; [exact A3|]. apply extends_app. }
  destruct (live_event digest kdigest now cb Datastore klen inj quiet st1 refs bk r o1 cblock did (s "identity") (identity_extra handle) I1 HO1 eq_refl HD
     ltac:(intros q; split; destruct handle; reflexivity)) as (X1 & I2).
  set (e1 := event_block digest now did (s "identity") (s_next st1) (identity_extra handle)) in *.
  destruct (after_event_facts st1 o1 e1) as (N2 & B2 & OB2 & M2 & E2 & C2). pose proof (FE _ _ F1 I2) as F2.
  set (st2 := after_event st1 o1 e1) in *. clearbody st2.
  rewrite (bindM_ok _ _ _ _ _ X1).
  destruct k as [|[|k]]; [exact F2|exact (ready_alloc _ _ F2)|].
  assert (HO2 : nth_error (s_objs st2) r = Some o1) by (rewrite OB2; exact HO1).
  destruct (live_event digest kdigest now cb Datastore klen inj quiet st2 refs bk r o1 cblock did (s "account") active_extra I2 HO2 eq_refl HD
     ltac:(intros q; split; reflexivity)) as (X2 & I3).
  set (e2 := event_block digest now did (s "account") (s_next st2) active_extra) in *.
  destruct (after_event_facts st2 o1 e2) as (N3 & B3 & OB3 & M3 & E3 & C3). pose proof (FE _ _ F2 I3) as F3.
  set (st3 := after_event st2 o1 e2) in *. clearbody st3.
  rewrite (bindM_ok _ _ _ _ _ X2).
  destruct k as [|[|k]]; [exact F3|exact (ready_alloc _ _ F3)|].
  assert (HO3 : nth_error (s_objs st3) r = Some o1) by (rewrite OB3; exact HO2).
  destruct (live_event digest kdigest now cb Datastore klen inj quiet st3 refs bk r o1 cblock did (s "sync") (sync_extra cblock rev) I3 HO3 eq_refl HD
     ltac:(intros q; split; reflexivity)) as (X3 & I4).
  pose proof (FE _ _ F3 I4) as F4.
  assert (RV : item (s "rev") (b_val (cd_commit cd)) = Ok (IText rev)) by reflexivity.
  rewrite (bindM_ok (lift (item (s "rev") (b_val (cd_commit cd)))) _ st3 st3 (IText rev)) by (unfold lift; rewrite RV; exact eq_refl).
  change (cd_commit cd) with cblock.
  rewrite (bindM_ok _ _ _ _ _ X3). exact F4.
Qed.

Lemma step_live w bk op w' out : live (w_state w) (w_refs w) bk -> op_named op -> sstep w op = (w', out) -> live (w_state w') (w_refs w') (book_step bk op out).
Proof.
  intros I ON E. destruct w as [st refs]. exact (live_step digest kdigest validate ecdsa now cb Datastore klen inj valid_plain quiet st refs bk op w' out I ON ltac:(discriminate) E).
Qed.

(** Cut before it happens. *)
Lemma live_before w bk op k : live (w_state w) (w_refs w) bk -> op_named op -> k < decisive op -> ready (w_state w) (cut w op k).
Proof.
  intros I ON LT. pose proof (ready_same _ _ _ I) as FS. destruct op as [did handle status hc key|x|h key|h x|h ws|h|h|h]; cbn [decisive] in LT; unfold CrashModel.cut.
  - destruct ON. eapply live_create_cut; eauto.
  - exact FS.
  - exact FS.
  - exact FS.
  - destruct (nth_error (w_refs w) h) as [r|] eqn:HR; [|exact FS]. destruct k as [|[|[|k]]]; [exact FS|exact (ready_alloc _ _ FS)| |lia].
    unfold commit_until. destruct (commit_same digest kdigest validate ecdsa cb r ws (w_state w)) as (B & N & E).
    destruct (sstep w (SCommit h ws)) as [w' out] eqn:S1. pose proof (step_live w bk (SCommit h ws) w' out I Logic.I S1) as I'.
    assert (W' : w_state w' = fst (commit digest kdigest validate ecdsa cb Datastore r ws None (w_state w))).
    { unfold StorageModel.sstep, on_ref in S1. rewrite HR in S1. unfold bindM in S1. destruct (commit digest kdigest validate ecdsa cb Datastore r ws None (w_state w)) as [st1 [cd|e]]; injection S1 as <- _; reflexivity. }
    destruct (ups_commit r ws (w_state w)) as [EX LE]. rewrite <- W' in *. unfold ready. rewrite B, N, E. splits; auto. exact (l_store _ _ _ _ _ _ I').
  - assert (k = 0) as -> by lia. destruct (nth_error (w_refs w) h); exact FS.
  - assert (k = 0) as -> by lia. destruct (nth_error (w_refs w) h); exact FS.
  - assert (k = 0) as -> by lia. destruct (nth_error (w_refs w) h); exact FS.
Qed.

(** Cut after it happened. *)
Lemma live_status_cut w bk op h x type extra k : status_op op = Some (h, x, type, extra) -> status_ok x -> live (w_state w) (w_refs w) bk -> 1 <= k ->
  let c := match nth_error (w_refs w) h with Some r => fst (status_until digest now cb k r x type extra (w_state w)) | None => w_state w end in
  exists refs, live c refs bk.
Proof.
  intros SO SX I LE. cbv zeta. destruct (nth_error (w_refs w) h) as [r|] eqn:HR; [|eauto].
  destruct (l_ref _ _ _ _ _ _ I r (nth_error_In _ _ HR)) as (o & did & recs & HO & G & HB).
  destruct (sound_head _ _ _ _ _ _ G) as (hd & HH & HD).
  assert (RG : registered Datastore (w_state w) did).
  { destruct (dget did bk) as [[k2 r2]|] eqn:B; [|congruence]. exact (proj1 (proj2 (l_book _ _ _ _ _ _ I _ _ _ B))). }
  destruct (live_status digest kdigest Datastore _ _ bk r o did recs x I HO G HB SX) as (I1 & N1 & O1).
  destruct (live_event digest kdigest now cb Datastore klen inj quiet (status_set Datastore (w_state w) r o did x) _ bk r (with_status x o) hd did type extra
     I1 O1 HH HD (fun seq => status_event now _ _ _ _ _ _ _ SO)) as (EV & I2).
  exists (w_refs w). destruct k as [|[|[|k]]]; [lia|..]; unfold status_until; rewrite (bindM_ok _ _ _ _ _ (status_exec Datastore _ _ _ _ _ x HO HH HD RG)).
  - exact I1.
  - eapply live_frame; [exact I1|change (s_next (alloc ?s)) with (s_next s + 1)%Z; apply Z.le_succ_diag_r|exact (weak_le _ _ _ _ _ (Z.le_succ_diag_r _) (l_store _ _ _ _ _ _ I1))|apply extends_refl|reflexivity|reflexivity|auto].
  - rewrite (bindM_ok _ _ _ _ _ EV). exact I2.
Qed.
Lemma live_after w bk op k w' out : live (w_state w) (w_refs w) bk -> op_named op -> sstep w op = (w', out) -> decisive op <= k -> exists refs, live (cut w op k) refs (book_step bk op out).
Proof.
  intros I ON E LE. pose proof (step_live w bk op w' out I ON E) as I'.
  assert (SAME : w_state w' = cut w op k -> exists refs, live (cut w op k) refs (book_step bk op out)) by (intros <-; eauto).
  assert (QUIET : cut w op k = w_state w -> book_step bk op out = bk -> exists refs, live (cut w op k) refs (book_step bk op out)) by (intros -> ->; eauto).
  assert (BK : forall h x type extra, status_op op = Some (h, x, type, extra) -> book_step bk op out = bk) by (intros h x type extra SO; destruct op; try discriminate SO; destruct out as [[]|]; reflexivity).
  destruct op as [did handle status hc key|x|h key|h x|h ws|h|h|h]; cbn [decisive] in LE.
  - apply SAME. unfold CrashModel.cut, create_until. replace (Nat.leb 9 k) with true by (symmetry; apply Nat.leb_le; exact LE).
    unfold StorageModel.sstep, on_new, bindM in E. unfold bindM. cbv zeta. destruct (repo_create digest kdigest validate ecdsa now cb Datastore did handle status hc key (w_state w)) as [st1 [r|e]]; injection E as <- _; reflexivity.
  - apply QUIET; [reflexivity|destruct out as [[]|]; reflexivity].
  - apply QUIET; [reflexivity|destruct out as [[]|]; reflexivity].
  - apply QUIET; [reflexivity|destruct out as [[]|]; reflexivity].
  - apply SAME. unfold CrashModel.cut. unfold StorageModel.sstep, on_ref in E. destruct (nth_error (w_refs w) h) as [r|]; [|injection E as <- _; reflexivity].
    destruct k as [|[|[|k]]]; [lia..|]. unfold commit_until, bindM. unfold bindM in E.
    destruct (commit digest kdigest validate ecdsa cb Datastore r ws None (w_state w)) as [st1 [cd|e]]; injection E as <- _; reflexivity.
  - rewrite (BK _ _ _ _ eq_refl). refine (live_status_cut w bk (SDeactivate h) h _ _ _ k eq_refl _ I LE). unfold status_ok. auto.
  - rewrite (BK _ _ _ _ eq_refl). refine (live_status_cut w bk (SActivate h) h _ _ _ k eq_refl _ I LE). unfold status_ok. auto.
  - rewrite (BK _ _ _ _ eq_refl). refine (live_status_cut w bk (STombstone h) h _ _ _ k eq_refl _ I LE). unfold status_ok. auto.
Qed.

Lemma live_crash w bk op k lost : live (w_state w) (w_refs w) bk -> op_named op ->
  live (w_state (crash digest kdigest validate ecdsa now cb w op k lost)) [] (turn_book digest kdigest validate ecdsa now cb bk w (Died op k lost)).
Proof.
  intros I ON. cbn [CrashSpec.turn_book]. unfold CrashModel.crash. cbn [w_state]. destruct (sstep w op) as [w' out] eqn:E. cbn [snd]. destruct (Nat.leb (decisive op) k) eqn:LE.
  - apply Nat.leb_le in LE. destruct (live_after w bk op k w' out I ON E LE) as (refs & J). eapply live_reboot; [exact J|]. eapply ready_same. exact J.
  - apply Nat.leb_gt in LE. eapply live_reboot; [exact I|]. exact (live_before w bk op k I ON LE).
Qed.

(** Cut before the entity is written. *)
Lemma live_half {A} (m : M A) st refs bk refs' bk' lost : ups m -> live st refs bk -> live (fst (m st)) refs' bk' -> live (reboot lost (set_ents (s_ents st) (fst (m st)))) [] bk.
Proof.
  intros U I I'. destruct (U st) as [EX LE]. eapply live_reboot; [exact I|]. unfold ready. cbn [set_ents s_next s_blocks s_ents]. splits; auto. exact (l_store _ _ _ _ _ _ I').
Qed.
End Crash.
