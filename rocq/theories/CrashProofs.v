(** What is left of operations that were cut short. *)
From Coq Require Import String List NArith ZArith Bool Lia Sorted.
From Coq Require Import ZifyBool ZifyNat ZifyN.
From Verif Require Import Base Lists Ipld IpldProofs MstModel MstTree MstTreeProofs MstRep MstTrav
  MstClient MstSpec MstHist MstFacts TidModel TidProofs BlockModel BlockSpec
  CarModel StorageModel StorageSpec CommitProofs StoreProofs ExecProofs RepoSpec RepoProofs RepoHist RepoSteps RepoFacts CallbackProofs IsolateSpec IsolateProofs TellProofs CrashModel CrashSpec.
Import ListNotations.
Local Open Scope m_scope.

(** Leaves the entities alone. *)
Definition keeps {A} (m : M A) : Prop := forall st, s_ents (fst (m st)) = s_ents st.
Lemma keeps_pure {A} (m : M A) : pure m -> keeps m.
Proof. intros P st. rewrite P. reflexivity. Qed.
Lemma keeps_bind {A B} (m : M A) (f : A -> M B) : keeps m -> (forall a, keeps (f a)) -> keeps (bindM m f).
Proof. intros H F st. specialize (H st). unfold bindM. destruct (m st) as [st1 [a|e]]; cbn [fst] in *; [|exact H]. rewrite F. exact H. Qed.
Lemma keeps_attr r f : keeps (set_attr r f).
Proof. intros st. unfold set_attr, bindM, obj. destruct (nth_error (s_objs st) r); reflexivity. Qed.
Ltac keep := repeat
  match goal with
  | |- keeps (ret _) => apply keeps_pure, pure_ret
  | |- keeps (throw _) => apply keeps_pure, pure_throw
  | |- keeps (lift _) => apply keeps_pure, pure_lift
  | |- keeps (assert _) => apply keeps_pure, pure_assert
  | |- keeps (obj _) => apply keeps_pure, pure_obj
  | |- keeps (reads _) => apply keeps_pure, pure_reads
  | |- keeps (need_did _) => apply keeps_pure, pure_need_did
  | |- keeps (new_obj _) => intros ?; reflexivity
  | |- keeps (write_blocks _) => intros ?; reflexivity
  | |- keeps allocate_seq => intros ?; reflexivity
  | |- keeps (set_attr _ _) => apply keeps_attr
  | |- keeps (fun st => (st, _)) => intros ?; reflexivity
  | |- keeps (bindM _ _) => apply keeps_bind; [|intros ?]
  | |- keeps (match ?x with _ => _ end) => destruct x
  | |- keeps (if ?x then _ else _) => destruct x
  end.

(** Two programs write the same blocks and take the same numbers. *)
Definition agree {A B} (m : M A) (m' : M B) : Prop := forall st, s_blocks (fst (m st)) = s_blocks (fst (m' st)) /\ s_next (fst (m st)) = s_next (fst (m' st)).
Lemma agree_bind {A B C} (m : M A) (f : A -> M B) (g : A -> M C) : (forall a, agree (f a) (g a)) -> agree (bindM m f) (bindM m g).
Proof. intros H st. unfold bindM. destruct (m st) as [st1 [a|e]]; [apply H|auto]. Qed.

Lemma agree_front {A B} (m : M A) (f : A -> M B) : (forall a, front (f a)) -> agree m (bindM m f).
Proof. intros F st. unfold bindM. destruct (m st) as [st1 [a|e]]; [|auto]. destruct (F a st1) as [-> ->]. auto. Qed.

Section Crash.
Variable digest : list N -> list N.
Variable kdigest : str -> list N.
Variable validate : ipld -> res unit.
Variable ecdsa : N -> Z -> list N -> list N.
Variable now : Z -> str.
Variable cb : nat -> option exn.

Lemma keeps_load x : keeps (load_repo Datastore x).
Proof. unfold load_repo, repo_load. keep. Qed.
Lemma keeps_target r : keeps (commit_target Datastore r None).
Proof. unfold commit_target. keep. apply keeps_load. Qed.
Lemma keeps_write r did seq acc w : keeps (commit_write digest kdigest validate r did seq acc w).
Proof. unfold commit_write. destruct acc as [blocks ops]. keep. Qed.
Lemma keeps_fold r did seq : forall ws acc, keeps (foldM (commit_write digest kdigest validate r did seq) acc ws).
Proof. induction ws as [|w ws IH]; intros acc; cbn [foldM]; [keep|]. apply keeps_bind; [apply keeps_write|exact IH]. Qed.
Lemma keeps_blocks r ws seq : keeps (commit_blocks digest kdigest validate ecdsa r ws seq).
Proof. unfold commit_blocks. keep; first [apply keeps_target|apply keeps_fold]. Qed.

Lemma agree_commit_ r ws seq : agree (commit_blocks digest kdigest validate ecdsa r ws seq) (commit_ digest kdigest validate ecdsa Datastore r ws seq None).
Proof.
  unfold commit_blocks, commit_. apply agree_bind. intros _. apply agree_bind. intros [[did r'] prev]. apply agree_bind. intros _. apply agree_bind. intros bo.
  unfold commit_finish. apply agree_bind. intros o. apply agree_bind. intros ru. apply agree_bind. intros rev. cbv zeta.
  apply agree_front. intros _. fronts. apply front_store.
Qed.

Lemma commit_same r ws st : let c := fst ((let! seq := allocate_seq in commit_blocks digest kdigest validate ecdsa r ws seq) st) in
  let f := fst (commit digest kdigest validate ecdsa cb Datastore r ws None st) in
  s_blocks c = s_blocks f /\ s_next c = s_next f /\ s_ents c = s_ents st.
Proof.
  cbv zeta. assert (A : agree (let! seq := allocate_seq in commit_blocks digest kdigest validate ecdsa r ws seq) (commit digest kdigest validate ecdsa cb Datastore r ws None)).
  { unfold commit. apply agree_bind. intros seq st0. destruct (agree_commit_ r ws seq st0) as [-> ->]. unfold on_exception, bindM.
    destruct (commit_ digest kdigest validate ecdsa Datastore r ws seq None st0) as [st1 [cd|e]]; cbn [fst].
    - destruct (front_callback cb r (CData (MCommit cd)) st1) as [B1 N1]. destruct (callback cb r (CData (MCommit cd)) st1) as [st2 [[]|e]]; cbn [fst ret] in *; [split; congruence|].
      destruct (front_callback cb r (CLost seq) st2) as [B2 N2]. destruct (callback cb r (CLost seq) st2) as [st3 [[]|e2]]; cbn [fst] in *; split; congruence.
    - destruct (front_callback cb r (CLost seq) st1) as [B2 N2]. destruct (callback cb r (CLost seq) st1) as [st3 [[]|e2]]; cbn [fst] in *; split; congruence. }
  destruct (A st) as [-> ->]. splits; auto. apply keeps_bind; [keep|]. intros seq. apply keeps_blocks.
Qed.

(** Loses no block. *)
Definition adds {A} (m : M A) : Prop := forall st, extends (s_blocks st) (s_blocks (fst (m st))).
Lemma adds_front {A} (m : M A) : front m -> adds m.
Proof. intros F st. destruct (F st) as [-> _]. apply extends_refl. Qed.
Lemma adds_bind {A B} (m : M A) (f : A -> M B) : adds m -> (forall a, adds (f a)) -> adds (bindM m f).
Proof. intros H F st. specialize (H st). unfold bindM. destruct (m st) as [st1 [a|e]]; cbn [fst] in *; [|exact H]. eapply extends_trans; [exact H|apply F]. Qed.
Lemma adds_blocks bs : adds (write_blocks bs).
Proof. intros st c b H. change (read (fst (write_blocks bs st)) c = Some b). rewrite read_write_blocks. change (dget c (s_blocks st)) with (read st c) in H. rewrite H. reflexivity. Qed.
Lemma grow_event r type extra : adds (write_event digest now cb Datastore r type extra).
Proof.
  unfold write_event. apply adds_bind; [intros st; apply extends_refl|]. intros seq. apply adds_bind; [apply adds_front; fronts|]. intros o. apply adds_bind; [apply adds_front; fronts|]. intros d.
  apply adds_bind; [|intros b; apply adds_bind; [apply adds_front, front_callback|intros _; apply adds_front; fronts]].
  unfold write_obj. apply adds_bind; [apply adds_front; fronts|]. intros _. apply adds_bind; [apply adds_blocks|]. intros _. apply adds_front. fronts.
Qed.

Notation inv := (inv digest kdigest validate ecdsa Datastore).
Notation good := (good digest kdigest validate ecdsa).

(** Enough to start again with. *)
Lemma reboot_frame st refs bk c lost : inv st refs bk -> (s_next st <= s_next c)%Z -> store_ok digest kdigest (s_blocks c) (s_next c) ->
  extends (s_blocks st) (s_blocks c) -> s_ents c = s_ents st -> inv (reboot lost c) [] bk.
Proof.
  intros I LE SO EX EE. split; cbn [reboot s_next s_blocks s_objs s_mem s_ents].
  - pose proof (i_next _ _ _ _ _ _ _ _ I). lia.
  - eapply store_ok_le; [|exact SO]. lia.
  - constructor.
  - rewrite EE. exact (i_ents _ _ _ _ _ _ _ _ I).
  - intros r [].
  - intros did key recs E. destruct (i_book _ _ _ _ _ _ _ _ I _ _ _ E) as (A & B & o & C & D & K). splits; auto.
    + unfold registered in *. cbn [reboot s_ents]. rewrite EE. exact B.
    + exists o. split; [|split; [eapply good_mono; eauto|exact K]]. apply (stored_same Datastore st); auto; [discriminate|]. intros _. cbn [reboot s_ents]. rewrite EE. reflexivity.
  - intros did E. unfold registered. cbn [reboot s_ents]. rewrite EE. exact (i_none _ _ _ _ _ _ _ _ I did E).
Qed.
Lemma reboot_inv st refs bk lost : inv st refs bk -> inv (reboot lost st) [] bk.
Proof. intros I. apply (reboot_frame st refs bk st lost I); auto; [lia|exact (i_store _ _ _ _ _ _ _ _ I)|apply extends_refl]. Qed.

(** What is seen is what is stored. *)
Lemma seen_is st refs bk did : (forall a b, digest a = digest b -> a = b) -> inv st refs bk -> is_did did -> seen Datastore st did = stored_repo Datastore st did.
Proof.
  intros inj I ID. unfold seen. destruct (load_did digest Datastore inj st did (inv_named _ _ _ _ _ _ _ _ I) ID) as [(L & NR)|(o & st' & r & HS & RG & L & LD)].
  - rewrite L. unfold stored_repo. unfold registered in NR. destruct (dget did (s_ents st)); [exfalso; apply NR; discriminate|reflexivity].
  - rewrite LD, HS. destruct (loaded_facts Datastore _ _ _ _ _ HS L) as (_ & _ & _ & _ & _ & F6 & _). exact F6.
Qed.
Lemma seen_ents st refs bk st' refs' bk' did : (forall a b, digest a = digest b -> a = b) -> inv st refs bk -> inv st' refs' bk' -> extends (s_blocks st) (s_blocks st') ->
  s_ents st' = s_ents st -> is_did did -> seen Datastore st' did = seen Datastore st did.
Proof.
  intros inj I I' EX EE ID. rewrite (seen_is st' refs' bk' did inj I' ID), (seen_is st refs bk did inj I ID).
  destruct (stored_repo Datastore st did) as [o|] eqn:E.
  - apply (stored_same Datastore st); auto; [discriminate|]. intros _. rewrite EE. reflexivity.
  - destruct (dget did bk) as [[key recs]|] eqn:B.
    + destruct (i_book _ _ _ _ _ _ _ _ I _ _ _ B) as (_ & _ & o & X & _). congruence.
    + pose proof (i_none _ _ _ _ _ _ _ _ I did B) as N0. unfold registered in N0. unfold stored_repo. rewrite EE. destruct (dget did (s_ents st)); [exfalso; apply N0; discriminate|reflexivity].
Qed.

(** Ways to go on from a state the entities of which are in place. *)
Definition fine (st c : state) : Prop := (s_next st <= s_next c)%Z /\ store_ok digest kdigest (s_blocks c) (s_next c) /\ extends (s_blocks st) (s_blocks c) /\ s_ents c = s_ents st.
Lemma fine_inv st refs bk c lost : inv st refs bk -> fine st c -> inv (reboot lost c) [] bk.
Proof. intros I (A & B & C & D). eapply reboot_frame; eauto. Qed.
Lemma fine_alloc st c : fine st c -> fine st (alloc c).
Proof. intros (A & B & C & D). unfold fine. cbn. splits; auto; [lia|]. eapply store_ok_le; [|exact B]. lia. Qed.
Lemma fine_same st refs bk : inv st refs bk -> fine st st.
Proof. intros I. unfold fine. splits; auto; [lia|exact (i_store _ _ _ _ _ _ _ _ I)|apply extends_refl]. Qed.
Lemma fine_called st c o x : fine st c -> fine st (called o x c).
Proof. unfold fine. rewrite called_next, called_blocks, called_ents. auto. Qed.

Hypothesis klen : forall k, length (kdigest k) = 32.
Hypothesis inj : forall a b, digest a = digest b -> a = b.
Hypothesis valid_plain : forall v, validate v = Ok tt -> plain v.
Hypothesis quiet : forall n, cb n = None.

Lemma create_cut st refs bk k did handle status has_callback key : inv st refs bk -> is_did did -> handle_ok handle -> k < 9 ->
  fine st (fst (create_until digest kdigest validate ecdsa now cb k did handle status has_callback key st)).
Proof.
  intros I ID HN LT9. pose proof (fine_same _ _ _ I) as FS.
  set (m0 := Mst (Some []) (Some (tcid digest (Node []))) None false).
  set (o := Repo m0 None handle status has_callback key).
  set (r := length (s_objs st)).
  set (st0 := add_obj o st).
  pose proof (inv_add_obj _ _ _ _ _ _ _ _ o I) as I0. fold st0 in I0.
  assert (F0 : fine st st0) by exact FS.
  assert (HO : nth_error (s_objs st0) r = Some o) by (cbn; apply nth_app_last).
  pose proof (i_store _ _ _ _ _ _ _ _ I0) as SO. pose proof (i_next _ _ _ _ _ _ _ _ I0) as POS.
  assert (HR : holds digest kdigest st0 (r_mst o) []) by (apply empty_rel).
  assert (NE : exists x did', did = x :: did') by (destruct did as [|x did']; [discriminate ID|eauto]).
  destruct NE as (x & did' & DE).
  assert (START : forall f : nat -> M unit, bindM (lift (mst_create digest [] None)) (fun m =>
     bindM (new_obj (Repo m None handle status has_callback key)) f) st = f r st0) by (intros f; reflexivity).
  unfold create_until. replace (Nat.leb 9 k) with false by (symmetry; apply Nat.leb_gt; exact LT9). cbv zeta.
  rewrite START. cbv beta.
  destruct k as [|[|k]]; [exact F0|exact (fine_alloc _ _ F0)|].
  assert (CASE : status = None /\ (s_next st < 2 ^ 55)%Z \/ status <> None \/ status = None /\ (2 ^ 55 <= s_next st)%Z).
  { destruct status; [right; left; discriminate|]. destruct (Z_lt_le_dec (s_next st) (2 ^ 55)); auto. }
  destruct CASE as [(ST & LT)|[ST|(ST & GE)]].
  2:{ destruct status as [y|] eqn:SE; [|congruence].
      rewrite (bindM_err _ _ _ _ _ (ExecProofs.commit_inactive digest kdigest validate ecdsa cb Datastore klen inj quiet st0 r o y [] HO eq_refl POS (Some did))).
      cbn [fst]. apply fine_called, fine_alloc. exact F0. }
  2:{ rewrite DE. rewrite (bindM_err _ _ _ _ _ (commit_first_err digest kdigest validate ecdsa cb Datastore klen inj quiet st0 r o x did' AssertionError HO ST eq_refl (so_closed _ _ _ _ SO) POS HR
               (tid_too_large _ 0 GE))). cbn [fst]. apply fine_called, fine_alloc. exact F0. }
  destruct (tid_round_trip (s_next st) 0 (conj (Z.lt_le_incl _ _ POS) LT) ltac:(lia)) as (rev & REV & _).
  destruct (commit_first_ok digest kdigest validate ecdsa cb Datastore klen inj quiet st0 r o x did' rev HO ST eq_refl (so_closed _ _ _ _ SO) POS HR REV)
    as (root & bs & GU & EX).
  cbv zeta in EX. rewrite <- DE in EX.
  change (s_next st0) with (s_next st) in *. change (s_blocks st0) with (s_blocks st) in *.
  change (r_key o) with key in *.
  set (seq := s_next st) in *.
  set (cblock := finish_block digest ecdsa did seq [] key None rev root) in *.
  set (new := finish_new digest ecdsa did seq [] [] key None rev root bs) in *.
  set (bl := finish_store digest ecdsa (s_blocks st) did seq [] [] key None rev root bs) in *.
  set (cd := CommitData cblock new None) in *.
  set (o1 := with_head (Some cblock) o) in *.
  set (st1 := called o (CData (MCommit cd)) (upd (set_blocks bl (alloc st0)) r o1)) in *.
  destruct (finish_ok digest kdigest klen inj ecdsa (s_blocks st) m0 [] did seq [] [] key None rev
     SO POS HR REV ltac:(intros ? ? [])) as (root2 & bs2 & GU2 & PT & GS & NK & SO' & CBR & SN' & RS & NL).
  assert (X : (root2, bs2) = (root, bs)).
  { change (get_unstored_blocks digest kdigest (rd st0) max_depth (r_mst o) = Ok (root2, bs2)) in GU2. rewrite GU in GU2. congruence. }
  injection X as -> ->. fold cblock new bl in GS, NK, SO', CBR, SN', RS, NL.
  assert (BLE : bl = fold_left dsetdefault new (s_blocks st)).
  { unfold bl, StoreProofs.finish_store. fold new. rewrite keyed_map; auto. apply finish_keyed. }
  assert (EXT : extends (s_blocks st) bl) by (rewrite BLE; apply extends_setdefault).
  assert (CO : commit_of ecdsa cblock did key None root) by (exists rev; splits; auto).
  assert (OB1 : s_objs st1 = s_objs st ++ [o1]).
  { unfold st1. rewrite called_objs. cbn [s_objs upd set_objs set_blocks alloc set_next st0 add_obj]. unfold r. clear.
    induction (s_objs st) as [|y l IH]; cbn; [reflexivity|]. f_equal. exact IH. }
  assert (B1 : s_blocks st1 = bl) by (unfold st1; rewrite called_blocks; reflexivity).
  assert (N1 : s_next st1 = (seq + 1)%Z) by (unfold st1; rewrite called_next; reflexivity).
  assert (M1 : s_mem st1 = s_mem st) by (unfold st1; rewrite called_mem; reflexivity).
  assert (E1 : s_ents st1 = s_ents st) by (unfold st1; rewrite called_ents; reflexivity).
  assert (F1 : fine st st1).
  { unfold fine. rewrite B1, N1, E1. splits; auto. fold seq. lia. }
  assert (I1 : inv st1 refs bk).
  { eapply inv_frame; [exact I| | | | | |]; auto.
    - fold seq. lia.
    - rewrite B1, N1. exact SO'.
    - rewrite B1. exact EXT.
    - intros r' o'. rewrite OB1. apply nth_app_some. }
  clearbody st1.
  assert (HO1 : nth_error (s_objs st1) r = Some o1) by (rewrite OB1; apply nth_app_last).
  assert (HD : item_text (s "did") (b_val cblock) = Ok did) by (eapply commit_of_did; eauto).
  rewrite (bindM_ok _ _ _ _ _ EX). rewrite (bindM_ok _ _ _ _ _ (obj_some _ _ _ HO1)).
  rewrite (bindM_ok _ _ _ _ _ (ExecProofs.need_did_ok _ o1 cblock _ eq_refl HD)).
  destruct k as [|[|k]]; [exact F1|exact (fine_alloc _ _ F1)|].
  assert (FE : forall s0 b, fine st s0 -> inv (after_event s0 o1 b) refs bk -> fine st (after_event s0 o1 b)).
  { intros s0 b (A1 & A2 & A3 & A4) I'. destruct (after_event_facts s0 o1 b) as (N2 & B2 & OB2 & M2 & E2 & C2). unfold fine. splits; [rewrite N2; lia|exact (i_store _ _ _ _ _ _ _ _ I')|rewrite B2|congruence].
    eapply extends_trans; [exact A3|]. apply extends_app. }
  destruct (event_ok digest kdigest validate ecdsa now cb Datastore klen inj quiet st1 refs bk r o1 cblock did (s "identity") (identity_extra handle) I1 HO1 eq_refl HD
     ltac:(intros q; split; destruct handle; reflexivity)) as (X1 & FR1 & I2).
  set (e1 := event_block digest now did (s "identity") (s_next st1) (identity_extra handle)) in *.
  destruct (after_event_facts st1 o1 e1) as (N2 & B2 & OB2 & M2 & E2 & C2). pose proof (FE _ _ F1 I2) as F2.
  set (st2 := after_event st1 o1 e1) in *. clearbody st2.
  rewrite (bindM_ok _ _ _ _ _ X1).
  destruct k as [|[|k]]; [exact F2|exact (fine_alloc _ _ F2)|].
  assert (HO2 : nth_error (s_objs st2) r = Some o1) by (rewrite OB2; exact HO1).
  destruct (event_ok digest kdigest validate ecdsa now cb Datastore klen inj quiet st2 refs bk r o1 cblock did (s "account") active_extra I2 HO2 eq_refl HD
     ltac:(intros q; split; reflexivity)) as (X2 & FR2 & I3).
  set (e2 := event_block digest now did (s "account") (s_next st2) active_extra) in *.
  destruct (after_event_facts st2 o1 e2) as (N3 & B3 & OB3 & M3 & E3 & C3). pose proof (FE _ _ F2 I3) as F3.
  set (st3 := after_event st2 o1 e2) in *. clearbody st3.
  rewrite (bindM_ok _ _ _ _ _ X2).
  destruct k as [|[|k]]; [exact F3|exact (fine_alloc _ _ F3)|].
  assert (HO3 : nth_error (s_objs st3) r = Some o1) by (rewrite OB3; exact HO2).
  destruct (event_ok digest kdigest validate ecdsa now cb Datastore klen inj quiet st3 refs bk r o1 cblock did (s "sync") (sync_extra cblock rev) I3 HO3 eq_refl HD
     ltac:(intros q; split; reflexivity)) as (X3 & FR3 & I4).
  pose proof (FE _ _ F3 I4) as F4.
  assert (RV : item (s "rev") (b_val (cd_commit cd)) = Ok (IText rev)) by reflexivity.
  rewrite (bindM_ok (lift (item (s "rev") (b_val (cd_commit cd)))) _ st3 st3 (IText rev)) by (unfold lift; rewrite RV; exact eq_refl).
  change (cd_commit cd) with cblock.
  rewrite (bindM_ok _ _ _ _ _ X3). exact F4.
Qed.
End Crash.
