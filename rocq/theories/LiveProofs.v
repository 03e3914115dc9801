(** Operations on storages that also hold imported repos. *)
From Coq Require Import String List NArith ZArith Bool Lia Sorted.
From Coq Require Import ZifyBool ZifyNat ZifyN.
From Verif Require Import Base Lists Ipld IpldProofs MstModel MstTree MstTreeProofs MstRep MstTrav
  MstClient MstSpec MstHist MstFacts TidModel TidProofs BlockModel BlockSpec
  CarModel StorageModel StorageSpec CommitProofs StoreProofs ExecProofs RepoSpec RepoProofs RepoHist LiveStore.
Import ListNotations.

Section Live.
Variable digest : list N -> list N.
Variable kdigest : str -> list N.
Variable validate : ipld -> res unit.
Variable ecdsa : N -> Z -> list N -> list N.
Variable now : Z -> str.
Variable cb : nat -> option exn.
Variable be : backend.
Hypothesis klen : forall k, length (kdigest k) = 32.
Hypothesis inj : forall a b, digest a = digest b -> a = b.
Hypothesis valid_plain : forall v, validate v = Ok tt -> plain v.
Hypothesis quiet : forall n, cb n = None.
Notation rcid := (rcid digest).
Notation cids_of := (cids_of digest).
Notation holds := (holds digest kdigest).
Notation writes_allowed := (writes_allowed validate).
Notation commit_ops := (commit_ops digest).
Notation weak := (weak digest kdigest).
Notation snapshot := (snapshot digest kdigest).
Notation recs_stored := (recs_stored digest).
Notation finish_block := (finish_block digest ecdsa).
Notation finish_new := (finish_new digest ecdsa).
Notation finish_store := (finish_store digest ecdsa).
Notation after_finish := (after_finish be).
Notation after_store := (after_store be).
Notation stored_repo := (stored_repo be).
Notation registered := (registered be).
Notation loaded := (loaded be).
Notation named := (named be).
Notation status_set := (status_set be).
Notation event_block := (event_block digest now).
Notation sstep := (sstep digest kdigest validate ecdsa now cb be).

(** ** Records *)

Definition fine (recs : records) : Prop := NoDup (keys recs) /\
  forall k v, dget k recs = Some v -> repo_key k /\ (exists m, v = IMap m /\ m <> []) /\ plain v.

Lemma fine_apply recs ws : fine recs -> writes_allowed recs ws -> fine (apply_writes recs ws).
Proof.
  clear - valid_plain. revert recs. induction ws as [|w ws IH]; intros recs F WA; [exact F|].
  destruct WA as [A WA]. cbn [apply_writes fold_left]. apply IH; auto. clear IH WA. destruct F as [ND F]. split.
  { unfold apply_write. cbv zeta. destruct (w_action w), (w_record w); auto using dset_NoDup, ddel_NoDup. }
  intros k v HK. unfold apply_write, write_allowed in *. cbv zeta in *. set (p := record_path _ _) in *.
  assert (RO : forall x, record_ok validate x -> (exists m, x = IMap m /\ m <> []) /\ plain x).
  { intros x (M & V & _). auto. }
  destruct (w_action w).
  - destruct A as (A1 & A2 & x & V & R). rewrite V in HK. rewrite dget_dset in HK.
    destruct (str_eqb_spec k p) as [EK|]; [|exact (F k v HK)]. rewrite EK. replace v with x by congruence. split; auto.
  - destruct A as (A1 & x & V & R). rewrite V in HK. rewrite dget_dset in HK.
    destruct (str_eqb_spec k p) as [EK|]; [|exact (F k v HK)]. rewrite EK. replace v with x by congruence. split; auto.
    destruct (dget p recs) as [y|] eqn:D; [|congruence]. apply (F p y D).
  - rewrite dget_ddel in HK by auto. destruct (str_eqb k p); [discriminate|exact (F k v HK)].
Qed.

(** ** Heads of repos *)

(** It has a rev, and it is not an event. *)
Definition commit_form (v : ipld) : Prop := exists rev, vtype v = None /\ item_text (s "rev") v = Ok rev.

(** The commit [h] is stored and shows the records [recs] of [did]. *)
Definition tip (bl : store) (did : str) (h : block) (root : cid) (recs : records) : Prop :=
  (exists h', dget (b_cid h) bl = Some h' /\ b_val h' = b_val h) /\ commit_form (b_val h) /\
  item_text (s "did") (b_val h) = Ok did /\ item_link (s "data") (b_val h) = Ok root /\
  snapshot bl (mst_load root) root (cids_of recs) /\ recs_stored bl recs /\ fine recs.

Definition sound (bl : store) (did : str) (recs : records) (o : repo) : Prop :=
  exists h root, r_head o = Some h /\ tip bl did h root recs /\ snapshot bl (r_mst o) root (cids_of recs).

Lemma tip_mono bl bl' did h root recs : extends bl bl' -> tip bl did h root recs -> tip bl' did h root recs.
Proof.
  clear. intros EX ((h' & A & B) & C & D & E & F & G & H). unfold tip. splits; auto.
  - exists h'. auto.
  - eapply snapshot_mono; eauto.
  - eapply recs_stored_mono; eauto.
Qed.

Lemma sound_mono bl bl' did recs o : extends bl bl' -> sound bl did recs o -> sound bl' did recs o.
Proof. clear. intros EX (h & root & A & B & C). exists h, root. splits; auto; [eapply tip_mono; eauto|eapply snapshot_mono; eauto]. Qed.

Lemma sound_head bl did recs o : sound bl did recs o -> exists h, r_head o = Some h /\ item_text (s "did") (b_val h) = Ok did.
Proof. clear. intros (h & root & A & (_ & _ & D & _) & _). eauto. Qed.

Lemma sound_did bl bl' did did' recs recs' o : sound bl did recs o -> sound bl' did' recs' o -> did = did'.
Proof. clear. intros A B. apply sound_head in A as (h & H & D). apply sound_head in B as (h' & H' & D'). congruence. Qed.

Lemma sound_fine bl did recs o : sound bl did recs o -> fine recs.
Proof. clear. intros (h & root & _ & T & _). apply T. Qed.

Lemma sound_shows st did recs o : sound (s_blocks st) did recs o -> shows kdigest st o recs.
Proof.
  intros (h & root & _ & T & SN). eapply (snapshot_shows digest kdigest); eauto.
  - intros k D. destruct T as (_ & _ & _ & _ & _ & _ & F). destruct (dget k recs) as [v|] eqn:E; [|congruence]. apply (proj2 F k v E).
  - apply T.
Qed.

Definition status_ok (x : option str) : Prop := x = None \/ x = Some (s "deactivated") \/ x = Some (s "tombstoned").

Record live (st : state) (refs : list nat) (bk : book) : Prop := {
  l_next : (0 < s_next st)%Z;
  l_store : weak (s_blocks st) (s_next st);
  l_mem : NoDup (keys (s_mem st));
  l_ents : ssorted (keys (s_ents st));
  l_ref : forall r, In r refs -> exists o did recs,
    nth_error (s_objs st) r = Some o /\ sound (s_blocks st) did recs o /\ dget did bk <> None;
  l_book : forall did key recs, dget did bk = Some (key, recs) -> is_did did /\ registered st did /\
    exists o, stored_repo st did = Some o /\ sound (s_blocks st) did recs o /\ r_key o = key /\ handle_ok (r_handle o) /\ status_ok (r_status o);
  l_none : forall did, dget did bk = None -> ~ registered st did
}.

Lemma live_named st refs bk : live st refs bk -> named st.
Proof.
  clear. intros I. split; [exact (l_mem _ _ _ I)|]. split; [exact (l_ents _ _ _ I)|].
  intros did R. destruct (dget did bk) as [[key recs]|] eqn:E.
  - destruct (l_book _ _ _ I _ _ _ E) as (_ & _ & o & HO & G & _ & HK & _). apply sound_head in G as (h & HH & HD).
    exists o, h. auto.
  - exfalso. exact (l_none _ _ _ I _ E R).
Qed.

Lemma live_frame st st' refs bk : live st refs bk ->
  (s_next st <= s_next st')%Z -> weak (s_blocks st') (s_next st') -> extends (s_blocks st) (s_blocks st') ->
  s_mem st' = s_mem st -> s_ents st' = s_ents st ->
  (forall r o, nth_error (s_objs st) r = Some o -> nth_error (s_objs st') r = Some o) ->
  live st' refs bk.
Proof.
  clear. intros I LE SO EX EM EE EO.
  split; auto.
  - pose proof (l_next _ _ _ I). lia.
  - rewrite EM. exact (l_mem _ _ _ I).
  - rewrite EE. exact (l_ents _ _ _ I).
  - intros r HR. destruct (l_ref _ _ _ I r HR) as (o & did & recs & A & B & C).
    exists o, did, recs. splits; auto. eapply sound_mono; eauto.
  - intros did key recs E. destruct (l_book _ _ _ I _ _ _ E) as (A & B & o & C & D & F). splits; auto.
    + unfold RepoProofs.registered in *. rewrite EM, EE. exact B.
    + exists o. split; [|split; [eapply sound_mono; eauto|auto]]. apply (stored_same be st); auto.
      * intros BE r R. rewrite EM. split; auto. unfold RepoProofs.stored_repo in C. rewrite BE, R in C. rewrite C. auto.
      * intros _. rewrite EE. auto.
  - intros did E. unfold RepoProofs.registered. rewrite EM, EE. exact (l_none _ _ _ I did E).
Qed.

Lemma live_lost st refs bk o c : live st refs bk -> live (called o c (alloc st)) refs bk.
Proof.
  clear. intros I. eapply live_frame; eauto.
  - rewrite called_next. cbn. lia.
  - rewrite called_next, called_blocks. cbn. eapply weak_le; [|exact (l_store _ _ _ I)]. lia.
  - rewrite called_blocks. apply extends_refl.
  - rewrite called_mem. auto.
  - rewrite called_ents. auto.
  - intros r o'. rewrite called_objs. auto.
Qed.

Lemma live_add_obj st refs bk o : live st refs bk -> live (add_obj o st) refs bk.
Proof.
  clear. intros I. eapply live_frame; eauto.
  - cbn. lia.
  - exact (l_store _ _ _ I).
  - apply extends_refl.
  - intros r o'. cbn. apply nth_app_some.
Qed.

Lemma live_add_ref st refs bk r o did recs : live st refs bk ->
  nth_error (s_objs st) r = Some o -> sound (s_blocks st) did recs o -> dget did bk <> None -> live st (refs ++ [r]) bk.
Proof.
  clear. intros I HO G D. destruct I as [I1 I2 I3 I4 I5 I6 I7]. split; auto.
  intros r' HI. apply in_app_or in HI as [HI|[<-|[]]]; auto. exists o, did, recs. auto.
Qed.

Lemma live_weaken st refs refs' bk : incl refs refs' -> live st refs' bk -> live st refs bk.
Proof. clear. intros IN [I1 I2 I3 I4 I5 I6 I7]. split; auto. Qed.

Lemma live_load st refs bk did key recs o st1 r : live st refs bk -> stored_repo st did = Some o -> dget did bk = Some (key, recs) ->
  loaded st did o st1 r -> live st1 (refs ++ [r]) bk.
Proof.
  clear. intros I HS B L. destruct (l_book _ _ _ I _ _ _ B) as (_ & _ & o' & HS' & G & _). rewrite HS in HS'. injection HS' as <-.
  destruct (loaded_facts be _ _ _ _ _ HS L) as (F1 & F2 & F3 & F4 & F5 & F6 & F7 & F8 & F9).
  apply (live_add_ref st1 refs bk r o did recs).
  - eapply live_frame; eauto.
    + lia.
    + rewrite F1, F2. exact (l_store _ _ _ I).
    + rewrite F2. apply extends_refl.
  - exact F6.
  - rewrite F2. exact G.
  - congruence.
Qed.

(** ** Commits *)

(** What a successful commit of [ws] through the reference [r0] does. *)
Record wcommitted (st st' : state) (r0 : nat) (o0 : repo) (did : str) (recs : records) (ws : list write)
  (cd : commit_data) : Prop := {
  wc_next : s_next st' = (s_next st + 1)%Z;
  wc_extends : extends (s_blocks st) (s_blocks st');
  wc_store : weak (s_blocks st') (s_next st');
  wc_mem : keys (s_mem st') = keys (s_mem st) /\ forall d, dget d (s_mem st') = dget d (s_mem st);
  wc_ents : match be with
           | Memory => s_ents st' = s_ents st
           | Datastore => exists e, dget did (s_ents st) = Some e /\
               s_ents st' = ent_put did (Entity (e_handle e) (b_cid (cd_commit cd)) (e_status e) (e_key e)) (s_ents st)
           end;
  wc_other : forall r' o', nth_error (s_objs st) r' = Some o' -> r' <> r0 ->
    (be = Memory -> dget did (s_mem st) <> Some r') -> nth_error (s_objs st') r' = Some o';
  wc_did : item_text (s "did") (b_val (cd_commit cd)) = Ok did;
  wc_rev : exists rev, int_to_tid (s_next st) 0 = Ok rev /\ item_text (s "rev") (b_val (cd_commit cd)) = Ok rev;
  wc_head : exists o' h, stored_repo st' did = Some o' /\ r_head o' = Some h /\ b_cid h = b_cid (cd_commit cd) /\ b_val h = b_val (cd_commit cd);
  wc_objs : exists o o0' o', stored_repo st did = Some o /\ stored_repo st' did = Some o' /\
    sound (s_blocks st') did (apply_writes recs ws) o' /\ r_key o' = r_key o /\ r_handle o' = r_handle o /\ r_status o' = r_status o /\
    nth_error (s_objs st') r0 = Some o0' /\ sound (s_blocks st') did (apply_writes recs ws) o0' /\ r_status o0' = r_status o0
}.

Lemma live_commit st refs bk r0 o0 did recs0 key recs ws :
  live st refs bk -> nth_error (s_objs st) r0 = Some o0 -> sound (s_blocks st) did recs0 o0 ->
  dget did bk = Some (key, recs) -> r_status o0 = None ->
  (commit_possible validate recs ws (s_next st) /\
   exists st' cd, commit digest kdigest validate ecdsa cb be r0 ws None st = (st', Ok cd) /\
     wcommitted st st' r0 o0 did recs ws cd) \/
  (~ commit_possible validate recs ws (s_next st) /\
   exists o st1 r m' e, stored_repo st did = Some o /\ loaded (alloc st) did o st1 r /\
     commit digest kdigest validate ecdsa cb be r0 ws None st
     = (called o0 (CLost (s_next st)) (upd st1 r (with_mst m' o)), Err e) /\
     (length ws <= 1 \/ 200 < length ws -> (s_next st < 2 ^ 55)%Z -> m' = r_mst o)).
Proof.
  intros I HO0 G0 HB ST.
  destruct (l_book _ _ _ I _ _ _ HB) as (ID & RG & o & HS & G & HK & HN & HST).
  pose proof (live_named _ _ _ I) as NM.
  assert (NMA : named (alloc st)) by exact NM.
  destruct (load_did digest be inj (alloc st) did NMA ID) as [(_ & NR)|(o' & st1 & r & HS' & _ & L & LD)]; [exfalso; exact (NR RG)|].
  change (stored_repo (alloc st) did) with (stored_repo st did) in HS'. rewrite HS in HS'. injection HS' as <-.
  destruct (loaded_facts be (alloc st) did o st1 r HS L) as (F1 & F2 & F3 & F4 & F5 & F6 & F7 & F8 & F9).
  destruct (sound_head _ _ _ _ G0) as (h0 & HH0 & HD0).
  pose proof G as (hb & root0 & HHb & CH & SN).
  assert (HOLD : holds st1 (r_mst o) recs).
  { unfold CommitProofs.holds. rewrite F2. eapply snapshot_rel; eauto. }
  assert (EN : be = Datastore -> dget did (s_ents st1) <> None).
  { intros BE. rewrite F5. unfold RepoProofs.registered in RG. rewrite BE in RG. exact RG. }
  pose proof (l_store _ _ _ I) as SO. pose proof (l_next _ _ _ I) as POS.
  destruct (commit_exec digest kdigest validate ecdsa cb be klen inj quiet st r0 o0 h0 did st1 r o hb recs ws
     HO0 ST HH0 HD0 LD F1 F2 F3 (F7 _ _ HO0) F6 HHb EN (w_closed _ _ _ _ SO) POS HOLD)
    as [(CP & m' & root & bs & rev & HM & REV & GU & EX)|(NCP & m' & e & EX & CF & KEEP)].
  2:{ right. split; auto. exists o, st1, r, m', e. splits; auto. }
  left. split; auto.
  set (ops := commit_ops recs ws) in *.
  set (prev := Some (b_cid hb)) in *.
  set (seq := s_next st) in *.
  set (cblock := finish_block did seq ops (r_key o) prev rev root) in *.
  set (new := finish_new did seq ws ops (r_key o) prev rev root bs) in *.
  set (bl := finish_store (s_blocks st) did seq ws ops (r_key o) prev rev root bs) in *.
  set (cd := CommitData cblock new prev) in *. cbn [cd_commit] in EX.
  pose proof CP as (AL & LIM & LT).
  assert (HM2 : Rel digest kdigest None (Client (vals (s_blocks st)) m') (cids_of (apply_writes recs ws))).
  { unfold CommitProofs.holds in HM. rewrite F2 in HM. exact HM. }
  assert (GU2 : get_unstored_blocks digest kdigest (fun k => dget k (vals (s_blocks st))) max_depth m' = Ok (root, bs)).
  { unfold rd in GU. rewrite F2 in GU. exact GU. }
  destruct (weak_finish digest kdigest klen inj ecdsa (s_blocks st) m' (apply_writes recs ws) did seq ws ops (r_key o) prev rev root bs
     SO POS HM2 (allowed_plain validate valid_plain _ _ AL) GU2) as (SO' & EXT & (cb' & CBR & CBV) & SN' & RS).
  fold cblock bl in SO', EXT, CBR, CBV, SN', RS.
  assert (CO : item_text (s "did") (b_val cblock) = Ok did /\ item_link (s "data") (b_val cblock) = Ok root /\ item_text (s "rev") (b_val cblock) = Ok rev /\
    commit_form (b_val cblock)).
  { splits; [destruct prev; reflexivity..|]. exists rev. split; [|destruct prev; reflexivity].
    unfold cblock, StoreProofs.finish_block. cbn [mk_block b_val]. rewrite commit_norm. apply vtype_commit. }
  destruct CO as (CO1 & CO2 & CO4 & CO3).
  assert (RST : recs_stored bl (apply_writes recs ws)).
  { apply apply_stored; auto; [|exact (proj1 (sound_fine _ _ _ _ G))]. eapply recs_stored_mono; [exact EXT|]. apply CH. }
  assert (FIN : fine (apply_writes recs ws)) by (apply fine_apply; auto; eapply sound_fine; eauto).
  assert (TIP : forall h, b_val h = b_val cblock -> b_cid h = b_cid cblock -> tip bl did h root (apply_writes recs ws)).
  { intros h HV HC. unfold tip. rewrite HV, HC. splits; auto; [exists cb'; auto|]. eapply snapshot_load; eauto. }
  exists (called o0 (CData (MCommit cd)) (after_finish st1 r0 r (with_mst m' o) did bl cblock)), cd.
  split; [exact EX|].
  set (stf := after_finish st1 r0 r (with_mst m' o) did bl cblock) in *.
  set (o1 := with_head (Some cblock) (with_mst m' o)).
  set (s1 := after_store (upd (set_blocks bl st1) r o1) did r o1 cblock).
  assert (S1O : s_objs s1 = replace_nth r o1 (s_objs st1)) by (unfold s1; rewrite after_store_objs; reflexivity).
  assert (HY : exists y, nth_error (s_objs s1) r0 = Some y /\ with_head (Some cblock) (with_mst m' y) = with_head (Some cblock) (with_mst m' o0)
      /\ (r = r0 -> o0 = o)).
  { rewrite S1O. destruct (Nat.eq_dec r r0) as [E|NE].
    - assert (o0 = o) by (subst r; pose proof (F7 _ _ HO0); congruence). subst o.
      subst r. eexists. split; [eapply nth_replace_same; exact F6|]. split; auto.
    - exists o0. rewrite nth_replace_other by auto. splits; auto. intros E; congruence. }
  destruct HY as (y & HY & YE & YR).
  assert (SF : stf = upd s1 r0 (with_head (Some cblock) (with_mst m' o0))).
  { unfold stf, ExecProofs.after_finish. cbv zeta. fold o1. fold s1. rewrite HY. cbn [r_mst with_mst]. rewrite YE. reflexivity. }
  assert (FN : s_next stf = (seq + 1)%Z) by (rewrite SF; cbn; unfold s1; rewrite after_store_next; exact F1).
  assert (FB : s_blocks stf = bl) by (rewrite SF; cbn; unfold s1; rewrite after_store_blocks; reflexivity).
  assert (FM : keys (s_mem stf) = keys (s_mem st) /\ forall d, dget d (s_mem stf) = dget d (s_mem st)).
  { rewrite SF. cbn [s_mem upd set_objs]. unfold s1, ExecProofs.after_store. destruct be.
    - cbn [s_mem set_mem upd set_objs set_blocks]. rewrite F4. cbn [s_mem alloc set_next]. specialize (F8 eq_refl). cbn [s_mem alloc set_next] in F8.
      split; [apply keys_dset_present; congruence|].
      intros d. apply dset_same_get. auto.
    - destruct (dget did (s_ents (upd (set_blocks bl st1) r o1))); cbn [s_mem set_ents upd set_objs set_blocks]; rewrite F4; auto. }
  assert (FE : match be with
           | Memory => s_ents stf = s_ents st
           | Datastore => exists e, dget did (s_ents st) = Some e /\
               s_ents stf = ent_put did (Entity (e_handle e) (b_cid cblock) (e_status e) (e_key e)) (s_ents st)
           end).
  { rewrite SF. cbn [s_ents upd set_objs]. unfold s1, ExecProofs.after_store. clear - F5 HS RG. unfold RepoProofs.registered, RepoProofs.stored_repo in *. destruct be; [exact F5|].
    destruct (dget did (s_ents st)) as [e|] eqn:EE; [|congruence].
    exists e. split; auto. cbn [s_ents upd set_objs set_blocks]. rewrite F5. cbn [s_ents alloc set_next]. rewrite EE.
    cbn [s_ents set_ents]. unfold o1. cbn [r_handle r_status with_head with_mst].
    destruct (dget (e_head e) (s_blocks st)) as [b|]; [|discriminate].
    destruct (item_link (s "data") (b_val b)); [|discriminate]. injection HS as <-.
    cbn [r_handle r_status s_ents upd set_objs set_blocks]. reflexivity. }
  assert (FO : forall r' o', nth_error (s_objs st) r' = Some o' -> r' <> r0 ->
    (be = Memory -> dget did (s_mem st) <> Some r') -> nth_error (s_objs stf) r' = Some o').
  { intros r' o' H1 H2 H3. rewrite SF. cbn [s_objs upd set_objs]. rewrite nth_replace_other by auto. rewrite S1O.
    rewrite nth_replace_other; [apply F7; exact H1|]. intros ->.
    destruct be; [exact (H3 eq_refl (F8 eq_refl))|]. specialize (F9 eq_refl). cbn [s_objs alloc set_next] in F9. congruence. }
  assert (FR0 : nth_error (s_objs stf) r0 = Some (with_head (Some cblock) (with_mst m' o0))).
  { rewrite SF. cbn [s_objs upd set_objs]. eapply nth_replace_same. exact HY. }
  assert (FS : match be with
     | Memory => stored_repo stf did = Some o1
     | Datastore => stored_repo stf did = Some (with_head (Some cb') (with_mst (mst_load root) o))
     end).
  { pose proof (l_ents _ _ _ I) as SS. unfold RepoProofs.stored_repo in *. destruct be eqn:BE.
    - rewrite (proj2 FM). specialize (F8 eq_refl). cbn [s_mem alloc set_next] in F8. rewrite F8.
      rewrite SF. cbn [s_objs upd set_objs]. destruct (Nat.eq_dec r r0) as [E|NE].
      + unfold o1. rewrite <- (YR E). subst r0. eapply nth_replace_same. exact HY.
      + rewrite nth_replace_other by auto. rewrite S1O. eapply nth_replace_same. exact F6.
    - destruct FE as (e & EE & FE). rewrite FE, ent_put_get, str_eqb_refl by exact SS. cbn [e_head].
      rewrite FB, CBR. rewrite CBV, CO2. cbn [e_handle e_status e_key].
      rewrite EE in HS. destruct (dget (e_head e) (s_blocks st)) as [b|]; [|discriminate].
      destruct (item_link (s "data") (b_val b)); [|discriminate]. injection HS as <-. reflexivity. }
  assert (CBC : b_cid cb' = b_cid cblock) by apply (w_block _ _ _ _ SO' _ _ CBR).
  clearbody stf.
  split; rewrite ?called_next, ?called_blocks, ?called_objs, ?called_mem, ?called_ents, ?called_calls; auto.
  - rewrite FB. exact EXT.
  - rewrite FB, FN. exact SO'.
  - exists rev. split; [exact REV|exact CO4].
  - replace (stored_repo (called o0 (CData (MCommit cd)) stf) did) with (stored_repo stf did)
      by (clear; unfold RepoProofs.stored_repo; rewrite called_mem, called_ents, called_objs, called_blocks; reflexivity).
    clear - FS CBV CBC. destruct be; [exists o1, cblock; splits; auto|]. do 2 eexists. splits; [exact FS|reflexivity|exact CBC|exact CBV].
  - assert (SNL : snapshot bl (mst_load root) root (cids_of (apply_writes recs ws))) by (eapply snapshot_load; eauto).
    assert (X : exists h m2, stored_repo stf did = Some (with_head (Some h) (with_mst m2 o)) /\ b_val h = b_val cblock /\ b_cid h = b_cid cblock /\
       snapshot bl m2 root (cids_of (apply_writes recs ws))).
    { clear - FS SN' SNL CBV CBC. destruct be; [exists cblock, m'; splits; auto|exists cb', (mst_load root); splits; auto]. }
    destruct X as (h & m2 & X1 & X2 & X3 & X4).
    exists o. do 2 eexists. split; [exact HS|]. split.
    { replace (stored_repo (called o0 (CData (MCommit cd)) stf) did) with (stored_repo stf did); [exact X1|].
      clear. unfold RepoProofs.stored_repo. rewrite called_mem, called_ents, called_objs, called_blocks. reflexivity. }
    splits; [| | | |exact FR0| |]; auto.
    + exists h, root. rewrite FB. splits; auto.
    + exists cblock, root. rewrite FB. splits; auto.
Qed.

Lemma wcommitted_other st refs bk st' r0 o0 did recs0 recs ws cd did' :
  live st refs bk -> nth_error (s_objs st) r0 = Some o0 -> sound (s_blocks st) did recs0 o0 ->
  wcommitted st st' r0 o0 did recs ws cd -> did' <> did -> dget did bk <> None ->
  forall o, stored_repo st did' = Some o -> dget did' bk <> None -> stored_repo st' did' = Some o.
Proof.
  clear klen inj valid_plain quiet. intros I HO0 G0 C NE DB o HS HB. destruct (dget did' bk) as [[key' recs']|] eqn:B; [|congruence].
  destruct (l_book _ _ _ I _ _ _ B) as (_ & _ & o' & HS' & G' & _). rewrite HS in HS'. injection HS' as <-.
  destruct (dget did bk) as [[key2 recs2]|] eqn:B2; [|congruence].
  apply (stored_same be st); auto.
  - exact (wc_extends _ _ _ _ _ _ _ _ C).
  - intros BE r R. rewrite (proj2 (wc_mem _ _ _ _ _ _ _ _ C)). split; auto.
    unfold RepoProofs.stored_repo in HS. rewrite BE, R in HS. rewrite HS. apply (wc_other _ _ _ _ _ _ _ _ C); auto.
    + intros ->. rewrite HS in HO0. injection HO0 as ->. apply NE. eapply sound_did; eauto.
    + intros _ R'. destruct (l_book _ _ _ I _ _ _ B2) as (_ & _ & o4 & HS4 & G4 & _). unfold RepoProofs.stored_repo in HS4. rewrite BE, R', HS in HS4.
      injection HS4 as <-. apply NE. eapply sound_did; eauto.
  - intros BE. pose proof (wc_ents _ _ _ _ _ _ _ _ C) as E. rewrite BE in E. destruct E as (e & E1 & E2). rewrite E2.
    rewrite ent_put_get by exact (l_ents _ _ _ I). destruct (str_eqb_spec did' did); [contradiction|auto].
Qed.

Lemma wcommitted_live st refs bk st' r0 o0 did recs0 key recs ws cd :
  live st refs bk -> nth_error (s_objs st) r0 = Some o0 -> sound (s_blocks st) did recs0 o0 ->
  dget did bk = Some (key, recs) -> wcommitted st st' r0 o0 did recs ws cd ->
  live st' refs (dset did (key, apply_writes recs ws) bk).
Proof.
  clear klen inj valid_plain quiet. intros I HO0 G0 HB C. pose proof (wc_extends _ _ _ _ _ _ _ _ C) as EXT.
  destruct (wc_objs _ _ _ _ _ _ _ _ C) as (o & o0' & o' & HS & HS' & SG & K' & H' & T' & HR0 & SR0 & _).
  destruct (l_book _ _ _ I _ _ _ HB) as (ID & RG & ox & HSx & GS & HK & HN & HT). rewrite HS in HSx. injection HSx as <-.
  assert (RGE : forall d, registered st' d <-> registered st d).
  { intros d. pose proof (proj2 (wc_mem _ _ _ _ _ _ _ _ C) d) as Em. pose proof (wc_ents _ _ _ _ _ _ _ _ C) as Ee.
    pose proof (l_ents _ _ _ I) as SS. clear - Em Ee SS RG. unfold RepoProofs.registered in *. destruct be.
    - rewrite Em. tauto.
    - destruct Ee as (e & E1 & E2). rewrite E2, ent_put_get by exact SS. destruct (str_eqb_spec d did) as [->|NE]; [|tauto].
      split; congruence. }
  split.
  - rewrite (wc_next _ _ _ _ _ _ _ _ C). pose proof (l_next _ _ _ I). lia.
  - exact (wc_store _ _ _ _ _ _ _ _ C).
  - rewrite (proj1 (wc_mem _ _ _ _ _ _ _ _ C)). exact (l_mem _ _ _ I).
  - pose proof (wc_ents _ _ _ _ _ _ _ _ C) as Ee. pose proof (l_ents _ _ _ I) as SS. clear - Ee SS. destruct be; [rewrite Ee; auto|].
    destruct Ee as (e & _ & ->). apply ent_put_sorted. auto.
  - intros r HI. destruct (l_ref _ _ _ I r HI) as (oo & did2 & recs2 & HO & G & D2).
    assert (DN : forall d, dget d bk <> None -> dget d (dset did (key, apply_writes recs ws) bk) <> None).
    { intros d Hd. rewrite dget_dset. destruct (str_eqb d did); congruence. }
    destruct (Nat.eq_dec r r0) as [->|NE].
    + exists o0', did, (apply_writes recs ws). splits; auto. apply DN. congruence.
    + assert (CASE : (be = Memory /\ dget did (s_mem st) = Some r) \/ (be = Memory -> dget did (s_mem st) <> Some r)).
      { clear. destruct be.
        - destruct (dget did (s_mem st)) as [x|]; [|right; discriminate]. destruct (Nat.eq_dec x r) as [->|N]; [left|right]; auto. congruence.
        - right. discriminate. }
      destruct CASE as [(BE & R)|NR].
      * exists o', did, (apply_writes recs ws). splits; auto.
        -- unfold RepoProofs.stored_repo in HS'. rewrite BE in HS'. rewrite (proj2 (wc_mem _ _ _ _ _ _ _ _ C)), R in HS'. exact HS'.
        -- apply DN. congruence.
      * exists oo, did2, recs2. splits; auto.
        -- exact (wc_other _ _ _ _ _ _ _ _ C r oo HO NE NR).
        -- eapply sound_mono; eauto.
  - intros d k2 r2 E. rewrite dget_dset in E. destruct (str_eqb_spec d did) as [->|NE].
    + injection E as <- <-. splits; auto; [apply RGE; auto|]. exists o'. rewrite K', H', T'. splits; auto.
    + destruct (l_book _ _ _ I _ _ _ E) as (A & B & o2 & C2 & D & F). splits; auto; [apply RGE; auto|].
      exists o2. split; [|split; [eapply sound_mono; eauto|auto]].
      eapply wcommitted_other; eauto; congruence.
  - intros d E. rewrite dget_dset in E. destruct (str_eqb_spec d did) as [ED|NE]; [discriminate E|].
    rewrite RGE. exact (l_none _ _ _ I d E).
Qed.

Lemma live_failed st refs bk did o st1 r m' o0 c : live st refs bk -> stored_repo st did = Some o ->
  loaded (alloc st) did o st1 r -> (be = Memory -> m' = r_mst o) ->
  live (called o0 c (upd st1 r (with_mst m' o))) refs bk.
Proof.
  clear. intros I HS L KEEP. set (st' := called o0 c (upd st1 r (with_mst m' o))). assert (HSA : stored_repo (alloc st) did = Some o) by exact HS.
  destruct (loaded_facts be _ _ _ _ _ HSA L) as (F1 & F2 & F3 & F4 & F5 & F6 & F7 & F8 & F9).
  assert (EO : forall r' o', nth_error (s_objs st) r' = Some o' -> nth_error (s_objs st') r' = Some o').
  { intros r' o' H. unfold st'. rewrite called_objs. cbn [s_objs upd set_objs]. destruct (Nat.eq_dec r r') as [->|NE].
    - pose proof (F7 r' o' H) as H1. assert (o' = o) by congruence. subst o'. 
      assert (X : be = Memory \/ be = Datastore) by (destruct be; auto). destruct X as [BE|BE].
      + rewrite (KEEP BE). erewrite nth_replace_same; [|exact F6]. destruct o; reflexivity.
      + specialize (F9 BE). cbn [s_objs alloc set_next] in F9. congruence.
    - rewrite nth_replace_other by auto. apply F7. exact H. }
  assert (N : s_next st' = (s_next st + 1)%Z) by (unfold st'; rewrite called_next; exact F1).
  assert (B : s_blocks st' = s_blocks st) by (unfold st'; rewrite called_blocks; exact F2).
  assert (M : s_mem st' = s_mem st) by (unfold st'; rewrite called_mem; exact F4).
  assert (E : s_ents st' = s_ents st) by (unfold st'; rewrite called_ents; exact F5).
  eapply live_frame; eauto.
  - lia.
  - rewrite B, N. eapply weak_le; [|exact (l_store _ _ _ I)]. lia.
  - rewrite B. apply extends_refl.
Qed.

(** ** Events and status changes *)

Lemma live_event st refs bk r o h did type extra : live st refs bk -> nth_error (s_objs st) r = Some o ->
  r_head o = Some h -> item_text (s "did") (b_val h) = Ok did ->
  (forall seq, is_event type seq (event now type seq (Some did) extra)) ->
  let b := event_block did type (s_next st) extra in
  write_event digest now cb be r type extra st = (after_event st o b, Ok b) /\ live (after_event st o b) refs bk.
Proof.
  intros I HO HH HD EV b. pose proof (l_store _ _ _ I) as SO. pose proof (l_next _ _ _ I) as POS. splits.
  - exact (write_event_ok digest kdigest now cb be klen inj quiet st r o h did type extra HO HH HD POS (weak_fresh digest kdigest inj _ _ _ _ SO (EV _))).
  - destruct (after_event_facts st o b) as (F1 & F2 & F3 & F4 & F5 & _). eapply live_frame; eauto.
    + lia.
    + rewrite F1, F2. exact (weak_event digest kdigest klen inj _ _ _ _ (Some did) SO POS (EV _)).
    + rewrite F2. apply extends_app.
    + intros r' o'. rewrite F3. auto.
Qed.

Lemma sound_status bl did recs o x : sound bl did recs o -> sound bl did recs (with_status x o).
Proof. clear. intros (h & root & A & B & C). exists h, root. auto. Qed.

Lemma live_status st refs bk r o did recs x : live st refs bk -> nth_error (s_objs st) r = Some o ->
  sound (s_blocks st) did recs o -> dget did bk <> None -> status_ok x ->
  let st' := status_set st r o did x in
  live st' refs bk /\ s_next st' = s_next st /\ nth_error (s_objs st') r = Some (with_status x o).
Proof.
  clear klen inj valid_plain quiet. intros I HO G HB SX st'.
  destruct (dget did bk) as [[key1 recs1]|] eqn:B; [|congruence]. clear HB.
  destruct (l_book _ _ _ I _ _ _ B) as (ID & RG & o1 & HS & G1 & HK & HN & HT).
  assert (SE : s_next st' = s_next st /\ s_blocks st' = s_blocks st /\ s_calls st' = s_calls st /\ s_mem st' = s_mem st /\
    s_objs st' = replace_nth r (with_status x o) (s_objs st)).
  { unfold st', RepoProofs.status_set, RepoProofs.registered in *. destruct be; [splits; auto|]. destruct (dget did (s_ents st)); [splits; auto|congruence]. }
  destruct SE as (E1 & E2 & E3 & E4 & E5).
  assert (EN : forall d, be = Datastore -> d <> did -> dget d (s_ents st') = dget d (s_ents st)).
  { intros d BE NE. pose proof (l_ents _ _ _ I) as SS. unfold st', RepoProofs.status_set. rewrite BE. destruct (dget did (s_ents st)) as [e|]; auto.
    cbn [s_ents set_ents]. rewrite ent_put_get by exact SS. destruct (str_eqb_spec d did); [contradiction|auto]. }
  assert (OR : nth_error (s_objs st') r = Some (with_status x o)) by (rewrite E5; eapply nth_replace_same; eauto).
  assert (OO : forall r', r' <> r -> nth_error (s_objs st') r' = nth_error (s_objs st) r').
  { intros r' NE. rewrite E5. apply nth_replace_other. auto. }
  assert (OT : forall did' o', did' <> did -> dget did' bk <> None -> stored_repo st did' = Some o' -> stored_repo st' did' = Some o').
  { intros d o' NE HB HS'. apply (stored_same be st); auto.
    - rewrite E2. apply extends_refl.
    - intros BE r' R. rewrite E4. split; auto. apply OO. intros ->.
      destruct (dget d bk) as [[k2 r2]|] eqn:B2; [|congruence].
      destruct (l_book _ _ _ I _ _ _ B2) as (_ & _ & o2 & HS2 & G2 & _). unfold RepoProofs.stored_repo in HS2. rewrite BE, R, HO in HS2.
      injection HS2 as <-. apply NE. eapply sound_did; eauto. }
  assert (AT : attached be st did r -> stored_repo st' did = option_map (with_status x) (stored_repo st did)).
  { intros A. pose proof (l_ents _ _ _ I) as SS. clear - A E4 OR HO RG E2 SS. unfold RepoProofs.stored_repo, attached, RepoProofs.registered, st', RepoProofs.status_set in *.
    destruct be.
    - rewrite E4, (A eq_refl), HO. exact OR.
    - destruct (dget did (s_ents st)) as [e|] eqn:EE; [|congruence]. cbn [s_ents set_ents].
      rewrite ent_put_get, str_eqb_refl by exact SS. cbn [e_head e_handle e_status e_key s_blocks set_ents upd set_objs].
      destruct (dget (e_head e) (s_blocks st)) as [b|]; auto. destruct (item_link (s "data") (b_val b)); auto. }
  assert (NA : ~ attached be st did r -> stored_repo st' did = stored_repo st did).
  { intros A. assert (BE : be = Memory).
    { clear - A. unfold attached in A. destruct be; auto. exfalso. apply A. discriminate. }
    rewrite HS. apply (stored_same be st); auto.
    - rewrite E2. apply extends_refl.
    - intros _ r' R. rewrite E4. split; auto. apply OO. intros ->. apply A. intros _. exact R.
    - rewrite BE. discriminate. }
  assert (RGE : forall d, registered st' d <-> registered st d).
  { intros d. pose proof (l_ents _ _ _ I) as SS. clear - E4 SS RG. unfold RepoProofs.registered, st', RepoProofs.status_set in *. destruct be; [rewrite E4; tauto|].
    destruct (dget did (s_ents st)) as [e|] eqn:EE; [|congruence]. cbn [s_ents set_ents]. rewrite ent_put_get by exact SS.
    destruct (str_eqb_spec d did) as [->|NE]; [|tauto]. split; congruence. }
  splits; auto. split.
  - rewrite E1. exact (l_next _ _ _ I).
  - rewrite E1, E2. exact (l_store _ _ _ I).
  - rewrite E4. exact (l_mem _ _ _ I).
  - pose proof (l_ents _ _ _ I) as SS. clear - SS. unfold st', RepoProofs.status_set. destruct be; auto.
    destruct (dget did (s_ents st)); auto. cbn [s_ents set_ents]. apply ent_put_sorted. auto.
  - intros r' HR. destruct (l_ref _ _ _ I r' HR) as (o' & d' & rc' & A & C & D). rewrite E2.
    destruct (Nat.eq_dec r' r) as [->|NE].
    + exists (with_status x o), d', rc'. splits; auto. replace o with o' by congruence. apply sound_status. auto.
    + exists o', d', rc'. rewrite OO by auto. auto.
  - intros d k2 r2 E. destruct (l_book _ _ _ I _ _ _ E) as (A & C & o2 & HS2 & G2 & K2 & N2 & T2). rewrite E2. splits; auto; [apply RGE; auto|].
    destruct (str_eqb_spec d did) as [ED|NE].
    + subst d. assert (CASE : attached be st did r \/ ~ attached be st did r).
      { clear. unfold attached. destruct be; [|left; discriminate]. destruct (dget did (s_mem st)) as [y|]; [|right; intros Y; discriminate (Y eq_refl)].
        destruct (Nat.eq_dec y r) as [->|N]; [left; auto|right]. intros Y. specialize (Y eq_refl). congruence. }
      destruct CASE as [CA|CA].
      * exists (with_status x o2). rewrite AT by auto. rewrite HS2. splits; auto using sound_status.
      * exists o2. rewrite NA by auto. auto.
    + exists o2. splits; auto. apply OT; auto. congruence.
  - intros d E. rewrite RGE. exact (l_none _ _ _ I d E).
Qed.

(** ** Creating repos *)

Lemma live_create st refs bk did handle status has_callback key st' out :
  live st refs bk -> is_did did -> handle_ok handle ->
  repo_create digest kdigest validate ecdsa now cb be did handle status has_callback key st = (st', out) ->
  match out with
  | Ok r => status = None /\ (s_next st < 2 ^ 55)%Z /\ live st' (refs ++ [r]) (dset did (key, []) bk)
  | Err _ => (status <> None \/ (2 ^ 55 <= s_next st)%Z) /\ live st' refs bk
  end.
Proof.
  intros I ID HN RUN.
  set (m0 := Mst (Some []) (Some (tcid digest (Node []))) None false).
  set (o := Repo m0 None handle status has_callback key).
  set (r := length (s_objs st)).
  set (st0 := add_obj o st).
  pose proof (live_add_obj _ _ _ o I) as I0. fold st0 in I0.
  assert (HO : nth_error (s_objs st0) r = Some o) by (cbn; apply nth_app_last).
  pose proof (l_store _ _ _ I0) as SO. pose proof (l_next _ _ _ I0) as POS.
  assert (HR : holds st0 (r_mst o) []) by (apply empty_rel).
  assert (NE : exists x did', did = x :: did') by (destruct did as [|x did']; [discriminate ID|eauto]).
  destruct NE as (x & did' & DE).
  assert (START : forall f, (fun f : nat -> M nat => bindM (lift (mst_create digest [] None)) (fun m =>
     bindM (new_obj (Repo m None handle status has_callback key)) f) st) f = f r st0) by (intros f; reflexivity).
  assert (CASE : status = None /\ (s_next st < 2 ^ 55)%Z \/ status <> None \/ status = None /\ (2 ^ 55 <= s_next st)%Z).
  { destruct status; [right; left; discriminate|]. destruct (Z_lt_le_dec (s_next st) (2 ^ 55)); auto. }
  assert (FAIL : forall e, repo_create digest kdigest validate ecdsa now cb be did handle status has_callback key st
     = (called o (CLost (s_next st)) (alloc st0), Err e) -> (status <> None \/ (2 ^ 55 <= s_next st)%Z) ->
     match out with Ok r => status = None /\ (s_next st < 2 ^ 55)%Z /\ live st' (refs ++ [r]) (dset did (key, []) bk)
     | Err _ => (status <> None \/ (2 ^ 55 <= s_next st)%Z) /\ live st' refs bk end).
  { intros e E C. rewrite RUN in E. injection E as -> ->. split; auto. exact (live_lost _ _ _ o _ I0). }
  destruct CASE as [(ST & LT)|[ST|(ST & GE)]].
  2:{ apply (FAIL InactiveRepo); auto. unfold repo_create. etransitivity; [exact (START _)|].
      destruct status as [y|] eqn:SE; [|congruence].
      apply bindM_err. exact (commit_inactive digest kdigest validate ecdsa cb be klen inj quiet st0 r o y [] HO eq_refl POS (Some did)). }
  2:{ apply (FAIL AssertionError); auto. unfold repo_create. etransitivity; [exact (START _)|].
      apply bindM_err. rewrite DE.
      exact (commit_first_err digest kdigest validate ecdsa cb be klen inj quiet st0 r o x did' AssertionError HO ST eq_refl (w_closed _ _ _ _ SO) POS HR
               (tid_too_large _ 0 GE)). }
  clear FAIL.
  destruct (tid_round_trip (s_next st) 0 (conj (Z.lt_le_incl _ _ POS) LT) ltac:(lia)) as (rev & REV & _).
  destruct (commit_first_ok digest kdigest validate ecdsa cb be klen inj quiet st0 r o x did' rev HO ST eq_refl (w_closed _ _ _ _ SO) POS HR REV)
    as (root & bs & GU & EX).
  cbv zeta in EX. rewrite <- DE in EX.
  change (s_next st0) with (s_next st) in *. change (s_blocks st0) with (s_blocks st) in *.
  change (r_key o) with key in *.
  set (seq := s_next st) in *.
  set (cblock := finish_block did seq [] key None rev root) in *.
  set (new := finish_new did seq [] [] key None rev root bs) in *.
  set (bl := finish_store (s_blocks st) did seq [] [] key None rev root bs) in *.
  set (cd := CommitData cblock new None) in *.
  set (o1 := with_head (Some cblock) o) in *.
  set (st1 := called o (CData (MCommit cd)) (upd (set_blocks bl (alloc st0)) r o1)) in *.
  destruct (weak_finish digest kdigest klen inj ecdsa (s_blocks st) m0 [] did seq [] [] key None rev root bs
     SO POS HR ltac:(intros ? ? []) GU) as (SO' & EXT & (cb' & CBR & CBV) & SN' & _).
  fold cblock bl in SO', EXT, CBR, CBV, SN'.
  assert (CO2 : item_link (s "data") (b_val cblock) = Ok root) by reflexivity.
  assert (HD : item_text (s "did") (b_val cblock) = Ok did) by reflexivity.
  assert (CF : commit_form (b_val cblock)) by (exists rev; split; reflexivity).
  assert (CBC : b_cid cb' = b_cid cblock) by apply (w_block _ _ _ _ SO' _ _ CBR).
  assert (FN0 : fine []) by (split; [constructor|discriminate]).
  assert (TIP : forall h, b_val h = b_val cblock -> b_cid h = b_cid cblock -> tip bl did h root []).
  { intros h HV HC. unfold tip. rewrite HV, HC. splits; auto; [exists cb'; auto|..].
    - eapply snapshot_load; eauto.
    - intros k v X. discriminate X. }
  assert (OB1 : s_objs st1 = s_objs st ++ [o1]).
  { unfold st1. rewrite called_objs. cbn [s_objs upd set_objs set_blocks alloc set_next st0 add_obj]. unfold r. clear.
    induction (s_objs st) as [|y l IH]; cbn; [reflexivity|]. f_equal. exact IH. }
  assert (B1 : s_blocks st1 = bl) by (unfold st1; rewrite called_blocks; reflexivity).
  assert (N1 : s_next st1 = (seq + 1)%Z) by (unfold st1; rewrite called_next; reflexivity).
  assert (M1 : s_mem st1 = s_mem st) by (unfold st1; rewrite called_mem; reflexivity).
  assert (E1 : s_ents st1 = s_ents st) by (unfold st1; rewrite called_ents; reflexivity).
  assert (I1 : live st1 refs bk).
  { eapply live_frame; [exact I| | | | | |]; auto.
    - fold seq. lia.
    - rewrite B1, N1. exact SO'.
    - rewrite B1. exact EXT.
    - intros r' o'. rewrite OB1. apply nth_app_some. }
  clearbody st1.
  assert (HO1 : nth_error (s_objs st1) r = Some o1) by (rewrite OB1; apply nth_app_last).
  destruct (live_event st1 refs bk r o1 cblock did (s "identity") (identity_extra handle) I1 HO1 eq_refl HD
     ltac:(intros q; split; destruct handle; reflexivity)) as (X1 & I2).
  set (e1 := event_block did (s "identity") (s_next st1) (identity_extra handle)) in *.
  destruct (after_event_facts st1 o1 e1) as (N2 & B2 & OB2 & M2 & E2 & _).
  set (st2 := after_event st1 o1 e1) in *. clearbody st2.
  assert (HO2 : nth_error (s_objs st2) r = Some o1) by (rewrite OB2; exact HO1).
  destruct (live_event st2 refs bk r o1 cblock did (s "account") active_extra I2 HO2 eq_refl HD
     ltac:(intros q; split; reflexivity)) as (X2 & I3).
  set (e2 := event_block did (s "account") (s_next st2) active_extra) in *.
  destruct (after_event_facts st2 o1 e2) as (N3 & B3 & OB3 & M3 & E3 & _).
  set (st3 := after_event st2 o1 e2) in *. clearbody st3.
  assert (HO3 : nth_error (s_objs st3) r = Some o1) by (rewrite OB3; exact HO2).
  destruct (live_event st3 refs bk r o1 cblock did (s "sync") (sync_extra cblock rev) I3 HO3 eq_refl HD
     ltac:(intros q; split; reflexivity)) as (X3 & I4).
  set (e3 := event_block did (s "sync") (s_next st3) (sync_extra cblock rev)) in *.
  destruct (after_event_facts st3 o1 e3) as (N4 & B4 & OB4 & M4 & E4 & _).
  set (st4 := after_event st3 o1 e3) in *. clearbody st4.
  assert (HO4 : nth_error (s_objs st4) r = Some o1) by (rewrite OB4; exact HO3).
  set (st5 := match be with
              | Memory => set_mem (dset did r (s_mem st4)) st4
              | Datastore => set_ents (ent_put did (Entity handle (b_cid cblock) None key) (s_ents st4)) st4
              end).
  assert (X5 : create_repo be r st4 = (st5, Ok tt)).
  { unfold create_repo. rewrite (bindM_ok _ _ _ _ _ (obj_some _ _ _ HO4)).
    rewrite (bindM_ok _ _ _ _ _ (need_did_ok _ o1 cblock _ eq_refl HD)). unfold st5. rewrite <- ST.
    destruct be; reflexivity. }
  assert (F5 : s_next st5 = s_next st4 /\ s_blocks st5 = s_blocks st4 /\ s_objs st5 = s_objs st4 /\
    s_mem st5 = (match be with Memory => dset did r (s_mem st) | Datastore => s_mem st end) /\
    s_ents st5 = (match be with Memory => s_ents st | Datastore => ent_put did (Entity handle (b_cid cblock) None key) (s_ents st) end)).
  { assert (MM : s_mem st4 = s_mem st) by congruence. assert (EE : s_ents st4 = s_ents st) by congruence.
    unfold st5. clear - MM EE. destruct be; cbn; rewrite ?MM, ?EE; splits; auto. }
  destruct F5 as (F1 & F2 & F3 & F5 & F6).
  set (st6 := called o1 (CData (MCommit cd)) st5).
  assert (HO5 : nth_error (s_objs st5) r = Some o1) by (rewrite F3; exact HO4).
  assert (RUN2 : repo_create digest kdigest validate ecdsa now cb be did handle status has_callback key st = (st6, Ok r)).
  { unfold repo_create. etransitivity; [exact (START _)|]. cbv beta.
    rewrite (bindM_ok _ _ _ _ _ EX). rewrite (bindM_ok _ _ _ _ _ (obj_some _ _ _ HO1)).
    rewrite (bindM_ok _ _ _ _ _ (need_did_ok _ o1 cblock _ eq_refl HD)).
    rewrite (bindM_ok _ _ _ _ _ X1). rewrite (bindM_ok _ _ _ _ _ X2).
    assert (RV : item (s "rev") (b_val (cd_commit cd)) = Ok (IText rev)) by reflexivity.
    rewrite (bindM_ok (lift (item (s "rev") (b_val (cd_commit cd)))) _ st3 st3 (IText rev)) by (unfold lift; rewrite RV; exact eq_refl).
    change (cd_commit cd) with cblock.
    rewrite (bindM_ok _ _ _ _ _ X3). rewrite (bindM_ok _ _ _ _ _ X5).
    rewrite (bindM_ok _ _ _ _ _ (callback_ok cb quiet _ _ _ _ HO5)). reflexivity. }
  rewrite RUN in RUN2. injection RUN2 as -> ->. splits; auto.
  assert (B6 : s_blocks st6 = bl ++ [(b_cid e1, e1); (b_cid e2, e2); (b_cid e3, e3)]).
  { unfold st6. rewrite called_blocks, F2, B4, B3, B2, B1, <- !app_assoc. reflexivity. }
  assert (EXT6 : extends bl (s_blocks st6)) by (rewrite B6; apply extends_app).
  assert (OB6 : s_objs st6 = s_objs st ++ [o1]) by (unfold st6; rewrite called_objs, F3, OB4, OB3, OB2; exact OB1).
  assert (S6 : sound (s_blocks st6) did [] o1).
  { exists cblock, root. splits; auto; [eapply tip_mono; eauto|]. eapply snapshot_mono; [|exact SN']. exact EXT6. }
  assert (SR : exists o2, stored_repo st6 did = Some o2 /\ sound (s_blocks st6) did [] o2 /\ r_key o2 = key /\ r_handle o2 = handle /\ r_status o2 = None).
  { pose proof (l_ents _ _ _ I) as SS. assert (RDC : dget (b_cid cblock) (s_blocks st6) = Some cb') by auto.
    assert (MM : s_mem st6 = s_mem st5) by (unfold st6; apply called_mem).
    assert (EE : s_ents st6 = s_ents st5) by (unfold st6; apply called_ents).
    assert (SNL : snapshot (s_blocks st6) (mst_load root) root (cids_of [])).
    { eapply snapshot_mono; [exact EXT6|]. eapply snapshot_load; eauto. }
    assert (T6 : tip (s_blocks st6) did cb' root []) by (eapply tip_mono; [exact EXT6|]; auto).
    clearbody st6. unfold RepoProofs.stored_repo. rewrite MM, EE, F5, F6. clear F5 F6 X5 EE MM. destruct be.
    - rewrite dget_dset, str_eqb_refl, OB6. exists o1. splits; auto. apply nth_app_last.
    - rewrite ent_put_get, str_eqb_refl by exact SS. cbn [e_head e_handle e_status e_key]. rewrite RDC, CBV, CO2.
      eexists. split; [reflexivity|]. splits; auto. exists cb', root. splits; auto. }
  destruct SR as (o2 & SR1 & SR2 & SR3 & SR4 & SR5).
  assert (EXTA : extends (s_blocks st) (s_blocks st6)) by (eapply extends_trans; eauto).
  assert (RGE : forall d, registered st6 d <-> d = did \/ registered st d).
  { pose proof (l_ents _ _ _ I) as SS.
    assert (MM : s_mem st6 = s_mem st5) by (unfold st6; apply called_mem).
    assert (EE : s_ents st6 = s_ents st5) by (unfold st6; apply called_ents).
    clear - F5 F6 SS MM EE. intros d. unfold RepoProofs.registered. rewrite MM, EE, F5, F6. clear F5 F6. destruct be.
    - rewrite dget_dset. destruct (str_eqb_spec d did) as [->|NE]; [|tauto]. split; auto. discriminate.
    - rewrite ent_put_get by exact SS. destruct (str_eqb_spec d did) as [->|NE]; [|tauto]. split; auto. discriminate. }
  split.
  + unfold st6. rewrite called_next, F1. exact (l_next _ _ _ I4).
  + unfold st6. rewrite called_blocks, called_next, F1, F2. exact (l_store _ _ _ I4).
  + unfold st6. rewrite called_mem, F5. pose proof (l_mem _ _ _ I). clear - H. destruct be; auto using dset_NoDup.
  + unfold st6. rewrite called_ents, F6. pose proof (l_ents _ _ _ I). clear - H. destruct be; auto using ent_put_sorted.
  + intros r' HI. apply in_app_or in HI as [HI|[<-|[]]].
    * destruct (l_ref _ _ _ I r' HI) as (o' & d' & rc' & A & G & D). exists o', d', rc'. splits.
      -- rewrite OB6. apply nth_app_some. exact A.
      -- eapply sound_mono; eauto.
      -- rewrite dget_dset. destruct (str_eqb d' did); [discriminate|exact D].
    * exists o1, did, []. splits; auto.
      -- rewrite OB6. apply nth_app_last.
      -- rewrite dget_dset, str_eqb_refl. discriminate.
  + intros d k2 r2 E. rewrite dget_dset in E. destruct (str_eqb_spec d did) as [ED|NE].
    * subst d. injection E as <- <-. splits; auto; [apply RGE; auto|]. exists o2. rewrite SR4, SR5. splits; auto. left. auto.
    * destruct (l_book _ _ _ I _ _ _ E) as (A & B & o3 & HS2 & G2 & HK2). splits; auto; [apply RGE; auto|].
      exists o3. split; [|split; [eapply sound_mono; eauto|auto]].
      assert (MM : s_mem st6 = s_mem st5) by (unfold st6; apply called_mem).
      assert (EE : s_ents st6 = s_ents st5) by (unfold st6; apply called_ents).
      pose proof (l_ents _ _ _ I) as SS.
      apply (stored_same be st); auto.
      -- intros BE r' R. rewrite MM, F5, BE, dget_dset. destruct (str_eqb_spec d did); [contradiction|]. split; auto.
         unfold RepoProofs.stored_repo in HS2. rewrite BE, R in HS2. rewrite OB6, HS2. apply nth_app_some. auto.
      -- intros BE. rewrite EE, F6, BE, ent_put_get by exact SS. destruct (str_eqb_spec d did); [contradiction|auto].
  + intros d E. rewrite dget_dset in E. destruct (str_eqb_spec d did) as [ED|NE]; [discriminate E|].
    rewrite RGE. intros [X|X]; [auto|]. exact (l_none _ _ _ I d E X).
Qed.

(** ** One operation *)

Lemma live_step st refs bk op w' out : live st refs bk -> op_named op -> (be = Memory -> clean_step (World st refs) op out) ->
  sstep (World st refs) op = (w', out) -> live (w_state w') (w_refs w') (book_step bk op out).
Proof.
  intros I ON CL E.
  assert (NR : forall h r, nth_error refs h = Some r -> exists o did recs, nth_error (s_objs st) r = Some o /\
    sound (s_blocks st) did recs o /\ dget did bk <> None).
  { intros h r H. apply (l_ref _ _ _ I). eapply nth_error_In; eauto. }
  assert (STAT : forall h x type extra, status_op op = Some (h, x, type, extra) -> status_ok x ->
    sstep (World st refs) op = on_ref (World st refs) h (fun r => bindM (bindM (set_repo_status be r x)
       (fun _ => bindM (write_event digest now cb be r type extra) (fun _ => ret tt))) (fun _ => ret OutDone)) ->
    live (w_state w') (w_refs w') (book_step bk op out)).
  { intros h x type extra SO SX E2. rewrite E2 in E. unfold on_ref in E. cbn [w_refs w_state] in E.
    assert (BS : book_step bk op out = bk) by (destruct op; try discriminate SO; reflexivity). rewrite BS.
    destruct (nth_error refs h) as [r|] eqn:HR; [|injection E as <- <-; exact I].
    destruct (NR h r HR) as (o & did & recs & HO & G & HB).
    destruct (sound_head _ _ _ _ G) as (hd & HH & HD).
    assert (RG : registered st did).
    { destruct (dget did bk) as [[k2 r2]|] eqn:B; [|congruence]. exact (proj1 (proj2 (l_book _ _ _ I _ _ _ B))). }
    destruct (live_status st refs bk r o did recs x I HO G HB SX) as (I1 & N1 & O1).
    destruct (live_event (status_set st r o did x) refs bk r (with_status x o) hd did type extra
       I1 O1 HH HD (fun seq => status_event now _ _ _ _ _ _ _ SO)) as (EV & I2).
    assert (Y : bindM (set_repo_status be r x) (fun _ => bindM (write_event digest now cb be r type extra) (fun _ => ret tt)) st
        = (after_event (status_set st r o did x) (with_status x o) (event_block did type (s_next (status_set st r o did x)) extra), Ok tt)).
    { rewrite (bindM_ok _ _ _ _ _ (status_exec be _ _ _ _ _ x HO HH HD RG)). rewrite (bindM_ok _ _ _ _ _ EV). reflexivity. }
    rewrite (bindM_ok _ _ _ _ _ Y) in E. cbn [ret] in E. injection E as <- <-. exact I2. }
  destruct op as [did handle status hc key|x|h key|h x|h ws|h|h|h].
  - destruct ON as [ID HN]. unfold StorageModel.sstep, on_new in E. cbn [w_state w_refs] in E.
    destruct (repo_create digest kdigest validate ecdsa now cb be did handle status hc key st) as [st' o1] eqn:RUN.
    pose proof (live_create _ _ _ _ _ _ _ _ _ _ I ID HN RUN) as X. destruct o1 as [r|e].
    + rewrite (bindM_ok _ _ _ _ _ RUN) in E. cbn [ret] in E. injection E as <- <-. apply X.
    + rewrite (bindM_err _ _ _ _ _ RUN) in E. injection E as <- <-. apply X.
  - unfold StorageModel.sstep, on_new in E. cbn [w_state w_refs] in E.
    destruct (load_spec digest be inj st x (live_named _ _ _ I)) as [(-> & EL)|[(EL & _)|(did & o & st' & r & HS & RG & D & L & EL)]];
      rewrite EL in E; injection E as <- <-; [exact I|exact I|].
    destruct (dget did bk) as [[k2 r2]|] eqn:B; [|exfalso; exact (l_none _ _ _ I _ B RG)]. eapply live_load; eauto.
  - unfold StorageModel.sstep in E. cbn [w_state w_refs] in E. destruct (nth_error refs h) as [r|] eqn:HR; [|injection E as <- <-; exact I].
    destruct (NR h r HR) as (o & did & recs & HO & G & HB). pose proof G as (hd & root & HH & T & SN).
    pose proof T as ((hd' & RH & RV) & T1 & T2 & T3 & T4 & T5 & T6).
    unfold on_new in E. cbn [w_state w_refs] in E. rewrite (bindM_ok _ _ _ _ _ (obj_some _ _ _ HO)) in E. rewrite HH in E.
    assert (X : repo_load (b_cid hd) None None key st = (add_obj (Repo (mst_load root) (Some hd') None None false key) st, Ok (length (s_objs st)))).
    { unfold repo_load. unfold bindM at 1, reads, read. rewrite RH.
      rewrite (bindM_ok (lift (item_link (s "data") (b_val hd'))) _ st st root)
        by (unfold lift; rewrite RV, T3; exact eq_refl). reflexivity. }
    rewrite (bindM_ok _ _ _ _ _ X) in E. cbn [ret] in E. injection E as <- <-. cbn [w_state w_refs book_step].
    eapply live_add_ref; [apply live_add_obj; exact I|cbn; apply nth_app_last| |exact HB].
    exists hd', root. splits; [reflexivity| |exact T4]. unfold tip. rewrite RV.
    assert (HC : b_cid hd' = b_cid hd) by apply (w_block _ _ _ _ (l_store _ _ _ I) _ _ RH). rewrite HC. splits; eauto.
  - unfold StorageModel.sstep, on_ref in E. cbn [w_state w_refs] in E. destruct (nth_error refs h) as [r|] eqn:HR; [|injection E as <- <-; exact I].
    destruct (NR h r HR) as (o & did & recs & HO & G & HB).
    rewrite (bindM_ok _ _ _ _ _ (set_attr_some _ _ _ _ HO)) in E. cbn [ret] in E. injection E as <- <-. cbn [w_state w_refs book_step].
    clear - I HO.
    assert (ST : forall d o', stored_repo st d = Some o' -> exists o2, stored_repo (upd st r (with_callback x o)) d = Some o2 /\
       r_head o2 = r_head o' /\ r_mst o2 = r_mst o' /\ r_key o2 = r_key o' /\ r_handle o2 = r_handle o' /\ r_status o2 = r_status o').
    { intros d o' HS. unfold RepoProofs.stored_repo in *. destruct be.
      - cbn [s_mem s_objs upd set_objs]. destruct (dget d (s_mem st)) as [r'|]; [|discriminate].
        destruct (Nat.eq_dec r r') as [->|NE].
        + exists (with_callback x o). replace o' with o by congruence. splits; auto. eapply nth_replace_same; eauto.
        + exists o'. rewrite nth_replace_other by auto. auto 10.
      - exists o'. cbn [s_ents s_blocks upd set_objs]. auto 10. }
    destruct I as [I1 I2 I3 I4 I5 I6 I7]. split; auto.
    + intros r' HI. destruct (I5 r' HI) as (o' & d & rc & A & G & D). destruct (Nat.eq_dec r r') as [->|NE].
      * exists (with_callback x o), d, rc. splits; auto; [cbn; eapply nth_replace_same; eauto|].
        replace o with o' by congruence. destruct G as (hd & root & G1 & G2 & G3). exists hd, root. auto.
      * exists o', d, rc. splits; auto. cbn. rewrite nth_replace_other by auto. auto.
    + intros d k rc B. destruct (I6 d k rc B) as (A1 & A2 & o' & HS & G & K & HN & HT). splits; auto.
      destruct (ST d o' HS) as (o2 & HS' & E1 & E2 & E3 & E4 & E5). exists o2. rewrite E3, E4, E5. splits; auto; try congruence.
      destruct G as (hd & root & G1 & G2 & G3). exists hd, root. rewrite E1, E2. auto.
  - unfold StorageModel.sstep, on_ref in E. cbn [w_state w_refs] in E. destruct (nth_error refs h) as [r|] eqn:HR; [|injection E as <- <-; exact I].
    destruct (NR h r HR) as (o & did & recs & HO & G & HB).
    destruct (r_status o) as [x|] eqn:ST.
    + rewrite (bindM_err _ _ _ _ _ (commit_inactive digest kdigest validate ecdsa cb be klen inj quiet st r o x ws HO ST
         (l_next _ _ _ I) None)) in E. injection E as <- <-. cbn [w_state w_refs book_step]. apply live_lost. exact I.
    + destruct (dget did bk) as [[key1 recs1]|] eqn:B; [|congruence].
      destruct (live_commit st refs bk r o did recs key1 recs1 ws I HO G B ST) as [(CP & st' & cd & EX & C)|(NC & oo & st1 & r1 & m' & e & HS & L & EX & KEEP)].
      * rewrite (bindM_ok _ _ _ _ _ EX) in E. cbn [ret] in E. injection E as <- <-. cbn [w_state w_refs book_step].
        unfold commit_did. rewrite (wc_did _ _ _ _ _ _ _ _ C), B. eapply wcommitted_live; eauto.
      * rewrite (bindM_err _ _ _ _ _ EX) in E. injection E as <- <-. cbn [w_state w_refs book_step].
        eapply live_failed; eauto. intros BE. specialize (CL BE). cbn [clean_step] in CL.
        destruct CL as [(ob & x & HOB & SX)|(A & A2)]; [|exact (KEEP A A2)].
        unfold handle_obj in HOB. cbn [w_refs w_state] in HOB. rewrite HR, HO in HOB. injection HOB as <-. congruence.
  - eapply STAT; [reflexivity| |reflexivity]. unfold status_ok. auto.
  - eapply STAT; [reflexivity| |reflexivity]. unfold status_ok. auto.
  - eapply STAT; [reflexivity| |reflexivity]. unfold status_ok. auto.
Qed.

Lemma live_init : live (w_state init_world) (w_refs init_world) [].
Proof.
  clear. split; cbn; try discriminate; try (intros; contradiction).
  - lia.
  - split; [discriminate|]. intros n t W X. exfalso. apply X. reflexivity.
  - constructor.
  - constructor.
  - intros did _. unfold RepoProofs.registered. destruct be; auto.
Qed.
End Live.
