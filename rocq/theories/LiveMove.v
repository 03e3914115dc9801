(** Moving repos: exports and imports between storages that repos were moved to. *)
From Coq Require Import String List NArith ZArith Bool Lia Sorted.
From Coq Require Import ZifyBool ZifyNat ZifyN.
From Verif Require Import Base Lists Ipld IpldProofs MstModel MstTree MstTreeProofs MstRep MstTrav
  MstClient MstSpec MstHist MstFacts TidModel TidProofs BlockModel BlockSpec BlockProofs
  CarModel CarProofs StorageModel StorageSpec CommitProofs StoreProofs ExecProofs RepoSpec RepoProofs RepoHist RepoSteps RepoFacts
  UriModel EventsModel CoverModel MessageSpec MessageProofs
  ServerModel ServerSpec ServerProofs ExportSpec ExportProofs ImportProofs ImportFacts LiveStore LiveProofs LiveServe.
Import ListNotations.

(** ** Exports *)

Section Export.
Variable digest : list N -> list N.
Variable kdigest : str -> list N.
Variable validate : ipld -> res unit.
Variable ecdsa : N -> Z -> list N -> list N.
Variable cb : nat -> option exn.
Variable be : backend.
Variable netloc_ok : str -> bool.
Variable cfg : config.
Notation rcid := (rcid digest).
Notation tcid := (tcid digest).
Notation live := (live digest kdigest be).
Notation sound := (sound digest kdigest).
Notation tip := (tip digest kdigest).
Notation names := (names be netloc_ok).
Notation tree_at := (tree_at digest kdigest).
Notation block_of := (block_of digest).
Notation genuine := (genuine digest).
Hypothesis SET : setting digest kdigest validate cb.

Lemma tip_tree st did h root recs : tip (s_blocks st) did h root recs -> exists n t, tree_at st n t root recs.
Proof.
  clear. intros (_ & _ & _ & _ & (n & t & R & W & Srt & LE & ST & RT & SM & ND) & RS & _). exists n, t. unfold ExportProofs.tree_at. splits; auto.
  intros k. rewrite SM. apply dget_cids_of.
Qed.

Lemma reach_all st t : (forall c b, read st c = Some b -> (0 <= b_seq b)%Z) ->
  forall x, subtree x t -> reach digest st 0 t x.
Proof.
  clear. intros NN x HX.
  assert (Q : forall c, (0 <= seq_of st c)%Z) by (intros c; unfold seq_of; destruct (read st c) eqn:E; [eauto|lia]).
  induction HX as [t|x t es HI HX IH]; [constructor; auto|].
  apply reach_in with t; auto. apply in_kids. exact HI.
Qed.

Lemma load_whole st m n t root recs : (forall c b, read st c = Some b -> (0 <= b_seq b)%Z) ->
  get_pointer digest m = Ok root -> tree_at st n t root recs ->
  exists bl, load_all digest be st m 0 = Ok bl /\
    (forall c data, In (c, data) bl -> exists b, read st c = Some b /\ data = encode (b_val b)) /\
    (forall c, In c (keys bl) <-> node_of (rd st) root c \/ exists path v, dget path recs = Some v /\ c = rcid v).
Proof.
  intros NN P T. pose proof T as (R & W & Srt & LE & ST & RT & SM & RS). pose proof md as MD.
  destruct (load_nodes_ok digest kdigest be st 0%Z (s_inj _ _ _ _ SET) n max_depth [t]) as (rs & E & IN);
    [lia|constructor; auto|intros x [<-|[]]; auto|].
  cbn [map] in E. rewrite RT in E.
  assert (RI : forall x, In x rs <-> subtree x t).
  { intros x. rewrite IN. split; [intros (t' & [<-|[]] & H); eapply reach_subtree; exact H|intros H; exists t; split; [cbn; auto|apply reach_all; auto]]. }
  assert (LV : forall v, In v (flat_map dleaves rs) <-> exists k, In (k, v) (leaves t)).
  { intros v. rewrite in_flat_map. split.
    - intros (x & HX & HV). apply RI in HX. apply in_dleaves in HV as (k & HK). exists k.
      eapply StoreProofs.subtree_leaves; [exact HX|]. apply node_leaf. exact HK.
    - intros (k & HK). destruct (leaf_node t _ _ HK) as (x & HX & HL). exists x. split; [apply RI; auto|apply in_dleaves; eauto]. }
  assert (LR : forall v, (exists k, In (k, v) (leaves t)) <-> exists path x, dget path recs = Some x /\ v = rcid x).
  { intros v. split.
    - intros (k & HK). destruct (tree_leaf _ _ _ _ _ _ _ _ _ T HK) as (x & _ & D & -> & _). eauto.
    - intros (path & x & D & ->). exists path. exact (tree_record _ _ _ _ _ _ _ _ _ T D). }
  destruct (raw_entries be st (flat_map dleaves rs)) as (d & ED & ND & GD).
  { intros v HV. apply LV in HV as (k & HK). destruct (tree_leaf _ _ _ _ _ _ _ _ _ T HK) as (x & b & _ & _ & RB & _). congruence. }
  exists (map (tenc digest) rs ++ map (fun kv => (fst kv, fst (snd kv))) d).
  unfold load_all. rewrite P. cbn [bind]. rewrite E. cbn [bind fst snd]. rewrite ED. cbn [bind]. splits; [reflexivity| |].
  - intros c data HI. apply in_app_or in HI as [HI|HI].
    + apply in_map_iff in HI as (x & EX & HX). injection EX as <- <-. apply RI in HX.
      destruct (stored_read digest st x (stored_subtree _ _ _ _ HX ST)) as (b & RB & VB). exists b. rewrite VB. splits; auto.
    + apply in_map_iff in HI as ([c' x] & EX & HX). cbn [fst snd] in EX. injection EX as -> <-. apply GD in HX as (HV & b & RB & ->).
      exists b. splits; auto.
  - intros c. unfold keys. rewrite map_app, !map_map. cbn [fst]. rewrite in_app_iff, !in_map_iff. rewrite <- LR, <- LV.
    rewrite (tree_node_of _ _ _ _ _ _ _ _ T). split.
    + intros [(x & <- & HX)|([c' x] & <- & HX)]; [left; exists x; split; [apply RI; auto|reflexivity]|right; apply (GD c' x) in HX; apply HX].
    + intros [(x & HX & ->)|HV]; [left; exists x; split; [reflexivity|apply RI; auto]|].
      right. destruct (proj1 (LV c) HV) as (k & HK). destruct (tree_leaf _ _ _ _ _ _ _ _ _ T HK) as (x & b & _ & _ & RB & _).
      exists (c, (encode (b_val b), b_seq b)). split; [reflexivity|]. apply GD. split; auto. eauto.
Qed.

(** What getRepo gives of an active repo. *)
Lemma live_export st refs bk x did o key recs since : live st refs bk -> names st x did o -> r_status o = None -> dget did bk = Some (key, recs) ->
  (forall a, length (digest a) = 32%nat) -> since = None \/ since = Some [] ->
  exists st1 h root n t bl, get_repo digest be netloc_ok false x since st = (st1, Ok (write_car [b_cid h] bl)) /\ live st1 refs bk /\
    r_head o = Some h /\ tip (s_blocks st) did h root recs /\ tree_at st n t root recs /\
    read_car (write_car [b_cid h] bl) = Some ([b_cid h], bl) /\ genuine st bl /\
    (forall c, In c (keys bl) <-> block_of st h root recs c).
Proof.
  intros I NM R B D32 SI.
  destruct (load_cases digest kdigest validate cb be netloc_ok SET st refs bk x I) as [(did' & o' & st1 & r & key' & recs' & F)|(e & st1 & extra & LE & SS & _ & NN)];
    [|exfalso; exact (NN _ _ NM R)].
  destruct (names_fun be netloc_ok _ _ _ _ _ _ NM (f_names _ _ _ _ _ _ _ _ _ _ _ _ _ _ F)) as [<- <-].
  pose proof (f_book _ _ _ _ _ _ _ _ _ _ _ _ _ _ F) as B'. rewrite B in B'. injection B' as <- <-.
  pose proof (f_good _ _ _ _ _ _ _ _ _ _ _ _ _ _ F) as G. pose proof (f_same _ _ _ _ _ _ _ _ _ _ _ _ _ _ F) as (_ & BL & _).
  rewrite BL in G. pose proof G as (h & root & HH & T & SN). destruct (tip_tree _ _ _ _ _ T) as (n & t & TA).
  pose proof (l_store _ _ _ _ _ _ I) as WK.
  assert (NN : forall c b, read st1 c = Some b -> (0 <= b_seq b)%Z).
  { intros c b RB. unfold read in RB. rewrite BL in RB. apply (w_block _ _ _ _ WK) in RB as (_ & _ & Q & _). lia. }
  assert (TA1 : tree_at st1 n t root recs) by (unfold ExportProofs.tree_at, rd in *; rewrite BL; exact TA).
  destruct (load_whole st1 (r_mst o) n t root recs NN) as (l & E & A & K); auto.
  { eapply snapshot_pointer; eauto. }
  assert (NO : forall c, node_of (rd st1) root c <-> node_of (rd st) root c) by (intros c; unfold rd; rewrite BL; tauto).
  assert (RD : forall c, read st1 c = read st c) by (intros c; unfold read; rewrite BL; reflexivity).
  set (bl := (b_cid h, encode (b_val h)) :: l).
  assert (GE : genuine st bl).
  { intros c data [[= <- <-]|HI].
    - destruct T as ((h' & RH & VH) & _). exists h'. rewrite VH. splits; auto. rewrite <- VH. apply (w_block _ _ _ _ WK _ _ RH).
    - destruct (A _ _ HI) as (b & RB & ->). rewrite RD in RB. exists b. splits; auto. apply (w_block _ _ _ _ WK _ _ RB). }
  exists st1, h, root, n, t, bl. splits; auto.
  - unfold get_repo. rewrite (bindM_ok _ _ _ _ _ (f_load _ _ _ _ _ _ _ _ _ _ _ _ _ _ F)).
    rewrite (bindM_ok (ret tt) _ st1 st1 tt) by reflexivity.
    rewrite (bindM_ok (match since with Some ((_ :: _) as t) => lift (tid_to_int t) | _ => ret 0%Z end) _ st1 st1 0%Z).
    2:{ destruct SI as [-> | ->]; reflexivity. }
    rewrite (bindM_ok _ _ _ _ _ (obj_some _ _ _ (f_obj _ _ _ _ _ _ _ _ _ _ _ _ _ _ F))).
    unfold head_of. rewrite HH.
    rewrite (bindM_ok (ret h) _ st1 st1 h) by reflexivity.
    rewrite (bindM_ok (fun st0 => (st0, load_all digest be st0 (r_mst o) 0%Z)) _ st1 st1 l) by (rewrite E; reflexivity). reflexivity.
  - eapply live_weaken; [|exact (f_steps _ _ _ _ _ _ _ _ _ _ _ _ _ _ F I)]. apply incl_appl, incl_refl.
  - apply read_write_car. intros [c data] HI. cbn [fst]. destruct (GE _ _ HI) as (b & _ & _ & ->). unfold cid_of. rewrite app_length, D32. reflexivity.
  - intros c. unfold bl, keys. cbn [map fst In]. rewrite (K c : In c (map fst l) <-> _), NO. unfold ExportSpec.block_of. split; (intros [X|X]; [left; symmetry; exact X|right; exact X]).
Qed.

(** A repo that can be exported is hosted and active. *)
Lemma exported_named st refs bk x since car : live st refs bk -> snd (get_repo digest be netloc_ok false x since st) = Ok car ->
  exists did o key recs, names st x did o /\ r_status o = None /\ dget did bk = Some (key, recs).
Proof.
  intros I E.
  destruct (load_cases digest kdigest validate cb be netloc_ok SET st refs bk x I) as [(did' & o' & st1 & r & key' & recs' & F)|(e & st1 & extra & LE & _)].
  - exists did', o', key', recs'. destruct F. auto.
  - unfold get_repo in E. rewrite (bindM_err _ _ _ _ _ LE) in E. discriminate.
Qed.
End Export.

(** ** Imports *)

Lemma node_of_trans rd root p c : node_of rd root p -> node_of rd p c -> node_of rd root c.
Proof. intros A. induction 1; auto. econstructor; eauto. Qed.

Section Import.
Variable digest : list N -> list N.
Variable kdigest : str -> list N.
Variable validate : ipld -> res unit.
Variable cb : nat -> option exn.
Variable be : backend.
Variable cfg : config.
Variable resolve : str -> res ipld.
Variable signing_key : ipld -> option (list N).
Variable verify : ipld -> list N -> bool.
Variable handle_of : ipld -> option str.
Notation import_blocks := (import_blocks be resolve signing_key verify).
Notation import_repo := (import_repo be cfg resolve signing_key verify handle_of).
Notation rdv bl := (fun k : str => dget k (vals bl)).
Notation rcid := (rcid digest).
Notation tcid := (tcid digest).
Notation live := (live digest kdigest be).
Notation weak := (weak digest kdigest).
Notation sound := (sound digest kdigest).
Notation tip := (tip digest kdigest).
Notation tree_at := (tree_at digest kdigest).
Notation block_of := (block_of digest).
Notation genuine := (genuine digest).
Hypothesis SET : setting digest kdigest validate cb.

(** A CAR that a storage gave of a repo: its blocks, and nothing else. *)
Record moved (stA : state) (car : list N) (did : str) (h : block) (recs : records) (bl : list (cid * list N)) : Prop := {
  mv_next : exists next, weak (s_blocks stA) next;
  mv_did : is_did did;
  mv_tree : exists root n t, tip (s_blocks stA) did h root recs /\ tree_at stA n t root recs /\
    forall c, In c (keys bl) <-> block_of stA h root recs c;
  mv_car : read_car car = Some ([b_cid h], bl);
  mv_genuine : genuine stA bl
}.

Definition imported (bl : list (cid * list N)) (did : str) (st : store) : store :=
  fold_left dsetdefault (map (fun b => (b_cid b, b))
     (map (fun b => Block (b_cid b) (b_val b) (b_seq b) (b_ops b) (Some did)) (map taken bl))) st.

Lemma moved_head stA car did h recs bl : moved stA car did h recs bl ->
  item_text (s "did") (b_val h) = Ok did /\ In (b_cid h) (keys bl) /\
  forall c data, In (c, data) bl -> exists v, data = encode v /\ (c = b_cid h -> v = b_val h).
Proof.
  clear. intros [_ _ (root & n & t & T & TA & K) _ G]. splits.
  - apply T.
  - apply K. left. reflexivity.
  - intros c data HI. destruct (G _ _ HI) as (b & RB & -> & _). exists (b_val b). split; auto. intros ->.
    destruct T as ((h' & RH & VH) & _). unfold read in RB. congruence.
Qed.

Lemma moved_store stA car did h recs bl st next : moved stA car did h recs bl -> weak st next -> (0 < next)%Z ->
  let st' := imported bl did st in
  weak st' next /\ extends st st' /\ exists root, tip st' did h root recs /\
  exists h', dget (b_cid h) st' = Some h' /\ b_val h' = b_val h /\ b_cid h' = b_cid h.
Proof.
  pose proof (s_inj _ _ _ _ SET) as INJ. intros [(nA & WA) _ (root & n & t & T & TA & K) _ G] WK POS st'.
  assert (GET : forall c, dget c st' = match dget c st with Some b => Some b
     | None => option_map (fun data => Block c (match decode data with Some v => v | None => IMap [] end) 0 None (Some did)) (dget c bl) end).
  { intros c. unfold st', imported. rewrite fold_setdefault_get, dget_map_own. reflexivity. }
  assert (NEW : forall c, dget c st = None -> dget c st' <> None -> exists b, read stA c = Some b /\ block_of stA h root recs c /\
     c = cid_of digest (b_val b) /\ dget c st' = Some (Block c (b_val b) 0 None (Some did))).
  { intros c D D'. rewrite GET, D in D'. rewrite GET, D. destruct (dget c bl) as [data|] eqn:E; [|cbn in D'; congruence].
    apply dget_In in E. destruct (G _ _ E) as (b & RB & -> & CB). exists b. splits; auto.
    - apply K. apply in_map_iff. exists (c, encode (b_val b)). auto.
    - cbn [option_map]. rewrite decode_encode_lemma. reflexivity. }
  assert (VAL : forall c b, read stA c = Some b -> block_of stA h root recs c -> exists b', dget c st' = Some b' /\ b_val b' = b_val b /\ b_cid b' = c).
  { intros c b RB BO. destruct (dget c st) as [b'|] eqn:D.
    - exists b'. destruct (w_block _ _ _ _ WK _ _ D) as (A & B & _). rewrite GET, D. splits; auto.
      apply (cid_of_inj digest); auto. rewrite <- B. apply (w_block _ _ _ _ WA _ _ RB).
    - destruct (NEW c D) as (b2 & RB2 & _ & _ & E).
      + rewrite GET, D. destruct (dget c bl) eqn:X; [discriminate|]. apply dget_None in X. exfalso. apply X, K, BO.
      + rewrite RB in RB2. injection RB2 as <-. eexists. splits; [exact E|reflexivity|reflexivity]. }
  assert (EX : extends st st') by (intros c b D; rewrite GET, D; reflexivity).
  assert (M1 : forall c v, dget c (vals st) = Some v -> dget c (vals st') = Some v).
  { intros c v. rewrite !dget_vals. destruct (dget c st) as [b|] eqn:D; [rewrite (EX _ _ D); auto|discriminate]. }
  pose proof T as ((h0 & RH & VH) & T1 & T2 & T3 & T4 & T5 & T6).
  pose proof TA as (R & W & Srt & LE & ST & RT & LV & RSt).
  assert (NODE : forall x, node_of (rd stA) root (tcid x) -> rd stA (tcid x) = Some (tnode digest x) -> dget (tcid x) (vals st') = Some (tnode digest x)).
  { intros x NX RX. unfold rd in RX. rewrite dget_vals in RX. destruct (dget (tcid x) (s_blocks stA)) as [b|] eqn:D; [|discriminate].
    cbn in RX. injection RX as RX. destruct (VAL _ _ D) as (b' & D' & V' & _); [right; left; exact NX|]. rewrite dget_vals, D'. cbn. congruence. }
  assert (HEAD : exists h', dget (b_cid h) st' = Some h' /\ b_val h' = b_val h /\ b_cid h' = b_cid h).
  { destruct (VAL _ _ RH) as (h' & A & B & C); [left; reflexivity|]. exists h'. splits; auto. congruence. }
  assert (PLAIN : forall p v, dget p recs = Some v -> plain v) by (intros p v D; apply (proj2 T6 p v D)).
  assert (REC : recs_stored digest st' recs).
  { intros p v D. pose proof (T5 p v D) as X. rewrite dget_vals in X. destruct (dget (rcid v) (s_blocks stA)) as [b|] eqn:DB; [|discriminate].
    cbn in X. injection X as X. destruct (VAL _ _ DB) as (b' & D' & V' & _); [right; right; eauto|]. rewrite dget_vals, D'. cbn. congruence. }
  splits; auto.
  - split.
    + intros c b D. destruct (dget c st) as [b0|] eqn:D0.
      * rewrite (EX _ _ D0) in D. injection D as <-. exact (w_block _ _ _ _ WK _ _ D0).
      * destruct (NEW c D0) as (bA & RB & BO & CB & E); [congruence|]. rewrite E in D. injection D as <-. unfold wblock. cbn [b_cid b_val b_seq].
        splits; auto; try lia. destruct BO as [->|[NO|(p & v & DV & ->)]].
        -- apply wk_none. cbn [b_val]. unfold read in RB. replace (b_val bA) with (b_val h) by congruence. destruct T1 as (? & T1 & _); exact T1.
        -- apply (tree_node_of _ _ _ _ _ _ _ _ TA) in NO as (x & HX & ->). apply wk_none. cbn [b_val].
           destruct (ExportProofs.stored_read digest stA x (stored_subtree _ _ _ _ HX ST)) as (b2 & RB2 & VB). rewrite RB in RB2. injection RB2 as <-.
           rewrite VB. destruct x as [es]. apply vtype_node.
        -- apply (wk_record _ v); [eauto|]. cbn [b_val]. pose proof (T5 p v DV) as X. rewrite dget_vals in X. unfold read in RB. rewrite RB in X.
           cbn in X. congruence.
    + intros n' t' W' HR. rewrite dget_vals in HR. destruct (dget (tcid t') st) as [b0|] eqn:D0.
      { apply (stored_mono digest (rdv st) _ t' M1). apply (w_closed _ _ _ _ WK n' t' W'). rewrite dget_vals, D0. discriminate. }
      destruct (NEW _ D0) as (bA & RB & BO & CB & E). { intros X. rewrite X in HR. apply HR. reflexivity. }
      assert (STA : stored digest (rdv (s_blocks stA)) t').
      { apply (w_closed _ _ _ _ WA n' t' W'). rewrite dget_vals. unfold read in RB. rewrite RB. discriminate. }
      destruct BO as [BO|[NO|(p & v & DV & EQ)]].
      * exfalso. destruct (ExportProofs.stored_read digest stA t' STA) as (b2 & RB2 & VB). rewrite BO in RB2. unfold read in RB2. rewrite RH in RB2.
        injection RB2 as <-. rewrite VH in VB. rewrite VB in T2. destruct t' as [es]. cbn in T2. discriminate T2.
      * apply stored_subtrees. intros x HX. apply NODE.
        -- eapply node_of_trans; [exact NO|]. apply (node_of_subtree digest kdigest _ n'); eauto.
        -- destruct (ExportProofs.stored_read digest stA x (stored_subtree _ _ _ _ HX STA)) as (b2 & RB2 & VB). unfold rd. rewrite dget_vals. unfold read in RB2.
           rewrite RB2. cbn. congruence.
      * exfalso. apply (plain_not_node digest kdigest INJ v n' t'); eauto.
  - exists root. split; auto. unfold LiveProofs.tip. splits; auto.
    + destruct HEAD as (h' & A & B & _). eauto.
    + assert (ST' : stored digest (rdv st') t).
      { apply stored_subtrees. intros x HX. apply NODE; [apply (tree_node_of _ _ _ _ _ _ _ _ TA); eauto|].
        destruct (ExportProofs.stored_read digest stA x (stored_subtree _ _ _ _ HX ST)) as (b2 & RB2 & VB). unfold rd. rewrite dget_vals. unfold read in RB2.
        rewrite RB2. cbn. congruence. }
      destruct (load_any digest kdigest (rdv st') n t W ST') as (n' & LN & W' & R' & _).
      exists n', t. splits; auto; [rewrite <- RT; exact R'|lia| |].
      * intros p. rewrite dget_cids_of. apply LV.
      * unfold cids_of, keys. rewrite map_map. apply T6.
Qed.

Lemma live_no_repo st refs bk did : live st refs bk -> dget did bk = None -> is_did did -> load_repo be did st = (st, Ok None).
Proof.
  intros I BN ID. destruct (load_did digest be (s_inj _ _ _ _ SET) st did (live_named _ _ _ _ _ _ I) ID) as [(LR & _)|(o & st1 & r & _ & RG & _)]; [exact LR|].
  exfalso. exact (l_none _ _ _ _ _ _ I _ BN RG).
Qed.

Lemma live_import st refs bk stA car did h recs bl header key doc k :
  live st refs bk -> moved stA car did h recs bl -> dget did bk = None ->
  auth cfg header = Ok tt -> resolve did = Ok doc -> signing_key doc = Some k -> verify (b_val h) k = true -> handle_ok (handle_of doc) ->
  exists st' o', import_repo header car key st = (st', Ok tt) /\ live st' refs (dset did (key, recs) bk) /\
    stored_repo be st' did = Some o' /\ r_status o' = Some (s "deactivated") /\ r_handle o' = handle_of doc /\
    (exists h', r_head o' = Some h' /\ b_cid h' = b_cid h /\ b_val h' = b_val h) /\ s_next st' = s_next st /\
    forall did', did' <> did -> dget did' bk <> None -> stored_repo be st' did' = stored_repo be st did'.
Proof.
  intros I MV BN AU RS SK VF HO. pose proof (mv_did _ _ _ _ _ _ MV) as ID.
  pose proof (live_no_repo _ _ _ _ I BN ID) as LR. destruct (moved_head _ _ _ _ _ _ MV) as (DI & HI & GV).
  destruct (moved_store _ _ _ _ _ _ (s_blocks st) (s_next st) MV (l_store _ _ _ _ _ _ I) (l_next _ _ _ _ _ _ I)) as (WK & EXT & root & TIP & h1 & DH & VH & CH).
  pose proof TIP as (_ & _ & _ & DA & SNAP & _).
  set (st2 := set_blocks (imported bl did (s_blocks st)) st).
  set (hb := Block (b_cid h) (b_val h) 0 None (Some did)).
  set (o := Repo (mst_load root) (Some hb) (handle_of doc) (Some (s "deactivated")) false key).
  set (st3 := add_obj o st2). set (r := length (s_objs st)).
  set (st' := match be with
              | Memory => set_mem (dset did r (s_mem st3)) st3
              | Datastore => set_ents (ent_put did (Entity (handle_of doc) (b_cid h) (Some (s "deactivated")) key) (s_ents st3)) st3
              end).
  assert (OB : nth_error (s_objs st3) r = Some o).
  { unfold st3, add_obj, st2, r. cbn. rewrite nth_error_app2 by lia. rewrite PeanoNat.Nat.sub_diag. reflexivity. }
  assert (E : import_repo header car key st = (st', Ok tt)).
  { unfold ServerModel.import_repo. rewrite AU. rewrite (bindM_ok (lift (Ok tt)) _ st st tt) by reflexivity. rewrite (mv_car _ _ _ _ _ _ MV).
    rewrite (bindM_ok _ _ _ _ _ (import_blocks_ok be resolve signing_key verify st (b_cid h) (b_val h) did doc k DI LR RS SK VF bl ([], None) GV)). cbn [fst snd app].
    assert (EX : existsb (fun x => str_eqb (fst x) (b_cid h)) bl = true).
    { apply existsb_exists. apply in_map_iff in HI as (x & X & HI). exists x. split; auto. rewrite X. apply str_eqb_refl. }
    rewrite EX. unfold st', r, st3, o, hb, st2. clear - ID DI DA. destruct did as [|d0 did']; [discriminate ID|]. cbn [nonempty]. set (did := d0 :: did') in *.
    rewrite (bindM_ok (ret tt) _ st st tt) by reflexivity.
    rewrite (bindM_ok (write_blocks _) _ st (set_blocks (imported bl did (s_blocks st)) st) tt) by reflexivity. cbn [b_cid b_val b_seq b_ops].
    set (st2 := set_blocks (imported bl did (s_blocks st)) st).
    rewrite DA. rewrite (bindM_ok (lift (Ok root)) _ st2 st2 root) by reflexivity.
    set (o := Repo _ _ _ _ _ _). set (st3 := add_obj o st2).
    assert (OB : nth_error (s_objs st3) (length (s_objs st)) = Some o).
    { unfold st3, add_obj, st2. cbn. rewrite nth_error_app2 by lia. rewrite PeanoNat.Nat.sub_diag. reflexivity. }
    rewrite (bindM_ok (new_obj o) _ st2 st3 (length (s_objs st))) by reflexivity. unfold create_repo.
    rewrite (bindM_ok _ _ _ _ _ (obj_some _ _ _ OB)).
    rewrite (bindM_ok (need_did o) _ st3 st3 did).
    2:{ unfold need_did, repo_did, o. cbn [r_head b_val]. rewrite DI. reflexivity. }
    destruct be; reflexivity. }
  assert (BL : s_blocks st' = imported bl did (s_blocks st)) by (unfold st'; destruct be; reflexivity).
  assert (NX : s_next st' = s_next st) by (unfold st'; destruct be; reflexivity).
  assert (MEM : s_mem st' = match be with Memory => dset did r (s_mem st) | Datastore => s_mem st end) by (unfold st'; destruct be; reflexivity).
  assert (ENT : s_ents st' = match be with Datastore => ent_put did (Entity (handle_of doc) (b_cid h) (Some (s "deactivated")) key) (s_ents st) | Memory => s_ents st end)
    by (unfold st'; destruct be; reflexivity).
  assert (OBJ : s_objs st' = s_objs st ++ [o]) by (unfold st'; destruct be; reflexivity).
  clearbody st'.
  assert (ON : nth_error (s_objs st') r = Some o).
  { rewrite OBJ. unfold r. rewrite nth_error_app2 by lia. rewrite PeanoNat.Nat.sub_diag. reflexivity. }
  assert (KEEP : forall r' o', nth_error (s_objs st) r' = Some o' -> nth_error (s_objs st') r' = Some o').
  { intros r' o' H. rewrite OBJ, nth_error_app1; auto. apply nth_error_Some. congruence. }
  rewrite <- BL in WK, EXT, DH, TIP, SNAP.
  assert (SR : exists o' h', stored_repo be st' did = Some o' /\ r_head o' = Some h' /\ b_cid h' = b_cid h /\ b_val h' = b_val h /\
     r_mst o' = mst_load root /\ r_status o' = Some (s "deactivated") /\ r_handle o' = handle_of doc /\ r_key o' = key).
  { clear - MEM ENT ON DH VH CH DA I. pose proof (l_ents _ _ _ _ _ _ I) as SS. clear I. unfold stored_repo. destruct be.
    - rewrite MEM, dget_dset, str_eqb_refl. exists o, hb. splits; auto.
    - rewrite ENT, ent_put_get, str_eqb_refl by auto. cbn [e_head]. rewrite DH, VH, DA.
      exists (Repo (mst_load root) (Some h1) (handle_of doc) (Some (s "deactivated")) false key), h1. splits; auto. }
  destruct SR as (o' & h'' & SR & SH & SC & SV & SM & SS & SHA & SK').
  assert (OLD : forall did', did' <> did -> dget did' bk <> None -> stored_repo be st' did' = stored_repo be st did').
  { intros did' NE DB. destruct (dget did' bk) as [[k' rc']|] eqn:B'; [|congruence].
    destruct (l_book _ _ _ _ _ _ I _ _ _ B') as (_ & _ & o2 & H2 & _). rewrite H2.
    apply (stored_same be st); auto.
    - intros BE r' DR. rewrite MEM, BE, dget_dset. rewrite (proj2 (str_eqb_neq _ _) NE). split; auto.
      rewrite OBJ. apply nth_error_app1. apply nth_error_Some. unfold stored_repo in H2. rewrite BE, DR in H2. congruence.
    - intros BE. rewrite ENT, BE, ent_put_get by exact (l_ents _ _ _ _ _ _ I). rewrite (proj2 (str_eqb_neq _ _) NE). reflexivity. }
  assert (REG : forall did', registered be st' did' <-> did' = did \/ registered be st did').
  { intros did'. unfold registered. pose proof (l_ents _ _ _ _ _ _ I) as SE. clear - MEM ENT SE. destruct be.
    - rewrite MEM, dget_dset. destruct (str_eqb_spec did' did) as [->|NE]; split; auto; try discriminate. intros [X|X]; [congruence|exact X].
    - rewrite ENT, ent_put_get by auto. destruct (str_eqb_spec did' did) as [->|NE]; split; auto; try discriminate. intros [X|X]; [congruence|exact X]. }
  exists st', o'. splits; auto; [|exists h''; auto].
  split.
  - rewrite NX. exact (l_next _ _ _ _ _ _ I).
  - rewrite NX. exact WK.
  - rewrite MEM. pose proof (l_mem _ _ _ _ _ _ I). clear - H. destruct be; auto using dset_NoDup.
  - rewrite ENT. pose proof (l_ents _ _ _ _ _ _ I). clear - H. destruct be; auto using ent_put_sorted.
  - intros r' HR. destruct (l_ref _ _ _ _ _ _ I r' HR) as (o2 & d2 & rc2 & A & B & C). exists o2, d2, rc2. splits; auto.
    + eapply sound_mono; eauto.
    + rewrite dget_dset. destruct (str_eqb d2 did); [discriminate|exact C].
  - intros d key' recs' D. rewrite dget_dset in D. destruct (str_eqb_spec d did) as [->|NE].
    + injection D as <- <-. splits; auto; [apply REG; auto|]. exists o'. splits; auto.
      * exists h'', root. splits; auto; [|rewrite SM; exact SNAP]. unfold LiveProofs.tip in TIP |- *. rewrite SC, SV. exact TIP.
      * rewrite SHA. exact HO.
      * rewrite SS. unfold LiveProofs.status_ok. auto.
    + destruct (l_book _ _ _ _ _ _ I _ _ _ D) as (A & B & o2 & H2 & G2 & X). splits; auto; [apply REG; auto|].
      exists o2. rewrite OLD by congruence. splits; auto; try apply X. eapply sound_mono; eauto.
  - intros d D. rewrite dget_dset in D. destruct (str_eqb_spec d did) as [EQ|NE]; [discriminate D|]. rewrite REG. intros [X|X]; [congruence|].
    exact (l_none _ _ _ _ _ _ I _ D X).
Qed.

Definition acceptable (header : option str) (bk : book) (did : str) (h : block) : Prop :=
  auth cfg header = Ok tt /\ dget did bk = None /\
  exists doc k, resolve did = Ok doc /\ signing_key doc = Some k /\ verify (b_val h) k = true.

Lemma import_refused st hc hv did : item_text (s "did") hv = Ok did -> load_repo be did st = (st, Ok None) ->
  ~ (exists doc k, resolve did = Ok doc /\ signing_key doc = Some k /\ verify hv k = true) ->
  forall bl acc, (forall c data, In (c, data) bl -> exists v, data = encode v /\ (c = hc -> v = hv)) -> In hc (keys bl) ->
  exists e, import_blocks hc bl acc st = (st, Err e).
Proof.
  clear. intros DI LR NO. induction bl as [|[c data] bl IH]; intros acc H HI; [destruct HI|]. cbn [ServerModel.import_blocks].
  destruct (H c data (or_introl eq_refl)) as (v & -> & HV). rewrite encode_nonempty.
  rewrite (bindM_ok (assert true) _ st st tt) by reflexivity. rewrite decode_encode_lemma.
  destruct (str_eqb_spec c hc) as [->|NE].
  - rewrite (HV eq_refl). unfold lift. rewrite DI, (bindM_ok (fun st0 => (st0, Ok did)) _ st st did) by reflexivity.
    rewrite (bindM_ok _ _ _ _ _ LR). cbn [is_some]. rewrite (bindM_ok (ret tt) _ st st tt) by reflexivity.
    destruct (resolve did) as [doc|e] eqn:RS; [|exists e; reflexivity].
    rewrite (bindM_ok (fun st0 => (st0, Ok doc)) _ st st doc) by reflexivity.
    destruct (signing_key doc) as [k|] eqn:SK; [|exists ValueError; reflexivity].
    destruct (verify hv k) eqn:VF; [exfalso; apply NO; eauto|exists ValueError; reflexivity].
  - apply IH; [intros; apply H; right; auto|]. destruct HI as [HI|HI]; [exfalso; apply NE; exact HI|exact HI].
Qed.

Lemma live_import_cases st refs bk stA car did h recs bl header key st' out :
  live st refs bk -> moved stA car did h recs bl -> (forall doc, handle_ok (handle_of doc)) -> import_repo header car key st = (st', out) ->
  (acceptable header bk did h /\ out = Ok tt /\ live st' refs (dset did (key, recs) bk)) \/
  (~ acceptable header bk did h /\ exists e, out = Err e /\ live st' refs bk).
Proof.
  intros I MV HO E. destruct (moved_head _ _ _ _ _ _ MV) as (DI & HI & GV). pose proof (mv_did _ _ _ _ _ _ MV) as ID.
  destruct (auth cfg header) as [[]|e] eqn:AU.
  2:{ right. split; [intros (A & _); congruence|]. unfold ServerModel.import_repo in E. rewrite AU in E. injection E as <- <-. eauto. }
  assert (IR : import_repo header car key st = bindM (import_blocks (b_cid h) bl ([], None)) (fun bh =>
      match snd bh with
      | None => throw ValueError
      | Some (h, did, doc) =>
          let own := fun b => Block (b_cid b) (b_val b) (b_seq b) (b_ops b) (Some did) in
          bindM (if nonempty did then ret tt else throw ValueError) (fun _ =>
          bindM (write_blocks (map own (fst bh))) (fun _ =>
          bindM (lift (item_link (s "data") (b_val h))) (fun data =>
          bindM (new_obj (Repo (mst_load data) (Some (own h)) (handle_of doc) (Some (s "deactivated")) false key)) (create_repo be))))
      end) st).
  { unfold ServerModel.import_repo. rewrite AU, (bindM_ok (lift (Ok tt)) _ st st tt) by reflexivity. rewrite (mv_car _ _ _ _ _ _ MV). reflexivity. }
  destruct (dget did bk) as [[k0 rc0]|] eqn:B.
  - right. split; [intros (_ & A & _); congruence|]. destruct (l_book _ _ _ _ _ _ I _ _ _ B) as (_ & RG & _).
    destruct (load_did digest be (s_inj _ _ _ _ SET) st did (live_named _ _ _ _ _ _ I) ID) as [(_ & NR)|(o & st1 & r & HS & _ & L & LR)]; [contradiction|].
    rewrite IR, (bindM_err _ _ _ _ _ (import_existing be resolve signing_key verify _ _ _ _ _ _ DI LR bl ([], None) GV HI)) in E. injection E as <- <-.
    exists ValueError. split; auto. eapply live_weaken; [|eapply live_load; eauto]. apply incl_appl, incl_refl.
  - assert (D : (exists doc k, resolve did = Ok doc /\ signing_key doc = Some k /\ verify (b_val h) k = true) \/
       ~ (exists doc k, resolve did = Ok doc /\ signing_key doc = Some k /\ verify (b_val h) k = true)).
    { destruct (resolve did) as [doc|] eqn:RS; [|right; intros (? & ? & X & _); discriminate].
      destruct (signing_key doc) as [k|] eqn:SK; [|right; intros (? & ? & [= <-] & X & _); congruence].
      destruct (verify (b_val h) k) eqn:VF; [left; eauto|right; intros (? & ? & [= <-] & X & Y); congruence]. }
    destruct D as [(doc & k & RS & SK & VF)|N].
    + left. destruct (live_import st refs bk stA car did h recs bl header key doc k I MV B AU RS SK VF (HO doc)) as (st2 & o' & E2 & L2 & _).
      rewrite E2 in E. injection E as <- <-. split; [|auto]. unfold acceptable. splits; auto. eauto.
    + right. split; [intros (_ & _ & X); exact (N X)|].
      destruct (import_refused st (b_cid h) (b_val h) did DI (live_no_repo _ _ _ _ I B ID) N bl ([], None) GV HI) as (e & EB).
      rewrite IR, (bindM_err _ _ _ _ _ EB) in E. injection E as <- <-. eauto.
Qed.

End Import.
