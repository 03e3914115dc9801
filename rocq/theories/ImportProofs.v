(** Importing repos. *)
From Coq Require Import String List NArith ZArith Bool Lia Sorted.
From Coq Require Import ZifyBool ZifyNat ZifyN.
From Verif Require Import Base Lists Ipld IpldProofs MstModel MstTree MstTreeProofs MstRep MstTrav
  MstClient MstSpec MstHist MstFacts TidModel TidProofs BlockModel BlockSpec BlockProofs
  CarModel CarProofs StorageModel StorageSpec CommitProofs StoreProofs ExecProofs RepoSpec RepoProofs RepoHist RepoSteps RepoFacts
  UriModel EventsModel EventsFacts CoverModel CoverSpec CoverProofs CoverFacts MessageSpec MessageProofs
  ServerModel ServerSpec ServerProofs ServerFacts ServerSync ExportSpec ExportProofs ExportFacts.
Import ListNotations.

(** ** States that only have more *)

Section More.
Variable be : backend.

Definition more (st st' : state) : Prop :=
  s_mem st' = s_mem st /\ s_ents st' = s_ents st /\ (exists l, s_objs st' = s_objs st ++ l) /\ extends (s_blocks st) (s_blocks st').

Lemma more_refl st : more st st.
Proof. unfold more. splits; auto. - exists []. rewrite app_nil_r. auto. - intros c b H. exact H. Qed.
Lemma more_trans st1 st2 st3 : more st1 st2 -> more st2 st3 -> more st1 st3.
Proof.
  intros (A & B & (l & C) & D) (A' & B' & (l' & C') & D'). unfold more. splits; try congruence.
  - exists (l ++ l'). rewrite C', C, app_assoc. reflexivity.
  - intros c b H. auto.
Qed.

Lemma mem_find_more st st' x : (exists l, s_objs st' = s_objs st ++ l) -> forall l,
  (forall did r, In (did, r) l -> nth_error (s_objs st) r <> None) ->
  exists out, mem_find x l st = (st, out) /\ mem_find x l st' = (st', out) /\ forall r, out = Ok (Some r) -> exists did, In (did, r) l.
Proof.
  intros (ex & EX). induction l as [|[did r] l IH]; intros V; cbn [mem_find].
  - exists (Ok None). splits; auto. discriminate.
  - destruct (nth_error (s_objs st) r) as [o|] eqn:E; [|exfalso; apply (V did r); [left|]; auto].
    assert (E' : nth_error (s_objs st') r = Some o). { rewrite EX. rewrite nth_error_app1; auto. apply nth_error_Some. congruence. }
    rewrite (bindM_ok _ _ _ _ _ (obj_some _ _ _ E)), (bindM_ok _ _ _ _ _ (obj_some _ _ _ E')).
    destruct (repo_did o) as [d|e] eqn:D.
    + unfold lift. rewrite (bindM_ok (fun st0 => (st0, Ok d)) _ st st d), (bindM_ok (fun st0 => (st0, Ok d)) _ st' st' d) by reflexivity.
      destruct (opt_str_eqb x d || opt_str_eqb x (r_handle o)).
      * exists (Ok (Some r)). splits; auto. intros r' [= <-]. exists did. left. auto.
      * destruct IH as (out & A & B & C); [intros; eapply V; right; eauto|]. exists out. splits; auto. intros r' H. destruct (C _ H) as (d' & HI). exists d'. right. auto.
    + exists (Err e). splits; auto. discriminate.
Qed.

Lemma seen_more st st' x : named be st -> more st st' -> seen be st' x = seen be st x.
Proof.
  intros (ND & SS & NM) (MM & E & O & X). unfold seen, load_repo. destruct (nonempty x); [|reflexivity]. unfold assert.
  rewrite !(bindM_ok (ret tt) _ _ _ tt) by reflexivity.
  assert (U : forall A B (f : state -> A) (g : A -> M B) st, bindM (reads f) g st = g (f st) st) by reflexivity.
  unfold registered, stored_repo in NM. destruct be.
  - rewrite !U, MM. destruct (mem_find_more st st' x O (s_mem st)) as (out & A & B & C).
    { intros did r HI. apply In_dget in HI; auto. destruct (NM did) as (o & h & H & _); [congruence|]. rewrite HI in H. congruence. }
    rewrite A, B. destruct out as [[r|]|]; auto. destruct (C r eq_refl) as (did & HI). apply In_dget in HI; auto.
    destruct (NM did) as (o & h & H & _); [congruence|]. rewrite HI in H. rewrite H. destruct O as (l & ->). rewrite nth_error_app1; auto.
    apply nth_error_Some. congruence.
  - rewrite !U, E. destruct (ent_find x (s_ents st)) as [[did e]|] eqn:F; auto.
    assert (HI : dget did (s_ents st) = Some e).
    { unfold ent_find in F. destruct (dget x (s_ents st)) eqn:G; [injection F as <- <-; auto|]. apply find_some in F as [F _]. apply In_dget; auto. apply ssorted_NoDup; auto. }
    destruct (NM did) as (o & h & H & _); [congruence|]. rewrite HI in H.
    destruct (dget (e_head e) (s_blocks st)) as [b|] eqn:G; [|discriminate]. pose proof (X _ _ G) as G'.
    destruct (item_link (s "data") (b_val b)) as [data|] eqn:D; [|discriminate].
    assert (Y : forall st0, dget (e_head e) (s_blocks st0) = Some b ->
       bindM (repo_load (e_head e) (e_handle e) (e_status e) (e_key e)) (fun r => ret (Some r)) st0
       = (add_obj (Repo (mst_load data) (Some b) (e_handle e) (e_status e) false (e_key e)) st0, Ok (Some (length (s_objs st0))))).
    { intros st0 GG. unfold repo_load. unfold bindM, reads, read. rewrite GG. unfold lift. rewrite D. reflexivity. }
    rewrite (Y _ G), (Y _ G'). unfold add_obj, set_objs; cbn [s_objs]. rewrite !nth_error_app2 by lia. rewrite !PeanoNat.Nat.sub_diag. reflexivity.
Qed.
End More.

(** ** import_repo *)

Section Import.
Variable digest : list N -> list N.
Variable kdigest : str -> list N.
Variable be : backend.
Variable cfg : config.
Variable resolve : str -> res ipld.
Variable signing_key : ipld -> option (list N).
Variable verify : ipld -> list N -> bool.
Variable handle_of : ipld -> option str.
Notation import_blocks := (import_blocks be resolve signing_key verify).
Notation import_repo := (import_repo be cfg resolve signing_key verify handle_of).

(** Programs that only add, in all cases or when they fail. *)
Definition grows {A} (m : M A) : Prop := forall st st' out, m st = (st', out) -> more st st'.
Definition safe {A} (m : M A) : Prop := forall st st' e, m st = (st', Err e) -> more st st'.
Lemma grows_safe {A} (m : M A) : grows m -> safe m.
Proof. intros G st st' e. apply G. Qed.
Lemma grows_same {A} (m : M A) : (forall st, fst (m st) = st) -> grows m.
Proof. intros H st st' out E. specialize (H st). rewrite E in H. cbn in H. subst. apply more_refl. Qed.
Lemma grows_ret {A} (a : A) : grows (ret a).
Proof. apply grows_same. reflexivity. Qed.
Lemma grows_throw {A} e : grows (@throw A e).
Proof. apply grows_same. reflexivity. Qed.
Lemma grows_lift {A} (x : res A) : grows (lift x).
Proof. apply grows_same. reflexivity. Qed.
Lemma grows_reads {A} (f : state -> A) : grows (reads f).
Proof. apply grows_same. reflexivity. Qed.
Lemma grows_obj r : grows (obj r).
Proof. apply grows_same. intros st. unfold obj. destruct (nth_error _ _); reflexivity. Qed.
Lemma grows_assert b : grows (assert b).
Proof. destruct b; [apply grows_ret|apply grows_throw]. Qed.
Lemma grows_new_obj o : grows (new_obj o).
Proof. intros st st' out [= <- _]. unfold more. cbn. splits; auto; [eexists; reflexivity|]. intros c b H. exact H. Qed.
Lemma grows_write bs : grows (write_blocks bs).
Proof.
  intros st st' out [= <- _]. unfold more. cbn. splits; auto; [exists []; rewrite app_nil_r; auto|].
  apply extends_setdefault.
Qed.
Lemma grows_bind {A B} (m : M A) (f : A -> M B) : grows m -> (forall a, grows (f a)) -> grows (bindM m f).
Proof.
  intros G H st st' out E. unfold bindM in E. destruct (m st) as [st1 [a|e]] eqn:E1.
  - eapply more_trans; [eapply G; eauto|eapply H; eauto].
  - injection E as <- _. eapply G; eauto.
Qed.
Lemma safe_bind {A B} (m : M A) (f : A -> M B) : grows m -> (forall a, safe (f a)) -> safe (bindM m f).
Proof.
  intros G H st st' e E. unfold bindM in E. destruct (m st) as [st1 [a|e1]] eqn:E1.
  - eapply more_trans; [eapply G; eauto|eapply H; eauto].
  - injection E as <- _. eapply G; eauto.
Qed.

Lemma load_repo_more x : grows (load_repo be x).
Proof.
  unfold load_repo. apply grows_bind; [apply grows_assert|]. intros _. destruct be.
  - apply grows_bind; [apply grows_reads|]. intros l. induction l as [|[d r] l IH]; cbn [mem_find]; [apply grows_ret|].
    apply grows_bind; [apply grows_obj|]. intros o. apply grows_bind; [apply grows_lift|]. intros d'.
    destruct (_ || _); [apply grows_ret|exact IH].
  - apply grows_bind; [apply grows_reads|]. intros [[d e]|]; [|apply grows_ret].
    apply grows_bind; [|intros; apply grows_ret]. apply grows_bind; [apply grows_reads|]. intros [b|]; [|apply grows_throw].
    apply grows_bind; [apply grows_lift|]. intros. apply grows_new_obj.
Qed.

Lemma import_blocks_more hc : forall bl acc, grows (import_blocks hc bl acc).
Proof.
  induction bl as [|[c data] bl IH]; intros acc; cbn [ServerModel.import_blocks]; [apply grows_ret|].
  apply grows_bind; [apply grows_assert|]. intros _. destruct (decode data) as [v|]; [|apply grows_throw].
  destruct (str_eqb c hc); [|apply IH].
  apply grows_bind; [apply grows_lift|]. intros did. apply grows_bind; [apply load_repo_more|]. intros ex.
  apply grows_bind; [destruct (is_some ex); [apply grows_throw|apply grows_ret]|]. intros _.
  apply grows_bind; [apply grows_lift|]. intros doc. destruct (signing_key doc) as [k|]; [|apply grows_throw].
  destruct (verify v k); [apply IH|apply grows_throw].
Qed.

Lemma import_fails header car key : safe (import_repo header car key).
Proof.
  apply safe_bind; [apply grows_lift|]. intros _.
  destruct (read_car car) as [[[|hc rest] bl]|]; [apply grows_safe, grows_throw| |apply grows_safe, grows_throw].
  apply safe_bind; [apply import_blocks_more|]. intros [bs [[[h did] doc]|]]; cbn [fst snd]; [|apply grows_safe, grows_throw].
  apply safe_bind; [destruct (nonempty did); [apply grows_ret|apply grows_throw]|]. intros _.
  apply safe_bind; [apply grows_write|]. intros _. apply safe_bind; [apply grows_lift|]. intros data.
  apply safe_bind; [apply grows_new_obj|]. intros r.
  apply safe_bind; [apply grows_obj|]. intros o. apply safe_bind.
  - apply grows_bind; [apply grows_lift|]. intros [d|]; [apply grows_ret|apply grows_throw].
  - intros d. destruct be; [intros ? ? ? H; discriminate H|]. destruct (r_head o); [intros ? ? ? H; discriminate H|apply grows_safe, grows_throw].
Qed.
End Import.

(** ** Success *)

Section Success.
Variable digest : list N -> list N.
Variable kdigest : str -> list N.
Variable validate : ipld -> res unit.
Variable ecdsa : N -> Z -> list N -> list N.
Variable now : Z -> str.
Variable cb : nat -> option exn.
Variable be : backend.
Variable cfg : config.
Variable resolve : str -> res ipld.
Variable signing_key : ipld -> option (list N).
Variable verify : ipld -> list N -> bool.
Variable handle_of : ipld -> option str.
Notation import_blocks := (import_blocks be resolve signing_key verify).
Notation import_repo := (import_repo be cfg resolve signing_key verify handle_of).
Hypothesis SET : setting digest kdigest validate cb.

Lemma encode_nonempty v : nonempty (encode v) = true.
Proof. pose proof (decode_encode_lemma v) as H. destruct (encode v); [discriminate H|reflexivity]. Qed.

Definition taken (x : cid * list N) : block := Block (fst x) (match decode (snd x) with Some v => v | None => IMap [] end) 0 None None.

Lemma import_blocks_ok st hc hv did doc k : item_text (s "did") hv = Ok did -> load_repo be did st = (st, Ok None) ->
  resolve did = Ok doc -> signing_key doc = Some k -> verify hv k = true ->
  forall bl acc, (forall c data, In (c, data) bl -> exists v, data = encode v /\ (c = hc -> v = hv)) ->
  import_blocks hc bl acc st = (st, Ok (fst acc ++ map taken bl,
    if existsb (fun x => str_eqb (fst x) hc) bl then Some (Block hc hv 0 None None, did, doc) else snd acc)).
Proof.
  clear. intros DI LR RS SK VF. induction bl as [|[c data] bl IH]; intros acc H; cbn [ServerModel.import_blocks map existsb fst snd].
  - rewrite app_nil_r. destruct acc; reflexivity.
  - destruct (H c data (or_introl eq_refl)) as (v & -> & HV). rewrite encode_nonempty.
    rewrite (bindM_ok (assert true) _ st st tt) by reflexivity. unfold taken at 1. cbn [fst snd]. rewrite decode_encode_lemma.
    assert (IH' := fun acc => IH acc (fun c' d' HI => H c' d' (or_intror HI))).
    destruct (str_eqb_spec c hc) as [->|NE]; cbn [orb].
    + rewrite (HV eq_refl). unfold lift. rewrite DI, (bindM_ok (fun st0 => (st0, Ok did)) _ st st did) by reflexivity.
      rewrite (bindM_ok _ _ _ _ _ LR). cbn [is_some]. rewrite (bindM_ok (ret tt) _ st st tt) by reflexivity.
      rewrite RS, (bindM_ok (fun st0 => (st0, Ok doc)) _ st st doc) by reflexivity. rewrite SK, VF, IH'. cbn [fst snd].
      rewrite <- app_assoc. cbn [app]. destruct (existsb (fun x => str_eqb (fst x) hc) bl); reflexivity.
    + rewrite IH'. cbn [fst snd]. rewrite <- app_assoc. reflexivity.
Qed.

Lemma stored_subtrees rd t : (forall x, subtree x t -> rd (tcid digest x) = Some (tnode digest x)) -> stored digest rd t.
Proof.
  clear. induction t as [es IH] using tree_ind'. intros H. constructor; [apply H; constructor|].
  intros t HI. apply IH; auto. intros x HX. apply H. econstructor; eauto.
Qed.

Lemma dget_map_own did bl c : dget c (map (fun b => (b_cid b, b)) (map (fun b => Block (b_cid b) (b_val b) (b_seq b) (b_ops b) (Some did)) (map taken bl)))
  = option_map (fun data => Block c (match decode data with Some v => v | None => IMap [] end) 0 None (Some did)) (dget c bl).
Proof. clear. induction bl as [|[c' data] bl IH]; cbn; auto. destruct (str_eqb_spec c c') as [->|]; auto. Qed.

Lemma import_ok st refs bk stA bl h did root recs n t header car key doc k :
  inv digest kdigest validate ecdsa be st refs bk -> dget did bk = None -> is_did did ->
  genuine digest stA bl -> tree_at digest kdigest stA n t root recs -> read stA (b_cid h) = Some h ->
  (forall p, dget p recs <> None -> repo_key p) -> NoDup (keys recs) ->
  (forall c, block_of digest stA h root recs c -> In c (keys bl)) ->
  item_text (s "did") (b_val h) = Ok did -> item_link (s "data") (b_val h) = Ok root ->
  auth cfg header = Ok tt -> read_car car = Some ([b_cid h], bl) ->
  resolve did = Ok doc -> signing_key doc = Some k -> verify (b_val h) k = true -> handle_ok (handle_of doc) ->
  exists st' o' h', import_repo header car key st = (st', Ok tt) /\
    seen be st' did = Some o' /\ r_head o' = Some h' /\ b_cid h' = b_cid h /\ b_val h' = b_val h /\
    shows kdigest st' o' recs /\ r_status o' = Some (s "deactivated") /\ r_handle o' = handle_of doc /\ r_key o' = key /\
    forall did' key' recs', dget did' bk = Some (key', recs') ->
      exists o, seen be st did' = Some o /\ seen be st' did' = Some o /\ shows kdigest st' o recs'.
Proof.
  intros I BN ID G T RH RK NDR ALL DI DA AU RC RS SK VF HO.
  pose proof (s_inj _ _ _ _ SET) as INJ.
  pose proof (seen_none digest kdigest validate ecdsa cb be SET _ _ _ _ I BN ID) as LR.
  assert (GV : forall c data, In (c, data) bl -> exists v, data = encode v /\ (c = b_cid h -> v = b_val h)).
  { intros c data HI. destruct (G _ _ HI) as (b & RB & -> & _). exists (b_val b). split; auto. intros ->. congruence. }
  set (st2 := set_blocks (fold_left dsetdefault (map (fun b => (b_cid b, b))
     (map (fun b => Block (b_cid b) (b_val b) (b_seq b) (b_ops b) (Some did)) (map taken bl))) (s_blocks st)) st).
  set (hb := Block (b_cid h) (b_val h) 0 None (Some did)).
  set (o := Repo (mst_load root) (Some hb) (handle_of doc) (Some (s "deactivated")) false key).
  set (st3 := add_obj o st2). set (r := length (s_objs st)).
  set (st' := match be with
              | Memory => set_mem (dset did r (s_mem st3)) st3
              | Datastore => set_ents (ent_put did (Entity (handle_of doc) (b_cid h) (Some (s "deactivated")) key) (s_ents st3)) st3
              end).
  assert (OB : nth_error (s_objs st3) r = Some o).
  { unfold st3, add_obj, st2, r. cbn. rewrite nth_error_app2 by lia. rewrite PeanoNat.Nat.sub_diag. reflexivity. }
  assert (E : import_repo header car key st = (st', Ok tt)).
  { unfold ServerModel.import_repo. rewrite AU. rewrite (bindM_ok (lift (Ok tt)) _ st st tt) by reflexivity. rewrite RC.
    rewrite (bindM_ok _ _ _ _ _ (import_blocks_ok st (b_cid h) (b_val h) did doc k DI LR RS SK VF bl ([], None) GV)). cbn [fst snd app].
    assert (EX : existsb (fun x => str_eqb (fst x) (b_cid h)) bl = true).
    { apply existsb_exists. assert (HI : In (b_cid h) (keys bl)) by (apply ALL; left; auto). apply in_map_iff in HI as (x & X & HI).
      exists x. split; auto. rewrite X. apply str_eqb_refl. }
    rewrite EX. destruct did as [|d0 did']; [discriminate ID|]. cbn [nonempty]. set (did := d0 :: did') in *.
    rewrite (bindM_ok (ret tt) _ st st tt) by reflexivity.
    rewrite (bindM_ok (write_blocks _) _ st st2 tt) by reflexivity. cbn [b_cid b_val b_seq b_ops].
    rewrite DA. rewrite (bindM_ok (lift (Ok root)) _ st2 st2 root) by reflexivity. fold hb. fold o.
    rewrite (bindM_ok (new_obj o) _ st2 st3 r) by reflexivity. unfold create_repo.
    rewrite (bindM_ok _ _ _ _ _ (obj_some _ _ _ OB)).
    rewrite (bindM_ok (need_did o) _ st3 st3 did).
    2:{ unfold need_did, repo_did, o. cbn [r_head b_val hb]. unfold hb; cbn [b_val]. rewrite DI. reflexivity. }
    unfold st'. destruct be; reflexivity. }
  assert (BL : s_blocks st' = s_blocks st2) by (unfold st'; destruct be; reflexivity).
  assert (EXT : extends (s_blocks st) (s_blocks st')) by (rewrite BL; unfold st2; cbn; apply extends_setdefault).
  assert (VAL : forall c b, read stA c = Some b -> In c (keys bl) -> exists b', dget c (s_blocks st') = Some b' /\ b_val b' = b_val b /\ b_cid b' = c).
  { intros c b RB HI. rewrite BL. unfold st2. cbn. rewrite fold_setdefault_get.
    destruct (dget c (s_blocks st)) as [b'|] eqn:DB.
    - exists b'. destruct (so_block _ _ _ _ (i_store _ _ _ _ _ _ _ _ I) _ _ DB) as (A & B & _). splits; auto.
      apply in_map_iff in HI as ([c0 data] & <- & HI). cbn [fst] in *. destruct (G _ _ HI) as (b2 & RB2 & _ & CC). rewrite RB in RB2. injection RB2 as <-.
      apply (cid_of_inj digest); auto. congruence.
    - rewrite dget_map_own. destruct (dget c bl) as [data|] eqn:DD; [|apply dget_None in DD; contradiction].
      apply dget_In in DD. destruct (G _ _ DD) as (b2 & RB2 & -> & _). rewrite RB in RB2. injection RB2 as <-.
      cbn [option_map]. eexists. splits; [reflexivity| |reflexivity]. cbn [b_val]. rewrite decode_encode_lemma. reflexivity. }
  assert (MEM : be = Memory -> s_mem st' = dset did r (s_mem st)) by (intros ->; reflexivity).
  assert (ENT : be = Datastore -> s_ents st' = ent_put did (Entity (handle_of doc) (b_cid h) (Some (s "deactivated")) key) (s_ents st)) by (intros ->; reflexivity).
  assert (OBJ : s_objs st' = s_objs st ++ [o]) by (unfold st'; destruct be; reflexivity).
  pose proof (inv_named _ _ _ _ _ _ _ _ I) as (N1 & N2 & N3).
  assert (NR : ~ registered be st did) by exact (i_none _ _ _ _ _ _ _ _ I _ BN).
  destruct (VAL (b_cid h) h RH) as (h' & DH & VH & CH); [apply ALL; left; auto|].
  assert (SR : exists o' h', stored_repo be st' did = Some o' /\ r_head o' = Some h' /\ b_cid h' = b_cid h /\ b_val h' = b_val h /\
     r_mst o' = mst_load root /\ r_status o' = Some (s "deactivated") /\ r_handle o' = handle_of doc /\ r_key o' = key).
  { unfold stored_repo. clear E. destruct be eqn:BE.
    - rewrite MEM, dget_dset, str_eqb_refl, OBJ by auto. exists o, hb. splits; auto.
    - rewrite ENT, ent_put_get, str_eqb_refl by auto. cbn [e_head]. rewrite DH, VH, DA. exists (Repo (mst_load root) (Some h') (handle_of doc) (Some (s "deactivated")) false key), h'.
      splits; auto. }
  destruct SR as (o' & h'' & SR & SH & SC & SV & SM & SS & SHA & SK').
  assert (OLD : forall did' o2, did' <> did -> stored_repo be st did' = Some o2 -> stored_repo be st' did' = Some o2).
  { intros did' o2 NE H2. eapply stored_same; eauto.
    - intros BE r' DR. rewrite MEM by auto. rewrite dget_dset. rewrite (proj2 (str_eqb_neq _ _) NE). split; auto.
      rewrite OBJ. apply nth_error_app1. apply nth_error_Some. unfold stored_repo in H2. rewrite BE, DR in H2. congruence.
    - intros BE. rewrite ENT by auto. rewrite ent_put_get by auto. rewrite (proj2 (str_eqb_neq _ _) NE). reflexivity. }
  assert (REG : forall did', registered be st' did' -> did' = did \/ (did' <> did /\ registered be st did')).
  { intros did' RG. destruct (str_eqb_spec did' did) as [->|NE]; [left; auto|]. right. split; auto. unfold registered in *. destruct be.
    - rewrite MEM in RG by auto. rewrite dget_dset in RG. rewrite (proj2 (str_eqb_neq _ _) NE) in RG. auto.
    - rewrite ENT in RG by auto. rewrite ent_put_get in RG by auto. rewrite (proj2 (str_eqb_neq _ _) NE) in RG. auto. }
  assert (NM : named be st').
  { unfold named. splits.
    - destruct be eqn:BE; [rewrite MEM by auto; apply dset_NoDup; auto|exact N1].
    - destruct be eqn:BE; [exact N2|rewrite ENT by auto; apply ent_put_sorted; auto].
    - intros did' RG. destruct (REG _ RG) as [->|[NE RG']].
      + exists o', h''. splits; auto; [rewrite SV; auto|]. rewrite SHA. exact HO.
      + destruct (N3 _ RG') as (o2 & h2 & A & B & C & D). exists o2, h2. splits; auto. }
  assert (SEEN : forall did' o2, is_did did' -> stored_repo be st' did' = Some o2 -> seen be st' did' = Some o2).
  { intros did' o2 ID' S2. unfold seen. destruct (load_did digest be INJ st' did' NM ID') as [(_ & NR2)|(o3 & st4 & r4 & S3 & _ & L & LD)].
    - exfalso. apply NR2. unfold registered, stored_repo in *. destruct be; [destruct (dget did' (s_mem st'))|destruct (dget did' (s_ents st'))]; congruence.
    - rewrite LD. destruct (loaded_facts be _ _ _ _ _ S3 L) as (_ & _ & _ & _ & _ & F6 & _). congruence. }
  exists st', o', h''. splits; auto.
  - pose proof T as (_ & W & Srt & LE & ST & RT & LV & RSt).
    assert (ST' : stored digest (fun k => dget k (vals (s_blocks st'))) t).
    { apply stored_subtrees. intros x HX. destruct (ExportProofs.stored_read digest stA x (stored_subtree _ _ _ _ HX ST)) as (b & RB & VB).
      assert (HI : In (tcid digest x) (keys bl)).
      { apply ALL. right. left. apply (tree_node_of _ _ _ _ _ _ _ _ T). eauto. }
      destruct (VAL _ _ RB HI) as (b' & D' & V' & _). rewrite dget_vals, D'. cbn. congruence. }
    destruct (load_any digest kdigest (fun k => dget k (vals (s_blocks st'))) n t W ST') as (n' & LN & W' & R' & _).
    eapply (snapshot_shows digest kdigest st' recs o' root); auto.
    + exists n', t. rewrite SM. splits; auto; [rewrite <- RT; exact R'|lia| |].
      * intros p. rewrite dget_cids_of. apply LV.
      * unfold cids_of, keys. rewrite map_map. exact NDR.
    + intros p v D. pose proof (tree_record _ _ _ _ _ _ _ _ _ T D) as HL. destruct (tree_leaf _ _ _ _ _ _ _ _ _ T HL) as (v' & b & D2 & _ & RB & VB).
      rewrite D in D2. injection D2 as <-. destruct (VAL _ _ RB) as (b' & D' & V' & _); [apply ALL; right; right; eauto|]. rewrite dget_vals, D'. cbn. congruence.
  - intros did' key' recs' D. destruct (seen_stored digest kdigest validate ecdsa cb be SET _ _ _ _ _ _ I D) as (o2 & S2 & ST2 & G2 & _).
    exists o2. assert (NE : did' <> did) by (intros ->; congruence). splits; auto.
    + apply SEEN; auto. apply (i_book _ _ _ _ _ _ _ _ I _ _ _ D).
    + eapply good_shows. eapply good_mono; eauto.
Qed.
End Success.
