(** The status of a repo only changes by the calls that are for it. *)
From Coq Require Import String List NArith ZArith Bool Lia.
From Verif Require Import Base Lists Ipld IpldProofs MstModel MstRep CarModel StorageModel StorageSpec RepoSpec UriModel ServerModel ServerSpec
  IsolateSpec IsolateProofs ChainProofs RequestSpec RequestProofs AnySpec AnyProofs ClosedProofs OnwardSpec OnwardProofs StatusSpec.
Import ListNotations.
Local Open Scope m_scope.

Section S.
Variable digest : list N -> list N.
Variable kdigest : str -> list N.
Variable validate : ipld -> res unit.
Variable ecdsa : N -> Z -> list N -> list N.
Variable now : Z -> str.
Variable cb : nat -> option exn.
Variable be : backend.
Hypothesis inj : forall a b, digest a = digest b -> a = b.
Variable did : str.
Hypothesis isdid : is_did did.
Notation J := (IsolateProofs.J digest).

(** The status that is stored for [did]. *)
Definition mark (st : state) : option (option str) :=
  match be with
  | Memory => match dget did (s_mem st) with
              | Some r => option_map r_status (nth_error (s_objs st) r)
              | None => None
              end
  | Datastore => option_map e_status (dget did (s_ents st))
  end.
Definition keeps (a b : state) : Prop := forall x, mark a = Some x -> mark b = Some x.
Lemma keeps_refl a : keeps a a.
Proof. intros x H. exact H. Qed.
Lemma keeps_trans a b c : keeps a b -> keeps b c -> keeps a c.
Proof. intros H1 H2 x H. auto. Qed.
Lemma keeps_bind {A B} (m : M A) (f : A -> M B) st : keeps st (fst (m st)) -> (forall a st1, m st = (st1, Ok a) -> keeps st1 (fst (f a st1))) -> keeps st (fst (bindM m f st)).
Proof.
  intros H1 H2. unfold bindM. destruct (m st) as [st1 [a|e]]; [|exact H1]. cbn [fst] in H1. eapply keeps_trans; [exact H1|]. apply H2. reflexivity.
Qed.
Lemma keeps_pure {A B} (m : M A) (f : A -> M B) st : pure m -> (forall a, m st = (st, Ok a) -> keeps st (fst (f a st))) -> keeps st (fst (bindM m f st)).
Proof.
  intros P H. unfold bindM. pose proof (P st) as X. destruct (m st) as [st1 [a|e]]; cbn [fst] in *; subst st1; [apply H; reflexivity|apply keeps_refl].
Qed.
Lemma keeps_exception {A} (m : M A) h st : keeps st (fst (m st)) -> (forall s, keeps s (fst (h s))) -> keeps st (fst (on_exception m h st)).
Proof.
  intros H1 H2. unfold on_exception. destruct (m st) as [st1 [a|e]]; [exact H1|]. cbn [fst] in H1. specialize (H2 st1). destruct (h st1) as [st2 [u|e2]];
    cbn [fst] in *; eapply keeps_trans; eauto.
Qed.

(** No status differs. *)
Definition quiet (a b : state) : Prop := s_mem b = s_mem a /\ s_ents b = s_ents a /\
  forall r o, nth_error (s_objs a) r = Some o -> exists o', nth_error (s_objs b) r = Some o' /\ r_status o' = r_status o.
Lemma quiet_refl a : quiet a a.
Proof. unfold quiet. splits; eauto. Qed.
Lemma quiet_trans a b c : quiet a b -> quiet b c -> quiet a c.
Proof.
  intros (A2 & A3 & A4) (B2 & B3 & B4). unfold quiet. splits; try congruence. intros r o H. destruct (A4 r o H) as (o1 & H1 & E1).
  destruct (B4 r o1 H1) as (o2 & H2 & E2). exists o2. split; congruence.
Qed.
Lemma quiet_keeps a b : quiet a b -> keeps a b.
Proof.
  intros (A2 & A3 & A4) x. unfold mark. destruct be.
  - rewrite A2. destruct (dget did (s_mem a)) as [r|]; [|discriminate]. destruct (nth_error (s_objs a) r) as [o|] eqn:E; [|discriminate].
    destruct (A4 r o E) as (o' & E' & H). rewrite E'. cbn [option_map]. rewrite H. auto.
  - rewrite A3. auto.
Qed.
Definition quiets {A} (m : M A) : Prop := forall st, quiet st (fst (m st)).
Lemma quiets_pure {A} (m : M A) : pure m -> quiets m.
Proof. intros P st. rewrite P. apply quiet_refl. Qed.
Lemma quiets_bind {A B} (m : M A) (f : A -> M B) : quiets m -> (forall a, quiets (f a)) -> quiets (bindM m f).
Proof. intros H1 H2 st. unfold bindM. specialize (H1 st). destruct (m st) as [st1 [a|e]]; [|exact H1]. eapply quiet_trans; [exact H1|apply H2]. Qed.
Lemma quiets_attr r f : (forall o, r_status (f o) = r_status o) -> quiets (set_attr r f).
Proof.
  intros F st. unfold set_attr, bindM, obj, put_obj, modify. destruct (nth_error (s_objs st) r) as [o|] eqn:E; [|apply quiet_refl]. cbn [fst].
  unfold quiet. cbn [set_objs s_mem s_ents s_objs]. splits; auto. intros k x H. rewrite nth_put by congruence.
  destruct (PeanoNat.Nat.eqb_spec r k) as [<-|]; [|eauto]. rewrite E in H. injection H as <-. eauto.
Qed.
Lemma same_quiet a b : same_storage a b -> quiet a b.
Proof. intros (_ & B & M & E & _ & O). unfold quiet. splits; auto. eauto. Qed.
Lemma quiets_load x : quiets (load_repo be x).
Proof. intros st. apply same_quiet, load_storage. Qed.
Lemma quiets_seq : quiets allocate_seq.
Proof. intros st. unfold quiet. cbn. splits; eauto. Qed.
Lemma quiets_callback r c : quiets (callback cb r c).
Proof.
  intros st. unfold callback, bindM, obj. destruct (nth_error (s_objs st) r) as [o|]; [|apply quiet_refl]. destruct (r_callback o); [|apply quiet_refl].
  cbn [fst]. unfold quiet, add_call. cbn. splits; eauto.
Qed.
Lemma quiets_blocks bs : quiets (write_blocks bs).
Proof. intros st. unfold quiet, write_blocks, modify. cbn. splits; eauto. Qed.

Ltac quiets := repeat
  match goal with
  | |- quiets (ret _) => apply quiets_pure, pure_ret
  | |- quiets (throw _) => apply quiets_pure, pure_throw
  | |- quiets (lift _) => apply quiets_pure, pure_lift
  | |- quiets (assert _) => apply quiets_pure, pure_assert
  | |- quiets (obj _) => apply quiets_pure, pure_obj
  | |- quiets (reads _) => apply quiets_pure, pure_reads
  | |- quiets (need_did _) => apply quiets_pure, pure_need_did
  | |- quiets (set_attr _ (with_mst _)) => apply quiets_attr; reflexivity
  | |- quiets (set_attr _ (with_head _)) => apply quiets_attr; reflexivity
  | |- quiets (load_repo _ _) => apply quiets_load
  | |- quiets allocate_seq => apply quiets_seq
  | |- quiets (callback _ _ _) => apply quiets_callback
  | |- quiets (write_blocks _) => apply quiets_blocks
  | |- quiets (bindM _ _) => apply quiets_bind; [|intros ?]
  | |- quiets (fun st => (st, _)) => apply quiets_pure; intros ?; reflexivity
  | |- quiets (match ?x with _ => _ end) => destruct x
  | |- quiets (let '_ := ?x in _) => destruct x
  end.

Lemma quiets_fold r d seq ws : forall acc, quiets (foldM (commit_write digest kdigest validate r d seq) acc ws).
Proof.
  induction ws as [|w ws IH]; intros acc; cbn [foldM]; [quiets|]. apply quiets_bind; [|intros; apply IH]. unfold commit_write. quiets.
Qed.
Lemma quiets_target r : quiets (commit_target be r None).
Proof. unfold commit_target. quiets. Qed.
Lemma quiet_of {A} (m : M A) st st1 out : quiets m -> m st = (st1, out) -> quiet st st1.
Proof. intros C E. specialize (C st). rewrite E in C. exact C. Qed.

(** The object with the position [r] has the stored status, and is stored itself with MemoryStorage. *)
Definition fits (r : nat) (st : state) : Prop := exists o, nth_error (s_objs st) r = Some o /\ mark st = Some (r_status o) /\
  (be = Memory -> dget did (s_mem st) = Some r).
Lemma fits_quiet r a b : quiet a b -> fits r a -> fits r b.
Proof.
  intros Q (o & O & M & D). pose proof (quiet_keeps _ _ Q _ M) as M'. destruct Q as (Q1 & _ & Q3). destruct (Q3 r o O) as (o' & O' & S). exists o'. rewrite S, Q1. auto.
Qed.
Lemma store_keeps r st : fits r st -> (forall o h, nth_error (s_objs st) r = Some o -> r_head o = Some h -> item_text (s "did") (b_val h) = Ok did) ->
  keeps st (fst (store_repo be r st)).
Proof.
  intros (o & O & MK & D) HD. unfold store_repo. unfold bindM at 1, obj. rewrite O. apply keeps_pure; [apply pure_need_did|]. intros d ND.
  assert (d = did).
  { unfold need_did, bindM, lift, repo_did in ND. destruct (r_head o) as [h|] eqn:EH.
    - rewrite (HD o h O EH) in ND. cbn [bind] in ND. unfold ret in ND. congruence.
    - unfold throw in ND. discriminate ND. }
  subst d. destruct be eqn:BE.
  - intros x M. unfold mark in *. rewrite BE in *. unfold modify. cbn [fst set_mem s_mem s_objs]. rewrite dget_dset, str_eqb_refl. rewrite (D eq_refl) in M. exact M.
  - unfold bindM, reads. destruct (dget did (s_ents st)) as [e|] eqn:DE; [|apply keeps_refl]. destruct (r_head o); [|apply keeps_refl].
    intros x M. assert (x = r_status o) as -> by congruence. unfold mark. rewrite BE. unfold modify. cbn [fst set_ents s_ents].
    rewrite ent_dget_put, str_eqb_refl. reflexivity.
Qed.

Lemma finish_keeps r0 r prev seq bo st : fits r st -> keeps st (fst (commit_finish digest kdigest ecdsa be r0 r did prev seq bo st)).
Proof.
  intros FT. unfold commit_finish. apply keeps_pure; [apply pure_obj|]. intros o EO.
  apply keeps_pure; [exact (pure_rd (fun rd => get_unstored_blocks digest kdigest rd max_depth (r_mst o)))|].
  intros ru _. apply keeps_pure; [apply pure_lift|]. intros rev _. cbv zeta.
  match goal with |- context [mk_block digest ?v ?a ?b ?c] => set (cblock := mk_block digest v a b c) end. set (blocks := dset (b_cid cblock) cblock _).
  assert (CI : item_text (s "did") (b_val cblock) = Ok did) by apply commit_did_val. clearbody cblock.
  apply keeps_bind; [apply quiet_keeps, quiets_blocks|]. intros u st1 E1. apply (fits_quiet r st st1 (quiet_of _ _ _ _ (quiets_blocks _) E1)) in FT.
  apply keeps_bind; [|intros; apply quiet_keeps; match goal with |- quiet ?a (fst (?m ?a)) => assert (Q : quiets m) by quiets; apply Q end].
  destruct (is_some (r_head o)); [|apply keeps_refl].
  apply keeps_bind; [apply quiet_keeps, quiets_attr; reflexivity|]. intros u2 st2 E2.
  apply store_keeps; [eapply fits_quiet; [|exact FT]; eapply quiet_of; [|exact E2]; apply quiets_attr; reflexivity|].
  intros o2 h O2 H2. destruct FT as (o1 & O1 & _). destruct (set_head r (Some cblock) st1 o1 O1) as [SH _]. rewrite E2 in SH. cbn [fst] in SH. subst st2.
  cbn [set_objs s_objs] in O2. rewrite nth_put in O2 by congruence. rewrite PeanoNat.Nat.eqb_refl in O2. injection O2 as <-. cbn [with_head r_head] in H2. injection H2 as <-. exact CI.
Qed.

Lemma target_fits st r0 o0 st1 d r prev : J st -> nth_error (s_objs st) r0 = Some o0 -> repo_did o0 = Ok (Some did) ->
  commit_target be r0 None st = (st1, Ok (d, r, prev)) -> d = did /\ fits r st1.
Proof.
  intros HJ EO RD. unfold commit_target. unfold bindM at 1, obj at 1. rewrite EO. destruct (is_some (r_status o0)); [discriminate|].
  unfold bindM at 1. cbn [ret]. unfold bindM at 1, need_did, bindM at 1, lift. rewrite RD. cbn [ret].
  unfold bindM. destruct (load_repo be did st) as [st2 [[r2|]|e]] eqn:L; try discriminate. unfold obj.
  destruct (nth_error (s_objs st2) r2) as [o|] eqn:E2; [|discriminate]. destruct (r_head o) as [h|] eqn:EH; [|discriminate].
  unfold ret. intros X. injection X as <- <- <- <-. split; [reflexivity|].
  pose proof (seen_load be _ _ _ _ L) as SE. rewrite (seen_eq digest be did isdid _ HJ), E2 in SE.
  pose proof (quiet_of _ _ _ _ (quiets_load did) L) as (CM & CE & CO).
  exists o. split; [exact E2|]. unfold mark, stored in *. destruct be.
  - unfold load_repo in L. assert (NE : nonempty did = true) by (pose proof (not_nil did isdid); destruct did; [congruence|reflexivity]).
    unfold bindM, assert, reads in L. rewrite NE in L. cbn [ret] in L. rewrite (mem_find_dget digest did isdid st HJ _ (j_mem _ _ HJ)) in L.
    injection L as <- L. rewrite L, E2. auto.
  - split; [|discriminate]. rewrite CE. destruct (dget did (s_ents st)) as [e|]; [|discriminate SE]. destruct (read st (e_head e)) as [b|] eqn:R; [|discriminate SE].
    destruct (item_link (s "data") (b_val b)); [|discriminate SE]. injection SE as <-. reflexivity.
Qed.

Lemma commit_keeps r0 o0 ws st : J st -> nth_error (s_objs st) r0 = Some o0 -> repo_did o0 = Ok (Some did) ->
  keeps st (fst (commit digest kdigest validate ecdsa cb be r0 ws None st)).
Proof.
  intros HJ EO RD. unfold commit. apply keeps_bind; [apply quiet_keeps, quiets_seq|]. intros seq st1 E1.
  assert (J1 : J st1 /\ nth_error (s_objs st1) r0 = Some o0).
  { unfold allocate_seq in E1. apply (f_equal fst) in E1. cbn [fst] in E1. subst st1. split; [|exact EO]. refine (proj1 (J_same digest did st _ _ _ _ _ HJ)); reflexivity. }
  destruct J1 as [J1 EO1]. apply keeps_exception; [|intros; apply quiet_keeps, quiets_callback].
  apply keeps_bind; [|intros cd st2 _; apply quiet_keeps; apply quiets_bind; [apply quiets_callback|]; intros; apply quiets_pure, pure_ret].
  unfold commit_. apply keeps_pure; [apply pure_assert|]. intros _ _.
  apply keeps_bind; [apply quiet_keeps, quiets_target|]. intros [[d r] prev] st2 E2. destruct (target_fits _ _ _ _ _ _ _ J1 EO1 RD E2) as (-> & FT).
  apply keeps_pure; [destruct (_ <? _)%N; [apply pure_throw|apply pure_ret]|]. intros _ _.
  apply keeps_bind; [apply quiet_keeps, quiets_fold|]. intros bo st3 E3. apply finish_keeps.
  eapply fits_quiet; [|exact FT]. eapply quiet_of; [|exact E3]. apply quiets_fold.
Qed.

Lemma frame_keeps a b : J a -> IsolateProofs.frame did a b -> keeps a b.
Proof.
  intros HJ F x. unfold mark. destruct be.
  - rewrite (f_mem _ _ _ F). destruct (dget did (s_mem a)) as [r|] eqn:E; [|discriminate]. pose proof (j_mem _ _ HJ did r (dget_In _ _ _ E)) as (o & O & D).
    rewrite O. destruct (f_objs _ _ _ F r o O D) as (o' & O' & SR). rewrite O'. cbn [option_map]. unfold same_repo in SR. intros X. injection X as <-. f_equal. tauto.
  - rewrite (f_ents _ _ _ F). auto.
Qed.

Lemma step_keeps w op : JW digest w -> op_named op -> (for_status op -> op_did w op <> Some did) ->
  keeps (w_state w) (w_state (fst (sstep digest kdigest validate ecdsa now cb be w op))).
Proof.
  intros HW ON NS. assert (DEC : op_did w op = Some did \/ op_did w op <> Some did)
    by (destruct (op_did w op) as [d|]; [destruct (str_eqb_spec d did); [left|right]; congruence|right; discriminate]).
  destruct DEC as [Y|N].
  2: { apply frame_keeps; [apply HW|]. apply (proj2 (step_others digest kdigest validate ecdsa now cb be inj did isdid w op HW ON N)). }
  destruct op as [d handle status x key|x|h key|h x|h ws|h|h|h]; try (destruct (NS Logic.I Y)); cbn [op_did] in Y; try discriminate Y.
  cbn [sstep]; unfold on_ref; unfold handle_did, handle_obj in Y; destruct (nth_error (w_refs w) h) as [r|]; try discriminate Y.
  destruct (nth_error (s_objs (w_state w)) r) as [o|] eqn:EO; [|discriminate Y].
  assert (RD : repo_did o = Ok (Some did)) by (destruct (repo_did o); congruence).
  pose proof (commit_keeps r o ws (w_state w) (proj1 HW) EO RD) as M. unfold bindM.
  destruct (commit digest kdigest validate ecdsa cb be r ws None (w_state w)) as [st1 [cd|e]]; exact M.
Qed.
Lemma run_keeps ops : forall w w' outs, JW digest w -> Forall request_op ops -> srun digest kdigest validate ecdsa now cb be w ops = (w', outs) ->
  keeps (w_state w) (w_state w').
Proof.
  induction ops as [|op ops IH]; intros w w' outs HW F E; cbn [srun] in E; [injection E as <- <-; apply keeps_refl|].
  inversion F as [|? ? R F']; subst. assert (ON : op_named op) by (destruct op; exact Logic.I || destruct R).
  assert (NS : for_status op -> op_did w op <> Some did) by (destruct op; intros []; destruct R).
  pose proof (step_keeps w op HW ON NS) as M. pose proof (step_JW digest kdigest validate ecdsa now cb be inj w op HW ON) as HW1.
  destruct (sstep digest kdigest validate ecdsa now cb be w op) as [w1 out]. cbn [fst] in *.
  destruct (srun digest kdigest validate ecdsa now cb be w1 ops) as [w2 outs2] eqn:E2. injection E as <- <-. eapply keeps_trans; [exact M|]. eapply IH; eauto.
Qed.

Lemma seen_mark st o : J st -> seen be st did = Some o -> mark st = Some (r_status o).
Proof.
  intros HJ. rewrite (seen_eq digest be did isdid _ HJ). unfold stored, mark. destruct be.
  - destruct (dget did (s_mem st)) as [r|]; [|discriminate]. intros ->. reflexivity.
  - destruct (dget did (s_ents st)) as [e|]; [|discriminate]. destruct (read st (e_head e)) as [b|]; [|discriminate].
    destruct (item_link (s "data") (b_val b)); [|discriminate]. intros X. injection X as <-. reflexivity.
Qed.
Lemma seen_head st o : J st -> seen be st did = Some o -> exists h, r_head o = Some h.
Proof.
  intros HJ. rewrite (seen_eq digest be did isdid _ HJ). unfold stored. destruct be.
  - destruct (dget did (s_mem st)) as [r|] eqn:E; [|discriminate]. pose proof (j_mem _ _ HJ did r (dget_In _ _ _ E)) as (o1 & O & D). rewrite O. intros X. injection X as <-.
    unfold repo_did in D. destruct (r_head o1); [eauto|discriminate D].
  - destruct (dget did (s_ents st)) as [e|]; [|discriminate]. destruct (read st (e_head e)) as [b|]; [|discriminate].
    destruct (item_link (s "data") (b_val b)); [|discriminate]. intros X. injection X as <-. cbn. eauto.
Qed.

Lemma act_keeps w a o : JW digest w -> act_ok digest a -> (forall op, a = AStorage op -> for_status op -> op_did w op <> Some did) ->
  seen be (w_state w) did = Some o -> keeps (w_state w) (w_state (fst (astep digest kdigest validate ecdsa now cb be w a))).
Proof.
  intros HW OK NS SE. destruct a as [op|nk cfg q|cfg res sk ver hof header car key].
  - pose proof (step_keeps w op HW OK (NS op eq_refl)) as M. cbn [AnySpec.astep]. destruct (sstep digest kdigest validate ecdsa now cb be w op) as [w' out]. exact M.
  - cbn [AnySpec.astep]. destruct (request_is digest kdigest validate ecdsa now cb be nk cfg q (w_state w) (w_refs w)) as (ops & outs & ex & R & F & _).
    destruct w as [st refs]. cbn [w_state w_refs] in *. pose proof (run_keeps ops _ _ _ HW F R) as M.
    destruct (serve digest kdigest validate ecdsa cb be nk cfg q st) as [st1 out]. exact M.
  - assert (DEC : car_did car = Some did \/ car_did car <> Some did)
      by (destruct (car_did car) as [d|]; [destruct (str_eqb_spec d did); [left|right]; congruence|right; discriminate]).
    destruct DEC as [Y|N].
    + cbn [AnySpec.astep]. destruct (stuck_import be cfg res sk ver hof did o (w_state w) header car key Y SE) as [S _].
      destruct (import_repo be cfg res sk ver hof header car key (w_state w)) as [st out]. apply quiet_keeps, same_quiet. exact S.
    + apply frame_keeps; [apply HW|]. apply (proj2 (astep_others digest kdigest validate ecdsa now cb be inj did isdid w _ HW OK N)).
Qed.

Lemma all_keeps l : forall w o, JW digest w -> Forall (act_ok digest) l ->
  (forall n op, nth_error l n = Some (AStorage op) -> for_status op -> op_did (arun digest kdigest validate ecdsa now cb be w (firstn n l)) op <> Some did) ->
  seen be (w_state w) did = Some o ->
  exists o', seen be (w_state (arun digest kdigest validate ecdsa now cb be w l)) did = Some o' /\ r_status o' = r_status o.
Proof.
  unfold arun. induction l as [|a l IH]; intros w o HW OK NS SE; cbn [fold_left]; [eauto|]. inversion OK as [|? ? OK1 OK2]; subst.
  assert (NS1 : forall op, a = AStorage op -> for_status op -> op_did w op <> Some did) by (intros op ->; exact (NS 0 op eq_refl)).
  pose proof (act_keeps w a o HW OK1 NS1 SE) as M.
  pose proof (astep_JW digest kdigest validate ecdsa now cb be inj w a HW OK1) as HW1.
  destruct (seen_head _ _ (proj1 HW) SE) as (h & RH). pose proof (seen_topped digest be did isdid _ _ _ (proj1 HW) SE RH) as T.
  assert (NC : forall h st x k, a <> AStorage (SCreate did h st x k)) by (intros hd st x k ->; exact (NS1 _ eq_refl Logic.I eq_refl)).
  destruct (proj2 (act_moves digest kdigest validate ecdsa now cb be inj did isdid w a _ HW OK1 NC T) _ T) as (c' & T' & _).
  destruct (topped_seen digest be did isdid _ _ (proj1 HW1) T') as (o1 & h1 & SE1 & _).
  pose proof (M _ (seen_mark _ _ (proj1 HW) SE)) as M1. rewrite (seen_mark _ _ (proj1 HW1) SE1) in M1. injection M1 as M1.
  destruct (IH _ o1 HW1 OK2) as (o' & SE' & E); [|exact SE1|exists o'; split; [exact SE'|congruence]].
  intros n op E. exact (NS (S n) op E).
Qed.
End S.

Lemma c24_stays digest kdigest validate ecdsa now cb be : (forall a b, digest a = digest b -> a = b) -> forall l1 l2 did o,
  Forall (act_ok digest) (l1 ++ l2) -> is_did did ->
  let w := arun digest kdigest validate ecdsa now cb be init_world l1 in
  seen be (w_state w) did = Some o ->
  (forall n op, nth_error l2 n = Some (AStorage op) -> for_status op -> op_did (arun digest kdigest validate ecdsa now cb be w (firstn n l2)) op <> Some did) ->
  exists o', seen be (w_state (arun digest kdigest validate ecdsa now cb be w l2)) did = Some o' /\ r_status o' = r_status o.
Proof.
  intros inj l1 l2 did o OK ID w SE NS. apply Forall_app in OK as [OK1 OK2].
  pose proof (arun_JW digest kdigest validate ecdsa now cb be inj l1 init_world (JW_init digest) OK1) as HW. fold w in HW.
  exact (all_keeps digest kdigest validate ecdsa now cb be inj did ID l2 w o HW OK2 NS SE).
Qed.
