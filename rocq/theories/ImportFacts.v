(** Facts behind the theorems about imports, and a CAR that is imported though blocks are missing. *)
From Coq Require Import String List NArith ZArith Bool Lia.
From Verif Require Import Base Lists Ipld IpldProofs MstModel MstTree MstRep MstTrav MstClient MstSpec BlockModel CarModel
  StorageModel StorageSpec CommitProofs StoreProofs ExecProofs RepoSpec RepoProofs RepoHist RepoSteps RepoFacts RepoExamples
  MessageSpec MessageExamples UriModel ServerModel ServerSpec ServerProofs ServerFacts ServerSync ServerExamples
  ExportSpec ExportProofs ExportFacts ExportExamples ImportProofs.
Import ListNotations.

Section Facts.
Variable digest : list N -> list N.
Variable kdigest : str -> list N.
Variable validate : ipld -> res unit.
Variable ecdsa : N -> Z -> list N -> list N.
Variable now : Z -> str.
Variable cb : nat -> option exn.
Variable be : backend.
Variable netloc_ok : str -> bool.
Variable cfg : config.
Variable resolve : str -> res ipld.
Variable signing_key : ipld -> option (list N).
Variable verify : ipld -> list N -> bool.
Variable handle_of : ipld -> option str.
Notation import_repo := (import_repo be cfg resolve signing_key verify handle_of).
Notation serves := (serves digest kdigest validate ecdsa now cb be netloc_ok cfg).
Hypothesis SET : setting digest kdigest validate cb.

Lemma c55_import validate1 ecdsa1 now1 cb1 be1 netloc1 cfg1 w1 bk1 x did o1 key1 recs h car w bk header key doc k :
  setting digest kdigest validate1 cb1 -> (forall a, length (digest a) = 32%nat) ->
  ServerSpec.serves digest kdigest validate1 ecdsa1 now1 cb1 be1 netloc1 cfg1 w1 bk1 ->
  names be1 netloc1 (w_state w1) x did o1 -> r_status o1 = None -> dget did bk1 = Some (key1, recs) -> r_head o1 = Some h ->
  snd (get_repo digest be1 netloc1 false x None (w_state w1)) = Ok car ->
  serves w bk -> dget did bk = None -> auth cfg header = Ok tt ->
  resolve did = Ok doc -> signing_key doc = Some k -> verify (b_val h) k = true -> handle_ok (handle_of doc) ->
  exists st' o' h', import_repo header car key (w_state w) = (st', Ok tt) /\
    seen be st' did = Some o' /\ r_head o' = Some h' /\ b_cid h' = b_cid h /\ b_val h' = b_val h /\
    shows kdigest st' o' recs /\ r_status o' = Some (s "deactivated") /\ r_handle o' = handle_of doc /\ r_key o' = key /\
    forall did' key' recs', dget did' bk = Some (key', recs') ->
      exists o, seen be (w_state w) did' = Some o /\ seen be st' did' = Some o /\ shows kdigest st' o recs'.
Proof.
  intros SET1 D32 S1 NM R1 B1 H1 EC S BN AU RS SK VF HO.
  destruct (open_repo digest kdigest validate1 ecdsa1 now1 cb1 be1 netloc1 cfg1 SET1 _ _ _ _ _ _ _ S1 NM R1 B1) as (st1 & r & h0 & root & n & t & OP & refs & I1 & G1).
  destruct (export digest kdigest validate1 ecdsa1 now1 cb1 be1 netloc1 SET1 _ _ _ _ _ _ _ _ _ _ _ false None 0%Z OP) as (bl & E & RC & G & HI & IN & ALL); auto.
  { eapply (serves_ordered digest kdigest validate1 ecdsa1 now1 cb1 be1 netloc1 cfg1 SET1); eauto. }
  pose proof (op_head _ _ _ _ _ _ _ _ _ _ _ _ _ _ _ _ OP) as H2. rewrite H1 in H2. injection H2 as <-.
  apply (f_equal snd) in E. cbn [snd] in E. pose proof (eq_trans (eq_sym E) EC) as EC'. injection EC' as <-.
  destruct (serves_inv digest kdigest validate ecdsa now cb be netloc_ok cfg SET _ _ S) as [I _].
  destruct (serves_inv digest kdigest validate1 ecdsa1 now1 cb1 be1 netloc1 cfg1 SET1 _ _ S1) as [I0 _].
  destruct (good_keys _ _ _ _ _ _ _ _ _ G1) as (ND & RK & _).
  assert (ID : is_did did) by apply (i_book _ _ _ _ _ _ _ _ I0 _ _ _ B1).
  eapply (import_ok digest kdigest validate ecdsa cb be cfg resolve signing_key verify handle_of SET _ _ _ (w_state w1) bl h did root recs n t); eauto.
  - exact (op_tree _ _ _ _ _ _ _ _ _ _ _ _ _ _ _ _ OP).
  - exact (op_read _ _ _ _ _ _ _ _ _ _ _ _ _ _ _ _ OP).
  - intros c BO. destruct (block_of_read _ _ _ _ _ _ _ _ _ _ _ _ _ _ _ _ _ OP BO) as (b & RB). apply (ALL c b); auto.
    pose proof (store_cid _ _ _ _ _ _ (op_store _ _ _ _ _ _ _ _ _ _ _ _ _ _ _ _ OP) RB) as [_ Q]. lia.
  - exact (op_did _ _ _ _ _ _ _ _ _ _ _ _ _ _ _ _ OP).
  - exact (op_data _ _ _ _ _ _ _ _ _ _ _ _ _ _ _ _ OP).
Qed.

Lemma c55_fails w bk header car key st' e : serves w bk -> import_repo header car key (w_state w) = (st', Err e) ->
  forall x, seen be st' x = seen be (w_state w) x.
Proof.
  intros S E x. destruct (serves_inv digest kdigest validate ecdsa now cb be netloc_ok cfg SET _ _ S) as [I _].
  apply seen_more; [exact (inv_named _ _ _ _ _ _ _ _ I)|]. eapply import_fails; eauto.
Qed.

Lemma import_existing st st1 r hc hv did : item_text (s "did") hv = Ok did -> load_repo be did st = (st1, Ok (Some r)) ->
  forall bl acc, (forall c data, In (c, data) bl -> exists v, data = encode v /\ (c = hc -> v = hv)) -> In hc (keys bl) ->
  import_blocks be resolve signing_key verify hc bl acc st = (st1, Err ValueError).
Proof.
  clear. intros DI LR. induction bl as [|[c data] bl IH]; intros acc H HI; [destruct HI|]. cbn [import_blocks].
  destruct (H c data (or_introl eq_refl)) as (v & -> & HV). rewrite encode_nonempty.
  rewrite (bindM_ok (assert true) _ st st tt) by reflexivity. rewrite decode_encode_lemma.
  destruct (str_eqb_spec c hc) as [->|NE].
  - rewrite (HV eq_refl). unfold lift. rewrite DI, (bindM_ok (fun st0 => (st0, Ok did)) _ st st did) by reflexivity.
    rewrite (bindM_ok _ _ _ _ _ LR). reflexivity.
  - apply IH; [intros; apply H; right; auto|]. destruct HI as [HI|HI]; [exfalso; apply NE; exact HI|exact HI].
Qed.

(** A CAR with blocks under their CIDs, whose root is a commit of a repo there is. *)
Lemma c55_exists w bk header car key h bl did rec : serves w bk -> dget did bk = Some rec -> auth cfg header = Ok tt ->
  read_car car = Some ([cid_of digest h], bl) -> In (cid_of digest h) (keys bl) ->
  (forall c data, In (c, data) bl -> exists v, data = encode v /\ c = cid_of digest v) -> item_text (s "did") h = Ok did ->
  snd (import_repo header car key (w_state w)) = Err ValueError.
Proof.
  intros S D AU RC HI G DI. destruct (serves_inv digest kdigest validate ecdsa now cb be netloc_ok cfg SET _ _ S) as [I _]. destruct rec as [k0 recs].
  destruct (i_book _ _ _ _ _ _ _ _ I _ _ _ D) as (ID & RG & _).
  destruct (load_did digest be (s_inj _ _ _ _ SET) (w_state w) did (inv_named _ _ _ _ _ _ _ _ I) ID) as [(_ & NR)|(o & st1 & r & _ & _ & _ & LR)]; [contradiction|].
  unfold ServerModel.import_repo. rewrite AU, (bindM_ok (lift (Ok tt)) _ (w_state w) (w_state w) tt) by reflexivity. rewrite RC.
  unfold bindM. rewrite (import_existing _ _ _ _ h did DI LR); auto.
  intros c data HIn. destruct (G _ _ HIn) as (v & -> & ->). exists v. split; auto. intros C. apply (cid_of_inj digest) in C; auto.
  exact (s_inj _ _ _ _ SET).
Qed.
End Facts.

(** ** A CAR without the older blocks *)

Definition idoc : ipld := IMap [(s "id", IText alice)].
Definition iresolve (x : str) : res ipld := Ok idoc.
Definition ikey (doc : ipld) : option (list N) := Some [1%N].
Definition iverify (v : ipld) (k : list N) : bool := true.
Definition ihandle (doc : ipld) : option str := Some (s "al.ice").
Definition iimport (be : backend) (car : list N) (st : state) := import_repo be vcfg iresolve ikey iverify ihandle vtoken car 7 st.
Definition irev (be : backend) : option str := option_map (fun t => snd (fst t)) (tip be alice (w_state (v_world (vrun be (firstn 4 ystory))))).
Definition ibad (be : backend) : bool :=
  let st := w_state (v_world (vrun be ystory)) in
  match tip be alice st, irev be with
  | Some (o, h, _, _), Some rev =>
      match r_status o, snd (get_repo wdigest be vnetloc false alice (Some rev) st) with
      | None, Ok car =>
          match iimport be car init_state with
          | (st', Ok tt) => match seen be st' alice with
                            | Some o' => match get_record xkdigest st' o' (s "app.post") (s "l0") with Ok _ => false | Err _ => true end
                            | None => false
                            end
          | _ => false
          end
      | _, _ => false
      end
  | _, _ => false
  end.

Lemma c55_since : exists digest kdigest validate ecdsa now cb netloc_ok cfg resolve signing_key verify handle_of header key,
  setting digest kdigest validate cb /\ (forall x, length (digest x) = 32%nat) /\
  forall be, exists w1 bk1 did key1 recs o1 rev car st' o',
  serves digest kdigest validate ecdsa now cb be netloc_ok cfg w1 bk1 /\ seen be (w_state w1) did = Some o1 /\ r_status o1 = None /\
  dget did bk1 = Some (key1, recs) /\ snd (get_repo digest be netloc_ok false did (Some rev) (w_state w1)) = Ok car /\
  import_repo be cfg resolve signing_key verify handle_of header car key init_state = (st', Ok tt) /\ seen be st' did = Some o' /\
  ~ shows kdigest st' o' recs.
Proof.
  exists wdigest, xkdigest, xvalidate, xecdsa, xnow, xcb, vnetloc, vcfg, iresolve, ikey, iverify, ihandle, vtoken, 7%N. split; [exact wsetting|]. split; [exact wdigest_length|]. intros be.
  assert (X : ibad be = true) by (destruct be; vm_compute; reflexivity).
  assert (F : v_fine (vrun be ystory) = true) by (destruct be; vm_compute; reflexivity).
  assert (B : dget alice (v_book (vrun be ystory)) = Some (1%N, yrecs)) by (destruct be; vm_compute; reflexivity).
  apply vrun_serves in F. unfold ibad in X.
  destruct (tip be alice (w_state (v_world (vrun be ystory)))) as [[[[o h] r] root]|] eqn:T; [|discriminate].
  destruct (irev be) as [rev|]; [|discriminate]. destruct (r_status o) eqn:R; [discriminate|].
  destruct (snd (get_repo _ _ _ _ _ _ _)) as [car|] eqn:E; [|discriminate].
  destruct (iimport be car init_state) as [st' [[]|]] eqn:IM; [|discriminate X].
  destruct (seen be st' alice) as [o'|] eqn:SE; [|discriminate]. apply tip_ok in T as (A & _).
  exists (v_world (vrun be ystory)), (v_book (vrun be ystory)), alice, 1%N, yrecs, o, rev, car, st', o'.
  do 7 (split; [assumption|]). intros [SH _]. specialize (SH (s "app.post") (s "l0")). rewrite SH in X. discriminate.
Qed.

(** ** The event log afterwards *)

Definition ilog (st : state) := EventsModel.read_events st (EventsModel.mem_blocks_by_seq st 0 None).
Definition igood (st stb : state) : bool :=
  match snd (get_repo wdigest Memory vnetloc false alice None st) with
  | Ok car =>
      match iimport Memory car stb with
      | (st', Ok tt) =>
          match ilog stb, ilog st' with
          | (_ :: _, None), ([], Some AssertionError) => true
          | _, _ => false
          end
      | _ => false
      end
  | Err _ => false
  end.
Lemma igood_ok st stb : igood st stb = true -> exists car st' items, snd (get_repo wdigest Memory vnetloc false alice None st) = Ok car /\
  import_repo Memory vcfg iresolve ikey iverify ihandle vtoken car 7 stb = (st', Ok tt) /\ EventsModel.read_events stb (EventsModel.mem_blocks_by_seq stb 0 None) = (items, None) /\ items <> [] /\
  EventsModel.read_events st' (EventsModel.mem_blocks_by_seq st' 0 None) = ([], Some AssertionError).
Proof.
  unfold igood. intros X. destruct (snd (get_repo _ _ _ _ _ _ _)) as [car|] eqn:E; [|discriminate X].
  destruct (iimport Memory car stb) as [st' [[]|]] eqn:IM; [|discriminate X].
  destruct (ilog stb) as [[|i items] [|]] eqn:L1; try discriminate X.
  destruct (ilog st') as [[|] [[]|]] eqn:L2; try discriminate X.
  exists car, st', (i :: items). split; [reflexivity|]. split; [auto|]. split; [auto|]. split; [discriminate|auto].
Qed.
Lemma c25_import : exists digest kdigest validate ecdsa now cb netloc_ok cfg resolve signing_key verify handle_of header key w1 bk1 did car w bk st' items,
  setting digest kdigest validate cb /\ serves digest kdigest validate ecdsa now cb Memory netloc_ok cfg w1 bk1 /\
  snd (get_repo digest Memory netloc_ok false did None (w_state w1)) = Ok car /\
  serves digest kdigest validate ecdsa now cb Memory netloc_ok cfg w bk /\
  import_repo Memory cfg resolve signing_key verify handle_of header car key (w_state w) = (st', Ok tt) /\
  EventsModel.read_events (w_state w) (EventsModel.mem_blocks_by_seq (w_state w) 0 None) = (items, None) /\ items <> [] /\
  EventsModel.read_events st' (EventsModel.mem_blocks_by_seq st' 0 None) = ([], Some AssertionError).
Proof.
  assert (X : igood (w_state (v_world (vrun Memory ystory))) (w_state (v_world (vrun Memory [inl (SCreate bob None None false 2)]))) = true) by (vm_compute; reflexivity).
  assert (F1 : v_fine (vrun Memory ystory) = true) by (vm_compute; reflexivity).
  assert (F2 : v_fine (vrun Memory [inl (SCreate bob None None false 2)]) = true) by (vm_compute; reflexivity).
  apply vrun_serves in F1. apply vrun_serves in F2. apply igood_ok in X as (car & st' & items & A & B & C & D & E).
  exists wdigest, xkdigest, xvalidate, xecdsa, xnow, xcb, vnetloc, vcfg, iresolve, ikey, iverify, ihandle, vtoken, 7%N.
  exists (v_world (vrun Memory ystory)), (v_book (vrun Memory ystory)), alice, car, (v_world (vrun Memory [inl (SCreate bob None None false 2)])),
    (v_book (vrun Memory [inl (SCreate bob None None false 2)])), st', items.
  split; [exact wsetting|]. split; [exact F1|]. split; [exact A|]. split; [exact F2|]. split; [exact B|]. split; [exact C|]. split; [exact D|exact E].
Qed.
