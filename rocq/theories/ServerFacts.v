(** What holds of every server. *)
From Coq Require Import String List NArith ZArith Bool Lia Sorted.
From Coq Require Import ZifyBool ZifyNat ZifyN.
From Verif Require Import Base Lists Ipld IpldProofs MstModel MstTree MstTreeProofs MstRep MstTrav
  MstClient MstSpec MstHist MstFacts TidModel TidProofs BlockModel BlockSpec BlockProofs
  CarModel StorageModel StorageSpec CommitProofs StoreProofs ExecProofs RepoSpec RepoProofs RepoHist RepoSteps RepoFacts
  UriModel EventsModel ServerModel ServerSpec ServerProofs.
Import ListNotations.

Section Server.
Variable digest : list N -> list N.
Variable kdigest : str -> list N.
Variable validate : ipld -> res unit.
Variable ecdsa : N -> Z -> list N -> list N.
Variable now : Z -> str.
Variable cb : nat -> option exn.
Variable be : backend.
Variable netloc_ok : str -> bool.
Variable cfg : config.
Notation rcid := (rcid digest).
Notation inv := (inv digest kdigest validate ecdsa be).
Notation stored_repo := (stored_repo be).
Notation names := (names be netloc_ok).
Notation named_did := (named_did be netloc_ok).
Notation request_ok := (request_ok validate be netloc_ok cfg).
Notation request_book := (request_book be netloc_ok).
Notation answered := (answered digest be netloc_ok).
Notation serve := (serve digest kdigest validate ecdsa cb be netloc_ok cfg).
Notation serves := (serves digest kdigest validate ecdsa now cb be netloc_ok cfg).
Hypothesis SET : setting digest kdigest validate cb.

(** ** C38: tokens *)

Lemma c38_checked m st st' out header : mutate digest kdigest validate ecdsa cb be netloc_ok cfg m st = (st', out) -> header_of m = Some header ->
  (st' = st /\ exists e, out = Err e) \/ authorized cfg header.
Proof.
  clear. intros E H.
  assert (K : forall {A} (f : unit -> M A) e', (bindM (lift (auth cfg header)) f st = (st', e')) ->
     (st' = st /\ exists e, e' = Err e) \/ authorized cfg header).
  { intros A f e' X. rewrite bind_unit in X. destruct (auth cfg header) as [[]|e] eqn:AU.
    - right. apply (auth_ok cfg). auto.
    - injection X as <- <-. eauto. }
  destruct m as [[h i tid|h i|h i|x c k cid]|h i|h|rs sk vf ho h car key]; cbn [header_of] in H; try discriminate; injection H as ->;
    cbn [mutate ServerSpec.serve] in E.
  - unfold create_record in E. rewrite !bind_assoc in E.
    destruct (given (i_collection i)).
    + rewrite (bindM_ok (ret _) _ _ _ _ eq_refl) in E. rewrite !bind_assoc in E. rewrite bind_unit in E.
      destruct (validate_input cfg i (i_collection i)) as [[]|e]; [|injection E as <- <-; eauto].
      rewrite !bind_assoc in E. eapply K. exact E.
    + rewrite bind_lift in E. destruct (record_type (i_record i)) as [coll|]; [|injection E as <- <-; eauto].
      rewrite !bind_assoc in E. rewrite bind_unit in E.
      destruct (validate_input cfg i coll) as [[]|e]; [|injection E as <- <-; eauto].
      rewrite !bind_assoc in E. eapply K. exact E.
  - unfold put_record in E. rewrite !bind_assoc in E. rewrite bind_unit in E.
    destruct (validate_input cfg i None) as [[]|e]; [|injection E as <- <-; eauto].
    rewrite !bind_assoc in E. eapply K. exact E.
  - unfold delete_record in E. rewrite !bind_assoc in E. rewrite bind_unit in E.
    destruct (validate_input cfg i None) as [[]|e]; [|injection E as <- <-; eauto].
    rewrite !bind_assoc in E. eapply K. exact E.
  - unfold apply_writes_method in E. rewrite !bind_assoc in E. rewrite bind_unit in E.
    destruct (validate_input cfg i None) as [[]|e]; [|injection E as <- <-; eauto].
    rewrite !bind_assoc in E. eapply K. exact E.
  - unfold upload_blob in E. rewrite !bind_assoc in E. rewrite bind_unit in E.
    destruct (validate_input cfg _ None) as [[]|e]; [|injection E as <- <-; eauto].
    rewrite !bind_assoc in E. eapply K. exact E.
  - unfold import_repo in E. eapply K. exact E.
Qed.

Lemma c38_token m st st' out header : c_flask cfg = true -> mutate digest kdigest validate ecdsa cb be netloc_ok cfg m st = (st', out) ->
  header_of m = Some header -> (st' = st /\ exists e, out = Err e) \/ has_token cfg header.
Proof.
  clear. intros FL E H. destruct (c38_checked _ _ _ _ _ E H) as [X|(t & A & B & C)]; auto. right. exists t. auto.
Qed.

Lemma c38_no_token m st st' out header : c_token cfg = None \/ c_token cfg = Some [] ->
  mutate digest kdigest validate ecdsa cb be netloc_ok cfg m st = (st', out) -> header_of m = Some header -> st' = st /\ exists e, out = Err e.
Proof.
  clear. intros N E H. destruct (c38_checked _ _ _ _ _ E H) as [X|(t & A & B & C)]; auto. exfalso. destruct N; congruence.
Qed.

(** ** C39: records *)

Lemma c39_request w bk q st' out : serves w bk -> (be = Memory -> (s_next (w_state w) < 2 ^ 55)%Z) -> serve q (w_state w) = (st', out) ->
  (request_ok w bk q <-> exists a, out = Ok a) /\ (forall a, out = Ok a -> answered (w_state w) bk q a).
Proof.
  intros S L E. destruct (serves_inv digest kdigest validate ecdsa now cb be netloc_ok cfg SET _ _ S) as [I ST].
  destruct (serve_outcome digest kdigest validate ecdsa now cb be netloc_ok cfg SET _ _ _ _ _ _ I ST L E) as [_ [(R & a & -> & A)|(N & e & ->)]];
    rewrite world_eta in *.
  - split; [split; eauto|]. intros b [= <-]. exact A.
  - split; [|discriminate]. split; [tauto|]. intros (a & X). discriminate.
Qed.

Lemma c39_map w bk did key recs : serves w bk -> dget did bk = Some (key, recs) ->
  exists o, seen be (w_state w) did = Some o /\ repo_did o = Ok (Some did) /\ r_key o = key /\ shows kdigest (w_state w) o recs.
Proof.
  intros S B. destruct (serves_inv digest kdigest validate ecdsa now cb be netloc_ok cfg SET _ _ S) as [I ST].
  destruct (seen_stored digest kdigest validate ecdsa cb be SET _ _ _ _ _ _ I B) as (o & SN & HS & G & K).
  exists o. splits; auto.
  - eapply good_repo_did; eauto.
  - eapply good_shows; eauto.
Qed.

Lemma did_name did : is_did did -> repo_name netloc_ok did = Ok did.
Proof.
  clear. intros D. unfold repo_name. destruct (starts_with (s "at://") did) eqn:A; [|reflexivity]. exfalso.
  unfold is_did in D. apply starts_with_app in D as (a & ->). apply starts_with_app in A as (b & A). discriminate A.
Qed.

Lemma did_names st refs bk did key recs : inv st refs bk -> dget did bk = Some (key, recs) ->
  exists o, names st did did o /\ stored_repo st did = Some o /\ did <> [].
Proof.
  intros I B. destruct (i_book _ _ _ _ _ _ _ _ I _ _ _ B) as (D & _).
  destruct (seen_stored digest kdigest validate ecdsa cb be SET _ _ _ _ _ _ I B) as (o & SN & HS & G & K).
  exists o. splits; auto.
  - exists did. splits; auto using did_name. eapply good_repo_did; eauto.
  - intros ->. discriminate D.
Qed.

(** What a write was for. *)
Lemma write_facts w bk q st' a x coll rkey v : serves w bk -> (be = Memory -> (s_next (w_state w) < 2 ^ 55)%Z) ->
  serve q (w_state w) = (st', Ok a) -> request_write q = Some (x, coll, rkey, v) ->
  exists did key recs o', named_did (w_state w) x = Some did /\ dget did bk = Some (key, recs) /\
    inv st' (w_refs w) (request_book (w_state w) bk q (Ok a)) /\ statuses be st' (request_book (w_state w) bk q (Ok a)) /\
    dget did (request_book (w_state w) bk q (Ok a)) = Some (key, match v with Some v => dset (record_path coll rkey) v recs | None => ddel (record_path coll rkey) recs end) /\
    names st' did did o' /\ r_status o' = None /\ did <> [] /\ supported cfg coll /\ NoDup (keys recs).
Proof.
  intros S L E RW. destruct (serves_inv digest kdigest validate ecdsa now cb be netloc_ok cfg SET _ _ S) as [I ST].
  destruct (serve_outcome digest kdigest validate ecdsa now cb be netloc_ok cfg SET _ _ _ _ _ _ I ST L E) as [(extra & SS) [(R & _)|(_ & e & X)]]; [|discriminate].
  assert (I' : inv st' (w_refs w ++ extra) (request_book (w_state w) bk q (Ok a))) by (eapply steps_inv; eauto).
  assert (ST' : statuses be st' (request_book (w_state w) bk q (Ok a))) by (eapply steps_statuses; eauto).
  assert (R' : (forall c, match q with RCreate _ i _ | RPut _ i | RDelete _ i => i_collection i | RGet _ _ _ _ => None end = Some c -> supported cfg c) /\
    exists did o key recs, names (w_state w) x did o /\ r_status o = None /\ dget did bk = Some (key, recs)).
  { destruct q as [h i tid|h i|h i|]; [| | |discriminate];
    destruct R as (_ & _ & SU & x' & c' & k' & v' & did & o & key & recs & RW' & _ & NM & R & B & _);
    rewrite RW in RW'; injection RW' as <- <- <- <-; split; auto; exists did, o, key, recs; auto. }
  destruct R' as (SU & did & o & key & recs & NM & R0 & B).
  pose proof (names_did be netloc_ok _ _ _ _ NM) as ND.
  assert (BK : request_book (w_state w) bk q (Ok a) = dset did (key, match v with Some v => dset (record_path coll rkey) v recs | None => ddel (record_path coll rkey) recs end) bk).
  { unfold ServerSpec.request_book. rewrite RW, ND, B. reflexivity. }
  assert (B' : dget did (request_book (w_state w) bk q (Ok a)) = Some (key, match v with Some v => dset (record_path coll rkey) v recs | None => ddel (record_path coll rkey) recs end)).
  { rewrite BK, dget_dset, str_eqb_refl. reflexivity. }
  destruct (did_names _ _ _ _ _ _ I' B') as (o' & NM' & HS' & NE).
  destruct (seen_stored digest kdigest validate ecdsa cb be SET _ _ _ _ _ _ I B) as (o1 & SN1 & HS1 & G1 & K1).
  assert (R1 : r_status o1 = None).
  { destruct NM as (y & RN & SN & RD).
    destruct (server_load_spec digest kdigest validate ecdsa cb be netloc_ok SET _ _ _ x I) as [(e & X & _)|(y' & RN' & [(_ & _ & Z)|[(_ & _ & Z)|
      (did' & oo & st1 & r & k2 & rc2 & HS2 & B2 & _ & _ & _ & G2 & SN2 & RD2 & _)]])]; congruence. }
  destruct (steps_kept digest kdigest validate ecdsa now be _ _ _ _ _ _ SS did o1 ltac:(congruence) HS1) as (o2 & HS2 & RS & _).
  exists did, key, recs, o'. splits; auto.
  - eapply inv_weaken; [|exact I']. intros r HR. apply in_or_app. auto.
  - congruence.
  - apply SU. destruct q as [h i tid|h i|h i|]; [| | |discriminate]; cbn [request_write] in RW.
    + destruct (i_repo i), (i_collection i), (i_record i); try discriminate. congruence.
    + destruct (i_repo i), (i_collection i), (i_rkey i), (i_record i); try discriminate. congruence.
    + destruct (i_repo i), (i_collection i), (i_rkey i); try discriminate. congruence.
  - eapply good_keys; eauto.
Qed.

(** What is written is what is read, and what is deleted is not found. *)
Lemma c39_write_read w bk q st' a x coll rkey v : serves w bk -> (be = Memory -> (s_next (w_state w) < 2 ^ 55)%Z) ->
  serve q (w_state w) = (st', Ok a) -> request_write q = Some (x, coll, rkey, v) ->
  exists did, named_did (w_state w) x = Some did /\
    snd (serve (RGet (Some did) (Some coll) (Some rkey) None) st')
    = match v with
      | Some v => Ok (ARecord (uri_of did coll rkey) (rcid v) (norm v))
      | None => Err (XrpcError (s "RecordNotFound"))
      end.
Proof.
  intros S L E RW. destruct (write_facts _ _ _ _ _ _ _ _ _ S L E RW) as (did & key & recs & o' & ND & B & I' & ST' & B' & NM' & R' & NE & SU & NDU).
  exists did. split; auto. destruct (serve (RGet (Some did) (Some coll) (Some rkey) None) st') as [st2 out] eqn:G. cbn [snd].
  destruct (get_outcome digest kdigest validate ecdsa now cb be netloc_ok cfg SET _ _ _ _ _ _ _ _ _ I' ST' G) as ((_ & O) & _ & NF).
  destruct v as [v|].
  - destruct O as [(_ & a' & -> & AN)|(NO & _)].
    + destruct AN as (x' & c' & k' & did' & key' & recs' & v' & [= <-] & [= <-] & [= <-] & ND' & B2 & D & ->).
      rewrite (names_did be netloc_ok _ _ _ _ NM') in ND'. injection ND' as <-. rewrite B' in B2. injection B2 as <- <-.
      rewrite dget_dset, str_eqb_refl in D. injection D as <-. reflexivity.
    + exfalso. apply NO. split; auto. split; [intros c [= <-]; auto|]. exists did, coll, rkey, did, o', key. eexists. splits; eauto.
      rewrite dget_dset, str_eqb_refl. discriminate.
  - eapply NF; eauto. rewrite dget_ddel by auto. rewrite str_eqb_refl. reflexivity.
Qed.

(** Deleting again succeeds and changes nothing. *)
Lemma c39_delete_again w bk header i st' a x coll rkey : serves w bk -> (be = Memory -> (s_next (w_state w) < 2 ^ 55)%Z) ->
  serve (RDelete header i) (w_state w) = (st', Ok a) -> request_write (RDelete header i) = Some (x, coll, rkey, None) ->
  exists did, named_did (w_state w) x = Some did /\ forall header', authorized cfg header' ->
    exists st2, serve (RDelete header' (Input (Some did) (Some coll) (Some rkey) None false)) st' = (st2, Ok ADone) /\ same_storage st' st2.
Proof.
  intros S L E RW.
  destruct (write_facts _ _ _ _ _ _ _ _ _ S L E RW) as (did & key & recs & o' & ND & B & I' & ST' & B' & NM' & R' & NE & SU & NDU).
  exists did. split; auto. intros h' AU.
  destruct (load_cases digest kdigest validate ecdsa now cb be netloc_ok SET _ _ _ did I' ST') as [(d2 & o2 & st1 & r & k2 & rc2 & F)|(e & st1 & extra & _ & _ & _ & NN)].
  2:{ exfalso. exact (NN _ _ NM' R'). }
  exists st1. split; [|exact (f_same _ _ _ _ _ _ _ _ _ _ _ _ _ _ _ _ _ F)].
  destruct (names_fun be netloc_ok _ _ _ _ _ _ NM' (f_names _ _ _ _ _ _ _ _ _ _ _ _ _ _ _ _ _ F)) as [<- <-].
  pose proof (f_book _ _ _ _ _ _ _ _ _ _ _ _ _ _ _ _ _ F) as B2. rewrite B' in B2. injection B2 as <- <-.
  cbn [ServerSpec.serve]. unfold delete_record. rewrite !bind_assoc, bind_unit.
  assert (V : validate_input cfg (Input (Some did) (Some coll) (Some rkey) None false) None = Ok tt).
  { apply (validate_ok cfg). cbn. splits; eauto; [discriminate|]. intros c [= <-]. auto. }
  rewrite V, bind_assoc, bind_unit. apply (auth_ok cfg) in AU. rewrite AU. rewrite bind_assoc, bind_lift. cbn [arg i_repo].
  rewrite bind_assoc, (bindM_ok _ _ _ _ _ (f_load _ _ _ _ _ _ _ _ _ _ _ _ _ _ _ _ _ F)), bind_assoc, bind_lift. cbn [arg i_collection].
  rewrite bind_assoc, bind_lift. cbn [arg i_rkey]. rewrite bind_assoc.
  rewrite (bindM_ok _ _ _ _ _ (obj_some _ _ _ (f_obj _ _ _ _ _ _ _ _ _ _ _ _ _ _ _ _ _ F))), bind_assoc.
  rewrite (bindM_ok _ _ _ _ _ (good_find digest kdigest validate ecdsa _ _ _ _ _ coll rkey (f_good _ _ _ _ _ _ _ _ _ _ _ _ _ _ _ _ _ F))).
  rewrite dget_ddel by auto. rewrite str_eqb_refl. reflexivity.
Qed.

(** ** C43: statuses *)

Notation server_load := (server_load be netloc_ok).

Lemma load_error x m st st1 e : uses_repo digest kdigest validate ecdsa cb be netloc_ok cfg x m -> server_load x st = (st1, Err e) -> m st = (st1, Err e).
Proof.
  clear. intros U E. destruct U as [header i tid AU RX NX SW (c & CO & NC & SU)|header i AU RX NX SW SU|header i AU RX NX SW SU|coll rkey NX SU|coll limit cursor NX NC SU|resolve NX|disabled since|disabled|cid_decode cids| | |coll rkey].
  - unfold create_record. rewrite !bind_assoc. assert (GI : given (i_collection i) = true) by (apply given_ok; eauto). rewrite GI.
    rewrite (bindM_ok (ret _) _ _ _ _ eq_refl), bind_assoc, bind_unit.
    rewrite (proj2 (validate_ok cfg i (i_collection i))).
    2:{ splits; eauto; rewrite CO; intros ? [= <-]; auto. }
    rewrite bind_assoc, bind_unit, (proj2 (auth_ok cfg header) AU), bind_assoc, bind_lift. rewrite RX. cbn [arg]. rewrite bind_assoc. apply bindM_err. auto.
  - unfold put_record. rewrite bind_assoc, bind_unit. rewrite (proj2 (validate_ok cfg i None)) by (splits; eauto; discriminate).
    rewrite bind_assoc, bind_unit, (proj2 (auth_ok cfg header) AU), bind_assoc, bind_lift. rewrite RX. cbn [arg]. rewrite bind_assoc. apply bindM_err. auto.
  - unfold delete_record. rewrite bind_unit. rewrite (proj2 (validate_ok cfg i None)) by (splits; eauto; discriminate).
    rewrite bind_unit, (proj2 (auth_ok cfg header) AU), bind_lift. rewrite RX. cbn [arg]. apply bindM_err. auto.
  - unfold xrpc_get_record. rewrite bind_assoc, bind_unit. rewrite (proj2 (validate_ok cfg (Input (Some x) coll rkey None false) None)) by (cbn; splits; eauto; discriminate).
    cbn [given]. rewrite bind_assoc, (bindM_ok (ret tt) _ _ _ tt eq_refl), bind_assoc, bind_lift. cbn [arg]. rewrite bind_assoc. apply bindM_err. auto.
  - unfold list_records. destruct (nonempty (c_supported cfg) && negb (mem_str coll (c_supported cfg))) eqn:S0.
    { exfalso. assert (X : unsupported cfg (Some coll) = false) by (apply (unsupported_ok cfg); intros c [= <-]; exact SU).
      unfold unsupported in X. destruct coll; congruence. }
    rewrite bind_assoc, bind_unit. rewrite (proj2 (validate_ok cfg (Input (Some x) (Some coll) None None false) None)) by (cbn; splits; eauto; [discriminate|intros ? [= <-]; auto]).
    rewrite bind_assoc, (bindM_ok (ret tt) _ _ _ tt eq_refl). destruct coll as [|c0 c]; [congruence|]. rewrite bind_assoc, bind_lift. cbn [arg]. rewrite bind_assoc. apply bindM_err. auto.
  - unfold describe_repo. rewrite bind_assoc, bind_unit. rewrite (proj2 (validate_ok cfg (Input (Some x) None None None false) None)) by (cbn; splits; eauto; discriminate).
    rewrite bind_assoc, bind_lift. cbn [arg]. rewrite bind_assoc. apply bindM_err. auto.
  - unfold get_repo. rewrite bind_assoc. apply bindM_err. auto.
  - unfold get_checkout, get_repo. rewrite bind_assoc. apply bindM_err. auto.
  - unfold get_blocks. rewrite bind_assoc. apply bindM_err. auto.
  - unfold get_head. rewrite bind_assoc. apply bindM_err. auto.
  - unfold get_latest_commit. rewrite bind_assoc. apply bindM_err. auto.
  - unfold sync_get_record. rewrite bind_assoc. apply bindM_err. auto.
Qed.

Lemma load_named w bk x did o : serves w bk -> names (w_state w) x did o -> dget did bk <> None /\
  (r_status o = None /\ (exists st1 r, server_load x (w_state w) = (st1, Ok r)) \/
   (r_status o = Some (s "deactivated") \/ r_status o = Some (s "tombstoned")) /\ exists st1, server_load x (w_state w) = (st1, Err (XrpcError (s "RepoDeactivated")))).
Proof.
  intros S NM. destruct (serves_inv digest kdigest validate ecdsa now cb be netloc_ok cfg SET _ _ S) as [I ST].
  destruct NM as (y & RN & SN & RD).
  destruct (server_load_spec digest kdigest validate ecdsa cb be netloc_ok SET _ _ _ x I) as [(e & X & _)|(y' & RN' & [(_ & _ & Z)|[(_ & _ & Z)|
      (did' & oo & st1 & r & k2 & rc2 & HS2 & B2 & _ & _ & _ & G2 & SN2 & RD2 & E)]])]; try congruence.
  assert (y' = y) by congruence. subst y'. rewrite SN in SN2. injection SN2 as <-. rewrite RD in RD2. injection RD2 as <-.
  split; [congruence|]. destruct (ST did o ltac:(congruence) HS2) as [R|[R|R]]; rewrite R in E |- *; eauto.
Qed.

Lemma load_handle st y : named be st -> load_repo be y st = (st, Ok None) -> forall did o, registered be st did -> stored_repo st did = Some o ->
  did <> y /\ r_handle o <> Some y.
Proof.
  clear. intros (ND & SS & NM) L did o RG HS. split.
  - intros ->. destruct (load_spec (fun x => x) be (fun a b H => H) st y (conj ND (conj SS NM))) as [(-> & E)|[(E & N)|(d & o' & st' & r & _ & _ & _ & _ & E)]]; congruence.
  - intros H. unfold load_repo in L. destruct y as [|y0 y']; [discriminate L|]. set (y := y0 :: y') in *. unfold assert in L. cbn [nonempty y] in L.
    rewrite (bindM_ok (ret tt) _ st st tt eq_refl) in L. unfold RepoProofs.registered, RepoProofs.stored_repo in *. destruct be.
    + rewrite bind_reads in L. destruct (mem_find_ok st y (s_mem st)) as [(E & F)|(did' & r & o' & HI & HO & E & D)]; [| |congruence].
      { intros d r HI. apply In_dget in HI; auto. destruct (NM d ltac:(congruence)) as (o' & h & HO & HH & HD & _).
        rewrite HI in HO. exists o', h. auto. }
      destruct (dget did (s_mem st)) as [r|] eqn:G; [|discriminate]. apply dget_In in G. destruct (F did r o G HS) as [_ C]. auto.
    + rewrite bind_reads in L. unfold ent_find in L. destruct (dget did (s_ents st)) as [e|] eqn:G; [|congruence].
      destruct (dget (e_head e) (s_blocks st)) as [b|] eqn:EB; [|discriminate].
      destruct (item_link (s "data") (b_val b)) as [data|] eqn:ED; [|discriminate]. injection HS as <-. cbn in H.
      assert (LO : forall e' : entity, bindM (repo_load (e_head e') (e_handle e') (e_status e') (e_key e')) (fun r => ret (Some r)) st <> (st, Ok None)).
      { intros e' X. unfold bindM at 1 in X. destruct (repo_load _ _ _ _ st) as [st' [r|]]; discriminate X. }
      destruct (dget y (s_ents st)) as [e'|]; [exact (LO _ L)|].
      destruct (find (fun ke => opt_str_eqb y (e_handle (snd ke))) (s_ents st)) as [[d' e']|] eqn:F; [exact (LO _ L)|].
      apply dget_In in G. pose proof (find_none _ _ F _ G) as X. cbn [snd] in X. rewrite H in X. cbn [opt_str_eqb] in X. rewrite str_eqb_refl in X. discriminate.
Qed.

Lemma load_none w bk x y : serves w bk -> repo_name netloc_ok x = Ok y -> y <> [] -> seen be (w_state w) y = None ->
  server_load x (w_state w) = (w_state w, Err (XrpcError (s "RepoNotFound"))) /\
  forall did o, dget did bk <> None -> seen be (w_state w) did = Some o -> did <> y /\ r_handle o <> Some y.
Proof.
  intros S RN NE SN. destruct (serves_inv digest kdigest validate ecdsa now cb be netloc_ok cfg SET _ _ S) as [I ST].
  destruct (server_load_spec digest kdigest validate ecdsa cb be netloc_ok SET _ _ _ x I) as [(e & X & _)|(y' & RN' & [(-> & _ & Z)|[(L & E & Z)|
      (did' & oo & st1 & r & k2 & rc2 & HS2 & B2 & _ & _ & _ & G2 & SN2 & RD2 & E)]])]; try congruence.
  assert (y' = y) by congruence. subst y'. split; auto. intros did o D SO.
  destruct (dget did bk) as [[key recs]|] eqn:B; [|congruence].
  destruct (seen_stored digest kdigest validate ecdsa cb be SET _ _ _ _ _ _ I B) as (o' & SN' & HS' & G & K). rewrite SO in SN'. injection SN' as <-.
  destruct (i_book _ _ _ _ _ _ _ _ I _ _ _ B) as (ID & RG & _).
  exact (load_handle _ _ (inv_named _ _ _ _ _ _ _ _ I) L did o RG HS').
Qed.

Lemma c43_status w bk x : serves w bk ->
  (forall did o, names (w_state w) x did o -> dget did bk <> None /\
     (r_status o = None /\ snd (get_repo_status be netloc_ok x (w_state w)) = Ok (true, None) \/
      (r_status o = Some (s "deactivated") \/ r_status o = Some (s "tombstoned")) /\
      snd (get_repo_status be netloc_ok x (w_state w)) = Ok (false, Some (s "deactivated")) /\
      forall m, uses_repo digest kdigest validate ecdsa cb be netloc_ok cfg x m -> snd (m (w_state w)) = Err (XrpcError (s "RepoDeactivated")))) /\
  (forall y, repo_name netloc_ok x = Ok y -> y <> [] -> seen be (w_state w) y = None ->
     snd (get_repo_status be netloc_ok x (w_state w)) = Err (XrpcError (s "RepoNotFound")) /\
     (forall m, uses_repo digest kdigest validate ecdsa cb be netloc_ok cfg x m -> snd (m (w_state w)) = Err (XrpcError (s "RepoNotFound"))) /\
     forall did o, dget did bk <> None -> seen be (w_state w) did = Some o -> did <> y /\ r_handle o <> Some y).
Proof.
  intros S. split.
  - intros did o NM. destruct (load_named _ _ _ _ _ S NM) as [D C]. split; auto. unfold get_repo_status.
    destruct C as [[R (st1 & r & E)]|[R (st1 & E)]]; [left; rewrite E; auto|right]. split; auto. split.
    + rewrite E. reflexivity.
    + intros m U. rewrite (load_error _ _ _ _ _ U E). reflexivity.
  - intros y RN NE SN. destruct (load_none _ _ _ _ S RN NE SN) as [E X]. unfold get_repo_status. split.
    + rewrite E. reflexivity.
    + split; auto. intros m U. rewrite (load_error _ _ _ _ _ U E). reflexivity.
Qed.

End Server.
