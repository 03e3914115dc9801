(** Requests that died. *)
From Coq Require Import String List NArith ZArith Bool Lia.
From Verif Require Import Base Lists Ipld MstModel MstSpec MstRep BlockModel StorageModel StorageSpec StoreProofs ExecProofs RepoSpec RepoProofs UriModel ServerModel ServerSpec LiveStore LiveProofs LiveCrash CrashModel CrashSpec LiveSpec LiveFacts.
Import ListNotations.

Section Death.
Variable digest : list N -> list N.
Variable kdigest : str -> list N.
Hypothesis D32 : forall a, length (digest a) = 32%nat.
Notation hosts := (hosts digest kdigest).
Notation on_request := (on_request digest kdigest).

Lemma seen_same st refs bk st' x : (forall a b, digest a = digest b -> a = b) -> live digest kdigest Datastore st refs bk -> extends (s_blocks st) (s_blocks st') -> s_ents st' = s_ents st ->
  seen Datastore st' x = seen Datastore st x.
Proof.
  intros inj L EX EE. pose proof (load_spec digest Datastore inj st x (live_named _ _ _ _ _ _ L)) as LS.
  destruct x as [|x0 x1]; [reflexivity|]. set (x := x0 :: x1) in *.
  assert (R : forall s0, load_repo Datastore x s0 = match ent_find x (s_ents s0) with None => (s0, Ok None)
    | Some (_, e) => bindM (repo_load (e_head e) (e_handle e) (e_status e) (e_key e)) (fun r => ret (Some r)) s0 end).
  { intros s0. unfold load_repo, bindM at 1 2, assert, reads. cbn [nonempty x ret]. fold x. destruct (ent_find x (s_ents s0)) as [[d e]|]; reflexivity. }
  unfold seen. rewrite R in LS. rewrite !R, EE. destruct (ent_find x (s_ents st)) as [[d e]|]; [|reflexivity].
  assert (P : forall s0 b, dget (e_head e) (s_blocks s0) = Some b -> bindM (repo_load (e_head e) (e_handle e) (e_status e) (e_key e)) (fun r => ret (Some r)) s0 =
    match item_link (s "data") (b_val b) with
    | Ok data => (add_obj (Repo (mst_load data) (Some b) (e_handle e) (e_status e) false (e_key e)) s0, Ok (Some (length (s_objs s0))))
    | Err x => (s0, Err x) end).
  { intros s0 b B. unfold repo_load, bindM at 1 2, reads, read. rewrite B. unfold bindM, lift, ret. destruct (item_link (s "data") (b_val b)); reflexivity. }
  destruct (dget (e_head e) (s_blocks st)) as [b|] eqn:B.
  - rewrite (P _ _ B), (P _ _ (EX _ _ B)). destruct (item_link (s "data") (b_val b)) as [data|]; [|reflexivity].
    cbn [add_obj s_objs set_objs]. rewrite !nth_app_last. reflexivity.
  - exfalso. assert (X : bindM (repo_load (e_head e) (e_handle e) (e_status e) (e_key e)) (fun r => ret (Some r)) st = (st, Err AttributeError)).
    { unfold repo_load, bindM, reads, read. rewrite B. reflexivity. }
    rewrite X in LS. destruct LS as [[C _]|[[C _]|(? & ? & ? & ? & _ & _ & _ & _ & C)]]; discriminate C.
Qed.

Lemma half_seen {A} (m : M A) sv w bk lost x : hosts sv w bk -> p_be sv = Datastore -> ups m ->
  seen Datastore (halfway lost (w_state w) (fst (m (w_state w)))) x = seen Datastore (w_state w) x.
Proof.
  intros H BE U. destruct (hosts_live digest kdigest D32 _ _ _ H) as [[SET _] L]. rewrite BE in L.
  apply (seen_same _ (w_refs w) bk); [exact (proj1 (proj2 SET))|exact L|exact (proj1 (U _))|reflexivity].
Qed.
Lemma request_seen sv w bk q lost x : hosts sv w bk -> p_be sv = Datastore ->
  seen Datastore (halfway lost (w_state w) (fst (on_request sv q (w_state w)))) x = seen Datastore (w_state w) x.
Proof. intros H BE. apply (half_seen _ sv w bk lost x H BE). unfold LiveSpec.on_request. rewrite BE. apply ups_serve. Qed.
Lemma import_seen sv w bk header car key lost x : hosts sv w bk -> p_be sv = Datastore ->
  seen Datastore (halfway lost (w_state w) (fst (on_import sv header car key (w_state w)))) x = seen Datastore (w_state w) x.
Proof. intros H BE. apply (half_seen _ sv w bk lost x H BE). unfold on_import. rewrite BE. apply ups_import. Qed.

Lemma request_ok_same validate nl cfg w bk q st' refs' : (forall x, seen Datastore st' x = seen Datastore (w_state w) x) -> (s_next (w_state w) < 2 ^ 55)%Z -> (s_next st' < 2 ^ 55)%Z ->
  request_ok validate Datastore nl cfg w bk q <-> request_ok validate Datastore nl cfg (World st' refs') bk q.
Proof.
  intros SE N1 N2. assert (NM : forall x did o, names Datastore nl st' x did o <-> names Datastore nl (w_state w) x did o).
  { intros x did o. unfold names. split; intros (y & A & B & C); exists y; [rewrite <- SE|rewrite SE]; auto. }
  assert (W : forall header i, (authorized cfg header /\ i_swap i = false /\ (forall c, i_collection i = Some c -> supported cfg c) /\
      exists x coll rkey v did o key recs, request_write q = Some (x, coll, rkey, v) /\ x <> [] /\ names Datastore nl (w_state w) x did o /\ r_status o = None /\
        dget did bk = Some (key, recs) /\ match v with
        | Some v => repo_key (record_path coll rkey) /\ record_ok validate v /\ (s_next (w_state w) < 2 ^ 55)%Z
        | None => dget (record_path coll rkey) recs <> None -> (s_next (w_state w) < 2 ^ 55)%Z end) <->
      (authorized cfg header /\ i_swap i = false /\ (forall c, i_collection i = Some c -> supported cfg c) /\
      exists x coll rkey v did o key recs, request_write q = Some (x, coll, rkey, v) /\ x <> [] /\ names Datastore nl st' x did o /\ r_status o = None /\
        dget did bk = Some (key, recs) /\ match v with
        | Some v => repo_key (record_path coll rkey) /\ record_ok validate v /\ (s_next st' < 2 ^ 55)%Z
        | None => dget (record_path coll rkey) recs <> None -> (s_next st' < 2 ^ 55)%Z end)).
  { intros header i. split; intros (A & B & C & x & coll & rkey & v & did & o & key & recs & E1 & E2 & E3 & E4 & E5 & E6); (split; [exact A|]; split; [exact B|]; split; [exact C|]);
      exists x, coll, rkey, v, did, o, key, recs; (split; [exact E1|]; split; [exact E2|]; split; [apply NM; exact E3|]; split; [exact E4|]; split; [exact E5|]);
      destruct v as [v|]; [destruct E6 as (F1 & F2 & _); auto|auto|destruct E6 as (F1 & F2 & _); auto|auto]. }
  destruct q as [h i tid|h i|h i|a b c d]; cbn [request_ok w_state]; [apply W|apply W|apply W|].
  split; intros (A & B & x & coll & k & did & o & key & recs & E1 & E2 & E3 & E4 & E5 & E6); (split; [exact A|]; split; [exact B|]);
    exists x, coll, k, did, o, key, recs; (do 4 (split; [assumption|])); (split; [apply NM; exact E5|exact E6]).
Qed.
Lemma answered_same nl st st' bk q a b : (forall x, seen Datastore st' x = seen Datastore st x) ->
  answered digest Datastore nl st bk q a -> answered digest Datastore nl st' bk q b -> a = b.
Proof.
  intros SE. assert (NM : forall x, named_did Datastore nl st' x = named_did Datastore nl st x).
  { intros x. unfold named_did. destruct (repo_name nl x); [rewrite SE|]; reflexivity. }
  destruct q as [h i tid|h i|h i|r1 r2 r3 r4]; cbn [answered].
  1,2: intros (x & coll & rkey & v & did & A1 & A2 & ->) (x2 & coll2 & rkey2 & v2 & did2 & B1 & B2 & ->); rewrite NM in B2; rewrite A1 in B1; injection B1 as <- <- <- <-; rewrite A2 in B2; injection B2 as <-; reflexivity.
  - intros -> ->. reflexivity.
  - intros (x & coll & k & did & key & recs & v & A1 & A2 & A3 & A4 & A5 & A6 & ->) (x2 & coll2 & k2 & did2 & key2 & recs2 & v2 & B1 & B2 & B3 & B4 & B5 & B6 & ->).
    rewrite NM in B4. rewrite A1 in B1. injection B1 as <-. rewrite A2 in B2. injection B2 as <-. rewrite A3 in B3. injection B3 as <-. rewrite A4 in B4. injection B4 as <-.
    rewrite A5 in B5. injection B5 as <- <-. rewrite A6 in B6. injection B6 as <-. reflexivity.
Qed.

Lemma request_again sv w bk q q' lost : hosts sv w bk -> p_be sv = Datastore ->
  let st' := halfway lost (w_state w) (fst (on_request sv q (w_state w))) in (s_next st' < 2 ^ 55)%Z ->
  forall a, snd (on_request sv q' st') = Ok a <-> snd (on_request sv q' (w_state w)) = Ok a.
Proof.
  intros H BE st' LT a. pose proof (h_request_dies digest kdigest sv w bk q lost H BE) as H'. fold st' in H'.
  assert (SE : forall x, seen Datastore st' x = seen Datastore (w_state w) x) by (intros x; apply (request_seen sv w bk q lost x H BE)).
  assert (LT0 : (s_next (w_state w) < 2 ^ 55)%Z).
  { eapply Z.le_lt_trans; [|exact LT]. unfold st', halfway. cbn [reboot s_next set_ents].
    assert (U : ups (on_request sv q)) by (unfold LiveSpec.on_request; rewrite BE; apply ups_serve). pose proof (proj2 (U (w_state w))). lia. }
  destruct (on_request sv q' (w_state w)) as [s1 o1] eqn:E1. destruct (on_request sv q' st') as [s2 o2] eqn:E2. cbn [snd].
  pose proof (c72_requests digest kdigest D32 sv w bk q' s1 o1 H ltac:(rewrite BE; discriminate) E1) as C1.
  pose proof (c72_requests digest kdigest D32 sv (World st' []) bk q' s2 o2 H' ltac:(rewrite BE; discriminate) E2) as C2.
  rewrite BE in C1, C2. pose proof (request_ok_same (p_validate sv) (p_netloc sv) (p_cfg sv) w bk q' st' [] SE LT0 LT) as RS.
  destruct C1 as [(R1 & a1 & -> & A1)|(R1 & e1 & ->)], C2 as [(R2 & a2 & -> & A2)|(R2 & e2 & ->)]; [|tauto|tauto|split; discriminate].
  pose proof (answered_same _ _ _ _ _ _ _ SE A1 A2) as <-. reflexivity.
Qed.

Lemma import_again sv w bk sv0 w0 bk0 x did o h key0 recs since car header key lost header' key' : hosts sv w bk -> hosts sv0 w0 bk0 -> p_be sv = Datastore ->
  names (p_be sv0) (p_netloc sv0) (w_state w0) x did o -> r_head o = Some h -> dget did bk0 = Some (key0, recs) -> since = None \/ since = Some [] ->
  snd (on_get_repo digest sv0 x since (w_state w0)) = Ok car -> takes sv header' bk did h ->
  let st' := halfway lost (w_state w) (fst (on_import sv header car key (w_state w))) in
  snd (on_import sv header' car key' st') = Ok tt /\
  exists o', seen Datastore (fst (on_import sv header' car key' st')) did = Some o' /\ r_key o' = key' /\ shows kdigest (fst (on_import sv header' car key' st')) o' recs.
Proof.
  intros H H0 BE NM HH B SI EC TA st'. pose proof (h_import_dies digest kdigest sv w bk sv0 w0 bk0 x did o key0 recs since car header key lost H H0 BE NM B SI EC) as H'. fold st' in H'.
  destruct (on_import sv header' car key' st') as [s1 o1] eqn:E. cbn [fst snd].
  destruct (c72_imports digest kdigest D32 sv (World st' []) bk sv0 w0 bk0 x did o h key0 recs since car header' key' s1 o1 H' H0 NM HH B SI EC E) as [(_ & -> & o' & h' & S1 & _ & _ & _ & _ & K & SH)|(N & _)]; [|contradiction].
  rewrite BE in S1. split; [reflexivity|]. exists o'. auto.
Qed.
End Death.
