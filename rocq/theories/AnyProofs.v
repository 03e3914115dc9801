(** Isolation for servers that do everything. *)
From Coq Require Import String List NArith ZArith Bool Lia.
From Verif Require Import Base Lists Ipld IpldProofs MstModel CarModel StorageModel StorageSpec RepoSpec UriModel ServerModel ServerSpec
  IsolateSpec IsolateProofs AnySpec.
Import ListNotations.

Section I.
Variable digest : list N -> list N.
Variable kdigest : str -> list N.
Variable validate : ipld -> res unit.
Variable ecdsa : N -> Z -> list N -> list N.
Variable now : Z -> str.
Variable cb : nat -> option exn.
Variable be : backend.
Hypothesis inj : forall a b, digest a = digest b -> a = b.
Variable did : str.
Hypothesis isdid : is_did did.
Notation J := (J digest).
Notation frame := (frame did).
Notation tri := (tri digest did).
Notation ctx := (ctx did).

Lemma tri_bind {A B} P (m : M A) (f : A -> M B) Q R : tri P m Q -> (forall a, tri (Q a) (f a) R) -> tri P (bindM m f) R.
Proof. exact (IsolateProofs.tri_bind digest kdigest did P m f Q R). Qed.
Lemma tri_skip {A B} P (m : M A) (f : A -> M B) Q : pure m -> (forall a, tri P (f a) Q) -> tri P (bindM m f) Q.
Proof. exact (IsolateProofs.tri_skip digest kdigest did P m f Q). Qed.
Lemma tri_ex {A X} (P : X -> state -> Prop) (m : M A) Q : (forall x, tri (P x) m Q) -> tri (fun st => exists x, P x st) m Q.
Proof. intros H st HJ [x HP]. exact (H x st HJ HP). Qed.

(** ** Requests *)

Section Request.
Variable netloc_ok : str -> bool.
Variable cfg : config.
Notation named_did := (named_did be netloc_ok).

Lemma seen_load st x st1 r : load_repo be x st = (st1, Ok (Some r)) -> seen be st x = nth_error (s_objs st1) r.
Proof. intros E. unfold seen. rewrite E. reflexivity. Qed.

(** A load changes nothing that loads see. *)
Lemma load_same st x st1 out : load_repo be x st = (st1, out) -> forall y, seen be st1 y = seen be st y.
Proof.
  intros E y. destruct be.
  - assert (st1 = st) as ->; [|reflexivity]. unfold load_repo, bindM, assert, reads in E. destruct (nonempty x); [|injection E; auto].
    cbn [ret] in E. pose proof (pure_mem_find x (s_mem st) st) as P. destruct (mem_find x (s_mem st) st) as [st2 o]. cbn in P. injection E as <- _. exact P.
  - assert (S : s_ents st1 = s_ents st /\ s_blocks st1 = s_blocks st).
    { unfold load_repo, bindM, assert, reads in E. destruct (nonempty x); [|injection E as <- _; auto]. cbn [ret] in E.
      destruct (ent_find x (s_ents st)) as [[k e]|]; [|injection E as <- _; auto]. unfold repo_load, bindM, reads, lift in E.
      destruct (read st (e_head e)) as [b|]; [|injection E as <- _; auto].
      destruct (item_link (s "data") (b_val b)); [|injection E as <- _; auto]. injection E as <- _. auto. }
    destruct S as [S1 S2]. unfold seen, load_repo, bindM, assert, reads. destruct (nonempty y); [|reflexivity]. cbn [ret]. rewrite S1.
    destruct (ent_find y (s_ents st)) as [[k e]|]; [|reflexivity]. unfold repo_load, bindM, reads, lift, read. rewrite S2.
    destruct (dget (e_head e) (s_blocks st)) as [b|]; [|reflexivity]. destruct (item_link (s "data") (b_val b)); [|reflexivity].
    unfold new_obj, ret. cbn. rewrite !nth_error_app2, !PeanoNat.Nat.sub_diag by apply le_n. reflexivity.
Qed.

Lemma tri_load x y : repo_name netloc_ok x = Ok y -> tri (fun st => named_did st x <> Some did) (load_repo be y)
  (fun out st => forall r, out = Some r -> named_did st x <> Some did /\ exists d, ctx d [r] [] st).
Proof.
  intros RN st HJ ND. pose proof ND as ND0. unfold ServerSpec.named_did in ND. rewrite RN in ND.
  destruct (tri_load_repo digest kdigest cb be inj did [] [] [] y st HJ) as (J1 & F1 & Q1).
  { split; [apply not_nil, isdid|]. split; intros z []. }
  destruct (load_repo be y st) as [st1 [[r|]|e]] eqn:L; cbn [fst snd] in *; (split; [exact J1|split; [exact F1|]]); auto; [|discriminate].
  destruct Q1 as [_ Q1]. destruct (Q1 r eq_refl) as [_ (o & EO)]. rewrite (seen_load _ _ _ _ L), EO in ND.
  intros r' X. injection X as <-. split. { unfold ServerSpec.named_did in *. rewrite RN in *. rewrite (load_same _ _ _ _ L). exact ND0. }
  destruct (j_objs _ _ J1 r o EO) as [_ HD]. destruct (r_head o) as [b|] eqn:EH.
  - destruct (HD b eq_refl) as (k & _ & T & _).
    assert (D : repo_did o = Ok (Some k)) by (unfold repo_did; rewrite EH, T; reflexivity). rewrite D in ND.
    exists k. split; [congruence|]. split; [|intros z []]. intros z [<-|[]]. exists o. auto.
  - exists []. split; [apply not_nil, isdid|]. split; [|intros z []]. intros z [<-|[]]. exists o. auto.
Qed.

Lemma tri_server_load x : tri (fun st => named_did st x <> Some did) (server_load be netloc_ok x)
  (fun r st => named_did st x <> Some did /\ exists d, ctx d [r] [] st).
Proof.
  unfold server_load. eapply tri_bind with (Q := fun y st => named_did st x <> Some did /\ repo_name netloc_ok x = Ok y).
  - apply tri_pure_val.
    + destruct (starts_with (s "at://") x); [apply pure_bind; [apply pure_lift|intros; apply pure_ret]|apply pure_ret].
    + intros st y _ ND E. split; [exact ND|]. unfold repo_name. destruct (starts_with (s "at://") x); [|injection E as ->; reflexivity].
      unfold bindM, lift in E. destruct (parse_at_uri netloc_ok x); [|discriminate]. injection E as E. cbn [bind]. rewrite E. reflexivity.
  - intros y. apply tri_and. intros RN. eapply tri_bind; [apply (tri_load x y RN)|]. intros [r|]; [|apply tri_throw]. cbn beta.
    apply tri_skip; [apply pure_obj|]. intros o. destruct (r_status o) as [[|a z]|]; try apply tri_throw; apply tri_ret; intros st _ X; exact (X r eq_refl).
Qed.

Lemma pure_find o c k : pure (find_record kdigest o c k).
Proof. intros st. reflexivity. Qed.
Lemma pure_did_of o : pure (did_of o).
Proof. unfold did_of. apply pure_need_did. Qed.

Lemma tri_a_commit d r ws : tri (ctx d [r] []) (commit digest kdigest validate ecdsa cb be r ws None) (fun _ _ => True).
Proof.
  eapply tri_weaken; [apply (tri_commit digest kdigest validate ecdsa now cb be inj did (ctx d [r] []) d)|intros st _ X; exact X|auto].
  - apply ctx_stable.
  - apply (tri_commit_target digest kdigest cb be inj did).
Qed.

Lemma tri_any_commit x r ws : tri (fun st => named_did st x <> Some did /\ exists d, ctx d [r] [] st)
  (commit digest kdigest validate ecdsa cb be r ws None) (fun _ _ => True).
Proof. intros st HJ [_ [d C]]. exact (tri_a_commit d r ws st HJ C). Qed.

Definition about (x : option str) (st : state) : Prop := forall y, x = Some y -> named_did st y <> Some did.

Lemma tri_arg {B} x (f : str -> M B) Q : (forall y, tri (fun st => named_did st y <> Some did) (f y) Q) -> tri (about x) (bindM (lift (arg x)) f) Q.
Proof.
  intros H. destruct x as [y|]; cbn [arg].
  - intros st HJ A. exact (H y st HJ (A y eq_refl)).
  - intros st HJ A. cbn. split; [exact HJ|]. split; [apply frame_refl|exact Logic.I].
Qed.

Ltac skip := apply tri_skip; [first [apply pure_lift|apply pure_obj|apply pure_find|apply pure_did_of]|]; intros ?.

Lemma tri_put header i : tri (about (i_repo i)) (put_record digest kdigest validate ecdsa cb be netloc_ok cfg header i) (fun _ _ => True).
Proof.
  unfold put_record. skip. skip. apply tri_arg. intros x. eapply tri_bind; [apply tri_server_load|]. intros r. cbn beta.
  skip. skip. skip. skip. destruct (i_record i) as [v|]; [|apply tri_throw].
  eapply tri_bind; [apply (tri_any_commit x r)|].
  intros cd. cbn beta. skip. skip. skip. apply tri_ret. auto.
Qed.

Lemma tri_delete header i : tri (about (i_repo i)) (delete_record digest kdigest validate ecdsa cb be netloc_ok cfg header i) (fun _ _ => True).
Proof.
  unfold delete_record. skip. skip. apply tri_arg. intros x. eapply tri_bind; [apply tri_server_load|]. intros r. cbn beta.
  skip. skip. skip. skip. destruct (_ : option ipld); [|apply tri_ret; auto].
  eapply tri_bind; [apply (tri_any_commit x r)|].
  intros cd. cbn beta. apply tri_ret. auto.
Qed.

Lemma tri_create header i tid : tri (about (i_repo i)) (create_record digest kdigest validate ecdsa cb be netloc_ok cfg header i tid) (fun _ _ => True).
Proof.
  unfold create_record. apply tri_skip; [destruct (given (i_collection i)); [apply pure_ret|apply pure_lift]|]. intros coll. skip. skip.
  assert (R : i_repo (match i_rkey i with Some _ => i | None => with_rkey i tid end) = i_repo i) by (destruct (i_rkey i); reflexivity).
  destruct (i_repo i) as [x|] eqn:E.
  - eapply tri_bind with (Q := fun y st => named_did st x <> Some did /\ y = x).
    + apply tri_pure_val; [apply pure_lift|]. intros st y _ A X. injection X as <-. split; [|reflexivity]. exact (A x eq_refl).
    + intros y. apply tri_and. intros ->. eapply tri_bind; [apply tri_server_load|]. intros r. cbn beta.
      eapply tri_weaken; [apply tri_put| |auto]. rewrite R. intros st _ [ND _] y Y. injection Y as <-. exact ND.
  - intros st HJ A. cbn [arg]. cbn. split; [exact HJ|]. split; [apply frame_refl|exact Logic.I].
Qed.

Lemma tri_get repo collection rkey c : tri (about repo) (xrpc_get_record digest kdigest be netloc_ok cfg repo collection rkey c) (fun _ _ => True).
Proof.
  unfold xrpc_get_record. skip. apply tri_skip; [destruct (given c); [apply pure_throw|apply pure_ret]|]. intros _.
  apply tri_arg. intros x. eapply tri_bind; [apply tri_server_load|]. intros r. cbn beta. skip. skip.
  destruct (_ : option ipld) as [v|]; [|apply tri_throw]. destruct (negb _); [apply tri_throw|]. skip. skip. apply tri_ret. auto.
Qed.

Lemma tri_serve q : tri (about (request_repo q)) (serve digest kdigest validate ecdsa cb be netloc_ok cfg q) (fun _ _ => True).
Proof.
  destruct q; cbn [serve request_repo].
  - eapply tri_bind; [apply tri_create|]. intros x. apply tri_ret. auto.
  - eapply tri_bind; [apply tri_put|]. intros x. apply tri_ret. auto.
  - eapply tri_bind; [apply tri_delete|]. intros x. apply tri_ret. auto.
  - eapply tri_bind; [apply tri_get|]. intros x. apply tri_ret. auto.
Qed.
End Request.

(** ** Imports *)

Section Import.
Variable cfg : config.
Variable resolve : str -> res ipld.
Variable signing_key : ipld -> option (list N).
Variable verify : ipld -> list N -> bool.
Variable handle_of : ipld -> option str.
Hypothesis dids : forall x doc, resolve x = Ok doc -> is_did x /\ handle_ok (handle_of doc).
Notation wf := (IsolateProofs.wf digest).

Definition acc_ok (acc : list block * import_head) : Prop :=
  Forall wf (fst acc) /\
  match snd acc with
  | Some (h, d, doc) => In h (fst acc) /\ item_text (s "did") (b_val h) = Ok d /\ is_did d /\ handle_ok (handle_of doc)
  | None => True
  end.
Definition from (hc : cid) (bl : list (cid * list N)) (x y : import_head) : Prop :=
  (forall c data, In (c, data) bl -> decode data <> None) /\
  (y = x \/ exists data h d doc, y = Some (h, d, doc) /\ In (hc, data) bl /\ decode data = Some (b_val h)).

Lemma tri_blocks hc : forall bl acc,
  (forall c data v, In (c, data) bl -> decode data = Some v -> c = cid_of digest v) -> acc_ok acc ->
  tri (ctx [] [] []) (import_blocks be resolve signing_key verify hc bl acc)
    (fun acc' st => ctx [] [] [] st /\ (acc_ok acc' /\ from hc bl (snd acc) (snd acc'))).
Proof.
  induction bl as [|[c data] bl IH]; intros acc HO OK; cbn [import_blocks].
  { apply tri_ret. intros st _ C. split; [exact C|]. split; [exact OK|]. split; [intros c data []|left; reflexivity]. }
  apply tri_skip; [apply pure_assert|]. intros _. destruct (decode data) as [v|] eqn:DE; [|apply tri_throw].
  assert (W : wf (Block c v 0 None None)) by (unfold IsolateProofs.wf; cbn; eapply HO; [left; reflexivity|exact DE]).
  assert (F : Forall wf (fst acc ++ [Block c v 0 None None])).
  { apply Forall_app. split; [apply OK|]. constructor; [exact W|constructor]. }
  assert (HO' : forall c data v, In (c, data) bl -> decode data = Some v -> c = cid_of digest v)
    by (intros; eapply HO; [right; eassumption|assumption]).
  assert (AD : forall c' data', In (c', data') ((c, data) :: bl) -> (forall c data, In (c, data) bl -> decode data <> None) -> decode data' <> None)
    by (intros c' data' [X|X] A; [injection X as <- <-; rewrite DE; discriminate|exact (A _ _ X)]).
  destruct (str_eqb_spec c hc) as [->|NE].
  - eapply tri_bind with (Q := fun d st => ctx [] [] [] st /\ item_text (s "did") v = Ok d).
    { apply tri_pure_val; [apply pure_lift|]. intros st d _ C E. split; [exact C|]. unfold lift in E. injection E as E. exact E. }
    intros d. apply tri_and. intros TD.
    eapply tri_bind; [apply (tri_load_repo digest kdigest cb be inj did)|]. intros ex. cbn beta.
    apply tri_skip; [destruct (is_some ex); [apply pure_throw|apply pure_ret]|]. intros _.
    eapply tri_bind with (Q := fun doc st => ctx [] [] [] st /\ resolve d = Ok doc).
    { apply tri_pure_val; [apply pure_lift|]. intros st doc _ [C _] E. split; [exact C|]. unfold lift in E. injection E as E. exact E. }
    intros doc. apply tri_and. intros RD. destruct (dids _ _ RD) as [ID HH].
    destruct (signing_key doc) as [k|]; [|apply tri_throw]. destruct (verify v k); [|apply tri_throw].
    eapply tri_weaken; [apply IH; [exact HO'|]|intros st _ C; exact C|].
    + split; [exact F|]. cbn [fst snd]. split; [apply in_or_app; right; left; reflexivity|]. auto.
    + cbn beta. cbn [snd]. intros acc' st _ (C & OK' & A & X). split; [exact C|]. split; [exact OK'|]. split; [eauto|].
      right. destruct X as [X|(data' & h & d' & doc' & X & HI & D)].
      * exists data, (Block hc v 0 None None), d, doc. split; [exact X|]. split; [left; reflexivity|exact DE].
      * exists data', h, d', doc'. split; [exact X|]. split; [right; exact HI|exact D].
  - eapply tri_weaken; [apply IH; [exact HO'|]|intros st _ C; exact C|].
    + destruct OK as [OK1 OK2]. split; [exact F|]. cbn [fst snd]. destruct (snd acc) as [[[h d] doc]|]; [|exact OK2].
      destruct OK2 as (A & B). split; [apply in_or_app; left; exact A|exact B].
    + cbn beta. cbn [snd]. intros acc' st _ (C & OK' & A & X). split; [exact C|]. split; [exact OK'|]. split; [eauto|].
      destruct X as [X|(data' & h & d' & doc' & X & HI & D)]; [left; exact X|].
      right. exists data', h, d', doc'. split; [exact X|]. split; [right; exact HI|exact D].
Qed.

Lemma car_others car hc rest bl data v : honest_car digest car -> car_did car <> Some did -> read_car car = Some (hc :: rest, bl) ->
  In (hc, data) bl -> decode data = Some v -> (forall c data, In (c, data) bl -> decode data <> None) -> item_text (s "did") v <> Ok did.
Proof.
  intros HO ND R HI DE AD TD. apply ND. unfold car_did. rewrite R.
  destruct (dget hc bl) as [data'|] eqn:G.
  2: { exfalso. apply dget_None in G. apply G. apply in_map_iff. exists (hc, data). auto. }
  apply dget_In in G. destruct (decode data') as [v'|] eqn:DE'; [|exfalso; exact (AD _ _ G DE')].
  assert (v' = v) as ->; [|rewrite TD; reflexivity].
  apply (cid_of_inj digest); [exact inj|]. rewrite <- (HO _ _ _ _ _ R G DE'), <- (HO _ _ _ _ _ R HI DE). reflexivity.
Qed.

Lemma tri_import header car key : honest_car digest car -> car_did car <> Some did ->
  tri (ctx [] [] []) (import_repo be cfg resolve signing_key verify handle_of header car key) (fun _ _ => True).
Proof.
  intros HO ND. unfold import_repo. apply tri_skip; [apply pure_lift|]. intros _.
  destruct (read_car car) as [[[|hc rest] bl]|] eqn:R; try apply tri_throw.
  eapply tri_bind; [apply tri_blocks|].
  - intros c data v HI D. exact (HO _ _ _ _ _ R HI D).
  - split; [constructor|exact Logic.I].
  - intros [bs hd]. cbn [fst snd]. apply tri_and. intros [[OK1 OK2] [AD X]]. cbn [fst snd] in *.
    destruct hd as [[[h d] doc]|]; [|apply tri_throw].
    destruct OK2 as (HI & TD & ID & HH).
    assert (N : d <> did).
    { intros ->. destruct X as [X|(data & h' & d' & doc' & X & HI' & D)]; [discriminate X|]. injection X as <- <- <-.
      exact (car_others _ _ _ _ _ _ HO ND R HI' D AD TD). }
    apply tri_skip; [destruct (nonempty d); [apply pure_ret|apply pure_throw]|]. intros _.
    eapply tri_bind; [apply (tri_write_blocks digest inj did)|].
    + apply ctx_stable.
    + apply Forall_map. cbn. exact OK1.
    + intros []. cbn beta. apply tri_skip; [apply pure_lift|]. intros data.
      eapply tri_bind with (Q := fun r st => ctx d [r] [] st).
      * intros st HJ [_ S]. set (oh := Block (b_cid h) (b_val h) (b_seq h) (b_ops h) (Some d)).
        destruct (S oh) as (x & RX & VX). { apply in_map_iff. exists h. split; [reflexivity|exact HI]. }
        assert (HK : head_ok st oh d) by (split; [exists x; auto|split; [exact TD|exact ID]]).
        set (o := Repo (mst_load data) (Some oh) (handle_of doc) (Some (s "deactivated")) false key).
        destruct (J_new digest kdigest cb inj did st o HJ) as [J1 F1].
        { split; [exact HH|]. intros h0 E. injection E as <-. exists d. exact HK. }
        unfold new_obj. cbn [fst snd]. split; [exact J1|]. split; [exact F1|]. split; [exact N|]. split; [|intros z []].
        intros z [<-|[]]. exists o. split; [cbn; rewrite nth_error_app2, PeanoNat.Nat.sub_diag by apply le_n; reflexivity|].
        right. unfold repo_did. cbn [o r_head oh b_val]. rewrite TD. reflexivity.
      * intros r. cbn beta. eapply tri_weaken; [apply (tri_create_repo digest kdigest cb be did d [r] [] r); left; reflexivity|auto|auto].
Qed.
End Import.

(** ** Everything *)

Notation astep := (astep digest kdigest validate ecdsa now cb be).

Lemma whole {A} w (m : M A) P Q : JW digest w -> tri P m Q -> P (w_state w) ->
  JW digest (World (fst (m (w_state w))) (w_refs w)) /\ others did w (World (fst (m (w_state w))) (w_refs w)).
Proof.
  intros [HJ R] T HP. destruct (T _ HJ HP) as (J1 & F1 & _). split; [split; [exact J1|]|].
  - cbn [w_refs w_state]. intros r I. pose proof (f_len _ _ _ F1). specialize (R r I). cbn. lia.
  - split; [exact F1|]. exists []. rewrite app_nil_r. reflexivity.
Qed.

Lemma astep_others w a : JW digest w -> act_ok digest a -> act_did be w a <> Some did ->
  JW digest (fst (astep w a)) /\ others did w (fst (astep w a)).
Proof.
  intros HW OK ND. destruct a as [op|nk cfg q|cfg res sk ver hof header car key]; cbn [AnySpec.astep act_ok act_did] in *.
  - pose proof (step_others digest kdigest validate ecdsa now cb be inj did isdid w op HW OK ND) as X.
    destruct (sstep digest kdigest validate ecdsa now cb be w op) as [w' o]. exact X.
  - pose proof (whole w _ _ _ HW (tri_serve nk cfg q)) as X.
    destruct (serve digest kdigest validate ecdsa cb be nk cfg q (w_state w)) as [st o]. apply X.
    intros y E. rewrite E in ND. exact ND.
  - destruct OK as [HO DS]. pose proof (whole w _ _ _ HW (tri_import cfg res sk ver hof DS header car key HO ND)) as X.
    destruct (import_repo be cfg res sk ver hof header car key (w_state w)) as [st o]. apply X.
    split; [apply not_nil, isdid|]. split; intros z [].
Qed.
End I.

Section Top.
Variable digest : list N -> list N.
Variable kdigest : str -> list N.
Variable validate : ipld -> res unit.
Variable ecdsa : N -> Z -> list N -> list N.
Variable now : Z -> str.
Variable cb : nat -> option exn.
Variable be : backend.
Hypothesis inj : forall a b, digest a = digest b -> a = b.
Notation astep := (astep digest kdigest validate ecdsa now cb be).
Notation arun := (arun digest kdigest validate ecdsa now cb be).
Notation reads_same := (reads_same kdigest).

Lemma astep_JW w a : JW digest w -> act_ok digest a -> JW digest (fst (astep w a)).
Proof.
  intros HW OK. destruct (some_did_ok digest kdigest inj (act_did be w a)) as [A B].
  exact (proj1 (astep_others digest kdigest validate ecdsa now cb be inj (some_did (act_did be w a)) A w a HW OK B)).
Qed.
Lemma arun_JW l : forall w, JW digest w -> Forall (act_ok digest) l -> JW digest (arun w l).
Proof.
  unfold AnySpec.arun. induction l as [|a l IH]; intros w HW OK; cbn [fold_left]; [exact HW|].
  inversion OK; subst. apply IH; [|assumption]. apply astep_JW; assumption.
Qed.

Lemma others_same did w w' : is_did did -> JW digest w -> JW digest w' -> others did w w' ->
  match seen be (w_state w) did with
  | Some o => exists o', seen be (w_state w') did = Some o' /\ reads_same (w_state w) (w_state w') o o'
  | None => seen be (w_state w') did = None
  end /\
  (forall h o, handle_obj w h = Some o -> handle_did w h = Some did ->
     exists o', handle_obj w' h = Some o' /\ handle_did w' h = Some did /\ reads_same (w_state w) (w_state w') o o').
Proof.
  intros ID [Ja _] [Jb _] [F [l R]].
  assert (RS : forall o o', same_repo o o' -> reads_same (w_state w) (w_state w') o o').
  { intros o o' S. split; [exact S|]. split.
    - intros coll rkey v. apply get_record_grows; [apply F|exact S].
    - intros v. apply get_contents_grows; [apply F|exact S]. }
  split.
  - destruct (seen be (w_state w) did) as [o|] eqn:SE.
    + destruct (seen_others digest be did ID _ _ o Ja Jb F SE) as (o' & A & B). exists o'. auto.
    + destruct (seen be (w_state w') did) as [o|] eqn:SE'; [|reflexivity]. exfalso.
      rewrite (seen_eq digest be did ID) in SE by exact Ja. rewrite (seen_eq digest be did ID) in SE' by exact Jb.
      unfold stored in *. rewrite (f_mem _ _ _ F), (f_ents _ _ _ F) in SE'. destruct be.
      * destruct (dget did (s_mem (w_state w))) as [r|] eqn:X; [|discriminate]. apply dget_In in X.
        destruct (j_mem _ _ Ja _ _ X) as (o' & Y & _). congruence.
      * destruct (dget did (s_ents (w_state w))) as [e|] eqn:X; [|discriminate]. apply dget_In in X.
        destruct (j_ents _ _ Ja _ _ X) as (_ & _ & b & Y & _). rewrite Y in SE. rewrite (f_blocks _ _ _ F _ _ Y) in SE'.
        destruct (item_link (s "data") (b_val b)); discriminate.
  - intros h o HO HD. unfold handle_obj in HO. destruct (nth_error (w_refs w) h) as [r|] eqn:HR; [|discriminate].
    assert (D : repo_did o = Ok (Some did)).
    { unfold handle_did, handle_obj in HD. rewrite HR, HO in HD. destruct (repo_did o); congruence. }
    destruct (f_objs _ _ _ F r o HO D) as (o' & A & S).
    assert (HR' : nth_error (w_refs w') h = Some r).
    { rewrite R, nth_error_app1; [exact HR|]. apply nth_error_Some. congruence. }
    exists o'. unfold handle_did, handle_obj. rewrite HR', A. split; [reflexivity|]. split; [|auto].
    rewrite (same_repo_did _ _ S), D. reflexivity.
Qed.

Lemma c71_any l a did : Forall (act_ok digest) (l ++ [a]) -> is_did did ->
  let w := arun init_world l in
  let w' := fst (astep w a) in
  act_did be w a <> Some did ->
  match seen be (w_state w) did with
  | Some o => exists o', seen be (w_state w') did = Some o' /\ reads_same (w_state w) (w_state w') o o'
  | None => seen be (w_state w') did = None
  end /\
  (forall h o, handle_obj w h = Some o -> handle_did w h = Some did ->
     exists o', handle_obj w' h = Some o' /\ handle_did w' h = Some did /\ reads_same (w_state w) (w_state w') o o').
Proof.
  intros OK ID w w' ND. apply Forall_app in OK as [OK1 OK2]. inversion OK2; subst.
  pose proof (arun_JW l init_world (JW_init digest) OK1) as HW. fold w in HW.
  destruct (astep_others digest kdigest validate ecdsa now cb be inj did ID w a HW) as [HW' O]; [assumption|exact ND|].
  exact (others_same did w w' ID HW HW' O).
Qed.
End Top.
