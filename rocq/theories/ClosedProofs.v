(** Repos that are not active stay as they are, whatever is requested. *)
From Coq Require Import String List NArith ZArith Bool Lia.
From Verif Require Import Base Lists Ipld IpldProofs MstModel MstRep CarModel StorageModel StorageSpec RepoSpec RepoProofs UriModel ServerModel ServerSpec
  IsolateSpec IsolateProofs AnySpec AnyProofs.
Import ListNotations.
Local Open Scope m_scope.

(** ** Entities are in key order *)

Definition tidy (st : state) : Prop := ssorted (keys (s_ents st)).
Definition tidies {A} (m : M A) : Prop := forall st, tidy st -> tidy (fst (m st)).

Lemma tidies_same {A} (m : M A) : (forall st, s_ents (fst (m st)) = s_ents st) -> tidies m.
Proof. intros H st T. unfold tidy. rewrite H. exact T. Qed.
Lemma tidies_pure {A} (m : M A) : pure m -> tidies m.
Proof. intros H. apply tidies_same. intros st. rewrite H. reflexivity. Qed.
Lemma tidies_bind {A B} (m : M A) (f : A -> M B) : tidies m -> (forall a, tidies (f a)) -> tidies (bindM m f).
Proof.
  intros H1 H2 st T. unfold bindM. specialize (H1 st T). destruct (m st) as [st1 [a|e]]; [|exact H1]. apply H2. exact H1.
Qed.
Lemma tidies_exception {A} (m : M A) h : tidies m -> tidies h -> tidies (on_exception m h).
Proof.
  intros H1 H2 st T. unfold on_exception. specialize (H1 st T). destruct (m st) as [st1 [a|e]]; [exact H1|]. cbn [fst] in H1. specialize (H2 st1 H1).
  destruct (h st1) as [st2 [u|e2]]; exact H2.
Qed.
Lemma tidies_new o : tidies (new_obj o).
Proof. apply tidies_same. reflexivity. Qed.
Lemma tidies_attr r f : tidies (set_attr r f).
Proof. apply tidies_same. intros st. unfold set_attr, bindM, obj, put_obj, modify. destruct (nth_error (s_objs st) r); reflexivity. Qed.
Lemma tidies_blocks bs : tidies (write_blocks bs).
Proof. apply tidies_same. reflexivity. Qed.
Lemma tidies_seq : tidies allocate_seq.
Proof. apply tidies_same. reflexivity. Qed.
Lemma tidies_put (k : str) (f : state -> entity) : tidies (modify (fun st => set_ents (ent_put k (f st) (s_ents st)) st)).
Proof. intros st T. apply ent_put_sorted. exact T. Qed.
Lemma tidies_mem f : tidies (modify (fun st => set_mem (f st) st)).
Proof. apply tidies_same. reflexivity. Qed.

Ltac tidy := repeat
  match goal with
  | |- tidies (ret _) => apply tidies_pure, pure_ret
  | |- tidies (throw _) => apply tidies_pure, pure_throw
  | |- tidies (lift _) => apply tidies_pure, pure_lift
  | |- tidies (assert _) => apply tidies_pure, pure_assert
  | |- tidies (obj _) => apply tidies_pure, pure_obj
  | |- tidies (reads _) => apply tidies_pure, pure_reads
  | |- tidies (need_did _) => apply tidies_pure, pure_need_did
  | |- tidies (did_of _) => apply tidies_pure, pure_did_of
  | |- tidies (mem_find _ _) => apply tidies_pure, pure_mem_find
  | |- tidies (find_record _ _ _ _) => apply tidies_pure, pure_find
  | |- tidies (new_obj _) => apply tidies_new
  | |- tidies (set_attr _ _) => apply tidies_attr
  | |- tidies (write_blocks _) => apply tidies_blocks
  | |- tidies allocate_seq => apply tidies_seq
  | |- tidies (bindM _ _) => apply tidies_bind; [|intros ?]
  | |- tidies (on_exception _ _) => apply tidies_exception
  | |- tidies (fun st => (st, _)) => apply tidies_same; reflexivity
  | |- tidies (modify (fun st => set_ents (ent_put ?k ?e _) _)) => exact (tidies_put k (fun _ => e))
  | |- tidies (modify (fun st => set_mem _ st)) => apply tidies_same; reflexivity
  | |- tidies (match ?x with _ => _ end) => destruct x
  | |- tidies (let '_ := ?x in _) => destruct x
  end.

Section T.
Variable digest : list N -> list N.
Variable kdigest : str -> list N.
Variable validate : ipld -> res unit.
Variable ecdsa : N -> Z -> list N -> list N.
Variable now : Z -> str.
Variable cb : nat -> option exn.
Variable be : backend.

Lemma tidies_callback r c : tidies (callback cb r c).
Proof.
  apply tidies_same. intros st. unfold callback, bindM, obj. destruct (nth_error (s_objs st) r) as [o|]; [|reflexivity].
  destruct (r_callback o); [|reflexivity]. reflexivity.
Qed.
Lemma tidies_load x : tidies (load_repo be x).
Proof. unfold load_repo. tidy; unfold repo_load; tidy. Qed.
Lemma tidies_commit r ws first : tidies (commit digest kdigest validate ecdsa cb be r ws first).
Proof.
  unfold commit. tidy; try apply tidies_callback. unfold commit_. tidy.
  - unfold commit_target. tidy; apply tidies_load.
  - match goal with |- tidies (foldM ?f _ _) => generalize (@nil (cid * block), @nil commit_op); assert (F : forall acc w, tidies (f acc w)) by (intros; unfold commit_write; tidy);
      revert F; generalize f end.
    intros f F. induction ws as [|w ws IH]; intros acc; cbn [foldM]; tidy; auto.
  - unfold commit_finish. tidy. unfold store_repo. tidy.
Qed.
Lemma tidies_event r type extra : tidies (write_event digest now cb be r type extra).
Proof. unfold write_event. tidy; try apply tidies_callback. unfold write_obj. tidy. Qed.
Lemma tidies_create did handle status x key : tidies (repo_create digest kdigest validate ecdsa now cb be did handle status x key).
Proof.
  unfold repo_create. tidy; try apply tidies_callback; try apply tidies_event; [apply tidies_commit|]. unfold create_repo. tidy.
Qed.
Lemma tidies_status r x : tidies (set_repo_status be r x).
Proof. unfold set_repo_status. tidy. Qed.

Lemma tidy_new w m : tidies m -> tidy (w_state w) -> tidy (w_state (fst (on_new w m))).
Proof. intros H T. unfold on_new. specialize (H _ T). destruct (m (w_state w)) as [st [[r|]|e]]; exact H. Qed.
Lemma tidy_ref w h f : (forall r, tidies (f r)) -> tidy (w_state w) -> tidy (w_state (fst (on_ref w h f))).
Proof.
  intros H T. unfold on_ref. destruct (nth_error (w_refs w) h) as [r|]; [|exact T]. specialize (H r _ T). destruct (f r (w_state w)); exact H.
Qed.
Lemma tidy_step w op : tidy (w_state w) -> tidy (w_state (fst (sstep digest kdigest validate ecdsa now cb be w op))).
Proof.
  intros T. destruct op; cbn [sstep].
  - apply tidy_new; [|exact T]. tidy. apply tidies_create.
  - apply tidy_new; [apply tidies_load|exact T].
  - destruct (nth_error (w_refs w) h); [|exact T]. apply tidy_new; [|exact T]. tidy. unfold repo_load. tidy.
  - apply tidy_ref; [|exact T]. intros. tidy.
  - apply tidy_ref; [|exact T]. intros. tidy. apply tidies_commit.
  - apply tidy_ref; [|exact T]. intros. unfold deactivate_repo. tidy; [apply tidies_status|apply tidies_event].
  - apply tidy_ref; [|exact T]. intros. unfold activate_repo. tidy; [apply tidies_status|apply tidies_event].
  - apply tidy_ref; [|exact T]. intros. unfold tombstone_repo. tidy; [apply tidies_status|apply tidies_event].
Qed.

Section Request.
Variable netloc_ok : str -> bool.
Variable cfg : config.
Lemma tidies_server x : tidies (server_load be netloc_ok x).
Proof. unfold server_load. tidy; apply tidies_load. Qed.
Lemma tidies_put_record header i : tidies (put_record digest kdigest validate ecdsa cb be netloc_ok cfg header i).
Proof. unfold put_record. tidy; try apply tidies_commit; apply tidies_server. Qed.
Lemma tidies_serve q : tidies (serve digest kdigest validate ecdsa cb be netloc_ok cfg q).
Proof.
  destruct q; cbn [serve]; unfold create_record, delete_record, xrpc_get_record; tidy;
    try apply tidies_server; try apply tidies_put_record; try apply tidies_commit.
Qed.
End Request.

Section Import.
Variable cfg : config.
Variable resolve : str -> res ipld.
Variable signing_key : ipld -> option (list N).
Variable verify : ipld -> list N -> bool.
Variable handle_of : ipld -> option str.
Lemma tidies_import header car key : tidies (import_repo be cfg resolve signing_key verify handle_of header car key).
Proof.
  unfold import_repo. tidy.
  - match goal with |- tidies (import_blocks _ _ _ _ _ ?bl ?acc) => generalize acc; induction bl as [|[c1 data1] bl IH]; intros acc1; cbn [import_blocks] end;
      tidy; auto; apply tidies_load.
  - unfold create_repo. tidy.
Qed.
End Import.

Lemma tidy_act w a : tidy (w_state w) -> tidy (w_state (fst (astep digest kdigest validate ecdsa now cb be w a))).
Proof.
  intros T. destruct a as [op|nk cfg q|cfg res sk ver hof header car key]; cbn [astep].
  - pose proof (tidy_step w op T) as X. destruct (sstep digest kdigest validate ecdsa now cb be w op). exact X.
  - pose proof (tidies_serve nk cfg q _ T) as X. destruct (serve digest kdigest validate ecdsa cb be nk cfg q (w_state w)). exact X.
  - pose proof (tidies_import cfg res sk ver hof header car key _ T) as X.
    destruct (import_repo be cfg res sk ver hof header car key (w_state w)). exact X.
Qed.
Lemma tidy_run l : forall w, tidy (w_state w) -> tidy (w_state (arun digest kdigest validate ecdsa now cb be w l)).
Proof. unfold arun. induction l as [|a l IH]; intros w T; cbn [fold_left]; [exact T|]. apply IH, tidy_act, T. Qed.
End T.

(** ** Requests for a repo that is not active *)

Definition stuck {A} (m : M A) (st : state) : Prop := same_storage st (fst (m st)) /\ exists e, snd (m st) = Err e.

Lemma same_storage_refl st : same_storage st st.
Proof. unfold same_storage. splits; auto. Qed.
Lemma stuck_throw {A} e st : stuck (@throw A e) st.
Proof. split; [apply same_storage_refl|]. exists e. reflexivity. Qed.
Lemma stuck_lift {A B} (x : res A) (f : A -> M B) st : (forall a, x = Ok a -> stuck (f a) st) -> stuck (bindM (lift x) f) st.
Proof.
  intros H. unfold bindM, lift, stuck. destruct x as [a|e]; [exact (H a eq_refl)|]. split; [apply same_storage_refl|]. exists e. reflexivity.
Qed.
Lemma stuck_pure {A B} (m : M A) (f : A -> M B) st : pure m -> (forall a, stuck (f a) st) -> stuck (bindM m f) st.
Proof.
  intros P H. unfold bindM, stuck. specialize (P st). destruct (m st) as [st1 [a|e]]; cbn [fst] in P; subst st1; [exact (H a)|].
  split; [apply same_storage_refl|]. exists e. reflexivity.
Qed.
Lemma stuck_first {A B} (m : M A) (f : A -> M B) st : stuck m st -> stuck (bindM m f) st.
Proof. intros [S (e & E)]. unfold stuck, bindM. destruct (m st) as [st1 o]. cbn [fst snd] in *. subst o. split; [exact S|]. exists e. reflexivity. Qed.

Section C.
Variable digest : list N -> list N.
Variable kdigest : str -> list N.
Variable validate : ipld -> res unit.
Variable ecdsa : N -> Z -> list N -> list N.
Variable now : Z -> str.
Variable cb : nat -> option exn.
Variable be : backend.

Lemma load_storage x st : same_storage st (fst (load_repo be x st)).
Proof.
  unfold load_repo, bindM, assert, reads. destruct (nonempty x); [|apply same_storage_refl]. cbn [ret]. destruct be.
  - rewrite pure_mem_find. apply same_storage_refl.
  - destruct (ent_find x (s_ents st)) as [[k e]|]; [|apply same_storage_refl]. unfold repo_load, bindM, reads, lift.
    destruct (read st (e_head e)) as [b|]; [|apply same_storage_refl]. destruct (item_link (s "data") (b_val b)); [|apply same_storage_refl].
    unfold new_obj, ret. cbn [fst]. unfold same_storage. cbn. splits; auto. intros r o H. rewrite nth_error_app1; [exact H|]. apply nth_error_Some. congruence.
Qed.

Section Request.
Variable netloc_ok : str -> bool.
Variable cfg : config.

(** The repo that [x] names has a status. *)
Definition closed (st : state) (x : str) : Prop :=
  exists y o c z, repo_name netloc_ok x = Ok y /\ seen be st y = Some o /\ r_status o = Some (c :: z).

Lemma stuck_load x st : closed st x -> stuck (server_load be netloc_ok x) st.
Proof.
  intros (y & o & c & z & RN & SE & RS). unfold server_load.
  assert (X : stuck (let! r := load_repo be y in
    match r with
    | None => throw (XrpcError (s "RepoNotFound"))
    | Some r => let! o := obj r in match r_status o with Some (_ :: _) => throw (XrpcError (s "RepoDeactivated")) | _ => ret r end
    end) st).
  { unfold stuck, bindM. pose proof (load_storage y st) as S. unfold seen in SE. destruct (load_repo be y st) as [st1 [[r|]|e]]; try discriminate SE.
    unfold obj. rewrite SE, RS. split; [exact S|]. exists (XrpcError (s "RepoDeactivated")). reflexivity. }
  unfold repo_name in RN. destruct (starts_with (s "at://") x).
  - unfold stuck in *. unfold bindM at 1 4. unfold bindM at 1 4, lift. destruct (parse_at_uri netloc_ok x) as [p|]; [|discriminate RN]. cbn [bind] in RN.
    injection RN as <-. exact X.
  - injection RN as ->. exact X.
Qed.

Lemma stuck_named {B} x (f : str -> M B) st : (forall y, x = Some y -> closed st y) -> (forall y, closed st y -> stuck (f y) st) -> stuck (bindM (lift (arg x)) f) st.
Proof. intros C H. apply stuck_lift. intros y E. apply H, C. destruct x; [injection E as ->; reflexivity|discriminate E]. Qed.

Lemma closed_put header i st : (forall x, i_repo i = Some x -> closed st x) -> stuck (put_record digest kdigest validate ecdsa cb be netloc_ok cfg header i) st.
Proof.
  intros C. unfold put_record. apply stuck_lift. intros _ _. apply stuck_lift. intros _ _. apply stuck_named; [exact C|]. intros y Y.
  apply stuck_first, stuck_load, Y.
Qed.

Lemma closed_request q st : (exists x, request_repo q = Some x /\ closed st x) -> stuck (serve digest kdigest validate ecdsa cb be netloc_ok cfg q) st.
Proof.
  intros (x & RQ & C). assert (C' : forall y, request_repo q = Some y -> closed st y) by (intros; congruence).
  destruct q as [header i tid|header i|header i|repo coll rkey c]; cbn [serve request_repo] in *; apply stuck_first.
  - unfold create_record. apply stuck_pure; [destruct (given (i_collection i)); [apply pure_ret|apply pure_lift]|]. intros ty.
    apply stuck_lift. intros _ _. apply stuck_lift. intros _ _. apply stuck_named; [exact C'|]. intros y Y. apply stuck_first, stuck_load, Y.
  - apply closed_put, C'.
  - unfold delete_record. apply stuck_lift. intros _ _. apply stuck_lift. intros _ _. apply stuck_named; [exact C'|]. intros y Y.
    apply stuck_first, stuck_load, Y.
  - unfold xrpc_get_record. apply stuck_lift. intros _ _. apply stuck_pure; [destruct (given c); [apply pure_throw|apply pure_ret]|]. intros _.
    apply stuck_named; [exact C'|]. intros y Y. apply stuck_first, stuck_load, Y.
Qed.
End Request.

(** ** Imports of a repo that is there *)

Section Import.
Variable cfg : config.
Variable resolve : str -> res ipld.
Variable signing_key : ipld -> option (list N).
Variable verify : ipld -> list N -> bool.
Variable handle_of : ipld -> option str.

Lemma stuck_blocks hc did v data o st : decode data = Some v -> item_text (s "did") v = Ok did -> seen be st did = Some o ->
  forall bl acc, dget hc bl = Some data -> stuck (import_blocks be resolve signing_key verify hc bl acc) st.
Proof.
  intros DE IT SE. induction bl as [|[c d] bl IH]; intros acc G; [discriminate G|]. cbn [dget import_blocks] in *.
  apply stuck_pure; [apply pure_assert|]. intros _. destruct (str_eqb_spec hc c) as [<-|NE].
  - injection G as ->. rewrite DE, str_eqb_refl. apply stuck_lift. intros k K. assert (k = did) as -> by congruence.
    unfold stuck, bindM at 1 4. pose proof (load_storage did st) as S. unfold seen in SE. destruct (load_repo be did st) as [st1 [[r|]|e]]; try discriminate SE.
    split; [exact S|]. exists ValueError. reflexivity.
  - destruct (decode d) as [v1|]; [|apply stuck_throw]. destruct (str_eqb_spec c hc) as [->|_]; [congruence|]. apply IH. exact G.
Qed.

Lemma stuck_import did o st header car key : car_did car = Some did -> seen be st did = Some o ->
  stuck (import_repo be cfg resolve signing_key verify handle_of header car key) st.
Proof.
  intros CD SE. unfold import_repo. apply stuck_lift. intros _ _. unfold car_did in CD. destruct (read_car car) as [[[|hc rest] bl]|]; try discriminate CD.
  destruct (dget hc bl) as [data|] eqn:G; [|discriminate CD]. destruct (decode data) as [v|] eqn:DE; [|discriminate CD].
  destruct (item_text (s "did") v) as [d|] eqn:IT; [|discriminate CD]. injection CD as ->. apply stuck_first. eapply stuck_blocks; eauto.
Qed.
End Import.

(** ** What a handle names is the repo of its DID *)

Lemma mem_find_in x st r : forall l, mem_find x l st = (st, Ok (Some r)) -> exists k, In (k, r) l.
Proof.
  induction l as [|[k r'] l IH]; cbn [mem_find]; [discriminate|]. unfold bindM, obj. destruct (nth_error (s_objs st) r') as [o|]; [|discriminate].
  unfold lift. destruct (repo_did o) as [d|]; [|discriminate]. destruct (opt_str_eqb x d || opt_str_eqb x (r_handle o)).
  - intros H. injection H as ->. exists k. left. reflexivity.
  - intros H. destruct (IH H) as (k1 & I). exists k1. right. exact I.
Qed.

Lemma seen_named st y did o : IsolateProofs.J digest st -> tidy st -> is_did did -> seen be st y = Some o -> repo_did o = Ok (Some did) -> seen be st did = Some o.
Proof.
  intros HJ T ID SE RD. rewrite (seen_eq digest be did ID _ HJ). unfold stored, seen, load_repo in *. unfold bindM, assert, reads in SE.
  destruct (nonempty y); [|discriminate SE]. cbn [ret] in SE. destruct be.
  - pose proof (pure_mem_find y (s_mem st) st) as P. destruct (mem_find y (s_mem st) st) as [st1 out] eqn:E. cbn [fst] in P. subst st1.
    destruct out as [[r|]|]; try discriminate SE. destruct (mem_find_in _ _ _ _ E) as (k & I). destruct (j_mem _ _ HJ _ _ I) as (o2 & O2 & D2).
    assert (k = did) as -> by congruence. apply In_dget in I; [|exact (j_nodup _ _ HJ)]. rewrite I. exact SE.
  - destruct (ent_find y (s_ents st)) as [[k e]|] eqn:E; [|discriminate SE].
    assert (I : In (k, e) (s_ents st)).
    { unfold ent_find in E. destruct (dget y (s_ents st)) as [e1|] eqn:G; [injection E as <- <-; apply In_dget1; exact G|]. apply find_some in E. apply E. }
    destruct (j_ents _ _ HJ _ _ I) as (_ & _ & b & R & IT). unfold repo_load, bindM, reads, lift in SE. rewrite R in SE.
    destruct (item_link (s "data") (b_val b)) as [root|] eqn:IL; [|discriminate SE]. unfold new_obj, ret in SE. cbn in SE.
    rewrite nth_error_app2, PeanoNat.Nat.sub_diag in SE by apply le_n. cbn in SE. injection SE as <-.
    unfold repo_did in RD. cbn [r_head] in RD. rewrite IT in RD. injection RD as ->.
    apply In_dget in I; [|apply ssorted_NoDup; exact T]. rewrite I, R, IL. reflexivity.
Qed.

Hypothesis inj : forall a b, digest a = digest b -> a = b.
Notation astep := (astep digest kdigest validate ecdsa now cb be).
Notation arun := (arun digest kdigest validate ecdsa now cb be).

Lemma same_others did w st : same_storage (w_state w) st -> others did w (World st (w_refs w)).
Proof.
  intros (_ & B & M & E & _ & O). split; [|exists []; rewrite app_nil_r; reflexivity]. cbn [w_state]. split.
  - intros r o H _. exists o. split; [apply O; exact H|apply same_repo_refl].
  - rewrite M. reflexivity.
  - rewrite E. reflexivity.
  - intros c b H. unfold read in *. rewrite B. exact H.
  - destruct (le_lt_dec (length (s_objs (w_state w))) (length (s_objs st))) as [|L]; [assumption|].
    destruct (nth_error (s_objs (w_state w)) (length (s_objs st))) as [o|] eqn:N; [|apply nth_error_None in N; lia].
    apply O in N. assert (X : nth_error (s_objs st) (length (s_objs st)) = None) by (apply nth_error_None; lia). congruence.
Qed.

Lemma closed_step did w a o c z : is_did did -> JW digest w -> tidy (w_state w) -> act_ok digest a -> seen be (w_state w) did = Some o -> r_status o = Some (c :: z) ->
  (forall op, a = AStorage op -> op_did w op <> Some did) -> others did w (fst (astep w a)).
Proof.
  intros ID HW T OK SE RS NO. assert (DEC : act_did be w a = Some did \/ act_did be w a <> Some did)
    by (destruct (act_did be w a) as [d|]; [destruct (str_eqb_spec d did); [left|right]; congruence|right; discriminate]).
  destruct DEC as [Y|N]; [|exact (proj2 (astep_others digest kdigest validate ecdsa now cb be inj did ID w a HW OK N))].
  destruct a as [op|nk cfg q|cfg res sk ver hof header car key]; cbn [AnySpec.astep act_did] in *.
  - destruct (NO op eq_refl Y).
  - destruct (request_repo q) as [x|] eqn:RQ; [|discriminate Y].
    assert (C : closed nk (w_state w) x).
    { unfold named_did in Y. destruct (repo_name nk x) as [y|] eqn:RN; [|discriminate Y]. destruct (seen be (w_state w) y) as [o2|] eqn:S2; [|discriminate Y].
      destruct (repo_did o2) as [d|] eqn:D2; [|discriminate Y]. subst d. pose proof (seen_named _ _ _ _ (proj1 HW) T ID S2 D2) as S3.
      exists y, o2, c, z. splits; auto. congruence. }
    destruct (closed_request nk cfg q (w_state w)) as [S _]; [eauto|].
    destruct (serve digest kdigest validate ecdsa cb be nk cfg q (w_state w)) as [st out]. apply same_others. exact S.
  - destruct (stuck_import cfg res sk ver hof did o (w_state w) header car key Y SE) as [S _].
    destruct (import_repo be cfg res sk ver hof header car key (w_state w)) as [st out]. apply same_others. exact S.
Qed.

Lemma others_trans did a b c : others did a b -> others did b c -> others did a c.
Proof.
  intros [F1 [l1 R1]] [F2 [l2 R2]]. split; [exact (frame_trans kdigest did _ _ _ F1 F2)|]. exists (l1 ++ l2). rewrite R2, R1, app_assoc. reflexivity.
Qed.

Lemma closed_run did o c z l : is_did did -> forall w, JW digest w -> tidy (w_state w) -> Forall (act_ok digest) l ->
  seen be (w_state w) did = Some o -> r_status o = Some (c :: z) ->
  (forall n op, nth_error l n = Some (AStorage op) -> op_did (arun w (firstn n l)) op <> Some did) ->
  JW digest (arun w l) /\ others did w (arun w l).
Proof.
  intros ID. revert o. induction l as [|a l IH]; intros o w HW T OK SE RS NO.
  - split; [exact HW|]. split; [apply frame_refl|]. exists []. rewrite app_nil_r. reflexivity.
  - inversion OK; subst. change (arun w (a :: l)) with (arun (fst (astep w a)) l).
    assert (O : others did w (fst (astep w a))).
    { eapply closed_step; eauto. intros op ->. exact (NO 0 op eq_refl). }
    pose proof (astep_JW digest kdigest validate ecdsa now cb be inj w a HW H1) as HW1.
    destruct (others_same digest kdigest be did w _ ID HW HW1 O) as [X _]. rewrite SE in X. destruct X as (o' & SE' & (S & _)).
    destruct (IH o' (fst (astep w a)) HW1 (tidy_act _ _ _ _ _ _ _ _ _ T) H2 SE') as [A B].
    + destruct S as (_ & _ & S & _). congruence.
    + intros n op N. exact (NO (Datatypes.S n) op N).
    + split; [exact A|]. exact (others_trans did _ _ _ O B).
Qed.

Lemma c23_closed l l2 did o c z : Forall (act_ok digest) (l ++ l2) -> is_did did -> let w := arun init_world l in
  seen be (w_state w) did = Some o -> r_status o = Some (c :: z) ->
  (forall n op, nth_error l2 n = Some (AStorage op) -> op_did (arun w (firstn n l2)) op <> Some did) ->
  exists o', seen be (w_state (arun w l2)) did = Some o' /\ reads_same kdigest (w_state w) (w_state (arun w l2)) o o'.
Proof.
  intros OK ID w SE RS NO. apply Forall_app in OK as [OK1 OK2].
  pose proof (arun_JW digest kdigest validate ecdsa now cb be inj l init_world (JW_init digest) OK1) as HW. fold w in HW.
  assert (T : tidy (w_state w)) by (apply tidy_run; constructor).
  destruct (closed_run did o c z l2 ID w HW T OK2 SE RS NO) as [HW2 O].
  destruct (others_same digest kdigest be did w _ ID HW HW2 O) as [X _]. rewrite SE in X. exact X.
Qed.

(** A request for such a repo fails and changes nothing. *)
Lemma c23_request netloc_ok cfg q st x y o c z : request_repo q = Some x -> repo_name netloc_ok x = Ok y -> seen be st y = Some o -> r_status o = Some (c :: z) ->
  exists st' e, serve digest kdigest validate ecdsa cb be netloc_ok cfg q st = (st', Err e) /\ same_storage st st'.
Proof.
  intros RQ RN SE RS. destruct (closed_request netloc_ok cfg q st) as [S (e & E)]. { exists x. split; [exact RQ|]. exists y, o, c, z. auto. }
  destruct (serve digest kdigest validate ecdsa cb be netloc_ok cfg q st) as [st' out]. cbn [fst snd] in *. subst out. eauto.
Qed.
End C.
