(** Events from a scan that stops are a beginning of the events. *)
From Coq Require Import String List NArith ZArith Bool Lia Sorted.
From Verif Require Import Base Lists Ipld StorageModel StorageSpec RepoSpec EventsModel EventsSpec EventsFacts StopModel StopProofs.
Import ListNotations.

Lemma yield_none i g : snd (yield i g) = None -> exists x, i = Ok x /\ snd g = None.
Proof. destruct i as [x|e]; cbn [yield snd]; [eauto|discriminate]. Qed.
Lemma yield_fst x g : fst (yield (Ok x) g) = x :: fst g.
Proof. reflexivity. Qed.
Lemma yield_snd x g : snd (yield (Ok x) g) = snd g.
Proof. reflexivity. Qed.
Lemma commit_item st c bl x : as_commit (make_commit st c bl) = Ok x -> exists cd, x = ECommit cd /\ cd_commit cd = c.
Proof.
  unfold as_commit, make_commit. destruct (b_ops c) as [ops|]; [|discriminate]. destruct (add_op_blocks st bl ops) as [l0|]; [|discriminate]. cbn [bind].
  destruct (item_link (s "data") (b_val c)) as [root|]; [|discriminate]. cbn [bind].
  destruct (dget root l0); [|destruct (read st root)]; cbn [bind]; intros H; try discriminate H; injection H as <-; eexists; split; reflexivity.
Qed.

(** Where items come from. *)
Definition comes (cb : option block) (bs : list block) (i : eitem) : Prop :=
  match i with EEvent v => exists b, In b bs /\ b_val b = v | ECommit cd => cb = Some (cd_commit cd) \/ In (cd_commit cd) bs end.
Lemma comes_more cb b bs i : comes cb bs i -> comes cb (b :: bs) i.
Proof. destruct i; cbn; [intros (x & X & <-); eauto|intros [H|H]; auto]. Qed.
Lemma comes_here (cb : option block) b bs i : comes (Some b) bs i -> comes cb (b :: bs) i.
Proof. destruct i; cbn; [intros (x & X & <-); eauto|intros [H|H]; auto]. injection H as <-. auto. Qed.
Lemma comes_none cb bs i : comes None bs i -> comes cb bs i.
Proof. destruct i; cbn; [auto|intros [H|H]; [discriminate H|auto]]. Qed.
Lemma yield_in i g x : In x (fst (yield i g)) -> i = Ok x \/ In x (fst g).
Proof. destruct i; cbn [yield fst]; [intros [->|H]; auto|intros []]. Qed.

Lemma loop_comes st bs : forall seq cb bl i, In i (fst (events_loop st seq cb bl bs)) -> comes cb bs i.
Proof.
  induction bs as [|b r IH]; intros seq cb bl i; cbn [events_loop].
  - destruct bl; [intros []|]. destruct cb as [c|]; [|intros []]. intros H. apply yield_in in H. destruct H as [H|[]].
    apply commit_item in H. destruct H as (cd & -> & E). cbn. left. rewrite E. reflexivity.
  - destruct (b_seq b =? 0)%Z; [intros []|].
    assert (BODY : forall cb0 bl0, In i (fst match event_block_value (b_val b) with
        | Err e => ([], Some e)
        | Ok true => yield (Ok (EEvent (b_val b))) (events_loop st (Some (b_seq b)) cb0 bl0 r)
        | Ok false => events_loop st (Some (b_seq b)) (if commit_keys (b_val b) then Some b else cb0) (dset (b_cid b) b bl0) r end) -> comes cb0 (b :: r) i).
    { intros cb0 bl0. destruct (event_block_value (b_val b)) as [[|]|]; [..|intros []].
      - intros H. apply yield_in in H. destruct H as [H|H]; [injection H as <-; cbn; exists b; auto|]. apply comes_more, (IH _ _ _ _ H).
      - intros H. apply IH in H. destruct (commit_keys (b_val b)); [apply comes_here, H|apply comes_more, H]. }
    destruct (match seq with Some n => negb (b_seq b =? n)%Z | None => true end); [|apply BODY].
    destruct cb as [c|].
    + intros H. apply yield_in in H. destruct H as [H|H]; [|apply comes_none, (BODY _ _ H)]. apply commit_item in H. destruct H as (cd & -> & E). cbn. left. rewrite E. reflexivity.
    + destruct bl; [apply BODY|intros []].
Qed.

(** The number of the last block, and the state of the loop there. *)
Definition last_of (seq : option Z) (bs : list block) : option Z := fold_left (fun _ b => Some (b_seq b)) bs seq.
Definition commit_here (seq : option Z) (cb : option block) : Prop := forall c, cb = Some c -> seq = Some (b_seq c).
Lemma front_events st e bs : forall rest seq cb bl, commit_here seq cb -> snd (events_loop st seq cb bl (bs ++ rest)) = None ->
  exists cb' bl', commit_here (last_of seq bs) cb' /\ snd (stop_events st e seq cb bl bs) = Some e /\
    fst (events_loop st seq cb bl (bs ++ rest)) = fst (stop_events st e seq cb bl bs) ++ fst (events_loop st (last_of seq bs) cb' bl' rest).
Proof.
  induction bs as [|b r IH]; intros rest seq cb bl CH; [intros _; exists cb, bl; split; [exact CH|]; split; reflexivity|].
  cbn [app events_loop stop_events last_of fold_left]. destruct (b_seq b =? 0)%Z; [discriminate|]. fold (last_of (Some (b_seq b)) r).
  assert (BODY : forall cb0 bl0, commit_here (Some (b_seq b)) cb0 ->
    snd match event_block_value (b_val b) with
        | Err e => ([], Some e)
        | Ok true => yield (Ok (EEvent (b_val b))) (events_loop st (Some (b_seq b)) cb0 bl0 (r ++ rest))
        | Ok false => events_loop st (Some (b_seq b)) (if commit_keys (b_val b) then Some b else cb0) (dset (b_cid b) b bl0) (r ++ rest) end = None ->
    exists cb' bl', commit_here (last_of (Some (b_seq b)) r) cb' /\
      snd match event_block_value (b_val b) with
        | Err e => ([], Some e)
        | Ok true => yield (Ok (EEvent (b_val b))) (stop_events st e (Some (b_seq b)) cb0 bl0 r)
        | Ok false => stop_events st e (Some (b_seq b)) (if commit_keys (b_val b) then Some b else cb0) (dset (b_cid b) b bl0) r end = Some e /\
      fst match event_block_value (b_val b) with
        | Err e => ([], Some e)
        | Ok true => yield (Ok (EEvent (b_val b))) (events_loop st (Some (b_seq b)) cb0 bl0 (r ++ rest))
        | Ok false => events_loop st (Some (b_seq b)) (if commit_keys (b_val b) then Some b else cb0) (dset (b_cid b) b bl0) (r ++ rest) end =
      fst match event_block_value (b_val b) with
        | Err e => ([], Some e)
        | Ok true => yield (Ok (EEvent (b_val b))) (stop_events st e (Some (b_seq b)) cb0 bl0 r)
        | Ok false => stop_events st e (Some (b_seq b)) (if commit_keys (b_val b) then Some b else cb0) (dset (b_cid b) b bl0) r end ++
      fst (events_loop st (last_of (Some (b_seq b)) r) cb' bl' rest)).
  { intros cb0 bl0 C0. destruct (event_block_value (b_val b)) as [[|]|]; [..|discriminate].
    - intros N. apply yield_none in N. destruct N as (x & _ & N). destruct (IH rest _ _ bl0 C0 N) as (cb' & bl' & A & B & C).
      exists cb', bl'. split; [exact A|]. cbn [yield fst snd]. split; [exact B|]. rewrite C. reflexivity.
    - intros N. apply IH; [|exact N]. destruct (commit_keys (b_val b)); [intros c H; injection H as <-; reflexivity|exact C0]. }
  assert (NO : commit_here (Some (b_seq b)) None) by (intros c H; discriminate H).
  destruct seq as [n|]; [destruct (b_seq b =? n)%Z eqn:EN|]; cbn [negb].
  - apply Z.eqb_eq in EN. apply BODY. intros c H. rewrite EN. exact (CH c H).
  - destruct cb as [c|]; [|destruct bl; [apply BODY, NO|discriminate]].
    intros N. apply yield_none in N. destruct N as (x & EX & N). rewrite EX. destruct (BODY _ _ NO N) as (cb' & bl' & A & B & C).
    exists cb', bl'. split; [exact A|]. rewrite !(yield_fst x), (yield_snd x). split; [exact B|]. exact (f_equal (cons x) C).
  - destruct cb as [c|]; [specialize (CH c eq_refl); discriminate CH|]. destruct bl; [apply BODY, NO|discriminate].
Qed.

Lemma last_bound bs : forall seq n, in_order bs -> last_of seq bs = Some n -> forall b, In b bs -> (b_seq b <= n)%Z.
Proof.
  induction bs as [|x r IH]; intros seq n O L b; [intros []|]. inversion O as [|x0 r0 SS FA]; subst. cbn [last_of fold_left] in L. fold (last_of (Some (b_seq x)) r) in L.
  intros [<-|B]; [|exact (IH _ _ SS L b B)]. destruct r as [|y r]; [injection L as <-; lia|].
  pose proof (IH _ _ SS L y (or_introl eq_refl)). rewrite Forall_forall in FA. specialize (FA y (or_introl eq_refl)). cbn in FA. lia.
Qed.

(** Items that are not from before [bs]. *)
Lemma more_late st e bs rest : in_order (bs ++ rest) -> snd (events_loop st None None [] (bs ++ rest)) = None ->
  exists items more, stop_events st e None None [] bs = (items, Some e) /\ events_loop st None None [] (bs ++ rest) = (items ++ more, None) /\
    forall i, In i more -> match i with
      | EEvent v => exists x, In x rest /\ b_val x = v /\ forall b, In b bs -> (b_seq b <= b_seq x)%Z
      | ECommit cd => forall b, In b bs -> (b_seq b <= b_seq (cd_commit cd))%Z
      end.
Proof.
  intros O N. assert (CH : commit_here None None) by (intros c H; discriminate H).
  destruct (front_events st e bs rest None None [] CH N) as (cb' & bl' & CH' & S & F).
  destruct (stop_events st e None None [] bs) as [items o]. cbn [fst snd] in *. subst o.
  destruct (events_loop st None None [] (bs ++ rest)) as [all o]. cbn [fst snd] in *. subst o all.
  eexists items, _. split; [reflexivity|]. split; [reflexivity|]. destruct (order_app _ _ O) as [OB LE].
  intros i HI. apply loop_comes in HI. destruct i as [v|cd]; cbn [comes] in HI.
  - destruct HI as (x & X & V). exists x. split; [exact X|]. split; [exact V|]. intros b B. exact (LE b x B X).
  - destruct HI as [->|X]; intros b B; [|exact (LE _ _ B X)]. exact (last_bound bs None _ OB (CH' _ eq_refl) b B).
Qed.

Lemma stopped_events digest kdigest validate ecdsa now cb ops w outs start repo query fails k e :
  setting digest kdigest validate cb -> history digest kdigest validate ecdsa now cb Datastore ops w outs -> (0 <= start)%Z ->
  (forall i cur, enumerates (w_state w) cur repo (query i cur)) ->
  exists bs items more, scan_stopped query fails k e start = (bs, e) /\ read_events_stopped (w_state w) (bs, e) = (items, Some e) /\
    Forall2 (entry_item ecdsa now (w_state w)) (items ++ more)
      (filter (entry_selected start repo) (log_from digest kdigest validate ecdsa now cb Datastore init_world ops)) /\
    forall i, In i more -> match i with
      | EEvent v => exists x c, read (w_state w) c = Some x /\ b_val x = v /\ forall b, In b bs -> (b_seq b <= b_seq x)%Z
      | ECommit cd => forall b, In b bs -> (b_seq b <= b_seq (cd_commit cd))%Z
      end.
Proof.
  intros SET H S0 Q. destruct (c25_datastore digest kdigest validate ecdsa now cb ops w outs start repo query fails SET H S0 Q) as (all & E & F2).
  destruct (scan_ok (w_state w) start repo (proj2 (hist_keyed digest kdigest validate ecdsa now cb _ _ _ _ SET H)) query fails Q S0) as (full & ES & ND & OR & SP).
  rewrite ES in E. cbn [read_events] in E. unfold scan in ES. unfold scan_stopped, read_events_stopped. destruct (Z.ltb_spec start 0) as [L|_]; [lia|]. injection ES as ES.
  destruct (stop_front query fails k 0 start []) as [rest F]. rewrite F in ES. set (bs := stop_loop query 0 fails k start []) in *. subst full.
  assert (N : snd (events_loop (w_state w) None None [] (bs ++ rest)) = None) by (rewrite E; reflexivity).
  destruct (more_late (w_state w) e bs rest OR N) as (items & more & A & B & C). rewrite E in B. injection B as ->.
  exists bs, items, more. split; [reflexivity|]. split; [exact A|]. split; [exact F2|]. intros i HI. specialize (C i HI). destruct i as [v|cd]; [|exact C].
  destruct C as (x & X & V & LE). destruct (proj1 (SP x) (in_or_app _ _ _ (or_intror X))) as [[c R] _]. exists x, c. auto.
Qed.
