(** Events from a scan that stops, on servers that also take requests and imports. *)
From Coq Require Import String List NArith ZArith Bool Lia Sorted.
From Verif Require Import Base Lists Ipld MstModel CarModel StorageModel StorageSpec RepoSpec EventsModel EventsSpec EventsFacts
  UriModel ServerModel ServerSpec IsolateProofs LogSpec LogProofs AnySpec FeedSpec FeedProofs StopModel StopProofs StopFacts.
Import ListNotations.

Lemma forall2_front {A B} (R : A -> B -> Prop) a : forall b l, Forall2 R (a ++ b) l -> exists l1 l2, l = l1 ++ l2 /\ Forall2 R a l1 /\ Forall2 R b l2.
Proof. intros b l H. apply Forall2_app_inv_l in H. destruct H as (l1 & l2 & H1 & H2 & ->). eauto. Qed.
Lemma forall2_right {A B} (R : A -> B -> Prop) a l : Forall2 R a l -> forall y, In y l -> exists x, In x a /\ R x y.
Proof. induction 1 as [|x y a l H F IH]; intros z; [intros []|]. intros [<-|I]; [exists x; cbn; auto|]. destruct (IH z I) as (x' & X & Y). exists x'. cbn. auto. Qed.

Lemma feed_stopped digest kdigest validate ecdsa now cb l start repo query fails k e :
  (forall a b, digest a = digest b -> a = b) -> (forall v, validate v = Ok tt -> plain v) ->
  Forall (act_ok digest) l -> unforged ecdsa l -> (0 < start)%Z \/ start = 0%Z /\ Forall (fun a => ~ imports a) l ->
  let st := w_state (arun digest kdigest validate ecdsa now cb Datastore init_world l) in
  (forall i cur, enumerates st cur repo (query i cur)) ->
  exists bs items lg1 lg2, scan_stopped query fails k e start = (bs, e) /\ read_events_stopped st (bs, e) = (items, Some e) /\
    logged ecdsa st start repo (lg1 ++ lg2) /\ Forall2 (item_for ecdsa st) items lg1 /\
    forall h b, In h lg2 -> In b bs -> (b_seq b <= b_seq h)%Z.
Proof.
  intros INJ PL OK UF S0 st Q.
  destruct (c25_feed_datastore digest kdigest validate ecdsa now cb INJ PL l start repo query fails OK UF S0 Q) as (all & lg & E & LG & F2 & _). fold st in E, LG, F2.
  destruct (scan_ok st start repo (proj2 (feed_keyed digest kdigest validate ecdsa now cb INJ PL Datastore l OK UF)) query fails Q ltac:(lia)) as (full & ES & ND & OR & SP).
  rewrite ES in E. cbn [read_events] in E. unfold scan in ES. unfold scan_stopped, read_events_stopped. destruct (Z.ltb_spec start 0) as [L|_]; [lia|]. injection ES as ES.
  destruct (stop_front query fails k 0 start []) as [rest F]. rewrite F in ES. set (bs := stop_loop query 0 fails k start []) in *. subst full.
  assert (N : snd (events_loop st None None [] (bs ++ rest)) = None) by (rewrite E; reflexivity).
  destruct (more_late st e bs rest OR N) as (items & more & A & B & C). rewrite E in B. injection B as ->.
  destruct (forall2_front _ _ _ _ F2) as (lg1 & lg2 & -> & F21 & F22). exists bs, items, lg1, lg2.
  split; [reflexivity|]. split; [exact A|]. split; [exact LG|]. split; [exact F21|]. intros h b HH B.
  destruct (forall2_right _ _ _ F22 h HH) as (i & HI & IF). specialize (C i HI). destruct i as [v|cd]; cbn [item_for] in IF.
  - destruct C as (x & X & V & LE). destruct IF as [_ VH]. replace h with x; [exact (LE b B)|].
    destruct (proj1 (SP x) (in_or_app _ _ _ (or_intror X))) as [[c R] _]. destruct (proj1 (proj2 LG h) (in_or_app _ _ _ (or_intror HH))) as [[c' R'] _].
    destruct (feed_J digest kdigest validate ecdsa now cb INJ PL Datastore l OK UF) as [HJ _]. fold st in HJ.
    destruct (j_wf _ _ _ _ _ _ HJ c x R) as [K W]. destruct (j_wf _ _ _ _ _ _ HJ c' h R') as [K' W']. unfold IsolateProofs.wf in W, W'. rewrite VH in V. rewrite V in W. rewrite <- W' in W.
    rewrite <- K, W, K', R' in R. injection R as ->. reflexivity.
  - destruct IF as [<- _]. exact (C b B).
Qed.
