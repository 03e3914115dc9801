(** Reading on after an error. *)
From Coq Require Import String List NArith ZArith Bool Lia Sorted.
From Verif Require Import Base Lists Ipld MstModel CarModel StorageModel StorageSpec RepoSpec EventsModel EventsSpec EventsFacts
  UriModel ServerModel ServerSpec LogSpec AnySpec FeedSpec FeedProofs StopModel StopProofs StopFacts StopFeed.
Import ListNotations.

Notation less := (fun a b : block => (b_seq a < b_seq b)%Z).
Lemma sorted_same (a : list block) : forall b, StronglySorted less a -> StronglySorted less b -> (forall x, In x a <-> In x b) -> a = b.
Proof.
  induction a as [|x a IH]; intros [|y b] SA SB H; [reflexivity|destruct (proj2 (H y) (or_introl eq_refl))|destruct (proj1 (H x) (or_introl eq_refl))|].
  inversion SA as [|x0 a0 SA' FA]; inversion SB as [|y0 b0 SB' FB]; subst. rewrite Forall_forall in FA, FB.
  assert (E : x = y).
  { destruct (proj1 (H x) (or_introl eq_refl)) as [E|I]; [exact (eq_sym E)|]. destruct (proj2 (H y) (or_introl eq_refl)) as [E|I']; [exact E|].
    specialize (FA y I'). specialize (FB x I). cbn in FA, FB. lia. }
  subst y. f_equal. apply IH; [exact SA'|exact SB'|]. intros z. split; intros I.
  - destruct (proj1 (H z) (or_intror I)) as [<-|I']; [|exact I']. specialize (FA x I). cbn in FA. lia.
  - destruct (proj2 (H z) (or_intror I)) as [<-|I']; [|exact I']. specialize (FB x I). cbn in FB. lia.
Qed.
Lemma sorted_app (a b : list block) : StronglySorted less (a ++ b) -> StronglySorted less b /\ forall x y, In x a -> In y b -> (b_seq x < b_seq y)%Z.
Proof.
  induction a as [|u a IH]; cbn [app]; intros H; [split; [exact H|intros x y []]|]. inversion H as [|u0 l0 SS FA]; subst. destruct (IH SS) as [A B].
  rewrite Forall_forall in FA. split; [exact A|]. intros x y [<-|X] Y; [apply FA, in_or_app; auto|exact (B x y X Y)].
Qed.
Lemma sorted_last (a : list block) h : StronglySorted less (a ++ [h]) -> forall x, In x (a ++ [h]) -> (b_seq x <= b_seq h)%Z.
Proof.
  intros S x I. apply sorted_app in S. destruct S as [_ S]. apply in_app_or in I. destruct I as [I|[<-|[]]]; [|lia]. specialize (S x h I (or_introl eq_refl)). lia.
Qed.

Lemma range_next start repo b n : (start <= n)%Z -> in_range (n + 1) repo b = true <-> in_range start repo b = true /\ (n < b_seq b)%Z.
Proof. intros L. rewrite !range_means. split; intros H; repeat match type of H with _ /\ _ => destruct H as [H ?] end; intuition lia. Qed.
Lemma logged_rest ecdsa st start repo a h l : logged ecdsa st start repo ((a ++ [h]) ++ l) -> logged ecdsa st (b_seq h + 1) repo l.
Proof.
  intros [S M]. destruct (sorted_app _ _ S) as [SL LT].
  assert (SA : StronglySorted less (a ++ [h])).
  { clear - S. induction (a ++ [h]) as [|x r IH]; [constructor|]. cbn [app] in S. inversion S as [|x0 l0 SS FA]; subst. constructor; [exact (IH SS)|].
    rewrite Forall_forall in *. intros y Y. apply FA, in_or_app. auto. }
  assert (HI : In h (a ++ [h])) by (apply in_or_app; cbn; auto).
  assert (GE : (start <= b_seq h)%Z) by (destruct (proj1 (M h) (in_or_app _ _ _ (or_introl HI))) as (_ & R & _); apply range_means in R; apply R).
  split; [exact SL|]. intros b. rewrite (range_next start repo b _ GE). split.
  - intros I. destruct (proj1 (M b) (in_or_app _ _ _ (or_intror I))) as (A & B & C). split; [exact A|]. split; [|exact C]. split; [exact B|exact (LT h b HI I)].
  - intros (A & [B L] & C). destruct (in_app_or _ _ _ (proj2 (M b) (conj A (conj B C)))) as [I|I]; [|exact I]. pose proof (sorted_last _ _ SA b I). lia.
Qed.


Lemma resumed digest kdigest validate ecdsa now cb l start repo query fails k e :
  (forall a b, digest a = digest b -> a = b) -> (forall v, validate v = Ok tt -> plain v) ->
  Forall (act_ok digest) l -> unforged ecdsa l -> (0 < start)%Z \/ start = 0%Z /\ Forall (fun a => ~ imports a) l ->
  let st := w_state (arun digest kdigest validate ecdsa now cb Datastore init_world l) in
  (forall i cur, enumerates st cur repo (query i cur)) ->
  exists items lg1 lg2, read_events_stopped st (scan_stopped query fails k e start) = (items, Some e) /\
    logged ecdsa st start repo (lg1 ++ lg2) /\ Forall2 (item_for ecdsa st) items lg1 /\
    forall query' fails', (forall i cur, enumerates st cur repo (query' i cur)) ->
    exists items', read_events st (scan query' fails' (match rev lg1 with h :: _ => b_seq h + 1 | [] => start end)) = (items', None) /\
      Forall2 (item_for ecdsa st) items' lg2.
Proof.
  intros INJ PL OK UF S0 st Q. destruct (feed_stopped digest kdigest validate ecdsa now cb l start repo query fails k e INJ PL OK UF S0 Q) as (bs & items & lg1 & lg2 & E1 & E2 & LG & F & _).
  fold st in E2, LG, F. exists items, lg1, lg2. split; [rewrite E1; exact E2|]. split; [exact LG|]. split; [exact F|]. intros query' fails' Q'.
  set (next := match rev lg1 with h :: _ => (b_seq h + 1)%Z | [] => start end).
  assert (X : ((0 < next)%Z \/ next = 0%Z /\ Forall (fun a => ~ imports a) l) /\ logged ecdsa st next repo lg2).
  { unfold next. destruct (rev lg1) as [|h r] eqn:R.
    - split; [exact S0|]. apply (f_equal (@rev block)) in R. rewrite rev_involutive in R. rewrite R in LG. exact LG.
    - apply (f_equal (@rev block)) in R. rewrite rev_involutive in R. cbn [rev] in R. rewrite R in LG. split; [|exact (logged_rest _ _ _ _ _ _ _ LG)].
      assert (HI : In h ((rev r ++ [h]) ++ lg2)) by (apply in_or_app; left; apply in_or_app; cbn; auto).
      destruct (proj1 (proj2 LG h) HI) as (_ & RG & _). apply range_means in RG. lia. }
  destruct X as [S1 LG2]. destruct (c25_feed_datastore digest kdigest validate ecdsa now cb INJ PL l next repo query' fails' OK UF S1 Q') as (all & lg & E & LG' & F2 & _).
  fold st in E, LG', F2. exists all. split; [exact E|]. replace lg2 with lg; [exact F2|]. apply sorted_same; [apply LG'|apply LG2|]. intros x. rewrite (proj2 LG' x), (proj2 LG2 x). reflexivity.
Qed.
