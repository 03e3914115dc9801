(** Proofs about the caches of did.py. *)
From Coq Require Import String List NArith ZArith Bool Lia.
From Verif Require Import Base Lists CacheModel CacheSpec.
Import ListNotations.

Lemma in_order_app a b : in_order (a ++ b) -> in_order a /\ in_order b /\ forall x y, In x a -> In y b -> (time_of x <= time_of y)%Z.
Proof.
  induction a as [|e a IH]; cbn [app in_order]; [intros H; split; [exact I|]; split; [exact H|intros x y []]|].
  intros [H R]. destruct (IH R) as (A & B & C). split; [split; [intros e' J; apply H, in_or_app; auto|exact A]|]. split; [exact B|].
  intros x y [<-|J] K; [apply H, in_or_app; auto|auto].
Qed.

Section C.
Variable V : Type.
Variable size : N.
Variable ttl : Z.
Variable body : str -> Z -> res V.
Notation step := (step V size ttl body).
Notation run := (run V size ttl body).
Notation state := (state V).
Notation lookup := (lookup V).
Notation setdefault := (setdefault V size ttl).

Lemma run_app a : forall st b, run st (a ++ b) = match run st a with
  | Some (st1, o1) => match run st1 b with Some (st2, o2) => Some (st2, o1 ++ o2) | None => None end | None => None end.
Proof.
  induction a as [|e a IH]; intros st b; cbn [app CacheModel.run].
  - destruct (run st b) as [[st2 o2]|]; reflexivity.
  - destruct (step st e) as [[st1 o1]|]; [|reflexivity]. rewrite IH. destruct (run st1 a) as [[st2 o2]|]; [|reflexivity].
    destruct (run st2 b) as [[st3 o3]|]; [|reflexivity]. rewrite app_assoc. reflexivity.
Qed.
Lemma run_out es : forall st st' outs o, run st es = Some (st', outs) -> In o outs ->
  exists pre e post st1 o1 st2 o2, es = pre ++ e :: post /\ run st pre = Some (st1, o1) /\ step st1 e = Some (st2, o2) /\ In o o2.
Proof.
  induction es as [|e es IH]; intros st st' outs o R J; cbn [CacheModel.run] in R.
  - injection R as <- <-. destruct J.
  - destruct (step st e) as [[st1 o1]|] eqn:S1; [|discriminate]. destruct (run st1 es) as [[st2 o2]|] eqn:R2; [|discriminate].
    injection R as <- <-. apply in_app_or in J as [J|J].
    + exists [], e, es, st, [], st1, o1. auto.
    + destruct (IH _ _ _ _ R2 J) as (pre & e' & post & sta & oa & stb & ob & -> & Ra & Sa & Ja).
      exists (e :: pre), e', post, sta, (o1 ++ oa), stb, ob. split; [reflexivity|]. split; [|auto]. cbn [CacheModel.run]. rewrite S1, Ra. reflexivity.
Qed.

(** Calls in flight, and what the cache has. *)
Definition called (es : list event) (i : nat) (k : str) : Prop :=
  exists a t0 b, es = a ++ Call i k t0 :: b /\ forall e, In e b -> thread_of e <> i.
Definition answered (es : list event) (i : nat) (k : str) (v : V) : Prop :=
  exists a t0 b ta c, es = a ++ Call i k t0 :: b ++ Answer i ta :: c /\ (forall e, In e (b ++ c) -> thread_of e <> i) /\ body k ta = Ok v.
Definition backed (es : list event) (e : entry V) : Prop :=
  exists j ta ts, served es j (en_key V e) ta ts /\ body (en_key V e) ta = Ok (en_value V e) /\ en_expires V e = (ts + ttl)%Z.
Record Inv (es : list event) (st : state) : Prop := {
  i_cache : forall e, In e (st_cache st) -> backed es e;
  i_called : forall i k, In (i, (k, None)) (flight st) -> called es i k;
  i_answered : forall i k v, In (i, (k, Some v)) (flight st) -> answered es i k v
}.
Lemma backed_more es x e : backed es e -> backed (es ++ [x]) e.
Proof.
  intros (j & ta & ts & (a & t0 & b & c & d & -> & N) & B & X). exists j, ta, ts. split; [|auto]. exists a, t0, b, c, (d ++ [x]). split; [|exact N].
  repeat (rewrite <- !app_assoc; cbn [app]). reflexivity.
Qed.
Lemma called_more es x i k : thread_of x <> i -> called es i k -> called (es ++ [x]) i k.
Proof.
  intros T (a & t0 & b & -> & N). exists a, t0, (b ++ [x]). split; [repeat (rewrite <- !app_assoc; cbn [app]); reflexivity|].
  intros e J. apply in_app_or in J as [J|[<-|[]]]; auto.
Qed.
Lemma answered_more es x i k v : thread_of x <> i -> answered es i k v -> answered (es ++ [x]) i k v.
Proof.
  intros T (a & t0 & b & ta & c & -> & N & B). exists a, t0, b, ta, (c ++ [x]). split; [repeat (rewrite <- !app_assoc; cbn [app]); reflexivity|].
  split; [|exact B]. rewrite app_assoc. intros e J. apply in_app_or in J as [J|[<-|[]]]; auto.
Qed.
Lemma flying_in i st x : flying V i st = Some x -> In (i, x) (flight st).
Proof.
  unfold flying. destruct (find _ (flight st)) as [[j y]|] eqn:F; [|discriminate]. intros [= <-]. apply find_some in F as [J E].
  cbn [fst] in E. apply PeanoNat.Nat.eqb_eq in E. subst j. exact J.
Qed.
Lemma flying_none i st x : flying V i st = None -> ~ In (i, x) (flight st).
Proof.
  unfold flying. destruct (find _ (flight st)) eqn:F; [discriminate|]. intros _ J. apply (find_none _ _ F) in J. cbn [fst] in J.
  rewrite PeanoNat.Nat.eqb_refl in J. discriminate.
Qed.
Lemma landed_in i p l : In p (landed V i l) -> In p l /\ fst p <> i.
Proof.
  unfold landed. intros J. apply filter_In in J as [J E]. split; [exact J|]. intros X. rewrite X, PeanoNat.Nat.eqb_refl in E. discriminate.
Qed.
Lemma lookup_in t k c e : In e (snd (lookup t k c)) -> In e c.
Proof.
  unfold CacheModel.lookup. destruct (find (has V k) c) as [x|] eqn:F; [|auto]. cbn [snd]. intros J. apply in_app_or in J as [J|[<-|[]]].
  - apply filter_In in J. tauto.
  - apply find_some in F. tauto.
Qed.
Lemma lookup_some t k c v : fst (lookup t k c) = Some v -> exists e, In e c /\ en_key V e = k /\ en_value V e = v /\ (t < en_expires V e)%Z.
Proof.
  unfold CacheModel.lookup. destruct (find (has V k) c) as [x|] eqn:F; [|discriminate]. cbn [fst]. destruct (live V t x) eqn:L; [|discriminate].
  intros [= <-]. apply find_some in F as [J E]. exists x. split; [exact J|]. split; [symmetry; apply str_eqb_eq; exact E|]. split; [reflexivity|]. apply Z.ltb_lt. exact L.
Qed.
Lemma set_in t k v c e : In e (set V size ttl t k v c) -> In e c \/ e = Entry k v (t + ttl).
Proof.
  unfold set. intros J. apply in_app_or in J as [J|[<-|[]]]; [left|auto].
  assert (S : forall n (l : list (entry V)), In e (skipn n l) -> In e l) by (intros n l; rewrite <- (firstn_skipn n l) at 2; intros X; apply in_or_app; auto).
  apply S, filter_In in J as [J _]. apply filter_In in J. tauto.
Qed.
Lemma setdefault_in t k v c e : In e (snd (setdefault t k v c)) -> In e c \/ e = Entry k v (t + ttl).
Proof.
  unfold CacheModel.setdefault. pose proof (lookup_in t k c e) as L. destruct (lookup t k c) as [[v'|] c']; cbn [fst snd] in *; [auto|]. apply set_in.
Qed.
Lemma setdefault_val t k v c : fst (setdefault t k v c) = v \/
  exists e, In e c /\ en_key V e = k /\ en_value V e = fst (setdefault t k v c) /\ (t < en_expires V e)%Z.
Proof.
  unfold CacheModel.setdefault. pose proof (lookup_some t k c) as L. destruct (lookup t k c) as [[v'|] c']; cbn [fst snd] in *; [right; apply L; reflexivity|auto].
Qed.
Lemma served_now es i k v t : answered es i k v -> exists ta, served (es ++ [Store i t]) i k ta t /\ body k ta = Ok v.
Proof.
  intros (a & t0 & b & ta & c & -> & N & B). exists ta. split; [|exact B]. exists a, t0, b, c, []. split; [|exact N].
  repeat (rewrite <- !app_assoc; cbn [app]). reflexivity.
Qed.
Lemma Inv_step es st x st' o : Inv es st -> step st x = Some (st', o) -> Inv (es ++ [x]) st'.
Proof.
  intros [HC HA HV] S. destruct x as [i k t|i t|i t]; cbn [CacheModel.step] in S.
  - destruct (flying V i st) eqn:F; [discriminate|]. pose proof (flying_none i st) as FN.
    assert (X : forall j y, In (j, y) (flight st) -> i <> j) by (intros j y J ->; exact (FN y F J)).
    pose proof (lookup_in t k (st_cache st)) as LI. destruct (lookup t k (st_cache st)) as [[v|] c]; injection S as <- <-; cbn [fst snd] in *.
    + split; cbn [st_cache flight]; [intros e J; apply backed_more; auto|intros j k' J; apply called_more; eauto|intros j k' v' J; apply answered_more; eauto].
    + split; cbn [st_cache flight].
      * intros e J. apply backed_more. auto.
      * intros j k' [J|J]; [|apply called_more; eauto]. injection J as <- <-. exists es, t, []. split; [reflexivity|]. intros e [].
      * intros j k' v' [J|J]; [discriminate|]. apply answered_more; eauto.
  - destruct (flying V i st) as [[k [v|]]|] eqn:F; try discriminate. apply flying_in in F.
    destruct (body k t) as [v|x] eqn:B; injection S as <- <-; split; cbn [st_cache flight].
    + intros e J. apply backed_more. auto.
    + intros j k' [J|J]; [discriminate|]. apply landed_in in J as [J N]. cbn [fst] in N. apply called_more; [cbn [thread_of]; congruence|auto].
    + intros j k' v' [J|J].
      * injection J as <- <- <-. destruct (HA i k F) as (a & t0 & b & -> & N). exists a, t0, b, t, []. rewrite <- app_assoc. split; [reflexivity|]. rewrite app_nil_r. auto.
      * apply landed_in in J as [J N]. cbn [fst] in N. apply answered_more; [cbn [thread_of]; congruence|auto].
    + intros e J. apply backed_more. auto.
    + intros j k' J. apply landed_in in J as [J N]. cbn [fst] in N. apply called_more; [cbn [thread_of]; congruence|auto].
    + intros j k' v' J. apply landed_in in J as [J N]. cbn [fst] in N. apply answered_more; [cbn [thread_of]; congruence|auto].
  - destruct (flying V i st) as [[k [v|]]|] eqn:F; try discriminate. apply flying_in in F. pose proof (setdefault_in t k v (st_cache st)) as SI.
    destruct (setdefault t k v (st_cache st)) as [v' c]. injection S as <- <-. cbn [fst snd] in SI. split; cbn [st_cache flight].
    + intros e J. destruct (SI e J) as [J'| ->]; [apply backed_more; auto|]. destruct (served_now es i k v t (HV i k v F)) as (ta & SV & B). exists i, ta, t. auto.
    + intros j k' J. apply landed_in in J as [J N]. cbn [fst] in N. apply called_more; [cbn [thread_of]; congruence|auto].
    + intros j k' w J. apply landed_in in J as [J N]. cbn [fst] in N. apply answered_more; [cbn [thread_of]; congruence|auto].
Qed.
Lemma Inv_run es st outs : run init es = Some (st, outs) -> Inv es st.
Proof.
  revert st outs. induction es as [|x es IH] using rev_ind; intros st outs R.
  - injection R as <- <-. split; intros; contradiction.
  - rewrite run_app in R. destruct (run init es) as [[st1 o1]|]; [|discriminate]. cbn [CacheModel.run] in R.
    destruct (step st1 x) as [[st2 o2]|] eqn:S; [|discriminate]. injection R as <- <-. eapply Inv_step; [eapply IH; reflexivity|exact S].
Qed.
Lemma served_more a b j k ta ts : served a j k ta ts -> served (a ++ b) j k ta ts.
Proof.
  intros (x & t0 & y & z & d & -> & N). exists x, t0, y, z, (d ++ b). split; [|exact N]. repeat (rewrite <- !app_assoc; cbn [app]). reflexivity.
Qed.
Lemma served_order es j k ta ts : in_order es -> served es j k ta ts -> (ta <= ts)%Z.
Proof.
  intros O (a & t0 & b & c & d & -> & _). apply in_order_app in O as (_ & [_ O] & _). apply in_order_app in O as (_ & [O _] & _).
  apply (O (Store j ts)). apply in_or_app. right. left. reflexivity.
Qed.
Lemma served_in es j k ta ts : served es j k ta ts -> In (Store j ts) es.
Proof. intros (a & t0 & b & c & d & -> & _). apply in_or_app. right. right. apply in_or_app. right. right. apply in_or_app. right. left. reflexivity. Qed.

Lemma c74_age es st outs i k t v : run init es = Some (st, outs) -> in_order es -> (0 < ttl)%Z -> In (Outcome i k t (Ok v)) outs ->
  exists j ta ts, served es j k ta ts /\ body k ta = Ok v /\ (ta <= ts <= t)%Z /\ (t < ts + ttl)%Z.
Proof.
  intros R O P J. destruct (run_out _ _ _ _ _ R J) as (pre & x & post & st1 & o1 & st2 & o2 & -> & R1 & S & J'). pose proof (Inv_run _ _ _ R1) as [HC HA HV].
  assert (LAST : forall e, In e pre -> (time_of e <= time_of x)%Z) by (intros e J1; apply in_order_app in O as (_ & _ & O); apply O; [exact J1|left; reflexivity]).
  assert (ENT : time_of x = t -> forall e, In e (st_cache st1) -> en_key V e = k -> en_value V e = v -> (t < en_expires V e)%Z ->
    exists j ta ts, served (pre ++ x :: post) j k ta ts /\ body k ta = Ok v /\ (ta <= ts <= t)%Z /\ (t < ts + ttl)%Z).
  { intros TX e JE EK EV LE. destruct (HC e JE) as (j & ta & ts & SV & B & X). rewrite EK in SV, B. rewrite EV in B. rewrite X in LE. exists j, ta, ts.
    split; [apply served_more; exact SV|]. split; [exact B|]. split; [|exact LE]. split.
    - apply (served_order pre j k); [apply in_order_app in O; tauto|exact SV].
    - specialize (LAST _ (served_in _ _ _ _ _ SV)). cbn [time_of] in LAST. lia. }
  destruct x as [i' k' t'|i' t'|i' t']; cbn [CacheModel.step] in S.
  - destruct (flying V i' st1) eqn:F; [discriminate|]. pose proof (lookup_some t' k' (st_cache st1)) as L.
    destruct (lookup t' k' (st_cache st1)) as [[v'|] c]; injection S as <- <-; [|destruct J']. destruct J' as [J'|[]]. injection J' as -> -> -> ->. cbn [fst] in L.
    destruct (L v eq_refl) as (e & JE & EK & EV & LE). apply (ENT eq_refl e); auto.
  - destruct (flying V i' st1) as [[k' [v'|]]|]; try discriminate. destruct (body k' t'); injection S as <- <-; [destruct J'|destruct J' as [J'|[]]; discriminate].
  - destruct (flying V i' st1) as [[k' [v'|]]|] eqn:F; try discriminate. apply flying_in in F. pose proof (setdefault_val t' k' v' (st_cache st1)) as SV.
    destruct (setdefault t' k' v' (st_cache st1)) as [w c]. injection S as <- <-. destruct J' as [J'|[]]. injection J' as -> -> -> ->. cbn [fst] in SV.
    destruct SV as [->|(e & JE & EK & EV & LE)]; [|apply (ENT eq_refl e); auto].
    destruct (served_now pre i k v' t (HV i k v' F)) as (ta & SV & B). exists i, ta, t.
    assert (SV' : served (pre ++ Store i t :: post) i k ta t). { change (Store i t :: post) with ([Store i t] ++ post). rewrite app_assoc. apply served_more. exact SV. }
    split; [exact SV'|]. split; [exact B|]. split; [split; [apply (served_order _ _ _ _ _ O SV')|lia]|lia].
Qed.
Lemma c74_errors es st outs i k t x : run init es = Some (st, outs) -> In (Outcome i k t (Err x)) outs ->
  exists a t0 b c, es = a ++ Call i k t0 :: b ++ Answer i t :: c /\ (forall e, In e b -> thread_of e <> i) /\ body k t = Err x.
Proof.
  intros R J. destruct (run_out _ _ _ _ _ R J) as (pre & e & post & st1 & o1 & st2 & o2 & -> & R1 & S & J'). pose proof (Inv_run _ _ _ R1) as [HC HA HV].
  destruct e as [i' k' t'|i' t'|i' t']; cbn [CacheModel.step] in S.
  - destruct (flying V i' st1); [discriminate|]. destruct (lookup t' k' (st_cache st1)) as [[v'|] c]; injection S as <- <-; [|destruct J']. destruct J' as [J'|[]]. discriminate.
  - destruct (flying V i' st1) as [[k' [v'|]]|] eqn:F; try discriminate. apply flying_in in F. destruct (body k' t') eqn:B; injection S as <- <-; [destruct J'|].
    destruct J' as [J'|[]]. injection J' as -> -> -> ->. destruct (HA i k F) as (a & t0 & b & -> & N). exists a, t0, b, post. rewrite <- app_assoc. auto.
  - destruct (flying V i' st1) as [[k' [v'|]]|]; try discriminate. destruct (setdefault t' k' v' (st_cache st1)) as [w c]. injection S as <- <-. destruct J' as [J'|[]]. discriminate.
Qed.

(** The size of the cache. *)
Definition keys (c : cache V) : list str := map (en_key V) c.
Lemma split_find k c e : NoDup (keys c) -> find (has V k) c = Some e -> length (filter (hasnt V k) c) + 1 = length c.
Proof.
  induction c as [|x c IH]; cbn [find keys map filter length]; [discriminate|]. intros N F. inversion N as [|? ? NI ND]; subst.
  unfold hasnt at 1. destruct (has V k x) eqn:H; cbn [negb].
  - enough (E : filter (hasnt V k) c = c) by (rewrite E; lia). apply str_eqb_eq in H. subst k. clear -NI. induction c as [|y c IH]; [reflexivity|].
    cbn [filter]. unfold hasnt at 1, has. cbn [keys map] in NI. destruct (str_eqb (en_key V x) (en_key V y)) eqn:E.
    + apply str_eqb_eq in E. exfalso. apply NI. left. auto.
    + cbn [negb]. f_equal. apply IH. intros J. apply NI. right. exact J.
  - cbn [length]. rewrite <- (IH ND F). lia.
Qed.
Lemma keys_filter f c : NoDup (keys c) -> NoDup (keys (filter f c)).
Proof.
  induction c as [|x c IH]; intros N; [constructor|]. inversion N as [|? ? NI ND]; subst. cbn [filter]. destruct (f x); [|auto].
  cbn [keys map]. constructor; [|auto]. intros J. apply NI. apply in_map_iff in J as (y & E & J). apply filter_In in J as [J _].
  apply in_map_iff. eauto.
Qed.
Lemma keys_skip n c : NoDup (keys c) -> NoDup (keys (skipn n c)).
Proof.
  revert c. induction n as [|n IH]; intros [|x c] N; cbn [skipn]; auto. inversion N; subst. apply IH. assumption.
Qed.
Lemma keys_snoc c e : NoDup (keys c) -> (forall x, In x c -> en_key V x <> en_key V e) -> NoDup (keys (c ++ [e])).
Proof.
  induction c as [|x c IH]; intros N H; cbn [app keys map]; [constructor; [intros []|constructor]|]. inversion N as [|? ? NI ND]; subst. constructor.
  - intros J. apply in_map_iff in J as (y & E & J). apply in_app_or in J as [J|[<-|[]]]; [apply NI, in_map_iff; eauto|]. apply (H x); [left; reflexivity|auto].
  - apply IH; [exact ND|]. intros y J. apply H. right. exact J.
Qed.
Lemma hasnt_in k c x : In x (filter (hasnt V k) c) -> en_key V x <> k.
Proof. intros J E. apply filter_In in J as [_ H]. unfold hasnt, has in H. rewrite E, str_eqb_refl in H. discriminate. Qed.
Definition small (c : cache V) : Prop := NoDup (keys c) /\ (N.of_nat (length c) <= size)%N.
Lemma lookup_small t k c : small c -> small (snd (lookup t k c)).
Proof.
  intros [N L]. unfold CacheModel.lookup. destruct (find (has V k) c) as [e|] eqn:F; [|split; assumption]. cbn [snd]. split.
  - apply keys_snoc; [apply keys_filter, N|]. intros x J. apply find_some in F as [_ F]. apply str_eqb_eq in F. rewrite <- F. eapply hasnt_in. exact J.
  - rewrite app_length. cbn [length]. rewrite (split_find k c e N F). exact L.
Qed.
Lemma set_small t k v c : (0 < size)%N -> small c -> small (set V size ttl t k v c).
Proof.
  intros P [N L]. unfold set. set (d := filter (hasnt V k) (filter (live V t) c)). assert (ND : NoDup (keys d)) by apply keys_filter, keys_filter, N. split.
  - apply keys_snoc; [apply keys_skip, ND|]. cbn [en_key]. intros x J.
    assert (JD : In x d) by (rewrite <- (firstn_skipn (N.to_nat (N.of_nat (length d) + 1 - size)) d); apply in_or_app; auto). eapply hasnt_in. exact JD.
  - rewrite app_length, skipn_length. cbn [length]. lia.
Qed.
Lemma step_small st x st' o : (0 < size)%N -> small (st_cache st) -> step st x = Some (st', o) -> small (st_cache st').
Proof.
  intros P SM S. destruct x as [i k t|i t|i t]; cbn [CacheModel.step] in S.
  - destruct (flying V i st); [discriminate|]. pose proof (lookup_small t k _ SM) as L. destruct (lookup t k (st_cache st)) as [[v|] c]; injection S as <- <-; exact L.
  - destruct (flying V i st) as [[k [v|]]|]; try discriminate. destruct (body k t); injection S as <- <-; exact SM.
  - destruct (flying V i st) as [[k [v|]]|]; try discriminate. unfold CacheModel.setdefault in S. pose proof (lookup_small t k _ SM) as L.
    pose proof (set_small t k v _ P SM) as SS. destruct (lookup t k (st_cache st)) as [[w|] c]; injection S as <- <-; cbn [st_cache] in *; assumption.
Qed.
Lemma run_small es : forall st st' outs, (0 < size)%N -> small (st_cache st) -> run st es = Some (st', outs) -> small (st_cache st').
Proof.
  induction es as [|x es IH]; intros st st' outs P SM R; cbn [CacheModel.run] in R; [injection R as <- <-; exact SM|].
  destruct (step st x) as [[st1 o1]|] eqn:S1; [|discriminate]. destruct (run st1 es) as [[st2 o2]|] eqn:R2; [|discriminate]. injection R as <- <-.
  eapply IH; [exact P| |exact R2]. eapply step_small; eauto.
Qed.
Lemma small_init : small [].
Proof. split; [constructor|]. cbn. lia. Qed.
Lemma c74_size es st outs : (0 < size)%N -> run init es = Some (st, outs) -> (N.of_nat (length (st_cache st)) <= size)%N.
Proof. intros P R. apply (run_small es init st outs P small_init R). Qed.

(** Hits. *)
Definition covers (ks : list str) (c : cache V) : Prop := forall e, In e c -> In (en_key V e) ks.
Lemma lookup_keeps t k c e : NoDup (keys c) -> In e c -> In e (snd (lookup t k c)).
Proof.
  intros N J. unfold CacheModel.lookup. destruct (find (has V k) c) as [x|] eqn:F; [|exact J]. cbn [snd]. apply in_or_app.
  destruct (has V k e) eqn:H; [right; left|left; apply filter_In; split; [exact J|unfold hasnt; rewrite H; reflexivity]].
  clear -F H N J. induction c as [|y c IH]; [destruct J|]. cbn [find] in F. inversion N as [|? ? NI ND]; subst. destruct (has V k y) eqn:HY.
  - injection F as ->. destruct J as [J|J]; [auto|]. exfalso. apply NI. apply str_eqb_eq in H, HY. rewrite <- HY, H. apply in_map, J.
  - destruct J as [->|J]; [congruence|]. apply IH; auto.
Qed.
Lemma find_key k c e : NoDup (keys c) -> In e c -> en_key V e = k -> find (has V k) c = Some e.
Proof.
  induction c as [|y c IH]; intros N J E; [destruct J|]. cbn [find]. inversion N as [|? ? NI ND]; subst. destruct (has V (en_key V e) y) eqn:H.
  - destruct J as [->|J]; [reflexivity|]. exfalso. apply NI. apply str_eqb_eq in H. rewrite <- H. apply in_map, J.
  - destruct J as [->|J]; [unfold has in H; rewrite str_eqb_refl in H; discriminate|]. apply IH; auto.
Qed.
Lemma lookup_hit t k c e : NoDup (keys c) -> In e c -> en_key V e = k -> (t < en_expires V e)%Z -> fst (lookup t k c) = Some (en_value V e).
Proof. intros N J E L. unfold CacheModel.lookup. rewrite (find_key k c e N J E). cbn [fst]. unfold live. apply Z.ltb_lt in L. rewrite L. reflexivity. Qed.
Lemma set_keeps ks t k v c e : NoDup (keys c) -> covers ks c -> In k ks -> (N.of_nat (length ks) <= size)%N -> In e c -> en_key V e <> k -> (t < en_expires V e)%Z ->
  In e (set V size ttl t k v c).
Proof.
  intros N CV KI LE J NE LV. unfold set. set (d := filter (hasnt V k) (filter (live V t) c)).
  assert (JD : In e d).
  { unfold d. apply filter_In. split; [apply filter_In; split; [exact J|apply Z.ltb_lt; exact LV]|]. unfold hasnt, has. destruct (str_eqb k (en_key V e)) eqn:E; [|reflexivity].
    apply str_eqb_eq in E. congruence. }
  assert (LD : length (k :: keys d) <= length ks).
  { apply NoDup_incl_length.
    - constructor; [|apply keys_filter, keys_filter, N]. intros X. apply in_map_iff in X as (y & E & X). apply hasnt_in in X. congruence.
    - intros y [<-|X]; [exact KI|]. apply in_map_iff in X as (z & <- & X). apply CV. apply filter_In in X as [X _]. apply filter_In in X. tauto. }
  cbn [length] in LD. unfold keys in LD. rewrite map_length in LD.
  replace (N.to_nat (N.of_nat (length d) + 1 - size)) with 0 by lia. cbn [skipn]. apply in_or_app. auto.
Qed.
Lemma set_new t k v c : In (Entry k v (t + ttl)) (set V size ttl t k v c).
Proof. unfold set. apply in_or_app. right. left. reflexivity. Qed.
Record Cov (ks : list str) (st : state) : Prop := {
  c_small : NoDup (keys (st_cache st));
  c_cov : covers ks (st_cache st);
  c_fly : forall i k x, In (i, (k, x)) (flight st) -> In k ks
}.
Lemma set_nodup t k v c : NoDup (keys c) -> NoDup (keys (set V size ttl t k v c)).
Proof.
  intros N. unfold set. set (d := filter (hasnt V k) (filter (live V t) c)). assert (ND : NoDup (keys d)) by apply keys_filter, keys_filter, N.
  apply keys_snoc; [apply keys_skip, ND|]. cbn [en_key]. intros x J.
  assert (JD : In x d) by (rewrite <- (firstn_skipn (N.to_nat (N.of_nat (length d) + 1 - size)) d); apply in_or_app; auto). eapply hasnt_in. exact JD.
Qed.
Lemma lookup_nodup t k c : NoDup (keys c) -> NoDup (keys (snd (lookup t k c))).
Proof.
  intros N. unfold CacheModel.lookup. destruct (find (has V k) c) as [e|] eqn:F; [|exact N]. cbn [snd].
  apply keys_snoc; [apply keys_filter, N|]. intros x J. apply find_some in F as [_ F]. apply str_eqb_eq in F. rewrite <- F. eapply hasnt_in. exact J.
Qed.
Lemma Cov_step ks st x st' o : (forall k, In k (asked x) -> In k ks) -> Cov ks st -> step st x = Some (st', o) -> Cov ks st'.
Proof.
  intros A [N CV FL] S. destruct x as [i k t|i t|i t]; cbn [CacheModel.step asked] in *.
  - destruct (flying V i st); [discriminate|]. pose proof (lookup_nodup t k _ N) as L. pose proof (lookup_in t k (st_cache st)) as LI.
    destruct (lookup t k (st_cache st)) as [[v|] c]; injection S as <- <-; cbn [snd] in *; split; cbn [st_cache flight]; auto; try (intros e J; apply CV; auto).
    intros j k' y [J|J]; [|eapply FL; exact J]. injection J as <- <- <-. apply A. left. reflexivity.
  - destruct (flying V i st) as [[k [v|]]|] eqn:F; try discriminate. apply flying_in in F.
    destruct (body k t); injection S as <- <-; split; cbn [st_cache flight]; auto.
    + intros j k' y [J|J]; [injection J as <- <- <-; eapply FL; exact F|]. apply landed_in in J as [J _]. eapply FL; exact J.
    + intros j k' y J. apply landed_in in J as [J _]. eapply FL; exact J.
  - destruct (flying V i st) as [[k [v|]]|] eqn:F; try discriminate. apply flying_in in F. pose proof (setdefault_in t k v (st_cache st)) as SI.
    unfold CacheModel.setdefault in *. pose proof (lookup_nodup t k _ N) as L. pose proof (set_nodup t k v _ N) as SN.
    destruct (lookup t k (st_cache st)) as [[w|] c]; injection S as <- <-; cbn [snd] in *; (split; cbn [st_cache flight]; [assumption| |intros j k' y J; apply landed_in in J as [J _]; eapply FL; exact J]);
      (intros e J; destruct (SI e J) as [J'| ->]; [apply CV; exact J'|cbn [en_key]; eapply FL; exact F]).
Qed.
Definition holds (st : state) (k : str) (x : Z) : Prop := exists e, In e (st_cache st) /\ en_key V e = k /\ (x <= en_expires V e)%Z.
Lemma holds_step ks st y st' o k x : (N.of_nat (length ks) <= size)%N -> Cov ks st -> holds st k x -> (time_of y < x)%Z -> step st y = Some (st', o) -> holds st' k x.
Proof.
  intros LE [N CV FL] (e & J & E & X) T S. destruct y as [i k' t|i t|i t]; cbn [CacheModel.step time_of] in *.
  - destruct (flying V i st); [discriminate|]. pose proof (lookup_keeps t k' _ e N J) as L. destruct (lookup t k' (st_cache st)) as [[v|] c]; injection S as <- <-; exists e; auto.
  - destruct (flying V i st) as [[k' [v|]]|]; try discriminate. destruct (body k' t); injection S as <- <-; exists e; auto.
  - destruct (flying V i st) as [[k' [v|]]|] eqn:F; try discriminate. apply flying_in in F. unfold CacheModel.setdefault in S. pose proof (lookup_keeps t k' _ e N J) as L.
    pose proof (lookup_hit t k' _ e N J) as LH. destruct (lookup t k' (st_cache st)) as [[w|] c]; injection S as <- <-; [exists e; auto|]. cbn [fst] in LH.
    exists e. split; [|auto]. cbn [st_cache]. apply (set_keeps ks); auto; try lia. + eapply FL; exact F. + intros EK. discriminate LH; [exact EK|lia].
Qed.
Lemma Cov_run ks es : forall st st' outs, (forall y k, In y es -> In k (asked y) -> In k ks) -> Cov ks st -> run st es = Some (st', outs) -> Cov ks st'.
Proof.
  induction es as [|y es IH]; intros st st' outs A C R; cbn [CacheModel.run] in R; [injection R as <- <-; exact C|].
  destruct (step st y) as [[st1 o1]|] eqn:S1; [|discriminate]. destruct (run st1 es) as [[st2 o2]|] eqn:R2; [|discriminate]. injection R as <- <-.
  eapply IH; [|eapply Cov_step; [|exact C|exact S1]|exact R2]; [intros z k J; apply A; right; exact J|intros k; apply A; left; reflexivity].
Qed.
Lemma holds_run ks es : forall st st' outs k x, (N.of_nat (length ks) <= size)%N -> (forall y k, In y es -> In k (asked y) -> In k ks) -> Cov ks st -> holds st k x ->
  (forall y, In y es -> (time_of y < x)%Z) -> run st es = Some (st', outs) -> holds st' k x.
Proof.
  induction es as [|y es IH]; intros st st' outs k x LE A C H T R; cbn [CacheModel.run] in R; [injection R as <- <-; exact H|].
  destruct (step st y) as [[st1 o1]|] eqn:S1; [|discriminate]. destruct (run st1 es) as [[st2 o2]|] eqn:R2; [|discriminate]. injection R as <- <-.
  eapply IH; [exact LE| | | | |exact R2].
  - intros z k' J. apply A. right. exact J.
  - eapply Cov_step; [|exact C|exact S1]. intros k'. apply A. left. reflexivity.
  - eapply holds_step; eauto. apply T. left. reflexivity.
  - intros z J. apply T. right. exact J.
Qed.

(** Entries for [k] have expired at [t0] or are newer. *)
Definition newer (k : str) (t0 : Z) (st : state) : Prop := forall e, In e (st_cache st) -> en_key V e = k -> (en_expires V e <= t0 \/ t0 + ttl <= en_expires V e)%Z.
Lemma newer_step k t0 st y st' o : newer k t0 st -> (t0 <= time_of y)%Z -> step st y = Some (st', o) -> newer k t0 st'.
Proof.
  intros H T S. destruct y as [i k' t|i t|i t]; cbn [CacheModel.step time_of] in *.
  - destruct (flying V i st); [discriminate|]. pose proof (lookup_in t k' (st_cache st)) as L. destruct (lookup t k' (st_cache st)) as [[v|] c]; injection S as <- <-; intros e J E; apply H; auto.
  - destruct (flying V i st) as [[k' [v|]]|]; try discriminate. destruct (body k' t); injection S as <- <-; exact H.
  - destruct (flying V i st) as [[k' [v|]]|]; try discriminate. pose proof (setdefault_in t k' v (st_cache st)) as SI.
    destruct (setdefault t k' v (st_cache st)) as [w c]; injection S as <- <-. intros e J E. destruct (SI e J) as [J'| ->]; [apply H; auto|]. right. cbn [en_expires]. lia.
Qed.
Lemma newer_run k t0 es : forall st st' outs, newer k t0 st -> (forall y, In y es -> (t0 <= time_of y)%Z) -> run st es = Some (st', outs) -> newer k t0 st'.
Proof.
  induction es as [|y es IH]; intros st st' outs H T R; cbn [CacheModel.run] in R; [injection R as <- <-; exact H|].
  destruct (step st y) as [[st1 o1]|] eqn:S1; [|discriminate]. destruct (run st1 es) as [[st2 o2]|] eqn:R2; [|discriminate]. injection R as <- <-.
  eapply IH; [eapply newer_step; [exact H| |exact S1]| |exact R2]; [apply T; left; reflexivity|intros z J; apply T; right; exact J].
Qed.
(** Steps of others. *)
Lemma flying_cons i j x c l : flying V i (State c ((j, x) :: l)) = if Nat.eqb i j then Some x else flying V i (State c l).
Proof. unfold flying. cbn [flight find fst]. destruct (Nat.eqb i j); reflexivity. Qed.
Lemma flying_landed i j c l : i <> j -> flying V i (State c (landed V j l)) = flying V i (State c l).
Proof.
  intros N. unfold flying, landed. cbn [flight]. induction l as [|[m y] l IH]; [reflexivity|]. cbn [filter fst find].
  destruct (Nat.eqb j m) eqn:E; cbn [negb find fst].
  - apply PeanoNat.Nat.eqb_eq in E. subst m. apply PeanoNat.Nat.eqb_neq in N. rewrite N. exact IH.
  - destruct (Nat.eqb i m); [reflexivity|exact IH].
Qed.
Lemma flying_c i c c' l : flying V i (State c l) = flying V i (State c' l).
Proof. reflexivity. Qed.
Lemma flying_step i st y st' o : thread_of y <> i -> step st y = Some (st', o) -> flying V i st' = flying V i st.
Proof.
  intros N S. assert (N' : Nat.eqb i (thread_of y) = false) by (apply PeanoNat.Nat.eqb_neq; congruence). destruct st as [c0 l].
  destruct y as [j k' t|j t|j t]; cbn [CacheModel.step thread_of st_cache flight] in *.
  - destruct (flying V j _); [discriminate|]. destruct (lookup t k' c0) as [[v|] c]; injection S as <- <-; [reflexivity|]. rewrite flying_cons, N'. reflexivity.
  - destruct (flying V j _) as [[k' [v|]]|]; try discriminate. destruct (body k' t); injection S as <- <-; [rewrite flying_cons, N'|]; rewrite flying_landed by congruence; reflexivity.
  - destruct (flying V j _) as [[k' [v|]]|]; try discriminate. destruct (setdefault t k' v c0) as [w c]; injection S as <- <-. rewrite flying_landed by congruence. reflexivity.
Qed.
Lemma flying_run i es : forall st st' outs, (forall y, In y es -> thread_of y <> i) -> run st es = Some (st', outs) -> flying V i st' = flying V i st.
Proof.
  induction es as [|y es IH]; intros st st' outs N R; cbn [CacheModel.run] in R; [injection R as <- <-; reflexivity|].
  destruct (step st y) as [[st1 o1]|] eqn:S1; [|discriminate]. destruct (run st1 es) as [[st2 o2]|] eqn:R2; [|discriminate]. injection R as <- <-.
  rewrite (IH _ _ _ (fun z J => N z (or_intror J)) R2). eapply flying_step; [|exact S1]. apply N. left. reflexivity.
Qed.
Lemma Cov_init ks : Cov ks init.
Proof. split; [constructor|intros e []|intros i k x []]. Qed.

Lemma c74_hit a j k t0 b ta c ts d i t ks st outs : let es := a ++ Call j k t0 :: b ++ Answer j ta :: c ++ Store j ts :: d ++ [Call i k t] in
  run init es = Some (st, outs) -> in_order es -> (forall e, In e (b ++ c) -> thread_of e <> j) ->
  (forall e x, In e es -> In x (asked e) -> In x ks) -> (N.of_nat (length ks) <= size)%N -> (t < t0 + ttl)%Z ->
  exists v outs', outs = outs' ++ [Outcome i k t (Ok v)].
Proof.
  cbv zeta. intros R O NJ A LE T.
  set (tail := b ++ Answer j ta :: c ++ Store j ts :: d ++ [Call i k t]) in *.
  assert (OT : forall y, In y tail -> (t0 <= time_of y <= t)%Z).
  { intros y J. apply in_order_app in O as (_ & O & _). destruct O as [O1 O2]. split; [apply (O1 y J)|].
    assert (E : tail = (b ++ Answer j ta :: c ++ Store j ts :: d) ++ [Call i k t]) by (unfold tail; repeat (rewrite <- !app_assoc; cbn [app]); reflexivity).
    rewrite E in O2, J. apply in_order_app in O2 as (_ & _ & O2). apply in_app_or in J as [J|[<-|[]]]; [|cbn; lia]. apply (O2 y (Call i k t) J). left. reflexivity. }
  rewrite run_app in R. destruct (run init a) as [[st1 o1]|] eqn:R1; [|discriminate].
  assert (C1 : Cov ks st1). { eapply Cov_run; [|apply Cov_init|exact R1]. intros y x J. apply A. apply in_or_app. auto. }
  cbn [CacheModel.run] in R. destruct (step st1 (Call j k t0)) as [[st2 o2]|] eqn:S2; [|discriminate].
  assert (C2 : Cov ks st2). { eapply Cov_step; [|exact C1|exact S2]. intros x. apply A. apply in_or_app. right. left. reflexivity. }
  assert (AT : forall y x, In y tail -> In x (asked y) -> In x ks) by (intros y x J; apply A; apply in_or_app; right; right; exact J).
  clear A. unfold tail in R. rewrite run_app in R. destruct (run st2 b) as [[st3 o3]|] eqn:R3; [|discriminate].
  assert (C3 : Cov ks st3). { eapply Cov_run; [|exact C2|exact R3]. intros y x J. apply AT. apply in_or_app. auto. }
  cbn [CacheModel.run] in R. destruct (step st3 (Answer j ta)) as [[st4 o4]|] eqn:S4; [|discriminate].
  assert (N2 : newer k t0 st2 /\ flying V j st2 <> None).
  { assert (F3 : flying V j st3 = flying V j st2) by (eapply flying_run; [|exact R3]; intros y J; apply NJ, in_or_app; auto).
    assert (F2 : flying V j st2 <> None). { rewrite <- F3. intros F. cbn [CacheModel.step] in S4. rewrite F in S4. discriminate. }
    split; [|exact F2]. cbn [CacheModel.step] in S2. destruct (flying V j st1) eqn:F1; [discriminate|]. destruct C1 as [ND _ _].
    pose proof (fun e J E => lookup_hit t0 k (st_cache st1) e ND J E) as LH. pose proof (lookup_in t0 k (st_cache st1)) as LI.
    destruct (lookup t0 k (st_cache st1)) as [[v|] cc]; injection S2 as <- <-; [exfalso; apply F2; exact F1|]. cbn [fst snd] in *.
    intros e J E. left. destruct (Z_lt_le_dec t0 (en_expires V e)) as [X|X]; [|exact X]. specialize (LH e (LI e J) E X). discriminate. }
  destruct N2 as [N2 _].
  assert (N3 : newer k t0 st3). { eapply newer_run; [exact N2| |exact R3]. intros y J. apply OT. apply in_or_app. auto. }
  assert (N4 : newer k t0 st4). { eapply newer_step; [exact N3| |exact S4]. apply OT. apply in_or_app. right. left. reflexivity. }
  assert (C4 : Cov ks st4). { eapply Cov_step; [|exact C3|exact S4]. intros x []. }
  assert (F4 : exists v, flying V j st4 = Some (k, Some v)).
  { assert (F3 : flying V j st3 = flying V j st2) by (eapply flying_run; [|exact R3]; intros y J; apply NJ, in_or_app; auto).
    assert (F2 : flying V j st2 = Some (k, None)).
    { cbn [CacheModel.step] in S2, S4. destruct (flying V j st1) eqn:F1; [discriminate|]. destruct (lookup t0 k (st_cache st1)) as [[v|] cc]; injection S2 as <- <-.
      - rewrite F3 in S4. unfold flying in S4, F1. cbn [flight] in S4. rewrite F1 in S4. discriminate.
      - rewrite flying_cons, PeanoNat.Nat.eqb_refl. reflexivity. }
    cbn [CacheModel.step] in S4. rewrite F3, F2 in S4. destruct (body k ta) as [v|x]; injection S4 as <- <-.
    - exists v. rewrite flying_cons, PeanoNat.Nat.eqb_refl. reflexivity.
    - exfalso. rewrite run_app in R. destruct (run _ c) as [[st5 o5]|] eqn:R5; [|discriminate]. cbn [CacheModel.run] in R.
      destruct (step st5 (Store j ts)) as [[st6 o6]|] eqn:S6; [|discriminate]. cbn [CacheModel.step] in S6.
      rewrite (flying_run j c _ _ _ (fun y J => NJ y (in_or_app b c y (or_intror J))) R5) in S6.
      destruct (flying V j (State (st_cache st3) (landed V j (flight st3)))) eqn:F; [|discriminate]. apply flying_in in F. cbn [flight] in F. apply landed_in in F as [_ F]. apply F. reflexivity. }
  destruct F4 as (v & F4). rewrite run_app in R. destruct (run st4 c) as [[st5 o5]|] eqn:R5; [|discriminate].
  assert (IC : forall y, In y c -> In y tail) by (intros y J; apply in_or_app; right; right; apply in_or_app; auto).
  assert (C5 : Cov ks st5). { eapply Cov_run; [|exact C4|exact R5]. intros y x J. apply AT, IC, J. }
  assert (N5 : newer k t0 st5). { eapply newer_run; [exact N4| |exact R5]. intros y J. apply OT, IC, J. }
  assert (F5 : flying V j st5 = Some (k, Some v)). { rewrite <- F4. eapply flying_run; [|exact R5]. intros y J. apply NJ, in_or_app. auto. }
  cbn [CacheModel.run] in R. destruct (step st5 (Store j ts)) as [[st6 o6]|] eqn:S6; [|discriminate].
  assert (C6 : Cov ks st6). { eapply Cov_step; [|exact C5|exact S6]. intros x []. }
  assert (TS : (t0 <= ts)%Z). { apply (OT (Store j ts)). apply in_or_app. right. right. apply in_or_app. right. left. reflexivity. }
  assert (H6 : holds st6 k (t0 + ttl)).
  { cbn [CacheModel.step] in S6. rewrite F5 in S6. unfold CacheModel.setdefault in S6. pose proof (lookup_some ts k (st_cache st5)) as L.
    pose proof (lookup_keeps ts k (st_cache st5)) as LK. destruct (lookup ts k (st_cache st5)) as [[w|] cc]; injection S6 as <- <-; cbn [fst snd] in *.
    - destruct (L w eq_refl) as (e & J & E & _ & X). exists e. split; [apply LK; [apply C5|exact J]|]. split; [exact E|]. destruct (N5 e J E); lia.
    - exists (Entry k v (ts + ttl)). split; [apply set_new|]. split; [reflexivity|]. cbn [en_expires]. lia. }
  rewrite run_app in R. destruct (run st6 d) as [[st7 o7]|] eqn:R7; [|discriminate].
  assert (ID : forall y, In y d -> In y tail) by (intros y J; apply in_or_app; right; right; apply in_or_app; right; right; apply in_or_app; auto).
  assert (C7 : Cov ks st7). { eapply Cov_run; [|exact C6|exact R7]. intros y x J. apply AT, ID, J. }
  assert (H7 : holds st7 k (t0 + ttl)).
  { eapply holds_run; [exact LE| |exact C6|exact H6| |exact R7]; [intros y x J; apply AT, ID, J|]. intros y J. specialize (OT y (ID y J)). lia. }
  destruct H7 as (e & J & E & X). cbn [CacheModel.run CacheModel.step] in R. destruct (flying V i st7); [discriminate|].
  assert (LH : fst (lookup t k (st_cache st7)) = Some (en_value V e)) by (apply lookup_hit; [apply C7|exact J|exact E|lia]).
  destruct (lookup t k (st_cache st7)) as [w cc]. cbn [fst] in LH. subst w. injection R as <- <-. exists (en_value V e). eexists.
  cbn [app]. rewrite !app_assoc. reflexivity.
Qed.
End C.
