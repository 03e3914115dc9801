(** Allocations for one NSID go as if there were no other. *)
From Coq Require Import String List NArith ZArith Bool Lia.
From Verif Require Import Base Lists MstRep SeqModel SeqSpec SeqProofs NsidModel NsidSpec.
Import ListNotations.
Local Open Scope Z_scope.

Lemma of_nsid_snoc {A} x y (v : A) l : of_nsid x (l ++ [(y, v)]) = of_nsid x l ++ (if str_eqb x y then [v] else []).
Proof. unfold of_nsid. rewrite filter_app, map_app. cbn [filter fst]. destruct (str_eqb x y); reflexivity. Qed.
Lemma put_at {A} (f : nat -> A) i a j : put f i a j = if Nat.eqb j i then a else f j.
Proof. reflexivity. Qed.

(** ** DatastoreSequences *)
Definition nd_view (x : str) (o : option (str * nat * Z)) : ds_pc :=
  match o with Some (y, v, n) => if str_eqb x y then DRead v n else DIdle | None => DIdle end.
Definition nd_like (x : str) (a : nd_state) (b : ds_state) : Prop :=
  ds_next b = option_map snd (dget x (nd_ents a)) /\ ds_version b = fst (nd_entity x a) /\
  (forall i, ds_threads b i = nd_view x (nd_threads a i)) /\ ds_log b = of_nsid x (nd_log a).

Lemma nd_sim x a b ix : nd_like x a b -> exists l, nd_like x (nd_step a ix) (fold_left ds_step l b).
Proof.
  destruct ix as [i x0]. intros (H1 & H2 & H3 & H4). unfold nd_step. pose proof (H3 i) as T. destruct (nd_threads a i) as [[[y v] n]|] eqn:ET; cbn [nd_view] in T.
  - destruct (str_eqb_spec x y) as [<-|NE].
    + exists [i]. cbn [fold_left]. unfold ds_step. rewrite T, H2. destruct (Nat.eqb_spec v (fst (nd_entity x a))) as [EV|NV].
      * unfold nd_like, nd_entity. cbn [nd_ents nd_threads nd_log ds_next ds_version ds_threads ds_log]. rewrite !dget_dset, str_eqb_refl. cbn [option_map fst snd]. splits.
        -- reflexivity.
        -- f_equal. symmetry. exact EV.
        -- intros j. rewrite !put_at. destruct (Nat.eqb j i); [reflexivity|apply H3].
        -- rewrite of_nsid_snoc, str_eqb_refl, H4. reflexivity.
      * unfold nd_like, nd_entity in *. cbn [nd_ents nd_threads nd_log ds_next ds_version ds_threads ds_log]. splits; auto.
        intros j. rewrite !put_at. destruct (Nat.eqb j i); [reflexivity|apply H3].
    + exists []. cbn [fold_left]. destruct (Nat.eqb v (fst (nd_entity y a))).
      * unfold nd_like, nd_entity in *. cbn [nd_ents nd_threads nd_log]. rewrite !dget_dset. destruct (str_eqb_spec x y) as [|_]; [congruence|]. splits; auto.
        -- intros j. rewrite put_at. destruct (Nat.eqb_spec j i) as [->|]; [exact T|apply H3].
        -- rewrite of_nsid_snoc. destruct (str_eqb_spec x y) as [|_]; [congruence|]. rewrite app_nil_r. exact H4.
      * unfold nd_like, nd_entity in *. cbn [nd_ents nd_threads nd_log]. splits; auto.
        intros j. rewrite put_at. destruct (Nat.eqb_spec j i) as [->|]; [exact T|apply H3].
  - destruct (str_eqb_spec x x0) as [<-|NE].
    + exists [i]. cbn [fold_left]. unfold ds_step. rewrite T. unfold nd_like, nd_entity in *. cbn [nd_ents nd_threads nd_log ds_next ds_version ds_threads ds_log]. splits; auto.
      intros j. rewrite !put_at. destruct (Nat.eqb j i); [|apply H3]. cbn [nd_view]. rewrite str_eqb_refl, H1, H2. destruct (dget x (nd_ents a)); reflexivity.
    + exists []. cbn [fold_left]. unfold nd_like, nd_entity in *. cbn [nd_ents nd_threads nd_log]. splits; auto.
      intros j. rewrite put_at. destruct (Nat.eqb_spec j i) as [->|]; [|apply H3]. cbn [nd_view]. destruct (str_eqb_spec x x0); [congruence|exact T].
Qed.
Lemma nd_sims x sched : exists l, nd_like x (nd_run sched) (ds_run l).
Proof.
  induction sched as [|e sched IH] using rev_ind.
  - exists []. unfold nd_like. cbn. splits; auto.
  - destruct IH as (l & IH). destruct (nd_sim x _ _ e IH) as (l' & H). exists (l ++ l'). unfold nd_run, ds_run in *. rewrite !fold_left_app. exact H.
Qed.
Lemma c17_nsids sched x : let a := nd_run sched in let l := of_nsid x (nd_log a) in
  (forall i, (i < length l)%nat -> nth i l 0 = Z.of_nat i + 1) /\
  nd_last x a = match l with [] => None | _ => Some (Z.of_nat (length l)) end.
Proof.
  cbv zeta. destruct (nd_sims x sched) as (l & H1 & _ & _ & H4). destruct (datastore_consecutive l) as [A B]. rewrite <- H4. split; [exact A|].
  rewrite <- B. unfold nd_last, ds_last. rewrite H1. destruct (dget x (nd_ents (nd_run sched))); reflexivity.
Qed.

(** ** MemcacheSequences *)
Lemma memcache_key_inj x y : memcache_key x = memcache_key y -> x = y.
Proof. apply app_inv_tail. Qed.
Lemma memcache_key_eqb x y : str_eqb (memcache_key x) (memcache_key y) = str_eqb x y.
Proof. destruct (str_eqb_spec x y) as [->|N]; [apply str_eqb_refl|]. destruct (str_eqb_spec (memcache_key x) (memcache_key y)) as [E|]; [|reflexivity]. destruct N. apply memcache_key_inj, E. Qed.
Lemma dget_filter k x (d : list (str * Z)) : dget x (filter (fun kv => negb (str_eqb k (fst kv))) d) = if str_eqb k x then None else dget x d.
Proof.
  induction d as [|[y v] d IH]; cbn [filter fst dget]; [destruct (str_eqb k x); reflexivity|].
  destruct (str_eqb_spec k y) as [<-|N]; cbn [negb dget].
  - rewrite IH. destruct (str_eqb_spec k x) as [<-|NE]; [reflexivity|]. destruct (str_eqb_spec x k); [congruence|reflexivity].
  - rewrite IH. destruct (str_eqb_spec x y) as [->|NE]; [|reflexivity]. destruct (str_eqb_spec k y); [congruence|reflexivity].
Qed.

Section M.
Variable proc : nat -> nat.
Variables batch buffer : Z.
Notation nm_step := (nm_step proc batch buffer).
Notation mc_step := (mc_step proc batch buffer).

Definition nm_view (x : str) (o : option (str * mc_pc)) : mc_pc :=
  match o with Some (y, pc) => if str_eqb x y then pc else MIdle | None => MIdle end.
Definition nm_like (x : str) (a : nm_state) (b : mc_state) : Prop :=
  mc b = dget (memcache_key x) (nm_mc a) /\ st_next b = dget x (nm_next a) /\ (forall p, maxs b p = dget x (nm_max a p)) /\
  (forall t, mc_threads b t = nm_view x (nm_threads a t)) /\ mc_log b = of_nsid x (nm_log a) /\ mc_failed b = of_nsid x (nm_failed a).

Ltac fields := unfold nm_like, nm_at, nm_fail, nm_set_mc, nm_set_next, nm_set_max, nm_return, at_pc, mc_fail in *;
  cbn [nm_mc nm_next nm_max nm_threads nm_log nm_failed mc st_next maxs mc_threads mc_log mc_failed] in *.

(** A step for another NSID. *)
Lemma nm_other x a b t : nm_like x a b -> forall y pc, x <> y -> nm_view x (nm_threads a t) = MIdle -> nm_like x (nm_at a t (Some (y, pc))) b.
Proof.
  intros (H1 & H2 & H3 & H4 & H5 & H6) y pc NE V. fields. splits; auto. intros u. rewrite put_at, H4. destruct (Nat.eqb_spec u t) as [->|]; [|reflexivity].
  rewrite V. cbn [nm_view]. destruct (str_eqb_spec x y); [congruence|reflexivity].
Qed.
Lemma nm_end x a b t : nm_like x a b -> nm_view x (nm_threads a t) = MIdle -> nm_like x (nm_at a t None) b.
Proof.
  intros (H1 & H2 & H3 & H4 & H5 & H6) V. fields. splits; auto. intros u. rewrite put_at, H4. destruct (Nat.eqb_spec u t) as [->|]; [|reflexivity].
  rewrite V. reflexivity.
Qed.
Lemma nm_o_mc x a b y v : nm_like x a b -> x <> y -> nm_like x (nm_set_mc a (dset (memcache_key y) v (nm_mc a))) b.
Proof. intros (H1 & H2 & H3 & H4 & H5 & H6) NE. fields. splits; auto. rewrite dget_dset, memcache_key_eqb. destruct (str_eqb_spec x y); [congruence|exact H1]. Qed.
Lemma nm_o_next x a b y v : nm_like x a b -> x <> y -> nm_like x (nm_set_next a y v) b.
Proof. intros (H1 & H2 & H3 & H4 & H5 & H6) NE. fields. splits; auto. rewrite dget_dset. destruct (str_eqb_spec x y); [congruence|exact H2]. Qed.
Lemma nm_o_max x a b y p v : nm_like x a b -> x <> y -> nm_like x (nm_set_max a p y v) b.
Proof.
  intros (H1 & H2 & H3 & H4 & H5 & H6) NE. fields. splits; auto. intros q. rewrite put_at. destruct (Nat.eqb_spec q p) as [->|]; [|apply H3].
  rewrite dget_dset. destruct (str_eqb_spec x y); [congruence|apply H3].
Qed.
Lemma nm_o_fail x a b y e : nm_like x a b -> x <> y -> nm_like x (nm_fail a y e) b.
Proof. intros (H1 & H2 & H3 & H4 & H5 & H6) NE. fields. splits; auto. rewrite of_nsid_snoc. destruct (str_eqb_spec x y); [congruence|]. rewrite app_nil_r. exact H6. Qed.
Lemma nm_o_return x a b y n : nm_like x a b -> x <> y -> nm_like x (nm_return a y n) b.
Proof. intros (H1 & H2 & H3 & H4 & H5 & H6) NE. fields. splits; auto. rewrite of_nsid_snoc. destruct (str_eqb_spec x y); [congruence|]. rewrite app_nil_r. exact H5. Qed.

Lemma same_threads x a b t pc : (forall u, mc_threads b u = nm_view x (nm_threads a u)) ->
  forall u, put (mc_threads b) t pc u = nm_view x (put (nm_threads a) t (Some (x, pc)) u).
Proof. intros H u. rewrite !put_at. destruct (Nat.eqb u t); [cbn [nm_view]; rewrite str_eqb_refl; reflexivity|apply H]. Qed.
Lemma same_idle x a b t : (forall u, mc_threads b u = nm_view x (nm_threads a u)) ->
  forall u, put (mc_threads b) t MIdle u = nm_view x (put (nm_threads a) t None u).
Proof. intros H u. rewrite !put_at. destruct (Nat.eqb u t); [reflexivity|apply H]. Qed.
Lemma same_maxs x (f : nat -> option Z) (g : nat -> list (str * Z)) p n : (forall q, f q = dget x (g q)) ->
  forall q, put f p (Some n) q = dget x (put g p (dset x n (g p)) q).
Proof. intros H q. rewrite !put_at. destruct (Nat.eqb q p); [rewrite dget_dset, str_eqb_refl; reflexivity|apply H]. Qed.
Lemma same_snoc {A} x (l : list A) l' v : l = of_nsid x l' -> l ++ [v] = of_nsid x (l' ++ [(x, v)]).
Proof. intros ->. rewrite of_nsid_snoc, str_eqb_refl. reflexivity. Qed.
Hint Resolve same_threads same_idle same_maxs same_snoc : like.

(** The item of [x] is incremented, by a thread that is for [x]. *)
Lemma incr_same x a b t v : nm_like x a b -> mc b = Some v ->
  nm_like x (nm_at (nm_set_mc a (dset (memcache_key x) (v + 1) (nm_mc a))) t (Some (x, MCheck (v + 1))))
    {| mc := Some (v + 1); st_next := st_next b; maxs := maxs b; mc_threads := put (mc_threads b) t (MCheck (v + 1)); mc_log := mc_log b; mc_failed := mc_failed b |}.
Proof. intros (H1 & H2 & H3 & H4 & H5 & H6) E. fields. splits; auto with like. rewrite dget_dset, str_eqb_refl. reflexivity. Qed.

Lemma nm_sim x a b ev : x <> [] -> nm_like x a b -> exists l, nm_like x (nm_step a ev) (fold_left mc_step l b) /\
  (spares x a ev -> all_benign proc batch buffer b l).
Proof.
  intros NX L. pose proof L as (H1 & H2 & H3 & H4 & H5 & H6).
  assert (SK : nm_like x (nm_step a ev) b -> exists l, nm_like x (nm_step a ev) (fold_left mc_step l b) /\ (spares x a ev -> all_benign proc batch buffer b l))
    by (intros X; exists []; split; [exact X|intros _; exact Logic.I]).
  assert (ONE : forall e, nm_like x (nm_step a ev) (mc_step b e) -> (spares x a ev -> benign b e) ->
    exists l, nm_like x (nm_step a ev) (fold_left mc_step l b) /\ (spares x a ev -> all_benign proc batch buffer b l))
    by (intros e X Y; exists [e]; split; [exact X|intros Z; split; [exact (Y Z)|exact Logic.I]]).
  destruct ev as [t x0|t|k].
  - pose proof (H4 t) as T. cbn [NsidModel.nm_step] in *.
    assert (BEGIN : nm_view x (nm_threads a t) = MIdle ->
      exists l, nm_like x (match x0 with [] => nm_fail a x0 AssertionError | _ :: _ => nm_incr a t x0 (nm_at a t (Some (x0, MLoad))) end) (fold_left mc_step l b) /\
        (True -> all_benign proc batch buffer b l)).
    { intros V. destruct (str_eqb_spec x x0) as [<-|NE].
      - destruct x as [|c x]; [congruence|]. set (y := c :: x) in *. exists [Run t]. cbn [fold_left]. split; [|intros _; cbn; auto]. unfold SeqModel.mc_step. rewrite T, V. unfold nm_incr. rewrite <- H1.
        destruct (mc b) as [v|] eqn:EV; [apply incr_same; assumption|]. fields. splits; auto with like. congruence.
      - exists []. cbn [fold_left]. split; [|intros _; exact Logic.I]. destruct x0 as [|c x0]; [apply nm_o_fail; assumption|]. unfold nm_incr.
        destruct (dget (memcache_key (c :: x0)) (nm_mc a)) as [v|]; [|apply nm_other; assumption]. apply nm_other; [|assumption|exact V]. apply nm_o_mc; assumption. }
    destruct (nm_threads a t) as [[y pc]|] eqn:ET; [|apply BEGIN; reflexivity].
    destruct (str_eqb_spec x y) as [<-|NE].
    + cbn [nm_view] in T, BEGIN. rewrite str_eqb_refl in T, BEGIN. destruct pc as [| |m| |q|q]; [apply BEGIN; reflexivity|..]; clear BEGIN; apply (ONE (Run t)); try (intros _; exact Logic.I);
        unfold SeqModel.mc_step; rewrite T.
      * assert (ES : nm_stored x a = stored b) by (unfold nm_stored, stored; rewrite H2; reflexivity). rewrite ES. fields. splits; auto with like. rewrite dget_dset, str_eqb_refl. reflexivity.
      * rewrite H1. destruct (dget (memcache_key x) (nm_mc a)) as [v|] eqn:EV; fields; splits; auto with like. rewrite dget_dset, str_eqb_refl. reflexivity.
      * unfold nm_incr. rewrite <- H1. destruct (mc b) as [v|] eqn:EV; [apply incr_same; assumption|]. fields. splits; auto with like; congruence.
      * assert (ES : nm_stored x a = stored b) by (unfold nm_stored, stored; rewrite H2; reflexivity).
        assert (EM : nm_max_of x a (proc t) = max_of b (proc t)) by (unfold nm_max_of, max_of; rewrite H3; reflexivity). rewrite ES, EM.
        destruct (max_of b (proc t) - q <? buffer); fields; splits; auto with like. rewrite dget_dset, str_eqb_refl. reflexivity.
      * assert (EM : nm_max_of x a (proc t) = max_of b (proc t)) by (unfold nm_max_of, max_of; rewrite H3; reflexivity). rewrite EM.
        destruct (negb (q =? 0) && (q <=? max_of b (proc t))); fields; splits; auto with like.
    + assert (V : nm_view x (nm_threads a t) = MIdle) by (rewrite ET; cbn [nm_view]; destruct (str_eqb_spec x y); [congruence|reflexivity]).
      destruct pc as [| |m| |q|q]; [apply BEGIN; rewrite <- ET; exact V|..]; clear BEGIN; apply SK.
      * apply nm_other; [|assumption|exact V]. apply nm_o_max; [apply nm_o_next|]; assumption.
      * apply nm_other; [|assumption|exact V]. destruct (dget (memcache_key y) (nm_mc a)); [|apply nm_o_mc; assumption]. destruct a; exact L.
      * unfold nm_incr. destruct (dget (memcache_key y) (nm_mc a)) as [v|]; [apply nm_other; [apply nm_o_mc|..]; assumption|]. apply nm_end; [apply nm_o_fail; assumption|exact V].
      * apply nm_other; [|assumption|destruct (nm_max_of y a (proc t) - q <? buffer); exact V]. destruct (nm_max_of y a (proc t) - q <? buffer); [apply nm_o_max; [apply nm_o_next|]; assumption|exact L].
      * apply nm_end; [|destruct (negb (q =? 0) && (q <=? nm_max_of y a (proc t))); exact V].
        destruct (negb (q =? 0) && (q <=? nm_max_of y a (proc t))); [apply nm_o_return|apply nm_o_fail]; assumption.
  - pose proof (H4 t) as T. cbn [NsidModel.nm_step] in *. destruct (nm_threads a t) as [[y pc]|] eqn:ET; [|apply SK, L]. destruct pc as [| |m| |q|q]; try (apply SK, L).
    destruct (str_eqb_spec x y) as [<-|NE].
    + cbn [nm_view] in T. rewrite str_eqb_refl in T. apply (ONE (FailCommit t)).
      * unfold SeqModel.mc_step. rewrite T.
        assert (ES : nm_stored x a = stored b) by (unfold nm_stored, stored; rewrite H2; reflexivity).
        assert (EM : nm_max_of x a (proc t) = max_of b (proc t)) by (unfold nm_max_of, max_of; rewrite H3; reflexivity). rewrite ES, EM.
        destruct (max_of b (proc t) - q <? buffer); [|exact L]. fields; splits; auto with like.
      * intros X. destruct (X _ ET).
    + apply SK. destruct (nm_max_of y a (proc t) - q <? buffer); [|exact L]. apply nm_end; [apply nm_o_fail; [apply nm_o_max|]; assumption|].
      cbn [nm_fail nm_set_max nm_threads]. rewrite ET. cbn [nm_view]. destruct (str_eqb_spec x y); [congruence|reflexivity].
  - destruct (str_eqb_spec k (memcache_key x)) as [->|NE].
    + apply (ONE Evict).
      * cbn [NsidModel.nm_step SeqModel.mc_step]. fields. splits; auto. rewrite dget_filter, str_eqb_refl. reflexivity.
      * intros X. specialize (X eq_refl). unfold benign, unreserved, installing.
        assert (AT : forall t pc, pc <> MIdle -> mc_threads b t = pc -> nm_threads a t = Some (x, pc)).
        { intros t pc NI E. rewrite H4 in E. destruct (nm_threads a t) as [[y q]|]; cbn [nm_view] in E; [|congruence]. destruct (str_eqb_spec x y) as [<-|NE]; [rewrite E; reflexivity|]. destruct NI. symmetry. exact E. }
        split; intros (t & n & E); destruct (X t n) as [X1 X2]; [apply X1|apply X2]; apply AT; congruence.
    + apply SK. cbn [NsidModel.nm_step]. fields. splits; auto. rewrite dget_filter. destruct (str_eqb_spec k (memcache_key x)); [congruence|exact H1].
Qed.

Lemma benign_app l1 : forall b l2, all_benign proc batch buffer b (l1 ++ l2) <-> all_benign proc batch buffer b l1 /\ all_benign proc batch buffer (fold_left mc_step l1 b) l2.
Proof. induction l1 as [|e l1 IH]; intros b l2; cbn [app all_benign fold_left]; [intuition auto|]. rewrite IH. intuition auto. Qed.
Lemma nm_sims x evs : x <> [] -> forall a b, nm_like x a b -> all_spare proc batch buffer x a evs ->
  exists l, nm_like x (fold_left nm_step evs a) (fold_left mc_step l b) /\ all_benign proc batch buffer b l.
Proof.
  intros NX. induction evs as [|e evs IH]; intros a b L SP; [exists []; split; [exact L|exact Logic.I]|]. destruct SP as [S1 S2]. cbn [fold_left].
  destruct (nm_sim x a b e NX L) as (l1 & L1 & B1). destruct (IH _ _ L1 S2) as (l2 & L2 & B2). exists (l1 ++ l2). rewrite fold_left_app. split; [exact L2|]. apply benign_app. auto.
Qed.

Lemma c27_nsids evs x : 1 < buffer < batch -> x <> [] -> all_spare proc batch buffer x nm_init evs ->
  let a := nm_run proc batch buffer evs in
  NoDup (of_nsid x (nm_log a)) /\ Forall (fun q => 1 <= q < nm_stored x a) (of_nsid x (nm_log a)) /\
  Forall (fun e => e = TypeError) (of_nsid x (nm_failed a)) /\
  forall v, nm_last x a = Some v -> Forall (fun q => q <= v) (of_nsid x (nm_log a)).
Proof.
  cbv zeta. intros CFG NX SP. assert (L0 : nm_like x nm_init mc_init) by (unfold nm_like; cbn; splits; auto).
  destruct (nm_sims x evs NX _ _ L0 SP) as (l & (H1 & H2 & H3 & H4 & H5 & H6) & B). fold (nm_run proc batch buffer evs) in *. fold (mc_run proc batch buffer l) in *.
  destruct (memcache_unique proc batch buffer CFG l B) as (U1 & U2 & U3). rewrite <- H5, <- H6.
  replace (nm_stored x (nm_run proc batch buffer evs)) with (stored (mc_run proc batch buffer l)) by (unfold nm_stored, stored; rewrite H2; reflexivity). splits; auto.
  intros v E. apply (memcache_last proc batch buffer CFG l v B). unfold mc_last. rewrite H1. exact E.
Qed.
End M.
