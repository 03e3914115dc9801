(** Threads that allocate for one NSID do so as if there were no other NSID. *)
From Coq Require Import String List NArith ZArith Bool Lia.
From Verif Require Import Base Lists MstRep SeqModel SeqSpec SeqProofs NsidSpec NsidProofs NsidMemModel NsidMemSpec.
Import ListNotations.
Local Open Scope Z_scope.

Definition nt_view (x : str) (o : option (str * mm_pc)) : mm_pc :=
  match o with Some (y, pc) => if str_eqb x y then pc else AIdle | None => AIdle end.
Definition nt_like (x : str) (a : nt_state) (b : mm_state) : Prop :=
  mm_next b = dget x (nt_seqs a) /\ (forall i, mm_threads b i = nt_view x (nt_threads a i)) /\ mm_log b = of_nsid x (nt_log a) /\
  forall i y, nt_threads a i <> Some (y, AIdle).

Lemma nt_sim x a b ix : x <> [] -> nt_like x a b ->
  nt_like x (nt_step a ix) b \/ (step_nsid a ix = x /\ nt_like x (nt_step a ix) (mm_step b (fst ix))).
Proof.
  destruct ix as [i x0]. intros NX (H1 & H2 & H3 & H4). unfold step_nsid, nt_step. cbn [fst snd]. pose proof (H2 i) as T.
  assert (NI : forall o, (forall y, o <> Some (y, AIdle)) -> forall j y, put (nt_threads a) i o j <> Some (y, AIdle))
    by (intros o NO j y; rewrite put_at; destruct (Nat.eqb j i); [apply NO|apply H4]).
  destruct (nt_threads a i) as [[y pc]|] eqn:ET; cbn [nt_view] in T.
  - destruct (str_eqb_spec x y) as [<-|NE].
    + right. split; [reflexivity|]. unfold mm_step. rewrite T. assert (V : nt_value x a = match mm_next b with Some n => n | None => 1 end) by (unfold nt_value; rewrite H1; reflexivity).
      destruct pc as [|n|n v]; [destruct (H4 _ _ ET)|..]; unfold nt_like; cbn [nt_seqs nt_threads nt_log mm_next mm_threads mm_log].
      * splits; auto; [|apply NI; discriminate]. intros j. rewrite !put_at. destruct (Nat.eqb j i); [|apply H2]. cbn [nt_view]. rewrite str_eqb_refl, V. reflexivity.
      * rewrite dget_dset, str_eqb_refl, of_nsid_snoc, str_eqb_refl, H3. splits; auto; [|apply NI; discriminate].
        intros j. rewrite !put_at. destruct (Nat.eqb j i); [reflexivity|apply H2].
    + left. assert (NEB : str_eqb x y = false) by (destruct (str_eqb_spec x y); [congruence|reflexivity]).
      destruct pc as [|n|n v]; [destruct (H4 _ _ ET)|..]; unfold nt_like; cbn [nt_seqs nt_threads nt_log].
      * splits; auto; [|apply NI; discriminate]. intros j. rewrite !put_at. destruct (Nat.eqb_spec j i) as [->|]; [|apply H2]. cbn [nt_view]. rewrite NEB. exact T.
      * rewrite dget_dset, of_nsid_snoc, NEB, app_nil_r. splits; auto; [|apply NI; discriminate].
        intros j. rewrite !put_at. destruct (Nat.eqb_spec j i) as [->|]; [exact T|apply H2].
  - destruct x0 as [|c x1]; [left; unfold nt_like; splits; auto|]. set (x0 := c :: x1) in *. destruct (str_eqb_spec x x0) as [EQ|NE].
    + right. split; [symmetry; exact EQ|]. rewrite <- EQ. clear x0 EQ. unfold mm_step. rewrite T.
      assert (V : nt_value x a = match mm_next b with Some n => n | None => 1 end) by (unfold nt_value; rewrite H1; reflexivity).
      unfold nt_like. cbn [nt_seqs nt_threads nt_log mm_next mm_threads mm_log]. rewrite dget_dset, str_eqb_refl, V. splits; auto; [|apply NI; discriminate].
      intros j. rewrite !put_at. destruct (Nat.eqb j i); [|apply H2]. cbn [nt_view]. rewrite str_eqb_refl. reflexivity.
    + left. assert (NEB : str_eqb x x0 = false) by (destruct (str_eqb_spec x x0); [congruence|reflexivity]).
      unfold nt_like. cbn [nt_seqs nt_threads nt_log]. rewrite dget_dset, NEB. splits; auto; [|apply NI; discriminate].
      intros j. rewrite !put_at. destruct (Nat.eqb_spec j i) as [->|]; [|apply H2]. cbn [nt_view]. rewrite NEB. exact T.
Qed.

Lemma nt_start x : nt_like x nt_init mm_init.
Proof. unfold nt_like. cbn. splits; auto. intros i y. discriminate. Qed.
Lemma nt_sims x sched : x <> [] -> forall a b, nt_like x a b -> exists l, nt_like x (fold_left nt_step sched a) (fold_left mm_step l b) /\
  (never_meet x a sched -> one_at_a_time b l).
Proof.
  intros NX. induction sched as [|ix sched IH]; intros a b L; [exists []; split; [exact L|intros _; exact Logic.I]|]. cbn [fold_left never_meet].
  destruct (nt_sim x a b ix NX L) as [L1|[E L1]]; destruct (IH _ _ L1) as (l & L2 & O).
  - exists l. split; [exact L2|]. intros [_ N]. auto.
  - exists (fst ix :: l). split; [exact L2|]. intros [N1 N2]. cbn [one_at_a_time]. split; [|auto].
    intros j NJ. destruct L as (_ & H2 & _ & _). rewrite H2. specialize (N1 E j). destruct (nt_threads a j) as [[y pc]|]; cbn [nt_view]; [|reflexivity].
    destruct (str_eqb_spec x y) as [<-|]; [|reflexivity]. destruct (N1 pc NJ). reflexivity.
Qed.

Lemma c73_nsids sched x : x <> [] -> let l := of_nsid x (nt_log (nt_run sched)) in
  (forall i, (i < length l)%nat -> 1 <= nth i l 0 <= Z.of_nat i + 1) /\
  (never_meet x nt_init sched -> forall i, (i < length l)%nat -> nth i l 0 = Z.of_nat i + 1).
Proof.
  intros NX. cbv zeta. destruct (nt_sims x sched NX _ _ (nt_start x)) as (l & (_ & _ & H3 & _) & O). fold (nt_run sched) in *. fold (mm_run l) in *. rewrite <- H3. split.
  - apply memory_low.
  - intros N. apply memory_alone, O, N.
Qed.
