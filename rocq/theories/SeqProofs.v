(** Proofs about sequence number allocation. *)
From Coq Require Import String List NArith ZArith Bool Lia.
From Verif Require Import Base Lists SeqModel SeqSpec.
Import ListNotations.
Local Open Scope Z_scope.

Lemma put_same {A} (f : nat -> A) i a : put f i a i = a.
Proof. unfold put. rewrite Nat.eqb_refl. auto. Qed.

Lemma put_other {A} (f : nat -> A) i j a : j <> i -> put f i a j = f j.
Proof. intros H. unfold put. apply Nat.eqb_neq in H. rewrite H. auto. Qed.

(** ** Memory *)

Lemma allocations_nonneg n ops : 0 <= allocations n ops.
Proof. induction ops as [|[m|m] ops IH]; simpl; try destruct (str_eqb n m); lia. Qed.

Definition seq_inv (m : sequences) (cnt : str -> Z) : Prop :=
  forall n, n <> [] -> 0 <= cnt n /\ dget n m = if cnt n =? 0 then None else Some (cnt n + 1).

Lemma seq_step_inv m o cnt : seq_inv m cnt ->
  seq_inv (seq_step m o) (fun n => cnt n + allocations n [o]).
Proof.
  intros H n Hn. destruct (H n Hn) as [P E]. destruct o as [k|k]; cbn [seq_step allocations].
  - destruct k as [|x k].
    + cbn [allocate]. destruct n as [|y n]; [congruence|].
      destruct (str_eqb_spec (y :: n) []); [discriminate|]. simpl (_ + 0). split; [lia|].
      rewrite !Z.add_0_r. auto.
    + cbn [allocate]. rewrite dget_dset. destruct (str_eqb_spec n (x :: k)) as [->|NE].
      * rewrite E. split; [lia|].
        destruct (cnt (x :: k) =? 0) eqn:Z0.
        -- apply Z.eqb_eq in Z0. rewrite Z0. reflexivity.
        -- destruct (cnt (x :: k) + (1 + 0) =? 0) eqn:Z1; [apply Z.eqb_eq in Z1; lia|f_equal; lia].
      * split; [lia|]. rewrite !Z.add_0_r. auto.
  - split; [lia|]. rewrite !Z.add_0_r. auto.
Qed.

Lemma allocations_app n a b : allocations n (a ++ b) = allocations n a + allocations n b.
Proof. induction a as [|[m|m] a IH]; simpl; rewrite ?IH; lia. Qed.

Lemma seq_run_inv ops : forall m cnt, seq_inv m cnt ->
  seq_inv (fold_left seq_step ops m) (fun n => cnt n + allocations n ops).
Proof.
  induction ops as [|o ops IH]; intros m cnt H; cbn [fold_left].
  - intros n Hn. simpl. rewrite Z.add_0_r. auto.
  - pose proof (IH _ _ (seq_step_inv m o cnt H)) as H'.
    intros n Hn. specialize (H' n Hn). cbn beta in H'.
    replace (cnt n + allocations n (o :: ops)) with (cnt n + allocations n [o] + allocations n ops); auto.
    change (o :: ops) with ([o] ++ ops). rewrite allocations_app. lia.
Qed.

Lemma memory_allocate ops nsid : nsid <> [] ->
  exists m, allocate nsid (seq_run ops) = Ok (1 + allocations nsid ops, m).
Proof.
  intros Hn. destruct (seq_run_inv ops [] (fun _ => 0)) with (n := nsid) as [P E]; auto.
  { intros n _. split; [lia|reflexivity]. }
  unfold allocate. destruct nsid; [congruence|]. unfold seq_run. rewrite E. eexists.
  f_equal. f_equal. cbn beta. destruct (0 + _ =? 0) eqn:Z0; [apply Z.eqb_eq in Z0|]; lia.
Qed.

Lemma memory_last ops nsid : nsid <> [] ->
  last_seq nsid (seq_run ops) =
    Ok (if allocations nsid ops =? 0 then None else Some (allocations nsid ops)).
Proof.
  intros Hn. destruct (seq_run_inv ops [] (fun _ => 0)) with (n := nsid) as [P E]; auto.
  { intros n _. split; [lia|reflexivity]. }
  unfold last_seq. destruct nsid; [congruence|]. unfold seq_run. rewrite E. cbn beta. rewrite Z.add_0_l in *.
  destruct (allocations _ ops =? 0) eqn:Z0; auto.
  destruct (allocations _ ops + 1 =? 0) eqn:Z1; [apply Z.eqb_eq in Z1; lia|]. f_equal. f_equal. lia.
Qed.

(** ** Datastore *)

Fixpoint upto (n : nat) : list Z :=
  match n with O => [] | S k => upto k ++ [Z.of_nat n] end.

Lemma ds_inv sched : let x := ds_run sched in
  ds_log x = upto (ds_version x) /\
  ds_next x = (match ds_version x with O => None | S _ => Some (Z.of_nat (ds_version x) + 1) end) /\
  forall i, match ds_threads x i with
            | DIdle => True
            | DRead v n => (v <= ds_version x)%nat /\ n = Z.of_nat v + 1
            end.
Proof.
  unfold ds_run. rewrite <- (rev_involutive sched). set (l := rev sched). clearbody l.
  induction l as [|i l IH]; [simpl; auto|]. cbn [rev]. rewrite fold_left_app. cbn [fold_left].
  set (x := fold_left ds_step (rev l) ds_init) in *. clearbody x.
  destruct IH as (L & N & T). cbn zeta. unfold ds_step.
  pose proof (T i) as Ti. destruct (ds_threads x i) as [|v n]; cbn.
  - split; auto. split; auto. intros j. destruct (Nat.eq_dec j i) as [->|NE].
    + rewrite put_same. split; [lia|]. rewrite N. destruct (ds_version x); lia.
    + rewrite put_other by auto. apply T.
  - destruct Ti as [V E]. destruct (Nat.eqb_spec v (ds_version x)) as [->|NE]; cbn.
    + split; [rewrite L, E; f_equal; f_equal; lia|]. split; [rewrite E; f_equal; lia|].
      intros j. destruct (Nat.eq_dec j i) as [->|NE']; [rewrite put_same; auto|].
      rewrite put_other by auto. specialize (T j). destruct (ds_threads x j); auto. split; [lia|tauto].
    + split; auto. split; auto. intros j. destruct (Nat.eq_dec j i) as [->|NE'].
      * rewrite put_same; auto.
      * rewrite put_other by auto. apply T.
Qed.

Lemma upto_length n : length (upto n) = n.
Proof. induction n; simpl; auto. rewrite app_length. simpl. lia. Qed.

Lemma datastore_consecutive sched : let x := ds_run sched in
  (forall i, (i < length (ds_log x))%nat -> nth i (ds_log x) 0 = Z.of_nat i + 1) /\
  ds_last x = match ds_log x with [] => None | _ => Some (Z.of_nat (length (ds_log x))) end.
Proof.
  cbn zeta. destruct (ds_inv sched) as (L & N & _). set (x := ds_run sched) in *. clearbody x.
  assert (U : forall n i, (i < n)%nat -> nth i (upto n) 0 = Z.of_nat i + 1).
  { induction n as [|n IH]; intros i H; [lia|]. simpl upto.
    destruct (Nat.eq_dec i n) as [->|NE].
    - rewrite app_nth2; rewrite upto_length; [|lia]. rewrite Nat.sub_diag. simpl. lia.
    - rewrite app_nth1; [|rewrite upto_length; lia]. apply IH. lia. }
  split.
  - intros i H. rewrite L in *. apply U. rewrite upto_length in H. auto.
  - unfold ds_last. rewrite N, L. destruct (ds_version x) as [|k]; auto.
    rewrite upto_length. destruct (upto (S k)) eqn:E; [apply (f_equal (@length Z)) in E; rewrite upto_length in E; discriminate|].
    f_equal. lia.
Qed.

(** ** Memcache *)

Section Memcache.
Variable proc : nat -> nat.
Variables batch buffer : Z.
Hypothesis cfg : 1 < buffer < batch.

Notation step := (mc_step proc batch buffer).

(** Number a thread holds. *)
Definition held (pc : mc_pc) : option Z :=
  match pc with MCheck q => Some q | MReturn q => Some q | _ => None end.

Definition mc_inv (x : mc_state) : Prop :=
  NoDup (mc_log x) /\
  (forall t q, held (mc_threads x t) = Some q -> ~ In q (mc_log x)) /\
  (forall t t' q, t <> t' -> held (mc_threads x t) = Some q -> held (mc_threads x t') <> Some q) /\
  (forall v, mc x = Some v -> 0 <= v /\ (forall q, In q (mc_log x) -> q <= v) /\
                              (forall t q, held (mc_threads x t) = Some q -> q <= v)) /\
  (forall q, In q (mc_log x) -> 1 <= q <= stored x - buffer) /\
  (forall t q, mc_threads x t = MReturn q -> q <= stored x - buffer /\ q <= max_of x (proc t)) /\
  (forall p, max_of x p <= stored x) /\
  (forall t q, held (mc_threads x t) = Some q -> 1 <= q) /\
  (mc x = None -> forall t q, mc_threads x t <> MCheck q) /\
  (forall t m, mc_threads x t = MAdd m -> 0 <= m /\
     (mc x = None -> (forall q, In q (mc_log x) -> q <= m) /\
                     (forall t' q, held (mc_threads x t') = Some q -> q <= m))) /\
  1 <= stored x /\
  Forall (fun e => e = TypeError) (mc_failed x).

Lemma mc_inv_init : mc_inv mc_init.
Proof.
  unfold mc_inv, mc_init, stored, max_of; simpl.
  split; [constructor|]. repeat split; intros; try discriminate; try tauto; try lia; constructor.
Qed.

Ltac th t0 :=
  match goal with
  | |- context [put _ ?i _ t0] => destruct (Nat.eq_dec t0 i) as [->|?];
      [rewrite put_same in *|rewrite put_other in * by auto]
  | H : context [put _ ?i _ t0] |- _ => destruct (Nat.eq_dec t0 i) as [->|?];
      [rewrite put_same in *|rewrite put_other in * by auto]
  end.

Lemma max_put x p n t pc lg fl m s' :
  forall p', max_of {| mc := m; st_next := s'; maxs := put (maxs x) p (Some n);
            mc_threads := put (mc_threads x) t pc; mc_log := lg; mc_failed := fl |} p' =
  if Nat.eqb p' p then n else max_of x p'.
Proof. intros p'. unfold max_of, put; simpl. destruct (Nat.eqb p' p); auto. Qed.

Lemma batch_next_ok n q : n <= batch_next batch buffer n q /\ q <= batch_next batch buffer n q - buffer.
Proof. unfold batch_next. destruct (n - q <? buffer) eqn:E; [apply Z.ltb_lt in E|apply Z.ltb_ge in E]; lia. Qed.

Lemma NoDup_snoc {A} (l : list A) a : NoDup l -> ~ In a l -> NoDup (l ++ [a]).
Proof.
  intros H N. induction H as [|b l HB H IH]; simpl.
  - repeat constructor; auto.
  - constructor.
    + rewrite in_app_iff. simpl. intros [C|[C|[]]]; [auto|subst]. apply N. left; auto.
    + apply IH. intros C. apply N. right; auto.
Qed.

Lemma mc_step_inv x ev : mc_inv x -> benign x ev -> mc_inv (step x ev).
Proof.
  intros (I1 & I2 & I3 & I4 & I5 & I6 & I7 & I8 & I9 & I10 & I11 & I12) B.
  destruct ev as [t|t|]; [|destruct B|].
  - cbn [mc_step]. clear B.
    assert (INCR : forall v, mc x = Some v ->
      mc_inv {| mc := Some (v + 1); st_next := st_next x; maxs := maxs x;
                mc_threads := put (mc_threads x) t (MCheck (v + 1));
                mc_log := mc_log x; mc_failed := mc_failed x |}).
    { intros v E. destruct (I4 v E) as (V0 & V1 & V2).
      unfold mc_inv, stored, max_of in *; cbn [mc st_next maxs mc_threads mc_log mc_failed] in *.
      split; [auto|]. split; [|split; [|split; [|split; [|split; [|split; [|split; [|split; [|split; [|split]]]]]]]]].
      - intros t0 q. th t0; cbn [held].
        + intros EQ HI. inversion EQ; subst. specialize (V1 _ HI). lia.
        + apply I2.
      - intros t0 t1 q NE H0 H1. th t0; th t1; cbn [held] in *; try congruence.
        + inversion H0; subst. specialize (V2 _ _ H1). lia.
        + inversion H1; subst. specialize (V2 _ _ H0). lia.
        + exact (I3 _ _ _ NE H0 H1).
      - intros w EW. inversion EW; subst. split; [lia|]. split.
        + intros q HI. specialize (V1 _ HI). lia.
        + intros t0 q. th t0; cbn [held]; intros H.
          * inversion H; lia.
          * specialize (V2 _ _ H). lia.
      - auto.
      - intros t0 q. th t0; [discriminate|]. apply I6.
      - auto.
      - intros t0 q. th t0; cbn [held]; intros H; [inversion H; subst; lia|]. eapply I8; eauto.
      - discriminate.
      - intros t0 m. th t0; [discriminate|]. intros H. destruct (I10 _ _ H). split; [auto|discriminate].
      - auto.
      - auto. }
    destruct (mc_threads x t) as [| |m| |q|q] eqn:PC.
    + destruct (mc x) as [v|] eqn:EM; [apply INCR; auto|]. clear INCR.
      unfold at_pc, mc_inv, stored, max_of in *; cbn [mc st_next maxs mc_threads mc_log mc_failed] in *.
      split; [auto|]. split; [|split; [|split; [|split; [|split; [|split; [|split; [|split; [|split; [|split]]]]]]]]]; auto.
      * intros t0 q. th t0; [discriminate|]. apply I2.
      * intros t0 t1 q NE. th t0; [discriminate|]. th t1; [discriminate|]. apply I3; auto.
      * congruence.
      * intros t0 q. th t0; [discriminate|]. apply I6.
      * intros t0 q. th t0; [discriminate|]. apply I8.
      * intros E0 t0 q. th t0; [discriminate|]. apply I9; congruence.
      * intros t0 m. th t0; [discriminate|]. intros H. destruct (I10 _ _ H) as [A C]. split; auto.
        intros E0. destruct (C ltac:(congruence)) as [C1 C2]. split; auto.
        intros t1 q. th t1; [discriminate|]. apply C2.
    + clear INCR.
      assert (ST : forall p', max_of x p' <= stored x) by auto.
      unfold mc_inv in *; cbn [mc st_next maxs mc_threads mc_log mc_failed] in *.
      set (x' := {| mc := mc x; st_next := Some (stored x); maxs := put (maxs x) (proc t) (Some (stored x - 1));
                    mc_threads := put (mc_threads x) t (MAdd (stored x - 1));
                    mc_log := mc_log x; mc_failed := mc_failed x |}).
      assert (EST : stored x' = stored x) by reflexivity.
      assert (EMX : forall p', max_of x' p' = if Nat.eqb p' (proc t) then stored x - 1 else max_of x p')
        by (intros; apply max_put).
      rewrite EST. split; [auto|]. split; [|split; [|split; [|split; [|split; [|split; [|split; [|split; [|split; [|split]]]]]]]]]; auto.
      * intros t0 q. th t0; [discriminate|]. apply I2.
      * intros t0 t1 q NE. th t0; [discriminate|]. th t1; [discriminate|]. apply I3; auto.
      * intros v EV. destruct (I4 v EV) as (V0 & V1 & V2). split; auto. split; auto.
        intros t0 q. th t0; [discriminate|]. apply V2.
      * intros t0 q. th t0; [discriminate|]. intros H. destruct (I6 _ _ H). split; auto.
        rewrite EMX. destruct (Nat.eqb (proc t0) (proc t)); lia.
      * intros p. rewrite EMX. destruct (Nat.eqb p (proc t)); auto. lia.
      * intros t0 q. th t0; [discriminate|]. apply I8.
      * intros E0 t0 q. th t0; [discriminate|]. apply I9; congruence.
      * intros t0 m. th t0.
        -- intros H. inversion H; subst m. split; [lia|]. intros E0. split.
           ++ intros q HI. specialize (I5 _ HI). lia.
           ++ intros t1 q. th t1; [discriminate|]. intros HH.
              destruct (mc_threads x t1) eqn:P1; simpl in HH; try discriminate.
              ** exfalso. eapply I9; eauto.
              ** inversion HH; subst. specialize (I6 _ _ P1). lia.
        -- intros H. destruct (I10 _ _ H) as [A C]. split; auto.
           intros E0. destruct (C ltac:(congruence)) as [C1 C2]. split; auto.
           intros t1 q. th t1; [discriminate|]. apply C2.
    + clear INCR. destruct (I10 _ _ PC) as [M0 M1].
      unfold mc_inv, stored, max_of in *; cbn [mc st_next maxs mc_threads mc_log mc_failed] in *.
      split; [auto|]. split; [|split; [|split; [|split; [|split; [|split; [|split; [|split; [|split; [|split]]]]]]]]]; auto.
      * intros t0 q. th t0; [discriminate|]. apply I2.
      * intros t0 t1 q NE. th t0; [discriminate|]. th t1; [discriminate|]. apply I3; auto.
      * intros v EV. destruct (mc x) as [w|] eqn:EM; inversion EV; subst.
        -- destruct (I4 v eq_refl) as (V0 & V1 & V2). split; auto. split; auto.
           intros t0 q. th t0; [discriminate|]. apply V2.
        -- destruct (M1 eq_refl) as [C1 C2]. split; auto. split; auto.
           intros t0 q. th t0; [discriminate|]. apply C2.
      * intros t0 q. th t0; [discriminate|]. apply I6.
      * intros t0 q. th t0; [discriminate|]. apply I8.
      * destruct (mc x); discriminate.
      * intros t0 m0. th t0; [discriminate|]. intros H. destruct (I10 _ _ H). split; [auto|].
        destruct (mc x); discriminate.
    + destruct (mc x) as [v|] eqn:EM; [apply INCR; auto|]. clear INCR.
      unfold mc_fail, mc_inv, stored, max_of in *; cbn [mc st_next maxs mc_threads mc_log mc_failed] in *.
      split; [auto|]. split; [|split; [|split; [|split; [|split; [|split; [|split; [|split; [|split; [|split]]]]]]]]]; auto.
      * intros t0 q. th t0; [discriminate|]. apply I2.
      * intros t0 t1 q NE. th t0; [discriminate|]. th t1; [discriminate|]. apply I3; auto.
      * congruence.
      * intros t0 q. th t0; [discriminate|]. apply I6.
      * intros t0 q. th t0; [discriminate|]. apply I8.
      * intros E0 t0 q. th t0; [discriminate|]. apply I9; congruence.
      * intros t0 m. th t0; [discriminate|]. intros H. destruct (I10 _ _ H) as [A C]. split; auto.
        intros E0. destruct (C ltac:(congruence)) as [C1 C2]. split; auto.
        intros t1 q. th t1; [discriminate|]. apply C2.
      * apply Forall_app. auto.
    + clear INCR. assert (HQ : held (mc_threads x t) = Some q) by (rewrite PC; auto).
      assert (ME : mc x <> None) by (intros C; exact (I9 C t q PC)).
      set (n := batch_next batch buffer (stored x) q).
      destruct (batch_next_ok (stored x) q) as [BN1 BN2]. fold n in BN1, BN2.
      destruct (max_of x (proc t) - q <? buffer) eqn:EB.
      * unfold mc_inv in *; cbn [mc st_next maxs mc_threads mc_log mc_failed] in *.
        set (x' := {| mc := mc x; st_next := Some n; maxs := put (maxs x) (proc t) (Some n);
                    mc_threads := put (mc_threads x) t (MReturn q);
                    mc_log := mc_log x; mc_failed := mc_failed x |}).
        assert (EST : stored x' = n) by reflexivity.
        assert (EMX : forall p', max_of x' p' = if Nat.eqb p' (proc t) then n else max_of x p')
          by (intros; apply max_put).
        rewrite EST. split; [auto|]. split; [|split; [|split; [|split; [|split; [|split; [|split; [|split; [|split; [|split]]]]]]]]]; auto.
        -- intros t0 q0. th t0; cbn [held]; [intros E; inversion E; subst; eauto|]. apply I2.
        -- intros t0 t1 q0 NE. th t0; th t1; cbn [held]; try congruence.
           ++ intros E. inversion E; subst q0. apply (I3 t t1); auto.
           ++ intros E1 E2. inversion E2; subst q0. apply (I3 t t0 q) in E1; auto.
           ++ apply I3; auto.
        -- intros v EV. destruct (I4 v EV) as (V0 & V1 & V2). split; auto. split; auto.
           intros t0 q0. th t0; cbn [held]; [intros E; inversion E; subst; eauto|]. apply V2.
        -- intros q0 HI. specialize (I5 _ HI). lia.
        -- intros t0 q0. th t0.
           ++ intros E. inversion E; subst q0. rewrite EMX, Nat.eqb_refl. lia.
           ++ intros H. destruct (I6 _ _ H). split; [lia|]. rewrite EMX. destruct (Nat.eqb _ _); lia.
        -- intros p. rewrite EMX. specialize (I7 p). destruct (Nat.eqb p (proc t)); lia.
        -- intros t0 q0. th t0; cbn [held]; [intros E; inversion E; subst; eauto|]. apply I8.
        -- intros t0 m. th t0; [discriminate|]. intros H. destruct (I10 _ _ H) as [A C]. split; auto.
           intros C'. exfalso. exact (ME C').
        -- lia.
      * apply Z.ltb_ge in EB. pose proof (I7 (proc t)) as I7t.
        unfold at_pc, mc_inv, stored, max_of in *; cbn [mc st_next maxs mc_threads mc_log mc_failed] in *.
        split; [auto|]. split; [|split; [|split; [|split; [|split; [|split; [|split; [|split; [|split; [|split]]]]]]]]]; auto.
        -- intros t0 q0. th t0; cbn [held]; [intros E; inversion E; subst; eauto|]. apply I2.
        -- intros t0 t1 q0 NE. th t0; th t1; cbn [held]; try congruence.
           ++ intros E. inversion E; subst q0. apply (I3 t t1); auto.
           ++ intros E1 E2. inversion E2; subst q0. apply (I3 t t0 q) in E1; auto.
           ++ apply I3; auto.
        -- intros v EV. destruct (I4 v EV) as (V0 & V1 & V2). split; auto. split; auto.
           intros t0 q0. th t0; cbn [held]; [intros E; inversion E; subst; eauto|]. apply V2.
        -- intros t0 q0. th t0; [intros E; inversion E; subst q0; lia|apply I6].
        -- intros t0 q0. th t0; cbn [held]; [intros E; inversion E; subst; eauto|]. apply I8.
        -- intros t0 m. th t0; [discriminate|]. intros H. destruct (I10 _ _ H) as [A C]. split; auto.
           intros C'. exfalso. exact (ME C').
    + clear INCR. assert (HQ : held (mc_threads x t) = Some q) by (rewrite PC; auto).
      destruct (I6 _ _ PC) as [Q1 Q2]. pose proof (I8 _ _ HQ) as Q3.
      replace (negb (q =? 0)) with true by (destruct (Z.eqb_spec q 0); auto; lia).
      replace (q <=? max_of x (proc t)) with true by (symmetry; apply Z.leb_le; auto).
      cbn [andb].
      unfold mc_inv, stored, max_of in *; cbn [mc st_next maxs mc_threads mc_log mc_failed] in *.
      split; [apply NoDup_snoc; eauto|].
      split; [|split; [|split; [|split; [|split; [|split; [|split; [|split; [|split; [|split]]]]]]]]]; auto.
      * intros t0 q0. th t0; [discriminate|]. intros H. rewrite in_app_iff. simpl.
        intros [C|[C|[]]]; [eapply I2; eauto|]. subst q0. eapply (I3 t t0); eauto.
      * intros t0 t1 q0 NE. th t0; [discriminate|]. th t1; [discriminate|]. apply I3; auto.
      * intros v EV. destruct (I4 v EV) as (V0 & V1 & V2). split; auto. split.
        -- intros q0. rewrite in_app_iff. simpl. intros [C|[C|[]]]; subst; eauto.
        -- intros t0 q0. th t0; [discriminate|]. apply V2.
      * intros q0. rewrite in_app_iff. simpl. intros [C|[C|[]]]; [auto|subst; lia].
      * intros t0 q0. th t0; [discriminate|apply I6].
      * intros t0 q0. th t0; [discriminate|apply I8].
      * intros E0 t0 q0. th t0; [discriminate|]. apply I9; congruence.
      * intros t0 m. th t0; [discriminate|]. intros H. destruct (I10 _ _ H) as [A C]. split; auto.
        intros E0. destruct (C ltac:(congruence)) as [C1 C2]. split.
        -- intros q0. rewrite in_app_iff. simpl. intros [D|[D|[]]]; subst; eauto.
        -- intros t1 q0. th t1; [discriminate|]. apply C2.
  - destruct B as [B1 B2]. cbn [mc_step].
    unfold mc_inv, stored, max_of in *; cbn [mc st_next maxs mc_threads mc_log mc_failed] in *.
    split; [auto|]. split; [|split; [|split; [|split; [|split; [|split; [|split; [|split; [|split; [|split]]]]]]]]]; auto.
    + discriminate.
    + intros _ t q H. apply B1. exists t, q. auto.
    + intros t m H. exfalso. apply B2. exists t, m. auto.
Qed.

Lemma mc_fold_inv evs : forall x, mc_inv x -> all_benign proc batch buffer x evs -> mc_inv (fold_left step evs x).
Proof.
  induction evs as [|ev evs IH]; intros x I B; simpl; auto.
  destruct B as [B1 B2]. apply IH; auto. apply mc_step_inv; auto.
Qed.

Lemma memcache_unique evs : all_benign proc batch buffer mc_init evs ->
  let x := mc_run proc batch buffer evs in
  NoDup (mc_log x) /\ Forall (fun q => 1 <= q < stored x) (mc_log x) /\
  Forall (fun e => e = TypeError) (mc_failed x).
Proof.
  intros B. pose proof (mc_fold_inv evs _ mc_inv_init B) as (I1 & _ & _ & _ & I5 & _ & _ & _ & _ & _ & _ & I12).
  cbn zeta. unfold mc_run. split; auto. split; auto. apply Forall_forall. intros q HI. specialize (I5 q HI). lia.
Qed.

Lemma memcache_last evs v : all_benign proc batch buffer mc_init evs ->
  let x := mc_run proc batch buffer evs in mc_last x = Some v ->
  Forall (fun q => q <= v) (mc_log x) /\
  forall t, mc_threads x t = MIdle ->
    let x' := mc_run proc batch buffer (evs ++ [Run t; Run t; Run t]) in
    mc_log x' = mc_log x ++ [v + 1] /\ mc_last x' = Some (v + 1).
Proof.
  intros B x L. pose proof (mc_fold_inv evs _ mc_inv_init B) as (_ & _ & _ & I4 & _). fold (mc_run proc batch buffer evs) in I4. fold x in I4.
  unfold mc_last in L. destruct (I4 v L) as (V0 & V1 & _). split; [apply Forall_forall; exact V1|]. intros t MI x'.
  assert (X : x' = step (step (step x (Run t)) (Run t)) (Run t)) by (unfold x', x, mc_run; rewrite fold_left_app; reflexivity).
  set (x1 := step x (Run t)) in X.
  assert (A1 : x1 = {| mc := Some (v + 1); st_next := st_next x; maxs := maxs x; mc_threads := put (mc_threads x) t (MCheck (v + 1)); mc_log := mc_log x; mc_failed := mc_failed x |})
    by (unfold x1; cbn [mc_step]; rewrite MI, L; reflexivity).
  assert (A2 : exists x2, step x1 (Run t) = x2 /\ mc x2 = Some (v + 1) /\ mc_threads x2 t = MReturn (v + 1) /\ mc_log x2 = mc_log x /\ v + 1 <= max_of x2 (proc t)).
  { eexists. split; [reflexivity|]. rewrite A1. cbn [mc_step mc_threads]. rewrite put_same.
    set (y := {| mc := Some (v + 1); st_next := _; maxs := _; mc_threads := _; mc_log := _; mc_failed := _ |}).
    destruct (Z.ltb_spec (max_of y (proc t) - (v + 1)) buffer) as [LT|GE]; cbn [mc mc_threads mc_log at_pc]; rewrite put_same; (split; [reflexivity|]); (split; [reflexivity|]); (split; [reflexivity|]).
    - unfold max_of at 1. cbn [maxs]. rewrite put_same. destruct (batch_next_ok (stored y) (v + 1)). lia.
    - change (max_of (at_pc y t (MReturn (v + 1))) (proc t)) with (max_of y (proc t)). lia. }
  destruct A2 as (x2 & E2 & M2 & T2 & L2 & H2). rewrite X, E2. cbn [mc_step]. rewrite T2.
  assert (C : negb (v + 1 =? 0) && (v + 1 <=? max_of x2 (proc t)) = true) by (apply andb_true_intro; split; [|apply Z.leb_le; exact H2]; destruct (Z.eqb_spec (v + 1) 0); [lia|reflexivity]).
  rewrite C. cbn [mc_log mc_last mc]. rewrite L2. split; [reflexivity|exact M2].
Qed.
End Memcache.

(** ** Threads of MemorySequences *)

Definition mm_alone (x : mm_state) : Prop :=
  let n := length (mm_log x) in
  mm_log x = upto n /\ (mm_next x = None -> n = 0%nat) /\
  (forall v, mm_next x = Some v -> v = Z.of_nat n + 1) /\
  (forall i, match mm_threads x i with
             | AIdle => True
             | AGot q => mm_next x = Some q
             | ARead q v => mm_next x = Some q /\ v = q
             end).
Lemma mm_alone_step x i : mm_alone x -> (forall j, j <> i -> mm_threads x j = AIdle) -> mm_alone (mm_step x i).
Proof.
  intros (L & N & V & T) O. unfold mm_step. pose proof (T i) as Ti. destruct (mm_threads x i) as [|q|q v]; unfold mm_alone; cbn.
  - split; [exact L|]. split; [discriminate|]. split.
    + intros v [= <-]. destruct (mm_next x) as [w|] eqn:E; [apply V; reflexivity|]. rewrite N by reflexivity. reflexivity.
    + intros j. destruct (Nat.eq_dec j i) as [->|NE]; [rewrite put_same; reflexivity|]. rewrite put_other by auto. rewrite O by auto. exact I.
  - split; [exact L|]. split; [exact N|]. split; [exact V|].
    intros j. destruct (Nat.eq_dec j i) as [->|NE]; [rewrite put_same, Ti; auto|]. rewrite put_other by auto. rewrite O by auto. exact I.
  - destruct Ti as [E ->]. apply V in E. rewrite app_length. cbn. replace (length (mm_log x) + 1)%nat with (S (length (mm_log x))) by lia.
    split; [cbn [upto]; rewrite <- L; f_equal; f_equal; lia|]. split; [discriminate|]. split; [intros v [= <-]; lia|].
    intros j. destruct (Nat.eq_dec j i) as [->|NE]; [rewrite put_same; exact I|]. rewrite put_other by auto. rewrite O by auto. exact I.
Qed.
Lemma mm_alone_run sched : one_at_a_time mm_init sched -> mm_alone (mm_run sched).
Proof.
  unfold mm_run. assert (A : mm_alone mm_init) by (unfold mm_alone; cbn; repeat split; auto; discriminate).
  revert A. generalize mm_init. induction sched as [|i r IH]; intros x A H; cbn in *; auto. destruct H as [H1 H2]. apply IH; auto.
  apply mm_alone_step; auto.
Qed.
Lemma nth_upto n i : (i < n)%nat -> nth i (upto n) 0 = Z.of_nat i + 1.
Proof.
  revert i. induction n as [|n IH]; intros i H; [lia|]. simpl upto. destruct (Nat.eq_dec i n) as [->|NE].
  - rewrite app_nth2; rewrite upto_length; [|lia]. rewrite Nat.sub_diag. simpl. lia.
  - rewrite app_nth1; [|rewrite upto_length; lia]. apply IH. lia.
Qed.
Lemma memory_alone sched : one_at_a_time mm_init sched ->
  let x := mm_run sched in forall i, (i < length (mm_log x))%nat -> nth i (mm_log x) 0 = Z.of_nat i + 1.
Proof. intros H x i Hi. destruct (mm_alone_run sched H) as (L & _). fold x in L. rewrite L. apply nth_upto. exact Hi. Qed.

(** Whatever the threads do, the numbers are positive and do not run ahead. *)
Definition mm_low (x : mm_state) : Prop :=
  let ok v := 1 <= v <= Z.of_nat (length (mm_log x)) + 1 in
  (forall v, mm_next x = Some v -> ok v) /\
  (forall i, match mm_threads x i with AIdle => True | AGot q => ok q | ARead q v => ok q /\ ok v end) /\
  (forall i, (i < length (mm_log x))%nat -> 1 <= nth i (mm_log x) 0 <= Z.of_nat i + 1).
Lemma mm_low_step x i : mm_low x -> mm_low (mm_step x i).
Proof.
  intros (N & T & L). unfold mm_step. pose proof (T i) as Ti.
  assert (V : 1 <= match mm_next x with Some n => n | None => 1 end <= Z.of_nat (length (mm_log x)) + 1).
  { destruct (mm_next x) as [v|]; [apply N; reflexivity|lia]. }
  destruct (mm_threads x i) as [|q|q v]; unfold mm_low; cbn.
  - split; [intros v [= <-]; exact V|]. split; [|exact L].
    intros j. destruct (Nat.eq_dec j i) as [->|NE]; [rewrite put_same; exact V|rewrite put_other by auto; apply T].
  - split; [exact N|]. split; [|exact L].
    intros j. destruct (Nat.eq_dec j i) as [->|NE]; [rewrite put_same; auto|rewrite put_other by auto; apply T].
  - destruct Ti as [Q W]. rewrite app_length. cbn. split; [intros w [= <-]; lia|]. split.
    + intros j. destruct (Nat.eq_dec j i) as [->|NE]; [rewrite put_same; exact I|]. rewrite put_other by auto.
      specialize (T j). destruct (mm_threads x j); auto; lia.
    + intros j H. destruct (Nat.eq_dec j (length (mm_log x))) as [->|NE].
      * rewrite app_nth2, Nat.sub_diag by lia. cbn. lia.
      * rewrite app_nth1 by lia. apply L. lia.
Qed.
Lemma memory_low sched : let x := mm_run sched in forall i, (i < length (mm_log x))%nat -> 1 <= nth i (mm_log x) 0 <= Z.of_nat i + 1.
Proof.
  cbv zeta. assert (A : mm_low (mm_run sched)); [|apply A].
  unfold mm_run. assert (A : mm_low mm_init) by (unfold mm_low; cbn; repeat split; auto; try discriminate; lia).
  revert A. generalize mm_init. induction sched as [|i r IH]; intros x A; cbn; auto. apply IH, mm_low_step, A.
Qed.
