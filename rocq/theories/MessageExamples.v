(** A storage whose CIDs have the right length, for the examples beside theorems about CARs. *)
From Coq Require Import String List NArith ZArith Bool Lia.
From Verif Require Import Base Lists Ipld MstModel TidModel BlockModel CarModel StorageModel StorageSpec RepoSpec RepoExamples.
Import ListNotations.

(** A digest of 32 numbers without collisions: the first has all of the argument, for each byte the
    length and then the digits. *)
Fixpoint push (p acc : positive) : positive :=
  match p with
  | xI p' => xI (xI (push p' acc))
  | xO p' => xI (xO (push p' acc))
  | xH => xO acc
  end.
Fixpoint raw (p acc : positive) : positive :=
  match p with
  | xI p' => xI (raw p' acc)
  | xO p' => xO (raw p' acc)
  | xH => acc
  end.
Fixpoint code (l : list N) : positive :=
  match l with [] => xH | b :: r => let p := N.succ_pos b in push (Pos.size p) (raw p (code r)) end.
Definition wdigest (l : list N) : list N := Npos (code l) :: repeat 0%N 31.

Lemma push_inj p : forall q a b, push p a = push q b -> p = q /\ a = b.
Proof.
  induction p as [p IH|p IH|]; intros [q|q|] a b H; cbn in H; try discriminate; injection H as H; try discriminate; auto.
  - destruct (IH _ _ _ H) as [-> ->]. auto.
  - destruct (IH _ _ _ H) as [-> ->]. auto.
Qed.
Lemma raw_inj p : forall q a b, Pos.size p = Pos.size q -> raw p a = raw q b -> p = q /\ a = b.
Proof.
  induction p as [p IH|p IH|]; intros [q|q|] a b L H; cbn [raw] in H; try discriminate; cbn [Pos.size] in L;
    try (exfalso; destruct (Pos.size p); discriminate); try (exfalso; destruct (Pos.size q); discriminate); auto.
  - injection H as H. apply Pos.succ_inj in L. destruct (IH _ _ _ L H) as [-> ->]. auto.
  - injection H as H. apply Pos.succ_inj in L. destruct (IH _ _ _ L H) as [-> ->]. auto.
Qed.
Lemma code_inj a : forall b, code a = code b -> a = b.
Proof.
  induction a as [|x a IH]; intros [|y b] H; cbn [code] in H; cbv zeta in H; auto.
  - destruct (Pos.size (N.succ_pos y)); discriminate.
  - destruct (Pos.size (N.succ_pos x)); discriminate.
  - apply push_inj in H as [H1 H2]. apply raw_inj in H2 as [H2 H3]; [|exact H1]. f_equal; auto.
    apply (f_equal Pos.pred_N) in H2. rewrite !N.pos_pred_succ in H2. exact H2.
Qed.
Lemma wdigest_inj a b : wdigest a = wdigest b -> a = b.
Proof. intros H. apply code_inj. injection H as H. exact H. Qed.
Lemma wdigest_length x : length (wdigest x) = 32.
Proof. reflexivity. Qed.
Lemma wsetting : setting wdigest xkdigest xvalidate xcb.
Proof. destruct xsetting as (A & _ & B & C). split; [exact A|]. split; [exact wdigest_inj|]. split; [exact B|exact C]. Qed.

(** A repo with two commits, and another. *)
Definition wstory : list sop :=
  [SCreate alice None None false 1; SCommit 0 [wcreate (s "k0") 1; wcreate (s "k1") 2];
   SCreate bob None None false 2;
   SCommit 0 [wdelete (s "k1"); wupdate (s "k0") 3; wcreate (s "k2") 4]].
Definition wrun (ops : list sop) : world * list (res sout) :=
  srun wdigest xkdigest xvalidate xecdsa xnow xcb Datastore init_world ops.
Definition whistory (ops : list sop) (w : world) (outs : list (res sout)) : Prop :=
  history wdigest xkdigest xvalidate xecdsa xnow xcb Datastore ops w outs.
Definition wafter (ops : list sop) : world := fst (wrun ops).
Lemma whistory_ok ops : forallb op_namedb ops = true -> whistory ops (wafter ops) (snd (wrun ops)).
Proof.
  intros H. split; [unfold wafter, wrun; destruct (srun _ _ _ _ _ _ _ _ _); reflexivity|].
  split; [apply op_namedb_ok; exact H|discriminate].
Qed.
Lemma wstory_history : whistory wstory (wafter wstory) (snd (wrun wstory)).
Proof. apply whistory_ok. reflexivity. Qed.
Lemma wstory_book : book_of [] wstory (snd (wrun wstory)) =
  [(alice, (1%N, [(s "app.post/k0", post 3); (s "app.post/k2", post 4)])); (bob, (2%N, []))].
Proof. vm_compute. reflexivity. Qed.
