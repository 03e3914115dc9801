(** Concrete storages for the examples beside the theorems about repos. *)
From Coq Require Import String List NArith ZArith Bool Lia.
From Verif Require Import Base Lists Ipld Sha256 MstModel TidModel BlockModel BlockSpec CarModel StorageModel StorageSpec RepoSpec.
Import ListNotations.

(** A digest without collisions, a key digest with 32 bytes whose height is the last
    digit of the key, a validator that accepts records with a type and a number or text, a
    signature that shows its arguments, and a clock. *)
Definition xdigest (b : list N) : list N := b.
Definition xkdigest (k : str) : list N :=
  let h := N.to_nat ((last k 48 - 48) mod 8)%N in
  firstn 32 (repeat 0%N (Nat.div h 4) ++ nth (Nat.modulo h 4) [255; 63; 15; 3]%N 255%N :: repeat 255%N 32).
Definition xvalidate (v : ipld) : res unit :=
  match v with
  | IMap [(k1, IText t); (k2, IInt _)] | IMap [(k1, IText t); (k2, IText _)] =>
      if str_eqb k1 (s "$type") && str_eqb t (s "app.post") && str_eqb k2 (s "n") then Ok tt else Err (OtherError (s "invalid"))
  | _ => Err (OtherError (s "invalid"))
  end.
Definition xecdsa (key : N) (nonce : Z) (m : list N) : list N := [key; Z.to_N nonce; len m].
Definition xnow (n : Z) : str := s "now".
Definition xcb (n : nat) : option exn := None.

Lemma xsetting : setting xdigest xkdigest xvalidate xcb.
Proof.
  split; [|split; [|split]]; auto.
  - intros k. unfold xkdigest. rewrite firstn_length, app_length, repeat_length. cbn [length]. rewrite repeat_length.
    apply Nat.min_l. lia.
  - intros v. unfold xvalidate. destruct v as [| | | | | | |m]; try discriminate.
    destruct m as [|[k1 v1] m]; try discriminate. destruct v1 as [| | | | |t| |]; try discriminate.
    all: try (destruct m as [|[k2 v2] [|]]; try discriminate; destruct v2; try discriminate).
    all: destruct (str_eqb_spec k1 (s "$type")) as [->|]; [|discriminate].
    all: destruct (str_eqb_spec t (s "app.post")) as [->|]; [|discriminate].
    all: destruct (str_eqb_spec k2 (s "n")) as [->|]; [|discriminate].
    all: intros _; split; [cbn; split; auto; constructor; [cbn; intuition discriminate|]; constructor; [auto|constructor]|].
    all: eexists _, _; split; [reflexivity|]; split; reflexivity.
Qed.

Definition post (n : Z) : ipld := IMap [(s "$type", IText (s "app.post")); (s "n", IInt n)].
Definition big_post : ipld := IMap [(s "$type", IText (s "app.post")); (s "n", IText (repeat 97%N (N.to_nat 1000000)))].
Definition wcreate (k : str) (n : Z) : write := Write CREATE (s "app.post") k (Some (post n)).
Definition wupdate (k : str) (n : Z) : write := Write UPDATE (s "app.post") k (Some (post n)).
Definition wdelete (k : str) : write := Write DELETE (s "app.post") k None.
Definition alice : str := s "did:plc:alice".
Definition bob : str := s "did:plc:bob".

(** Two repos, successful and failing commits, a second reference, status changes. *)
Definition story : list sop :=
  [SCreate alice (Some (s "al.ice")) None true 1; SCreate bob None None false 2;
   SCommit 0 [wcreate (s "k0") 1; wcreate (s "k1") 2; wupdate (s "k0") 3];
   SLoad (s "al.ice"); SCommit 2 [wdelete (s "k1"); wupdate (s "k0") 3; wcreate (s "k2") 4];
   SCommit 1 [wcreate (s "k0") 9]; SCommit 0 [wdelete (s "zz")];
   SDeactivate 1; SCommit 1 [wcreate (s "k1") 5]].

(** The kind of an outcome. *)
Definition kind_of (r : res sout) : option exn + nat :=
  match r with
  | Ok OutRepo => inr 0
  | Ok OutNone => inr 1
  | Ok OutDone => inr 2
  | Ok (OutCommit _) => inr 3
  | Err e => inl (Some e)
  end.

Definition xrun (be : backend) (ops : list sop) : world * list (res sout) :=
  srun xdigest xkdigest xvalidate xecdsa xnow xcb be init_world ops.
Definition xstep (be : backend) (w : world) (o : sop) : world * res sout :=
  sstep xdigest xkdigest xvalidate xecdsa xnow xcb be w o.
Definition xhistory (be : backend) (ops : list sop) (w : world) (outs : list (res sout)) : Prop :=
  history xdigest xkdigest xvalidate xecdsa xnow xcb be ops w outs.

(** Decidable versions for computing. *)
Definition clean_stepb (w : world) (o : sop) (out : res sout) : bool :=
  match o, out with
  | SCommit h ws, Err _ =>
      match handle_obj w h with Some ob => is_some (r_status ob) | None => false end
      || ((Nat.leb (length ws) 1 || Nat.ltb 200 (length ws)) && (s_next (w_state w) <? 2 ^ 55)%Z)
  | _, _ => true
  end.
Lemma clean_stepb_ok w o out : clean_stepb w o out = true -> clean_step w o out.
Proof.
  unfold clean_stepb, clean_step. destruct o; auto. destruct out; auto. intros H. apply orb_prop in H. destruct H as [H|H].
  - left. destruct (handle_obj w h) as [ob|]; [|discriminate]. destruct (r_status ob) eqn:E; [|discriminate]. eauto.
  - right. apply andb_prop in H. destruct H as [A B]. split; [|apply Z.ltb_lt; auto]. apply orb_prop in A.
    destruct A as [A|A]; [left; apply Nat.leb_le; auto|right; apply Nat.ltb_lt; auto].
Qed.
Fixpoint clean_fromb (be : backend) (w : world) (ops : list sop) : bool :=
  match ops with
  | [] => true
  | o :: r => let x := xstep be w o in clean_stepb w o (snd x) && clean_fromb be (fst x) r
  end.
Lemma clean_fromb_ok be ops : forall w, clean_fromb be w ops = true ->
  clean_from xdigest xkdigest xvalidate xecdsa xnow xcb be w ops.
Proof.
  induction ops as [|o ops IH]; intros w H; cbn [clean_from]; auto. cbn [clean_fromb] in H. apply andb_prop in H. destruct H as [A B].
  split; [apply clean_stepb_ok; auto|auto].
Qed.
Definition op_namedb (o : sop) : bool :=
  match o with
  | SCreate did handle _ _ _ => starts_with (s "did:") did &&
      match handle with Some h => negb (starts_with (s "did:") h) | None => true end
  | _ => true
  end.
Lemma op_namedb_ok ops : forallb op_namedb ops = true -> Forall op_named ops.
Proof.
  intros H. apply Forall_forall. intros o IN. rewrite forallb_forall in H. specialize (H o IN).
  destruct o; cbn in *; auto. apply andb_prop in H. destruct H as [A B]. split; auto. destruct handle as [h|]; cbn; auto.
  intros X. unfold is_did in X. cbn in X. rewrite X in B. discriminate.
Qed.
Lemma xhistory_ok be ops w outs : xrun be ops = (w, outs) -> forallb op_namedb ops = true ->
  (be = Memory -> clean_fromb be init_world ops = true) -> xhistory be ops w outs.
Proof. intros A B C. split; [exact A|]. split; [apply op_namedb_ok; auto|]. intros E. apply clean_fromb_ok. auto. Qed.

Definition after (be : backend) (ops : list sop) : world := fst (xrun be ops).
Lemma story_history be : xhistory be story (after be story) (snd (xrun be story)).
Proof.
  apply xhistory_ok.
  - unfold after. destruct (xrun be story); reflexivity.
  - vm_compute. reflexivity.
  - intros ->. vm_compute. reflexivity.
Qed.
Lemma story_outs be : map kind_of (snd (xrun be story)) =
  [inr 0; inr 0; inr 3; inr 0; inr 3; inr 3; inl (Some ValueError); inr 2; inl (Some InactiveRepo)].
Proof. destruct be; vm_compute; reflexivity. Qed.
Lemma story_book be : book_of [] story (snd (xrun be story)) =
  [(alice, (1%N, [(s "app.post/k0", post 3); (s "app.post/k2", post 4)])); (bob, (2%N, [(s "app.post/k0", post 9)]))].
Proof. destruct be; vm_compute; reflexivity. Qed.
