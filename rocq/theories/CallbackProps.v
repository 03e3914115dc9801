(** C68: callbacks that raise do not affect what is stored. *)
From Coq Require Import String List NArith ZArith Bool.
From Verif Require Import Base Lists Ipld MstModel StorageModel StorageSpec RepoSpec RepoExamples CallbackSpec CallbackProofs.
Import ListNotations.

(** ** C68 *)

(** From any state, a step leaves the same sequence, blocks, repos and messages to callbacks as if
    the callbacks did not raise, and fails only where it would have failed or with the exception of
    a callback. *)
Theorem C68_step digest kdigest validate ecdsa now cb be w w' op : same_world w w' ->
  created op (snd (sstep digest kdigest validate ecdsa now cb be w op)) ->
  same_world (fst (sstep digest kdigest validate ecdsa now cb be w op)) (fst (sstep digest kdigest validate ecdsa now quiet be w' op)) /\
  same_or_raised cb (snd (sstep digest kdigest validate ecdsa now cb be w op)) (snd (sstep digest kdigest validate ecdsa now quiet be w' op)).
Proof. exact (step_same digest kdigest validate ecdsa now be cb w w' op). Qed.
Print Assumptions C68_step.

(** The same for whole histories. Missing for the full claim: creations of repos during which the
    callback raises, see C68_create_refuted. *)
Theorem C68_history_partial digest kdigest validate ecdsa now cb be ops w outs :
  srun digest kdigest validate ecdsa now cb be init_world ops = (w, outs) -> Forall2 created ops outs ->
  exists w' outs', srun digest kdigest validate ecdsa now quiet be init_world ops = (w', outs') /\ same_world w w' /\
    Forall2 (same_or_raised cb) outs outs'.
Proof.
  exact (run_same digest kdigest validate ecdsa now be cb ops init_world init_world w outs (conj (same_refl init_state) eq_refl)).
Qed.
Print Assumptions C68_history_partial.

(** The callback raises on a commit and on a deactivation; both are stored. *)
Definition grumpy (n : nat) : option exn := match n with 5 | 6 | 8 => Some RuntimeError | _ => None end.
Definition grumpy_story : list sop :=
  [SCreate alice None None true 1; SCommit 0 [Write CREATE (s "app.post") (s "a") (Some (post 1))];
   SCommit 0 [Write CREATE (s "app.post") (s "b") (Some (post 2))]; SDeactivate 0].
Example C68_case : forall be, exists w outs,
  srun xdigest xkdigest xvalidate xecdsa xnow grumpy be init_world grumpy_story = (w, outs) /\
  Forall2 created grumpy_story outs /\
  map (fun o : res sout => match o with Ok _ => None | Err e => Some e end) outs = [None; Some RuntimeError; None; Some RuntimeError] /\
  s_next (w_state w) = 8%Z /\ length (data_calls (s_calls (w_state w))) = 8 /\ length (s_calls (w_state w)) = 9.
Proof.
  intros be.
  assert (C : forall be, let '(w, outs) := srun xdigest xkdigest xvalidate xecdsa xnow grumpy be init_world grumpy_story in
    map (fun o : res sout => match o with Ok _ => None | Err e => Some e end) outs = [None; Some RuntimeError; None; Some RuntimeError] /\
    s_next (w_state w) = 8%Z /\ length (data_calls (s_calls (w_state w))) = 8 /\ length (s_calls (w_state w)) = 9).
  { clear be. intros be. destruct be; vm_compute; repeat split. }
  specialize (C be). destruct (srun xdigest xkdigest xvalidate xecdsa xnow grumpy be init_world grumpy_story) as [w outs].
  exists w, outs. split; [reflexivity|]. split; [|exact C]. destruct C as [C _].
  destruct outs as [|[x|e] [|o1 [|o2 [|o3 [|]]]]]; try discriminate C.
  repeat constructor. exists x. reflexivity.
Qed.

(** A callback that raises on the commit of a new repo leaves the commit and its number in the
    storage, but there is no repo and no event. *)
Definition create_cut (be : backend) (cb : nat -> option exn) :=
  let '(w, out) := sstep xdigest xkdigest xvalidate xecdsa xnow cb be init_world (SCreate alice None None true 1) in
  (out, s_next (w_state w), map (fun cb => item_text (s "did") (b_val (snd cb))) (s_blocks (w_state w)),
   length (s_mem (w_state w)) + length (s_ents (w_state w))).
Theorem C68_create_refuted : forall be, exists cb,
  create_cut be cb = (Err RuntimeError, 2%Z, [Err KeyError; Ok alice], 0) /\
  create_cut be quiet = (Ok OutRepo, 5%Z, [Err KeyError; Ok alice; Ok alice; Ok alice; Ok alice], 1).
Proof. intros be. exists (fun _ => Some RuntimeError). destruct be; split; vm_compute; reflexivity. Qed.
Print Assumptions C68_create_refuted.
