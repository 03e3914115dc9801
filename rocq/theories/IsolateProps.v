(** C58 without restrictions on histories. *)
From Coq Require Import String List NArith ZArith Bool.
From Verif Require Import Base Lists Ipld MstModel StorageModel StorageSpec RepoSpec RepoExamples IsolateSpec IsolateProofs.
Import ListNotations.

(** ** C58 *)

(** In every history, also if batches failed halfway and callbacks raised: an operation on one
    repo changes no other repo. What a caller loads for its DID and what every reference to it shows
    stays as it was, and its records read the same. *)
Theorem C58_isolation digest kdigest validate ecdsa now cb be ops w outs op w' out did :
  (forall a b, digest a = digest b -> a = b) ->
  srun digest kdigest validate ecdsa now cb be init_world ops = (w, outs) -> Forall op_named (ops ++ [op]) ->
  sstep digest kdigest validate ecdsa now cb be w op = (w', out) -> is_did did -> op_did w op <> Some did ->
  match seen be (w_state w) did with
  | Some o => exists o', seen be (w_state w') did = Some o' /\ reads_same kdigest (w_state w) (w_state w') o o'
  | None => seen be (w_state w') did = None
  end /\
  (forall h o, handle_obj w h = Some o -> handle_did w h = Some did ->
     exists o', handle_obj w' h = Some o' /\ handle_did w' h = Some did /\ reads_same kdigest (w_state w) (w_state w') o o').
Proof. exact (fun inj => c58_any digest kdigest validate ecdsa now cb be inj ops w outs op w' out did). Qed.
Print Assumptions C58_isolation.

(** Bob's repo has a record, a commit to Alice's repo failed halfway, and the callback raises on the
    next one. *)
Definition messy : list sop :=
  [SCreate alice None None true 1; SCreate bob None None false 2; SCommit 1 [wcreate (s "k0") 9];
   SCommit 0 [wcreate (s "k1") 1; wdelete (s "zz")]].
Definition messy_cb (n : nat) : option exn := match n with 6 => Some RuntimeError | _ => None end.
Definition messy_op : sop := SCommit 0 [wcreate (s "k2") 2].
Example C58_case : (forall a b, xdigest a = xdigest b -> a = b) /\ Forall op_named (messy ++ [messy_op]) /\ is_did bob /\
  forall be, let '(w, outs) := srun xdigest xkdigest xvalidate xecdsa xnow messy_cb be init_world messy in
    map kind_of outs = [inr 0; inr 0; inr 3; inl (Some ValueError)] /\
    op_did w messy_op = Some alice /\ kind_of (snd (sstep xdigest xkdigest xvalidate xecdsa xnow messy_cb be w messy_op)) = inl (Some RuntimeError) /\
    match seen be (w_state w) bob with
    | Some o => get_record xkdigest (w_state w) o (s "app.post") (s "k0") = Ok (Some (norm (post 9)))
    | None => False
    end.
Proof.
  split; [exact (fun a b H => H)|]. split; [apply op_namedb_ok; reflexivity|]. split; [reflexivity|].
  intros be. destruct be; vm_compute; split; [reflexivity|split; [reflexivity|split; reflexivity]|reflexivity|split; [reflexivity|split; reflexivity]].
Qed.
