(** C22 without restrictions on histories. *)
From Coq Require Import String List NArith ZArith Bool.
From Verif Require Import Base Lists Ipld TidModel MstModel StorageModel StorageSpec RepoSpec RepoExamples IsolateProps ChainSpec ChainProofs.
Import ListNotations.

(** ** C22 *)

(** In every history, also if batches failed halfway, callbacks raised or repos were created again:
    from the head of the repo that a caller loads down to a first commit, all commits are stored, for
    this DID, signed with the key of the repo, and have falling revs. *)
Theorem C22_any digest kdigest validate ecdsa now cb be ops w outs did o : (forall a b, digest a = digest b -> a = b) ->
  srun digest kdigest validate ecdsa now cb be init_world ops = (w, outs) -> Forall op_named ops -> is_did did ->
  seen be (w_state w) did = Some o ->
  exists h rev, r_head o = Some h /\ signed_chain ecdsa (w_state w) did (r_key o) (b_cid h) rev.
Proof. exact (fun inj => c22_any digest kdigest validate ecdsa now cb be inj ops w outs did o). Qed.
Print Assumptions C22_any.

(** The same for the head of every reference, but the key may be that of another reference. *)
Theorem C22_held digest kdigest validate ecdsa now cb be ops w outs h o b : (forall a b, digest a = digest b -> a = b) ->
  srun digest kdigest validate ecdsa now cb be init_world ops = (w, outs) -> Forall op_named ops ->
  handle_obj w h = Some o -> r_head o = Some b ->
  exists did key rev, repo_did o = Ok (Some did) /\ signed_chain ecdsa (w_state w) did key (b_cid b) rev.
Proof. exact (fun inj => c22_held digest kdigest validate ecdsa now cb be inj ops w outs h o b). Qed.
Print Assumptions C22_held.

(** A commit failed halfway, the callback raised after the next one, and another followed. *)
Definition chain_ops : list sop := messy ++ [messy_op; SCommit 0 [wcreate (s "k3") 3]].
Definition prev_of (st : state) (c : cid) : option (option cid) :=
  match read st c with
  | Some b => match item (s "prev") (b_val b) with Ok (ILink p) => Some (Some p) | Ok INull => Some None | _ => None end
  | None => None
  end.
Fixpoint back (st : state) (n : nat) (c : cid) : option nat :=
  match n with
  | O => None
  | S n => match prev_of st c with Some (Some p) => option_map S (back st n p) | Some None => Some 0 | None => None end
  end.
Example C22_any_case : (forall a b, xdigest a = xdigest b -> a = b) /\ Forall op_named chain_ops /\ is_did alice /\
  forall be, let '(w, outs) := srun xdigest xkdigest xvalidate xecdsa xnow messy_cb be init_world chain_ops in
    map kind_of outs = [inr 0; inr 0; inr 3; inl (Some ValueError); inl (Some RuntimeError); inr 3] /\
    match seen be (w_state w) alice with
    | Some o => option_map (fun h => back (w_state w) 9 (b_cid h)) (r_head o) = Some (Some 2)
    | None => False
    end /\
    match handle_obj w 0 with
    | Some o => option_map (fun h => back (w_state w) 9 (b_cid h)) (r_head o) = Some (Some 2)
    | None => False
    end.
Proof.
  split; [exact (fun a b H => H)|]. split; [apply op_namedb_ok; reflexivity|]. split; [reflexivity|].
  intros be. destruct be; vm_compute; (split; [reflexivity|split; reflexivity]).
Qed.
