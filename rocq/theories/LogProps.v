(** C25 without restrictions on histories. *)
From Coq Require Import String List NArith ZArith Bool.
From Verif Require Import Base Lists Ipld TidModel MstModel StorageModel StorageSpec RepoSpec RepoExamples EventsModel EventsSpec IsolateProps ChainProps LogSpec LogProofs.
Import ListNotations.

(** ** C25 *)

(** In every history, also if batches failed halfway, callbacks raised or repos were created again:
    reading the events of a MemoryStorage never raises, and gives one item for each commit and event
    in the storage from [start] on, for [repo] if given, in the order of their numbers; the item of a commit
    has the blocks of the commit. Each commit and event of the history that was successful has its item. *)
Theorem C25_memory_any digest kdigest validate ecdsa now cb ops w outs start repo :
  (forall a b, digest a = digest b -> a = b) -> (forall v, validate v = Ok tt -> plain v) ->
  srun digest kdigest validate ecdsa now cb Memory init_world ops = (w, outs) -> Forall op_named ops -> (0 <= start)%Z ->
  exists items lg, read_events (w_state w) (mem_blocks_by_seq (w_state w) start repo) = (items, None) /\
    logged ecdsa (w_state w) start repo lg /\ Forall2 (item_for ecdsa (w_state w)) items lg /\
    forall e, In e (log_from digest kdigest validate ecdsa now cb Memory init_world ops) -> entry_selected start repo e = true ->
      exists i, In i items /\ entry_item ecdsa now (w_state w) i e.
Proof. exact (fun inj pl => c25_memory_any digest kdigest validate ecdsa now cb inj pl ops w outs start repo). Qed.
Print Assumptions C25_memory_any.

(** The same for DatastoreStorage, whatever order the queries give to blocks with the same number,
    and however often they die. *)
Theorem C25_datastore_any digest kdigest validate ecdsa now cb ops w outs start repo query fails :
  (forall a b, digest a = digest b -> a = b) -> (forall v, validate v = Ok tt -> plain v) ->
  srun digest kdigest validate ecdsa now cb Datastore init_world ops = (w, outs) -> Forall op_named ops -> (0 <= start)%Z ->
  (forall i cur, enumerates (w_state w) cur repo (query i cur)) ->
  exists items lg, read_events (w_state w) (scan query fails start) = (items, None) /\
    logged ecdsa (w_state w) start repo lg /\ Forall2 (item_for ecdsa (w_state w)) items lg /\
    forall e, In e (log_from digest kdigest validate ecdsa now cb Datastore init_world ops) -> entry_selected start repo e = true ->
      exists i, In i items /\ entry_item ecdsa now (w_state w) i e.
Proof. exact (fun inj pl => c25_datastore_any digest kdigest validate ecdsa now cb inj pl ops w outs start repo query fails). Qed.
Print Assumptions C25_datastore_any.

(** A batch failed halfway and used up the number 10; the callback raised after the commit 11, which is stored and
    has its item though the operation raised. *)
Definition item_seq (i : eitem) : option Z := match i with ECommit cd => Some (b_seq (cd_commit cd)) | EEvent v => match item (s "seq") v with Ok (IInt n) => Some n | _ => None end end.
Example C25_any_case : (forall a b, xdigest a = xdigest b -> a = b) /\ (forall v, xvalidate v = Ok tt -> plain v) /\ Forall op_named chain_ops /\
  forall be, let '(w, outs) := srun xdigest xkdigest xvalidate xecdsa xnow messy_cb be init_world chain_ops in
    map kind_of outs = [inr 0; inr 0; inr 3; inl (Some ValueError); inl (Some RuntimeError); inr 3] /\
    map entry_seq (log_from xdigest xkdigest xvalidate xecdsa xnow messy_cb be init_world chain_ops) = [1; 2; 3; 4; 5; 6; 7; 8; 9; 12]%Z /\
    map item_seq (fst (read_events (w_state w) (mem_blocks_by_seq (w_state w) 5 None))) = map Some [5; 6; 7; 8; 9; 11; 12]%Z.
Proof.
  split; [exact (fun a b H => H)|]. split; [exact (proj1 (proj2 (proj2 xsetting)))|]. split; [apply op_namedb_ok; reflexivity|].
  intros be. destruct be; vm_compute; (split; [reflexivity|split; reflexivity]).
Qed.
