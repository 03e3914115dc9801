(** What is expected of repos and storages over their histories. *)
From Coq Require Import String List NArith ZArith Bool.
From Verif Require Import Base Lists Ipld MstModel MstSpec BlockSpec StorageModel StorageSpec.
Import ListNotations.

(** DIDs and handles are told apart by their prefix. *)
Definition is_did (x : str) : Prop := starts_with (s "did:") x = true.
Definition handle_ok (x : option str) : Prop := match x with Some h => ~ is_did h | None => True end.
Definition op_named (o : sop) : Prop :=
  match o with SCreate did handle _ _ _ => is_did did /\ handle_ok handle | _ => True end.

(** ** Bookkeeping of a history

    The key and the records of each repo, computed only from the operations and their
    outcomes. *)
Definition book := list (str * (N * records)).

Definition commit_did (cd : commit_data) : str :=
  match item_text (s "did") (b_val (cd_commit cd)) with Ok d => d | Err _ => [] end.

Definition book_step (bk : book) (o : sop) (out : res sout) : book :=
  match o, out with
  | SCreate did _ _ _ key, Ok _ => dset did (key, []) bk
  | SCommit _ ws, Ok (OutCommit cd) =>
      match dget (commit_did cd) bk with
      | Some (key, recs) => dset (commit_did cd) (key, apply_writes recs ws) bk
      | None => bk
      end
  | _, _ => bk
  end.

Fixpoint book_of (bk : book) (ops : list sop) (outs : list (res sout)) : book :=
  match ops, outs with
  | o :: ops', out :: outs' => book_of (book_step bk o out) ops' outs'
  | _, _ => bk
  end.

(** ** Commits *)

Section Spec.
Variable digest : list N -> list N.
Variable kdigest : str -> list N.
Variable validate : ipld -> res unit.
Variable ecdsa : N -> Z -> list N -> list N.

(** [b] is a commit block of the repo [did] with the given prev and tree root, signed
    with [key]. *)
Definition commit_of (b : block) (did : str) (key : N) (prev : option cid) (root : cid) : Prop :=
  exists rev, TidModel.int_to_tid (b_seq b) 0 = Ok rev /\ b_repo b = Some did /\
    b_val b = norm (IMap (unsigned_commit did rev prev root ++
                      [(s "sig", IBytes (ecdsa key (b_seq b) (dag_cbor_encode (IMap (unsigned_commit did rev prev root)))))])).
End Spec.

(** ** Status changes: the handle, the new status, and the event. *)
Definition status_op (o : sop) : option (nat * option str * str * list (str * ipld)) :=
  match o with
  | SDeactivate h => Some (h, Some (s "deactivated"), s "account",
                           [(s "active", IBool false); (s "status", IText (s "deactivated"))])
  | SActivate h => Some (h, None, s "account", [(s "active", IBool true)])
  | STombstone h => Some (h, Some (s "tombstoned"), s "tombstone", [])
  | _ => None
  end.

(** The reference that an operation is given. *)
Definition op_ref (o : sop) : option nat :=
  match o with
  | SLoadAt h _ | SCallback h _ | SCommit h _ | SDeactivate h | SActivate h | STombstone h => Some h
  | SCreate _ _ _ _ _ | SLoad _ => None
  end.

Definition is_create (o : sop) : bool := match o with SCreate _ _ _ _ _ => true | _ => false end.

(** The object behind a caller's reference. *)
Definition handle_obj (w : world) (h : nat) : option repo :=
  match nth_error (w_refs w) h with
  | Some r => nth_error (s_objs (w_state w)) r
  | None => None
  end.

(** Histories of a MemoryStorage in which no batch of several writes fails halfway:
    failed commits through active handles have at most one write or too many. *)
Definition clean_step (w : world) (o : sop) (out : res sout) : Prop :=
  match o, out with
  | SCommit h ws, Err _ =>
      (exists ob x, handle_obj w h = Some ob /\ r_status ob = Some x) \/
      ((length ws <= 1 \/ 200 < length ws) /\ (s_next (w_state w) < 2 ^ 55)%Z)
  | _, _ => True
  end.

(** [repo.did] of the caller's reference. *)
Definition handle_did (w : world) (h : nat) : option str :=
  match handle_obj w h with
  | Some o => match repo_did o with Ok x => x | Err _ => None end
  | None => None
  end.

(** The reference [h] is the repo object that the storage keeps for [did]; every reference
    is as good with DatastoreStorage, which keeps none. *)
Definition attached_ref (be : backend) (w : world) (did : str) (h : nat) : Prop :=
  be = Memory -> exists r, dget did (s_mem (w_state w)) = Some r /\ nth_error (w_refs w) h = Some r.

(** The operation changed the repo [did]. *)
Definition touches (be : backend) (w : world) (op : sop) (out : res sout) (did : str) : Prop :=
  match op, out with
  | SCreate d _ _ _ _, Ok _ => d = did
  | SCommit _ _, Ok (OutCommit cd) => commit_did cd = did
  | SDeactivate h, Ok _ | SActivate h, Ok _ | STombstone h, Ok _ => handle_did w h = Some did /\ attached_ref be w did h
  | _, _ => False
  end.

(** Two views of a repo that agree on everything but the callback. *)
Definition same_repo (o o' : repo) : Prop :=
  r_head o' = r_head o /\ r_mst o' = r_mst o /\ r_status o' = r_status o /\ r_handle o' = r_handle o /\ r_key o' = r_key o.

(** The commits of each repo since its creation, the last first, each with the records
    after it; computed from the operations and their outcomes like [book_of]. *)
Definition trail := list (str * list (commit_data * records)).

Definition last_recs (l : list (commit_data * records)) : records :=
  match l with [] => [] | (_, recs) :: _ => recs end.

Definition trail_step (tr : trail) (o : sop) (out : res sout) : trail :=
  match o, out with
  | SCreate did _ _ _ _, Ok _ => dset did [] tr
  | SCommit _ ws, Ok (OutCommit cd) =>
      match dget (commit_did cd) tr with
      | Some l => dset (commit_did cd) ((cd, apply_writes (last_recs l) ws) :: l) tr
      | None => tr
      end
  | _, _ => tr
  end.

Fixpoint trail_of (tr : trail) (ops : list sop) (outs : list (res sout)) : trail :=
  match ops, outs with
  | o :: ops', out :: outs' => trail_of (trail_step tr o out) ops' outs'
  | _, _ => tr
  end.

(** ** Observing a storage *)

(** What a caller gets who loads the repo [x] now, a DID or handle. *)
Definition seen (be : backend) (st : state) (x : str) : option repo :=
  match load_repo be x st with
  | (st', Ok (Some r)) => nth_error (s_objs st') r
  | _ => None
  end.

(** [get_record] and [get_contents] of [o] give exactly the records [recs]. *)
Definition shows (kdigest : str -> list N) (st : state) (o : repo) (recs : records) : Prop :=
  (forall coll rkey, get_record kdigest st o coll rkey = Ok (option_map norm (dget (record_path coll rkey) recs))) /\
  exists m, get_contents kdigest st o = Ok m /\
    (forall coll rkey, (match dget coll m with Some d => dget rkey d | None => None end)
                       = option_map norm (dget (record_path coll rkey) recs)) /\
    (forall coll, dget coll m <> Some []).

(** ** Histories *)

(** The setting of the theorems: key digests have 32 bytes, no two encodings have the same
    CID digest, records that validate are plain, callbacks do not raise. *)
Definition setting (digest : list N -> list N) (kdigest : str -> list N) (validate : ipld -> res unit)
  (cb : nat -> option exn) : Prop :=
  (forall k, length (kdigest k) = 32) /\ (forall a b, digest a = digest b -> a = b) /\
  (forall v, validate v = Ok tt -> plain v) /\ (forall n, cb n = None).

Section History.
Variable digest : list N -> list N.
Variable kdigest : str -> list N.
Variable validate : ipld -> res unit.
Variable ecdsa : N -> Z -> list N -> list N.
Variable now : Z -> str.
Variable cb : nat -> option exn.
Variable be : backend.

Fixpoint clean_from (w : world) (ops : list sop) : Prop :=
  match ops with
  | [] => True
  | o :: r => clean_step w o (snd (sstep digest kdigest validate ecdsa now cb be w o)) /\
              clean_from (fst (sstep digest kdigest validate ecdsa now cb be w o)) r
  end.

(** The operations [ops] on a new storage end in [w] with the outcomes [outs]. *)
Definition history (ops : list sop) (w : world) (outs : list (res sout)) : Prop :=
  srun digest kdigest validate ecdsa now cb be init_world ops = (w, outs) /\
  Forall op_named ops /\ (be = Memory -> clean_from init_world ops).
End History.

(** ** Ops *)

(** Replaying the ops of a commit on paths and CIDs; None if one does not fit. *)
Fixpoint replay (d : list (str * cid)) (ops : list commit_op) : option (list (str * cid)) :=
  match ops with
  | [] => Some d
  | op :: r =>
      match op_action op, op_cid op, op_prev op, dget (op_path op) d with
      | CREATE, Some c, None, None => replay (dset (op_path op) c d) r
      | UPDATE, Some c, Some p, Some c0 => if str_eqb p c0 then replay (dset (op_path op) c d) r else None
      | DELETE, None, Some p, Some c0 => if str_eqb p c0 then replay (ddel (op_path op) d) r else None
      | _, _, _, _ => None
      end
  end.

(** ** No change *)

Definition same_view (x y : option repo) : Prop :=
  match x, y with Some o, Some o' => same_repo o o' | None, None => True | _, _ => False end.

(** Blocks, references, repo objects and what loading repos gives are as before; at most
    one sequence number was consumed. *)
Record unchanged (be : backend) (w w' : world) : Prop := {
  u_blocks : s_blocks (w_state w') = s_blocks (w_state w);
  u_refs : w_refs w' = w_refs w;
  u_objs : forall h o, handle_obj w h = Some o -> handle_obj w' h = Some o;
  u_seen : forall did, is_did did -> same_view (seen be (w_state w) did) (seen be (w_state w') did);
  u_next : s_next (w_state w') = s_next (w_state w) \/ s_next (w_state w') = (s_next (w_state w) + 1)%Z
}.

(** ** The chain of commits

    From the commit [b] on: every commit is stored, is signed for [did], names the one
    before, has a greater rev, and a Repo loaded from it shows the records of that time. *)
Inductive commit_chain (kdigest : str -> list N) (ecdsa : N -> Z -> list N -> list N) (st : state) (did : str) (key : N)
  : block -> list (commit_data * records) -> Prop :=
| cc_first b root : read st (b_cid b) = Some b -> commit_of ecdsa b did key None root ->
    shows kdigest st (Repo (mst_load root) (Some b) None None false key) [] ->
    commit_chain kdigest ecdsa st did key b []
| cc_next cd root recs b' l x y : commit_chain kdigest ecdsa st did key b' l ->
    read st (b_cid (cd_commit cd)) = Some (cd_commit cd) ->
    commit_of ecdsa (cd_commit cd) did key (Some (b_cid b')) root ->
    item_text (s "rev") (b_val b') = Ok x -> item_text (s "rev") (b_val (cd_commit cd)) = Ok y -> slt x y ->
    shows kdigest st (Repo (mst_load root) (Some (cd_commit cd)) None None false key) recs ->
    commit_chain kdigest ecdsa st did key (cd_commit cd) ((cd, recs) :: l).

(** The value of an event block. *)
Definition event_value (now : Z -> str) (type : str) (seq : Z) (did : str) (extra : list (str * ipld)) : ipld :=
  norm (IMap ([(s "$type", IText (s "com.atproto.sync.subscribeRepos#" ++ type)); (s "seq", IInt seq); (s "did", IText did);
               (s "time", IText (now seq))] ++ extra)).

(** The repo that an operation is about. *)
Definition op_did (w : world) (o : sop) : option str :=
  match o with
  | SCreate did _ _ _ _ => Some did
  | SCommit h _ | SDeactivate h | SActivate h | STombstone h => handle_did w h
  | SLoad _ | SLoadAt _ _ | SCallback _ _ => None
  end.
