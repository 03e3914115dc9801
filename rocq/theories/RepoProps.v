(** Properties of repos and storages (arroba/repo.py, arroba/storage.py and the repo part
    of arroba/datastore_storage.py).

    [setting] fixes what is assumed of the hash, of the validator and of callbacks,
    [history] what a history is; [book_of] and [trail_of] compute the expected records
    and commits of every repo from the operations and their outcomes alone. *)
From Coq Require Import String List NArith ZArith Bool.
From Verif Require Import Base Lists Ipld MstModel TidModel BlockModel BlockSpec CarModel StorageModel StorageSpec
  RepoSpec RepoFacts RepoExamples.
Import ListNotations.

(** ** C18 *)

(** After any history a caller who loads a repo finds exactly the records committed to it.
    Missing for the full claim: MemoryStorage histories in which a batch of several writes
    fails halfway ([clean_from]); for those it is false, see C18_refuted. DatastoreStorage
    histories are not restricted. *)
Theorem C18_repo_is_a_map_partial : forall digest kdigest validate ecdsa now cb be, setting digest kdigest validate cb ->
  forall ops w outs did, history digest kdigest validate ecdsa now cb be ops w outs ->
  match dget did (book_of [] ops outs) with
  | Some (key, recs) => exists o, seen be (w_state w) did = Some o /\ shows kdigest (w_state w) o recs /\ r_key o = key
  | None => is_did did -> load_repo be did (w_state w) = (w_state w, Ok None)
  end.
Proof. exact c18_full. Qed.
Print Assumptions C18_repo_is_a_map_partial.

(** With DatastoreStorage the claim holds of every sequence of operations. *)
Theorem C18_datastore : forall digest kdigest validate ecdsa now cb, setting digest kdigest validate cb ->
  forall ops did key recs, Forall op_named ops ->
  let '(w, outs) := srun digest kdigest validate ecdsa now cb Datastore init_world ops in
  dget did (book_of [] ops outs) = Some (key, recs) ->
  exists o, seen Datastore (w_state w) did = Some o /\ shows kdigest (w_state w) o recs /\ r_key o = key.
Proof. exact c18_datastore. Qed.
Print Assumptions C18_datastore.

(** Every reference a caller holds shows the records of some commit of the repo, loading
    that commit by CID shows the same, and if the head is current they are the expected. *)
Theorem C18_references_partial : forall digest kdigest validate ecdsa now cb be, setting digest kdigest validate cb ->
  forall ops w outs h o, history digest kdigest validate ecdsa now cb be ops w outs -> handle_obj w h = Some o ->
  exists b recs, r_head o = Some b /\ shows kdigest (w_state w) o recs /\
    (forall k, exists st' r o', repo_load (b_cid b) None None k (w_state w) = (st', Ok r) /\ nth_error (s_objs st') r = Some o' /\
       shows kdigest st' o' recs) /\
    (forall did key recs' o', handle_did w h = Some did -> dget did (book_of [] ops outs) = Some (key, recs') ->
       seen be (w_state w) did = Some o' -> r_head o' = r_head o -> shows kdigest (w_state w) o recs').
Proof. exact c18_handle. Qed.
Print Assumptions C18_references_partial.

(** After a successful commit both the reference used and a fresh one show the writes. *)
Theorem C18_read_your_writes_partial : forall digest kdigest validate ecdsa now cb be, setting digest kdigest validate cb ->
  forall ops w outs h ws w' cd, history digest kdigest validate ecdsa now cb be ops w outs ->
  sstep digest kdigest validate ecdsa now cb be w (SCommit h ws) = (w', Ok (OutCommit cd)) ->
  exists did key recs, handle_did w h = Some did /\ commit_did cd = did /\ dget did (book_of [] ops outs) = Some (key, recs) /\
    exists o o', handle_obj w' h = Some o /\ seen be (w_state w') did = Some o' /\
      r_head o = Some (cd_commit cd) /\ r_head o' = Some (cd_commit cd) /\ handle_did w' h = Some did /\
      shows kdigest (w_state w') o (apply_writes recs ws) /\ shows kdigest (w_state w') o' (apply_writes recs ws).
Proof. exact c18_commit. Qed.
Print Assumptions C18_read_your_writes_partial.

Example C18_example : forall be, setting xdigest xkdigest xvalidate xcb /\
  xhistory be story (after be story) (snd (xrun be story)) /\
  dget alice (book_of [] story (snd (xrun be story)))
    = Some (1%N, [(s "app.post/k0", post 3); (s "app.post/k2", post 4)]).
Proof. intros be. split; [exact xsetting|]. split; [exact (story_history be)|]. rewrite story_book. reflexivity. Qed.

(** MemoryStorage: a failed batch leaves its first write in the repo object of the storage,
    where the record cannot even be read. *)
Definition leak : list sop :=
  [SCreate alice None None false 1; SCommit 0 [wcreate (s "k0") 1; wdelete (s "zz")]; SCommit 0 [wcreate (s "k1") 2]].
Theorem C18_refuted : exists digest kdigest validate ecdsa now cb ops, setting digest kdigest validate cb /\ Forall op_named ops /\
  let '(w, outs) := srun digest kdigest validate ecdsa now cb Memory init_world ops in
  exists did key recs o coll rkey, dget did (book_of [] ops outs) = Some (key, recs) /\ seen Memory (w_state w) did = Some o /\
    dget (record_path coll rkey) recs = None /\ get_record kdigest (w_state w) o coll rkey = Err AttributeError /\
    get_contents kdigest (w_state w) o = Err AttributeError.
Proof.
  exists xdigest, xkdigest, xvalidate, xecdsa, xnow, xcb, leak. split; [exact xsetting|]. split; [apply op_namedb_ok; reflexivity|].
  destruct (srun xdigest xkdigest xvalidate xecdsa xnow xcb Memory init_world leak) as [w outs] eqn:E.
  exists alice, 1%N, [(s "app.post/k1", post 2)].
  assert (W : w = after Memory leak) by (unfold after, xrun; rewrite E; reflexivity).
  assert (O : outs = snd (xrun Memory leak)) by (unfold xrun; rewrite E; reflexivity). rewrite W, O. clear.
  eexists _, (s "app.post"), (s "k0"). repeat (split; [vm_compute; reflexivity|]); vm_compute; reflexivity.
Qed.
Print Assumptions C18_refuted.

(** ** C19 *)

(** An operation that raises changes nothing but sequence numbers.
    Missing for the full claim: MemoryStorage batches of several writes that fail halfway,
    for which it is false, see C19_refuted. *)
Theorem C19_failure_changes_nothing_partial : forall digest kdigest validate ecdsa now cb be, setting digest kdigest validate cb ->
  forall ops w outs op w' e, history digest kdigest validate ecdsa now cb be ops w outs -> op_named op ->
  (be = Memory -> clean_step w op (Err e)) ->
  sstep digest kdigest validate ecdsa now cb be w op = (w', Err e) -> unchanged be w w'.
Proof. exact c19_failed. Qed.
Print Assumptions C19_failure_changes_nothing_partial.

(** With DatastoreStorage, failing anywhere. *)
Theorem C19_datastore : forall digest kdigest validate ecdsa now cb, setting digest kdigest validate cb ->
  forall ops op w' e, Forall op_named ops -> op_named op ->
  let w := fst (srun digest kdigest validate ecdsa now cb Datastore init_world ops) in
  sstep digest kdigest validate ecdsa now cb Datastore w op = (w', Err e) -> unchanged Datastore w w'.
Proof. exact c19_datastore. Qed.
Print Assumptions C19_datastore.

Example C19_example : forall be, exists w', xstep be (after be story) (SCommit 0 [wdelete (s "zz")]) = (w', Err ValueError) /\
  clean_step (after be story) (SCommit 0 [wdelete (s "zz")]) (Err ValueError).
Proof.
  intros be. exists (fst (xstep be (after be story) (SCommit 0 [wdelete (s "zz")]))). split.
  - destruct be; vm_compute; reflexivity.
  - right. split; [left; apply le_n|]. destruct be; vm_compute; reflexivity.
Qed.
Example C19_example_batch :
  snd (xstep Datastore (after Datastore story) (SCommit 0 [wcreate (s "k5") 1; wdelete (s "zz")])) = Err ValueError.
Proof. vm_compute. reflexivity. Qed.

Theorem C19_refuted : exists digest kdigest validate ecdsa now cb ops w outs h ws w' e o o' coll rkey, setting digest kdigest validate cb /\
  history digest kdigest validate ecdsa now cb Memory ops w outs /\
  sstep digest kdigest validate ecdsa now cb Memory w (SCommit h ws) = (w', Err e) /\
  handle_obj w h = Some o /\ get_record kdigest (w_state w) o coll rkey = Ok None /\
  handle_obj w' h = Some o' /\ get_record kdigest (w_state w') o' coll rkey = Err AttributeError.
Proof.
  exists xdigest, xkdigest, xvalidate, xecdsa, xnow, xcb, (firstn 1 leak), (after Memory (firstn 1 leak)), (snd (xrun Memory (firstn 1 leak))),
    0, [wcreate (s "k0") 1; wdelete (s "zz")], (after Memory (firstn 2 leak)), ValueError.
  eexists _, _, (s "app.post"), (s "k0").
  split; [exact xsetting|]. split; [apply xhistory_ok; [unfold after; destruct (xrun Memory (firstn 1 leak)); reflexivity|reflexivity|intros _; vm_compute; reflexivity]|].
  repeat (split; [vm_compute; reflexivity|]); vm_compute; reflexivity.
Qed.
Print Assumptions C19_refuted.

(** ** C20 *)

(** The ops of a commit are the effective writes in order, and replaying them on the paths
    and CIDs before, each prev matching, gives those after.
    Missing for the full claim: MemoryStorage after a batch that failed halfway, see
    C20_refuted. *)
Theorem C20_ops_partial : forall digest kdigest validate ecdsa now cb be, setting digest kdigest validate cb ->
  forall ops w outs h ws w' cd, history digest kdigest validate ecdsa now cb be ops w outs ->
  sstep digest kdigest validate ecdsa now cb be w (SCommit h ws) = (w', Ok (OutCommit cd)) ->
  exists did key recs, handle_did w h = Some did /\ dget did (book_of [] ops outs) = Some (key, recs) /\
    b_ops (cd_commit cd) = Some (commit_ops digest recs ws) /\
    exists d, replay (cids_of digest recs) (commit_ops digest recs ws) = Some d /\
      forall p, dget p d = dget p (cids_of digest (apply_writes recs ws)).
Proof. exact c20_ops. Qed.
Print Assumptions C20_ops_partial.

Example C20_example : forall be, exists w' cd,
  xstep be (after be story) (SCommit 0 [wupdate (s "k0") 7; wdelete (s "k2"); wupdate (s "k0") 7]) = (w', Ok (OutCommit cd)) /\
  option_map (map (fun o => (op_action o, op_path o))) (b_ops (cd_commit cd))
    = Some [(UPDATE, s "app.post/k0"); (DELETE, s "app.post/k2")].
Proof. intros be. destruct be; eexists _, _; split; vm_compute; reflexivity. Qed.

Theorem C20_refuted : exists digest kdigest validate ecdsa now cb ops, setting digest kdigest validate cb /\ Forall op_named ops /\
  let '(w, outs) := srun digest kdigest validate ecdsa now cb Memory init_world ops in
  exists cd o, outs = [Ok OutRepo; Err ValueError; Ok (OutCommit cd)] /\ handle_obj w 0 = Some o /\
    option_map (map op_path) (b_ops (cd_commit cd)) = Some [s "app.post/k1"] /\
    exists es, mst_list kdigest (rd (w_state w)) max_depth (r_mst o) None None = Ok es /\
      map fst es = [s "app.post/k0"; s "app.post/k1"].
Proof.
  exists xdigest, xkdigest, xvalidate, xecdsa, xnow, xcb, leak. split; [exact xsetting|]. split; [apply op_namedb_ok; reflexivity|].
  destruct (srun xdigest xkdigest xvalidate xecdsa xnow xcb Memory init_world leak) as [w outs] eqn:E.
  assert (W : w = after Memory leak) by (unfold after, xrun; rewrite E; reflexivity).
  assert (O : outs = snd (xrun Memory leak)) by (unfold xrun; rewrite E; reflexivity). rewrite W, O. clear.
  eexists _, _. split; [vm_compute; reflexivity|]. split; [vm_compute; reflexivity|]. split; [vm_compute; reflexivity|].
  eexists. split; vm_compute; reflexivity.
Qed.
Print Assumptions C20_refuted.

(** ** C21 *)

(** Every update op changes the CID. *)
Theorem C21_update_ops : forall digest kdigest validate ecdsa now cb be, setting digest kdigest validate cb ->
  forall ops w outs h ws w' cd l, history digest kdigest validate ecdsa now cb be ops w outs ->
  sstep digest kdigest validate ecdsa now cb be w (SCommit h ws) = (w', Ok (OutCommit cd)) ->
  b_ops (cd_commit cd) = Some l -> forall op, In op l -> op_action op = UPDATE -> op_cid op <> op_prev op.
Proof. exact c21_updates. Qed.
Print Assumptions C21_update_ops.

(** An update with the record that is there at that point contributes nothing: the ops
    and the contents are those of the batch without it. *)
Theorem C21_noop_update : forall digest kdigest validate ecdsa now cb be, setting digest kdigest validate cb ->
  forall ops w outs h a u b w' cd, history digest kdigest validate ecdsa now cb be ops w outs ->
  sstep digest kdigest validate ecdsa now cb be w (SCommit h (a ++ u :: b)) = (w', Ok (OutCommit cd)) ->
  exists did key recs, handle_did w h = Some did /\ dget did (book_of [] ops outs) = Some (key, recs) /\
    forall v v', w_action u = UPDATE -> w_record u = Some v ->
      dget (record_path (w_collection u) (w_rkey u)) (apply_writes recs a) = Some v' -> norm v' = norm v ->
      b_ops (cd_commit cd) = Some (commit_ops digest recs (a ++ b)) /\
      forall p, dget p (cids_of digest (apply_writes recs (a ++ u :: b))) = dget p (cids_of digest (apply_writes recs (a ++ b))).
Proof. exact c21_noop. Qed.
Print Assumptions C21_noop_update.

Example C21_example : forall be, exists w' cd,
  xstep be (after be story) (SCommit 0 ([wcreate (s "k5") 7] ++ wupdate (s "k5") 7 :: [wupdate (s "k0") 8])) = (w', Ok (OutCommit cd)) /\
  option_map (map (fun o => (op_action o, op_path o))) (b_ops (cd_commit cd))
    = Some [(CREATE, s "app.post/k5"); (UPDATE, s "app.post/k0")].
Proof. intros be. destruct be; eexists _, _; split; vm_compute; reflexivity. Qed.

(** ** C22 *)

(** From the head of every repo on, the commits made through the storage form a chain of
    stored, signed commits with decreasing revs, each showing the records of its time. *)
Theorem C22_commit_chain_partial : forall digest kdigest validate ecdsa now cb be, setting digest kdigest validate cb ->
  forall ops w outs did key recs, history digest kdigest validate ecdsa now cb be ops w outs ->
  dget did (book_of [] ops outs) = Some (key, recs) ->
  exists l o b, dget did (trail_of [] ops outs) = Some l /\ seen be (w_state w) did = Some o /\ r_head o = Some b /\
    commit_chain kdigest ecdsa (w_state w) did key b l /\ last_recs l = recs.
Proof. exact c22_chain. Qed.
Print Assumptions C22_commit_chain_partial.

Example C22_example : forall be, exists c1 c2,
  dget alice (trail_of [] story (snd (xrun be story)))
    = Some [(c2, [(s "app.post/k0", post 3); (s "app.post/k2", post 4)]); (c1, [(s "app.post/k0", post 3); (s "app.post/k1", post 2)])] /\
  cd_prev c2 = Some (b_cid (cd_commit c1)).
Proof. intros be. destruct be; eexists _, _; split; vm_compute; reflexivity. Qed.

(** ** C23 *)

(** A commit through a reference that knows of the status raises and changes nothing, and
    so does one through a reference that is loaded now. Missing for the full claim:
    references with an older status, for which it is false, see C23_refuted. *)
Theorem C23_inactive_partial : forall digest kdigest validate ecdsa now cb be, setting digest kdigest validate cb ->
  forall ops w outs h o did o' x ws, history digest kdigest validate ecdsa now cb be ops w outs ->
  handle_obj w h = Some o -> handle_did w h = Some did ->
  seen be (w_state w) did = Some o' -> r_status o' = Some x ->
  (r_status o = r_status o' \/ be = Memory /\ attached_ref be w did h) ->
  exists w', sstep digest kdigest validate ecdsa now cb be w (SCommit h ws) = (w', Err InactiveRepo) /\ unchanged be w w'.
Proof. exact c23_inactive. Qed.
Print Assumptions C23_inactive_partial.

Theorem C23_fresh_partial : forall digest kdigest validate ecdsa now cb be, setting digest kdigest validate cb ->
  forall ops w outs did o x ws, history digest kdigest validate ecdsa now cb be ops w outs ->
  seen be (w_state w) did = Some o -> r_status o = Some x -> is_did did ->
  exists w1 w2, sstep digest kdigest validate ecdsa now cb be w (SLoad did) = (w1, Ok OutRepo) /\
    sstep digest kdigest validate ecdsa now cb be w1 (SCommit (length (w_refs w)) ws) = (w2, Err InactiveRepo) /\ unchanged be w1 w2 /\
    s_blocks (w_state w1) = s_blocks (w_state w).
Proof. exact c23_fresh. Qed.
Print Assumptions C23_fresh_partial.

Example C23_example : forall be, exists o, seen be (w_state (after be story)) bob = Some o /\
  r_status o = Some (s "deactivated") /\ handle_did (after be story) 1 = Some bob /\
  option_map r_status (handle_obj (after be story) 1) = Some (r_status o).
Proof. intros be. destruct be; eexists; repeat (split; [vm_compute; reflexivity|]); vm_compute; reflexivity. Qed.

(** A reference loaded before the deactivation still commits. *)
Theorem C23_refuted : forall be, exists digest kdigest validate ecdsa now cb ops w outs did o h ws w' cd, setting digest kdigest validate cb /\
  history digest kdigest validate ecdsa now cb be ops w outs /\ handle_did w h = Some did /\
  seen be (w_state w) did = Some o /\ r_status o = Some (s "deactivated") /\
  sstep digest kdigest validate ecdsa now cb be w (SCommit h ws) = (w', Ok (OutCommit cd)) /\
  exists o', seen be (w_state w') did = Some o' /\ r_head o' = Some (cd_commit cd).
Proof.
  intros be. set (ops := [SCreate alice None None false 1; SLoadAt 0 1; SDeactivate 0]).
  exists xdigest, xkdigest, xvalidate, xecdsa, xnow, xcb, ops, (after be ops), (snd (xrun be ops)), alice.
  assert (X : xhistory be ops (after be ops) (snd (xrun be ops)))
    by (apply xhistory_ok; [unfold after; destruct (xrun be ops); reflexivity|reflexivity|intros ->; vm_compute; reflexivity]).
  destruct be; eexists _, 1, [wcreate (s "k0") 1], _, _; (split; [exact xsetting|]); (split; [exact X|]); clear X; repeat (split; [vm_compute; reflexivity|]); (eexists; split; [vm_compute; reflexivity|vm_compute; reflexivity]).
Qed.
Print Assumptions C23_refuted.

(** ** C24 *)

(** A status change through a valid reference succeeds, sets the status of the reference and
    of what is stored, and writes exactly one event with the next number.
    Missing for the full claim: activate_repo of a tombstoned repo is documented to do
    nothing but does, see C24_refuted; and with MemoryStorage a reference other than
    the one stored changes only itself, see C24_detached_refuted. *)
Theorem C24_status_partial : forall digest kdigest validate ecdsa now cb be, setting digest kdigest validate cb ->
  forall ops w outs op h x type extra o, history digest kdigest validate ecdsa now cb be ops w outs ->
  status_op op = Some (h, x, type, extra) -> handle_obj w h = Some o ->
  exists w' did, sstep digest kdigest validate ecdsa now cb be w op = (w', Ok OutDone) /\ handle_did w h = Some did /\ w_refs w' = w_refs w /\
    handle_obj w' h = Some (with_status x o) /\
    (attached_ref be w did h -> exists o1, seen be (w_state w) did = Some o1 /\ seen be (w_state w') did = Some (with_status x o1)) /\
    s_next (w_state w') = (s_next (w_state w) + 1)%Z /\
    exists b, s_blocks (w_state w') = s_blocks (w_state w) ++ [(b_cid b, b)] /\ read (w_state w) (b_cid b) = None /\
      b_val b = event_value now type (s_next (w_state w)) did extra /\ b_seq b = s_next (w_state w) /\ b_repo b = Some did /\
      s_calls (w_state w') = (if r_callback o then [CData (MEvent (b_val b))] else []) ++ s_calls (w_state w).
Proof. exact c24_status. Qed.
Print Assumptions C24_status_partial.

Example C24_example : forall be, attached_ref be (after be story) alice 0 /\
  status_op (SDeactivate 0) = Some (0, Some (s "deactivated"), s "account", [(s "active", IBool false); (s "status", IText (s "deactivated"))]).
Proof.
  intros be. split; [|reflexivity]. intros ->. eexists. split; vm_compute; reflexivity.
Qed.

Theorem C24_refuted : forall be, exists digest kdigest validate ecdsa now cb ops w outs did o o', setting digest kdigest validate cb /\
  history digest kdigest validate ecdsa now cb be ops w outs /\
  seen be (w_state w) did = Some o /\ r_status o = Some (s "tombstoned") /\
  let w' := fst (sstep digest kdigest validate ecdsa now cb be w (SActivate 0)) in
  seen be (w_state w') did = Some o' /\ r_status o' = None /\ length (s_blocks (w_state w')) = S (length (s_blocks (w_state w))).
Proof.
  intros be. set (ops := [SCreate alice None None false 1; STombstone 0]).
  exists xdigest, xkdigest, xvalidate, xecdsa, xnow, xcb, ops, (after be ops), (snd (xrun be ops)), alice.
  assert (X : xhistory be ops (after be ops) (snd (xrun be ops)))
    by (apply xhistory_ok; [unfold after; destruct (xrun be ops); reflexivity|reflexivity|intros ->; vm_compute; reflexivity]).
  destruct be; eexists _, _; (split; [exact xsetting|]); (split; [exact X|]); clear X; repeat (split; [vm_compute; reflexivity|]); vm_compute; reflexivity.
Qed.
Print Assumptions C24_refuted.

Theorem C24_detached_refuted : exists digest kdigest validate ecdsa now cb ops w outs did o h, setting digest kdigest validate cb /\
  history digest kdigest validate ecdsa now cb Memory ops w outs /\ handle_did w h = Some did /\
  let '(w', out) := sstep digest kdigest validate ecdsa now cb Memory w (SDeactivate h) in
  out = Ok OutDone /\ seen Memory (w_state w') did = Some o /\ r_status o = None /\
  length (s_blocks (w_state w')) = S (length (s_blocks (w_state w))).
Proof.
  set (ops := [SCreate alice None None false 1; SLoadAt 0 1]).
  exists xdigest, xkdigest, xvalidate, xecdsa, xnow, xcb, ops, (after Memory ops), (snd (xrun Memory ops)), alice.
  eexists _, 1. split; [exact xsetting|].
  split; [apply xhistory_ok; [unfold after; destruct (xrun Memory ops); reflexivity|reflexivity|intros _; vm_compute; reflexivity]|].
  split; [vm_compute; reflexivity|].
  destruct (sstep xdigest xkdigest xvalidate xecdsa xnow xcb Memory (after Memory ops) (SDeactivate 1)) as [w' out] eqn:E.
  assert (W : w' = fst (xstep Memory (after Memory ops) (SDeactivate 1))) by (unfold xstep; rewrite E; reflexivity).
  assert (O : out = snd (xstep Memory (after Memory ops) (SDeactivate 1))) by (unfold xstep; rewrite E; reflexivity).
  rewrite W, O. clear. repeat (split; [vm_compute; reflexivity|]); vm_compute; reflexivity.
Qed.
Print Assumptions C24_detached_refuted.

(** ** C28 *)

(** Each commit uses one number; either its block is stored with that number and the
    callback gets the commit, or nothing has the number and the callback is told it is lost.
    Missing for the full claim: callbacks that raise, for which it is false, see C28_refuted. *)
Theorem C28_commit_partial : forall digest kdigest validate ecdsa now cb be, setting digest kdigest validate cb ->
  forall ops w outs h o ws w' out, history digest kdigest validate ecdsa now cb be ops w outs -> handle_obj w h = Some o ->
  sstep digest kdigest validate ecdsa now cb be w (SCommit h ws) = (w', out) ->
  s_next (w_state w') = (s_next (w_state w) + 1)%Z /\
  match out with
  | Ok (OutCommit cd) =>
      read (w_state w') (b_cid (cd_commit cd)) = Some (cd_commit cd) /\ b_seq (cd_commit cd) = s_next (w_state w) /\
      s_calls (w_state w') = (if r_callback o then [CData (MCommit cd)] else []) ++ s_calls (w_state w)
  | Ok _ => False
  | Err _ =>
      (forall c b, read (w_state w') c = Some b -> b_seq b <> s_next (w_state w)) /\
      s_calls (w_state w') = (if r_callback o then [CLost (s_next (w_state w))] else []) ++ s_calls (w_state w)
  end.
Proof. exact c28_commit. Qed.
Print Assumptions C28_commit_partial.

(** The same for the four numbers of a new repo. *)
Theorem C28_create_partial : forall digest kdigest validate ecdsa now cb be, setting digest kdigest validate cb ->
  forall ops w outs did handle status hc key w' out, history digest kdigest validate ecdsa now cb be ops w outs -> is_did did -> handle_ok handle ->
  sstep digest kdigest validate ecdsa now cb be w (SCreate did handle status hc key) = (w', out) ->
  let n := s_next (w_state w) in
  match out with
  | Ok _ => s_next (w_state w') = (n + 4)%Z /\ exists cd e1 e2 e3,
      (forall b, In b [cd_commit cd; e1; e2; e3] -> read (w_state w') (b_cid b) = Some b /\ read (w_state w) (b_cid b) = None) /\
      b_seq (cd_commit cd) = n /\ b_seq e1 = (n + 1)%Z /\ b_seq e2 = (n + 2)%Z /\ b_seq e3 = (n + 3)%Z /\
      b_val e1 = event_value now (s "identity") (n + 1) did [(s "handle", opt_text handle)] /\
      b_val e2 = event_value now (s "account") (n + 2) did [(s "active", IBool true)] /\
      (exists rev, int_to_tid n 0 = Ok rev /\ b_val e3 = event_value now (s "sync") (n + 3) did
         [(s "blocks", IBytes (write_car [b_cid (cd_commit cd)] [(b_cid (cd_commit cd), encode (b_val (cd_commit cd)))])); (s "rev", IText rev)]) /\
      s_calls (w_state w') = (if hc then [CData (MCommit cd); CData (MEvent (b_val e3)); CData (MEvent (b_val e2));
          CData (MEvent (b_val e1)); CData (MCommit cd)] else []) ++ s_calls (w_state w)
  | Err _ => s_next (w_state w') = (n + 1)%Z /\ (forall c b, read (w_state w') c = Some b -> b_seq b <> n) /\
      s_calls (w_state w') = (if hc then [CLost n] else []) ++ s_calls (w_state w)
  end.
Proof. exact c28_create. Qed.
Print Assumptions C28_create_partial.

(** Other operations use no number, write no block and call nobody; status changes are
    covered by C24_status_partial. *)
Theorem C28_other : forall digest kdigest validate ecdsa now cb be, setting digest kdigest validate cb ->
  forall ops w outs op w' out, history digest kdigest validate ecdsa now cb be ops w outs ->
  sstep digest kdigest validate ecdsa now cb be w op = (w', out) ->
  match op with SLoad _ | SLoadAt _ _ | SCallback _ _ => True | _ => False end ->
  s_next (w_state w') = s_next (w_state w) /\ s_blocks (w_state w') = s_blocks (w_state w) /\ s_calls (w_state w') = s_calls (w_state w).
Proof. exact c28_other. Qed.
Print Assumptions C28_other.

Example C28_example : forall be, option_map r_callback (handle_obj (after be story) 0) = Some true /\
  snd (xstep be (after be story) (SCommit 0 [wcreate (s "k0") 1])) = Err ValueError /\
  kind_of (snd (xstep be (after be story) (SCommit 0 [wcreate (s "k7") 1]))) = inr 3.
Proof. intros be. destruct be; repeat (split; [vm_compute; reflexivity|]); vm_compute; reflexivity. Qed.

(** A callback that raises: the commit is stored and reported, and then reported as lost. *)
Theorem C28_refuted : forall be, exists digest kdigest validate ecdsa now cb ops w outs w' e cd o,
  srun digest kdigest validate ecdsa now cb be init_world ops = (w, outs) /\
  sstep digest kdigest validate ecdsa now cb be w (SCommit 0 []) = (w', Err e) /\
  s_calls (w_state w') = CLost (s_next (w_state w)) :: CData (MCommit cd) :: s_calls (w_state w) /\
  b_seq (cd_commit cd) = s_next (w_state w) /\
  read (w_state w') (b_cid (cd_commit cd)) = Some (cd_commit cd) /\
  seen be (w_state w') alice = Some o /\ r_head o = Some (cd_commit cd).
Proof.
  intros be. set (cb := fun n => match n with 5 => Some RuntimeError | _ => None end).
  set (ops := [SCreate alice None None true 1; SLoad alice; SCallback 0 true]).
  exists xdigest, xkdigest, xvalidate, xecdsa, xnow, cb, ops.
  destruct be; eexists _, _, _, _, _, _; (split; [vm_compute; reflexivity|]); repeat (split; [vm_compute; reflexivity|]); vm_compute; reflexivity.
Qed.
Print Assumptions C28_refuted.

(** ** C57 *)

(** A commit to an active repo succeeds exactly if its writes are allowed, at most 200, and
    the number fits a TID; otherwise it raises the exception of the first offence
    ([commit_fails]) and stores nothing. *)
Theorem C57_limits : forall digest kdigest validate ecdsa now cb be, setting digest kdigest validate cb ->
  forall ops w outs h ws w' out o did key recs, history digest kdigest validate ecdsa now cb be ops w outs ->
  handle_obj w h = Some o -> r_status o = None ->
  handle_did w h = Some did -> dget did (book_of [] ops outs) = Some (key, recs) ->
  sstep digest kdigest validate ecdsa now cb be w (SCommit h ws) = (w', out) ->
  (writes_allowed validate recs ws /\ (len ws <= 200)%N /\ (s_next (w_state w) < 2 ^ 55)%Z /\ (exists cd, out = Ok (OutCommit cd))) \/
  (~ (writes_allowed validate recs ws /\ (len ws <= 200)%N /\ (s_next (w_state w) < 2 ^ 55)%Z) /\
   (exists e, out = Err e /\ commit_fails validate recs ws (s_next (w_state w)) e) /\
   s_blocks (w_state w') = s_blocks (w_state w) /\ s_ents (w_state w') = s_ents (w_state w)).
Proof. exact c57_iff. Qed.
Print Assumptions C57_limits.

(** More than 200 writes: ValueError, and nothing changes, in both storages. *)
Theorem C57_too_many : forall digest kdigest validate ecdsa now cb be, setting digest kdigest validate cb ->
  forall ops w outs h ws o, history digest kdigest validate ecdsa now cb be ops w outs ->
  handle_obj w h = Some o -> r_status o = None -> (200 < len ws)%N -> (s_next (w_state w) < 2 ^ 55)%Z ->
  exists w', sstep digest kdigest validate ecdsa now cb be w (SCommit h ws) = (w', Err ValueError) /\ unchanged be w w'.
Proof. exact c57_too_many. Qed.
Print Assumptions C57_too_many.

(** An oversize record that comes after allowed writes: ValueError, nothing stored. *)
Theorem C57_too_large : forall digest kdigest validate ecdsa now cb be, setting digest kdigest validate cb ->
  forall ops w outs h before u v after o did key recs, history digest kdigest validate ecdsa now cb be ops w outs ->
  handle_obj w h = Some o -> r_status o = None -> handle_did w h = Some did ->
  dget did (book_of [] ops outs) = Some (key, recs) ->
  writes_allowed validate recs before -> w_record u = Some v -> w_action u <> DELETE -> validate v = Ok tt ->
  (w_action u = UPDATE -> dget (record_path (w_collection u) (w_rkey u)) (apply_writes recs before) <> None) ->
  (1000000 < len (dag_cbor_encode v))%N ->
  exists w', sstep digest kdigest validate ecdsa now cb be w (SCommit h (before ++ u :: after)) = (w', Err ValueError) /\
    s_blocks (w_state w') = s_blocks (w_state w) /\ s_ents (w_state w') = s_ents (w_state w).
Proof. exact c57_too_large. Qed.
Print Assumptions C57_too_large.

Example C57_example : forall be, handle_did (after be story) 0 = Some alice /\
  option_map r_status (handle_obj (after be story) 0) = Some None /\
  kind_of (snd (xstep be (after be story) (SCommit 0 (repeat (wupdate (s "k0") 3) 200)))) = inr 3 /\
  kind_of (snd (xstep be (after be story) (SCommit 0 (repeat (wupdate (s "k0") 3) 201)))) = inl (Some ValueError).
Proof. intros be. destruct be; repeat (split; [vm_compute; reflexivity|]); vm_compute; reflexivity. Qed.

Example C57_example_large : xvalidate big_post = Ok tt /\ (1000000 < len (dag_cbor_encode big_post))%N.
Proof. split; [vm_compute; reflexivity|]. apply N.ltb_lt. vm_compute. reflexivity. Qed.

(** ** C58 *)

(** An operation on one repo changes no other repo: neither what a caller loads nor what
    any reference to it shows. *)
Theorem C58_isolation_partial : forall digest kdigest validate ecdsa now cb be, setting digest kdigest validate cb ->
  forall ops w outs op w' out did key recs, history digest kdigest validate ecdsa now cb be ops w outs -> op_named op ->
  (be = Memory -> clean_step w op out) -> sstep digest kdigest validate ecdsa now cb be w op = (w', out) -> op_did w op <> Some did ->
  dget did (book_of [] ops outs) = Some (key, recs) ->
  (exists o o', seen be (w_state w) did = Some o /\ seen be (w_state w') did = Some o' /\ same_repo o o' /\
     shows kdigest (w_state w) o recs /\ shows kdigest (w_state w') o' recs) /\
  (forall h o, handle_obj w h = Some o -> handle_did w h = Some did ->
     exists o', handle_obj w' h = Some o' /\ handle_did w' h = Some did /\ same_repo o o').
Proof. exact c58_isolated. Qed.
Print Assumptions C58_isolation_partial.

Example C58_example : forall be, op_did (after be story) (SCommit 0 [wcreate (s "k7") 1]) = Some alice /\
  dget bob (book_of [] story (snd (xrun be story))) = Some (2%N, [(s "app.post/k0", post 9)]) /\
  kind_of (snd (xstep be (after be story) (SCommit 0 [wcreate (s "k7") 1]))) = inr 3.
Proof. intros be. split; [destruct be; vm_compute; reflexivity|]. split; [rewrite story_book; reflexivity|destruct be; vm_compute; reflexivity]. Qed.
