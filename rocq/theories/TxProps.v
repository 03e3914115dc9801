(** Concurrent commits to DatastoreStorage (arroba/storage.py:495-644,
    arroba/datastore_storage.py:665-730, 876-890).

    [evs] is any interleaving of any number of threads or processes: calls of commit, the steps of
    their transactions, aborts by the datastore, and changes of a repo's status. *)
From Coq Require Import String List NArith ZArith Bool.
From Verif Require Import Base Lists Ipld MstModel TidModel StorageModel StorageSpec RepoSpec RepoExamples
  EventsModel EventsSpec TxModel TxSpec TxFacts TxExamples.
Import ListNotations.

(** ** C63 *)

(** However the threads interleave, the successful commits to a repo form one chain: each was made
    on the records and the head that the one before left, none is lost, and calls that failed or
    were aborted have no effect on what is seen.
    Missing for the full claim: the revs of the chain need not increase (C63_revs_refuted), and
    the event stream may show an aborted attempt in place of the commit (C63_events_refuted). *)
Theorem C63_serial_partial : forall digest kdigest validate ecdsa now cb, setting digest kdigest validate cb ->
  forall ops w outs did key recs0 evs, history digest kdigest validate ecdsa now cb Datastore ops w outs ->
  dget did (book_of [] ops outs) = Some (key, recs0) ->
  let w' := tx_run digest kdigest validate ecdsa (tx_start (w_state w)) evs in
  exists o0 b0 o b recs, seen Datastore (w_state w) did = Some o0 /\ r_head o0 = Some b0 /\
    seen Datastore (tx_state w') did = Some o /\ r_head o = Some b /\ r_key o = key /\
    serial digest kdigest validate ecdsa (tx_state w') did key (b_cid b0) recs0 (commits did (x_log w')) (b_cid b) recs /\
    shows kdigest (tx_state w') o recs.
Proof. exact serial_ok. Qed.
Print Assumptions C63_serial_partial.

(** No two calls return with the same sequence number, none returns twice, and each result
    belongs to a call that was made. *)
Theorem C63_once : forall digest kdigest validate ecdsa st evs,
  let w := tx_run digest kdigest validate ecdsa (tx_start st) evs in
  NoDup (map (fun r => j_seq (t_job r)) (x_log w)) /\
  forall r, In r (x_log w) -> (s_next st <= j_seq (t_job r) < x_next w)%Z /\
    exists t status, In (ECall t (j_did (t_job r)) (j_writes (t_job r)) status) evs.
Proof. exact once. Qed.
Print Assumptions C63_once.

(** Whatever has happened, nothing blocks: a call whose writes are allowed succeeds if nobody
    disturbs it. *)
Theorem C63_progress : forall digest kdigest validate ecdsa now cb, setting digest kdigest validate cb ->
  forall ops w outs did key recs0 evs, history digest kdigest validate ecdsa now cb Datastore ops w outs ->
  dget did (book_of [] ops outs) = Some (key, recs0) ->
  let w' := tx_run digest kdigest validate ecdsa (tx_start (w_state w)) evs in
  exists b0 h recs, option_map r_head (seen Datastore (w_state w) did) = Some (Some b0) /\
    serial digest kdigest validate ecdsa (tx_state w') did key (b_cid b0) recs0 (commits did (x_log w')) h recs /\
    forall t ws n1 n2 n3 n4, x_threads w' t = XIdle -> writes_allowed validate recs ws -> (len ws <= 200)%N -> (x_next w' < 2 ^ 55)%Z ->
      exists j cd, j_did j = did /\ j_writes j = ws /\ j_seq j = x_next w' /\
      x_log (tx_run digest kdigest validate ecdsa w' [ECall t did ws None; EStep t n1; EStep t n2; EStep t n3; EStep t n4])
      = {| t_job := j; t_result := Ok cd |} :: x_log w'.
Proof. exact progress_ok. Qed.
Print Assumptions C63_progress.

(** Sequence numbers are allocated before the transaction: the commit with the smaller rev can come
    second. *)
Theorem C63_revs_refuted : exists digest kdigest validate ecdsa now cb ops w outs did key recs0 evs j1 cd1 j2 cd2 r1 r2,
  setting digest kdigest validate cb /\ history digest kdigest validate ecdsa now cb Datastore ops w outs /\
  dget did (book_of [] ops outs) = Some (key, recs0) /\
  commits did (x_log (tx_run digest kdigest validate ecdsa (tx_start (w_state w)) evs)) = [(j2, cd2); (j1, cd1)] /\
  cd_prev cd2 = Some (b_cid (cd_commit cd1)) /\
  item_text (s "rev") (b_val (cd_commit cd1)) = Ok r1 /\ item_text (s "rev") (b_val (cd_commit cd2)) = Ok r2 /\
  str_cmp r2 r1 = Lt.
Proof. exact rev_refuted. Qed.
Print Assumptions C63_revs_refuted.

(** The blocks of an aborted attempt stay, with the same sequence number as the commit that
    succeeded. For the datastore's order of blocks with one number that gives it last, the event
    stream shows the commit of the aborted attempt and not the one of the repo. *)
Theorem C63_events_refuted : exists digest kdigest validate ecdsa now cb ops w outs did key recs0 evs j1 cd1 j2 cd2,
  setting digest kdigest validate cb /\ history digest kdigest validate ecdsa now cb Datastore ops w outs /\
  dget did (book_of [] ops outs) = Some (key, recs0) /\
  let w' := tx_run digest kdigest validate ecdsa (tx_start (w_state w)) evs in
  commits did (x_log w') = [(j2, cd2); (j1, cd1)] /\
  exists bs items cd, enumerates (tx_state w') (s_next (w_state w)) None bs /\
    read_events (tx_state w') (Ok bs) = (items, None) /\
    In (ECommit cd) items /\ b_seq (cd_commit cd) = j_seq j2 /\ b_repo (cd_commit cd) = Some did /\
    b_cid (cd_commit cd) <> b_cid (cd_commit cd1) /\ b_cid (cd_commit cd) <> b_cid (cd_commit cd2) /\
    forall cd', In (ECommit cd') items -> b_cid (cd_commit cd') <> b_cid (cd_commit cd2).
Proof. exact events_refuted. Qed.
Print Assumptions C63_events_refuted.

(** Three threads, two of them on one repo; one of these has to begin again. *)
Example C63_example : setting xdigest xkdigest xvalidate xcb /\
  xhistory Datastore story (after Datastore story) (snd (xrun Datastore story)) /\
  dget alice (book_of [] story (snd (xrun Datastore story))) = Some (1%N, [(s "app.post/k0", post 3); (s "app.post/k2", post 4)]) /\
  map log_kind (x_log (xtx_run tx0 race)) =
    [(bob, 19, 0%nat, Some InactiveRepo); (alice, 18, 0%nat, Some ValueError); (alice, 15, 1%nat, None);
     (bob, 17, 0%nat, None); (alice, 16, 0%nat, None)]%Z /\
  map (fun k => match seen Datastore (tx_state (xtx_run tx0 race)) alice with
                | Some o => get_record xkdigest (tx_state (xtx_run tx0 race)) o (s "app.post") k
                | None => Err KeyError end) [s "k0"; s "k2"; s "k3"; s "k4"]
  = [Ok None; Ok (Some (norm (post 4))); Ok (Some (norm (post 7))); Ok (Some (norm (post 8)))].
Proof.
  split; [exact xsetting|]. split; [exact (story_history Datastore)|]. split; [rewrite story_book; reflexivity|].
  split; [exact race_log|]. vm_compute. reflexivity.
Qed.
