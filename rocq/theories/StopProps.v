(** C53 when the scan ends with an error. *)
From Coq Require Import String List NArith ZArith Bool.
From Verif Require Import Base Lists Ipld StorageModel StorageSpec RepoSpec RepoExamples EventsModel EventsSpec EventsFacts EventsProps ScanSpec ScanFacts ScanProps
  StopModel StopProofs StopFacts.
Import ListNotations.

(** The blocks in the range are those with numbers from [start] on, and of the repo if one is given. *)
Theorem C53_range start repo b : in_range start repo b = true <-> (start <= b_seq b)%Z /\ (repo = None \/ repo = Some [] \/ repo = b_repo b).
Proof. exact (range_means start repo b). Qed.
Print Assumptions C53_range.

(** If a query dies of another error, the scan raises it. What it has given till then, while others write, is a beginning
    of what it would have given: no block twice, the numbers ascend, only blocks that are there and in the range, and
    none is missing that was there when the scan began and has a lower number than one that was given. Among them are
    the rows of the last query till then, which began at the start or at the number of a block that was given. *)
Theorem C53_stopped states start repo query fails k e :
  (forall i c b, read (states i) c = Some b -> b_cid b = c) ->
  (forall i c b, read (states i) c = Some b -> read (states (S i)) c = Some b) ->
  (forall i cur, queried (states i) (states (S i)) cur repo (query i cur)) -> (0 <= start)%Z ->
  exists bs rest, scan_stopped query fails k e start = (bs, e) /\ scan query fails start = Ok (bs ++ rest) /\ NoDup (map b_cid bs) /\ in_order bs /\
    (forall b, In b bs -> (exists c, read (states (S (length fails))) c = Some b) /\ in_range start repo b = true) /\
    (forall b, (exists c, read (states 0) c = Some b) -> in_range start repo b = true -> In b bs \/ forall b', In b' bs -> (b_seq b' <= b_seq b)%Z) /\
    exists cur, (forall b, In b (firstn k (query (length fails) cur)) -> In (b_cid b) (map b_cid bs)) /\
      (cur = start \/ exists b, b_seq b = cur /\ In (b_cid b) (map b_cid bs)).
Proof. exact (stopped_scan states start repo query fails k e). Qed.
Print Assumptions C53_stopped.

(** The story of C53_growing_case, whose premises are the same: the third query takes too long after five rows, when the
    scan has given the blocks up to number 9. *)
Example C53_stopped_case :
  let out := scan_stopped story_query [4; 7] 5 RuntimeError 2 in
  snd out = RuntimeError /\ map b_seq (fst out) = [2; 3; 4; 5; 6; 7; 8; 9; 9; 9; 9; 9; 9]%Z.
Proof. vm_compute. split; reflexivity. Qed.

(** ** C25 *)

(** [read_events_by_seq] on a scan that ends with an error gives a beginning of the items of the history, and then raises
    the error. The commit whose blocks are being read then is not given in part, and everything with a lower number
    has been given. Missing: see C25_datastore_partial. *)
Theorem C25_stopped_partial digest kdigest validate ecdsa now cb ops w outs start repo query fails k e :
  setting digest kdigest validate cb -> history digest kdigest validate ecdsa now cb Datastore ops w outs -> (0 <= start)%Z ->
  (forall i cur, enumerates (w_state w) cur repo (query i cur)) ->
  exists bs items more, scan_stopped query fails k e start = (bs, e) /\ read_events_stopped (w_state w) (bs, e) = (items, Some e) /\
    Forall2 (entry_item ecdsa now (w_state w)) (items ++ more)
      (filter (entry_selected start repo) (log_from digest kdigest validate ecdsa now cb Datastore init_world ops)) /\
    forall i, In i more -> match i with
      | EEvent v => exists x c, read (w_state w) c = Some x /\ b_val x = v /\ forall b, In b bs -> (b_seq b <= b_seq x)%Z
      | ECommit cd => forall b, In b bs -> (b_seq b <= b_seq (cd_commit cd))%Z
      end.
Proof. exact (stopped_events digest kdigest validate ecdsa now cb ops w outs start repo query fails k e). Qed.
Print Assumptions C25_stopped_partial.

(** The story: the third query dies within the blocks of the commit with number 9, which is not given. *)
Example C25_stopped_case : let st := w_state (after Datastore story) in
  setting xdigest xkdigest xvalidate xcb /\ xhistory Datastore story (after Datastore story) (snd (xrun Datastore story)) /\
  (forall i cur, enumerates st cur None (flip_query st None i cur)) /\
  map b_seq (fst (scan_stopped (flip_query st None) [4; 2] 6 RuntimeError 2)) = [2; 3; 4; 5; 6; 7; 8; 9; 9; 9]%Z /\
  (let out := read_events_stopped st (scan_stopped (flip_query st None) [4; 2] 6 RuntimeError 2) in
   map item_kind (fst out) = [inl (s "identity"); inl (s "account"); inl (s "sync"); inr 2; inl (s "identity"); inl (s "account"); inl (s "sync")] /\ snd out = Some RuntimeError).
Proof.
  assert (K : keyed_store (w_state (after Datastore story))) by (apply keyedb_ok; vm_compute; reflexivity).
  cbv zeta. split; [exact xsetting|]. split; [exact (story_history Datastore)|]. split; [intros i cur; apply flip_enumerates, K|]. split; [vm_compute; reflexivity|]. vm_compute. split; reflexivity.
Qed.
