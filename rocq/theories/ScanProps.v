(** C53 while blocks are being written. *)
From Coq Require Import String List NArith ZArith Bool.
From Verif Require Import Base Lists Ipld StorageModel StorageSpec RepoSpec RepoExamples EventsModel EventsSpec EventsFacts EventsProps ScanSpec ScanFacts.
Import ListNotations.

(** ** C53 *)

(** The scan of DatastoreStorage while others write: [states i] is the storage when the i-th query starts. However often
    the query dies, no block is given twice, the numbers ascend, and every block that was there when the scan began is
    given. A block that was there when the last query began is only left out if a block with a higher number was
    given before. *)
Theorem C53_growing states start repo query fails :
  (forall i k b, read (states i) k = Some b -> b_cid b = k) ->
  (forall i k b, read (states i) k = Some b -> read (states (S i)) k = Some b) ->
  (forall i cur, queried (states i) (states (S i)) cur repo (query i cur)) -> (0 <= start)%Z ->
  let n := length fails in
  exists bs, scan query fails start = Ok bs /\ NoDup (map b_cid bs) /\ in_order bs /\
    (forall b, In b bs -> (exists c, read (states (S n)) c = Some b) /\ in_range start repo b = true) /\
    (forall b, (exists c, read (states 0) c = Some b) -> in_range start repo b = true -> In b bs) /\
    (forall b, (exists c, read (states n) c = Some b) -> in_range start repo b = true -> In b bs \/ exists b', In b' bs /\ (b_seq b < b_seq b')%Z).
Proof. intros CK GR Q. exact (scan_grown states repo start CK GR query Q fails). Qed.
Print Assumptions C53_growing.

(** The story: the scan begins when only the repos are there; the first query dies after four rows, when two commits have
    been written, and the second after seven, when the rest of the story has been. *)
Definition story_states (i : nat) : state := w_state (after Datastore (firstn (nth i [2; 5] 9) story)).
Definition story_query (i : nat) (cur : Z) : list block := flip_query (story_states i) None i cur.
Example C53_growing_case : (forall i k b, read (story_states i) k = Some b -> b_cid b = k) /\
  (forall i k b, read (story_states i) k = Some b -> read (story_states (S i)) k = Some b) /\
  (forall i cur, queried (story_states i) (story_states (S i)) cur None (story_query i cur)) /\
  map b_seq (story_query 0 2) = [2; 3; 4; 5; 6; 7; 8]%Z /\
  exists bs, scan story_query [4; 7] 2 = Ok bs /\ map b_seq bs = [2; 3; 4; 5; 6; 7; 8; 9; 9; 9; 9; 9; 9; 10; 10; 10; 10; 11; 11; 11; 13]%Z.
Proof.
  assert (K : forall i, keyed_store (story_states i)) by (intros [|[|i]]; apply keyedb_ok; [..|destruct i]; vm_compute; reflexivity).
  assert (G : forall i k b, read (story_states i) k = Some b -> read (story_states (S i)) k = Some b).
  { intros [|[|i]]; [apply (longer _ _ (skipn (length (s_blocks (story_states 0))) (s_blocks (story_states 1))))|apply (longer _ _ (skipn (length (s_blocks (story_states 1))) (s_blocks (story_states 2))))|]; [vm_compute; reflexivity..|].
    unfold story_states. destruct i; cbn [nth]; intros k b R; exact R. }
  split; [intros i; apply K|]. split; [exact G|]. split; [intros i cur; apply enumerates_queried; [apply G|apply flip_enumerates, K]|].
  split; [vm_compute; reflexivity|]. eexists. split; vm_compute; reflexivity.
Qed.
