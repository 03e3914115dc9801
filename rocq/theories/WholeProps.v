(** C75: the firehose can tell every commit of the log. *)
From Coq Require Import String List NArith ZArith Bool Sorted.
From Verif Require Import Base Lists Ipld MstModel CarModel StorageModel StorageSpec RepoSpec RepoExamples MessageExamples EventsModel EventsSpec MessageModel
  UriModel ServerModel ServerSpec LogSpec LogProps AnySpec AnyExamples FeedSpec FeedProps PreloadModel WholeSpec WholeFacts WholeCheck.
Import ListNotations.

(** ** C75 *)

(** Whatever operations, requests and imports a server has taken: if the CARs of the imports were whole, then every commit
    and event in its MemoryStorage makes a message, with what C35 asks of it, and the preload loads them all.
    With imports the preload has to start after the number 0 (see [C75_restart_refuted]). *)
Theorem C75_memory_partial digest kdigest validate ecdsa now cb btime l start repo rollback_window :
  (forall a b, digest a = digest b -> a = b) -> (forall x, length (digest x) = 32) -> (forall k, length (kdigest k) = 32) ->
  (forall v, validate v = Ok tt -> plain v) ->
  Forall (act_ok digest) l -> unforged ecdsa l -> Forall (whole_import digest kdigest) l ->
  (0 < start)%Z \/ start = 0%Z /\ Forall (fun a => ~ imports a) l ->
  let st := w_state (arun digest kdigest validate ecdsa now cb Memory init_world l) in
  let query := read_events st (mem_blocks_by_seq st start repo) in
  exists items lg, query = (items, None) /\ logged ecdsa st start repo lg /\ Forall2 (item_for ecdsa st) items lg /\
    (forall i, In i items -> exists p, process_event btime st i None = Ok p /\ message_told digest kdigest ecdsa st i p) /\
    exists msgs, preload btime st rollback_window query = Ok msgs /\ Forall2 (message_told digest kdigest ecdsa st) (deque rollback_window items) msgs.
Proof. exact (fun inj dlen klen pl => told_memory digest kdigest validate ecdsa now cb btime inj dlen klen pl l start repo rollback_window). Qed.
Print Assumptions C75_memory_partial.

(** The same for DatastoreStorage, whatever order the queries give to blocks with the same number,
    and however often they die. *)
Theorem C75_datastore_partial digest kdigest validate ecdsa now cb btime l start repo rows fails rollback_window :
  (forall a b, digest a = digest b -> a = b) -> (forall x, length (digest x) = 32) -> (forall k, length (kdigest k) = 32) ->
  (forall v, validate v = Ok tt -> plain v) ->
  Forall (act_ok digest) l -> unforged ecdsa l -> Forall (whole_import digest kdigest) l ->
  (0 < start)%Z \/ start = 0%Z /\ Forall (fun a => ~ imports a) l ->
  let st := w_state (arun digest kdigest validate ecdsa now cb Datastore init_world l) in
  let query := read_events st (scan rows fails start) in
  (forall i cur, enumerates st cur repo (rows i cur)) ->
  exists items lg, query = (items, None) /\ logged ecdsa st start repo lg /\ Forall2 (item_for ecdsa st) items lg /\
    (forall i, In i items -> exists p, process_event btime st i None = Ok p /\ message_told digest kdigest ecdsa st i p) /\
    exists msgs, preload btime st rollback_window query = Ok msgs /\ Forall2 (message_told digest kdigest ecdsa st) (deque rollback_window items) msgs.
Proof. exact (fun inj dlen klen pl => told_datastore digest kdigest validate ecdsa now cb btime inj dlen klen pl l start repo rows fails rollback_window). Qed.
Print Assumptions C75_datastore_partial.

(** What a restarted firehose loads, with a preload window of [window] numbers: exactly the commits and events that have one of the
    last [window] numbers allocated, in order, each once; and if the rollback window is no smaller, it keeps them all. *)
Theorem C75_recent_partial digest kdigest validate ecdsa now cb btime be l window bs rollback_window :
  (forall a b, digest a = digest b -> a = b) -> (forall x, length (digest x) = 32) -> (forall k, length (kdigest k) = 32) ->
  (forall v, validate v = Ok tt -> plain v) ->
  Forall (act_ok digest) l -> unforged ecdsa l -> Forall (whole_import digest kdigest) l ->
  let st := w_state (arun digest kdigest validate ecdsa now cb be init_world l) in
  (0 < window)%Z -> (window < s_next st)%Z \/ Forall (fun a => ~ imports a) l ->
  enumerates st (preload_start (last_seq st) window) None bs ->
  exists items lg msgs, read_events st (Ok bs) = (items, None) /\ Forall2 (item_for ecdsa st) items lg /\
    StronglySorted (fun a b => (b_seq a < b_seq b)%Z) lg /\
    (forall b, In b lg <-> (exists c, read st c = Some b) /\ (s_next st - window <= b_seq b < s_next st)%Z /\ (is_event_block b \/ is_commit_block ecdsa b)) /\
    (Z.of_nat (length lg) <= window)%Z /\
    preload btime st rollback_window (read_events st (Ok bs)) = Ok msgs /\ Forall2 (message_told digest kdigest ecdsa st) (deque rollback_window items) msgs /\
    ((window <= Z.of_nat rollback_window)%Z -> deque rollback_window items = items).
Proof. exact (fun inj dlen klen pl => told_recent digest kdigest validate ecdsa now cb btime inj dlen klen pl be l window bs rollback_window). Qed.
Print Assumptions C75_recent_partial.

(** Bob's repo is created and written to; Alice's repo comes with an import of a whole CAR, is activated and gets a
    record. A preload of 8 numbers starts at 1 and loads the messages 1 to 8. *)
Example C75_case be : exists car, Forall (act_ok wdigest) (feed_story car) /\ unforged xecdsa (feed_story car) /\ Forall (whole_import wdigest xkdigest) (feed_story car) /\
  smooth wdigest xkdigest xvalidate xecdsa xnow xcb be init_world (feed_story car) /\
  let st := w_state (aworld be (feed_story car)) in preload_start (last_seq st) 8 = 1%Z /\
  loaded st 1 = Some (map Some [1; 2; 3; 4; 5; 6; 7; 8]%Z).
Proof. exact (whole_case be). Qed.

(** As stated C75 is false. Blocks of imports have the number 0, which the event log must not contain: from then on a
    preload from 0, that is with fewer than PRELOAD_WINDOW (4000) numbers in use, raises, and the collector thread
    ends before it has told anything. *)
Theorem C75_unnumbered btime st rollback_window bs :
  (exists c b, read st c = Some b /\ b_seq b = 0%Z) -> enumerates st 0 None bs ->
  read_events st (Ok bs) = ([], Some AssertionError) /\ preload btime st rollback_window (read_events st (Ok bs)) = Err AssertionError.
Proof. exact (unnumbered_stop btime st rollback_window bs). Qed.
Print Assumptions C75_unnumbered.

(** Bob's repo is created, and a whole CAR of Alice's is imported. *)
Theorem C75_restart_refuted : exists digest kdigest validate ecdsa now cb, forall be, exists l,
  Forall (act_ok digest) l /\ Forall (whole_import digest kdigest) l /\ smooth digest kdigest validate ecdsa now cb be init_world l /\
  let st := w_state (arun digest kdigest validate ecdsa now cb be init_world l) in
  (exists c b, read st c = Some b /\ b_seq b = 0%Z) /\ preload_start (last_seq st) 4000 = 0%Z /\
  forall btime rollback_window bs, enumerates st (preload_start (last_seq st) 4000) None bs ->
    preload btime st rollback_window (read_events st (Ok bs)) = Err AssertionError.
Proof.
  exact (ex_intro _ wdigest (ex_intro _ xkdigest (ex_intro _ xvalidate (ex_intro _ xecdsa (ex_intro _ xnow (ex_intro _ xcb restart_case)))))).
Qed.
Print Assumptions C75_restart_refuted.

(** And a CAR that lacks nodes, such as an arroba server gives for getRepo with since, makes commits of other repos that share those
    nodes impossible to tell: process_event raises, now and at every restart. *)
Theorem C75_hole_refuted : exists digest kdigest validate ecdsa now cb btime, forall be, exists l,
  Forall (act_ok digest) l /\ unforged ecdsa l /\ smooth digest kdigest validate ecdsa now cb be init_world l /\
  let st := w_state (arun digest kdigest validate ecdsa now cb be init_world l) in
  let query := read_events st (mem_blocks_by_seq st 1 None) in
  map (fun i => match process_event btime st i None with Ok _ => None | Err e => Some e end) (fst query) = [None; None; None; None; Some AttributeError] /\
  map item_seq (fst query) = map Some [1; 2; 3; 4; 5]%Z /\
  preload btime st 10 query = Err AttributeError.
Proof.
  exact (ex_intro _ wdigest (ex_intro _ xkdigest (ex_intro _ xvalidate (ex_intro _ xecdsa (ex_intro _ xnow (ex_intro _ xcb (ex_intro _ btime0
    (fun be => match hole_case be with ex_intro _ car H => ex_intro _ (hole_story car) H end)))))))).
Qed.
Print Assumptions C75_hole_refuted.
