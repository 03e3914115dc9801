(** C66: whoever applies the messages of the firehose has the repos. *)
From Coq Require Import String List NArith ZArith Bool.
From Verif Require Import Base Lists Ipld MstModel CarModel StorageModel StorageSpec RepoSpec RepoExamples EventsModel EventsSpec
  MessageModel MessageSpec MessageExamples ReplicaSpec ReplicaProofs.
Import ListNotations.

(** ** C66 *)

(** A consumer has copies of all repos as they were at some time, reads the events from the next
    number on at any later time, and applies their messages. The messages exist, none is refused,
    and afterwards the copies have the tree roots and the records of all repos as they are then.
    The consumer goes by the messages alone: it wants every block to have its CID, the ops to fit its
    copy, prevData to be its root, and the new root to show the result of every op. *)
Theorem C66_memory digest kdigest validate ecdsa now cb btime ops1 ops2 w1 outs1 w outs cs :
  setting digest kdigest validate cb -> (forall x, length (digest x) = 32) ->
  history digest kdigest validate ecdsa now cb Memory ops1 w1 outs1 ->
  history digest kdigest validate ecdsa now cb Memory (ops1 ++ ops2) w outs ->
  copied Memory (w_state w1) (book_of [] ops1 outs1) cs ->
  exists items msgs cs', read_events (w_state w) (mem_blocks_by_seq (w_state w) (s_next (w_state w1)) None) = (items, None) /\
    Forall2 (fun i m => process_event btime (w_state w) i None = Ok m) items msgs /\
    take_all digest kdigest cs msgs = Some cs' /\ copied Memory (w_state w) (book_of [] (ops1 ++ ops2) outs) cs'.
Proof. exact (c66_memory digest kdigest validate ecdsa now cb btime ops1 ops2 w1 outs1 w outs cs). Qed.
Print Assumptions C66_memory.

Theorem C66_datastore digest kdigest validate ecdsa now cb btime ops1 ops2 w1 outs1 w outs cs query fails :
  setting digest kdigest validate cb -> (forall x, length (digest x) = 32) ->
  history digest kdigest validate ecdsa now cb Datastore ops1 w1 outs1 ->
  history digest kdigest validate ecdsa now cb Datastore (ops1 ++ ops2) w outs ->
  (forall i cur, enumerates (w_state w) cur None (query i cur)) ->
  copied Datastore (w_state w1) (book_of [] ops1 outs1) cs ->
  exists items msgs cs', read_events (w_state w) (scan query fails (s_next (w_state w1))) = (items, None) /\
    Forall2 (fun i m => process_event btime (w_state w) i None = Ok m) items msgs /\
    take_all digest kdigest cs msgs = Some cs' /\ copied Datastore (w_state w) (book_of [] (ops1 ++ ops2) outs) cs'.
Proof. exact (c66_datastore digest kdigest validate ecdsa now cb btime ops1 ops2 w1 outs1 w outs cs query fails). Qed.
Print Assumptions C66_datastore.

(** To begin with, no copies are the copies of no repos. *)
Theorem C66_start digest kdigest validate ecdsa now cb be :
  history digest kdigest validate ecdsa now cb be [] init_world [] /\ copied be (w_state init_world) [] [].
Proof. exact (c66_start digest kdigest validate ecdsa now cb be). Qed.
Print Assumptions C66_start.

(** The messages of [wstory], all of them and those after its first two operations. *)
Definition ex_msgs (start : Z) : list message_parts :=
  let st := w_state (wafter wstory) in
  flat_map (fun i => match process_event (fun _ => s "now") st i None with Ok m => [m] | Err _ => [] end)
    (fst (read_events st (mem_blocks_by_seq st start None))).
Definition ex_copies (ops : list sop) (start : Z) : option copies :=
  let st := w_state (wafter ops) in
  take_all wdigest xkdigest [] (flat_map (fun i => match process_event (fun _ => s "now") st i None with Ok m => [m] | Err _ => [] end)
    (fst (read_events st (mem_blocks_by_seq st start None)))).
Definition only_records (cs : option copies) : option (list (str * records)) :=
  option_map (map (fun dc => (fst dc, cp_recs (snd dc)))) cs.

Example C66_case : setting wdigest xkdigest xvalidate xcb /\ (forall x, length (wdigest x) = 32) /\
  whistory (firstn 2 wstory) (wafter (firstn 2 wstory)) (snd (wrun (firstn 2 wstory))) /\
  whistory (firstn 2 wstory ++ skipn 2 wstory) (wafter wstory) (snd (wrun wstory)) /\
  s_next (w_state (wafter (firstn 2 wstory))) = 6%Z /\
  only_records (ex_copies (firstn 2 wstory) 0) = Some [(alice, [(s "app.post/k0", norm (post 1)); (s "app.post/k1", norm (post 2))])] /\
  only_records match ex_copies (firstn 2 wstory) 0 with Some cs => take_all wdigest xkdigest cs (ex_msgs 6) | None => None end
    = Some [(alice, [(s "app.post/k0", norm (post 3)); (s "app.post/k2", norm (post 4))]); (bob, [])].
Proof.
  split; [exact wsetting|]. split; [exact wdigest_length|]. split; [apply whistory_ok; reflexivity|].
  split; [apply whistory_ok; reflexivity|]. split; [vm_compute; reflexivity|]. split; vm_compute; reflexivity.
Qed.

(** The consumer is no pushover: without the first commit of alice's repo it refuses the second,
    and so it does if it gets the second one twice, or on top of nothing. *)
Example C66_strict : length (ex_msgs 0) = 10 /\
  take_all wdigest xkdigest [] (firstn 4 (ex_msgs 0) ++ skipn 5 (ex_msgs 0)) = None /\
  take_all wdigest xkdigest [] (ex_msgs 0 ++ skipn 9 (ex_msgs 0)) = None /\
  take_all wdigest xkdigest [] (ex_msgs 6) = None.
Proof. split; [vm_compute; reflexivity|]. split; [vm_compute; reflexivity|]. split; vm_compute; reflexivity. Qed.
