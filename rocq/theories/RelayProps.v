(** C69: from the storage through the firehose to the copies of a consumer. *)
From Coq Require Import String List NArith ZArith Bool.
From Verif Require Import Base Lists Ipld MstModel CarModel StorageModel StorageSpec RepoSpec RepoExamples EventsModel EventsSpec EventsFacts EventsProps
  MessageModel MessageSpec MessageExamples ReplicaSpec ReplicaProofs ReplicaProps FireModel FireSpec FireExamples StreamSpec StreamProofs
  RelaySpec RelayProofs RelayExamples.
Import ListNotations.

(** ** C69 *)

(** If events turn up in the order of their numbers, the collector takes up a gapless part of the
    storage, however long its reads take, whatever numbers are missing, and whatever fails. *)
Theorem C69_gapless : forall cf f, (0 < rollback_window cf)%nat -> reached cf steady f -> gapless (f_log f) (collected f).
Proof. exact gapless_reached. Qed.
Print Assumptions C69_gapless.

(** Then a subscriber that is up to date has got every event of the storage from its cursor on, in order. *)
Theorem C69_stream : forall cf i c out0 f1 l f2 out, (0 < rollback_window cf)%nat ->
  reached cf steady f1 -> thread f1 i (SNew (Some c)) out0 -> (0 <= c)%Z -> (exists x, In x (collected f1) /\ (c <= e_seq x)%Z) ->
  run cf f1 (SStep i :: l) = Some f2 ->
  along cf (fun f a => steady f a /\ undisturbed cf i f a /\ calm cf i f a) f1 (SStep i :: l) ->
  throughout cf (timely cf i (length (f_sent f1))) f1 (SStep i :: l) -> up_to_date f2 -> thread f2 i (SLive []) out ->
  exists D, out = out0 ++ map MEvent D /\ increasing D /\ forall e, In e D <-> In e (f_log f2) /\ (c <= e_seq e)%Z.
Proof. exact stream_all. Qed.
Print Assumptions C69_stream.

(** Hence a consumer who has the repos as they were, subscribes from the next number on, and applies
    what it gets, has the repos as they are. *)
Theorem C69_memory : forall digest kdigest validate ecdsa now cb btime code cf i c out0 f1 l f2 out ops1 ops2 w1 outs1 w outs cs items,
  setting digest kdigest validate cb -> (forall x, length (digest x) = 32) ->
  history digest kdigest validate ecdsa now cb Memory ops1 w1 outs1 ->
  history digest kdigest validate ecdsa now cb Memory (ops1 ++ ops2) w outs ->
  copied Memory (w_state w1) (book_of [] ops1 outs1) cs -> c = s_next (w_state w1) ->
  read_events (w_state w) (mem_blocks_by_seq (w_state w) c None) = (items, None) ->
  (0 < rollback_window cf)%nat -> reached cf steady f1 -> thread f1 i (SNew (Some c)) out0 ->
  (exists x, In x (collected f1) /\ (c <= e_seq x)%Z) -> run cf f1 (SStep i :: l) = Some f2 ->
  along cf (fun f a => steady f a /\ undisturbed cf i f a /\ calm cf i f a) f1 (SStep i :: l) ->
  throughout cf (timely cf i (length (f_sent f1))) f1 (SStep i :: l) -> up_to_date f2 -> thread f2 i (SLive []) out ->
  streams code btime (w_state w) items c (f_log f2) ->
  exists msgs cs', out = out0 ++ map (fun m => MEvent (to_event code m)) msgs /\
    Forall2 (fun i m => process_event btime (w_state w) i None = Ok m) items msgs /\
    take_all digest kdigest cs msgs = Some cs' /\ copied Memory (w_state w) (book_of [] (ops1 ++ ops2) outs) cs'.
Proof. exact relay_memory. Qed.
Print Assumptions C69_memory.

Theorem C69_datastore : forall digest kdigest validate ecdsa now cb btime code query fails cf i c out0 f1 l f2 out ops1 ops2 w1 outs1 w outs cs items,
  setting digest kdigest validate cb -> (forall x, length (digest x) = 32) ->
  history digest kdigest validate ecdsa now cb Datastore ops1 w1 outs1 ->
  history digest kdigest validate ecdsa now cb Datastore (ops1 ++ ops2) w outs ->
  copied Datastore (w_state w1) (book_of [] ops1 outs1) cs -> c = s_next (w_state w1) ->
  (forall i cur, enumerates (w_state w) cur None (query i cur)) ->
  read_events (w_state w) (scan query fails c) = (items, None) ->
  (0 < rollback_window cf)%nat -> reached cf steady f1 -> thread f1 i (SNew (Some c)) out0 ->
  (exists x, In x (collected f1) /\ (c <= e_seq x)%Z) -> run cf f1 (SStep i :: l) = Some f2 ->
  along cf (fun f a => steady f a /\ undisturbed cf i f a /\ calm cf i f a) f1 (SStep i :: l) ->
  throughout cf (timely cf i (length (f_sent f1))) f1 (SStep i :: l) -> up_to_date f2 -> thread f2 i (SLive []) out ->
  streams code btime (w_state w) items c (f_log f2) ->
  exists msgs cs', out = out0 ++ map (fun m => MEvent (to_event code m)) msgs /\
    Forall2 (fun i m => process_event btime (w_state w) i None = Ok m) items msgs /\
    take_all digest kdigest cs msgs = Some cs' /\ copied Datastore (w_state w) (book_of [] (ops1 ++ ops2) outs) cs'.
Proof. exact relay_datastore. Qed.
Print Assumptions C69_datastore.

Example C69_case : setting wdigest xkdigest xvalidate xcb /\ (forall x, length (wdigest x) = 32) /\
  whistory (firstn 2 wstory) (wafter (firstn 2 wstory)) (snd (wrun (firstn 2 wstory))) /\
  whistory (firstn 2 wstory ++ skipn 2 wstory) (wafter wstory) (snd (wrun wstory)) /\
  (exists cs, copied Datastore (w_state (wafter (firstn 2 wstory))) (book_of [] (firstn 2 wstory) (snd (wrun (firstn 2 wstory)))) cs) /\
  s_next (w_state (wafter (firstn 2 wstory))) = 6%Z /\
  (forall i cur, enumerates (w_state (wafter wstory)) cur None (flip_query (w_state (wafter wstory)) None i cur)) /\
  read_events (w_state (wafter wstory)) (scan (flip_query (w_state (wafter wstory)) None) [] 6) = (ritems, None) /\
  reached cf4 steady rf1 /\ thread rf1 0 (SNew (Some 6%Z)) [] /\ (exists x, In x (collected rf1) /\ (6 <= e_seq x)%Z) /\
  run cf4 rf1 (SStep 0 :: rrun) = Some rf2 /\
  along cf4 (fun f a => steady f a /\ undisturbed cf4 0 f a /\ calm cf4 0 f a) rf1 (SStep 0 :: rrun) /\
  throughout cf4 (timely cf4 0 (length (f_sent rf1))) rf1 (SStep 0 :: rrun) /\ up_to_date rf2 /\
  thread rf2 0 (SLive []) (map (fun m => FireModel.MEvent (to_event frame m)) (ex_msgs 6)) /\ length (ex_msgs 6) = 5 /\
  streams frame (fun _ => s "now") (w_state (wafter wstory)) ritems 6 (f_log rf2).
Proof. exact rcase. Qed.
