(** The firehose of a server that takes requests. *)
From Coq Require Import String List NArith ZArith Bool Lia.
From Verif Require Import Base Lists Ipld MstModel MstRep CarModel StorageModel StorageSpec RepoSpec UriModel ServerModel ServerSpec EventsModel EventsSpec MessageModel MessageSpec
  ReplicaSpec ReplicaProofs FireModel FireSpec StreamSpec StreamProofs RelaySpec RelayProofs RequestSpec RequestProofs.
Import ListNotations.

Section Served.
Variable digest : list N -> list N.
Variable kdigest : str -> list N.
Variable validate : ipld -> res unit.
Variable ecdsa : N -> Z -> list N -> list N.
Variable now : Z -> str.
Variable cb : nat -> option exn.
Variable netloc_ok : str -> bool.
Variable cfg : ServerModel.config.
Hypothesis SET : setting digest kdigest validate cb.
Hypothesis DL : forall x, length (digest x) = 32.

Notation serves be := (serves digest kdigest validate ecdsa now cb be netloc_ok cfg).
Notation goes_on be := (goes_on digest kdigest validate ecdsa now cb be netloc_ok cfg).
Notation history be := (history digest kdigest validate ecdsa now cb be).

(** Histories that lead to both worlds, the second going on from the first. *)
Lemma both be w1 bk1 w bk cs : serves be w1 bk1 -> goes_on be w1 bk1 w bk -> copied be (w_state w1) bk1 cs ->
  exists ops1 v1 outs1 ops2 v outs, history be ops1 v1 outs1 /\ history be (ops1 ++ ops2) v outs /\ w_state v1 = w_state w1 /\ w_state v = w_state w /\
    copied be (w_state v1) (book_of [] ops1 outs1) cs /\
    forall cs', copied be (w_state v) (book_of [] (ops1 ++ ops2) outs) cs' -> copied be (w_state w) bk cs'.
Proof.
  intros S G C. destruct (serves_history _ _ _ _ _ _ _ _ _ _ _ S) as (ops1 & v1 & outs1 & H1 & C1).
  destruct (goes_history _ _ _ _ _ _ _ _ _ _ _ _ _ _ _ _ G H1 C1) as (ops2 & v & outs & H & CV).
  exists ops1, v1, outs1, ops2, v, outs. split; [exact H1|]. split; [exact H|]. split; [exact (proj1 C1)|]. split; [exact (proj1 CV)|]. split.
  - exact (proj1 (same_copied _ _ _ _ _ _ _ _ _ _ _ _ _ _ _ SET S H1 C1) C).
  - intros cs' C'. exact (proj2 (same_copied _ _ _ _ _ _ _ _ _ _ _ _ _ _ _ SET (serves_goes_on _ _ _ _ _ _ _ _ _ _ _ _ _ S G) H CV) C').
Qed.

Lemma served_memory btime w1 bk1 w bk cs : serves Memory w1 bk1 -> goes_on Memory w1 bk1 w bk -> copied Memory (w_state w1) bk1 cs ->
  exists items msgs cs', read_events (w_state w) (mem_blocks_by_seq (w_state w) (s_next (w_state w1)) None) = (items, None) /\
    Forall2 (fun i m => process_event btime (w_state w) i None = Ok m) items msgs /\
    take_all digest kdigest cs msgs = Some cs' /\ copied Memory (w_state w) bk cs'.
Proof.
  intros S G C. destruct (both _ _ _ _ _ _ S G C) as (ops1 & v1 & outs1 & ops2 & v & outs & H1 & H & E1 & E & C1 & CB).
  destruct (c66_memory digest kdigest validate ecdsa now cb btime _ _ _ _ _ _ _ SET DL H1 H C1) as (items & msgs & cs' & A1 & A2 & A3 & A4).
  exists items, msgs, cs'. rewrite E, E1 in *. auto.
Qed.

Lemma served_datastore btime w1 bk1 w bk cs query fails : serves Datastore w1 bk1 -> goes_on Datastore w1 bk1 w bk ->
  (forall i cur, enumerates (w_state w) cur None (query i cur)) -> copied Datastore (w_state w1) bk1 cs ->
  exists items msgs cs', read_events (w_state w) (scan query fails (s_next (w_state w1))) = (items, None) /\
    Forall2 (fun i m => process_event btime (w_state w) i None = Ok m) items msgs /\
    take_all digest kdigest cs msgs = Some cs' /\ copied Datastore (w_state w) bk cs'.
Proof.
  intros S G Q C. destruct (both _ _ _ _ _ _ S G C) as (ops1 & v1 & outs1 & ops2 & v & outs & H1 & H & E1 & E & C1 & CB).
  rewrite <- E in Q. destruct (c66_datastore digest kdigest validate ecdsa now cb btime _ _ _ _ _ _ _ query fails SET DL H1 H Q C1) as (items & msgs & cs' & A1 & A2 & A3 & A4).
  exists items, msgs, cs'. rewrite E, E1 in *. auto.
Qed.

Lemma streamed_memory btime code cf i c out0 f1 l f2 out w1 bk1 w bk cs items : serves Memory w1 bk1 -> goes_on Memory w1 bk1 w bk ->
  copied Memory (w_state w1) bk1 cs -> c = s_next (w_state w1) ->
  read_events (w_state w) (mem_blocks_by_seq (w_state w) c None) = (items, None) ->
  (0 < rollback_window cf)%nat -> reached cf steady f1 -> thread f1 i (SNew (Some c)) out0 ->
  (exists x, In x (collected f1) /\ (c <= e_seq x)%Z) -> run cf f1 (SStep i :: l) = Some f2 ->
  along cf (fun f a => steady f a /\ undisturbed cf i f a /\ calm cf i f a) f1 (SStep i :: l) ->
  throughout cf (timely cf i (length (f_sent f1))) f1 (SStep i :: l) -> up_to_date f2 -> thread f2 i (SLive []) out ->
  streams code btime (w_state w) items c (f_log f2) ->
  exists msgs cs', out = out0 ++ map (fun m => MEvent (to_event code m)) msgs /\
    Forall2 (fun i m => process_event btime (w_state w) i None = Ok m) items msgs /\
    take_all digest kdigest cs msgs = Some cs' /\ copied Memory (w_state w) bk cs'.
Proof.
  intros S G C EC R W R1 T1 X RN AL TH UP T2 ST. destruct (both _ _ _ _ _ _ S G C) as (ops1 & v1 & outs1 & ops2 & v & outs & H1 & H & E1 & E & C1 & CB).
  rewrite <- E in R, ST. rewrite <- E1 in EC.
  destruct (relay_memory digest kdigest validate ecdsa now cb btime code cf i c out0 f1 l f2 out _ _ _ _ _ _ _ _ SET DL H1 H C1 EC R W R1 T1 X RN AL TH UP T2 ST) as (msgs & cs' & A1 & A2 & A3 & A4).
  exists msgs, cs'. rewrite E in *. auto.
Qed.

Lemma streamed_datastore btime code query fails cf i c out0 f1 l f2 out w1 bk1 w bk cs items : serves Datastore w1 bk1 -> goes_on Datastore w1 bk1 w bk ->
  copied Datastore (w_state w1) bk1 cs -> c = s_next (w_state w1) ->
  (forall i cur, enumerates (w_state w) cur None (query i cur)) ->
  read_events (w_state w) (scan query fails c) = (items, None) ->
  (0 < rollback_window cf)%nat -> reached cf steady f1 -> thread f1 i (SNew (Some c)) out0 ->
  (exists x, In x (collected f1) /\ (c <= e_seq x)%Z) -> run cf f1 (SStep i :: l) = Some f2 ->
  along cf (fun f a => steady f a /\ undisturbed cf i f a /\ calm cf i f a) f1 (SStep i :: l) ->
  throughout cf (timely cf i (length (f_sent f1))) f1 (SStep i :: l) -> up_to_date f2 -> thread f2 i (SLive []) out ->
  streams code btime (w_state w) items c (f_log f2) ->
  exists msgs cs', out = out0 ++ map (fun m => MEvent (to_event code m)) msgs /\
    Forall2 (fun i m => process_event btime (w_state w) i None = Ok m) items msgs /\
    take_all digest kdigest cs msgs = Some cs' /\ copied Datastore (w_state w) bk cs'.
Proof.
  intros S G C EC Q R W R1 T1 X RN AL TH UP T2 ST. destruct (both _ _ _ _ _ _ S G C) as (ops1 & v1 & outs1 & ops2 & v & outs & H1 & H & E1 & E & C1 & CB).
  rewrite <- E in R, ST, Q. rewrite <- E1 in EC.
  destruct (relay_datastore digest kdigest validate ecdsa now cb btime code query fails cf i c out0 f1 l f2 out _ _ _ _ _ _ _ _ SET DL H1 H C1 EC Q R W R1 T1 X RN AL TH UP T2 ST) as (msgs & cs' & A1 & A2 & A3 & A4).
  exists msgs, cs'. rewrite E in *. auto.
Qed.
End Served.
