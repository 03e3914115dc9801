(** From the storage through the firehose to a consumer. *)
From Coq Require Import String List NArith ZArith Bool.
From Verif Require Import Base Lists Ipld StorageModel EventsModel MessageModel FireModel.
Import ListNotations.

(** The number of a message, which the firehose goes by. *)
Definition msg_seq (m : message_parts) : Z := match dget (s "seq") (snd m) with Some (IInt n) => n | _ => 0%Z end.

(** The event for a message; [code] stands for how a message is kept as the body of an event. *)
Definition to_event (code : message_parts -> str) (m : message_parts) : event := Ev (msg_seq m) (code m).

(** The events of the firehose from [c] on are the messages for [items]. *)
Definition streams (code : message_parts -> str) (btime : block -> str) (st : state) (items : list eitem) (c : Z) (log : list event) : Prop :=
  forall e, (c <= e_seq e)%Z ->
    (In e log <-> exists i m, In i items /\ process_event btime st i None = Ok m /\ e = to_event code m).
