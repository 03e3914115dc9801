(** What the firehose loads when it starts (arroba/firehose.py:225-247). *)
From Coq Require Import String List NArith ZArith Bool.
From Verif Require Import Base Lists Ipld MstModel CarModel StorageModel EventsModel MessageModel.
Import ListNotations.

(** [sequences.last] (storage.py:663-666, datastore_storage.py:298-308). Simplified: some number has been allocated. *)
Definition last_seq (st : state) : Z := s_next st - 1.

(** [start=max(self.last_seq - PRELOAD_WINDOW + 1, 0)] (firehose.py:229-230). *)
Definition preload_start (last window : Z) : Z := Z.max (last - window + 1) 0.

(** [_prev] (firehose.py:233-235): [event.commit.decoded.get('prev')] of commits, None of events. Simplified: a
    prev that is neither null nor a link is an error here. *)
Definition event_prev (e : eitem) : res (option cid) :=
  match e with
  | EEvent _ => Ok None
  | ECommit cd =>
      match b_val (cd_commit cd) with
      | IMap m => match dget (s "prev") m with
                  | None | Some INull => Ok None
                  | Some (ILink c) => Ok (Some c)
                  | Some _ => Err TypeError
                  end
      | _ => Err AttributeError
      end
  end.

Fixpoint mapM_res {A B} (f : A -> res B) (l : list A) : res (list B) :=
  match l with
  | [] => Ok []
  | a :: r => do b <- f a; do bs <- mapM_res f r; Ok (b :: bs)
  end.

(** [cid for cid in prev_cids if cid] (firehose.py:239) *)
Definition given_cids (l : list (option cid)) : list cid := flat_map (fun x => match x with Some c => [c] | None => [] end) l.

(** A deque with maxlen [n] keeps the last [n] items. *)
Definition deque {A} (n : nat) (l : list A) : list A := skipn (length l - n) l.

Section Preload.
Variable btime : block -> str.
Variable st : state.

(** The preload (firehose.py:232-247): the events are those that [read_events_by_seq] gives, or it raises. *)
Definition preload (rollback_window : nat) (query : gen) : res (list message_parts) :=
  match query with
  | (_, Some e) => Err e
  | (events, None) =>
      do prevs <- mapM_res event_prev events;
      let prev_commits := read_many st (given_cids prevs) in
      do messages <- mapM_res (fun ep => process_event btime st (fst ep)
        match snd ep with Some p => match dget p prev_commits with Some ob => ob | None => None end | None => None end) (combine events prevs);
      Ok (deque rollback_window messages)
  end.
End Preload.
