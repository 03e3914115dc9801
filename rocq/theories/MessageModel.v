(** Firehose messages (arroba/firehose.py:346-433). *)
From Coq Require Import String List NArith ZArith Bool.
From Verif Require Import Base Lists Ipld MstModel TidModel CarModel StorageModel EventsModel CoverModel.
Import ListNotations.

(** Header and payload of a message, dicts. *)
Definition message_parts := (list (str * ipld) * list (str * ipld))%type.

(** [car.Block(cid=block.cid, data=block.encoded, ...)] of every value of [event.blocks]
    (firehose.py:376-377); a None there has no attributes. *)
Fixpoint car_blocks (d : blocks_dict) : res (list (cid * list N)) :=
  match d with
  | [] => Ok []
  | (_, ob) :: r =>
      match ob with
      | None => Err AttributeError
      | Some b => do l <- car_blocks r; Ok ((b_cid b, encode (b_val b)) :: l)
      end
  end.

(** [op.action.name.lower()] *)
Definition action_name (a : action) : str :=
  match a with CREATE => s "create" | UPDATE => s "update" | DELETE => s "delete" end.

(** An op of the payload (firehose.py:389-398). *)
Definition event_op (op : commit_op) : ipld :=
  IMap ([(s "action", IText (action_name (op_action op))); (s "path", IText (op_path op));
         (s "cid", match op_action op with DELETE => INull | _ => link_opt (op_cid op) end)]
        ++ match op_action op with CREATE => [] | _ => [(s "prev", link_opt (op_prev op))] end).

(** [decoded.get('data')] *)
Definition get_data (v : ipld) : res (option ipld) :=
  match v with IMap m => Ok (dget (s "data") m) | _ => Err AttributeError end.

Section Message.
(** [event.commit.time...isoformat()]: the time of a block is not in the model. *)
Variable btime : block -> str.
Variable st : state.

(** [process_event] (firehose.py:346-433). *)
Definition process_event (event : eitem) (prev_commit : option block) : res message_parts :=
  match event with
  | EEvent (IMap m) =>
      match dget (s "$type") m with
      | None => Err KeyError
      | Some (IText type) =>
          let prefix := s "com.atproto.sync.subscribeRepos" in
          let fragment := if starts_with prefix type then skipn (length prefix) type else type in
          if str_eqb fragment type then Err AssertionError
          else Ok ([(s "op", IInt 1); (s "t", IText fragment)], ddel (s "$type") m)
      | Some _ => Err AttributeError
      end
  | EEvent _ => Err AssertionError
  | ECommit cd =>
      let c := cd_commit cd in
      do root <- item_link (s "data") (b_val c);
      do blocks <- add_covering_proofs st max_depth root (b_ops c) (map (fun kb => (fst kb, Some (snd kb))) (cd_blocks cd));
      do cbs <- car_blocks blocks;
      do prev <- item (s "prev") (b_val c);
      do prev_data <-
        match prev with
        | ILink p =>
            match (match prev_commit with Some b => Some b | None => read st p end) with
            | Some b => get_data (b_val b)
            | None => Ok None
            end
        | _ => Ok None
        end;
      let ops := match b_ops c with Some l => map event_op l | None => [] end in
      do did <- item (s "did") (b_val c);
      do rev <- int_to_tid (b_seq c) 0;
      Ok ([(s "op", IInt 1); (s "t", IText (s "#commit"))],
          [(s "repo", did); (s "ops", IList ops); (s "commit", ILink (b_cid c));
           (s "blocks", IBytes (write_car [b_cid c] cbs)); (s "time", IText (btime c)); (s "seq", IInt (b_seq c));
           (s "rev", IText rev); (s "since", INull); (s "rebase", IBool false); (s "blobs", IList []); (s "tooBig", IBool false)]
          ++ match prev_data with Some INull | None => [] | Some v => [(s "prevData", v)] end)
  end.

End Message.
