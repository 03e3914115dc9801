(** [DatastoreStorage.read_blocks_by_seq] when a query dies of another error than a ContextError, for example of its timeout
    (arroba/datastore_storage.py:816-861); [EventsModel.scan] is without those. *)
From Coq Require Import String List NArith ZArith Bool.
From Verif Require Import Base Ipld StorageModel EventsModel.
Import ListNotations.

(** Queries die of a ContextError after [fails] rows, and the one after those of another error after [k] rows. Only
    ContextError is caught (line 854). *)
Fixpoint stop_loop (query : nat -> Z -> list block) (i : nat) (fails : list nat) (k : nat) (cur : Z) (cids : list str) : list block :=
  match fails with
  | [] => snd (scan_rows cur cids (firstn k (query i cur)))
  | n :: r =>
      let '(cur', cids', out) := scan_rows cur cids (firstn n (query i cur)) in
      out ++ stop_loop query (S i) r k cur' cids'
  end.

(** What the generator yields, and what it raises then. *)
Definition scan_stopped (query : nat -> Z -> list block) (fails : list nat) (k : nat) (e : exn) (start : Z) : list block * exn :=
  if (start <? 0)%Z then ([], AssertionError) else (stop_loop query 0 fails k start [], e).

(** [read_events_by_seq] (storage.py:368-425) on blocks that end with the error: compare [EventsModel.events_loop], whose
    blocks end without. The commit that is being put together is not yielded. *)
Fixpoint stop_events (st : state) (e : exn) (seq : option Z) (cb : option block) (blocks : list (cid * block)) (bs : list block) : gen :=
  match bs with
  | [] => ([], Some e)
  | b :: r =>
      if (b_seq b =? 0)%Z then ([], Some AssertionError)
      else
        let body := fun cb blocks =>
          match event_block_value (b_val b) with
          | Err e => ([], Some e)
          | Ok true => yield (Ok (EEvent (b_val b))) (stop_events st e (Some (b_seq b)) cb blocks r)
          | Ok false =>
              stop_events st e (Some (b_seq b)) (if commit_keys (b_val b) then Some b else cb) (dset (b_cid b) b blocks) r
          end in
        if match seq with Some n => negb (b_seq b =? n)%Z | None => true end then
          match cb with
          | Some c => yield (as_commit (make_commit st c blocks)) (body None [])
          | None => match blocks with [] => body None [] | _ => ([], Some AssertionError) end
          end
        else body cb blocks
  end.

Definition read_events_stopped (st : state) (blocks : list block * exn) : gen := stop_events st (snd blocks) None None [] (fst blocks).
