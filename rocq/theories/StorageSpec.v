(** What commits are supposed to do, in terms of records and paths. *)
From Coq Require Import String List NArith ZArith Bool.
From Verif Require Import Base Lists Ipld MstSpec BlockSpec StorageModel.
Import ListNotations.

(** The records of a repo: path to record. *)
Definition records := list (str * ipld).

Definition record_path (collection rkey : str) : str := collection ++ 47%N :: rkey.

Section Spec.
Variable digest : list N -> list N.
Variable validate : ipld -> res unit.

(** The CID of a record: the hash of its canonical encoding. *)
Definition rcid (v : ipld) : cid := cid_of digest (norm v).

(** Records that may be written: non-empty dicts that validate and encode to at most
    a million bytes. *)
Definition record_ok (v : ipld) : Prop :=
  (exists m, v = IMap m /\ m <> []) /\ validate v = Ok tt /\ (len (dag_cbor_encode v) <= 1000000)%N.

Definition has_record (w : write) : Prop := exists v, w_record w = Some v /\ record_ok v.

(** A create needs a valid path without a record, an update or delete one with. *)
Definition write_allowed (recs : records) (w : write) : Prop :=
  let p := record_path (w_collection w) (w_rkey w) in
  match w_action w with
  | CREATE => repo_key p /\ dget p recs = None /\ has_record w
  | UPDATE => dget p recs <> None /\ has_record w
  | DELETE => dget p recs <> None
  end.

Definition apply_write (recs : records) (w : write) : records :=
  let p := record_path (w_collection w) (w_rkey w) in
  match w_action w, w_record w with
  | DELETE, _ => ddel p recs
  | _, Some v => dset p v recs
  | _, None => recs
  end.

Definition apply_writes (recs : records) (ws : list write) : records := fold_left apply_write ws recs.

Fixpoint writes_allowed (recs : records) (ws : list write) : Prop :=
  match ws with
  | [] => True
  | w :: r => write_allowed recs w /\ writes_allowed (apply_write recs w) r
  end.

(** The exception that a disallowed record or write raises. *)
Inductive record_fails (v : ipld) : exn -> Prop :=
| rf_not_dict : (forall m, v <> IMap m) -> record_fails v AttributeError
| rf_invalid m e : v = IMap m -> validate v = Err e -> record_fails v e
| rf_empty : v = IMap [] -> validate v = Ok tt -> record_fails v AssertionError
| rf_size m : v = IMap m -> m <> [] -> validate v = Ok tt -> (1000000 < len (dag_cbor_encode v))%N -> record_fails v ValueError.

Inductive write_fails (recs : records) (w : write) : exn -> Prop :=
| wf_missing : w_action w <> CREATE -> dget (record_path (w_collection w) (w_rkey w)) recs = None -> write_fails recs w ValueError
| wf_no_record : w_action w <> DELETE -> (w_action w = UPDATE -> dget (record_path (w_collection w) (w_rkey w)) recs <> None) ->
    w_record w = None -> write_fails recs w AssertionError
| wf_record v e : w_action w <> DELETE -> (w_action w = UPDATE -> dget (record_path (w_collection w) (w_rkey w)) recs <> None) ->
    w_record w = Some v -> record_fails v e -> write_fails recs w e
| wf_create v : w_action w = CREATE -> w_record w = Some v -> record_ok v ->
    ~ (repo_key (record_path (w_collection w) (w_rkey w)) /\ dget (record_path (w_collection w) (w_rkey w)) recs = None) ->
    write_fails recs w ValueError.

(** The first disallowed write of a batch decides. *)
Definition batch_fails (recs : records) (ws : list write) (e : exn) : Prop :=
  exists before w after, ws = before ++ w :: after /\ writes_allowed recs before /\
    write_fails (apply_writes recs before) w e.

(** The exception of a commit to an active repo with sequence number [seq]. *)
Definition commit_fails (recs : records) (ws : list write) (seq : Z) (e : exn) : Prop :=
  ((200 < len ws)%N /\ e = ValueError) \/
  ((len ws <= 200)%N /\ batch_fails recs ws e) \/
  ((len ws <= 200)%N /\ writes_allowed recs ws /\ (2 ^ 55 <= seq)%Z /\ e = AssertionError).

(** What a write contributes to the ops of the commit: nothing if it is an update with
    the same record. *)
Definition write_ops (recs : records) (w : write) : list commit_op :=
  let p := record_path (w_collection w) (w_rkey w) in
  let old := option_map rcid (dget p recs) in
  match w_action w, w_record w with
  | DELETE, _ => [CommitOp DELETE p None old]
  | CREATE, Some v => [CommitOp CREATE p (Some (rcid v)) None]
  | UPDATE, Some v =>
      match old with
      | Some c => if str_eqb c (rcid v) then [] else [CommitOp UPDATE p (Some (rcid v)) old]
      | None => []
      end
  | _, None => []
  end.

Fixpoint commit_ops (recs : records) (ws : list write) : list commit_op :=
  match ws with
  | [] => []
  | w :: r => write_ops recs w ++ commit_ops (apply_write recs w) r
  end.

(** The contents as paths and CIDs. *)
Definition cids_of (recs : records) : list (str * cid) := map (fun kv => (fst kv, rcid (snd kv))) recs.

(** Records have a [$type] that is not that of a firehose event. *)
Definition plain (v : ipld) : Prop :=
  py_value v /\ exists m t, v = IMap m /\ dget (s "$type") m = Some (IText t) /\
  starts_with (s "com.atproto.sync.subscribeRepos#") t = false.

End Spec.
