(** The entities in which DatastoreStorage keeps blocks (arroba/datastore_storage.py:61-73, 124-211,
    732-748, 869-884). StorageModel takes them for the blocks themselves. *)
From Coq Require Import String List NArith ZArith Bool.
From Verif Require Import Base Lists Ipld MstModel StorageModel CodecModel JwtModel.
Import ListNotations.
Local Open Scope N_scope.

(** A datetime: what the clock on the wall shows, in microseconds, and its distance from UTC if it has a
    time zone. *)
Record moment := Moment { m_wall : Z; m_offset : option Z }.

(** What [Block.repo] can be: nothing, a DID, or the ndb.Key of an AtpRepo (storage.py:90-95). *)
Inductive repo_ref := NoRepo | Did (did : str) | RepoKey (did : str).

(** Block (storage.py:78-113). Simplified: [encoded] and [cid], which are computed when they are first
    used, are always there. *)
Record dblock := DBlock {
  d_cid : cid; d_encoded : list N; d_seq : option Z; d_ops : option (list commit_op); d_time : moment; d_repo : repo_ref
}.

(** CommitOp and AtpBlock (datastore_storage.py:61-73, 144-149). *)
Record op_row := OpRow { o_action : str; o_path : str; o_cid : option str; o_prev : option str }.
Record row := Row { w_id : str; w_repo : option str; w_encoded : list N; w_seq : option Z; w_ops : list op_row; w_created : Z }.
Definition rows := list (str * row).

(** [cid.encode('base32')] *)
Definition cid_text (c : cid) : str := s "b" ++ map lower (b32_encode c).

(** [CID.decode(x)]. Simplified: other multibases than base32, capital letters, and other CIDs than
    those of DAG-CBOR and raw data with SHA-256 are refused. *)
Definition alphabet32_lower : str := map lower alphabet32.
Definition text_cid (x : str) : res cid :=
  match x with
  | 98 :: r =>
      match values alphabet32_lower r with
      | None => Err ValueError
      | Some ds =>
          let l := flat_map (bits 5) ds in
          let c := whole (length l) l in
          match c with
          | 1 :: codec :: 18 :: 32 :: d =>
              if ((codec =? 113) || (codec =? 85)) && (len d =? 32) then Ok c else Err ValueError
          | _ => Err ValueError
          end
      end
  | _ => Err ValueError
  end.

(** [Action[x.upper()]] and [x.name.lower()] *)
Definition action_text (a : action) : str :=
  match a with CREATE => s "create" | UPDATE => s "update" | DELETE => s "delete" end.
Definition text_action (x : str) : res action :=
  if str_eqb x (s "create") then Ok CREATE
  else if str_eqb x (s "update") then Ok UPDATE
  else if str_eqb x (s "delete") then Ok DELETE
  else Err KeyError.

(** [CID.decode(x) if x else None] *)
Definition text_cid_opt (x : option str) : res (option cid) :=
  match x with
  | None | Some [] => Ok None
  | Some t => do c <- text_cid t; Ok (Some c)
  end.

Fixpoint each {A B} (f : A -> res B) (l : list A) : res (list B) :=
  match l with
  | [] => Ok []
  | x :: r => do y <- f x; do ys <- each f r; Ok (y :: ys)
  end.

(** [AtpBlock.to_block] (datastore_storage.py:181-192) *)
Definition op_of_row (o : op_row) : res commit_op :=
  do a <- text_action (o_action o);
  do c <- text_cid_opt (o_cid o);
  do p <- text_cid_opt (o_prev o);
  Ok (CommitOp a (o_path o) c p).
Definition to_block (w : row) : res dblock :=
  do ops <- each op_of_row (w_ops w);
  do c <- text_cid (w_id w);
  Ok (DBlock c (w_encoded w) (w_seq w) (Some ops) (Moment (w_created w) None)
        (match w_repo w with Some d => RepoKey d | None => NoRepo end)).

Section Rows.
Variable digest : list N -> list N.
(** The distance of the system's time zone from UTC, which counts for datetimes without one. *)
Variable local : Z.

(** [AtpBlock.from_block] (datastore_storage.py:194-211). An ndb.Key is no id for another one: TypeError. *)
Definition row_of_op (o : commit_op) : op_row :=
  OpRow (action_text (op_action o)) (op_path o) (option_map cid_text (op_cid o)) (option_map cid_text (op_prev o)).
Definition from_block (b : dblock) : res row :=
  let ops := map row_of_op (match d_ops b with Some l => l | None => [] end) in
  let created := (m_wall (d_time b) - match m_offset (d_time b) with Some z => z | None => local end)%Z in
  do repo <- match d_repo b with
             | NoRepo | Did [] => Ok None
             | Did d => Ok (Some d)
             | RepoKey _ => Err TypeError
             end;
  Ok (Row (cid_text (d_cid b)) repo (d_encoded b) (d_seq b) ops created).

(** [put]: repo and seq are required. Simplified: limits of the datastore are left out. *)
Definition put (ws : rows) (w : row) : res rows :=
  match w_repo w, w_seq w with
  | Some _, Some _ => Ok (dset (w_id w) w ws)
  | _, _ => Err (OtherError (s "BadValueError"))
  end.
Fixpoint put_all (ws : rows) (l : list row) : res rows :=
  match l with
  | [] => Ok ws
  | w :: r => do ws' <- put ws w; put_all ws' r
  end.

(** [DatastoreStorage.read] (datastore_storage.py:732-737) *)
Definition row_read (ws : rows) (c : cid) : res (option dblock) :=
  match dget (cid_text c) ws with
  | Some w => do b <- to_block w; Ok (Some b)
  | None => Ok None
  end.

(** [DatastoreStorage.write_blocks] (datastore_storage.py:875-884). The entities are put in one
    transaction, all or none. *)
Definition row_write_blocks (ws : rows) (bs : list dblock) : res rows :=
  do new <- each from_block (filter (fun b => match dget (cid_text (d_cid b)) ws with Some _ => false | None => true end) bs);
  put_all ws new.

(** [DatastoreStorage.write] with a number (datastore_storage.py:868-873) and [AtpBlock.create]
    (datastore_storage.py:154-179), at the time [now] in UTC. *)
Definition row_write (ws : rows) (now : Z) (did : str) (data : ipld) (seq : Z) : res (rows * dblock) :=
  if negb (0 <? seq)%Z then Err AssertionError else
  let encoded := dag_cbor_encode data in
  let id := cid_text ([1; 113; 18; 32] ++ digest encoded) in
  do wr <- match dget id ws with
           | Some w => Ok (ws, w)
           | None => let w := Row id (Some did) encoded (Some seq) [] now in do ws' <- put ws w; Ok (ws', w)
           end;
  let '(ws', w) := wr in
  match w_seq w with
  | Some n => if (n <=? seq)%Z then do b <- to_block w; Ok (ws', b) else Err AssertionError
  | None => Err TypeError
  end.
End Rows.
