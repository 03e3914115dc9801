(** What keeping blocks in the datastore is supposed to do. *)
From Coq Require Import String List NArith ZArith Bool.
From Verif Require Import Base Lists Ipld MstModel StorageModel RowModel.
Import ListNotations.

(** A CID of DAG-CBOR or raw data. *)
Definition proper (c : cid) : Prop :=
  exists codec d, (codec = 113 \/ codec = 85)%N /\ length d = 32 /\ Forall (fun x => (x < 256)%N) d /\ c = ([1; codec; 18; 32]%N ++ d).
Definition proper_opt (c : option cid) : Prop := match c with Some c => proper c | None => True end.

(** A block that is meant to be stored: it has a repo and a number. *)
Definition storable (b : dblock) : Prop :=
  proper (d_cid b) /\ (exists did, did <> [] /\ d_repo b = Did did) /\ (exists n, d_seq b = Some n) /\
  forall ops op, d_ops b = Some ops -> In op ops -> proper_opt (op_cid op) /\ proper_opt (op_prev op).

(** The block as it comes back: its CID, content, number and ops; the repo as a key; the time in UTC,
    without time zone. *)
Definition comes_back (local : Z) (b b' : dblock) : Prop :=
  d_cid b' = d_cid b /\ d_encoded b' = d_encoded b /\ d_seq b' = d_seq b /\
  d_ops b' = Some (match d_ops b with Some ops => ops | None => [] end) /\
  (forall did, d_repo b = Did did -> d_repo b' = RepoKey did) /\
  d_time b' = Moment (m_wall (d_time b) - match m_offset (d_time b) with Some z => z | None => local end) None.

(** The entities [ws] keep the blocks [bl]: reading any CID gives the block, as it comes back, or none. *)
Definition keeps (local : Z) (ws : rows) (bl : list (cid * dblock)) : Prop :=
  forall c, proper c -> match dget c bl with
                        | Some b => exists b', row_read ws c = Ok (Some b') /\ comes_back local b b'
                        | None => row_read ws c = Ok None
                        end.
