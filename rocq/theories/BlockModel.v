(** Blocks: arroba/storage.py:72-142, arroba/util.py:67-78. *)
From Coq Require Import String List NArith ZArith Bool.
From Verif Require Import Base Ipld.
Import ListNotations.
Local Open Scope N_scope.

(** The truth value of a Python object, as used by [assert encoded or decoded]
    (storage.py:107). *)
Definition truthy (v : ipld) : bool :=
  match v with
  | INull => false
  | IBool b => b
  | IInt z => negb (Z.eqb z 0)
  | IBytes [] => false
  | IText [] => false
  | IList [] => false
  | IMap [] => false
  | _ => true
  end.

(** [Block] with its three lazily filled fields (storage.py:97-113).
    [seq], [ops], [time] and [repo] are plain attributes; see StorageModel.v. *)
Record lblock := {
  lb_cid : option cid;
  lb_encoded : option (list N);
  lb_decoded : option ipld }.

Section Block.
Variable digest : list N -> list N.

(** [Block.__init__] (storage.py:97-113). [None] arguments are [None]. *)
Definition new_block (c : option cid) (enc : option (list N)) (dec : option ipld) : res lblock :=
  let t1 := match enc with Some (_ :: _) => true | _ => false end in
  let t2 := match dec with Some v => truthy v | None => false end in
  if t1 || t2 then Ok {| lb_cid := c; lb_encoded := enc; lb_decoded := dec |}
  else Err AssertionError.

(** Property [encoded] (storage.py:125-129). [dag_cbor.encode(None)] cannot
    happen: the constructor makes sure one of the two is present; were both
    missing, the two properties would recurse forever. *)
Definition get_encoded (b : lblock) : res (list N * lblock) :=
  match lb_encoded b with
  | Some e => Ok (e, b)
  | None =>
      match lb_decoded b with
      | Some v =>
          let e := dag_cbor_encode v in
          Ok (e, {| lb_cid := lb_cid b; lb_encoded := Some e; lb_decoded := lb_decoded b |})
      | None => Err RuntimeError
      end
  end.

(** Property [decoded] (storage.py:131-135). *)
Definition get_decoded (b : lblock) : res (ipld * lblock) :=
  match lb_decoded b with
  | Some v => Ok (v, b)
  | None =>
      match lb_encoded b with
      | Some e =>
          match decode e with
          | Some v => Ok (v, {| lb_cid := lb_cid b; lb_encoded := lb_encoded b; lb_decoded := Some v |})
          | None => Err ValueError
          end
      | None => Err RuntimeError
      end
  end.

(** Property [cid] (storage.py:118-123). *)
Definition get_cid (b : lblock) : res (cid * lblock) :=
  match lb_cid b with
  | Some c => Ok (c, b)
  | None =>
      do (e, b') <- get_encoded b ;
      let c := [1; 113; 18; 32] ++ digest e in
      Ok (c, {| lb_cid := Some c; lb_encoded := lb_encoded b'; lb_decoded := lb_decoded b' |})
  end.

(** A client reads the properties in any order; what it sees. *)
Inductive prop_read := RCid | REncoded | RDecoded.
Inductive seen := SCid (c : cid) | SEncoded (e : list N) | SDecoded (v : ipld).

Definition read_prop (b : lblock) (r : prop_read) : res (seen * lblock) :=
  match r with
  | RCid => do (c, b') <- get_cid b ; Ok (SCid c, b')
  | REncoded => do (e, b') <- get_encoded b ; Ok (SEncoded e, b')
  | RDecoded => do (v, b') <- get_decoded b ; Ok (SDecoded v, b')
  end.

Fixpoint read_props (b : lblock) (rs : list prop_read) : res (list seen) :=
  match rs with
  | [] => Ok []
  | r :: rs' =>
      do (x, b') <- read_prop b r ;
      do xs <- read_props b' rs' ;
      Ok (x :: xs)
  end.

(** [Block.__eq__] (storage.py:137-139): compares CIDs. *)
Definition block_eq (a b : lblock) : res bool :=
  do (c, _) <- get_cid a ;
  do (d, _) <- get_cid b ;
  Ok (str_eqb c d).

End Block.
