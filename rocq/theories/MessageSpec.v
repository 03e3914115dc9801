(** What firehose messages are supposed to say. *)
From Coq Require Import String List NArith ZArith Bool.
From Verif Require Import Base Lists Ipld MstModel CarModel StorageModel StorageSpec RepoSpec.
Import ListNotations.

(** The blocks of a CAR, for a consumer who has nothing else. *)
Definition car_reader (bl : list (cid * list N)) : cid -> option ipld :=
  fun c => match dget c bl with Some data => decode data | None => None end.

(** An op of a commit and what a message says of it. *)
Definition op_shown (op : commit_op) (v : ipld) : Prop :=
  exists m, v = IMap m /\ dget (s "path") m = Some (IText (op_path op)) /\
  match op_action op with
  | CREATE => dget (s "action") m = Some (IText (s "create")) /\ dget (s "prev") m = None /\
      exists c, op_cid op = Some c /\ dget (s "cid") m = Some (ILink c)
  | UPDATE => dget (s "action") m = Some (IText (s "update")) /\
      (exists c, op_cid op = Some c /\ dget (s "cid") m = Some (ILink c)) /\
      exists p, op_prev op = Some p /\ dget (s "prev") m = Some (ILink p)
  | DELETE => dget (s "action") m = Some (IText (s "delete")) /\ dget (s "cid") m = Some INull /\
      exists p, op_prev op = Some p /\ dget (s "prev") m = Some (ILink p)
  end.

Section Spec.
Variable digest : list N -> list N.
Variable kdigest : str -> list N.
Variable st : state.

(** The CAR [car] of the commit [c] with the records [recs]: it is rooted at the commit, has only
    stored blocks under their right CIDs, and among them the commit, the blocks first written with
    its number and the records of its ops; and at the path of every op it shows, under the data CID
    of the commit, the CID of the record there or that there is none. *)
Definition commit_car (c : block) (recs : records) (car : list N) : Prop :=
  exists bl root ops, read_car car = Some ([b_cid c], bl) /\ NoDup (keys bl) /\
    item_link (s "data") (b_val c) = Ok root /\ b_ops c = Some ops /\
    (forall k x, dget k bl = Some x -> exists b, read st k = Some b /\ x = encode (b_val b) /\ k = cid_of digest (b_val b)) /\
    dget (b_cid c) bl = Some (encode (b_val c)) /\
    (forall k b, read st k = Some b -> b_seq b = b_seq c -> dget k bl = Some (encode (b_val b))) /\
    (forall op k, In op ops -> op_action op <> DELETE -> op_cid op = Some k ->
       exists b, read st k = Some b /\ dget k bl = Some (encode (b_val b))) /\
    (forall op, In op ops -> get kdigest (car_reader bl) max_depth (mst_load root) (op_path op)
                             = Ok (option_map (fun v => cid_of digest (norm v)) (dget (op_path op) recs))).

(** The message of the commit [c] of the repo [did] after the commit [prev], if there was one. *)
Record commit_message (did : str) (prev : option block) (c : block) (recs : records) (header payload : list (str * ipld)) : Prop := {
  cm_op : dget (s "op") header = Some (IInt 1);
  cm_t : dget (s "t") header = Some (IText (s "#commit"));
  cm_repo : dget (s "repo") payload = Some (IText did);
  cm_seq : dget (s "seq") payload = Some (IInt (b_seq c));
  cm_rev : exists rev, item_text (s "rev") (b_val c) = Ok rev /\ dget (s "rev") payload = Some (IText rev);
  cm_commit : dget (s "commit") payload = Some (ILink (b_cid c));
  cm_prev : match prev with
            | Some p => item (s "prev") (b_val c) = Ok (ILink (b_cid p)) /\ read st (b_cid p) = Some p /\
                exists root, item_link (s "data") (b_val p) = Ok root /\ dget (s "prevData") payload = Some (ILink root)
            | None => item (s "prev") (b_val c) = Ok INull /\ dget (s "prevData") payload = None
            end;
  cm_ops : exists ops shown, b_ops c = Some ops /\ dget (s "ops") payload = Some (IList shown) /\ Forall2 op_shown ops shown;
  cm_blocks : exists car, dget (s "blocks") payload = Some (IBytes car) /\ commit_car c recs car;
  cm_since : dget (s "since") payload = Some INull
}.
End Spec.

(** The commit before the commits [l], the last of which comes first: the creation [c0] before all. *)
Definition commit_before (c0 : block) (l : list (commit_data * records)) : block :=
  match l with [] => c0 | (cd, _) :: _ => cd_commit cd end.
