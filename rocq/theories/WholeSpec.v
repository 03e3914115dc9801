(** Every commit of the log can be told. *)
From Coq Require Import String List NArith ZArith Bool.
From Verif Require Import Base Lists Ipld MstModel MstTree MstRep CarModel StorageModel StorageSpec RepoSpec EventsModel MessageModel MessageSpec UriModel ServerModel AnySpec.
Import ListNotations.

Section Whole.
Variable digest : list N -> list N.
Variable kdigest : str -> list N.

(** A CAR has, with every MST node, the nodes that it links to; and the root in its head commit is that of a tree. *)
Definition links (d : ndata) (c : cid) : Prop := nd_l d = Some c \/ exists e, In e (nd_e d) /\ ed_t e = Some c.
Definition whole_car (car : list N) : Prop :=
  forall h roots bl, read_car car = Some (h :: roots, bl) ->
  (forall p v d c, car_reader bl p = Some v -> ipld_ndata v = Ok d -> links d c -> car_reader bl c <> None) /\
  exists v n t, car_reader bl h = Some v /\ item_link (s "data") v = Ok (tcid digest t) /\
    wf kdigest n t /\ sorted_tree t /\ n <= 128 /\ car_reader bl (tcid digest t) <> None.
Definition whole_import (a : act) : Prop := match a with AImport _ _ _ _ _ _ car _ => whole_car car | _ => True end.

(** An op of a commit and what a message says of it. *)
Definition op_told (op : commit_op) (v : ipld) : Prop :=
  exists m, v = IMap m /\ dget (s "path") m = Some (IText (op_path op)) /\
  dget (s "action") m = Some (IText match op_action op with CREATE => s "create" | UPDATE => s "update" | DELETE => s "delete" end) /\
  dget (s "cid") m = Some (match op_action op, op_cid op with DELETE, _ | _, None => INull | _, Some c => ILink c end) /\
  dget (s "prev") m = match op_action op, op_prev op with CREATE, _ => None | _, None => Some INull | _, Some p => Some (ILink p) end.

Variable ecdsa : N -> Z -> list N -> list N.
Variable st : state.

(** The blocks of the message of the commit [c]: a CAR that is rooted at the commit and has only stored blocks under their
    right CIDs, among them those first written with its number, and that alone answers lookups of the commit's paths
    as the whole storage does. *)
Definition car_told (c : block) (root : cid) (ops : list commit_op) (car : list N) : Prop :=
  exists bl, read_car car = Some ([b_cid c], bl) /\ NoDup (keys bl) /\
    (forall k x, dget k bl = Some x -> exists b, read st k = Some b /\ x = encode (b_val b) /\ k = cid_of digest (b_val b)) /\
    dget (b_cid c) bl = Some (encode (b_val c)) /\
    (forall k b, read st k = Some b -> b_seq b = b_seq c -> dget k bl = Some (encode (b_val b))) /\
    forall op, In op ops -> exists x, get kdigest (rd st) max_depth (mst_load root) (op_path op) = Ok x /\
      get kdigest (car_reader bl) max_depth (mst_load root) (op_path op) = Ok x.

(** The message for an item of the log. *)
Definition message_told (i : eitem) (p : message_parts) : Prop :=
  let '(header, payload) := p in
  dget (s "op") header = Some (IInt 1) /\
  match i with
  | EEvent v => exists m frag, v = IMap m /\ dget (s "$type") m = Some (IText (s "com.atproto.sync.subscribeRepos" ++ frag)) /\
      dget (s "t") header = Some (IText frag) /\ forall k, dget k payload = if str_eqb k (s "$type") then None else dget k m
  | ECommit cd =>
      let c := cd_commit cd in
      exists did key root ops, commit_of ecdsa c did key (cd_prev cd) root /\ b_ops c = Some ops /\
      dget (s "t") header = Some (IText (s "#commit")) /\ dget (s "repo") payload = Some (IText did) /\
      dget (s "seq") payload = Some (IInt (b_seq c)) /\ dget (s "commit") payload = Some (ILink (b_cid c)) /\
      (exists rev, item_text (s "rev") (b_val c) = Ok rev /\ dget (s "rev") payload = Some (IText rev)) /\
      dget (s "since") payload = Some INull /\
      match cd_prev cd with
      | Some q => exists b r, read st q = Some b /\ item_link (s "data") (b_val b) = Ok r /\ dget (s "prevData") payload = Some (ILink r)
      | None => dget (s "prevData") payload = None
      end /\
      (exists shown, dget (s "ops") payload = Some (IList shown) /\ Forall2 op_told ops shown) /\
      exists car, dget (s "blocks") payload = Some (IBytes car) /\ car_told c root ops car
  end.
End Whole.
