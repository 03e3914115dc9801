(** C52: block encoding is faithful and canonical. *)
From Coq Require Import String List NArith ZArith Bool.
From Verif Require Import Base Ipld BlockModel BlockSpec BlockProofs DecodeProofs.
Import ListNotations.

(** Decoding the encoding of any value gives an equal value. *)
Theorem C52_round_trip v : py_value v ->
  exists w, decode (dag_cbor_encode v) = Some w /\ py_eq v w /\ py_value w.
Proof. exact (encode_round_trip v). Qed.
Print Assumptions C52_round_trip.

(** Two values have the same encoding exactly when they are equal; in
    particular the insertion order of dicts does not matter. *)
Theorem C52_canonical v w : py_value v -> py_value w ->
  (dag_cbor_encode v = dag_cbor_encode w <-> py_eq v w).
Proof. exact (encode_canonical v w). Qed.
Print Assumptions C52_canonical.

(** The CID determines the value, for a collision free hash. *)
Theorem C52_cid digest v w :
  (forall a b, digest a = digest b -> a = b) -> py_value v -> py_value w ->
  (dag_cbor_cid digest v = dag_cbor_cid digest w <-> py_eq v w).
Proof. exact (cid_determines digest v w). Qed.
Print Assumptions C52_cid.

(** A block made from the value, from its encoding, or from its encoding and CID
    answers every sequence of property reads in the same way. *)
Theorem C52_views digest v rs b : py_value v ->
  new_block None None (Some v) = Ok b \/
  new_block None (Some (dag_cbor_encode v)) None = Ok b \/
  new_block (Some (dag_cbor_cid digest v)) (Some (dag_cbor_encode v)) None = Ok b ->
  exists xs, read_props digest b rs = Ok xs /\ Forall (sees digest v) xs /\ length xs = length rs.
Proof. exact (block_views digest v rs b). Qed.
Print Assumptions C52_views.

(** Block equality is value equality. *)
Theorem C52_block_eq digest v w a b :
  (forall a b, digest a = digest b -> a = b) -> py_value v -> py_value w ->
  new_block None None (Some v) = Ok a -> new_block None (Some (dag_cbor_encode w)) None = Ok b ->
  exists r, block_eq digest a b = Ok r /\ (r = true <-> py_eq v w).
Proof. exact (block_equality digest v w a b). Qed.
Print Assumptions C52_block_eq.

(** A block made from bytes that were cut short, or that have others behind them, has no value: reading
    it fails, whatever else is read before. *)
Theorem C52_garbage digest c e b rs : new_block c (Some e) None = Ok b -> In RDecoded rs ->
  (exists v p q, p ++ q = dag_cbor_encode v /\ q <> [] /\ e = p) \/ (exists v q, q <> [] /\ e = dag_cbor_encode v ++ q) ->
  read_props digest b rs = Err ValueError.
Proof. exact (block_garbage digest c e b rs). Qed.
Print Assumptions C52_garbage.

(** Not every value can be made into a block: the constructor takes an empty
    dict for a missing argument. *)
Theorem C52_every_value_refuted : exists v, py_value v /\
  new_block None None (Some v) = Err AssertionError /\
  decode (dag_cbor_encode v) = Some v.
Proof. exists (IMap []). split; [split; [constructor|exact I]|]. split; reflexivity. Qed.
Print Assumptions C52_every_value_refuted.

Definition rec1 : ipld :=
  IMap [(s "text", IText (s "hi")); (s "n", IInt (-300)); (s "$type", IText (s "app.bsky.feed.post"));
        (s "sub", IMap [(s "bb", ILink [1%N; 2%N]); (s "a", IList [INull; IBool true])])].
Definition rec2 : ipld :=
  IMap [(s "$type", IText (s "app.bsky.feed.post"));
        (s "sub", IMap [(s "a", IList [INull; IBool true]); (s "bb", ILink [1%N; 2%N])]);
        (s "n", IInt (-300)); (s "text", IText (s "hi"))].

Ltac nodup := repeat (constructor; [simpl; intuition discriminate|]); constructor.
Example rec1_value : py_value rec1.
Proof. simpl. repeat split; try exact I; nodup. Qed.
Example rec2_value : py_value rec2.
Proof. simpl. repeat split; try exact I; nodup. Qed.
Example rec_eq : rec1 <> rec2 /\ py_eq rec1 rec2 /\ dag_cbor_encode rec1 = dag_cbor_encode rec2.
Proof. split; [discriminate|]. split; [simpl; repeat split|reflexivity]. Qed.
Example rec_block : exists b, new_block None None (Some rec1) = Ok b /\
  read_props (fun x => x) b [RCid; RDecoded; REncoded; RCid] =
    Ok [SCid (dag_cbor_cid (fun x => x) rec1); SDecoded rec1;
        SEncoded (dag_cbor_encode rec1); SCid (dag_cbor_cid (fun x => x) rec1)].
Proof. eexists. split; reflexivity. Qed.
Example garbage_block : exists b p, new_block None (Some p) None = Ok b /\ p ++ [105%N] = dag_cbor_encode (IMap [(s "text", IText (s "hi"))]) /\
  exists b', new_block None (Some (dag_cbor_encode (IText (s "hi")) ++ [0%N])) None = Ok b'.
Proof.
  eexists. exists (removelast (dag_cbor_encode (IMap [(s "text", IText (s "hi"))]))). split; [reflexivity|]. split; [reflexivity|].
  eexists. reflexivity.
Qed.
