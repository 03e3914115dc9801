(** C78: what a repo names stays readable. *)
From Coq Require Import String List NArith ZArith Bool.
From Verif Require Import Base Lists Ipld MstModel CarModel StorageModel StorageSpec RepoSpec RepoExamples RepoProps MessageExamples EventsModel
  UriModel ServerModel ServerSpec LogSpec LogProps AnySpec AnyExamples FeedSpec FeedProps WholeSpec FullSpec FullFacts FullCheck.
Import ListNotations.

(** ** C78 *)

(** Whatever operations, requests and imports of whole CARs a server has taken, and whatever of it failed: the tree of every
    repo can be read throughout, and its head commit is stored, with a tree that can be read throughout. *)
Theorem C78_trees_partial digest kdigest validate ecdsa now cb be l x o :
  (forall a b, digest a = digest b -> a = b) -> (forall v, validate v = Ok tt -> plain v) -> (forall k, length (kdigest k) = 32) ->
  Forall (act_ok digest) l -> Forall (whole_import digest kdigest) l ->
  let st := w_state (arun digest kdigest validate ecdsa now cb be init_world l) in
  seen be st x = Some o ->
  (exists lv, readable kdigest (rd st) (r_mst o) lv) /\
  forall h, r_head o = Some h -> exists b root lv, read st (b_cid h) = Some b /\ b_val b = b_val h /\
    item_link (s "data") (b_val h) = Ok root /\ readable kdigest (rd st) (mst_load root) lv.
Proof. exact (fun inj pl klen => trees_readable digest kdigest validate ecdsa now cb inj pl klen be l x o). Qed.
Print Assumptions C78_trees_partial.

(** So can the tree of every commit the server made, however old, and that of the commit before it. *)
Theorem C78_commits_partial digest kdigest validate ecdsa now cb be l c b :
  (forall a b, digest a = digest b -> a = b) -> (forall v, validate v = Ok tt -> plain v) -> (forall k, length (kdigest k) = 32) ->
  Forall (act_ok digest) l -> Forall (whole_import digest kdigest) l ->
  let st := w_state (arun digest kdigest validate ecdsa now cb be init_world l) in
  read st c = Some b -> b_seq b <> 0%Z -> commit_keys (b_val b) = true ->
  (exists root lv, item_link (s "data") (b_val b) = Ok root /\ readable kdigest (rd st) (mst_load root) lv) /\
  forall p, item (s "prev") (b_val b) = Ok (ILink p) ->
    exists b' root lv, read st p = Some b' /\ item_link (s "data") (b_val b') = Ok root /\ readable kdigest (rd st) (mst_load root) lv.
Proof. exact (fun inj pl klen => commits_readable digest kdigest validate ecdsa now cb inj pl klen be l c b). Qed.
Print Assumptions C78_commits_partial.

(** DatastoreStorage, with imports of CARs that hold every record they name: every record that the tree of a repo names is
    stored, and [get_record] gives it; for every other path it gives None. It never raises. *)
Theorem C78_records_partial digest kdigest validate ecdsa now cb l x o :
  (forall a b, digest a = digest b -> a = b) -> (forall v, validate v = Ok tt -> plain v) -> (forall k, length (kdigest k) = 32) ->
  Forall (act_ok digest) l -> Forall (whole_import digest kdigest) l -> Forall full_import l ->
  let st := w_state (arun digest kdigest validate ecdsa now cb Datastore init_world l) in
  seen Datastore st x = Some o ->
  exists lv, readable kdigest (rd st) (r_mst o) lv /\ (forall k c, In (k, c) lv -> exists b, read st c = Some b) /\
  forall coll rkey, get_record kdigest st o coll rkey = Ok (match dget (coll ++ 47%N :: rkey) lv with Some c => rd st c | None => None end) /\
    (get_record kdigest st o coll rkey = Ok None <-> dget (coll ++ 47%N :: rkey) lv = None).
Proof. exact (fun inj pl klen => records_stored digest kdigest validate ecdsa now cb inj pl klen l x o). Qed.
Print Assumptions C78_records_partial.

(** And the records of old commits stay stored: of every commit the server made. *)
Theorem C78_history_partial digest kdigest validate ecdsa now cb l c b :
  (forall a b, digest a = digest b -> a = b) -> (forall v, validate v = Ok tt -> plain v) -> (forall k, length (kdigest k) = 32) ->
  Forall (act_ok digest) l -> Forall (whole_import digest kdigest) l -> Forall full_import l ->
  let st := w_state (arun digest kdigest validate ecdsa now cb Datastore init_world l) in
  read st c = Some b -> b_seq b <> 0%Z -> commit_keys (b_val b) = true ->
  exists root lv, item_link (s "data") (b_val b) = Ok root /\ readable kdigest (rd st) (mst_load root) lv /\
    forall k c', In (k, c') lv -> exists b', read st c' = Some b'.
Proof. exact (fun inj pl klen => commit_records digest kdigest validate ecdsa now cb inj pl klen l c b). Qed.
Print Assumptions C78_history_partial.

(** Bob's repo is created and written to; Alice's comes with an import, is activated and gets a record. Both then name
    only records that are stored. *)
Example C78_case : exists car, Forall (act_ok wdigest) (feed_story car) /\ Forall (whole_import wdigest xkdigest) (feed_story car) /\ Forall full_import (feed_story car) /\
  smooth wdigest xkdigest xvalidate xecdsa xnow xcb Datastore init_world (feed_story car) /\
  let st := w_state (aworld Datastore (feed_story car)) in
  named Datastore st alice = Some [(post_key (s "a0"), true); (post_key (s "b2"), true); (post_key (s "c0"), true)] /\
  named Datastore st bob = Some [(post_key (s "k0"), true); (post_key (s "k1"), true)].
Proof. exact full_case. Qed.

(** As stated C78 is false. With MemoryStorage a batch that fails halfway leaves its first write in the tree; the next
    commit is stored with it, so that the head commit names a record that no one has. *)
Theorem C78_memory_refuted : exists digest kdigest validate ecdsa now cb ops did o h root key c, setting digest kdigest validate cb /\ Forall op_named ops /\
  let st := w_state (fst (srun digest kdigest validate ecdsa now cb Memory init_world ops)) in
  seen Memory st did = Some o /\ r_head o = Some h /\ item_link (s "data") (b_val h) = Ok root /\
  get kdigest (rd st) max_depth (mst_load root) key = Ok (Some c) /\ read st c = None.
Proof.
  exists xdigest, xkdigest, xvalidate, xecdsa, xnow, xcb, leak, alice. eexists _, _, _, (post_key (s "k0")), _. split; [exact xsetting|]. split; [apply op_namedb_ok; reflexivity|].
  repeat (split; [vm_compute; reflexivity|]); vm_compute; reflexivity.
Qed.
Print Assumptions C78_memory_refuted.

(** importRepo takes a signed CAR without the records, and then names records that it does not have: getRecord raises
    AttributeError. *)
Theorem C78_stripped_refuted : exists digest kdigest validate ecdsa now cb, forall be, exists l did coll rkey,
  Forall (act_ok digest) l /\ Forall (whole_import digest kdigest) l /\ smooth digest kdigest validate ecdsa now cb be init_world l /\
  let st := w_state (arun digest kdigest validate ecdsa now cb be init_world l) in
  exists o, seen be st did = Some o /\ get_record kdigest st o coll rkey = Err AttributeError.
Proof.
  exists wdigest, xkdigest, xvalidate, xecdsa, xnow, xcb. intros be. destruct (stripped_case be) as (car & H1 & H2 & H3 & o & H4 & _ & H5).
  exists (abob ++ [aimport car]), alice, (s "app.post"), (s "a0"). split; [exact H1|]. split; [exact H2|]. split; [exact H3|]. exists o. split; [exact H4|exact H5].
Qed.
Print Assumptions C78_stripped_refuted.

(** And one without all nodes, as getRepo gives with since: then nothing of the tree can be listed. *)
Theorem C78_torn_refuted : exists digest kdigest validate ecdsa now cb, forall be, exists l did,
  Forall (act_ok digest) l /\ smooth digest kdigest validate ecdsa now cb be init_world l /\
  let st := w_state (arun digest kdigest validate ecdsa now cb be init_world l) in
  exists o, seen be st did = Some o /\ mst_leaves kdigest (rd st) max_depth (r_mst o) = Err AttributeError.
Proof.
  exists wdigest, xkdigest, xvalidate, xecdsa, xnow, xcb. intros be. destruct (torn_case be) as (car & H1 & H3 & o & H4 & H5 & _).
  exists (abob ++ [aimport car]), alice. split; [exact H1|]. split; [exact H3|]. exists o. split; [exact H4|exact H5].
Qed.
Print Assumptions C78_torn_refuted.
