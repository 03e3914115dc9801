(** Properties of the CARs that getRepo and sync.getRecord return (arroba/xrpc_sync.py). *)
From Coq Require Import String List NArith ZArith Bool Lia.
From Verif Require Import Base Lists Ipld MstModel BlockModel CarModel StorageModel StorageSpec RepoSpec RepoExamples MessageSpec MessageExamples
  UriModel ServerModel ServerSpec ServerExamples ExportSpec ExportFacts ExportExamples.
Import ListNotations.

(** ** C40 *)

(** Without since the CAR has exactly the head commit, the nodes and the records of the repo, and is
    all that is needed to read the repo. *)
Theorem C40_whole_repo : forall digest kdigest validate ecdsa now cb be netloc_ok cfg, setting digest kdigest validate cb ->
  (forall a, length (digest a) = 32) ->
  forall w bk x did o key recs since, serves digest kdigest validate ecdsa now cb be netloc_ok cfg w bk ->
  names be netloc_ok (w_state w) x did o -> r_status o = None -> dget did bk = Some (key, recs) -> since = None \/ since = Some [] ->
  exists h root car bl, r_head o = Some h /\ item_link (s "data") (b_val h) = Ok root /\
    snd (get_repo digest be netloc_ok false x since (w_state w)) = Ok car /\ read_car car = Some ([b_cid h], bl) /\
    genuine digest (w_state w) bl /\ (forall c, In c (keys bl) <-> block_of digest (w_state w) h root recs c) /\
    readable digest kdigest (car_reader bl) h root recs.
Proof. intros *. intros SET D32 *. intros S NM R B SI. exact (c40_whole digest kdigest validate ecdsa now cb be netloc_ok cfg SET w bk x did o key recs since S NM R B D32 SI). Qed.
Print Assumptions C40_whole_repo.

(** With the rev of a commit the CAR has all blocks of the repo from then on, and only blocks of the
    repo; who has all older blocks of the repo can read it. Missing: that whoever has the repo as of that
    commit has all older blocks; see [C40_consumer_refuted]. *)
Theorem C40_since_partial : forall digest kdigest validate ecdsa now cb be netloc_ok cfg, setting digest kdigest validate cb ->
  (forall a, length (digest a) = 32) ->
  forall w bk x did o key recs c0 b0 rev, serves digest kdigest validate ecdsa now cb be netloc_ok cfg w bk ->
  names be netloc_ok (w_state w) x did o -> r_status o = None -> dget did bk = Some (key, recs) ->
  read (w_state w) c0 = Some b0 -> b_ops b0 <> None -> item_text (s "rev") (b_val b0) = Ok rev ->
  exists h root car bl, r_head o = Some h /\ item_link (s "data") (b_val h) = Ok root /\
    snd (get_repo digest be netloc_ok false x (Some rev) (w_state w)) = Ok car /\ read_car car = Some ([b_cid h], bl) /\
    genuine digest (w_state w) bl /\ (forall c, In c (keys bl) -> block_of digest (w_state w) h root recs c) /\
    (forall c b, block_of digest (w_state w) h root recs c -> read (w_state w) c = Some b -> (b_seq b0 <= b_seq b)%Z -> In c (keys bl)) /\
    forall have, (forall c b, block_of digest (w_state w) h root recs c -> read (w_state w) c = Some b -> (b_seq b < b_seq b0)%Z -> have c = Some (b_val b)) ->
      readable digest kdigest (with_car bl have) h root recs.
Proof. intros *. intros SET D32 *. intros S NM R B RD OPS RV. exact (c40_since digest kdigest validate ecdsa now cb be netloc_ok cfg SET w bk x did o key recs c0 b0 rev S NM R B D32 RD OPS RV). Qed.
Print Assumptions C40_since_partial.

(** Someone exports a repo, the repo gets one more record, and they export what is new since then:
    they still cannot read the new record, because another repo wrote the same node earlier. *)
Theorem C40_consumer_refuted : exists digest kdigest validate ecdsa now cb netloc_ok cfg, setting digest kdigest validate cb /\ (forall x, length (digest x) = 32) /\
  forall be, exists w1 bk1 q w2 bk2 x did key recs o1 h1 rev o2 h2 root car1 bl1 car2 bl2,
  serves digest kdigest validate ecdsa now cb be netloc_ok cfg w1 bk1 /\ seen be (w_state w1) did = Some o1 /\ r_status o1 = None /\ r_head o1 = Some h1 /\
  item_text (s "rev") (b_val h1) = Ok rev /\
  snd (get_repo digest be netloc_ok false did None (w_state w1)) = Ok car1 /\ read_car car1 = Some ([b_cid h1], bl1) /\
  w_state w2 = fst (serve digest kdigest validate ecdsa cb be netloc_ok cfg q (w_state w1)) /\
  serves digest kdigest validate ecdsa now cb be netloc_ok cfg w2 bk2 /\ seen be (w_state w2) did = Some o2 /\ r_status o2 = None /\ r_head o2 = Some h2 /\
  item_link (s "data") (b_val h2) = Ok root /\ dget did bk2 = Some (key, recs) /\ dget x recs <> None /\
  snd (get_repo digest be netloc_ok false did (Some rev) (w_state w2)) = Ok car2 /\ read_car car2 = Some ([b_cid h2], bl2) /\
  get kdigest (with_car bl2 (car_reader bl1)) max_depth (mst_load root) x <> Ok (option_map (rcid digest) (dget x recs)).
Proof. exact c40_consumer. Qed.
Print Assumptions C40_consumer_refuted.

(** A repo with records in 5 nodes exported whole, and since the commit before its last: without the
    nodes of that commit that are still in use, and the record in them. *)
Definition yexport (be : backend) (since : option str) : option nat :=
  option_map (fun x => length (snd x)) (exported be since alice (w_state (v_world (vrun be ystory)))).
Definition yrev (be : backend) : option str := option_map (fun t => snd (fst t)) (tip be alice (w_state (v_world (vrun be (firstn 4 ystory))))).
Example C40_example be : yexport be None = Some 10 /\ yexport be (yrev be) = Some 7 /\ yrev be <> None /\
  vserves be (v_world (vrun be ystory)) (v_book (vrun be ystory)) /\ dget alice (v_book (vrun be ystory)) = Some (1%N, yrecs).
Proof.
  split; [destruct be; vm_compute; reflexivity|]. split; [destruct be; vm_compute; reflexivity|]. split; [destruct be; vm_compute; discriminate|].
  split; [apply vrun_serves; destruct be; vm_compute; reflexivity|]. destruct be; vm_compute; reflexivity.
Qed.

(** ** C41 *)

(** The CAR is rooted at the head and has the record, the head commit and the root node, besides
    only stored nodes of the repo, and reading the tree from it never gives a wrong answer. Missing:
    that it has all nodes on the way to the record; see [C41_path_refuted]. *)
Theorem C41_record_partial : forall digest kdigest validate ecdsa now cb be netloc_ok cfg, setting digest kdigest validate cb ->
  (forall a, length (digest a) = 32) ->
  forall w bk x did o key recs coll rkey v, serves digest kdigest validate ecdsa now cb be netloc_ok cfg w bk ->
  names be netloc_ok (w_state w) x did o -> r_status o = None -> dget did bk = Some (key, recs) ->
  dget (record_path coll rkey) recs = Some v ->
  exists h root car bl, r_head o = Some h /\ item_link (s "data") (b_val h) = Ok root /\
    snd (sync_get_record digest kdigest be netloc_ok x coll rkey (w_state w)) = Ok car /\ read_car car = Some ([b_cid h], bl) /\
    genuine digest (w_state w) bl /\ (forall c, In c (keys bl) -> block_of digest (w_state w) h root recs c) /\
    In (b_cid h) (keys bl) /\ car_reader bl (rcid digest v) = Some (norm v) /\ In root (keys bl) /\
    forall path y, get kdigest (car_reader bl) max_depth (mst_load root) path = Ok y -> y = option_map (rcid digest) (dget path recs).
Proof. intros *. intros SET D32 *. intros S NM R B DV. exact (c41 digest kdigest validate ecdsa now cb be netloc_ok cfg SET w bk x did o key recs coll rkey v S NM R B D32 DV). Qed.
Print Assumptions C41_record_partial.

(** A record that is not there. *)
Theorem C41_missing : forall digest kdigest validate ecdsa now cb be netloc_ok cfg, setting digest kdigest validate cb ->
  forall w bk x did o key recs coll rkey, serves digest kdigest validate ecdsa now cb be netloc_ok cfg w bk ->
  names be netloc_ok (w_state w) x did o -> r_status o = None -> dget did bk = Some (key, recs) ->
  dget (record_path coll rkey) recs = None ->
  snd (sync_get_record digest kdigest be netloc_ok x coll rkey (w_state w)) = Err (XrpcError (s "RecordNotFound")).
Proof. exact c41_missing. Qed.
Print Assumptions C41_missing.

(** The nodes are those on the way to the name of the collection. Some record exists whose proof
    does not lead to it. *)
Theorem C41_path_refuted : exists digest kdigest validate ecdsa now cb netloc_ok cfg, setting digest kdigest validate cb /\ (forall x, length (digest x) = 32) /\
  forall be, exists w bk did key recs o coll rkey h root car bl,
  serves digest kdigest validate ecdsa now cb be netloc_ok cfg w bk /\ seen be (w_state w) did = Some o /\ r_status o = None /\ r_head o = Some h /\
  item_link (s "data") (b_val h) = Ok root /\ dget did bk = Some (key, recs) /\ dget (record_path coll rkey) recs <> None /\
  snd (sync_get_record digest kdigest be netloc_ok did coll rkey (w_state w)) = Ok car /\ read_car car = Some ([b_cid h], bl) /\
  forall y, get kdigest (car_reader bl) max_depth (mst_load root) (record_path coll rkey) <> Ok y.
Proof. exact c41_collection. Qed.
Print Assumptions C41_path_refuted.

(** For the first record of the repo of [server_example] the proof is enough. *)
Definition vproof (be : backend) : option (res (option cid)) :=
  match tip be alice (vst be), proved be alice (s "app.post") (s "k1") (vst be) with
  | Some (_, _, _, root), Some (_, bl) => Some (get xkdigest (car_reader bl) max_depth (mst_load root) (s "app.post/k1"))
  | _, _ => None
  end.
Example C41_example be : vproof be = Some (Ok (Some (rcid wdigest (post 3)))) /\
  dget (record_path (s "app.post") (s "k1")) (snd (snd (hd (alice, (0%N, [])) vbook))) = Some (post 3).
Proof. split; [destruct be; vm_compute; reflexivity|reflexivity]. Qed.
