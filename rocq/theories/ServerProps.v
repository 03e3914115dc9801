(** Properties of the XRPC methods (arroba/server.py, arroba/xrpc_repo.py, arroba/xrpc_sync.py). *)
From Coq Require Import String List NArith ZArith Bool Lia.
From Verif Require Import Base Lists Ipld MstModel BlockModel CarModel StorageModel StorageSpec RepoSpec EventsModel RepoExamples MessageExamples
  UriModel ServerModel ServerSpec ServerProofs ServerFacts ServerList ServerSync ServerRecords ServerExamples.
Import ListNotations.

(** A server in use: [vend] is one after the requests of [vstory], which fail and succeed as
    [vstory_outs] says; [vbook] has the records of its repos. *)
Example server_example be : vserves be (vend be) vbook /\ setting wdigest xkdigest xvalidate xcb /\
  (exists o, names be vnetloc (w_state (vend be)) (s "al.ice") alice o /\ r_status o = None) /\
  (exists o, names be vnetloc (w_state (vend be)) bob bob o /\ r_status o = Some (s "deactivated")).
Proof. split; [exact (vstory_serves be)|]. split; [exact wsetting|]. split; [exact (vnames be)|exact (vnames_bob be)]. Qed.

(** ** C36 *)

(** For every page size except 1, following the cursors ends, and the pages make up the listing of
    the collection in order, except that every page begins with the last record of the page before.
    Missing: a page size of 1; the reverse order. *)
Theorem C36_pages_partial : forall digest kdigest validate ecdsa now cb be netloc_ok cfg, setting digest kdigest validate cb ->
  forall w bk x did o key recs coll limit, serves digest kdigest validate ecdsa now cb be netloc_ok cfg w bk ->
  names be netloc_ok (w_state w) x did o -> r_status o = None -> dget did bk = Some (key, recs) ->
  x <> [] -> coll <> [] -> supported cfg coll -> (2 <= limit)%nat ->
  exists ps items, record_pages digest kdigest be netloc_ok cfg x coll limit None (w_state w) ps /\ overlapping ps items /\
    listing digest did coll recs items.
Proof. exact c36_pages. Qed.
Print Assumptions C36_pages_partial.
Theorem C36_pages_unique : forall digest kdigest be netloc_ok cfg x coll limit c st ps ps',
  record_pages digest kdigest be netloc_ok cfg x coll limit c st ps -> record_pages digest kdigest be netloc_ok cfg x coll limit c st ps' -> ps = ps'.
Proof. exact record_pages_fun. Qed.
Print Assumptions C36_pages_unique.

(** Three records in pages of 2: k1 and k2, then k2 and k3, then k3. *)
Fixpoint vpages (be : backend) (fuel : nat) (c : option str) (st : state) : list (list str) :=
  match fuel with
  | O => []
  | S f => match list_records wdigest xkdigest be vnetloc vcfg (Some alice) (Some (s "app.post")) 2 c false st with
           | (st', Ok (l, c')) => map (fun i => fst (fst i)) l :: match c' with Some _ => vpages be f c' st' | None => [] end
           | _ => []
           end
  end.
Example C36_example be : vpages be 5 None (vst be) =
  [[uri_of alice (s "app.post") (s "k1"); uri_of alice (s "app.post") (s "k2")];
   [uri_of alice (s "app.post") (s "k2"); uri_of alice (s "app.post") (s "k3")]; [uri_of alice (s "app.post") (s "k3")]].
Proof. destruct be; vm_compute; reflexivity. Qed.

(** With a page size of 1 the listing of a collection with records never ends: every page has the
    same record. *)
Theorem C36_refuted : forall digest kdigest validate ecdsa now cb be netloc_ok cfg, setting digest kdigest validate cb ->
  forall w bk x did o key recs coll rkey, serves digest kdigest validate ecdsa now cb be netloc_ok cfg w bk ->
  names be netloc_ok (w_state w) x did o -> r_status o = None -> dget did bk = Some (key, recs) ->
  x <> [] -> coll <> [] -> supported cfg coll -> dget (record_path coll rkey) recs <> None ->
  ~ exists ps, record_pages digest kdigest be netloc_ok cfg x coll 1 None (w_state w) ps.
Proof. exact c36_stuck. Qed.
Print Assumptions C36_refuted.
Example C36_refuted_example be : ~ exists ps, record_pages wdigest xkdigest be vnetloc vcfg (s "al.ice") (s "app.post") 1 None (w_state (vend be)) ps.
Proof.
  destruct (vnames be) as (o & NM & R).
  refine (C36_refuted _ _ _ _ _ _ be _ _ wsetting _ _ (s "al.ice") alice o 1%N _ (s "app.post") (s "k1") (vstory_serves be) NM R _ _ _ _ _);
    try discriminate; [reflexivity|left; reflexivity|discriminate].
Qed.

(** ** C37 *)

(** Following the cursors of listRepos gives every repo once, in the order of the DIDs; what is said
    of a repo is so (C43). *)
Theorem C37_pages : forall digest kdigest validate ecdsa now cb be netloc_ok cfg, setting digest kdigest validate cb ->
  forall w bk limit, serves digest kdigest validate ecdsa now cb be netloc_ok cfg w bk -> (0 < limit)%nat ->
  exists l, repo_pages be limit None (w_state w) l /\ ssorted (map l_did l) /\
    (forall did, In did (map l_did l) <-> dget did bk <> None) /\ Forall (lists be (w_state w)) l.
Proof. exact c37_pages. Qed.
Print Assumptions C37_pages.
Theorem C37_pages_unique : forall be limit c st l l', repo_pages be limit c st l -> repo_pages be limit c st l' -> l = l'.
Proof. exact repo_pages_fun. Qed.
Print Assumptions C37_pages_unique.

(** Two repos in pages of 1. *)
Example C37_example be : match list_repos be 1 None (vst be) with
  | (st1, Ok ([a], Some c)) =>
      l_did a = alice /\ l_active a = true /\ c = alice /\
      match list_repos be 1 (Some c) st1 with
      | (st2, Ok ([b], Some d)) => l_did b = bob /\ l_status b = Some (s "deactivated") /\ snd (list_repos be 1 (Some d) st2) = Ok ([], None)
      | _ => False
      end
  | _ => False
  end.
Proof. destruct be; vm_compute; repeat split. Qed.

(** ** C38 *)

(** With flask, every method that changes things fails and changes nothing, or the request has the
    token. Missing: without flask. *)
Theorem C38_token_partial : forall digest kdigest validate ecdsa cb be netloc_ok cfg m st st' out header, c_flask cfg = true ->
  mutate digest kdigest validate ecdsa cb be netloc_ok cfg m st = (st', out) -> header_of m = Some header ->
  (st' = st /\ exists e, out = Err e) \/ has_token cfg header.
Proof. exact c38_token. Qed.
Print Assumptions C38_token_partial.
(** Without a configured token they fail in any case. *)
Theorem C38_no_token : forall digest kdigest validate ecdsa cb be netloc_ok cfg m st st' out header,
  c_token cfg = None \/ c_token cfg = Some [] ->
  mutate digest kdigest validate ecdsa cb be netloc_ok cfg m st = (st', out) -> header_of m = Some header -> st' = st /\ exists e, out = Err e.
Proof. exact c38_no_token. Qed.
Print Assumptions C38_no_token.

(** The same request with and without the token. *)
Example C38_example be : exists header header' m m', header_of m = Some header /\ has_token vcfg header /\
  (let x := mutate wdigest xkdigest xvalidate xecdsa xcb be vnetloc vcfg m (vst be) in snd x = Ok tt /\ s_next (fst x) <> s_next (vst be)) /\
  header_of m' = Some header' /\ ~ has_token vcfg header' /\
  snd (mutate wdigest xkdigest xvalidate xecdsa xcb be vnetloc vcfg m' (vst be)) = Err ValueError.
Proof.
  exists vtoken, (Some (s "Bearer tokem")), (XRecord (vput alice (s "k7") 1)),
    (XRecord (RPut (Some (s "Bearer tokem")) (Input (Some alice) (Some (s "app.post")) (Some (s "k7")) (Some (post 1)) false))).
  split; [reflexivity|]. split; [exists (s "token"); split; [reflexivity|split; [discriminate|reflexivity]]|].
  split; [destruct be; vm_compute; split; [reflexivity|discriminate|reflexivity|discriminate]|].
  split; [reflexivity|]. split; [intros (t & [= <-] & _ & H); discriminate|]. destruct be; vm_compute; reflexivity.
Qed.

(** Without flask, nothing looks at the token. *)
Theorem C38_refuted : exists digest kdigest validate ecdsa now cb netloc_ok cfg, setting digest kdigest validate cb /\ forall be, exists w bk m st',
  serves digest kdigest validate ecdsa now cb be netloc_ok cfg w bk /\
  mutate digest kdigest validate ecdsa cb be netloc_ok cfg m (w_state w) = (st', Ok tt) /\ st' <> w_state w /\
  header_of m = Some None /\ ~ has_token cfg None.
Proof. exact c38_flask. Qed.
Print Assumptions C38_refuted.

(** ** C39 *)

(** Which requests succeed and what they return, in every state. *)
Theorem C39_answers : forall digest kdigest validate ecdsa now cb be netloc_ok cfg, setting digest kdigest validate cb ->
  forall w bk q st' out, serves digest kdigest validate ecdsa now cb be netloc_ok cfg w bk ->
  (be = Memory -> (s_next (w_state w) < 2 ^ 55)%Z) ->
  serve digest kdigest validate ecdsa cb be netloc_ok cfg q (w_state w) = (st', out) ->
  (request_ok validate be netloc_ok cfg w bk q <-> exists a, out = Ok a) /\
  (forall a, out = Ok a -> answered digest be netloc_ok (w_state w) bk q a).
Proof. exact c39_request. Qed.
Print Assumptions C39_answers.
(** The repos have the records that the requests and other uses of the storage put there. *)
Theorem C39_map : forall digest kdigest validate ecdsa now cb be netloc_ok cfg, setting digest kdigest validate cb ->
  forall w bk did key recs, serves digest kdigest validate ecdsa now cb be netloc_ok cfg w bk -> dget did bk = Some (key, recs) ->
  exists o, seen be (w_state w) did = Some o /\ repo_did o = Ok (Some did) /\ r_key o = key /\ shows kdigest (w_state w) o recs.
Proof. exact c39_map. Qed.
Print Assumptions C39_map.
(** After a write the record is read; after a delete it is not found. *)
Theorem C39_write_read : forall digest kdigest validate ecdsa now cb be netloc_ok cfg, setting digest kdigest validate cb ->
  forall w bk q st' a x coll rkey v, serves digest kdigest validate ecdsa now cb be netloc_ok cfg w bk ->
  (be = Memory -> (s_next (w_state w) < 2 ^ 55)%Z) ->
  serve digest kdigest validate ecdsa cb be netloc_ok cfg q (w_state w) = (st', Ok a) -> request_write q = Some (x, coll, rkey, v) ->
  exists did, named_did be netloc_ok (w_state w) x = Some did /\
    snd (serve digest kdigest validate ecdsa cb be netloc_ok cfg (RGet (Some did) (Some coll) (Some rkey) None) st')
    = match v with
      | Some v => Ok (ARecord (uri_of did coll rkey) (rcid digest v) (norm v))
      | None => Err (XrpcError (s "RecordNotFound"))
      end.
Proof. exact c39_write_read. Qed.
Print Assumptions C39_write_read.
(** Deleting again succeeds and changes nothing. *)
Theorem C39_delete_again : forall digest kdigest validate ecdsa now cb be netloc_ok cfg, setting digest kdigest validate cb ->
  forall w bk header i st' a x coll rkey, serves digest kdigest validate ecdsa now cb be netloc_ok cfg w bk ->
  (be = Memory -> (s_next (w_state w) < 2 ^ 55)%Z) ->
  serve digest kdigest validate ecdsa cb be netloc_ok cfg (RDelete header i) (w_state w) = (st', Ok a) ->
  request_write (RDelete header i) = Some (x, coll, rkey, None) ->
  exists did, named_did be netloc_ok (w_state w) x = Some did /\ forall header', authorized cfg header' ->
    exists st2, serve digest kdigest validate ecdsa cb be netloc_ok cfg (RDelete header' (Input (Some did) (Some coll) (Some rkey) None false)) st'
      = (st2, Ok ADone) /\ same_storage st' st2.
Proof. exact c39_delete_again. Qed.
Print Assumptions C39_delete_again.
(** getRecord fails with RecordNotFound exactly when the record is absent. Missing: a request for a
    CID, which is not supported. *)
Theorem C39_not_found_partial : forall digest kdigest validate ecdsa now cb be netloc_ok cfg, setting digest kdigest validate cb ->
  forall w bk x did o key recs coll rkey, serves digest kdigest validate ecdsa now cb be netloc_ok cfg w bk ->
  names be netloc_ok (w_state w) x did o -> r_status o = None -> x <> [] -> supported cfg coll -> dget did bk = Some (key, recs) ->
  (snd (serve digest kdigest validate ecdsa cb be netloc_ok cfg (RGet (Some x) (Some coll) (Some rkey) None) (w_state w)) = Err (XrpcError (s "RecordNotFound"))
   <-> dget (record_path coll rkey) recs = None).
Proof. exact c39_not_found. Qed.
Print Assumptions C39_not_found_partial.

Definition vuri (x : res answer) : option str :=
  match x with Ok (AUri u _) => Some u | Ok (ARecord u _ _) => Some u | _ => None end.
Definition vvalue (x : res answer) : option ipld := match x with Ok (ARecord _ _ v) => Some v | _ => None end.
(** createRecord, putRecord of the same record, getRecord. *)
Example C39_example be :
  let created := vserve be (RCreate vtoken (Input (Some (s "al.ice")) (Some (s "app.post")) None (Some (post 8)) false) (s "k8")) (vst be) in
  let put := vserve be (vput alice (s "k8") 9) (fst created) in
  let deleted := vserve be (vdel alice (s "k8")) (fst put) in
  vuri (snd created) = Some (s "at://did:plc:alice/app.post/k8") /\
  vvalue (snd (vserve be (vget alice (s "k8")) (fst created))) = Some (norm (post 8)) /\
  vuri (snd put) = Some (s "at://did:plc:alice/app.post/k8") /\
  vvalue (snd (vserve be (vget alice (s "k8")) (fst put))) = Some (norm (post 9)) /\
  snd deleted = Ok ADone /\ snd (vserve be (vdel alice (s "k8")) (fst deleted)) = Ok ADone /\
  snd (vserve be (vget alice (s "k8")) (fst deleted)) = Err (XrpcError (s "RecordNotFound")).
Proof. destruct be; vm_compute; repeat split. Qed.

(** A request with the CID of the record fails though the record is there. *)
Theorem C39_refuted : exists digest kdigest validate ecdsa now cb netloc_ok cfg, setting digest kdigest validate cb /\ forall be, exists w bk did key recs coll rkey,
  serves digest kdigest validate ecdsa now cb be netloc_ok cfg w bk /\ dget did bk = Some (key, recs) /\ dget (record_path coll rkey) recs <> None /\
  (exists a, snd (serve digest kdigest validate ecdsa cb be netloc_ok cfg (RGet (Some did) (Some coll) (Some rkey) None) (w_state w)) = Ok a) /\
  forall c, c <> [] ->
    snd (serve digest kdigest validate ecdsa cb be netloc_ok cfg (RGet (Some did) (Some coll) (Some rkey) (Some c)) (w_state w)) = Err ValueError.
Proof. exact c39_cid. Qed.
Print Assumptions C39_refuted.

(** ** C42 *)

(** getBlocks returns a CAR with exactly the blocks asked for, in order, if all are stored, and fails
    with BlockNotFound if not. *)
Theorem C42_blocks : forall digest kdigest validate ecdsa now cb be netloc_ok cfg, setting digest kdigest validate cb ->
  forall w bk x did o cid_decode cids cs, serves digest kdigest validate ecdsa now cb be netloc_ok cfg w bk ->
  names be netloc_ok (w_state w) x did o -> r_status o = None -> mapM cid_decode cids = Ok cs ->
  ((forall c, In c cs -> read (w_state w) c <> None) -> (forall a, length (digest a) = 32%nat) ->
     exists h car blocks, r_head o = Some h /\ snd (get_blocks be netloc_ok cid_decode x cids (w_state w)) = Ok car /\
       read_car car = Some ([b_cid h], blocks) /\ map fst blocks = cs /\
       forall c data, In (c, data) blocks -> exists v, c = cid_of digest v /\ data = encode v /\ exists b, read (w_state w) c = Some b /\ b_val b = v) /\
  ((exists c, In c cs /\ read (w_state w) c = None) ->
     snd (get_blocks be netloc_ok cid_decode x cids (w_state w)) = Err (XrpcError (s "BlockNotFound"))).
Proof. exact c42_blocks. Qed.
Print Assumptions C42_blocks.
(** A malformed CID is an error: BlockNotFound if multibase rejects it, otherwise that of CID.decode. *)
Theorem C42_malformed : forall digest kdigest validate ecdsa now cb be netloc_ok cfg, setting digest kdigest validate cb ->
  forall w bk x did o cid_decode cids e, serves digest kdigest validate ecdsa now cb be netloc_ok cfg w bk ->
  names be netloc_ok (w_state w) x did o -> r_status o = None -> mapM cid_decode cids = Err e ->
  snd (get_blocks be netloc_ok cid_decode x cids (w_state w)) = Err (if multibase_error e then XrpcError (s "BlockNotFound") else e).
Proof. exact c42_malformed. Qed.
Print Assumptions C42_malformed.

(** Two of the blocks, one of them twice. *)
Definition vdecode (x : str) : res cid := match x with [] => Err (OtherError (s "MultibaseKeyError")) | _ => Ok x end.
Example C42_example be : match map fst (s_blocks (vst be)) with
  | a :: b :: _ =>
      match snd (get_blocks be vnetloc vdecode alice [b; a; b] (vst be)) with
      | Ok car => match read_car car with Some ([_], l) => map fst l = [b; a; b] | _ => False end
      | Err _ => False
      end /\
      snd (get_blocks be vnetloc vdecode alice [b; s "x"] (vst be)) = Err (XrpcError (s "BlockNotFound")) /\
      snd (get_blocks be vnetloc vdecode alice [b; []] (vst be)) = Err (XrpcError (s "BlockNotFound"))
  | _ => False
  end.
Proof. destruct be; vm_compute; repeat split. Qed.

(** ** C43 *)

(** What getRepoStatus and the errors of the methods say agrees with the stored status; so does
    listRepos (C37_pages). *)
Theorem C43_status : forall digest kdigest validate ecdsa now cb be netloc_ok cfg, setting digest kdigest validate cb ->
  forall w bk x, serves digest kdigest validate ecdsa now cb be netloc_ok cfg w bk ->
  (forall did o, names be netloc_ok (w_state w) x did o -> dget did bk <> None /\
     (r_status o = None /\ snd (get_repo_status be netloc_ok x (w_state w)) = Ok (true, None) \/
      (r_status o = Some (s "deactivated") \/ r_status o = Some (s "tombstoned")) /\
      snd (get_repo_status be netloc_ok x (w_state w)) = Ok (false, Some (s "deactivated")) /\
      forall m, uses_repo digest kdigest validate ecdsa cb be netloc_ok cfg x m -> snd (m (w_state w)) = Err (XrpcError (s "RepoDeactivated")))) /\
  (forall y, repo_name netloc_ok x = Ok y -> y <> [] -> seen be (w_state w) y = None ->
     snd (get_repo_status be netloc_ok x (w_state w)) = Err (XrpcError (s "RepoNotFound")) /\
     (forall m, uses_repo digest kdigest validate ecdsa cb be netloc_ok cfg x m -> snd (m (w_state w)) = Err (XrpcError (s "RepoNotFound"))) /\
     forall did o, dget did bk <> None -> seen be (w_state w) did = Some o -> did <> y /\ r_handle o <> Some y).
Proof. exact c43_status. Qed.
Print Assumptions C43_status.
Example C43_example be :
  snd (get_repo_status be vnetloc (s "al.ice") (vst be)) = Ok (true, None) /\
  snd (get_repo_status be vnetloc bob (vst be)) = Ok (false, Some (s "deactivated")) /\
  snd (get_head be vnetloc bob (vst be)) = Err (XrpcError (s "RepoDeactivated")) /\
  seen be (vst be) (s "did:plc:eve") = None /\
  snd (get_repo_status be vnetloc (s "did:plc:eve") (vst be)) = Err (XrpcError (s "RepoNotFound")).
Proof. destruct be; vm_compute; repeat split. Qed.
