(** C84: requests do to the storage what loads and commits do; hence C66 and C69 with requests. C20, C26, C35 and C70 for requests. *)
From Coq Require Import String List NArith ZArith Bool.
From Verif Require Import Base Lists Ipld MstModel CarModel StorageModel StorageSpec RepoSpec RepoExamples UriModel ServerModel ServerSpec ServerExamples EventsModel EventsSpec
  MessageModel MessageSpec MessageExamples ReplicaSpec FireModel FireSpec StreamSpec StreamProofs RelaySpec RelayExamples RequestSpec RequestProofs RequestFacts RequestOps RequestMessages RequestKept RequestExamples MstClient WarySpec WaryProofs.
Import ListNotations.

(** ** C84 *)

(** Whatever the request and the state: its effect is that of loads and at most one commit of one write. *)
Theorem C84_request digest kdigest validate ecdsa now cb be netloc_ok cfg q st refs : exists ops outs extra,
  srun digest kdigest validate ecdsa now cb be (World st refs) ops =
    (World (fst (serve digest kdigest validate ecdsa cb be netloc_ok cfg q st)) (refs ++ extra), outs) /\
  Forall request_op ops /\ (length (filter is_commit ops) <= 1)%nat.
Proof. exact (request_is digest kdigest validate ecdsa now cb be netloc_ok cfg q st refs). Qed.
Print Assumptions C84_request.

Example C84_request_case : forall be, let w := vbefore be in
  w_state (fst (srun wdigest xkdigest xvalidate xecdsa xnow xcb be w (vput_ops (length (w_refs w))))) = fst (vserve be (vput alice (s "k1") 2) (w_state w)).
Proof. exact vput_run. Qed.

(** So every state of a server is that of a history of storage operations, with the same repos. *)
Theorem C84_server digest kdigest validate ecdsa now cb be netloc_ok cfg w bk : setting digest kdigest validate cb ->
  serves digest kdigest validate ecdsa now cb be netloc_ok cfg w bk ->
  exists ops w2 outs, history digest kdigest validate ecdsa now cb be ops w2 outs /\ covers w w2 /\
    forall did, match dget did bk, dget did (book_of [] ops outs) with
    | Some (key, recs), Some (key', recs') => key = key' /\ forall p, option_map norm (dget p recs) = option_map norm (dget p recs')
    | None, None => True
    | _, _ => False
    end.
Proof. exact (server_is digest kdigest validate ecdsa now cb be netloc_ok cfg w bk). Qed.
Print Assumptions C84_server.

Example C84_server_case : forall be, setting wdigest xkdigest xvalidate xcb /\ vserves be (vend be) vbook.
Proof. intros be. split; [exact wsetting|apply vstory_serves]. Qed.

(** ** C66, with requests *)
Theorem C66_requests_memory digest kdigest validate ecdsa now cb netloc_ok cfg btime w1 bk1 w bk cs :
  setting digest kdigest validate cb -> (forall x, length (digest x) = 32%nat) ->
  serves digest kdigest validate ecdsa now cb Memory netloc_ok cfg w1 bk1 -> goes_on digest kdigest validate ecdsa now cb Memory netloc_ok cfg w1 bk1 w bk ->
  copied Memory (w_state w1) bk1 cs ->
  exists items msgs cs', read_events (w_state w) (mem_blocks_by_seq (w_state w) (s_next (w_state w1)) None) = (items, None) /\
    Forall2 (fun i m => process_event btime (w_state w) i None = Ok m) items msgs /\
    take_all digest kdigest cs msgs = Some cs' /\ copied Memory (w_state w) bk cs'.
Proof. exact (fun SET DL => served_memory digest kdigest validate ecdsa now cb netloc_ok cfg SET DL btime w1 bk1 w bk cs). Qed.
Print Assumptions C66_requests_memory.

Theorem C66_requests_datastore digest kdigest validate ecdsa now cb netloc_ok cfg btime w1 bk1 w bk cs query fails :
  setting digest kdigest validate cb -> (forall x, length (digest x) = 32%nat) ->
  serves digest kdigest validate ecdsa now cb Datastore netloc_ok cfg w1 bk1 -> goes_on digest kdigest validate ecdsa now cb Datastore netloc_ok cfg w1 bk1 w bk ->
  (forall i cur, enumerates (w_state w) cur None (query i cur)) -> copied Datastore (w_state w1) bk1 cs ->
  exists items msgs cs', read_events (w_state w) (scan query fails (s_next (w_state w1))) = (items, None) /\
    Forall2 (fun i m => process_event btime (w_state w) i None = Ok m) items msgs /\
    take_all digest kdigest cs msgs = Some cs' /\ copied Datastore (w_state w) bk cs'.
Proof. exact (fun SET DL => served_datastore digest kdigest validate ecdsa now cb netloc_ok cfg SET DL btime w1 bk1 w bk cs query fails). Qed.
Print Assumptions C66_requests_datastore.

(** The consumer has alice's first two records; then requests replace one, delete one, and add two. *)
Example C66_requests_case : forall be, setting wdigest xkdigest xvalidate xcb /\ (forall x, length (wdigest x) = 32%nat) /\
  (let x := vrun be (firstn 4 vstory) in let y := vrun be (firstn 4 vstory ++ skipn 4 vstory) in
   vserves be (v_world x) (v_book x) /\ vgoes be (v_world x) (v_book x) (v_world y) (v_book y)) /\
  vrecords (vfirst be) = Some [(alice, [(s "app.post/k0", norm (post 1)); (s "app.post/k1", norm (post 2))]); (bob, [])] /\
  vrecords (vtaken be vstory (s_next (w_state (v_world (vrun be (firstn 4 vstory))))) (vfirst be)) =
    Some [(alice, [(s "app.post/k1", norm (post 3)); (s "app.post/k2", norm (post 4)); (s "app.post/k3", norm (post 5))]); (bob, [])].
Proof.
  intros be. split; [exact wsetting|]. split; [exact wdigest_length|]. split; [|split; [apply vfirst_records|apply vthen_records]].
  split; [apply vrun_serves, vfine4|apply vrun_goes, vfine].
Qed.

(** ** C69, with requests *)
Theorem C69_requests_memory digest kdigest validate ecdsa now cb netloc_ok cfg btime code cf i c out0 f1 l f2 out w1 bk1 w bk cs items :
  setting digest kdigest validate cb -> (forall x, length (digest x) = 32%nat) ->
  serves digest kdigest validate ecdsa now cb Memory netloc_ok cfg w1 bk1 -> goes_on digest kdigest validate ecdsa now cb Memory netloc_ok cfg w1 bk1 w bk ->
  copied Memory (w_state w1) bk1 cs -> c = s_next (w_state w1) ->
  read_events (w_state w) (mem_blocks_by_seq (w_state w) c None) = (items, None) ->
  (0 < rollback_window cf)%nat -> reached cf steady f1 -> thread f1 i (SNew (Some c)) out0 ->
  (exists x, In x (collected f1) /\ (c <= e_seq x)%Z) -> run cf f1 (SStep i :: l) = Some f2 ->
  along cf (fun f a => steady f a /\ undisturbed cf i f a /\ calm cf i f a) f1 (SStep i :: l) ->
  throughout cf (timely cf i (length (f_sent f1))) f1 (SStep i :: l) -> up_to_date f2 -> thread f2 i (SLive []) out ->
  streams code btime (w_state w) items c (f_log f2) ->
  exists msgs cs', out = out0 ++ map (fun m => MEvent (to_event code m)) msgs /\
    Forall2 (fun i m => process_event btime (w_state w) i None = Ok m) items msgs /\
    take_all digest kdigest cs msgs = Some cs' /\ copied Memory (w_state w) bk cs'.
Proof. exact (fun SET DL => streamed_memory digest kdigest validate ecdsa now cb netloc_ok cfg SET DL btime code cf i c out0 f1 l f2 out w1 bk1 w bk cs items). Qed.
Print Assumptions C69_requests_memory.

Theorem C69_requests_datastore digest kdigest validate ecdsa now cb netloc_ok cfg btime code query fails cf i c out0 f1 l f2 out w1 bk1 w bk cs items :
  setting digest kdigest validate cb -> (forall x, length (digest x) = 32%nat) ->
  serves digest kdigest validate ecdsa now cb Datastore netloc_ok cfg w1 bk1 -> goes_on digest kdigest validate ecdsa now cb Datastore netloc_ok cfg w1 bk1 w bk ->
  copied Datastore (w_state w1) bk1 cs -> c = s_next (w_state w1) ->
  (forall i cur, enumerates (w_state w) cur None (query i cur)) ->
  read_events (w_state w) (scan query fails c) = (items, None) ->
  (0 < rollback_window cf)%nat -> reached cf steady f1 -> thread f1 i (SNew (Some c)) out0 ->
  (exists x, In x (collected f1) /\ (c <= e_seq x)%Z) -> run cf f1 (SStep i :: l) = Some f2 ->
  along cf (fun f a => steady f a /\ undisturbed cf i f a /\ calm cf i f a) f1 (SStep i :: l) ->
  throughout cf (timely cf i (length (f_sent f1))) f1 (SStep i :: l) -> up_to_date f2 -> thread f2 i (SLive []) out ->
  streams code btime (w_state w) items c (f_log f2) ->
  exists msgs cs', out = out0 ++ map (fun m => MEvent (to_event code m)) msgs /\
    Forall2 (fun i m => process_event btime (w_state w) i None = Ok m) items msgs /\
    take_all digest kdigest cs msgs = Some cs' /\ copied Datastore (w_state w) bk cs'.
Proof. exact (fun SET DL => streamed_datastore digest kdigest validate ecdsa now cb netloc_ok cfg SET DL btime code query fails cf i c out0 f1 l f2 out w1 bk1 w bk cs items). Qed.
Print Assumptions C69_requests_datastore.

(** The run of C69_case, with a request that is refused at the end. *)
Example C69_requests_case : let w1 := wafter (firstn 2 wstory) in let w := wafter wstory in exists bk1 bk cs,
  serves wdigest xkdigest xvalidate xecdsa xnow xcb Datastore vnetloc vcfg w1 bk1 /\ vgoes Datastore w1 bk1 w bk /\ copied Datastore (w_state w1) bk1 cs /\
  s_next (w_state w1) = 6%Z /\ (forall i cur, enumerates (w_state w) cur None (EventsProps.flip_query (w_state w) None i cur)) /\
  read_events (w_state w) (scan (EventsProps.flip_query (w_state w) None) [] 6) = (ritems, None) /\
  reached FireExamples.cf4 steady rf1 /\ thread rf1 0 (SNew (Some 6%Z)) [] /\ (exists x, In x (collected rf1) /\ (6 <= e_seq x)%Z) /\
  run FireExamples.cf4 rf1 (SStep 0 :: rrun) = Some rf2 /\
  along FireExamples.cf4 (fun f a => steady f a /\ undisturbed FireExamples.cf4 0 f a /\ calm FireExamples.cf4 0 f a) rf1 (SStep 0 :: rrun) /\
  throughout FireExamples.cf4 (timely FireExamples.cf4 0 (length (f_sent rf1))) rf1 (SStep 0 :: rrun) /\ up_to_date rf2 /\
  streams frame (fun _ => s "now") (w_state w) ritems 6 (f_log rf2).
Proof.
  destruct rcase as (_ & _ & H1 & H & (cs & C) & A1 & A2 & A3 & A4 & A5 & A6 & A7 & A8 & A9 & A10 & _ & _ & A11). cbv zeta.
  exists (book_of [] (firstn 2 wstory) (snd (wrun (firstn 2 wstory)))), (book_of [] (firstn 2 wstory ++ skipn 2 wstory) (snd (wrun wstory))), cs.
  split; [eapply history_serves; exact H1|]. split; [apply vrefused; eapply history_goes; [exact H1|exact H]|].
  repeat (split; [assumption|]). exact A11.
Qed.

(** ** C20, for requests *)

(** A write that is answered makes one commit of the repo it names. The commit's number is the next one,
    it follows the repo's latest commit, and its operation says what became of the record. Only a deletion
    of a record that is not there commits nothing. *)
Theorem C20_requests digest kdigest validate ecdsa now cb be netloc_ok cfg w bk q st' a x coll rkey v : setting digest kdigest validate cb ->
  serves digest kdigest validate ecdsa now cb be netloc_ok cfg w bk ->
  serve digest kdigest validate ecdsa cb be netloc_ok cfg q (w_state w) = (st', Ok a) -> request_write q = Some (x, coll, rkey, v) ->
  exists did key recs, named_did be netloc_ok (w_state w) x = Some did /\ dget did bk = Some (key, recs) /\
    let old := dget (record_path coll rkey) recs in
    (v = None /\ old = None /\ same_storage (w_state w) st') \/
    ((v <> None \/ old <> None) /\
     exists o o' h h', seen be (w_state w) did = Some o /\ r_head o = Some h /\ seen be st' did = Some o' /\ r_head o' = Some h' /\
       b_seq h' = s_next (w_state w) /\ s_next st' = (s_next (w_state w) + 1)%Z /\
       (exists root, commit_of ecdsa h' did key (Some (b_cid h)) root) /\
       b_ops h' = Some (request_ops (record_path coll rkey) (option_map (rcid digest) old) (option_map (rcid digest) v))).
Proof. exact (fun SET => answered_write digest kdigest validate ecdsa now cb be netloc_ok cfg SET w bk q st' a x coll rkey v). Qed.
Print Assumptions C20_requests.

Example C20_requests_case : forall be, setting wdigest xkdigest xvalidate xcb /\
  (let x := vrun be (firstn 4 vstory) in vserves be (v_world x) (v_book x)) /\
  map (vops be) [3; 4; 5; 9]%nat =
    [Some [(CREATE, s "app.post/k0")]; Some [(CREATE, s "app.post/k1")]; Some [(UPDATE, s "app.post/k1")]; Some [(DELETE, s "app.post/k0")]] /\
  s_next (w_state (v_world (vrun be (firstn 10 vstory)))) = s_next (w_state (v_world (vrun be (firstn 9 vstory)))).
Proof. intros be. split; [exact wsetting|]. split; [apply vrun_serves, vfine4|]. split; [apply vops_all|apply vdel_twice]. Qed.

(** ** C35, for requests *)

(** Every write that is answered, but for the deletion of a record that is not there, has a message: of the
    repo that the request names, with the one op that the request asked for, and with blocks that show
    the record in the tree, or that it is gone. *)
Theorem C35_requests digest kdigest validate ecdsa now cb be netloc_ok cfg btime w bk q st' a x coll rkey v : setting digest kdigest validate cb ->
  (forall x, length (digest x) = 32%nat) -> serves digest kdigest validate ecdsa now cb be netloc_ok cfg w bk ->
  (be = Memory -> (s_next (w_state w) < 2 ^ 55)%Z) ->
  serve digest kdigest validate ecdsa cb be netloc_ok cfg q (w_state w) = (st', Ok a) -> request_write q = Some (x, coll, rkey, v) ->
  exists did key recs, named_did be netloc_ok (w_state w) x = Some did /\ dget did bk = Some (key, recs) /\
    let old := dget (record_path coll rkey) recs in
    let recs' := match v with Some v => dset (record_path coll rkey) v recs | None => ddel (record_path coll rkey) recs end in
    (v = None /\ old = None) \/
    exists o h o' h', seen be (w_state w) did = Some o /\ r_head o = Some h /\ seen be st' did = Some o' /\ r_head o' = Some h' /\
      b_ops h' = Some (request_ops (record_path coll rkey) (option_map (rcid digest) old) (option_map (rcid digest) v)) /\
      forall blocks cdp pre, commit_blocks st' h' blocks -> pre = None \/ pre = Some h ->
        exists header payload, process_event btime st' (ECommit (CommitData h' blocks cdp)) pre = Ok (header, payload) /\
          commit_message digest kdigest st' did (Some h) h' recs' header payload.
Proof. exact (fun SET DL => write_message digest kdigest validate ecdsa now cb be netloc_ok cfg btime SET DL w bk q st' a x coll rkey v). Qed.
Print Assumptions C35_requests.

Example C35_requests_case : forall be, setting wdigest xkdigest xvalidate xcb /\ (forall x, length (wdigest x) = 32%nat) /\
  (let x := vrun be (firstn 4 vstory) in vserves be (v_world x) (v_book x)) /\
  map (vmessage be) [4; 5; 9]%nat =
    [Some (IText alice, IText (s "app.post/k1"), 4%nat); Some (IText alice, IText (s "app.post/k1"), 4%nat); Some (IText alice, IText (s "app.post/k0"), 4%nat)].
Proof. intros be. split; [exact wsetting|]. split; [exact wdigest_length|]. split; [apply vrun_serves, vfine4|apply vmessages]. Qed.

(** ** C26 and C70, with requests *)

(** Whatever operations and requests a server takes, no block is lost or rewritten, and every block is stored
    under the CID of its content. *)
Theorem C26_requests digest kdigest validate ecdsa now cb be netloc_ok cfg w1 bk1 w bk c b : setting digest kdigest validate cb ->
  serves digest kdigest validate ecdsa now cb be netloc_ok cfg w1 bk1 -> goes_on digest kdigest validate ecdsa now cb be netloc_ok cfg w1 bk1 w bk ->
  read (w_state w1) c = Some b ->
  read (w_state w) c = Some b /\ b_cid b = c /\ c = cid_of digest (b_val b) /\ (0 < b_seq b < s_next (w_state w1))%Z.
Proof.
  exact (fun SET S G R => conj (blocks_kept digest kdigest validate ecdsa now cb be netloc_ok cfg SET w1 bk1 w bk c b S G R)
    (blocks_right digest kdigest validate ecdsa now cb be netloc_ok cfg SET w1 bk1 c b S R)).
Qed.
Print Assumptions C26_requests.

Example C26_requests_case : forall be, setting wdigest xkdigest xvalidate xcb /\
  let x := vrun be (firstn 4 vstory) in let y := vrun be (firstn 4 vstory ++ skipn 4 vstory) in
  vserves be (v_world x) (v_book x) /\ vgoes be (v_world x) (v_book x) (v_world y) (v_book y) /\
  exists b, read (w_state (v_world x)) (rcid wdigest (post 1)) = Some b /\ b_seq b = 9%Z.
Proof.
  intros be. split; [exact wsetting|]. cbv zeta. split; [apply vrun_serves, vfine4|]. split; [apply vrun_goes, vfine|].
  destruct be; vm_compute; eauto.
Qed.

(** A client that knows the CID of the head of a repo on a server, and gets any CAR file, reads the commit,
    the records and the contents of the repo, or an error. *)
Theorem C70_requests digest kdigest validate ecdsa now cb be netloc_ok cfg w bk did key recs o0 h car st o : setting digest kdigest validate cb ->
  serves digest kdigest validate ecdsa now cb be netloc_ok cfg w bk -> dget did bk = Some (key, recs) ->
  seen be (w_state w) did = Some o0 -> r_head o0 = Some h -> wary_client digest (b_cid h) car = Some (st, o) ->
  option_map b_val (r_head o) = Some (b_val h) /\
  (forall coll rkey y, get_record kdigest st o coll rkey = Ok y -> y = option_map norm (dget (record_path coll rkey) recs)) /\
  (forall m, get_contents kdigest st o = Ok m ->
     (forall coll rkey, match dget coll m with Some d => dget rkey d | None => None end = option_map norm (dget (record_path coll rkey) recs)) /\
     forall coll, dget coll m <> Some []).
Proof. exact (fun SET => wary_requests digest kdigest validate ecdsa now cb be netloc_ok cfg SET w bk did key recs o0 h car st o). Qed.
Print Assumptions C70_requests.

Example C70_requests_case : forall be, setting wdigest xkdigest xvalidate xcb /\ vserves be (vend be) vbook /\
  exists o0 h car st o, seen be (vst be) alice = Some o0 /\ r_head o0 = Some h /\ wary_client wdigest (b_cid h) car = Some (st, o) /\
    shows xkdigest st o [(s "app.post/k1", post 3); (s "app.post/k2", post 4); (s "app.post/k3", post 5)].
Proof.
  intros be. split; [exact wsetting|]. split; [apply vstory_serves|]. apply vwary.
Qed.
