(** Properties of importRepo (arroba/xrpc_repo.py). *)
From Coq Require Import String List NArith ZArith Bool Lia.
From Verif Require Import Base Lists Ipld MstModel BlockModel CarModel StorageModel StorageSpec RepoSpec RepoExamples MessageExamples
  UriModel EventsModel ServerModel ServerSpec ServerExamples ExportExamples ImportFacts.
Import ListNotations.

(** ** C55 *)

(** What one server exports whole, another server without the repo, on which the DID document and
    the signature of the head check out, imports: its head, contents, and nothing of other repos
    changes. The two servers may differ in everything but the digests. *)
Theorem C55_import : forall digest kdigest validate ecdsa now cb be netloc_ok cfg resolve signing_key verify handle_of, setting digest kdigest validate cb ->
  forall validate1 ecdsa1 now1 cb1 be1 netloc1 cfg1 w1 bk1 x did o1 key1 recs h car w bk header key doc k,
  setting digest kdigest validate1 cb1 -> (forall a, length (digest a) = 32) ->
  serves digest kdigest validate1 ecdsa1 now1 cb1 be1 netloc1 cfg1 w1 bk1 ->
  names be1 netloc1 (w_state w1) x did o1 -> r_status o1 = None -> dget did bk1 = Some (key1, recs) -> r_head o1 = Some h ->
  snd (get_repo digest be1 netloc1 false x None (w_state w1)) = Ok car ->
  serves digest kdigest validate ecdsa now cb be netloc_ok cfg w bk -> dget did bk = None -> auth cfg header = Ok tt ->
  resolve did = Ok doc -> signing_key doc = Some k -> verify (b_val h) k = true -> handle_ok (handle_of doc) ->
  exists st' o' h', import_repo be cfg resolve signing_key verify handle_of header car key (w_state w) = (st', Ok tt) /\
    seen be st' did = Some o' /\ r_head o' = Some h' /\ b_cid h' = b_cid h /\ b_val h' = b_val h /\
    shows kdigest st' o' recs /\ r_status o' = Some (s "deactivated") /\ r_handle o' = handle_of doc /\ r_key o' = key /\
    forall did' key' recs', dget did' bk = Some (key', recs') ->
      exists o, seen be (w_state w) did' = Some o /\ seen be st' did' = Some o /\ shows kdigest st' o recs'.
Proof. exact c55_import. Qed.
Print Assumptions C55_import.

(** An import that fails, of whatever CAR, leaves no repo and changes none. *)
Theorem C55_fails : forall digest kdigest validate ecdsa now cb be netloc_ok cfg resolve signing_key verify handle_of, setting digest kdigest validate cb ->
  forall w bk header car key st' e, serves digest kdigest validate ecdsa now cb be netloc_ok cfg w bk ->
  import_repo be cfg resolve signing_key verify handle_of header car key (w_state w) = (st', Err e) ->
  forall x, seen be st' x = seen be (w_state w) x.
Proof. exact c55_fails. Qed.
Print Assumptions C55_fails.

(** A repo that is already there is not replaced. *)
Theorem C55_exists : forall digest kdigest validate ecdsa now cb be netloc_ok cfg resolve signing_key verify handle_of, setting digest kdigest validate cb ->
  forall w bk header car key h bl did rec, serves digest kdigest validate ecdsa now cb be netloc_ok cfg w bk -> dget did bk = Some rec ->
  auth cfg header = Ok tt -> read_car car = Some ([cid_of digest h], bl) -> In (cid_of digest h) (keys bl) ->
  (forall c data, In (c, data) bl -> exists v, data = encode v /\ c = cid_of digest v) -> item_text (s "did") h = Ok did ->
  snd (import_repo be cfg resolve signing_key verify handle_of header car key (w_state w)) = Err ValueError.
Proof. exact c55_exists. Qed.
Print Assumptions C55_exists.

(** A CAR that getRepo exported with since may lack blocks; it is imported, but then the repo does
    not have the records. *)
Theorem C55_since_refuted : exists digest kdigest validate ecdsa now cb netloc_ok cfg resolve signing_key verify handle_of header key,
  setting digest kdigest validate cb /\ (forall x, length (digest x) = 32) /\
  forall be, exists w1 bk1 did key1 recs o1 rev car st' o',
  serves digest kdigest validate ecdsa now cb be netloc_ok cfg w1 bk1 /\ seen be (w_state w1) did = Some o1 /\ r_status o1 = None /\
  dget did bk1 = Some (key1, recs) /\ snd (get_repo digest be netloc_ok false did (Some rev) (w_state w1)) = Ok car /\
  import_repo be cfg resolve signing_key verify handle_of header car key init_state = (st', Ok tt) /\ seen be st' did = Some o' /\
  ~ shows kdigest st' o' recs.
Proof. exact c55_since. Qed.
Print Assumptions C55_since_refuted.

(** After an import the event log cannot be read from the beginning any more: the blocks have
    sequence number 0. *)
Theorem C25_import_refuted : exists digest kdigest validate ecdsa now cb netloc_ok cfg resolve signing_key verify handle_of header key w1 bk1 did car w bk st' items,
  setting digest kdigest validate cb /\ serves digest kdigest validate ecdsa now cb Memory netloc_ok cfg w1 bk1 /\
  snd (get_repo digest Memory netloc_ok false did None (w_state w1)) = Ok car /\
  serves digest kdigest validate ecdsa now cb Memory netloc_ok cfg w bk /\
  import_repo Memory cfg resolve signing_key verify handle_of header car key (w_state w) = (st', Ok tt) /\
  read_events (w_state w) (mem_blocks_by_seq (w_state w) 0 None) = (items, None) /\ items <> [] /\
  read_events st' (mem_blocks_by_seq st' 0 None) = ([], Some AssertionError).
Proof. exact c25_import. Qed.
Print Assumptions C25_import_refuted.

(** Moving the repo of [ystory] to a server with another repo, from the one storage to the other. *)
Definition imoved (be : backend) : option (option str * res (option ipld) * list (res (option ipld))) :=
  let other := match be with Memory => Datastore | Datastore => Memory end in
  match snd (get_repo wdigest other vnetloc false alice None (w_state (v_world (vrun other ystory)))) with
  | Ok car =>
      match iimport be car (w_state (v_world (vrun be [inl (SCreate bob None None false 2); inr (vput bob (s "k2") 1)]))) with
      | (st', Ok tt) =>
          match seen be st' alice, seen be st' bob with
          | Some o, Some o2 => Some (r_status o, get_record xkdigest st' o2 (s "app.post") (s "k2"),
              map (get_record xkdigest st' o (s "app.post")) [s "k2"; s "l0"; s "m2"; s "n0"; s "x0"])
          | _, _ => None
          end
      | _ => None
      end
  | Err _ => None
  end.
Example C55_example be : imoved be = Some (Some (s "deactivated"), Ok (Some (norm (post 1))),
  [Ok (Some (norm (post 1))); Ok (Some (norm (post 4))); Ok (Some (norm (post 2))); Ok (Some (norm (post 3))); Ok None]).
Proof. destruct be; vm_compute; reflexivity. Qed.
Example C55_fails_example be : exists st', iimport be (s "no car") (vst be) = (st', Err ValueError) /\ vserves be (vend be) vbook.
Proof. eexists. split; [destruct be; reflexivity|exact (vstory_serves be)]. Qed.
