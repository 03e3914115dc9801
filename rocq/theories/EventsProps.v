(** C25: the event log; C26: the block store; C53: the restarted scan. *)
From Coq Require Import String List NArith ZArith Bool Sorted.
From Verif Require Import Base Lists Ipld MstModel BlockModel BlockSpec StorageModel StorageSpec RepoSpec RepoExamples
  EventsModel EventsSpec RepoFacts EventsFacts.
Import ListNotations.

(** ** C25 *)

(** Reading the events of a MemoryStorage, from [start] on and for [repo] if given, gives
    exactly one item for each commit and event of the history with such a number, in their
    order. Missing: histories in which callbacks raise or a batch of several writes fails
    halfway. *)
Theorem C25_memory_partial digest kdigest validate ecdsa now cb ops w outs start repo :
  setting digest kdigest validate cb -> history digest kdigest validate ecdsa now cb Memory ops w outs -> (0 <= start)%Z ->
  exists items, read_events (w_state w) (mem_blocks_by_seq (w_state w) start repo) = (items, None) /\
    Forall2 (entry_item ecdsa now (w_state w)) items
      (filter (entry_selected start repo) (log_from digest kdigest validate ecdsa now cb Memory init_world ops)).
Proof. exact (c25_memory digest kdigest validate ecdsa now cb ops w outs start repo). Qed.
Print Assumptions C25_memory_partial.

(** The same for DatastoreStorage, whatever order the queries give to blocks with the same number,
    and however often they die. Missing: histories in which callbacks raise. *)
Theorem C25_datastore_partial digest kdigest validate ecdsa now cb ops w outs start repo query fails :
  setting digest kdigest validate cb -> history digest kdigest validate ecdsa now cb Datastore ops w outs -> (0 <= start)%Z ->
  (forall i cur, enumerates (w_state w) cur repo (query i cur)) ->
  exists items, read_events (w_state w) (scan query fails start) = (items, None) /\
    Forall2 (entry_item ecdsa now (w_state w)) items
      (filter (entry_selected start repo) (log_from digest kdigest validate ecdsa now cb Datastore init_world ops)).
Proof. exact (c25_datastore digest kdigest validate ecdsa now cb ops w outs start repo query fails). Qed.
Print Assumptions C25_datastore_partial.

(** The numbers of the commits and events strictly increase. *)
Theorem C25_order digest kdigest validate ecdsa now cb be ops w outs :
  setting digest kdigest validate cb -> history digest kdigest validate ecdsa now cb be ops w outs ->
  StronglySorted Z.lt (map entry_seq (log_from digest kdigest validate ecdsa now cb be init_world ops)) /\
  forall e, In e (log_from digest kdigest validate ecdsa now cb be init_world ops) -> (0 < entry_seq e < s_next (w_state w))%Z.
Proof. exact (c25_order digest kdigest validate ecdsa now cb be ops w outs). Qed.
Print Assumptions C25_order.

(** The type of an event without the prefix, or the number of blocks of a commit. *)
Definition item_kind (i : eitem) : str + nat :=
  match i with
  | EEvent v => inl (match item_text (s "$type") v with Ok t => skipn 32 t | Err _ => [] end)
  | ECommit cd => inr (length (cd_blocks cd))
  end.

Example C25_ex : let st := w_state (after Memory story) in
  map entry_seq (log_from xdigest xkdigest xvalidate xecdsa xnow xcb Memory init_world story)
    = [1; 2; 3; 4; 5; 6; 7; 8; 9; 10; 11; 13]%Z /\
  map item_kind (fst (read_events st (mem_blocks_by_seq st 0 None)))
    = [inr 2; inl (s "identity"); inl (s "account"); inl (s "sync"); inr 2; inl (s "identity"); inl (s "account"); inl (s "sync");
       inr 6; inr 4; inr 3; inl (s "account")] /\
  map item_kind (fst (read_events st (mem_blocks_by_seq st 4 (Some bob))))
    = [inr 2; inl (s "identity"); inl (s "account"); inl (s "sync"); inr 3; inl (s "account")].
Proof. cbv zeta. split; [vm_compute; reflexivity|]. split; vm_compute; reflexivity. Qed.

(** The initial commits of both repos share the empty tree; the second one still carries it. *)
Example C25_shared_ex : let st := w_state (after Memory story) in
  match nth_error (fst (read_events st (mem_blocks_by_seq st 5 None))) 0 with
  | Some (ECommit cd) => map (fun cb => b_seq (snd cb)) (cd_blocks cd) = [5; 1]%Z
  | _ => False
  end.
Proof. vm_compute. reflexivity. Qed.

(** The claim needs that validation keeps out records that pose as events: with a validator that
    accepts every record, as lexrpc does for types it does not know, one commit of such a record
    gives an event that nobody wrote. *)
Definition pose : list sop :=
  [SCreate alice None None false 1;
   SCommit 0 [Write CREATE (s "app.post") (s "k0")
                (Some (IMap [(s "$type", IText (s "com.atproto.sync.subscribeRepos#account")); (s "did", IText bob)]))]].
Theorem C25_refuted : exists digest kdigest validate ecdsa now cb ops, (forall k, length (kdigest k) = 32) /\
  (forall a b, digest a = digest b -> a = b) /\ (forall n, cb n = None) /\ Forall op_named ops /\ forall be,
  let '(w, outs) := srun digest kdigest validate ecdsa now cb be init_world ops in
  map entry_seq (log_from digest kdigest validate ecdsa now cb be init_world ops) = [1; 2; 3; 4; 5]%Z /\
  exists items v, read_events (w_state w) (mem_blocks_by_seq (w_state w) 0 None) = (items, None) /\
    length items = 6 /\ nth_error items 4 = Some (EEvent v) /\ item_text (s "did") v = Ok bob.
Proof.
  exists xdigest, xkdigest, (fun _ => Ok tt), xecdsa, xnow, xcb, pose.
  split; [exact (proj1 xsetting)|]. split; [exact (fun a b H => H)|]. split; [reflexivity|]. split; [apply op_namedb_ok; reflexivity|].
  intros be.
  pose (st be := w_state (fst (srun xdigest xkdigest (fun _ => Ok tt) xecdsa xnow xcb be init_world pose))).
  pose (g be := read_events (st be) (mem_blocks_by_seq (st be) 0 None)).
  destruct (srun xdigest xkdigest (fun _ => Ok tt) xecdsa xnow xcb be init_world pose) as [w outs] eqn:E.
  assert (W : w_state w = st be) by (unfold st; rewrite E; reflexivity). rewrite W. clear E W.
  split; [destruct be; vm_compute; reflexivity|].
  exists (fst (g be)), (match nth_error (fst (g be)) 4 with Some (EEvent v) => v | _ => INull end).
  split; [destruct be; vm_compute; reflexivity|]. split; [destruct be; vm_compute; reflexivity|].
  split; destruct be; vm_compute; reflexivity.
Qed.
Print Assumptions C25_refuted.

(** ** C26 *)

(** Whatever is written later, a stored block stays as it is: content, sequence number, repo. *)
Theorem C26_kept digest be ops st c b : read st c = Some b -> read (brun digest be st ops) c = Some b.
Proof. exact (brun_kept digest be ops st c b). Qed.
Print Assumptions C26_kept.

(** A successful [write] makes the value readable under its CID, as the block that was there
    before or else as a new block with the given number and repo; other CIDs are not touched.
    A failed one changes nothing. *)
Theorem C26_write digest be st did v seq st' out : bstep digest be st (BWrite did v seq) = (st', out) ->
  let n := match seq with Some n => n | None => s_next st end in
  let c := cid_of digest (norm v) in
  match out with
  | Ok r => (forall k, k <> c -> read st' k = read st k) /\
      read st' c = Some (match read st c with Some old => old | None => mk_block digest v did n None end) /\
      exists b, r = Some b /\ (be = Memory -> b = mk_block digest v did n None) /\ (be = Datastore -> read st' c = Some b)
  | Err _ => forall k, read st' k = read st k
  end.
Proof. exact (bstep_write digest be st did v seq st' out). Qed.
Print Assumptions C26_write.

(** [write_blocks] makes every given block readable, and stores nothing else. *)
Theorem C26_write_blocks digest be st bs st' out : bstep digest be st (BWriteBlocks bs) = (st', out) ->
  out = Ok None /\ (forall c b, read st c = Some b -> read st' c = Some b) /\
  (forall b, In b bs -> exists x, read st' (b_cid b) = Some x) /\
  (forall c x, read st' c = Some x -> read st c = Some x \/ (read st c = None /\ In x bs /\ b_cid x = c)) /\
  s_next st' = s_next st.
Proof. exact (bstep_write_blocks digest be st bs st' out). Qed.
Print Assumptions C26_write_blocks.

(** [has], [read], [read_many] and [read_many_raw] agree. *)
Theorem C26_has st c : has st c = true <-> exists b, read st c = Some b.
Proof. exact (has_ok st c). Qed.
Print Assumptions C26_has.
Theorem C26_read_many st cids c : dget c (read_many st cids) = if mem_str c cids then Some (read st c) else None.
Proof. exact (read_many_ok st cids c). Qed.
Print Assumptions C26_read_many.
Theorem C26_read_many_raw be st cids : (be = Memory -> forall c, In c cids -> read st c <> None) ->
  exists d, read_many_raw be st [] cids = Ok d /\
    forall c, dget c d = match (if mem_str c cids then read st c else None) with
                         | Some b => Some (encode (b_val b), b_seq b)
                         | None => None
                         end.
Proof. exact (read_many_raw_ok be st cids []). Qed.
Print Assumptions C26_read_many_raw.

(** With MemoryStorage, [read_many_raw] fails on a CID that is not stored, for which it
    should give None. *)
Theorem C26_read_many_raw_refuted : exists st cids, In (s "x") cids /\ read st (s "x") = None /\
  read_many_raw Memory st [] cids = Err AttributeError.
Proof. exists init_state, [s "x"]. repeat split. left. reflexivity. Qed.
Print Assumptions C26_read_many_raw_refuted.

(** No operation of a history loses or rewrites a block, and every block is stored under the CID
    of its content. *)
Theorem C26_history digest kdigest validate ecdsa now cb be (SET : setting digest kdigest validate cb) ops w outs op w' out c b :
  history digest kdigest validate ecdsa now cb be ops w outs -> op_named op ->
  sstep digest kdigest validate ecdsa now cb be w op = (w', out) ->
  read (w_state w) c = Some b -> read (w_state w') c = Some b.
Proof. exact (c26_kept digest kdigest validate ecdsa now cb be SET ops w outs op w' out c b). Qed.
Print Assumptions C26_history.
Theorem C26_content digest kdigest validate ecdsa now cb be (SET : setting digest kdigest validate cb) ops w outs c b :
  history digest kdigest validate ecdsa now cb be ops w outs -> read (w_state w) c = Some b ->
  b_cid b = c /\ c = cid_of digest (b_val b) /\ (0 < b_seq b < s_next (w_state w))%Z.
Proof. exact (c26_cid digest kdigest validate ecdsa now cb be SET ops w outs c b). Qed.
Print Assumptions C26_content.

(** Writing a stored value again with another number and repo. *)
Definition rewrites : list bop :=
  [BWrite (Some alice) (post 1) None; BWriteBlocks [mk_block xdigest (post 2) (Some bob) 7 None; mk_block xdigest (post 1) (Some bob) 7 None];
   BWrite (Some bob) (post 1) (Some 9%Z); BAllocate; BWrite None (post 3) None].
Example C26_ex be : let st := brun xdigest be init_state rewrites in
  map (fun v => option_map (fun b => (b_seq b, b_repo b)) (read st (cid_of xdigest (norm v)))) [post 1; post 2; post 3; post 4]
  = [Some (1%Z, Some alice); Some (7%Z, Some bob); Some (3%Z, None); None].
Proof. destruct be; vm_compute; reflexivity. Qed.

(** ** C53 *)

(** However often the query dies, and after however many rows each time, the scan gives
    every block from [start] on exactly once, in the order of their numbers. *)
Theorem C53_scan st start repo query fails : (forall k b, read st k = Some b -> b_cid b = k) ->
  (forall i cur, enumerates st cur repo (query i cur)) -> (0 <= start)%Z ->
  exists bs, scan query fails start = Ok bs /\ enumerates st start repo bs.
Proof. intros CK. exact (scan_ok st start repo CK query fails). Qed.
Print Assumptions C53_scan.

(** Three dying queries over the story, with blocks of the same number in two orders. *)
Definition flip_query (st : state) (repo : option str) (i : nat) (cur : Z) : list block :=
  let bl := if Nat.even i then map snd (s_blocks st) else rev (map snd (s_blocks st)) in
  seq_sort (filter (in_range cur repo) bl).
Lemma flip_enumerates st repo i cur : keyed_store st -> enumerates st cur repo (flip_query st repo i cur).
Proof. exact (flip_ok st repo i cur). Qed.
Example C53_ex : let st := w_state (after Datastore story) in
  exists bs, scan (flip_query st None) [4; 9; 2; 0] 2 = Ok bs /\
    map b_seq bs = [2; 3; 4; 5; 6; 7; 8; 9; 9; 9; 9; 9; 9; 10; 10; 10; 10; 11; 11; 11; 13]%Z.
Proof. eexists. split; vm_compute; reflexivity. Qed.
Example C25_datastore_ex : let st := w_state (after Datastore story) in
  map item_kind (fst (read_events st (scan (flip_query st (Some bob)) [3; 1; 0; 2] 4)))
  = [inr 2; inl (s "identity"); inl (s "account"); inl (s "sync"); inr 3; inl (s "account")].
Proof. vm_compute. reflexivity. Qed.
