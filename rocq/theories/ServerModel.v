(** The XRPC methods that use repos (arroba/server.py, arroba/xrpc_repo.py and arroba/xrpc_sync.py).

    Requests arrive through lexrpc, which checks them against the lexicons; here the fields of a
    request have their types, and may be missing. JSON output is what goes into it: CIDs instead of
    their base32 text, records instead of their JSON. *)
From Coq Require Import String List NArith ZArith Bool.
From Verif Require Import Base Lists Ipld MstModel MstClient TidModel BlockModel CarModel StorageModel EventsModel CoverModel UriModel MessageModel.
Import ListNotations.
Local Open Scope m_scope.

(** The REPO_TOKEN environment variable, whether flask is installed, SUPPORTED_COLLECTIONS. *)
Record config := Config { c_token : option str; c_flask : bool; c_supported : list str }.

(** [auth] (server.py:22-29) with the Authorization header of the request. *)
Definition auth (cfg : config) (header : option str) : res unit :=
  match c_token cfg with
  | None | Some [] => Err NotImplementedError
  | Some token =>
      if c_flask cfg && negb (opt_str_eqb (s "Bearer " ++ token) header) then Err ValueError else Ok tt
  end.

(** Input of the methods of xrpc_repo.py; [i_swap] tells whether swapCommit or swapRecord is there. *)
Record input := Input { i_repo : option str; i_collection : option str; i_rkey : option str; i_record : option ipld; i_swap : bool }.
Definition with_rkey (i : input) (rkey : str) := Input (i_repo i) (i_collection i) (Some rkey) (i_record i) (i_swap i).

Definition given (x : option str) : bool := match x with Some (_ :: _) => true | _ => false end.
Definition arg (x : option str) : res str := match x with Some x => Ok x | None => Err KeyError end.

(** [coll and SUPPORTED_COLLECTIONS and coll not in SUPPORTED_COLLECTIONS] *)
Definition unsupported (cfg : config) (coll : option str) : bool :=
  match coll with
  | Some ((_ :: _) as c) => nonempty (c_supported cfg) && negb (mem_str c (c_supported cfg))
  | _ => false
  end.

(** [validate] (xrpc_repo.py:30-42) with the collection argument. *)
Definition validate_input (cfg : config) (i : input) (collection : option str) : res unit :=
  if i_swap i then Err ValueError
  else if negb (given (i_repo i)) then Err ValueError
  else if unsupported cfg collection || unsupported cfg (i_collection i) then Err ValueError
  else Ok tt.

Section Server.
Variable digest : list N -> list N.
Variable kdigest : str -> list N.
Variable validate : ipld -> res unit.
Variable ecdsa : N -> Z -> list N -> list N.
Variable now : Z -> str.
Variable cb : nat -> option exn.
Variable be : backend.
Variable netloc_ok : str -> bool.
Variable cfg : config.

(** [load_repo] (server.py:32-45). *)
Definition server_load (x : str) : M nat :=
  let! did_or_handle :=
    (if starts_with (s "at://") x then let! p := lift (parse_at_uri netloc_ok x) in ret (fst (fst p)) else ret x) in
  let! r := load_repo be did_or_handle in
  match r with
  | None => throw (XrpcError (s "RepoNotFound"))
  | Some r =>
      let! o := obj r in
      match r_status o with
      | Some (_ :: _) => throw (XrpcError (s "RepoDeactivated"))
      | _ => ret r
      end
  end.

(** [repo.did] where a string is needed; at_uri fails for None. *)
Definition did_of (o : repo) : M str := need_did o.

(** [Repo.get_record] on the state. *)
Definition find_record (o : repo) (collection rkey : str) : M (option ipld) :=
  fun st => (st, get_record kdigest st o collection rkey).

(** *** com.atproto.repo *)

(** [put_record] (xrpc_repo.py:145-164): URI and CID. *)
Definition put_record (header : option str) (i : input) : M (str * cid) :=
  lift (validate_input cfg i None);;
  lift (auth cfg header);;
  let! repo := lift (arg (i_repo i)) in
  let! r := server_load repo in
  let! collection := lift (arg (i_collection i)) in
  let! rkey := lift (arg (i_rkey i)) in
  let! o := obj r in
  let! existing := find_record o collection rkey in
  match i_record i with
  | None => throw KeyError
  | Some v =>
      commit digest kdigest validate ecdsa cb be r
        [Write (match existing with None => CREATE | Some _ => UPDATE end) collection rkey (Some v)] None;;
      let! o' := obj r in
      let! did := did_of o' in
      let! uri := lift (at_uri did collection rkey) in
      ret (uri, dag_cbor_cid digest v)
  end.

(** [(input.get('record') or {}).get('$type')]. Simplified: a type that is not a text is an error. *)
Definition record_type (v : option ipld) : res (option str) :=
  match v with
  | Some v =>
      if negb (truthy v) then Ok None
      else match v with
           | IMap m => match dget (s "$type") m with
                       | Some (IText t) => Ok (Some t)
                       | None | Some INull => Ok None
                       | Some _ => Err TypeError
                       end
           | _ => Err AttributeError
           end
  | None => Ok None
  end.

(** [create_record] (xrpc_repo.py:45-55); [tid] is what next_tid gives. *)
Definition create_record (header : option str) (i : input) (tid : str) : M (str * cid) :=
  let! coll := (if given (i_collection i) then ret (i_collection i) else lift (record_type (i_record i))) in
  lift (validate_input cfg i coll);;
  lift (auth cfg header);;
  let! repo := lift (arg (i_repo i)) in
  server_load repo;;
  put_record header (match i_rkey i with Some _ => i | None => with_rkey i tid end).

(** [delete_record] (xrpc_repo.py:78-93). *)
Definition delete_record (header : option str) (i : input) : M unit :=
  lift (validate_input cfg i None);;
  lift (auth cfg header);;
  let! repo := lift (arg (i_repo i)) in
  let! r := server_load repo in
  let! collection := lift (arg (i_collection i)) in
  let! rkey := lift (arg (i_rkey i)) in
  let! o := obj r in
  let! record := find_record o collection rkey in
  match record with
  | None => ret tt
  | Some _ =>
      commit digest kdigest validate ecdsa cb be r [Write DELETE collection rkey None] None;;
      ret tt
  end.

(** [get_record] (xrpc_repo.py:58-75): URI, CID and value. Parameters that are missing are None;
    [Repo.get_record] then looks for a path with the text None. *)
Definition py_str (x : option str) : str := match x with Some x => x | None => s "None" end.
Definition xrpc_get_record (repo collection rkey cid : option str) : M (str * Ipld.cid * ipld) :=
  lift (validate_input cfg (Input repo collection rkey None false) None);;
  (if given cid then throw ValueError else ret tt);;
  let! x := lift (arg repo) in
  let! r := server_load x in
  let! o := obj r in
  let! record := find_record o (py_str collection) (py_str rkey) in
  match record with
  | None => throw (XrpcError (s "RecordNotFound"))
  | Some v =>
      if negb (truthy v) then throw (XrpcError (s "RecordNotFound"))
      else
        let! did := did_of o in
        let! uri := lift (match collection, rkey with Some c, Some k => at_uri did c k | _, _ => Err AssertionError end) in
        ret (uri, dag_cbor_cid digest v, v)
  end.

(** [apply_writes], [upload_blob] (xrpc_repo.py:247-261): the status is part of what they return. *)
Definition apply_writes_method (header : option str) (i : input) : M N :=
  lift (validate_input cfg i None);;
  lift (auth cfg header);;
  ret 501%N.
Definition upload_blob (header : option str) : M N :=
  lift (validate_input cfg (Input None None None None false) None);;
  lift (auth cfg header);;
  ret 501%N.

(** [list_records] (xrpc_repo.py:96-142): the records as URI, CID and value, and the cursor.
    [reverse] also stands for the deprecated rkeyStart and rkeyEnd. *)
Fixpoint record_items (did : str) (st : state) (es : list (str * cid)) : res (list (str * cid * ipld)) :=
  match es with
  | [] => Ok []
  | (k, c) :: r =>
      match read st c with
      | None => Err AttributeError
      | Some b =>
          do rest <- record_items did st r;
          match split_on 47%N k with
          | [coll; rkey] => do uri <- at_uri did coll rkey; Ok ((uri, dag_cbor_cid digest (b_val b), b_val b) :: rest)
          | _ => Err TypeError
          end
      end
  end.

Fixpoint take_while {A} (f : A -> bool) (l : list A) : list A :=
  match l with [] => [] | x :: r => if f x then x :: take_while f r else [] end.

Definition list_entries (st : state) (o : repo) (collection : str) (limit : nat) (cursor : option str) : res (list (str * cid)) :=
  let prefix := collection ++ [47%N] in
  let start := match cursor with Some ((_ :: _) as c) => c | _ => prefix end in
  do ls <- walk_leaves_from kdigest (rd st) max_depth (r_mst o) start;
  Ok (firstn limit (take_while (fun kv => starts_with prefix (fst kv)) ls)).

Definition list_records (repo collection : option str) (limit : nat) (cursor : option str) (reverse : bool)
  : M (list (str * cid * ipld) * option str) :=
  if nonempty (c_supported cfg) && negb (match collection with Some c => mem_str c (c_supported cfg) | None => false end)
  then ret ([], None)
  else
    lift (validate_input cfg (Input repo collection None None false) None);;
    (if reverse then throw ValueError else ret tt);;
    match collection with
    | Some ((_ :: _) as coll) =>
        let! x := lift (arg repo) in
        let! r := server_load x in
        let! o := obj r in
        let! es := (fun st => (st, list_entries st o coll limit cursor)) in
        let! items := (match es with [] => ret [] | _ => let! did := did_of o in (fun st => (st, record_items did st es)) end) in
        if Nat.eqb (length es) limit
        then match rev es with e :: _ => ret (items, Some (fst e)) | [] => throw IndexError end
        else ret (items, None)
    | _ => throw ValueError
    end.

(** [describe_repo] (xrpc_repo.py:167-189); [resolve] is did.resolve: the DID document. *)
Fixpoint str_insert (x : str) (l : list str) : list str :=
  match l with
  | [] => [x]
  | y :: r => match str_cmp x y with Gt => y :: str_insert x r | _ => x :: l end
  end.
Definition str_sort (l : list str) : list str := fold_right str_insert [] l.

Definition describe_repo (resolve : str -> res ipld) (repo : option str) : M (str * option str * ipld * list str) :=
  lift (validate_input cfg (Input repo None None None false) None);;
  let! x := lift (arg repo) in
  let! r := server_load x in
  let! o := obj r in
  let! did := did_of o in
  let! doc := lift (resolve did) in
  let! colls := (if nonempty (c_supported cfg) then ret (str_sort (c_supported cfg))
                 else let! m := (fun st => (st, get_contents kdigest st o)) in ret (map fst m)) in
  ret (did, r_handle o, doc, colls).

(** *** com.atproto.sync *)

(** The head block, [repo.head]. *)
Definition head_of (o : repo) : M block := match r_head o with Some h => ret h | None => throw AttributeError end.

(** [load_all] (mst.py:800-847). The loop takes the nodes of one layer at a time, so fuel is needed
    only for the layers; [load_layer] is one round: blocks yielded, leaves, next [to_fetch]. *)
Fixpoint load_layer (start : Z) (blocks : list (cid * (list N * Z))) : res (list (cid * list N) * list cid * list cid) :=
  match blocks with
  | [] => Ok ([], [], [])
  | (c, (encoded, seq)) :: r =>
      if (seq <? start)%Z then load_layer start r
      else
        match decode encoded with
        | None => Err ValueError
        | Some v =>
            do data <- ipld_ndata v;
            let es := deserialize_node_data data None in
            let vs := flat_map (fun e => match e with Leaf _ x => [x] | Sub _ => [] end) es in
            let ps := flat_map (fun e => match e with Leaf _ _ => [] | Sub m => match m_pointer m with Some p => [p] | None => [] end end) es in
            do rest <- load_layer start r;
            let '(out, leaves, next) := rest in
            Ok ((c, encoded) :: out, vs ++ leaves, ps ++ next)
        end
  end.

Fixpoint load_nodes (fuel : nat) (st : state) (start : Z) (to_fetch : list cid) : res (list (cid * list N) * list cid) :=
  match to_fetch with
  | [] => Ok ([], [])
  | _ =>
      match fuel with
      | O => Err OutOfFuel
      | S f =>
          do blocks <- read_many_raw be st [] to_fetch;
          do x <- load_layer start blocks;
          let '(out, leaves, next) := x in
          do y <- load_nodes f st start next;
          Ok (out ++ fst y, leaves ++ snd y)
      end
  end.

Definition load_all (st : state) (m : mst) (start : Z) : res (list (cid * list N)) :=
  do root <- get_pointer digest m;
  do x <- load_nodes max_depth st start [root];
  do leaf_blocks <- read_many_raw be st [] (snd x);
  Ok (fst x ++ map (fun kv => (fst kv, fst (snd kv))) leaf_blocks).

(** [get_repo] (xrpc_sync.py:45-67). [disabled] is the outcome of the test in lines 58-60, which
    depends on environment, request and clock. *)
Definition get_repo (disabled : bool) (did : str) (since : option str) : M (list N) :=
  let! r := server_load did in
  (if disabled then throw NotImplementedError else ret tt);;
  let! start := (match since with Some ((_ :: _) as t) => lift (tid_to_int t) | _ => ret 0%Z end) in
  let! o := obj r in
  let! h := head_of o in
  let! blocks := (fun st => (st, load_all st (r_mst o) start)) in
  ret (write_car [b_cid h] ((b_cid h, encode (b_val h)) :: blocks)).

(** [get_checkout] (xrpc_sync.py:34-42). *)
Definition get_checkout (disabled : bool) (did : str) : M (list N) := get_repo disabled did None.

(** [get_repo_status] (xrpc_sync.py:70-87): active, and the status if not. *)
Definition get_repo_status (did : str) : M (bool * option str) :=
  fun st => match server_load did st with
            | (st', Ok _) => (st', Ok (true, None))
            | (st', Err (XrpcError n)) =>
                (st', if str_eqb n (s "RepoDeactivated") then Ok (false, Some (s "deactivated")) else Err (XrpcError n))
            | (st', Err e) => (st', Err e)
            end.

(** [load_repos] (storage.py:701-707, datastore_storage.py:683-705) with minimal=True: DID, head and
    status of each repo. *)
Definition minimal := (str * block * option str)%type.
Fixpoint did_insert {A} (x : str * A) (l : list (str * A)) : list (str * A) :=
  match l with
  | [] => [x]
  | y :: r => match str_cmp (fst x) (fst y) with Lt => x :: l | _ => y :: did_insert x r end
  end.
Definition did_sort {A} (l : list (str * A)) : list (str * A) := fold_left (fun acc x => did_insert x acc) l [].
Fixpoint drop_while {A} (f : A -> bool) (l : list A) : list A :=
  match l with [] => [] | x :: r => if f x then drop_while f r else l end.

Fixpoint mem_dids (l : list (str * nat)) : M (list (str * repo)) :=
  match l with
  | [] => ret []
  | (_, r) :: l' =>
      let! o := obj r in
      let! d := need_did o in
      let! rest := mem_dids l' in
      ret ((d, o) :: rest)
  end.

Fixpoint minimal_repos (st : state) (l : list (str * entity)) : res (list minimal) :=
  match l with
  | [] => Ok []
  | (_, e) :: r =>
      match read st (e_head e) with
      | None => Err AttributeError
      | Some h => do d <- item_text (s "did") (b_val h); do rest <- minimal_repos st r; Ok ((d, h, e_status e) :: rest)
      end
  end.

Definition load_repos (limit : nat) (after : option str) : M (list minimal) :=
  match be with
  | Memory =>
      let! l := reads s_mem in
      let! ds := mem_dids l in
      let l1 := did_sort ds in
      let l2 := match after with
                | Some ((_ :: _) as a) => drop_while (fun d => negb (str_ltb a (fst d))) l1
                | _ => l1
                end in
      lift (mapM (fun d => match r_head (snd d) with Some h => Ok (fst d, h, r_status (snd d)) | None => Err AttributeError end) (firstn limit l2))
  | Datastore =>
      fun st =>
        let l := match after with
                 | Some ((_ :: _) as a) => filter (fun ke => str_ltb a (fst ke)) (s_ents st)
                 | _ => s_ents st
                 end in
        (st, minimal_repos st (firstn limit l))
  end.

(** [list_repos] (xrpc_sync.py:90-111): DID, head, rev, active and status of each repo; cursor. *)
Record listed := Listed { l_did : str; l_head : cid; l_rev : str; l_active : bool; l_status : option str }.
Definition list_item (m : minimal) : res listed :=
  let '(did, h, status) := m in
  do rev <- int_to_tid (b_seq h) 0;
  Ok (Listed did (b_cid h) rev (negb (is_some status))
        (match status with
         | Some ((_ :: _) as x) => Some (if str_eqb x (s "tombstoned") then s "deactivated" else x)
         | _ => None
         end)).
Definition list_repos (limit : nat) (cursor : option str) : M (list listed * option str) :=
  let! ms := load_repos limit cursor in
  let! l := lift (mapM list_item ms) in
  if Nat.eqb (length l) limit
  then match rev l with x :: _ => ret (l, Some (l_did x)) | [] => throw IndexError end
  else ret (l, None).

(** [get_blocks] (xrpc_sync.py:166-186); [cid_decode] is multiformats' CID.decode. *)
Definition multibase_error (e : exn) : bool :=
  match e with
  | OtherError n => str_eqb n (s "MultibaseKeyError") || str_eqb n (s "MultibaseValueError")
  | _ => false
  end.
Fixpoint pick_blocks (blocks : list (cid * option block)) (cids : list cid) : res (list (cid * list N)) :=
  match cids with
  | [] => Ok []
  | c :: r =>
      match dget c blocks with
      | None => Err KeyError
      | Some None => Err (XrpcError (s "BlockNotFound"))
      | Some (Some b) => do rest <- pick_blocks blocks r; Ok ((b_cid b, encode (b_val b)) :: rest)
      end
  end.
Definition get_blocks (cid_decode : str -> res cid) (did : str) (cids : list str) : M (list N) :=
  let! r := server_load did in
  let! cs := lift (match mapM cid_decode cids with
                   | Ok cs => Ok cs
                   | Err e => if multibase_error e then Err (XrpcError (s "BlockNotFound")) else Err e
                   end) in
  let! blocks := reads (fun st => read_many st cs) in
  let! car := lift (pick_blocks blocks cs) in
  let! o := obj r in
  let! h := head_of o in
  ret (write_car [b_cid h] car).

(** [get_head], [get_latest_commit] (xrpc_sync.py:189-208). *)
Definition get_head (did : str) : M cid :=
  let! r := server_load did in let! o := obj r in let! h := head_of o in ret (b_cid h).
Definition get_latest_commit (did : str) : M (cid * ipld) :=
  let! r := server_load did in
  let! o := obj r in
  let! h := head_of o in
  let! rev := lift (item (s "rev") (b_val h)) in
  ret (b_cid h, rev).

(** [get_record] (xrpc_sync.py:211-230). The op for the covering proof has the path [collection]. *)
Definition sync_get_record (did collection rkey : str) : M (list N) :=
  let! r := server_load did in
  let! o := obj r in
  let! record := find_record o collection rkey in
  match record with
  | None => throw (XrpcError (s "RecordNotFound"))
  | Some v =>
      assert (truthy v);;
      let! root := lift (get_pointer digest (r_mst o)) in
      let! proofs := (fun st => (st, add_covering_proofs st max_depth root
                                       (Some [CommitOp CREATE collection (Some (dag_cbor_cid digest v)) None]) [])) in
      let! blocks := lift (mapM (fun kv => match snd kv with
                                           | Some b => Ok (cid_of digest (b_val b), encode (b_val b))
                                           | None => Err AttributeError
                                           end) proofs) in
      let! h := head_of o in
      ret (write_car [b_cid h] ((dag_cbor_cid digest v, dag_cbor_encode v) :: (b_cid h, encode (b_val h)) :: blocks))
  end.

(** *** com.atproto.repo.importRepo *)

(** [import_repo] (xrpc_repo.py:192-244). [resolve] is did.resolve, [signing_key] and [handle_of] are
    did.get_signing_key and did.get_handle, [verify] is util.verify_sig, [key] what new_key gives.
    Simplified: the bytes of a block have to be the encoding of a value, since a stored block is its
    value here. *)
Section Import.
Variable resolve : str -> res ipld.
Variable signing_key : ipld -> option (list N).
Variable verify : ipld -> list N -> bool.
Variable handle_of : ipld -> option str.

(** The loop (lines 207-227): the blocks, and the head with its DID and document. *)
Definition import_head := option (block * str * ipld).
Fixpoint import_blocks (head_cid : cid) (blocks : list (cid * list N)) (acc : list block * import_head) : M (list block * import_head) :=
  match blocks with
  | [] => ret acc
  | (c, data) :: r =>
      assert (nonempty data);;
      match decode data with
      | None => throw ValueError
      | Some v =>
          let b := Block c v 0 None None in
          if str_eqb c head_cid then
            let! did := lift (item_text (s "did") v) in
            let! existing := load_repo be did in
            (if is_some existing then throw ValueError else ret tt);;
            let! doc := lift (resolve did) in
            match signing_key doc with
            | None => throw ValueError
            | Some k => if verify v k then import_blocks head_cid r (fst acc ++ [b], Some (b, did, doc)) else throw ValueError
            end
          else import_blocks head_cid r (fst acc ++ [b], snd acc)
      end
  end.

Definition import_repo (header : option str) (car : list N) (key : N) : M unit :=
  lift (auth cfg header);;
  match read_car car with
  | None => throw ValueError
  | Some ([], _) => throw ValueError
  | Some (head_cid :: _, blocks) =>
      let! bh := import_blocks head_cid blocks ([], None) in
      match snd bh with
      | None => throw ValueError
      | Some (h, did, doc) =>
          let own := fun b => Block (b_cid b) (b_val b) (b_seq b) (b_ops b) (Some did) in
          (if nonempty did then ret tt else throw ValueError);;
          write_blocks (map own (fst bh));;
          let! data := lift (item_link (s "data") (b_val h)) in
          let! r := new_obj (Repo (mst_load data) (Some (own h)) (handle_of doc) (Some (s "deactivated")) false key) in
          create_repo be r
      end
  end.
End Import.

End Server.
