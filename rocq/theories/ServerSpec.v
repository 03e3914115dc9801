(** What the XRPC methods are supposed to do. *)
From Coq Require Import String List NArith ZArith Bool.
From Verif Require Import Base Lists Ipld MstModel MstSpec StorageModel StorageSpec RepoSpec UriModel ServerModel.
Import ListNotations.

(** The request has the configured token. *)
Definition has_token (cfg : config) (header : option str) : Prop :=
  exists token, c_token cfg = Some token /\ token <> [] /\ header = Some (s "Bearer " ++ token).
(** The same, or there is no flask to look at the header with. *)
Definition authorized (cfg : config) (header : option str) : Prop :=
  exists token, c_token cfg = Some token /\ token <> [] /\ (c_flask cfg = true -> header = Some (s "Bearer " ++ token)).

Definition supported (cfg : config) (coll : str) : Prop := c_supported cfg = [] \/ coll = [] \/ In coll (c_supported cfg).

Definition uri_of (did coll rkey : str) : str := s "at://" ++ did ++ s "/" ++ coll ++ s "/" ++ rkey.

Section Spec.
Variable digest : list N -> list N.
Variable kdigest : str -> list N.
Variable validate : ipld -> res unit.
Variable ecdsa : N -> Z -> list N -> list N.
Variable now : Z -> str.
Variable cb : nat -> option exn.
Variable be : backend.
Variable netloc_ok : str -> bool.
Variable cfg : config.

(** The DID or handle that a repo parameter names: itself, or the first part of an AT URI. *)
Definition repo_name (x : str) : res str :=
  if starts_with (s "at://") x then do p <- parse_at_uri netloc_ok x; Ok (fst (fst p)) else Ok x.

(** The parameter [x] names the repo [did], which is now loaded as [o]. *)
Definition names (st : state) (x did : str) (o : repo) : Prop :=
  exists y, repo_name x = Ok y /\ seen be st y = Some o /\ repo_did o = Ok (Some did).
Definition named_did (st : state) (x : str) : option str :=
  match repo_name x with
  | Ok y => match seen be st y with
            | Some o => match repo_did o with Ok d => d | Err _ => None end
            | None => None
            end
  | Err _ => None
  end.

(** ** Requests for records *)

Inductive request :=
| RCreate (header : option str) (i : input) (tid : str)
| RPut (header : option str) (i : input)
| RDelete (header : option str) (i : input)
| RGet (repo collection rkey cid : option str).

Inductive answer := AUri (uri : str) (c : cid) | ADone | ARecord (uri : str) (c : cid) (v : ipld).

Local Open Scope m_scope.
Definition serve (q : request) : M answer :=
  match q with
  | RCreate header i tid => let! x := create_record digest kdigest validate ecdsa cb be netloc_ok cfg header i tid in ret (AUri (fst x) (snd x))
  | RPut header i => let! x := put_record digest kdigest validate ecdsa cb be netloc_ok cfg header i in ret (AUri (fst x) (snd x))
  | RDelete header i => delete_record digest kdigest validate ecdsa cb be netloc_ok cfg header i;; ret ADone
  | RGet repo collection rkey cid =>
      let! x := xrpc_get_record digest kdigest be netloc_ok cfg repo collection rkey cid in ret (ARecord (fst (fst x)) (snd (fst x)) (snd x))
  end.

(** What a write that was answered puts at which path. *)
Definition request_write (q : request) : option (str * str * str * option ipld) :=
  match q with
  | RCreate _ i tid =>
      match i_repo i, i_collection i, i_record i with
      | Some x, Some coll, Some v => Some (x, coll, match i_rkey i with Some k => k | None => tid end, Some v)
      | _, _, _ => None
      end
  | RPut _ i =>
      match i_repo i, i_collection i, i_rkey i, i_record i with
      | Some x, Some coll, Some k, Some v => Some (x, coll, k, Some v)
      | _, _, _, _ => None
      end
  | RDelete _ i =>
      match i_repo i, i_collection i, i_rkey i with
      | Some x, Some coll, Some k => Some (x, coll, k, None)
      | _, _, _ => None
      end
  | RGet _ _ _ _ => None
  end.

(** The records expected after a request: a book keeps the key and the records of every repo. *)
Definition request_book (st : state) (bk : book) (q : request) (out : res answer) : book :=
  match out, request_write q with
  | Ok _, Some (x, coll, rkey, v) =>
      match named_did st x with
      | Some did =>
          match dget did bk with
          | Some (key, recs) =>
              dset did (key, match v with
                             | Some v => dset (record_path coll rkey) v recs
                             | None => ddel (record_path coll rkey) recs
                             end) bk
          | None => bk
          end
      | None => bk
      end
  | _, _ => bk
  end.

(** A server after any requests and other uses of its storage, with the records expected in every
    repo. *)
Inductive serves : world -> book -> Prop :=
| sv_new : serves init_world []
| sv_storage w bk op w' out : serves w bk -> op_named op -> (be = Memory -> clean_step w op out) ->
    sstep digest kdigest validate ecdsa now cb be w op = (w', out) -> serves w' (book_step bk op out)
| sv_request w bk q st' out : serves w bk -> (be = Memory -> (s_next (w_state w) < 2 ^ 55)%Z) ->
    serve q (w_state w) = (st', out) -> serves (World st' (w_refs w)) (request_book (w_state w) bk q out).

(** Which requests succeed. *)
Definition request_ok (w : world) (bk : book) (q : request) : Prop :=
  match q with
  | RCreate header i _ | RPut header i | RDelete header i =>
      authorized cfg header /\ i_swap i = false /\ (forall c, i_collection i = Some c -> supported cfg c) /\
      exists x coll rkey v did o key recs, request_write q = Some (x, coll, rkey, v) /\ x <> [] /\ names (w_state w) x did o /\ r_status o = None /\
        dget did bk = Some (key, recs) /\
        match v with
        | Some v => repo_key (record_path coll rkey) /\ record_ok validate v /\ (s_next (w_state w) < 2 ^ 55)%Z
        | None => dget (record_path coll rkey) recs <> None -> (s_next (w_state w) < 2 ^ 55)%Z
        end
  | RGet repo collection rkey cid =>
      given cid = false /\ (forall c, collection = Some c -> supported cfg c) /\
      exists x coll k did o key recs, repo = Some x /\ collection = Some coll /\ rkey = Some k /\ x <> [] /\ names (w_state w) x did o /\
        r_status o = None /\ dget did bk = Some (key, recs) /\ dget (record_path coll k) recs <> None
  end.

(** What a request that succeeds returns: the AT URI of the record, its CID, its value. *)
Definition answered (st : state) (bk : book) (q : request) (a : answer) : Prop :=
  match q with
  | RCreate _ _ _ | RPut _ _ => exists x coll rkey v did, request_write q = Some (x, coll, rkey, Some v) /\ named_did st x = Some did /\
      a = AUri (uri_of did coll rkey) (rcid digest v)
  | RDelete _ _ => a = ADone
  | RGet repo collection rkey _ => exists x coll k did key recs v, repo = Some x /\ collection = Some coll /\ rkey = Some k /\
      named_did st x = Some did /\ dget did bk = Some (key, recs) /\ dget (record_path coll k) recs = Some v /\
      a = ARecord (uri_of did coll k) (rcid digest v) (norm v)
  end.

(** ** Listings *)

(** All that listRepos returns if the cursors are followed, from the given cursor. *)
Inductive repo_pages (limit : nat) : option str -> state -> list listed -> Prop :=
| rp_last c st st' l : list_repos be limit c st = (st', Ok (l, None)) -> repo_pages limit c st l
| rp_more c st st' l c' l' : list_repos be limit c st = (st', Ok (l, Some c')) -> repo_pages limit (Some c') st' l' -> repo_pages limit c st (l ++ l').

(** What an entry of the listing says is so. *)
Definition lists (st : state) (x : listed) : Prop :=
  exists o h, seen be st (l_did x) = Some o /\ repo_did o = Ok (Some (l_did x)) /\ r_head o = Some h /\ l_head x = b_cid h /\
    item_text (s "rev") (b_val h) = Ok (l_rev x) /\
    (r_status o = None /\ l_active x = true /\ l_status x = None \/
     r_status o <> None /\ l_active x = false /\ l_status x = Some (s "deactivated")).

(** The responses of listRecords for the collection [coll] of the repo [x] if the cursors are
    followed, from the given cursor. *)
Definition record_item := (str * cid * ipld)%type.
Inductive record_pages (x coll : str) (limit : nat) : option str -> state -> list (list record_item) -> Prop :=
| rc_last c st st' l : list_records digest kdigest be netloc_ok cfg (Some x) (Some coll) limit c false st = (st', Ok (l, None)) ->
    record_pages x coll limit c st [l]
| rc_more c st st' l c' ls : list_records digest kdigest be netloc_ok cfg (Some x) (Some coll) limit c false st = (st', Ok (l, Some c')) ->
    record_pages x coll limit (Some c') st' ls -> record_pages x coll limit c st (l :: ls).

(** All records of a collection in the order of their keys: AT URI, CID and value of each. *)
Definition listing (did coll : str) (recs : records) (items : list record_item) : Prop :=
  exists l : list (str * ipld), ssorted (keys l) /\ (forall rkey v, In (rkey, v) l <-> dget (record_path coll rkey) recs = Some v) /\
    items = map (fun kv => (uri_of did coll (fst kv), rcid digest (snd kv), norm (snd kv))) l.

(** Pages that make up a list, except that every page begins with the last item of the page before. *)
Inductive overlapping {A} : list (list A) -> list A -> Prop :=
| ov_one p : overlapping [p] p
| ov_more p x q ps l : overlapping ((x :: q) :: ps) (x :: l) -> overlapping ((p ++ [x]) :: (x :: q) :: ps) (p ++ x :: l).

(** ** Methods that load the repo that [x] names, called with valid parameters otherwise *)

Inductive uses_repo (x : str) : M unit -> Prop :=
| u_create header i tid : authorized cfg header -> i_repo i = Some x -> x <> [] -> i_swap i = false ->
    (exists c, i_collection i = Some c /\ c <> [] /\ supported cfg c) ->
    uses_repo x (create_record digest kdigest validate ecdsa cb be netloc_ok cfg header i tid;; ret tt)
| u_put header i : authorized cfg header -> i_repo i = Some x -> x <> [] -> i_swap i = false ->
    (forall c, i_collection i = Some c -> supported cfg c) ->
    uses_repo x (put_record digest kdigest validate ecdsa cb be netloc_ok cfg header i;; ret tt)
| u_delete header i : authorized cfg header -> i_repo i = Some x -> x <> [] -> i_swap i = false ->
    (forall c, i_collection i = Some c -> supported cfg c) ->
    uses_repo x (delete_record digest kdigest validate ecdsa cb be netloc_ok cfg header i)
| u_get collection rkey : x <> [] -> (forall c, collection = Some c -> supported cfg c) ->
    uses_repo x (xrpc_get_record digest kdigest be netloc_ok cfg (Some x) collection rkey None;; ret tt)
| u_list coll limit cursor : x <> [] -> coll <> [] -> supported cfg coll ->
    uses_repo x (list_records digest kdigest be netloc_ok cfg (Some x) (Some coll) limit cursor false;; ret tt)
| u_describe resolve : x <> [] -> uses_repo x (describe_repo kdigest be netloc_ok cfg resolve (Some x);; ret tt)
| u_repo disabled since : uses_repo x (get_repo digest be netloc_ok disabled x since;; ret tt)
| u_checkout disabled : uses_repo x (get_checkout digest be netloc_ok disabled x;; ret tt)
| u_blocks cid_decode cids : uses_repo x (get_blocks be netloc_ok cid_decode x cids;; ret tt)
| u_head : uses_repo x (get_head be netloc_ok x;; ret tt)
| u_latest : uses_repo x (get_latest_commit be netloc_ok x;; ret tt)
| u_record collection rkey : uses_repo x (sync_get_record digest kdigest be netloc_ok x collection rkey;; ret tt).

(** ** Methods that change things *)

Inductive mutation :=
| XRecord (q : request)
| XApplyWrites (header : option str) (i : input)
| XUploadBlob (header : option str)
| XImport (resolve : str -> res ipld) (signing_key : ipld -> option (list N)) (verify : ipld -> list N -> bool)
    (handle_of : ipld -> option str) (header : option str) (car : list N) (key : N).

Definition mutate (m : mutation) : M unit :=
  match m with
  | XRecord q => serve q;; ret tt
  | XApplyWrites header i => apply_writes_method cfg header i;; ret tt
  | XUploadBlob header => upload_blob cfg header;; ret tt
  | XImport resolve signing_key verify handle_of header car key =>
      import_repo be cfg resolve signing_key verify handle_of header car key
  end.
(** The Authorization header; None for the method that only reads. *)
Definition header_of (m : mutation) : option (option str) :=
  match m with
  | XRecord (RCreate header _ _) | XRecord (RPut header _) | XRecord (RDelete header _) => Some header
  | XRecord (RGet _ _ _ _) => None
  | XApplyWrites header _ | XUploadBlob header | XImport _ _ _ _ header _ _ => Some header
  end.

(** Nothing but the heap of loaded repo objects differs. *)
Definition same_storage (st st' : state) : Prop :=
  s_next st' = s_next st /\ s_blocks st' = s_blocks st /\ s_mem st' = s_mem st /\ s_ents st' = s_ents st /\ s_calls st' = s_calls st /\
  forall r o, nth_error (s_objs st) r = Some o -> nth_error (s_objs st') r = Some o.
End Spec.
