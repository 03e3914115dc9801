(** Remote blobs: AtpRemoteBlob (arroba/datastore_storage.py:398-609), com.atproto.sync.getBlob and
    listBlobs (arroba/xrpc_sync.py:233-278).

    The datastore is a list of entities ordered by key, and queries return that order. Entities are
    copied when they are read and written as a whole, as ndb does with separate contexts. What an HTTP
    request brings is an argument. Of the metadata only the duration is kept, because only it is
    checked; [duration_of] stands for pymediainfo (datastore_storage.py:565-586). [accepts] is lexrpc's
    Server.validate_mime_type, [guess] is mimetypes.guess_type, [int_of] is Python's int on strings. *)
From Coq Require Import String List NArith ZArith Bool.
From Verif Require Import Base Lists Ipld CodecModel UriModel.
Import ListNotations.
Local Open Scope Z_scope.

(** Sizes are in bytes, durations in milliseconds, ages in the unit of the clock
    (datastore_storage.py:50-56). *)
Record blob_config := BlobConfig {
  max_bytes : Z; refetch_age : Z; refetch_types : list str; max_duration : Z; max_key : nat;
  accepts : str -> option (list str) -> bool; guess : str -> option str; int_of : str -> option Z;
  duration_of : list N -> option Z; digest : list N -> list N
}.

(** The entity (datastore_storage.py:410-434). [b_inactive]: status is 'inactive'. *)
Record blob := Blob {
  b_url : option str; b_cid : option str; b_size : option Z; b_mime : str; b_repos : list str;
  b_duration : option Z; b_last : option Z; b_inactive : bool; b_updated : Z
}.
Definition store := list (str * blob).

Definition octets : str := s "application/octet-stream".
Definition new_blob (repos : list str) : blob := Blob None None None octets repos None None false 0.
Definition with_url u b := Blob (Some u) (b_cid b) (b_size b) (b_mime b) (b_repos b) (b_duration b) (b_last b) (b_inactive b) (b_updated b).
Definition with_cid c b := Blob (b_url b) (Some c) (b_size b) (b_mime b) (b_repos b) (b_duration b) (b_last b) (b_inactive b) (b_updated b).
Definition with_size n b := Blob (b_url b) (b_cid b) (Some n) (b_mime b) (b_repos b) (b_duration b) (b_last b) (b_inactive b) (b_updated b).
Definition with_mime m b := Blob (b_url b) (b_cid b) (b_size b) m (b_repos b) (b_duration b) (b_last b) (b_inactive b) (b_updated b).
Definition with_repo r b := Blob (b_url b) (b_cid b) (b_size b) (b_mime b) (b_repos b ++ [r]) (b_duration b) (b_last b) (b_inactive b) (b_updated b).
Definition with_duration d b := Blob (b_url b) (b_cid b) (b_size b) (b_mime b) (b_repos b) (Some d) (b_last b) (b_inactive b) (b_updated b).
Definition with_last t b := Blob (b_url b) (b_cid b) (b_size b) (b_mime b) (b_repos b) (b_duration b) (Some t) (b_inactive b) (b_updated b).
Definition with_inactive i b := Blob (b_url b) (b_cid b) (b_size b) (b_mime b) (b_repos b) (b_duration b) (b_last b) i (b_updated b).
Definition with_updated t b := Blob (b_url b) (b_cid b) (b_size b) (b_mime b) (b_repos b) (b_duration b) (b_last b) (b_inactive b) t.

(** ndb's put: [updated] is auto_now (datastore_storage.py:434). *)
Fixpoint insert_at (k : str) (b : blob) (st : store) : store :=
  match st with
  | [] => [(k, b)]
  | (k', b') :: r =>
      match str_cmp k k' with Lt => (k, b) :: st | Eq => (k, b) :: r | Gt => (k', b') :: insert_at k b r end
  end.
Definition put (now : Z) (k : str) (b : blob) (st : store) : store := insert_at k (with_updated now b) st.

(** What a request brings: an exception, which may be an OSError (all of requests' are), or a
    response. The body is read later, which can fail, too (stream=True). *)
Record response := Response { r_code : N; r_type : option str; r_length : option str; r_body : res (list N) }.
Inductive outcome := NoAnswer (e : exn) (os : bool) | Answer (r : response).

Definition http_error : exn := OtherError (s "requests.HTTPError").
(** Subclasses of requests.RequestException carry its module in their names here. *)
Definition request_error (e : exn) : bool := match e with OtherError n => starts_with (s "requests.") n | _ => false end.

Section Blob.
Variable cf : blob_config.

(** The key: the URL, truncated (datastore_storage.py:463-470). Characters are bytes. *)
Definition key_of (url : str) : str := firstn (max_key cf) url.

(** CID('base58btc', 1, 'raw', digest).encode('base32') (datastore_storage.py:540-541) *)
Definition raw_cid (content : list N) : str :=
  s "b" ++ map lower (b32_encode ([1; 85; 18; 32]%N ++ digest cf content)).

(** The transaction at the beginning of [get_or_create] (datastore_storage.py:473-481). *)
Definition ndb_get_or_insert (now : Z) (k : str) (repos : list str) (st : store) : store * blob :=
  match dget k st with
  | Some b => (st, b)
  | None => (put now k (new_blob repos) st, with_updated now (new_blob repos))
  end.
Definition load (now : Z) (url : str) (repo : option str) (st : store) : store * blob :=
  let k := key_of url in
  let '(st, b) := ndb_get_or_insert now k (match repo with Some r => [r] | None => [] end) st in
  let b := with_url url b in
  match repo with
  | Some r => if existsb (str_eqb r) (b_repos b) then (st, b) else let b := with_repo r b in (put now k b st, with_updated now b)
  | None => (st, b)
  end.

(** mime_type.split('/')[0] *)
Fixpoint major (m : str) : str := match m with [] => [] | c :: r => if is_ch "/" c then [] else c :: major r end.
Definition is_some {A} (o : option A) : bool := match o with Some _ => true | None => false end.

(** The beginning of [maybe_fetch] (datastore_storage.py:497-504): is there something to do? *)
Definition must_fetch (now : Z) (b : blob) : bool :=
  if (is_some (b_cid b) || is_some (b_last b)) && negb (existsb (str_eqb (major (b_mime b))) (refetch_types cf)) then false
  else match b_last b with Some t => negb (now - refetch_age cf <=? t) | None => true end.

(** url = self.url or self.key.id() (datastore_storage.py:506, 597) *)
Definition url_of (k : str) (b : blob) : str := match b_url b with Some ((_ :: _) as u) => u | _ => k end.

(** The request (datastore_storage.py:508-523). [ok] is resp.ok. The entity is put in any case. *)
Definition ok (r : response) : bool := (r_code r <? 400)%N || (600 <=? r_code r)%N.
Definition begin_fetch (now : Z) (b : blob) (o : outcome) : blob * res response :=
  let b := with_last now b in
  let give_up b := if is_some (b_cid b) then b else with_inactive true b in
  match o with
  | NoAnswer e true => (give_up b, Err http_error)
  | NoAnswer e false => (b, Err e)
  | Answer r =>
      let b := if ((r_code r / 100 =? 4)%N || (negb (ok r) && negb (is_some (b_cid b)))) then with_inactive true b else b in
      if ok r then (b, Ok r) else (give_up b, Err http_error)
  end.

(** After the response (datastore_storage.py:525-547): what is put, if anything, and the entity. *)
Definition or_else (x : option str) (y : str) : str := match x with Some ((_ :: _) as m) => m | _ => y end.
Definition type_of (url : str) (r : response) : str := or_else (r_type r) (or_else (guess cf url) octets).
Definition too_big (b : blob) : bool := match b_size b with Some n => negb (n =? 0) && (max_bytes cf <? n) | None => false end.
Definition finish_fetch (url : str) (b : blob) (r : response) : option blob * res blob :=
  let b := with_mime (type_of url r) b in
  let b := match r_length r with
           | Some x => match int_of cf x with Some n => with_size n b | None => b end
           | None => b
           end in
  if too_big b then (Some b, Err ValueError)
  else match r_body r with
       | Err e => (None, Err e)
       | Ok content =>
           let b := with_size (Z.of_nat (length content)) (with_cid (raw_cid content) b) in
           let b := match duration_of cf content with Some d => with_duration d b | None => b end in
           let b := with_inactive false b in
           (Some b, Ok b)
       end.

(** [maybe_fetch] (datastore_storage.py:491-547). *)
Definition maybe_fetch (now : Z) (k : str) (b : blob) (get : str -> outcome) (st : store) : store * res blob :=
  if must_fetch now b then
    let '(b, r) := begin_fetch now b (get (url_of k b)) in
    let st := put now k b st in
    match r with
    | Err e => (st, Err e)
    | Ok r =>
        let '(p, out) := finish_fetch (url_of k b) b r in
        (match p with Some b => put now k b st | None => st end, out)
    end
  else (st, Ok b).

(** [validate] (datastore_storage.py:588-609) *)
Definition validate (b : blob) (max_size : option Z) (accept : option (list str)) : res unit :=
  if negb (accepts cf (b_mime b) accept) then Err ValueError
  else if too_big b then Err ValueError
  else if match b_size b, max_size with Some n, Some m => negb (n =? 0) && negb (m =? 0) && (m <? n) | _, _ => false end then Err ValueError
  else if match b_duration b with Some d => negb (d =? 0) && (max_duration cf <? d) | None => false end then Err ValueError
  else Ok tt.

(** [get_or_create] (datastore_storage.py:436-489) *)
Definition get_or_create (now : Z) (url : str) (repo : option str) (get : str -> outcome) (max_size : option Z)
    (accept : option (list str)) (st : store) : store * res blob :=
  match url with
  | [] => (st, Err AssertionError)
  | _ =>
      let '(st, b) := load now url repo st in
      if b_inactive b then (st, Err http_error)
      else let '(st, r) := maybe_fetch now (key_of url) b get st in
           (st, do b <- r; do _ <- validate b max_size accept; Ok b)
  end.

(** [as_object] (datastore_storage.py:549-563): ref, mimeType and size *)
Definition as_object (b : blob) : option (str * str * option Z) :=
  match b_cid b with Some c => Some (c, b_mime b, b_size b) | None => None end.

(** *** getBlob (xrpc_sync.py:233-257) *)

(** Redirect to a URL, or the ValueError at the end. *)
Fixpoint newer (x : str * blob) (l : store) : store :=
  match l with [] => [x] | y :: r => if b_updated (snd y) <? b_updated (snd x) then x :: l else y :: newer x r end.
Definition by_age (l : store) : store := fold_left (fun acc x => newer x acc) l [].
Fixpoint try_blobs (now : Z) (get : str -> outcome) (l : store) (st : store) : store * res str :=
  match l with
  | [] => (st, Err ValueError)
  | (k, b) :: r =>
      if b_inactive b then try_blobs now get r st
      else match maybe_fetch now k b get st with
           | (st, Ok b) => if b_inactive b then try_blobs now get r st else (st, Ok (url_of k b))
           | (st, Err e) => if request_error e then try_blobs now get r st else (st, Err e)
           end
  end.
Definition has_cid (c : str) (x : str * blob) : bool := match b_cid (snd x) with Some c' => str_eqb c c' | None => false end.
Definition get_blob (now : Z) (get : str -> outcome) (c : str) (st : store) : store * res str :=
  try_blobs now get (by_age (filter (has_cid c) st)) st.

(** *** listBlobs (xrpc_sync.py:260-278) *)

(** [loads] is what server.load_repo does. *)
Definition list_blobs (loads : str -> res unit) (did : str) (since : option str) (limit : nat) (cursor : option str) (st : store) :
    res (list str * option str) :=
  if match since with Some (_ :: _) => true | _ => false end then Err ValueError
  else
    do _ <- loads did;
    let l := filter (fun x => existsb (str_eqb did) (b_repos (snd x))) st in
    let l := match cursor with Some ((_ :: _) as c) => filter (fun x => str_ltb c (fst x)) l | _ => l end in
    let page := firstn limit l in
    let cids := flat_map (fun x => match b_cid (snd x) with Some c => [c] | None => [] end) page in
    if Nat.eqb (length page) limit
    then match rev page with x :: _ => Ok (cids, Some (fst x)) | [] => Err IndexError end
    else Ok (cids, None).

(** *** Several requests at the same time

    A request is cut where other requests may come between: after the transaction, and between the
    two writes of [maybe_fetch]. [fetched] collects the responses. *)
Record call := Call { c_url : str; c_repo : option str; c_max : option Z; c_accept : option (list str) }.
Inductive thread :=
| TFetch (k : str) (c : option call) (b : blob)                  (* None: from [get_blob] *)
| TRead (k : str) (c : option call) (b : blob) (r : response)
| TDone (c : option call) (out : res blob).
Record world := World { w_store : store; w_threads : list thread; w_fetched : list (str * response) }.
Inductive act :=
| ACall (now : Z) (c : call)                  (* the transaction of [get_or_create] *)
| AFound (k : str)                            (* [get_blob] finds an entity by its CID *)
| AFetch (i : nat) (now : Z) (o : outcome)    (* [maybe_fetch] until the first put *)
| ARead (i : nat) (now : Z).                  (* the rest of it *)

Definition finished (c : option call) (r : res blob) : thread :=
  TDone c (do b <- r; do _ <- (match c with Some c => validate b (c_max c) (c_accept c) | None => Ok tt end); Ok b).
Fixpoint set_nth {A} (n : nat) (a : A) (l : list A) : list A :=
  match l, n with [], _ => [] | _ :: r, O => a :: r | x :: r, S n => x :: set_nth n a r end.

Definition step (w : world) (a : act) : option world :=
  match a with
  | ACall now c =>
      match c_url c with
      | [] => None
      | _ =>
          let '(st, b) := load now (c_url c) (c_repo c) (w_store w) in
          Some (World st (w_threads w ++ [if b_inactive b then TDone (Some c) (Err http_error) else TFetch (key_of (c_url c)) (Some c) b]) (w_fetched w))
      end
  | AFound k =>
      match dget k (w_store w) with
      | Some b => if b_inactive b || negb (is_some (b_cid b)) then None
                  else Some (World (w_store w) (w_threads w ++ [TFetch k None b]) (w_fetched w))
      | None => None
      end
  | AFetch i now o =>
      match nth_error (w_threads w) i with
      | Some (TFetch k c b) =>
          if must_fetch now b then
            let '(b, r) := begin_fetch now b o in
            Some (World (put now k b (w_store w))
                    (set_nth i (match r with Ok r => TRead k c b r | Err e => TDone c (Err e) end) (w_threads w))
                    (match r with Ok r => w_fetched w ++ [(url_of k b, r)] | Err _ => w_fetched w end))
          else Some (World (w_store w) (set_nth i (finished c (Ok b)) (w_threads w)) (w_fetched w))
      | _ => None
      end
  | ARead i now =>
      match nth_error (w_threads w) i with
      | Some (TRead k c b r) =>
          let '(p, out) := finish_fetch (url_of k b) b r in
          Some (World (match p with Some b => put now k b (w_store w) | None => w_store w end)
                  (set_nth i (finished c out) (w_threads w)) (w_fetched w))
      | _ => None
      end
  end.
Fixpoint run (w : world) (l : list act) : option world :=
  match l with [] => Some w | a :: r => match step w a with Some w' => run w' r | None => None end end.
End Blob.
