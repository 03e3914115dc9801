(** DIDs: did:key encoding, PLC operations, DID documents, did:web and handle resolution
    (arroba/did.py). The caches of the [resolve] functions are in CacheModel.v. *)
From Coq Require Import String List NArith ZArith Bool.
From Verif Require Import Base Ipld CodecModel UriModel.
Import ListNotations.
Local Open Scope N_scope.

(** Python dicts with text keys. *)
Definition obj := list (str * ipld).

(** [x.removeprefix(p)] *)
Definition remove_prefix (p x : str) : str := if starts_with p x then skipn (length p) x else x.

(** [v[k]], [v.get(k, d)] *)
Definition item (k : str) (v : ipld) : res ipld :=
  match v with
  | IMap m => match dget k m with Some x => Ok x | None => Err KeyError end
  | _ => Err TypeError
  end.
Definition get_or (k : str) (d : ipld) (v : ipld) : res ipld :=
  match v with
  | IMap m => Ok (match dget k m with Some x => x | None => d end)
  | _ => Err AttributeError
  end.
(** Where a [str] or a [list] is needed. Simplified: the class of the exception. *)
Definition text (v : ipld) : res str := match v with IText t => Ok t | _ => Err AttributeError end.
Definition items (v : ipld) : res (list ipld) := match v with IList l => Ok l | _ => Err TypeError end.
(** [not v], for values that are not numbers *)
Definition falsy (v : ipld) : bool :=
  match v with INull | IText [] | IList [] | IMap [] | IBytes [] | IBool false => true | _ => false end.

(** [l[i]], with the meaning of negative indices. *)
Definition py_index {A} (l : list A) (i : Z) : res A :=
  let j := if (i <? 0)%Z then (Z.of_nat (length l) + i)%Z else i in
  if ((j <? 0) || (Z.of_nat (length l) <=? j))%Z then Err IndexError
  else match nth_error l (Z.to_nat j) with Some x => Ok x | None => Err IndexError end.

(** HTTP requests, and functions that make them. *)
Inductive req := Get (url : str) | Post (url : str) (body : obj).
Definition io A := (list req * res A)%type.
Definition lift {A} (x : res A) : io A := ([], x).
Definition bind_io {A B} (m : io A) (f : A -> io B) : io B :=
  match m with
  | (t, Ok a) => let '(t', r) := f a in (t ++ t', r)
  | (t, Err e) => (t, Err e)
  end.
Local Notation "'let*' x <- m ; f" := (bind_io m (fun x => f)) (at level 200, x pattern, m at level 100, f at level 200).

(** *** did:key *)

Inductive curve := K256 | P256 | OtherCurve.

(** The codes of secp256k1-pub and p256-pub in the multicodec table. *)
Definition codec (c : curve) : res N :=
  match c with K256 => Ok 0xe7 | P256 => Ok 0x1200 | OtherCurve => Err ValueError end.

Section Keys.
Variable pub : Type.                           (* public keys *)
Variable curve_of : pub -> curve.
Variable point : pub -> list N.                (* [public_bytes]: the compressed point *)
Variable from_point : curve -> list N -> res pub.   (* [from_encoded_point] *)
(** [multibase.decode] for the other multibases. *)
Variable other_base : str -> res (list N).

(** [encode_did_key] (did.py:327-349). *)
Definition encode_did_key (k : pub) : res str :=
  do code <- codec (curve_of k);
  Ok (s "did:key:" ++ s "z" ++ b58_encode (varint code ++ point k)).

Definition multibase_decode (x : str) : res (list N) :=
  match x with
  | c :: r => if is_ch "z" c then b58_decode r else other_base x
  | [] => other_base x
  end.

(** [decode_did_key] (did.py:352-373). Simplified: an unknown multicodec is a [ValueError] too. *)
Definition decode_did_key (x : str) : res pub :=
  do wrapped <- multibase_decode (remove_prefix (s "did:key:") x);
  do cd <- unvarint 9 0 0 wrapped;
  let '(code, data) := cd in
  if code =? 0xe7 then from_point K256 data
  else if code =? 0x1200 then from_point P256 data
  else Err ValueError.

(** *** DID documents *)

Variable netloc_ok : str -> bool.              (* see UriModel *)

Fixpoint first_handle (l : list ipld) : res (option str) :=
  match l with
  | [] => Ok None
  | v :: r =>
      do aka <- text v;
      if starts_with (s "at://") aka then
        do p <- parse_at_uri netloc_ok aka;
        let '(handle, _, _) := p in
        match handle with _ :: _ => Ok (Some handle) | [] => first_handle r end
      else first_handle r
  end.
(** [get_handle] (did.py:376-392). *)
Definition get_handle (doc : ipld) : res (option str) :=
  do v <- get_or (s "alsoKnownAs") (IList []) doc;
  do l <- items v;
  first_handle l.

Fixpoint first_key (id : str) (l : list ipld) : res (option pub) :=
  match l with
  | [] => Ok None
  | method :: r =>
      do mid <- get_or (s "id") INull method;
      match mid with
      | IText t =>
          if str_eqb t (id ++ s "#atproto") then
            do key <- get_or (s "publicKeyMultibase") INull method;
            if falsy key then first_key id r
            else do k <- text key; do p <- decode_did_key k; Ok (Some p)
          else first_key id r
      | _ => first_key id r
      end
  end.
(** [get_signing_key] (did.py:395-410). Simplified: an id that is not text is an error. *)
Definition get_signing_key (doc : ipld) : res (option pub) :=
  do did <- get_or (s "id") INull doc;
  if falsy did then Ok None
  else do id <- text did;
       do v <- get_or (s "verificationMethod") (IList []) doc;
       do l <- items v;
       first_key id l.

(** [plc_operation_to_did_doc] (did.py:412-450). Simplified: a DID that is not text is an error. *)
Definition plc_operation_to_did_doc (op : obj) : res ipld :=
  match op with [] => Err AssertionError | _ =>
    do vm <- item (s "verificationMethods") (IMap op);
    do sk <- item (s "atproto") vm;
    do d <- item (s "did") (IMap op);
    do aka <- item (s "alsoKnownAs") (IMap op);
    do did <- text d;
    do signing <- text sk;
    do services <- item (s "services") (IMap op);
    do pds <- item (s "atproto_pds") services;
    do endpoint <- item (s "endpoint") pds;
    Ok (IMap [
      (s "@context", IList [IText (s "https://www.w3.org/ns/did/v1");
                            IText (s "https://w3id.org/security/multikey/v1");
                            IText (s "https://w3id.org/security/suites/secp256k1-2019/v1")]);
      (s "id", IText did);
      (s "alsoKnownAs", aka);
      (s "verificationMethod", IList [IMap [
        (s "id", IText (did ++ s "#atproto"));
        (s "type", IText (s "Multikey"));
        (s "controller", IText did);
        (s "publicKeyMultibase", IText (remove_prefix (s "did:key:") signing))]]);
      (s "service", IList [IMap [
        (s "id", IText (s "#atproto_pds"));
        (s "type", IText (s "AtprotoPersonalDataServer"));
        (s "serviceEndpoint", endpoint)]])])
  end.

(** *** PLC operations *)

Variable priv : Type.                          (* private keys *)
Variable public : priv -> pub.                 (* [key.public_key()] *)
(** The 64 bytes that [util.sign] makes (see SignModel). *)
Variable sign_bytes : priv -> list N -> list N.
Variable digest : list N -> list N.            (* SHA-256 *)
Variable fresh_signing fresh_rotation : priv.  (* what [new_key()] returns *)
(** $PLC_HOST and $PDS_HOST. Simplified: they are set. *)
Variable plc_host pds_host : str.
(** The PLC directory: whether it answers a GET with success, and the JSON it answers with; whether a
    POST succeeds. *)
Variable get : str -> res (bool * ipld).
Variable post : str -> obj -> res unit.

Definition http_get (url : str) : io (bool * ipld) := ([Get url], get url).
Definition http_post (url : str) (body : obj) : io unit := ([Post url body], post url body).

Inductive key := Private (d : priv) | Public (p : pub).
Definition key_pub (k : key) : pub := match k with Private d => public d | Public p => p end.

(** [DidPlc] (did.py:33-38). *)
Record did_plc := { p_did : str; p_signing : option key; p_rotation : option key; p_doc : ipld }.

(** The signed operation (did.py:262-263, util.py:300-302). *)
Definition signed (op : obj) (d : priv) : obj :=
  dset (s "sig") (IText (b64_encode (sign_bytes d (dag_cbor_encode (IMap op))))) op.

(** The DID of a new operation (did.py:268-271). *)
Definition plc_did (op : obj) : str :=
  s "did:plc:" ++ map lower (firstn 24 (b32_encode (digest (dag_cbor_encode (IMap op))))).

(** [write_plc_operation] (did.py:249-282). *)
Definition write_plc_operation (op : obj) (rotation : priv) (did : option str) : io did_plc :=
  let op := signed op rotation in
  let did := match did with Some (c :: r) => c :: r | _ => plc_did op end in
  let* _ <- http_post (s "https://" ++ plc_host ++ s "/" ++ did) op;
  let* doc <- lift (plc_operation_to_did_doc (dset (s "did") (IText did) op));
  lift (Ok {| p_did := did; p_signing := None; p_rotation := None; p_doc := doc |}).

(** The argument [also_known_as]: None, a [str] or a list. *)
Inductive aka := ANone | AStr (x : str) | AList (l : list ipld).
Definition aka_list (a : aka) : list ipld :=
  match a with ANone | AStr [] => [] | AStr x => [IText x] | AList l => l end.

(** The keyword arguments; [a_aka] is [None] if it is not given. *)
Record args := { a_signing : option key; a_rotation : option key; a_new_rotation : option key; a_pds : option str;
                 a_aka : option aka }.

Definition bad_curve (k : option key) : bool :=
  match k with
  | Some k => match curve_of (key_pub k) with K256 => false | _ => true end
  | None => false
  end.

(** The operation that [write_plc] makes (did.py:228-242). *)
Definition plc_op (rotation_key signing_key handle : str) (also : list ipld) (pds_url : str) (prev : ipld) : obj :=
  [(s "type", IText (s "plc_operation"));
   (s "rotationKeys", IList [IText rotation_key]);
   (s "verificationMethods", IMap [(s "atproto", IText signing_key)]);
   (s "alsoKnownAs", IList (IText (s "at://" ++ handle) :: also));
   (s "services", IMap [(s "atproto_pds", IMap [(s "type", IText (s "AtprotoPersonalDataServer")); (s "endpoint", IText pds_url)])]);
   (s "prev", prev)].

(** [write_plc] (did.py:142-246). [handle] is [None] or a [str]. *)
Definition write_plc (did handle : option str) (a : args) (prev : ipld) : io did_plc :=
  match handle with
  | None | Some [] => lift (Err ValueError)
  | Some handle =>
      let pds_url := match a_pds a with Some (c :: r) => c :: r | _ => s "https://" ++ pds_host end in
      if is_ch "/" (last pds_url 0) then lift (Err AssertionError)
      else if bad_curve (a_signing a) || bad_curve (a_rotation a) || bad_curve (a_new_rotation a) then lift (Err ValueError)
      else
        let signing := match a_signing a with Some k => k | None => Private fresh_signing end in
        let rotation := match a_rotation a with Some k => k | None => Private fresh_rotation end in
        match rotation with
        | Public _ => lift (Err AssertionError)
        | Private d =>
            let* signing_key <- lift (encode_did_key (key_pub signing));
            let* rotation_key <- lift (encode_did_key (key_pub (match a_new_rotation a with Some k => k | None => rotation end)));
            let also := match a_aka a with Some x => aka_list x | None => [] end in
            let* r <- write_plc_operation (plc_op rotation_key signing_key handle also pds_url prev) d did;
            lift (Ok {| p_did := p_did r; p_signing := Some signing; p_rotation := Some rotation; p_doc := p_doc r |})
        end
  end.

(** [create_plc] (did.py:105-112). *)
Definition create_plc (handle : option str) (a : args) : io did_plc := write_plc None handle a INull.

(** The audit log (did.py:126, 310). *)
Definition log_url (did : str) : str := s "https://" ++ plc_host ++ s "/" ++ did ++ s "/log/audit".

(** [update_plc] (did.py:115-139). Simplified: the two keys are given and not None. *)
Definition update_plc (did : str) (handle : option str) (signing rotation : key) (a : args) : io did_plc :=
  let* resp <- http_get (log_url did);
  let* log <- lift (items (snd resp));
  let* last_op <- lift (py_index log (-1));
  let* op <- lift (item (s "operation") last_op);
  let* v <- lift (item (s "alsoKnownAs") op);
  let* akas <- lift (items v);
  match akas with
  | [] => lift (Err IndexError)
  | old_handle :: rest =>
      let* handle <- lift (match handle with
                      | Some (c :: r) => Ok (c :: r)
                      | _ => do t <- text old_handle;
                             if starts_with (s "at://") t then Ok (remove_prefix (s "at://") t) else Err AssertionError
                      end);
      let given := {| a_signing := Some signing; a_rotation := Some rotation; a_new_rotation := a_new_rotation a;
                      a_pds := a_pds a; a_aka := Some (match a_aka a with Some x => x | None => AList rest end) |} in
      let* cid <- lift (item (s "cid") last_op);
      write_plc (Some did) (Some handle) given cid
  end.

(** [rollback_plc] (did.py:285-324). Simplified: rotationKeys has to be a list, and a target that is
    not a dict is a [TypeError]. *)
Definition rollback_plc (did : str) (rotation : priv) (num : Z) : io unit :=
  match did with
  | [] => lift (Err AssertionError)
  | _ =>
      let* resp <- http_get (log_url did);
      let* log <- lift (if fst resp then items (snd resp) else Err (HttpError 0));
      if (Z.of_nat (length log) <? num + 1)%Z then lift (Err AssertionError)
      else
        let* rotation_key <- lift (encode_did_key (public rotation));
        let* last_op <- lift (py_index log (-1));
        let* lop <- lift (item (s "operation") last_op);
        let* rks <- lift (item (s "rotationKeys") lop);
        let* rkl <- lift (items rks);
        if negb (existsb (fun v => match v with IText t => str_eqb t rotation_key | _ => false end) rkl) then lift (Err AssertionError)
        else
          let* target <- lift (py_index log (- (num + 1)));
          let* tdid <- lift (item (s "did") target);
          if negb (match tdid with IText t => str_eqb t did | _ => false end) then lift (Err AssertionError)
          else
            let* op <- lift (item (s "operation") target);
            let* cid <- lift (item (s "cid") last_op);
            match op with
            | IMap op =>
                let* _ <- write_plc_operation (ddel (s "sig") (dset (s "prev") cid op)) rotation (Some did);
                lift (Ok tt)
            | _ => lift (Err TypeError)
            end
  end.
End Keys.

Arguments Private {pub priv} d.
Arguments Public {pub priv} p.
Arguments Build_args {pub priv}.
Arguments p_did {pub priv}.
Arguments p_signing {pub priv}.
Arguments p_rotation {pub priv}.
Arguments p_doc {pub priv}.

(** *** Resolution *)

Section Resolve.
Variable plc_host : str.
Variable get : str -> res (bool * ipld).
(** [unquote] replaces bytes that are not UTF-8. *)
Variable repair : str -> str.

Definition hex_value (c : N) : option N :=
  if (48 <=? c) && (c <=? 57) then Some (c - 48)
  else if (65 <=? c) && (c <=? 70) then Some (c - 55)
  else if (97 <=? c) && (c <=? 102) then Some (c - 87)
  else None.
(** [urllib.parse.unquote] of the standard library. *)
Fixpoint unescape (x : str) : str :=
  match x with
  | c :: r =>
      if is_ch "%" c then
        match r with
        | a :: b :: r' =>
            match hex_value a, hex_value b with
            | Some h, Some l => 16 * h + l :: unescape r'
            | _, _ => c :: unescape r
            end
        | _ => c :: unescape r
        end
      else c :: unescape r
  | [] => []
  end.
Definition unquote (x : str) : str :=
  let u := unescape x in if forallb (fun c => c <? 128) u then u else repair u.

Definition fetch (url : str) : io ipld :=
  ([Get url], do r <- get url; if fst r then Ok (snd r) else Err (HttpError 0)).

(** [resolve_plc] (did.py:75-102). *)
Definition resolve_plc (did : str) : io ipld :=
  if starts_with (s "did:plc:") did then fetch (s "https://" ++ plc_host ++ s "/" ++ did) else lift (Err ValueError).

(** [resolve_web] (did.py:455-482). *)
Definition resolve_web (did : str) : io ipld :=
  if starts_with (s "did:web:") did then
    let d := skipn 8 did in
    let d := if existsb (is_ch ":") d then map (fun c => if is_ch ":" c then ch "/" else c) d else d ++ s "/.well-known" in
    fetch (s "https://" ++ unquote d ++ s "/did.json")
  else lift (Err ValueError).

(** [resolve] (did.py:50-70). *)
Definition resolve (did : str) : io ipld :=
  if starts_with (s "did:plc:") did then resolve_plc did
  else if starts_with (s "did:web:") did then resolve_web did
  else lift (Err ValueError).
End Resolve.
