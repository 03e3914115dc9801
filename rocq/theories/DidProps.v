(** Properties of DIDs (arroba/did.py). *)
From Coq Require Import String List NArith ZArith Bool.
From Verif Require Import Base Lists Ipld Sha256 CodecModel UriModel DidModel DidSpec DidProofs DidFacts DidExamples
  HandleModel HandleSpec HandleProofs.
Import ListNotations.
Local Open Scope N_scope.

(** ** C48: did:key *)

(** A key of one of the two curves is found again, with the prefix and without it, whatever the
    encoding of points is, as long as [from_encoded_point] undoes [public_bytes]. *)
Theorem C48 : forall pub curve_of point from_point other_base (k : pub),
  curve_of k <> OtherCurve -> bytes (point k) -> from_point (curve_of k) (point k) = Ok k ->
  exists x, encode_did_key pub curve_of point k = Ok (s "did:key:" ++ x) /\
    decode_did_key pub from_point other_base (s "did:key:" ++ x) = Ok k /\
    decode_did_key pub from_point other_base x = Ok k /\
    remove_prefix (s "did:key:") (s "did:key:" ++ x) = x /\ x <> [].
Proof. exact did_key_inv. Qed.
Print Assumptions C48.
Example C48_example : (forall k, bytes (xpoint k) /\ (xcurve k <> OtherCurve -> xfrom (xcurve k) (xpoint k) = Ok k)) /\
  xcurve (P256, true) <> OtherCurve /\ encode_did_key xpub xcurve xpoint (P256, true) = Ok (s "did:key:z4GyWe2").
Proof. split; [exact xpoints|]. split; [discriminate|]. vm_compute. reflexivity. Qed.

(** Different keys have different did:keys. *)
Theorem C48_distinct : forall pub curve_of point (from_point : curve -> list N -> res pub) k k' x,
  bytes (point k) -> from_point (curve_of k) (point k) = Ok k ->
  bytes (point k') -> from_point (curve_of k') (point k') = Ok k' ->
  encode_did_key pub curve_of point k = Ok x -> encode_did_key pub curve_of point k' = Ok x -> k = k'.
Proof. intros pub curve_of point from_point. exact (did_key_inj pub curve_of point from_point (fun _ => Err ValueError)). Qed.
Print Assumptions C48_distinct.

(** Other codes are rejected. *)
Theorem C48_rejects : forall pub (from_point : curve -> list N -> res pub) other_base code data,
  code < 2 ^ 63 -> bytes data -> code <> 0xe7 -> code <> 0x1200 ->
  decode_did_key pub from_point other_base (s "did:key:" ++ s "z" ++ b58_encode (varint code ++ data)) = Err ValueError.
Proof. exact did_key_reject. Qed.
Print Assumptions C48_rejects.
Example C48_rejects_example : (* an ed25519 key *)
  0xed < 2 ^ 63 /\ bytes [1; 2; 3] /\ 0xed <> 0xe7 /\ 0xed <> 0x1200 /\ b58_encode (varint 0xed ++ [1; 2; 3]) = s "TjsU3jY".
Proof.
  split; [reflexivity|]. split; [repeat constructor|]. split; [discriminate|]. split; [discriminate|]. vm_compute. reflexivity.
Qed.

(** And whatever is decoded was a point on one of the two curves, behind the code of that curve. *)
Theorem C48_sound : forall pub (from_point : curve -> list N -> res pub) other_base x k,
  (forall y b, other_base y = Ok b -> bytes b) -> decode_did_key pub from_point other_base x = Ok k ->
  exists wrapped c code data, multibase_decode other_base (remove_prefix (s "did:key:") x) = Ok wrapped /\
    codec c = Ok code /\ wrapped = varint code ++ data /\ from_point c data = Ok k.
Proof. intros pub. exact (did_key_sound pub (fun _ => K256) (fun _ => [])). Qed.
Print Assumptions C48_sound.
Example C48_sound_example : (* from arroba/tests/test_did.py:417 *)
  match b58_decode (s "Dnaeh9v2RmcMo13Du2d6pjUf5bZwtauYxj3n9dYjw4EZUAR7") with
  | Ok b => firstn 2 b = varint 0x1200 /\ length b = 35%nat
  | Err _ => False
  end.
Proof. vm_compute. split; reflexivity. Qed.

(** ** C49: DID documents *)

(** A document made from an operation has the operation's signing key, *)
Theorem C49_key : forall pub curve_of point (from_point : curve -> list N -> res pub) other_base op doc k sk vm did,
  plc_operation_to_did_doc op = Ok doc ->
  dget (s "did") op = Some (IText did) -> did <> [] ->
  dget (s "verificationMethods") op = Some (IMap vm) -> dget (s "atproto") vm = Some (IText sk) ->
  encode_did_key pub curve_of point k = Ok sk -> bytes (point k) -> from_point (curve_of k) (point k) = Ok k ->
  get_signing_key pub from_point other_base doc = Ok (Some k).
Proof. exact doc_key. Qed.
Print Assumptions C49_key.

(** and the handle of its first at:// URI, if that has only characters that hosts have. *)
Theorem C49_handle : forall netloc_ok op doc pre h rest,
  plc_operation_to_did_doc op = Ok doc ->
  dget (s "alsoKnownAs") op = Some (IList (pre ++ IText (s "at://" ++ h) :: rest)) -> plain h ->
  Forall (fun v => exists t, v = IText t /\ starts_with (s "at://") t = false) pre ->
  get_handle netloc_ok doc = Ok (Some h).
Proof. exact doc_handle. Qed.
Print Assumptions C49_handle.
Example C49_example : exists doc, plc_operation_to_did_doc ((s "did", IText (s "did:plc:xyz")) :: foreign_op) = Ok doc /\
  get_handle xok doc = Ok (Some (s "han.dle")).
Proof. eexists. split; vm_compute; reflexivity. Qed.

(** So for the documents that creating and updating return. *)
Theorem C49_created : forall pub curve_of point priv public sign_bytes digest plc_host pds_host from_point other_base netloc_ok,
  (forall k : pub, bytes (point k) /\ (curve_of k <> OtherCurve -> from_point (curve_of k) (point k) = Ok k)) ->
  forall (fs fr : priv) post handle a r,
  snd (create_plc pub curve_of point priv public sign_bytes digest fs fr plc_host pds_host post handle a) = Ok r ->
  get_signing_key pub from_point other_base (p_doc r) =
    Ok (Some (key_pub pub priv public (match a_signing _ _ a with Some k => k | None => Private fs end))) /\
  exists h, handle = Some h /\ (plain h -> get_handle netloc_ok (p_doc r) = Ok (Some h)).
Proof. intros until netloc_ok. intros H fs fr post handle a r. now apply write_doc. Qed.
Print Assumptions C49_created.
Example C49_created_example : exists r, snd run1 = Ok r /\ get_signing_key xpub xfrom xother (p_doc r) = Ok (Some k1) /\
  get_handle xok (p_doc r) = Ok (Some (s "han.dle")).
Proof. eexists. split; [vm_compute; reflexivity|]. split; vm_compute; reflexivity. Qed.

Theorem C49_updated : forall pub curve_of point priv public sign_bytes digest plc_host pds_host from_point other_base netloc_ok,
  (forall k : pub, bytes (point k) /\ (curve_of k <> OtherCurve -> from_point (curve_of k) (point k) = Ok k)) ->
  forall (fs fr : priv) get post did handle signing rotation a r,
  snd (update_plc pub curve_of point priv public sign_bytes digest fs fr plc_host pds_host get post did handle signing rotation a) = Ok r ->
  get_signing_key pub from_point other_base (p_doc r) = Ok (Some (key_pub pub priv public signing)) /\
  forall h, handle = Some h -> plain h -> get_handle netloc_ok (p_doc r) = Ok (Some h).
Proof. exact updated_doc. Qed.
Print Assumptions C49_updated.
Example C49_updated_example : exists r, snd run2 = Ok r /\ get_handle xok (p_doc r) = Ok (Some (s "new.handle")).
Proof. eexists. split; vm_compute; reflexivity. Qed.

(** But handles are not checked, and with a slash in them, another one comes back. *)
Theorem C49_handle_refuted : exists r, snd run5 = Ok r /\ get_handle xok (p_doc r) = Ok (Some (s "evil.example")) /\
  run5 = xcreate accept (Some (s "evil.example/han.dle")) no_args.
Proof. exact run5_other. Qed.
Print Assumptions C49_handle_refuted.

(** ** C50: PLC operations *)

(** What is posted to create a DID is a signed operation without predecessor, and the DID is made of
    nothing but a hash of it. This and the following theorems hold even if the call fails later. *)
Theorem C50_created : forall pub curve_of point priv public sign_bytes digest plc_host pds_host (fs fr : priv) post handle a url body,
  In (Post url body) (fst (create_plc pub curve_of point priv public sign_bytes digest fs fr plc_host pds_host post handle a)) ->
  url = s "https://" ++ plc_host ++ s "/" ++ s "did:plc:" ++ map lower (firstn 24 (b32_encode (digest (dag_cbor_encode (IMap body))))) /\
  dget (s "prev") body = Some INull /\
  exists h d, handle = Some h /\ h <> [] /\ match a_rotation _ _ a with Some k => k | None => Private fr end = Private d /\
    dget (s "alsoKnownAs") body = Some (IList (IText (s "at://" ++ h) :: match a_aka _ _ a with Some x => aka_list x | None => [] end)) /\
    signature_of sign_bytes d body.
Proof. exact created. Qed.
Print Assumptions C50_created.
Example C50_created_example : In (Post (s "https://" ++ plc ++ s "/" ++ the_did) (body_of run1)) (fst run1).
Proof. apply posted_In. exact run1_posts. Qed.

(** What is posted to update one follows the last operation in the log, and has the handle, the other
    names and the keys given; handle and names not given are those of the last operation. *)
Theorem C50_updated : forall pub curve_of point priv public sign_bytes digest plc_host pds_host (fs fr : priv) get post did handle signing rotation a url body,
  did <> [] ->
  In (Post url body) (fst (update_plc pub curve_of point priv public sign_bytes digest fs fr plc_host pds_host get post did handle signing rotation a)) ->
  url = s "https://" ++ plc_host ++ s "/" ++ did /\
  exists ok log e op cid old rest h d rk sk,
    get (log_url plc_host did) = Ok (ok, IList (log ++ [IMap e])) /\
    dget (s "operation") e = Some (IMap op) /\ dget (s "cid") e = Some cid /\ dget (s "alsoKnownAs") op = Some (IList (old :: rest)) /\
    (handle = Some h \/ (handle = None \/ handle = Some []) /\ old = IText (s "at://" ++ h)) /\ h <> [] /\
    rotation = Private d /\ signature_of sign_bytes d body /\
    encode_did_key pub curve_of point (key_pub pub priv public (match a_new_rotation _ _ a with Some k => k | None => rotation end)) = Ok rk /\
    encode_did_key pub curve_of point (key_pub pub priv public signing) = Ok sk /\
    dget (s "prev") body = Some cid /\
    dget (s "alsoKnownAs") body = Some (IList (IText (s "at://" ++ h) :: match a_aka _ _ a with Some x => aka_list x | None => rest end)) /\
    dget (s "type") body = Some (IText (s "plc_operation")) /\
    dget (s "rotationKeys") body = Some (IList [IText rk]) /\
    dget (s "verificationMethods") body = Some (IMap [(s "atproto", IText sk)]) /\
    dget (s "services") body = Some (IMap [(s "atproto_pds", IMap [(s "type", IText (s "AtprotoPersonalDataServer"));
      (s "endpoint", IText (match a_pds _ _ a with Some (c :: r) => c :: r | _ => s "https://" ++ pds_host end))])]) /\
    (forall k, dget k body <> None -> In k [s "type"; s "rotationKeys"; s "verificationMethods"; s "alsoKnownAs"; s "services"; s "prev"; s "sig"]).
Proof. exact updates. Qed.
Print Assumptions C50_updated.
Example C50_updated_example : the_did <> [] /\ In (Post (s "https://" ++ plc ++ s "/" ++ the_did) (body_of run2)) (fst run2).
Proof. split; [exact the_did_is|]. apply posted_In. exact run2_posts. Qed.

(** Rolling back posts the operation some steps back, with nothing changed but predecessor and
    signature, and only if the last operation allows the key. *)
Theorem C50_rolled_back : forall pub curve_of point priv public sign_bytes digest plc_host get post did (rot : priv) n url body,
  (forall ok js, get (log_url plc_host did) = Ok (ok, js) ->
     exists log, js = IList (map render log) /\ Forall (fun e => NoDup (keys (e_op e))) log) ->
  In (Post url body) (fst (rollback_plc pub curve_of point priv public sign_bytes digest plc_host get post did rot (Z.of_nat n))) ->
  url = s "https://" ++ plc_host ++ s "/" ++ did /\
  exists log target later newest, get (log_url plc_host did) = Ok (true, IList (map render log)) /\
    (exists before, log = before ++ target :: later) /\ length later = n /\ (exists before, log = before ++ [newest]) /\
    e_did target = did /\
    (exists rk rks, encode_did_key pub curve_of point (public rot) = Ok rk /\
       dget (s "rotationKeys") (e_op newest) = Some (IList rks) /\ In (IText rk) rks) /\
    dget (s "prev") body = Some (IText (e_cid newest)) /\ signature_of sign_bytes rot body /\
    (forall k, k <> s "prev" -> k <> s "sig" -> dget k body = dget k (e_op target)).
Proof. intros until plc_host. exact (rolls_back pub curve_of point priv public sign_bytes digest plc_host []). Qed.
Print Assumptions C50_rolled_back.
Example C50_rolled_back_example :
  (forall ok js, serve log2 (log_url plc the_did) = Ok (ok, js) ->
     exists log, js = IList (map render log) /\ Forall (fun e => NoDup (keys (e_op e))) log) /\
  In (Post (s "https://" ++ plc ++ s "/" ++ the_did) (body_of run3)) (fst run3) /\ run3 = xrollback (serve log2) accept the_did k2 (Z.of_nat 1).
Proof. split; [exact log2_served|]. split; [|reflexivity]. apply posted_In. exact run3_posts. Qed.

(** So in a directory that keeps what is posted, the operations for a DID form a chain, each signed and
    naming the CID of the one before, and the DID belongs to the first. *)
Theorem C50_chain : forall pub curve_of point priv public sign_bytes digest plc_host pds_host did log,
  history pub curve_of point priv public sign_bytes digest plc_host pds_host did log ->
  chained INull log /\
  Forall (fun e => e_did e = did /\ e_cid e = op_cid digest (e_op e) /\ exists d, signature_of sign_bytes d (e_op e)) log /\
  exists e r, log = e :: r /\
    did = s "did:plc:" ++ map lower (firstn 24 (b32_encode (digest (dag_cbor_encode (IMap (e_op e)))))).
Proof. exact chain. Qed.
Print Assumptions C50_chain.
Example C50_chain_example : xhistory the_did log3 /\ length log3 = 3%nat.
Proof. split; [exact log3_history|reflexivity]. Qed.

(** The text of the signature can be read back. *)
Theorem C50_signature : forall priv (sign_bytes : priv -> list N -> list N) d op sg,
  (forall d m, bytes (sign_bytes d m)) -> bytes sg -> signature_of sign_bytes d op ->
  dget (s "sig") op = Some (IText (b64_encode sg)) -> sg = sign_bytes d (dag_cbor_encode (IMap (ddel (s "sig") op))).
Proof. exact signature_text. Qed.
Print Assumptions C50_signature.

(** An update keeps what it is not told to change if the last operation has nothing that this code
    does not write, and the keys and the PDS given or configured are those in it. *)
Theorem C50_keeps_partial : forall pub curve_of point priv public sign_bytes digest plc_host pds_host (fs fr : priv) get post did handle signing rotation a url body ok log e op rk sk,
  did <> [] ->
  In (Post url body) (fst (update_plc pub curve_of point priv public sign_bytes digest fs fr plc_host pds_host get post did handle signing rotation a)) ->
  get (log_url plc_host did) = Ok (ok, IList (log ++ [IMap e])) -> dget (s "operation") e = Some (IMap op) ->
  encode_did_key pub curve_of point (key_pub pub priv public (match a_new_rotation _ _ a with Some k => k | None => rotation end)) = Ok rk ->
  encode_did_key pub curve_of point (key_pub pub priv public signing) = Ok sk ->
  dget (s "type") op = Some (IText (s "plc_operation")) ->
  dget (s "rotationKeys") op = Some (IList [IText rk]) ->
  dget (s "verificationMethods") op = Some (IMap [(s "atproto", IText sk)]) ->
  dget (s "services") op = Some (IMap [(s "atproto_pds", IMap [(s "type", IText (s "AtprotoPersonalDataServer"));
      (s "endpoint", IText (match a_pds _ _ a with Some (c :: r) => c :: r | _ => s "https://" ++ pds_host end))])]) ->
  (forall k, dget k op <> None -> In k [s "type"; s "rotationKeys"; s "verificationMethods"; s "alsoKnownAs"; s "services"; s "prev"; s "sig"]) ->
  (forall k, k <> s "alsoKnownAs" -> k <> s "prev" -> k <> s "sig" -> dget k body = dget k op) /\
  (exists old h rest rest', dget (s "alsoKnownAs") op = Some (IList (old :: rest)) /\
    dget (s "alsoKnownAs") body = Some (IList (IText (s "at://" ++ h) :: rest')) /\
    (handle = Some h \/ IText (s "at://" ++ h) = old) /\ (a_aka _ _ a = None -> rest' = rest)).
Proof. exact keeps. Qed.
Print Assumptions C50_keeps_partial.
Example C50_keeps_example :
  serve log1 (log_url plc the_did) = Ok (true, IList ([] ++ map render log1)) /\
  dget (s "services") (body_of run1) = Some own_services /\ dget (s "services") (body_of run2) = Some own_services /\
  dget (s "rotationKeys") (body_of run1) = dget (s "rotationKeys") (body_of run2) /\
  dget (s "verificationMethods") (body_of run1) = dget (s "verificationMethods") (body_of run2).
Proof. exact run2_keeps. Qed.

(** Otherwise it does not: an update that gives only a new handle moves the account to the configured
    PDS, drops the other keys, and drops a first name that is no handle. *)
Theorem C50_refuted : exists url body,
  In (Post url body) (fst (xupdate (serve foreign_log) accept (s "did:plc:xyz") (Some (s "new.handle")) (Private k1) (Private k2) no_args)) /\
  foreign_log = [recorded sha256 (s "did:plc:xyz") foreign_op []] /\
  dget (s "services") body = Some own_services /\ dget (s "services") foreign_op <> Some own_services /\
  (exists rk, dget (s "rotationKeys") body = Some (IList [IText rk])) /\
  (exists a b, dget (s "rotationKeys") foreign_op = Some (IList [a; b])) /\
  (exists sk, dget (s "verificationMethods") body = Some (IMap [(s "atproto", IText sk)])) /\
  (exists a b, dget (s "verificationMethods") foreign_op = Some (IMap [a; b])) /\
  dget (s "alsoKnownAs") foreign_op = Some (IList [IText (s "https://web.site"); IText (s "at://han.dle")]) /\
  dget (s "alsoKnownAs") body = Some (IList [IText (s "at://new.handle"); IText (s "at://han.dle")]).
Proof. exact foreign_changes. Qed.
Print Assumptions C50_refuted.

(** ** C56: did:web *)

(** For a domain, the well known document on that host is fetched. *)
Theorem C56_domain : forall get repair d, domain d ->
  exists url, fst (resolve_web get repair (s "did:web:" ++ d)) = [Get url] /\
    url = s "https://" ++ d ++ s "/.well-known/did.json" /\ forall h, contacts url h <-> h = d.
Proof. exact web_domain. Qed.
Print Assumptions C56_domain.

(** Segments after the domain become a path on the host, for all characters that are not special. *)
Theorem C56_path : forall get repair d p l,
  without (s "/?#\@%:") d -> Forall (without (s "/?#\@%:")) (p :: l) -> (forall c, In c (d ++ concat (p :: l)) -> c < 128) ->
  exists url, fst (resolve_web get repair (s "did:web:" ++ d ++ join (s ":") (p :: l))) = [Get url] /\
    url = s "https://" ++ d ++ join (s "/") (p :: l) ++ s "/did.json" /\ forall h, contacts url h <-> h = d.
Proof. exact web_path. Qed.
Print Assumptions C56_path.
Example C56_path_example : domain (s "a.example") /\
  fst (resolve_web (fun _ => Err ValueError) (fun x => x) (s "did:web:a.example:user:alice")) = [Get (s "https://a.example/user/alice/did.json")].
Proof. split; [split; [discriminate|]; repeat (constructor; [cbn; vm_compute; intuition discriminate|]); constructor|reflexivity]. Qed.

(** Nothing is fetched for other DIDs. *)
Theorem C56_other : forall get repair did, (forall r, did <> s "did:web:" ++ r) -> resolve_web get repair did = ([], Err ValueError).
Proof. exact resolve_web_other. Qed.
Print Assumptions C56_other.
Example C56_other_example : forall r, s "did:plc:xyz" <> s "did:web:" ++ r.
Proof. discriminate. Qed.

(** But DIDs with a path are accepted, and what is percent encoded is decoded before the URL is put
    together, so that another host may be contacted than the one in front. *)
Theorem C56_refuted : forall get repair,
  (exists url, fst (resolve_web get repair (s "did:web:good.example%40evil.example")) = [Get url] /\ contacts url (s "evil.example")) /\
  (exists url, fst (resolve_web get repair (s "did:web:evil.example%2Fx%3F.good.example")) = [Get url] /\ contacts url (s "evil.example")) /\
  fst (resolve_web get repair (s "did:web:a.example:b")) = [Get (s "https://a.example/b/did.json")].
Proof. exact web_refuted. Qed.
Print Assumptions C56_refuted.

(** A did:plc is asked for at the PLC directory and nowhere else. *)
Theorem C56_plc : forall plc_host get repair d, domain plc_host ->
  exists url, fst (resolve plc_host get repair (s "did:plc:" ++ d)) = [Get url] /\
    url = s "https://" ++ plc_host ++ s "/did:plc:" ++ d /\ forall h, contacts url h <-> h = plc_host.
Proof. exact resolve_did_plc. Qed.
Print Assumptions C56_plc.
Example C56_plc_example : domain (s "plc.directory").
Proof. split; [discriminate|]. repeat (constructor; [cbn; vm_compute; intuition discriminate|]); constructor. Qed.

(** A did:web is resolved as above, and other methods are rejected without any request. *)
Theorem C56_methods : forall plc_host get repair,
  (forall d, resolve plc_host get repair (s "did:web:" ++ d) = resolve_web get repair (s "did:web:" ++ d)) /\
  (forall did, (forall r, did <> s "did:plc:" ++ r) -> (forall r, did <> s "did:web:" ++ r) -> resolve plc_host get repair did = ([], Err ValueError)).
Proof. exact (fun p g r => conj (resolve_did_web p g r) (resolve_did_other p g r)). Qed.
Print Assumptions C56_methods.
Example C56_methods_example : (forall r, s "did:key:zabc" <> s "did:plc:" ++ r) /\ (forall r, s "did:key:zabc" <> s "did:web:" ++ r).
Proof. split; discriminate. Qed.

(** The document is the one that the request was answered with, and an answer that is an error gives
    none. *)
Theorem C56_document : forall plc_host get repair did url r, resolve plc_host get repair did = ([Get url], r) ->
  forall doc, r = Ok doc <-> get url = Ok (true, doc).
Proof. exact resolved_doc. Qed.
Print Assumptions C56_document.
Example C56_document_example : let get := fun u => if str_eqb u (s "https://plc.directory/did:plc:x") then Ok (true, IMap [(s "id", IText (s "did:plc:x"))]) else Ok (false, INull) in
  resolve (s "plc.directory") get (fun x => x) (s "did:plc:x") =
    ([Get (s "https://plc.directory/did:plc:x")], Ok (IMap [(s "id", IText (s "did:plc:x"))])).
Proof. reflexivity. Qed.

(** ** C60: handle resolution *)

(** The regular expression accepts the handles of the specification and no other strings. *)
Theorem C60_syntax : forall h, fullmatch handle_re h = true <-> handle_syntax h.
Proof. exact handle_iff. Qed.
Print Assumptions C60_syntax.
Example C60_syntax_example : fullmatch handle_re (s "al-ice.b2.x9") = true /\ fullmatch handle_re (s "a.1x") = false /\
  fullmatch handle_re (s "alice") = false /\ fullmatch handle_re (s "al_ice.com") = false /\ fullmatch handle_re (s "alice-.com") = false /\
  fullmatch handle_re (s "alice.com" ++ [10]) = false.
Proof. vm_compute. repeat split. Qed.

(** Other strings are rejected without any request. *)
Theorem C60_invalid : forall dns http h, ~ handle_syntax h -> resolve_handle dns http h = ([], Err ValueError).
Proof. exact resolve_invalid. Qed.
Print Assumptions C60_invalid.

(** For handles there is one DNS query, and if that finds nothing, one request, to the host that is
    the handle. *)
Theorem C60_requests : forall dns http h, handle_syntax h ->
  exists q d url, resolve_handle dns http h = (q, Ok d) /\
    (q = [Dns (s "_atproto." ++ h ++ s ".")] /\ d <> None \/ q = [Dns (s "_atproto." ++ h ++ s "."); Http url]) /\
    forall host, contacts url host <-> host = h.
Proof. exact handle_requests. Qed.
Print Assumptions C60_requests.

(** What is returned is a DID, or begins like one. *)
Theorem C60_did : forall dns http h q d, resolve_handle dns http h = (q, Ok (Some d)) -> exists x, d = s "did:" ++ x.
Proof. exact resolve_did. Qed.
Print Assumptions C60_did.
Example C60_example : handle_syntax (s "han.dle") /\
  resolve_handle (fun n => Some {| canonical := n; rdata := [(true, s "v=spf1"); (true, quote :: s "did=did:plc:x" ++ [quote])] |}) (fun _ => None) (s "han.dle") =
    ([Dns (s "_atproto.han.dle.")], Ok (Some (s "did:plc:x"))) /\
  resolve_handle (fun n => None) (fun _ => Some (true, s " did:web:y" ++ [10])) (s "han.dle") =
    ([Dns (s "_atproto.han.dle."); Http (s "https://han.dle/.well-known/atproto-did")], Ok (Some (s "did:web:y"))).
Proof. split; [apply handle_iff; vm_compute; reflexivity|]. split; vm_compute; reflexivity. Qed.

(** The DID of the first TXT record that names one is returned, when nothing redirects the name. *)
Theorem C60_dns : forall dns http h a pre post r, handle_syntax h ->
  dns (s "_atproto." ++ h ++ s ".") = Some a -> canonical a = s "_atproto." ++ h ++ s "." ->
  rdata a = pre ++ (true, s """did=did:" ++ r ++ s """") :: post -> (forall x, In x pre -> ~ names_did x) -> ~ In (ch """") r ->
  resolve_handle dns http h = ([Dns (s "_atproto." ++ h ++ s ".")], Ok (Some (s "did:" ++ r))).
Proof. exact resolve_dns. Qed.
Print Assumptions C60_dns.
Example C60_dns_example : ~ names_did (true, s """v=spf1""") /\ ~ names_did (false, s """did=did:plc:y""") /\ ~ In (ch """") (s "plc:x") /\
  resolve_handle (fun n => Some {| canonical := n; rdata := [(true, s """v=spf1"""); (false, s """did=did:plc:y"""); (true, s """did=did:plc:x"""); (true, s """did=did:plc:z""")] |})
    (fun _ => None) (s "han.dle") = ([Dns (s "_atproto.han.dle.")], Ok (Some (s "did:plc:x"))).
Proof.
  split; [intros (_ & r & H); discriminate|]. split; [intros (H & _); discriminate|]. split; [vm_compute; intuition discriminate|].
  vm_compute. reflexivity.
Qed.

(** Without such a record it is what the host answers, without the space around it. *)
Theorem C60_http : forall dns http h a r c z, handle_syntax h ->
  (forall a, dns (s "_atproto." ++ h ++ s ".") = Some a -> canonical a = s "_atproto." ++ h ++ s "." -> forall x, In x (rdata a) -> ~ names_did x) ->
  http (s "https://" ++ h ++ s "/.well-known/atproto-did") = Some (true, a ++ (s "did:" ++ r ++ [c]) ++ z) ->
  Forall white a -> Forall white z -> ~ white c ->
  snd (resolve_handle dns http h) = Ok (Some (s "did:" ++ r ++ [c])).
Proof. exact resolve_http. Qed.
Print Assumptions C60_http.

(** And nothing is returned when the host does not answer with success either. *)
Theorem C60_none : forall dns http h, handle_syntax h ->
  (forall a, dns (s "_atproto." ++ h ++ s ".") = Some a -> canonical a = s "_atproto." ++ h ++ s "." -> forall x, In x (rdata a) -> ~ names_did x) ->
  (forall body, http (s "https://" ++ h ++ s "/.well-known/atproto-did") <> Some (true, body)) ->
  snd (resolve_handle dns http h) = Ok None.
Proof. exact resolve_none. Qed.
Print Assumptions C60_none.
Example C60_http_example :
  let dns := fun n => Some {| canonical := s "else.where."; rdata := [(true, s """did=did:plc:x""")] |} in
  (forall a, dns (s "_atproto.han.dle.") = Some a -> canonical a = s "_atproto.han.dle." -> forall x, In x (rdata a) -> ~ names_did x) /\
  snd (resolve_handle dns (fun _ => Some (true, s " did:web:y" ++ [10])) (s "han.dle")) = Ok (Some (s "did:web:y")) /\
  snd (resolve_handle dns (fun _ => Some (false, s "did:web:y")) (s "han.dle")) = Ok None.
Proof. split; [intros a E; injection E as <-; discriminate|]. split; vm_compute; reflexivity. Qed.

(** A DID that is returned stands in one of the two answers, as all that is there besides quotes or space. *)
Theorem C60_source : forall dns http h q d, resolve_handle dns http h = (q, Ok (Some d)) ->
  (exists a t m n, dns (s "_atproto." ++ h ++ s ".") = Some a /\ canonical a = s "_atproto." ++ h ++ s "." /\ In (true, t) (rdata a) /\
     t = repeat (ch """") m ++ s "did=" ++ d ++ repeat (ch """") n) \/
  (exists a z, http (s "https://" ++ h ++ s "/.well-known/atproto-did") = Some (true, a ++ d ++ z) /\ Forall white a /\ Forall white z).
Proof. exact resolve_source. Qed.
Print Assumptions C60_source.

(** But what is returned need not be a DID: a record of several strings is printed with quotes
    between them, and these stay. *)
Theorem C60_several_strings : exists dns http h d, handle_syntax h /\ resolve_handle dns http h = ([Dns (s "_atproto." ++ h ++ s ".")], Ok (Some d)) /\
  In (ch """") d /\ In (ch " ") d.
Proof. exact dns_strings. Qed.
Print Assumptions C60_several_strings.
