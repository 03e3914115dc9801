(** What the theorems about DIDs speak of. *)
From Coq Require Import String List NArith ZArith Bool.
From Verif Require Import Base Ipld CodecModel UriModel DidModel.
Import ListNotations.
Local Open Scope N_scope.

Definition bytes (b : list N) : Prop := Forall (fun c => c < 256) b.

(** No character of [x] is one of [bad]. *)
Definition without (bad x : str) : Prop := forall c, In c x -> ~ In c bad.

(** The host that a request for an https URL goes to: what is between the user information, which
    ends with the last at sign, and the port, in front of the path (RFC 3986, section 3.2, with a
    backslash taken as a slash). *)
Definition contacts (url host : str) : Prop :=
  exists user port rest,
    url = s "https://" ++ user ++ host ++ port ++ rest /\
    (user = [] \/ exists u, user = u ++ s "@" /\ without (s "/?#\") u) /\
    without (s "/?#\@:") host /\
    (port = [] \/ exists p, port = s ":" ++ p /\ without (s "/?#\@") p) /\
    (rest = [] \/ exists c r, rest = c :: r /\ In c (s "/?#\")).

(** Letters, digits, dots and hyphens, and at least one of them. *)
Definition domain (d : str) : Prop :=
  d <> [] /\ Forall (fun c => (48 <= c <= 57) \/ (65 <= c <= 90) \/ (97 <= c <= 122) \/ In c (s ".-")) d.

(** Everything else in the operation is what is signed. *)
Definition signature_of {priv} (sign_bytes : priv -> list N -> list N) (d : priv) (op : obj) : Prop :=
  dget (s "sig") op = Some (IText (b64_encode (sign_bytes d (dag_cbor_encode (IMap (ddel (s "sig") op)))))).

(** A PLC directory keeps a log of operations for each DID. *)
Record entry := { e_did : str; e_op : obj; e_cid : str; e_more : obj }.
Definition render (e : entry) : ipld :=
  IMap ([(s "did", IText (e_did e)); (s "operation", IMap (e_op e)); (s "cid", IText (e_cid e))] ++ e_more e).

(** The text of the CID of an operation. *)
Definition op_cid (digest : list N -> list N) (op : obj) : str :=
  s "b" ++ map lower (b32_encode (dag_cbor_cid digest (IMap op))).

(** Each operation names the one before it. *)
Inductive chained : ipld -> list entry -> Prop :=
| chained_nil p : chained p []
| chained_cons p e r : dget (s "prev") (e_op e) = Some p -> chained (IText (e_cid e)) r -> chained p (e :: r).

(** The logs that a directory may hold if all operations for the DID come from this code. It may
    refuse what is posted to it, but it does not change it. Keys, nonces and other arguments may
    differ from call to call. *)
Section History.
Variable pub : Type.
Variable curve_of : pub -> curve.
Variable point : pub -> list N.
Variable priv : Type.
Variable public : priv -> pub.
Variable sign_bytes : priv -> list N -> list N.
Variable digest : list N -> list N.
Variable plc_host pds_host : str.

Definition recorded (did : str) (body more : obj) : entry :=
  {| e_did := did; e_op := body; e_cid := op_cid digest body; e_more := more |}.

Inductive history (did : str) : list entry -> Prop :=
| h_create fs fr post handle a body more :
    In (Post (s "https://" ++ plc_host ++ s "/" ++ did) body)
       (fst (create_plc pub curve_of point priv public sign_bytes digest fs fr plc_host pds_host post handle a)) ->
    history did [recorded did body more]
| h_update log get ok fs fr post handle signing rotation a url body more :
    history did log -> get (log_url plc_host did) = Ok (ok, IList (map render log)) ->
    In (Post url body)
       (fst (update_plc pub curve_of point priv public sign_bytes digest fs fr plc_host pds_host get post did handle signing rotation a)) ->
    history did (log ++ [recorded did body more])
| h_rollback log get ok post rotation num url body more :
    history did log -> get (log_url plc_host did) = Ok (ok, IList (map render log)) ->
    In (Post url body)
       (fst (rollback_plc pub curve_of point priv public sign_bytes digest plc_host get post did rotation num)) ->
    history did (log ++ [recorded did body more]).
End History.
