(** The XRPC methods about sessions (arroba/xrpc_server.py). *)
From Coq Require Import String List NArith ZArith Bool.
From Verif Require Import Base Lists Ipld MstModel StorageModel ServerModel.
Import ListNotations.
Local Open Scope m_scope.

(** What the lexicon of createSession requires. *)
Record login := Login { l_identifier : str; l_password : str }.
(** Handle, DID, accessJwt and refreshJwt. *)
Record session := Session { se_handle : option str; se_did : option str; se_access : str; se_refresh : str }.

Section Session.
Variable be : backend.
Variable cfg : config.

(** [os.environ['REPO_TOKEN']] *)
Definition env_token : res str := match c_token cfg with Some token => Ok token | None => Err KeyError end.

(** [create_session] (xrpc_server.py:10-25) *)
Definition create_session (i : login) : M session :=
  let! r := load_repo be (l_identifier i) in
  match r with
  | None => throw ValueError
  | Some r =>
      let! token := lift env_token in
      let! o := obj r in
      let! did := lift (repo_did o) in
      ret (Session (r_handle o) did token token)
  end.

(** [server.repo], which app.py:129 sets and the library does not *)
Variable server_repo : option nat.
Definition global_repo : M repo := match server_repo with None => throw AttributeError | Some r => obj r end.

(** [get_session] (xrpc_server.py:28-38): handle and DID *)
Definition get_session (header : option str) : M (option str * option str) :=
  lift (auth cfg header);;
  let! o := global_repo in
  let! did := lift (repo_did o) in
  ret (r_handle o, did).

(** [refresh_session] (xrpc_server.py:41-52) *)
Definition refresh_session (header : option str) : M session :=
  lift (auth cfg header);;
  let! token := lift env_token in
  let! o := global_repo in
  let! did := lift (repo_did o) in
  ret (Session (r_handle o) did token token).

(** [describe_server] (xrpc_server.py:55-63): its DID; the PDS_HOST environment variable *)
Definition describe_server (pds_host : option str) : res str :=
  match pds_host with Some h => Ok (s "did:web:" ++ h) | None => Err KeyError end.
End Session.
