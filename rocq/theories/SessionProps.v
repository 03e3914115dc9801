(** Properties of the XRPC methods about sessions (arroba/xrpc_server.py). *)
From Coq Require Import String List NArith ZArith Bool.
From Verif Require Import Base Lists Ipld MstModel StorageModel StorageSpec RepoSpec UriModel ServerModel ServerSpec
  RepoExamples MessageExamples ServerExamples SessionModel SessionProofs.
Import ListNotations.

(** ** C65 *)

(** A new session is that of the repo that the identifier names. *)
Theorem C65_created_partial : forall be cfg i st st' x, create_session be cfg i st = (st', Ok x) ->
  exists o token, seen be st (l_identifier i) = Some o /\ repo_did o = Ok (se_did x) /\ se_handle x = r_handle o /\
    c_token cfg = Some token /\ se_access x = token /\ se_refresh x = token.
Proof. exact c65_answer. Qed.
Print Assumptions C65_created_partial.

(** Only a request with the token gets or refreshes the session, which is that of the server's own repo. Nothing changes. *)
Theorem C65_get : forall cfg sr header st st' out, get_session cfg sr header st = (st', out) -> st' = st /\
  forall h d, out = Ok (h, d) -> authorized cfg header /\ exists r o, sr = Some r /\ nth_error (s_objs st) r = Some o /\ h = r_handle o /\ repo_did o = Ok d.
Proof. exact c65_get. Qed.
Print Assumptions C65_get.
Theorem C65_refresh : forall cfg sr header st st' out, refresh_session cfg sr header st = (st', out) -> st' = st /\
  forall x, out = Ok x -> authorized cfg header /\ c_token cfg = Some (se_access x) /\ se_refresh x = se_access x /\
    exists r o, sr = Some r /\ nth_error (s_objs st) r = Some o /\ se_handle x = r_handle o /\ repo_did o = Ok (se_did x).
Proof. exact c65_refresh. Qed.
Print Assumptions C65_refresh.
(** Unless the app sets that repo they always fail. *)
Theorem C65_unset : forall cfg header st, (exists e, get_session cfg None header st = (st, Err e)) /\ exists e, refresh_session cfg None header st = (st, Err e).
Proof. exact c65_unset. Qed.
Print Assumptions C65_unset.

(** Full statement: whoever does not know the password of a repo gets no session. In fact everyone
    gets one with any password, for every repo, and its token is the one that all methods accept. *)
Theorem C65_refuted : forall digest kdigest validate ecdsa now cb be netloc_ok cfg, setting digest kdigest validate cb ->
  forall w bk did key recs password, serves digest kdigest validate ecdsa now cb be netloc_ok cfg w bk -> dget did bk = Some (key, recs) ->
  (exists token, c_token cfg = Some token /\ token <> []) ->
  exists st' x, create_session be cfg (Login did password) (w_state w) = (st', Ok x) /\ se_did x = Some did /\ has_token cfg (Some (s "Bearer " ++ se_access x)).
Proof. exact c65_anyone. Qed.
Print Assumptions C65_refuted.

(** With a session for one repo, even a deactivated one, and a wrong password, a record is written to another repo. *)
Example C65_other : vserves Datastore (vend Datastore) vbook /\ forall be, exists st1 x st2 a,
  create_session be vcfg (Login bob (s "wrong")) (w_state (vend be)) = (st1, Ok x) /\ se_did x = Some bob /\
  vserve be (other_put x) st1 = (st2, Ok a) /\ record_seen be st1 = None /\ record_seen be st2 = Some (norm (post 1)).
Proof. exact (conj (vstory_serves Datastore) c65_other). Qed.

(** The server's own repo. *)
Example C65_get_case be : exists h d, snd (get_session vcfg (Some 0%nat) vtoken (w_state (vend be))) = Ok (h, Some d) /\
  snd (get_session vcfg (Some 0%nat) (Some (s "Bearer x")) (w_state (vend be))) = Err ValueError /\
  snd (refresh_session vcfg (Some 0%nat) vtoken (w_state (vend be))) = Ok (Session h (Some d) (s "token") (s "token")).
Proof. destruct be; eexists _, _; split; [vm_compute; reflexivity|split; vm_compute; reflexivity|vm_compute; reflexivity|split; vm_compute; reflexivity]. Qed.
