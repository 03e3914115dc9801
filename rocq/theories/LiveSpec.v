(** Servers that repos are moved between. *)
From Coq Require Import String List NArith ZArith Bool.
From Verif Require Import Base Lists Ipld MstModel BlockModel CarModel StorageModel StorageSpec RepoSpec UriModel EventsModel
  ServerModel ServerSpec CrashModel CrashSpec.
Import ListNotations.

(** A server: how it validates and signs, its clock, callback, storage and configuration, and how it resolves DIDs. *)
Record server := Server {
  p_validate : ipld -> res unit;
  p_ecdsa : N -> Z -> list N -> list N;
  p_now : Z -> str;
  p_cb : nat -> option exn;
  p_be : backend;
  p_netloc : str -> bool;
  p_cfg : config;
  p_resolve : str -> res ipld;
  p_signing_key : ipld -> option (list N);
  p_verify : ipld -> list N -> bool;
  p_handle : ipld -> option str
}.

Section Spec.
Variable digest : list N -> list N.
Variable kdigest : str -> list N.

Definition proper (sv : server) : Prop :=
  setting digest kdigest (p_validate sv) (p_cb sv) /\ forall doc, handle_ok (p_handle sv doc).

Definition on_storage (sv : server) := sstep digest kdigest (p_validate sv) (p_ecdsa sv) (p_now sv) (p_cb sv) (p_be sv).
Definition on_request (sv : server) := serve digest kdigest (p_validate sv) (p_ecdsa sv) (p_cb sv) (p_be sv) (p_netloc sv) (p_cfg sv).
Definition on_import (sv : server) := import_repo (p_be sv) (p_cfg sv) (p_resolve sv) (p_signing_key sv) (p_verify sv) (p_handle sv).
Definition on_storage_dies (sv : server) := crash digest kdigest (p_validate sv) (p_ecdsa sv) (p_now sv) (p_cb sv).
Definition dies_book (sv : server) (bk : book) (w : world) (op : sop) (k : nat) : book :=
  turn_book digest kdigest (p_validate sv) (p_ecdsa sv) (p_now sv) (p_cb sv) bk w (Died op k 0).
Definition on_get_repo (sv : server) := get_repo digest (p_be sv) (p_netloc sv) false.

(** The server [sv] after operations on its storage, requests, and imports of repos that getRepo of servers
    like it gave, if its storage is a datastore also after processes died in the middle of any of these, with the keys and records that its repos should have. A repo that is imported should have
    the records that it had where it came from. *)
Inductive hosts : server -> world -> book -> Prop :=
| h_new sv : proper sv -> hosts sv init_world []
| h_storage sv w bk op w' out : hosts sv w bk -> op_named op -> (p_be sv = Memory -> clean_step w op out) ->
    on_storage sv w op = (w', out) -> hosts sv w' (book_step bk op out)
| h_request sv w bk q st' out : hosts sv w bk -> (p_be sv = Memory -> (s_next (w_state w) < 2 ^ 55)%Z) ->
    on_request sv q (w_state w) = (st', out) ->
    hosts sv (World st' (w_refs w)) (request_book (p_be sv) (p_netloc sv) (w_state w) bk q out)
| h_import sv w bk sv0 w0 bk0 x did o key0 recs since car header key st' out : hosts sv w bk -> hosts sv0 w0 bk0 ->
    names (p_be sv0) (p_netloc sv0) (w_state w0) x did o -> dget did bk0 = Some (key0, recs) -> since = None \/ since = Some [] ->
    snd (on_get_repo sv0 x since (w_state w0)) = Ok car ->
    on_import sv header car key (w_state w) = (st', out) ->
    hosts sv (World st' (w_refs w)) (match out with Ok _ => dset did (key, recs) bk | Err _ => bk end)
| h_storage_dies sv w bk op k lost : hosts sv w bk -> p_be sv = Datastore -> op_named op ->
    hosts sv (on_storage_dies sv w op k lost) (dies_book sv bk w op k)
| h_request_dies sv w bk q lost : hosts sv w bk -> p_be sv = Datastore ->
    hosts sv (World (halfway lost (w_state w) (fst (on_request sv q (w_state w)))) []) bk
| h_import_dies sv w bk sv0 w0 bk0 x did o key0 recs since car header key lost : hosts sv w bk -> hosts sv0 w0 bk0 -> p_be sv = Datastore ->
    names (p_be sv0) (p_netloc sv0) (w_state w0) x did o -> dget did bk0 = Some (key0, recs) -> since = None \/ since = Some [] ->
    snd (on_get_repo sv0 x since (w_state w0)) = Ok car ->
    hosts sv (World (halfway lost (w_state w) (fst (on_import sv header car key (w_state w)))) []) bk.

(** The server takes a repo: the request is allowed, it does not have the repo, and the DID document has a
    key that the commit is signed with. *)
Definition takes (sv : server) (header : option str) (bk : book) (did : str) (h : block) : Prop :=
  authorized (p_cfg sv) header /\ dget did bk = None /\
  exists doc k, p_resolve sv did = Ok doc /\ p_signing_key sv doc = Some k /\ p_verify sv (b_val h) k = true.
End Spec.
