(** C76: head and description of a repo. *)
From Coq Require Import String List NArith ZArith Bool Sorted Permutation.
From Verif Require Import Base Lists Ipld MstModel TidModel BlockModel CarModel StorageModel StorageSpec RepoSpec RepoExamples MessageExamples
  UriModel EventsModel ServerModel ServerSpec ServerExamples ExportSpec LiveSpec LiveFacts LiveExamples HeadFacts HeadExamples.
Import ListNotations.

(** On a server with repos that were created there or moved there, and all requests and operations since:
    getHead and getLatestCommit give the CID of a commit of that repo that is stored, with which one finds
    exactly the records that the repo should have, and its rev. *)
Theorem C76_head digest kdigest sv w bk x did o key recs : (forall a, length (digest a) = 32%nat) -> hosts digest kdigest sv w bk ->
  names (p_be sv) (p_netloc sv) (w_state w) x did o -> r_status o = None -> dget did bk = Some (key, recs) ->
  exists h root rev, snd (get_head (p_be sv) (p_netloc sv) x (w_state w)) = Ok (b_cid h) /\
    snd (get_latest_commit (p_be sv) (p_netloc sv) x (w_state w)) = Ok (b_cid h, IText rev) /\
    item_text (s "rev") (b_val h) = Ok rev /\ item_text (s "did") (b_val h) = Ok did /\ item_link (s "data") (b_val h) = Ok root /\
    b_cid h = cid_of digest (b_val h) /\ readable digest kdigest (fun c => option_map b_val (dget c (s_blocks (w_state w)))) h root recs.
Proof. exact (fun D => c76_head digest kdigest D sv w bk x did o key recs). Qed.
Print Assumptions C76_head.

Example C76_head_case be : exists car o key recs, lhosts be (v_world (lafter be car)) (v_book (lafter be car)) /\
  names be vnetloc (w_state (v_world (lafter be car))) alice alice o /\ r_status o = None /\ dget alice (v_book (lafter be car)) = Some (key, recs) /\
  map fst recs = [s "app.post/a0"; s "app.post/b2"; s "app.post/c0"].
Proof.
  destruct (lstory be) as (car & Y). destruct (y_final _ _ Y) as (o & key & recs & A & B & C & E). exists car, o, key, recs.
  split; [apply Y|auto].
Qed.

(** After a commit they give that commit, if the repo is active; its rev is the TID of its sequence number. *)
Theorem C76_committed digest kdigest sv w bk i o did key recs ws w' cd : (forall a, length (digest a) = 32%nat) -> hosts digest kdigest sv w bk ->
  handle_obj w i = Some o -> repo_did o = Ok (Some did) -> dget did bk = Some (key, recs) ->
  on_storage digest kdigest sv w (SCommit i ws) = (w', Ok (OutCommit cd)) ->
  exists o', seen (p_be sv) (w_state w') did = Some o' /\ repo_did o' = Ok (Some did) /\ (r_status o' = None ->
    exists rev, int_to_tid (s_next (w_state w)) 0 = Ok rev /\ snd (get_head (p_be sv) (p_netloc sv) did (w_state w')) = Ok (b_cid (cd_commit cd)) /\
      snd (get_latest_commit (p_be sv) (p_netloc sv) did (w_state w')) = Ok (b_cid (cd_commit cd), IText rev)).
Proof. exact (fun D => c76_committed digest kdigest D sv w bk i o did key recs ws w' cd). Qed.
Print Assumptions C76_committed.

(** The first commit after the move. *)
Example C76_committed_case be : exists car o key recs, lhosts be (v_world (lactive be car)) (v_book (lactive be car)) /\
  handle_obj (v_world (lactive be car)) 1 = Some o /\ repo_did o = Ok (Some alice) /\ dget alice (v_book (lactive be car)) = Some (key, recs) /\
  map fst recs = [s "app.post/a0"; s "app.post/b2"] /\
  exists cd, snd (on_storage wdigest xkdigest (lserver be) (v_world (lactive be car)) (SCommit 1 lput)) = Ok (OutCommit cd).
Proof.
  destruct (lstory be) as (car & Y). destruct (y_handle _ _ Y) as (o & key & recs & A & B & _ & C & E). exists car, o, key, recs.
  split; [apply Y|]. do 4 (split; [assumption|]). exact (y_write _ _ Y).
Qed.

(** getRepo's CAR has that CID as its root. *)
Theorem C76_repo digest kdigest sv w bk x did o key recs car : (forall a, length (digest a) = 32%nat) -> hosts digest kdigest sv w bk ->
  names (p_be sv) (p_netloc sv) (w_state w) x did o -> r_status o = None -> dget did bk = Some (key, recs) ->
  snd (on_get_repo digest sv x None (w_state w)) = Ok car ->
  exists c bl, snd (get_head (p_be sv) (p_netloc sv) x (w_state w)) = Ok c /\ read_car car = Some ([c], bl).
Proof. exact (fun D => c76_repo digest kdigest D sv w bk x did o key recs car). Qed.
Print Assumptions C76_repo.

Example C76_repo_case be : exists car o key recs, hosts wdigest xkdigest (lserver be) (v_world (lsource (other be))) (v_book (lsource (other be))) /\
  names be vnetloc (w_state (v_world (lsource (other be)))) alice alice o /\ r_status o = None /\
  dget alice (v_book (lsource (other be))) = Some (key, recs) /\ map fst recs = [s "app.post/a0"; s "app.post/b2"] /\
  snd (on_get_repo wdigest (lserver be) alice None (w_state (v_world (lsource (other be))))) = Ok car.
Proof.
  destruct (lstory (other be)) as (car & Y). pose proof (y_source _ _ Y) as S. pose proof (y_names _ _ Y) as (o & h & key & recs & A & B & _ & C & E).
  pose proof (y_car _ _ Y) as G. replace (other (other be)) with be in * by (destruct be; reflexivity). exists car, o, key, recs. auto 10.
Qed.

(** describeRepo gives the DID, the handle and the document, and the supported collections in order; if none
    are configured, the collections in which the repo has records, each once. If the DID document cannot be
    had it fails. *)
Theorem C76_describe digest kdigest sv w bk x did o key recs resolve : (forall a, length (digest a) = 32%nat) -> hosts digest kdigest sv w bk ->
  names (p_be sv) (p_netloc sv) (w_state w) x did o -> r_status o = None -> dget did bk = Some (key, recs) ->
  match resolve did with
  | Ok doc => exists colls, snd (describe_repo kdigest (p_be sv) (p_netloc sv) (p_cfg sv) resolve (Some x) (w_state w)) = Ok (did, r_handle o, doc, colls) /\
      (c_supported (p_cfg sv) <> [] -> Permutation colls (c_supported (p_cfg sv)) /\ Sorted (fun a b => ~ slt b a) colls) /\
      (c_supported (p_cfg sv) = [] -> NoDup colls /\ forall coll, In coll colls <-> exists rkey, dget (record_path coll rkey) recs <> None)
  | Err e => snd (describe_repo kdigest (p_be sv) (p_netloc sv) (p_cfg sv) resolve (Some x) (w_state w)) = Err e
  end.
Proof. exact (fun D => c76_describe digest kdigest D sv w bk x did o key recs resolve). Qed.
Print Assumptions C76_describe.

Example C76_describe_case be : exists car o key recs, lhosts be (v_world (lafter be car)) (v_book (lafter be car)) /\
  names be vnetloc (w_state (v_world (lafter be car))) alice alice o /\ r_status o = None /\ dget alice (v_book (lafter be car)) = Some (key, recs) /\
  map fst recs = [s "app.post/a0"; s "app.post/b2"; s "app.post/c0"] /\ c_supported (p_cfg (lserver be)) = [] /\ record_path (s "app.post") (s "a0") = s "app.post/a0".
Proof.
  destruct (lstory be) as (car & Y). destruct (y_final _ _ Y) as (o & key & recs & A & B & C & E). exists car, o, key, recs.
  split; [apply Y|]. do 4 (split; [assumption|]). split; reflexivity.
Qed.

Example C76_describe_supported : exists sv w bk o key recs, hosts wdigest xkdigest sv w bk /\ names (p_be sv) (p_netloc sv) (w_state w) alice alice o /\
  r_status o = None /\ dget alice bk = Some (key, recs) /\ c_supported (p_cfg sv) = [s "b"; s "a"] /\
  snd (describe_repo xkdigest (p_be sv) (p_netloc sv) (p_cfg sv) (fun _ => Ok INull) (Some alice) (w_state w)) = Ok (alice, r_handle o, INull, [s "a"; s "b"]).
Proof. exact describe_two. Qed.
