(** C72: repos are moved between servers and live on. *)
From Coq Require Import String List NArith ZArith Bool.
From Verif Require Import Base Lists Ipld MstModel BlockModel CarModel StorageModel StorageSpec RepoSpec RepoExamples MessageSpec MessageExamples
  UriModel EventsModel ServerModel ServerSpec ServerExamples ExportSpec ImportFacts AnySpec AnyExamples LiveSpec LiveFacts LiveExamples.
Import ListNotations.

(** The repos of a server - created on it, or imported from CARs that getRepo gave on such servers, and
    written to since then by any operations and requests - have the keys and records that they should have,
    and no other repos are there. *)
Theorem C72_hosted digest kdigest sv w bk did : (forall a, length (digest a) = 32%nat) -> hosts digest kdigest sv w bk ->
  (forall key recs, dget did bk = Some (key, recs) ->
     exists o, seen (p_be sv) (w_state w) did = Some o /\ repo_did o = Ok (Some did) /\ r_key o = key /\ shows kdigest (w_state w) o recs) /\
  (is_did did -> dget did bk = None -> seen (p_be sv) (w_state w) did = None).
Proof. exact (fun D => c72_hosted digest kdigest D sv w bk did). Qed.
Print Assumptions C72_hosted.

(** Alice's repo came from a server with the other kind of storage; it was activated and got another record. *)
Example C72_hosted_case be : exists car, story be car /\ lhosts be (v_world (lafter be car)) (v_book (lafter be car)) /\
  exists key recs, dget alice (v_book (lafter be car)) = Some (key, recs) /\ map fst recs = [s "app.post/a0"; s "app.post/b2"; s "app.post/c0"].
Proof.
  destruct (lstory be) as (car & Y). exists car. split; [exact Y|]. split; [apply Y|].
  destruct (y_final _ _ Y) as (o & key & recs & _ & _ & A & B). exists key, recs. auto.
Qed.

(** A commit on any repo there, also on one that was imported, succeeds exactly if the repo is active and the
    writes can be applied to the records. *)
Theorem C72_commits digest kdigest sv w bk h o did key recs ws w' out : (forall a, length (digest a) = 32%nat) -> hosts digest kdigest sv w bk -> handle_obj w h = Some o -> repo_did o = Ok (Some did) ->
  dget did bk = Some (key, recs) -> on_storage digest kdigest sv w (SCommit h ws) = (w', out) ->
  (exists cd, out = Ok (OutCommit cd)) <->
  r_status o = None /\ writes_allowed (p_validate sv) recs ws /\ (len ws <= 200)%N /\ (s_next (w_state w) < 2 ^ 55)%Z.
Proof. exact (fun D => c72_commits digest kdigest D sv w bk h o did key recs ws w' out). Qed.
Print Assumptions C72_commits.

Example C72_commits_case be : exists car o key recs, lhosts be (v_world (lactive be car)) (v_book (lactive be car)) /\
  handle_obj (v_world (lactive be car)) 1 = Some o /\ repo_did o = Ok (Some alice) /\ dget alice (v_book (lactive be car)) = Some (key, recs) /\
  map fst recs = [s "app.post/a0"; s "app.post/b2"] /\
  exists cd, snd (on_storage wdigest xkdigest (lserver be) (v_world (lactive be car)) (SCommit 1 lput)) = Ok (OutCommit cd).
Proof.
  destruct (lstory be) as (car & Y). destruct (y_handle _ _ Y) as (o & key & recs & A & B & _ & C & E). exists car, o, key, recs.
  split; [apply Y|]. do 4 (split; [assumption|]). exact (y_write _ _ Y).
Qed.

(** So do requests, and they are answered as they should be (see C39 for what that is). *)
Theorem C72_requests digest kdigest sv w bk q st' out : (forall a, length (digest a) = 32%nat) -> hosts digest kdigest sv w bk -> (p_be sv = Memory -> (s_next (w_state w) < 2 ^ 55)%Z) ->
  on_request digest kdigest sv q (w_state w) = (st', out) ->
  (request_ok (p_validate sv) (p_be sv) (p_netloc sv) (p_cfg sv) w bk q /\
    exists a, out = Ok a /\ answered digest (p_be sv) (p_netloc sv) (w_state w) bk q a) \/
  (~ request_ok (p_validate sv) (p_be sv) (p_netloc sv) (p_cfg sv) w bk q /\ exists e, out = Err e).
Proof. exact (fun D => c72_requests digest kdigest D sv w bk q st' out). Qed.
Print Assumptions C72_requests.

Example C72_requests_case be : exists car, lhosts be (v_world (lactive be car)) (v_book (lactive be car)) /\
  (s_next (w_state (v_world (lactive be car))) < 2 ^ 55)%Z /\
  exists a, snd (on_request wdigest xkdigest (lserver be) (vput alice (s "c0") 3) (w_state (v_world (lactive be car)))) = Ok a.
Proof. destruct (lstory be) as (car & Y). exists car. split; [apply Y|]. split; [apply Y|exact (y_put _ _ Y)]. Qed.

(** getRepo gives each active repo there, also one that was imported: exactly the blocks of its head commit,
    and the reading methods give its records from them. So it can be moved on. *)
Theorem C72_exports digest kdigest sv w bk x did o key recs since : (forall a, length (digest a) = 32%nat) -> hosts digest kdigest sv w bk -> names (p_be sv) (p_netloc sv) (w_state w) x did o -> r_status o = None ->
  dget did bk = Some (key, recs) -> since = None \/ since = Some [] ->
  exists h root car bl, r_head o = Some h /\ item_link (s "data") (b_val h) = Ok root /\
    snd (on_get_repo digest sv x since (w_state w)) = Ok car /\ read_car car = Some ([b_cid h], bl) /\
    genuine digest (w_state w) bl /\ (forall c, In c (keys bl) <-> block_of digest (w_state w) h root recs c) /\
    readable digest kdigest (car_reader bl) h root recs.
Proof. exact (fun D => c72_exports digest kdigest D sv w bk x did o key recs since). Qed.
Print Assumptions C72_exports.

Example C72_exports_case be : exists car o key recs, lhosts be (v_world (lafter be car)) (v_book (lafter be car)) /\
  names be vnetloc (w_state (v_world (lafter be car))) alice alice o /\ r_status o = None /\ dget alice (v_book (lafter be car)) = Some (key, recs) /\
  map fst recs = [s "app.post/a0"; s "app.post/b2"; s "app.post/c0"].
Proof.
  destruct (lstory be) as (car & Y). destruct (y_final _ _ Y) as (o & key & recs & A & B & C & E). exists car, o, key, recs.
  split; [apply Y|auto].
Qed.

(** A repo that getRepo gave on one server is taken by another exactly if the request is allowed, the repo is
    not there yet, and its head is signed with a key in the DID document. Then the head commit and the records
    are those it had, and it is deactivated. *)
Theorem C72_imports digest kdigest sv w bk sv0 w0 bk0 x did o h key0 recs since car header key st' out : (forall a, length (digest a) = 32%nat) -> hosts digest kdigest sv w bk -> hosts digest kdigest sv0 w0 bk0 ->
  names (p_be sv0) (p_netloc sv0) (w_state w0) x did o -> r_head o = Some h -> dget did bk0 = Some (key0, recs) -> since = None \/ since = Some [] ->
  snd (on_get_repo digest sv0 x since (w_state w0)) = Ok car ->
  on_import sv header car key (w_state w) = (st', out) ->
  (takes sv header bk did h /\ out = Ok tt /\
    exists o' h', seen (p_be sv) st' did = Some o' /\ r_head o' = Some h' /\ b_cid h' = b_cid h /\ b_val h' = b_val h /\
      r_status o' = Some (s "deactivated") /\ r_key o' = key /\ shows kdigest st' o' recs) \/
  (~ takes sv header bk did h /\ exists e, out = Err e).
Proof. exact (fun D => c72_imports digest kdigest D sv w bk sv0 w0 bk0 x did o h key0 recs since car header key st' out). Qed.
Print Assumptions C72_imports.

Example C72_imports_case be : exists car o h key recs, lhosts be (v_world (lbefore be)) (v_book (lbefore be)) /\
  hosts wdigest xkdigest (lserver (other be)) (v_world (lsource be)) (v_book (lsource be)) /\
  names (other be) vnetloc (w_state (v_world (lsource be))) alice alice o /\ r_head o = Some h /\
  dget alice (v_book (lsource be)) = Some (key, recs) /\ map fst recs = [s "app.post/a0"; s "app.post/b2"] /\
  snd (on_get_repo wdigest (lserver (other be)) alice None (w_state (v_world (lsource be)))) = Ok car /\
  takes (lserver be) vtoken (v_book (lbefore be)) alice h /\
  snd (on_import (lserver be) vtoken car 7 (w_state (v_world (lbefore be)))) = Ok tt.
Proof.
  destruct (lstory be) as (car & Y). destruct (y_names _ _ Y) as (o & h & key & recs & A & _ & B & C & E). exists car, o, h, key, recs.
  split; [apply Y|]. split; [apply Y|]. do 4 (split; [assumption|]). split; [apply Y|]. split; [apply Y|exact (y_import _ _ Y)].
Qed.

(** Imports of CARs that getRepo gave with since are taken too. After one, a commit to another repo can succeed
    whose record getRepo does not give any more, although it would without the import: the blocks that the CAR
    had are taken as old. *)
Theorem C72_others_refuted : exists digest kdigest validate ecdsa now cb netloc_ok cfg, setting digest kdigest validate cb /\ (forall x, length (digest x) = 32%nat) /\
  forall be, exists w0 bk0 did0 o0 rev car l imp a did path v,
  let run := arun digest kdigest validate ecdsa now cb be init_world in
  let step := astep digest kdigest validate ecdsa now cb be in
  serves digest kdigest validate ecdsa now cb be netloc_ok cfg w0 bk0 /\ seen be (w_state w0) did0 = Some o0 /\ r_status o0 = None /\
  snd (get_repo digest be netloc_ok false did0 (Some rev) (w_state w0)) = Ok car /\
  Forall (act_ok digest) (l ++ [imp; a]) /\ (exists c r k vf h hd n, imp = AImport c r k vf h hd car n) /\
  act_did be (run l) imp = Some did0 /\ act_did be (run (l ++ [imp])) a = Some did /\ did <> did0 /\
  snd (step (run l) imp) = None /\ snd (step (run (l ++ [imp])) a) = None /\
  export_has digest kdigest be netloc_ok (w_state (run (l ++ [a]))) did path v /\
  forall v, ~ export_has digest kdigest be netloc_ok (w_state (run (l ++ [imp; a]))) did path v.
Proof. exact c72_others. Qed.
Print Assumptions C72_others_refuted.

(** The next commit of an imported repo can have a lower rev than the commit it follows, and listRepos gives
    another rev for it than that of its head. *)
Theorem C72_revs_refuted : exists digest kdigest validate ecdsa now cb netloc_ok cfg, setting digest kdigest validate cb /\ (forall x, length (digest x) = 32%nat) /\
  forall be, exists w0 bk0 did o0 car imp l a r r' x,
  let run := arun digest kdigest validate ecdsa now cb be init_world in
  serves digest kdigest validate ecdsa now cb be netloc_ok cfg w0 bk0 /\ seen be (w_state w0) did = Some o0 /\ r_status o0 = None /\
  snd (get_repo digest be netloc_ok false did None (w_state w0)) = Ok car /\
  Forall (act_ok digest) (imp :: l ++ [a]) /\ (exists c r k vf h hd n, imp = AImport c r k vf h hd car n) /\
  smooth digest kdigest validate ecdsa now cb be init_world (imp :: l ++ [a]) /\ act_did be (run (imp :: l)) a = Some did /\
  rev_of be (run (imp :: l)) did r /\ rev_of be (run (imp :: l ++ [a])) did r' /\ slt r' r /\
  snd (list_repos be 10 None (w_state (run (imp :: l)))) = Ok ([x], None) /\ l_did x = did /\ l_rev x <> r.
Proof. exact c72_revs. Qed.
Print Assumptions C72_revs_refuted.
