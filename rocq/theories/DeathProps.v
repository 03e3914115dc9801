(** C83: servers the processes of which die in the middle of requests. *)
From Coq Require Import String List NArith ZArith Bool.
From Verif Require Import Base Lists Ipld MstModel StorageModel StorageSpec RepoSpec RepoExamples MessageExamples UriModel ServerModel ServerSpec ServerExamples CrashModel CrashSpec LiveSpec LiveFacts LiveExamples DeathFacts DeathExamples.
Import ListNotations.

(** If the process dies while a request writes, then no repo has changed, by whatever name one asks for it. *)
Theorem C83_request digest kdigest sv w bk q lost x : (forall a, length (digest a) = 32%nat) -> hosts digest kdigest sv w bk -> p_be sv = Datastore ->
  seen Datastore (halfway lost (w_state w) (fst (on_request digest kdigest sv q (w_state w)))) x = seen Datastore (w_state w) x.
Proof. exact (fun D => request_seen digest kdigest D sv w bk q lost x). Qed.
Print Assumptions C83_request.

(** And each request, also the one that died, is answered as if that one had not been there. *)
Theorem C83_again digest kdigest sv w bk q q' lost : (forall a, length (digest a) = 32%nat) -> hosts digest kdigest sv w bk -> p_be sv = Datastore ->
  let st' := halfway lost (w_state w) (fst (on_request digest kdigest sv q (w_state w))) in (s_next st' < 2 ^ 55)%Z ->
  forall a, snd (on_request digest kdigest sv q' st') = Ok a <-> snd (on_request digest kdigest sv q' (w_state w)) = Ok a.
Proof. exact (fun D => request_again digest kdigest D sv w bk q q' lost). Qed.
Print Assumptions C83_again.

(** Alice's third record: its blocks are there, but it is not. When the request is made again it is. *)
Example C83_request_case : (forall a, length (wdigest a) = 32%nat) /\ hosts wdigest xkdigest dserver dworld (v_book (lsource Memory)) /\ (s_next dead < 2 ^ 55)%Z /\
  dead = halfway 5 (w_state dworld) (fst (on_request wdigest xkdigest dserver dput (w_state dworld))) /\ length (s_blocks (w_state dworld)) < length (s_blocks dead) /\
  (exists a, snd (dask (dget_of (s "a0")) dead) = Ok a) /\ (exists e, snd (dask (dget_of (s "c0")) dead) = Err e) /\
  (exists a, snd (dask dput dead) = Ok a) /\ (exists a, snd (dask (dget_of (s "c0")) (fst (dask dput dead))) = Ok a).
Proof.
  split; [exact wdigest_length|]. split; [exact dhosts|]. destruct dstory as (A & B & C). split; [exact A|]. split; [reflexivity|]. split; [exact B|exact C].
Qed.

(** If it dies while importRepo writes, no repo has changed, so the one that was to be imported is not there. *)
Theorem C83_import digest kdigest sv w bk header car key lost x : (forall a, length (digest a) = 32%nat) -> hosts digest kdigest sv w bk -> p_be sv = Datastore ->
  seen Datastore (halfway lost (w_state w) (fst (on_import sv header car key (w_state w)))) x = seen Datastore (w_state w) x.
Proof. exact (fun D => import_seen digest kdigest D sv w bk header car key lost x). Qed.
Print Assumptions C83_import.

(** The CAR can be imported again, if it could be before, and gives the repo with its records. *)
Theorem C83_import_again digest kdigest sv w bk sv0 w0 bk0 x did o h key0 recs since car header key lost header' key' : (forall a, length (digest a) = 32%nat) ->
  hosts digest kdigest sv w bk -> hosts digest kdigest sv0 w0 bk0 -> p_be sv = Datastore ->
  names (p_be sv0) (p_netloc sv0) (w_state w0) x did o -> r_head o = Some h -> dget did bk0 = Some (key0, recs) -> since = None \/ since = Some [] ->
  snd (on_get_repo digest sv0 x since (w_state w0)) = Ok car -> takes sv header' bk did h ->
  let st' := halfway lost (w_state w) (fst (on_import sv header car key (w_state w))) in
  snd (on_import sv header' car key' st') = Ok tt /\
  exists o', seen Datastore (fst (on_import sv header' car key' st')) did = Some o' /\ r_key o' = key' /\ shows kdigest (fst (on_import sv header' car key' st')) o' recs.
Proof. exact (fun D => import_again digest kdigest D sv w bk sv0 w0 bk0 x did o h key0 recs since car header key lost header' key'). Qed.
Print Assumptions C83_import_again.

Example C83_import_case : exists car o h key recs, hosts wdigest xkdigest dserver iworld (v_book (lbefore Datastore)) /\
  hosts wdigest xkdigest (lserver Memory) (v_world (lsource Datastore)) (v_book (lsource Datastore)) /\
  names Memory vnetloc (w_state (v_world (lsource Datastore))) alice alice o /\ r_head o = Some h /\ dget alice (v_book (lsource Datastore)) = Some (key, recs) /\
  snd (on_get_repo wdigest (lserver Memory) alice None (w_state (v_world (lsource Datastore)))) = Ok car /\ takes dserver vtoken (v_book (lbefore Datastore)) alice h /\
  length (s_blocks (w_state iworld)) < length (s_blocks (idead car)) /\ exists a, snd (on_import dserver vtoken car 8 (idead car)) = Ok a.
Proof.
  destruct istory as (car & Y & A & B). destruct (y_names _ _ Y) as (o & h & key & recs & N1 & _ & N2 & N3 & _). exists car, o, h, key, recs.
  split; [apply Y|]. split; [apply Y|]. do 3 (split; [assumption|]). split; [apply Y|]. split; [apply Y|]. split; [exact A|exact B].
Qed.
