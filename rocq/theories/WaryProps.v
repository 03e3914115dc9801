(** C70: what can be read from blocks that come from anywhere. *)
From Coq Require Import String List NArith ZArith Bool.
From Verif Require Import Base Lists Ipld MstModel MstClient MstSpec CarModel StorageModel StorageSpec RepoSpec RepoExamples MessageSpec MessageExamples
  ServerModel ServerSpec ServerExamples ExportExamples WarySpec WaryProofs.
Import ListNotations.

(** ** C70 *)

(** Whoever reads a tree from its root, with blocks of any origin that have the CIDs they are read
    under, gets from every method the answer that its owner gets, or an error. *)
Theorem C70_tree : forall digest kdigest, collision_free digest -> (forall k, length (kdigest k) = 32) ->
  forall rd ops root, hashed digest rd -> let c := fst (crun digest kdigest (cinit digest) ops) in
  let own := fun k : str => dget k (cl_store c) in
  get_pointer digest (cl_tree c) = Ok root ->
  (forall k y, get kdigest rd max_depth (mst_load root) k = Ok y -> get kdigest own max_depth (cl_tree c) k = Ok y) /\
  (forall l, mst_leaves kdigest rd max_depth (mst_load root) = Ok l -> mst_leaves kdigest own max_depth (cl_tree c) = Ok l) /\
  (forall k l, walk_leaves_from kdigest rd max_depth (mst_load root) k = Ok l -> walk_leaves_from kdigest own max_depth (cl_tree c) k = Ok l) /\
  (forall a b l, mst_list kdigest rd max_depth (mst_load root) a b = Ok l -> mst_list kdigest own max_depth (cl_tree c) a b = Ok l) /\
  (forall p l, list_with_prefix kdigest rd max_depth (mst_load root) p = Ok l -> list_with_prefix kdigest own max_depth (cl_tree c) p = Ok l) /\
  (forall k l, cids_for_path digest kdigest rd max_depth (mst_load root) k = Ok l ->
     cids_for_path digest kdigest own max_depth (cl_tree c) k = Ok l).
Proof. exact wary_tree. Qed.
Print Assumptions C70_tree.

(** In terms of the dictionary that the tree stands for. *)
Theorem C70_dictionary : forall digest kdigest, collision_free digest -> (forall k, length (kdigest k) = 32) ->
  forall rd ops root d outs, hashed digest rd -> dict_run [] ops d outs ->
  get_pointer digest (cl_tree (fst (crun digest kdigest (cinit digest) ops))) = Ok root ->
  forall k y, get kdigest rd max_depth (mst_load root) k = Ok y -> y = dget k d.
Proof. exact wary_dict. Qed.
Print Assumptions C70_dictionary.

(** A client that knows the CID of the head of a repo at some time and gets any CAR file reads
    the commit, the records and the contents of the repo at that time, or an error. *)
Theorem C70_repo : forall digest kdigest validate ecdsa now cb be, setting digest kdigest validate cb ->
  forall ops w outs did key recs o0 h car st o,
  history digest kdigest validate ecdsa now cb be ops w outs -> dget did (book_of [] ops outs) = Some (key, recs) ->
  seen be (w_state w) did = Some o0 -> r_head o0 = Some h -> wary_client digest (b_cid h) car = Some (st, o) ->
  option_map b_val (r_head o) = Some (b_val h) /\
  (forall coll rkey y, get_record kdigest st o coll rkey = Ok y -> y = option_map norm (dget (record_path coll rkey) recs)) /\
  (forall m, get_contents kdigest st o = Ok m ->
     (forall coll rkey, match dget coll m with Some d => dget rkey d | None => None end = option_map norm (dget (record_path coll rkey) recs)) /\
     forall coll, dget coll m <> Some []).
Proof. exact wary_repo. Qed.
Print Assumptions C70_repo.

(** With the CAR that getRepo returns there are no errors. *)
Theorem C70_enough : forall digest kdigest validate ecdsa now cb be, setting digest kdigest validate cb ->
  forall netloc_ok cfg w bk x did o key recs since, (forall a, length (digest a) = 32) ->
  serves digest kdigest validate ecdsa now cb be netloc_ok cfg w bk ->
  names be netloc_ok (w_state w) x did o -> r_status o = None -> dget did bk = Some (key, recs) -> since = None \/ since = Some [] ->
  exists h car st o', r_head o = Some h /\ snd (get_repo digest be netloc_ok false x since (w_state w)) = Ok car /\
    wary_client digest (b_cid h) car = Some (st, o') /\ shows kdigest st o' recs.
Proof. exact wary_enough. Qed.
Print Assumptions C70_enough.

(** alice's repo after [wstory], exported, and then with the block of one record exchanged, another root,
    and a forged block put in front. The exchanged record cannot be read, the others can. *)
Definition forged : list N :=
  match exported Datastore None alice (w_state (wafter wstory)) with
  | Some (c, bl) =>
      write_car [rcid wdigest (post 9)]
        ((c, dag_cbor_encode (post 9)) ::
         map (fun cd => if str_eqb (fst cd) (rcid wdigest (post 4)) then (fst cd, dag_cbor_encode (post 9)) else cd) bl)
  | None => []
  end.
Definition on_forged (f : state -> repo -> res (option ipld)) : option (res (option ipld)) :=
  match seen Datastore (w_state (wafter wstory)) alice with
  | Some o0 => match r_head o0 with
               | Some h => match wary_client wdigest (b_cid h) forged with Some (st, o) => Some (f st o) | None => None end
               | None => None
               end
  | None => None
  end.
Example C70_case :
  whistory wstory (wafter wstory) (snd (wrun wstory)) /\
  option_map snd (dget alice (book_of [] wstory (snd (wrun wstory)))) = Some [(s "app.post/k0", post 3); (s "app.post/k2", post 4)] /\
  on_forged (fun st o => get_record xkdigest st o (s "app.post") (s "k0")) = Some (Ok (Some (norm (post 3)))) /\
  on_forged (fun st o => get_record xkdigest st o (s "app.post") (s "k1")) = Some (Ok None) /\
  on_forged (fun st o => get_record xkdigest st o (s "app.post") (s "k2")) = Some (Err AttributeError) /\
  on_forged (fun st o => do m <- get_contents xkdigest st o; Ok None) = Some (Err AttributeError).
Proof. split; [apply whistory_ok; reflexivity|]. repeat (split; [vm_compute; reflexivity|]). vm_compute. reflexivity. Qed.
