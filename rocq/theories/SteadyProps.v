(** C22 and C28 for servers that take requests. *)
From Coq Require Import String List NArith ZArith Bool.
From Verif Require Import Base Lists Ipld MstModel StorageModel StorageSpec RepoSpec RepoExamples IsolateProps ChainSpec ChainProps TellProps UriModel ServerModel
  ServerSpec ServerExamples AnySpec SteadySpec SteadyProofs.
Import ListNotations.

(** ** C22 *)

(** On every server, whatever operations and requests it took and whatever failed: all commits from the
    head of a repo on are stored, for its DID, signed with its key, with falling revs. Imports are left
    out: an imported repo comes without the commits before its head. *)
Theorem C22_requests digest kdigest validate ecdsa now cb be l did o : (forall a b, digest a = digest b -> a = b) ->
  Forall no_import l -> is_did did ->
  let w := arun digest kdigest validate ecdsa now cb be init_world l in
  seen be (w_state w) did = Some o ->
  exists h rev, r_head o = Some h /\ signed_chain ecdsa (w_state w) did (r_key o) (b_cid h) rev.
Proof. exact (fun inj => chain_steady digest kdigest validate ecdsa now cb be inj l did o). Qed.
Print Assumptions C22_requests.

(** ** C28 *)

(** On every such server, a request changes no block, uses no number and calls nobody; or it does one
    commit to the repo that it names, with one number, and the callback of that repo hears of it. *)
Theorem C28_request digest kdigest validate ecdsa now cb be l netloc_ok cfg q : (forall a b, digest a = digest b -> a = b) ->
  Forall no_import l ->
  let st := w_state (arun digest kdigest validate ecdsa now cb be init_world l) in
  let r := serve digest kdigest validate ecdsa cb be netloc_ok cfg q st in
  untouched st (fst r) \/
  exists x y o, request_repo q = Some x /\ repo_name netloc_ok x = Ok y /\ seen be st y = Some o /\
    outcome cb (r_callback o) st (fst r) (exists e, snd r = Err e).
Proof. exact (fun inj => request_steady digest kdigest validate ecdsa now cb be inj l netloc_ok cfg q). Qed.
Print Assumptions C28_request.

(** Commits on such servers, as C28_any says without requests. *)
Theorem C28_requests_commit digest kdigest validate ecdsa now cb be l h o ws : (forall a b, digest a = digest b -> a = b) ->
  Forall no_import l ->
  let w := arun digest kdigest validate ecdsa now cb be init_world l in
  handle_obj w h = Some o ->
  let '(w', out) := sstep digest kdigest validate ecdsa now cb be w (SCommit h ws) in
  outcome cb (r_callback o) (w_state w) (w_state w') (exists e, out = Err e).
Proof. exact (fun inj => commit_steady digest kdigest validate ecdsa now cb be inj l h o ws). Qed.
Print Assumptions C28_requests_commit.

(** Nothing is stored with a number that has not been taken yet. *)
Theorem C28_requests_below digest kdigest validate ecdsa now cb be l c b : (forall a b, digest a = digest b -> a = b) ->
  Forall no_import l ->
  let w := arun digest kdigest validate ecdsa now cb be init_world l in
  read (w_state w) c = Some b -> (b_seq b < s_next (w_state w))%Z.
Proof. exact (fun inj => below_steady digest kdigest validate ecdsa now cb be inj l c b). Qed.
Print Assumptions C28_requests_below.

(** A repo with a callback that raises from its sixth call on: a commit that fails halfway, two puts and a
    delete of a record that is not there. In memory the repo that requests use is the one with the
    callback. *)
Definition steady_cb (n : nat) : option exn := if Nat.ltb n 6 then None else Some RuntimeError.
Definition steady_acts : list act :=
  [AStorage (SCreate alice None None true 1); AStorage (SCommit 0 [wcreate (s "k0") 1; wdelete (s "zz")]);
   ARequest vnetloc vcfg (vput alice (s "k1") 2)].
Definition steady_world (be : backend) : world := arun xdigest xkdigest xvalidate xecdsa xnow steady_cb be init_world steady_acts.
Definition steady_one (be : backend) (q : request) :=
  let st := w_state (steady_world be) in let r := serve xdigest xkdigest xvalidate xecdsa steady_cb be vnetloc vcfg q st in
  (match snd r with Ok _ => None | Err e => Some e end, (s_next (fst r) - s_next st)%Z,
   map tell_call (firstn (length (s_calls (fst r)) - length (s_calls st)) (s_calls (fst r)))).
Example C28_request_case : (forall a b, xdigest a = xdigest b -> a = b) /\ Forall no_import steady_acts /\
  (steady_one Memory (vput alice (s "k2") 3) = (Some RuntimeError, 1%Z, [inl 7%Z; inr true])) /\
  (steady_one Datastore (vput alice (s "k2") 3) = (None, 1%Z, [])) /\
  forall be, steady_one be (RDelete vtoken (Input (Some alice) (Some (s "app.post")) (Some (s "zz")) None false)) = (None, 0%Z, []) /\
    match seen be (w_state (steady_world be)) alice with
    | Some o => match r_head o with Some h => back (w_state (steady_world be)) 9 (b_cid h) = Some 1 | None => False end
    | None => False
    end.
Proof.
  split; [exact (fun a b H => H)|]. split; [repeat constructor; discriminate|]. split; [vm_compute; reflexivity|]. split; [vm_compute; reflexivity|].
  intros be. destruct be; vm_compute; split; reflexivity.
Qed.
