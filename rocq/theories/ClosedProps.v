(** C23: repos that are not active, on servers. *)
From Coq Require Import String List NArith ZArith Bool.
From Verif Require Import Base Lists Ipld MstModel CarModel StorageModel StorageSpec RepoSpec RepoExamples MessageSpec MessageExamples
  UriModel ServerModel ServerSpec ServerExamples ExportExamples ImportFacts IsolateSpec AnySpec AnyExamples ClosedProofs ClosedExamples.
Import ListNotations.

(** A request for a repo that is not active, under any of its names, fails and changes nothing; this
    holds in every state, also after failures. *)
Theorem C23_request digest kdigest validate ecdsa cb be netloc_ok cfg q st x y o c z :
  request_repo q = Some x -> repo_name netloc_ok x = Ok y -> seen be st y = Some o -> r_status o = Some (c :: z) ->
  exists st' e, serve digest kdigest validate ecdsa cb be netloc_ok cfg q st = (st', Err e) /\ same_storage st st'.
Proof. exact (c23_request digest kdigest validate ecdsa cb be netloc_ok cfg q st x y o c z). Qed.
Print Assumptions C23_request.
Example C23_request_case be : let st := w_state (aworld be dstory) in
  request_repo (vput (s "al.ice") (s "k1") 5) = Some (s "al.ice") /\ repo_name vnetloc (s "al.ice") = Ok (s "al.ice") /\
  option_map r_status (seen be st (s "al.ice")) = Some (Some (s "deactivated")) /\
  snd (serve wdigest xkdigest xvalidate xecdsa xcb be vnetloc vcfg (vput (s "al.ice") (s "k1") 5) st) = Err (XrpcError (s "RepoDeactivated")).
Proof. destruct be; vm_compute; repeat split; reflexivity. Qed.

(** Whatever a server did before: a repo that is not active keeps its head, its status and its records,
    whatever requests and imports come, and whatever is done to other repos; only storage operations
    on the repo itself can change it. Missing for the full claim: storage operations through references
    loaded before, for which it is false, see C23_refuted. *)
Theorem C23_closed_partial digest kdigest validate ecdsa now cb be l l2 did o c z :
  (forall a b, digest a = digest b -> a = b) -> Forall (act_ok digest) (l ++ l2) -> is_did did ->
  let w := arun digest kdigest validate ecdsa now cb be init_world l in
  seen be (w_state w) did = Some o -> r_status o = Some (c :: z) ->
  (forall n op, nth_error l2 n = Some (AStorage op) -> op_did (arun digest kdigest validate ecdsa now cb be w (firstn n l2)) op <> Some did) ->
  let w' := arun digest kdigest validate ecdsa now cb be w l2 in
  exists o', seen be (w_state w') did = Some o' /\ reads_same kdigest (w_state w) (w_state w') o o'.
Proof. exact (fun inj => c23_closed digest kdigest validate ecdsa now cb be inj l l2 did o c z). Qed.
Print Assumptions C23_closed_partial.

(** Alice's repo has a record and is deactivated. A write to it under its handle, an import of it and a
    delete fail; a write and a commit to Bob's repo do not. *)
Example C23_closed_case be : (forall a b, wdigest a = wdigest b -> a = b) /\ is_did alice /\
  let w := aworld be dstory in
  exists car o, Forall (act_ok wdigest) (dstory ++ dafter car) /\ car_did car = Some alice /\
    seen be (w_state w) alice = Some o /\ r_status o = Some (s "deactivated") /\
    get_record xkdigest (w_state w) o (s "app.post") (s "k1") = Ok (Some (norm (post 2))) /\
    (forall n op, nth_error (dafter car) n = Some (AStorage op) -> op_did (arun wdigest xkdigest xvalidate xecdsa xnow xcb be w (firstn n (dafter car))) op <> Some alice) /\
    errors be w (dafter car) = [true; false; true; true; false].
Proof.
  split; [exact (proj1 (proj2 wsetting))|]. split; [reflexivity|]. cbv zeta.
  pose proof (dcheck_ok be) as X. pose proof (dseen be) as Y. unfold dcheck in X.
  destruct (acar be) as [car|]; [|contradiction]. destruct X as (H1 & H2 & H3 & H4).
  destruct (seen be (w_state (aworld be dstory)) alice) as [o|]; [|contradiction]. destruct Y as [Y1 Y2].
  exists car, o. split.
  { apply Forall_app. split; [repeat constructor; discriminate|]. repeat (apply Forall_cons; [first [exact Logic.I|apply aimport_ok, H1]|]). constructor. }
  split; [exact H2|]. split; [reflexivity|]. split; [exact Y1|]. split; [exact Y2|]. split; [|exact H3].
  intros n op E. destruct n as [|[|[|[|[|n]]]]]; try discriminate E; [|destruct n; discriminate E].
  injection E as <-. intros F. rewrite H4 in F. revert F. vm_compute. discriminate.
Qed.
