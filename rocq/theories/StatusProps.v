(** C24: the status of a repo, on servers where things fail. *)
From Coq Require Import String List NArith ZArith Bool.
From Verif Require Import Base Lists Ipld MstModel CarModel StorageModel StorageSpec RepoSpec RepoExamples MessageSpec MessageExamples
  UriModel ServerModel ServerSpec ServerExamples ExportExamples ImportFacts AnySpec AnyExamples ClosedExamples OnwardExamples StatusSpec StatusProofs StatusExamples.
Import ListNotations.

(** Whatever a server did before, and whatever storage operations, requests and imports follow: a repo keeps its status
    until a call sets it, so one that is tombstoned is not active again. Commits do not change it, not even those
    through references that do not know of it, nor do batches that fail halfway and callbacks that raise.
    Missing for the full claim: activate_repo and [Repo.create], which do make a tombstoned repo active, see
    C24_refuted. *)
Theorem C24_stays_partial digest kdigest validate ecdsa now cb be l1 l2 did o :
  (forall a b, digest a = digest b -> a = b) -> Forall (act_ok digest) (l1 ++ l2) -> is_did did ->
  let w := arun digest kdigest validate ecdsa now cb be init_world l1 in
  seen be (w_state w) did = Some o ->
  (forall n op, nth_error l2 n = Some (AStorage op) -> for_status op ->
     op_did (arun digest kdigest validate ecdsa now cb be w (firstn n l2)) op <> Some did) ->
  let w' := arun digest kdigest validate ecdsa now cb be w l2 in
  exists o', seen be (w_state w') did = Some o' /\ r_status o' = r_status o.
Proof. exact (fun inj => c24_stays digest kdigest validate ecdsa now cb be inj l1 l2 did o). Qed.
Print Assumptions C24_stays_partial.

(** Alice's repo is tombstoned. A request for it and an import of it fail; a commit through a reference without status
    does not, and another one fails halfway; Bob's repo is deactivated and activated. Shown are the numbers of Alice's commits. *)
Example C24_stays_case be : (forall a b, wdigest a = wdigest b -> a = b) /\ is_did alice /\
  let w := aworld be tfirst in
  exists car, Forall (act_ok wdigest) (tfirst ++ tafter car) /\ car_did car = Some alice /\
    option_map r_status (seen be (w_state w) alice) = Some (Some (s "tombstoned")) /\
    (forall n op, nth_error (tafter car) n = Some (AStorage op) -> for_status op ->
       op_did (arun wdigest xkdigest xvalidate xecdsa xnow xcb be w (firstn n (tafter car))) op <> Some alice) /\
    errors be w (tafter car) = [true; false; false; true; false; true] /\
    head_numbers (w_state w) be alice = [1]%Z /\
    head_numbers (w_state (arun wdigest xkdigest xvalidate xecdsa xnow xcb be w (tafter car))) be alice = [10; 1]%Z.
Proof.
  split; [exact (proj1 (proj2 wsetting))|]. split; [reflexivity|]. cbv zeta. pose proof (tcheck_ok be) as X. unfold tcheck in X.
  destruct (acar be) as [car|]; [|contradiction]. destruct X as (H1 & H2 & H3 & H4 & H5 & H6 & H7 & H8). exists car. split.
  { apply Forall_app. split; [repeat constructor; discriminate|]. repeat (apply Forall_cons; [first [exact Logic.I|apply aimport_ok, H1]|]). constructor. }
  split; [exact H2|]. split; [exact H6|]. split; [|auto].
  intros n op E FS. destruct n as [|[|[|[|[|[|n]]]]]]; try discriminate E; try (destruct n; discriminate E); injection E as <-; try destruct FS; intros F.
  - rewrite H4 in F. revert F. vm_compute. discriminate.
  - rewrite H5 in F. revert F. vm_compute. discriminate.
Qed.
