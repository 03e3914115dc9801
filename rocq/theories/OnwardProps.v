(** C85: the commits of a repo only grow, on servers where things fail. *)
From Coq Require Import String List NArith ZArith Bool.
From Verif Require Import Base Lists Ipld MstModel CarModel StorageModel StorageSpec RepoSpec RepoExamples MessageSpec MessageExamples
  UriModel ServerModel ServerSpec ServerExamples ExportExamples ImportFacts AnySpec AnyExamples ClosedExamples OnwardSpec OnwardProofs OnwardExamples.
Import ListNotations.

(** Whatever storage operations, requests and imports a server takes, also with batches that fail halfway,
    callbacks that raise and status changes, short of creating the repo again: a repo that could be read can
    be read still, and following prev from its head through stored commits leads to the head that it had.
    Missing for the full claim: creating the repo again, for which it is false, see C85_refuted; and that
    numbers and revs fall along the way, see C85_stays_partial. *)
Theorem C85_onward_partial digest kdigest validate ecdsa now cb be l1 l2 did o h :
  (forall a b, digest a = digest b -> a = b) -> Forall (act_ok digest) (l1 ++ l2) -> is_did did ->
  (forall handle status x key, ~ In (AStorage (SCreate did handle status x key)) l2) ->
  let w := arun digest kdigest validate ecdsa now cb be init_world l1 in
  seen be (w_state w) did = Some o -> r_head o = Some h ->
  let w' := arun digest kdigest validate ecdsa now cb be init_world (l1 ++ l2) in
  exists o' h', seen be (w_state w') did = Some o' /\ r_head o' = Some h' /\ precedes (w_state w') (b_cid h) (b_cid h').
Proof. exact (fun inj => c85_any digest kdigest validate ecdsa now cb be inj did l1 l2 o h). Qed.
Print Assumptions C85_onward_partial.

(** Alice's repo gets a commit; then a batch fails halfway, an import of the repo fails, a request for it fails
    while it is deactivated, and a request after that makes another commit. Shown are the numbers of its commits. *)
Example C85_onward_case be : (forall a b, wdigest a = wdigest b -> a = b) /\ is_did alice /\
  exists car, Forall (act_ok wdigest) (ofirst ++ oafter car) /\ car_did car = Some alice /\
    (forall handle status x key, ~ In (AStorage (SCreate alice handle status x key)) (oafter car)) /\
    errors be (aworld be ofirst) (oafter car) = [false; false; true; true; false; false; true; false; false] /\
    head_numbers (w_state (aworld be ofirst)) be alice = [5; 1]%Z /\
    head_numbers (w_state (aworld be (ofirst ++ oafter car))) be alice = [14; 6; 5; 1]%Z.
Proof.
  split; [exact (proj1 (proj2 wsetting))|]. split; [reflexivity|]. pose proof (ocheck_ok be) as X. unfold ocheck in X.
  destruct (acar be) as [car|]; [|contradiction]. destruct X as (H1 & H2 & H3 & H4 & H5). exists car. split.
  { apply Forall_app. split; [repeat constructor; discriminate|]. repeat (apply Forall_cons; [first [exact Logic.I|apply aimport_ok, H1|split; [reflexivity|exact Logic.I]]|]). constructor. }
  split; [exact H2|]. split; [|auto]. intros handle status x key I. unfold oafter in I. cbn [In] in I.
  repeat (destruct I as [I|I]; [discriminate I|]). destruct I.
Qed.
