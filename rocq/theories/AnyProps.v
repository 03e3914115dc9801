(** C71 and C72: servers that do everything. *)
From Coq Require Import String List NArith ZArith Bool.
From Verif Require Import Base Lists Ipld MstModel CarModel StorageModel StorageSpec RepoSpec RepoExamples MessageSpec MessageExamples
  UriModel ServerModel ServerSpec ServerExamples ExportExamples ImportFacts IsolateSpec AnySpec AnyProofs AnyExamples.
Import ListNotations.

(** ** C71 *)

(** Whatever a server did before - operations on the storage, requests and imports, also if they
    failed halfway and callbacks raised, also if the CARs were not complete -: what it does for one
    repo changes no other repo. *)
Theorem C71_isolation digest kdigest validate ecdsa now cb be l a did :
  (forall a b, digest a = digest b -> a = b) -> Forall (act_ok digest) (l ++ [a]) -> is_did did ->
  let w := arun digest kdigest validate ecdsa now cb be init_world l in
  let w' := fst (astep digest kdigest validate ecdsa now cb be w a) in
  act_did be w a <> Some did ->
  match seen be (w_state w) did with
  | Some o => exists o', seen be (w_state w') did = Some o' /\ reads_same kdigest (w_state w) (w_state w') o o'
  | None => seen be (w_state w') did = None
  end /\
  (forall h o, handle_obj w h = Some o -> handle_did w h = Some did ->
     exists o', handle_obj w' h = Some o' /\ handle_did w' h = Some did /\ reads_same kdigest (w_state w) (w_state w') o o').
Proof. exact (fun inj => c71_any digest kdigest validate ecdsa now cb be inj l a did). Qed.
Print Assumptions C71_isolation.

(** Bob has records, written with a batch and a request; then Alice's repo is imported, from a CAR
    that is not complete. *)
Definition c71_story : list act :=
  [AStorage (SCreate bob None None false 2); AStorage (SCommit 0 [wcreate (s "k0") 9]); ARequest vnetloc vcfg (vput bob (s "k1") 3)].
Example C71_case be : (forall a b, wdigest a = wdigest b -> a = b) /\ is_did bob /\
  let w := aworld be c71_story in
  exists car, Forall (act_ok wdigest) (c71_story ++ [aimport car]) /\ act_did be w (aimport car) = Some alice /\
    smooth wdigest xkdigest xvalidate xecdsa xnow xcb be init_world (c71_story ++ [aimport car]) /\
    match seen be (w_state w) bob with
    | Some o => get_record xkdigest (w_state w) o (s "app.post") (s "k1") = Ok (Some (norm (post 3)))
    | None => False
    end.
Proof.
  split; [exact (proj1 (proj2 wsetting))|]. split; [reflexivity|]. cbv zeta.
  assert (X : match acar be with
    | Some car => honest_carb wdigest car = true /\ act_did be (aworld be c71_story) (aimport car) = Some alice /\
        smoothb be init_world (c71_story ++ [aimport car]) = true
    | None => False end) by (destruct be; vm_compute; split; [reflexivity|split; reflexivity|reflexivity|split; reflexivity]).
  assert (Y : match seen be (w_state (aworld be c71_story)) bob with
    | Some o => get_record xkdigest (w_state (aworld be c71_story)) o (s "app.post") (s "k1") = Ok (Some (norm (post 3)))
    | None => False end) by (destruct be; vm_compute; reflexivity).
  destruct (acar be) as [car|]; [|contradiction]. destruct X as (H1 & H2 & H3). exists car. split.
  { apply Forall_app. split; [repeat constructor; discriminate|]. constructor; [apply aimport_ok, H1|constructor]. }
  split; [exact H2|]. split; [exact (smoothb_ok be _ _ H3)|exact Y].
Qed.
