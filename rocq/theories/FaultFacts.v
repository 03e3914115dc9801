(** getRepo with lookups that fail, against getRepo without. *)
From Coq Require Import String List NArith ZArith Bool Permutation.
From Verif Require Import Base Ipld MstModel CarModel StorageModel StorageSpec RepoSpec EventsModel
  UriModel ServerModel ServerSpec LiveSpec RawModel RawSpec RawProofs RawFacts FaultModel FaultProofs.
Import ListNotations.

Lemma fault_export digest kdigest name_of sv w bk x since st' ds fails : (forall a, length (digest a) = 32) -> (forall a b, name_of a = name_of b -> a = b) ->
  hosts digest kdigest sv w bk -> p_be sv = Datastore -> later (w_state w) st' -> honest name_of (w_state w) st' ds ->
  exists enough, forall rounds,
  let out := snd (fault_get_repo fails ds name_of rounds digest (p_netloc sv) false x since (w_state w)) in
  (exists n keys e, fails n keys = Some e /\ out = Err e) \/
  match snd (on_get_repo digest sv x since (w_state w)) with
  | Err e => out = Err e
  | Ok car => exists roots bl, read_car car = Some (roots, bl) /\
      ((out = Err OutOfFuel /\ ~ (advances ds /\ enough <= rounds)) \/
       exists car' bl', out = Ok car' /\ read_car car' = Some (roots, bl') /\ Permutation bl bl')
  end.
Proof.
  intros D32 NI HO BE LA HN. destruct (same_export digest kdigest D32 name_of NI sv w bk x since st' ds HO BE LA HN) as [enough H].
  exists enough. intros rounds. specialize (H rounds). cbv zeta in *.
  destruct (repo_or fails ds name_of rounds digest (p_netloc sv) false x since (w_state w)) as [E|F]; [right; rewrite E; exact H|left; exact F].
Qed.
