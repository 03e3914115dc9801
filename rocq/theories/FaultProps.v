(** C79: an export is whole or fails, also when lookups of the datastore fail. *)
From Coq Require Import String List NArith ZArith Bool Permutation.
From Verif Require Import Base Ipld MstModel CarModel StorageModel StorageSpec RepoSpec RepoExamples MessageExamples EventsModel
  UriModel ServerModel ServerSpec ServerExamples LiveSpec LiveExamples RawModel RawSpec RawCheck FaultModel FaultFacts.
Import ListNotations.

(** Whichever lookups fail, getRepo raises what one of them raised or does as in C79_same. So it never gives a CAR from
    which the blocks of a failed lookup are missing. *)
Theorem C79_failing digest kdigest name_of sv w bk x since st' ds fails : (forall a, length (digest a) = 32) -> (forall a b, name_of a = name_of b -> a = b) ->
  hosts digest kdigest sv w bk -> p_be sv = Datastore -> later (w_state w) st' -> honest name_of (w_state w) st' ds ->
  exists enough, forall rounds,
  let out := snd (fault_get_repo fails ds name_of rounds digest (p_netloc sv) false x since (w_state w)) in
  (exists n keys e, fails n keys = Some e /\ out = Err e) \/
  match snd (on_get_repo digest sv x since (w_state w)) with
  | Err e => out = Err e
  | Ok car => exists roots bl, read_car car = Some (roots, bl) /\
      ((out = Err OutOfFuel /\ ~ (advances ds /\ enough <= rounds)) \/
       exists car' bl', out = Ok car' /\ read_car car' = Some (roots, bl') /\ Permutation bl bl')
  end.
Proof. exact (fault_export digest kdigest name_of sv w bk x since st' ds fails). Qed.
Print Assumptions C79_failing.

(** Alice's repo of C79_case: a failure of the third lookup makes getRepo raise it, and one of the hundredth, which is
    not made, does nothing. *)
Definition one_fails (m : nat) (n : nat) (keys : list str) : option exn := if Nat.eqb n m then Some RuntimeError else None.
Definition rfault (m : nat) : res (list N) :=
  snd (fault_get_repo (one_fails m) (slow rlater) xname 3 wdigest vnetloc false alice None (w_state (v_world rbefore))).
Example C79_failing_case : lhosts Datastore (v_world rbefore) (v_book rbefore) /\ later (w_state (v_world rbefore)) rlater /\
  honest xname (w_state (v_world rbefore)) rlater (slow rlater) /\ rfault 2 = Err RuntimeError /\
  match car_cids (rfault 100), car_cids (rslow 3) with Some l, Some l' => l = l' /\ length l = 7 | _, _ => False end.
Proof.
  split; [exact rbefore_hosts|]. split; [exact rbefore_later|]. split; [exact (slow_honest _ _ rbefore_later)|]. split; [vm_compute; reflexivity|].
  vm_compute. split; reflexivity.
Qed.
