(** A repo is tombstoned and then written to through a reference that does not know. *)
From Coq Require Import String List NArith ZArith Bool.
From Verif Require Import Base Lists Ipld MstModel CarModel StorageModel StorageSpec RepoSpec RepoExamples MessageSpec MessageExamples
  UriModel ServerModel ServerSpec ServerExamples ExportExamples ImportFacts AnySpec AnyExamples ClosedExamples OnwardExamples StatusSpec.
Import ListNotations.

Definition tfirst : list act :=
  [AStorage (SCreate alice (Some (s "al.ice")) None false 1); AStorage (SLoadAt 0 1); AStorage (SCreate bob None None false 2); AStorage (STombstone 0)].
(** The reference 1 is Alice's, the reference 2 Bob's; the CAR is Alice's repo. *)
Definition tafter (car : list N) : list act :=
  [ARequest vnetloc vcfg (vput alice (s "k1") 2); AStorage (SCommit 1 [wcreate (s "k2") 3]); AStorage (SDeactivate 2); aimport car;
   AStorage (SActivate 2); AStorage (SCommit 1 [wcreate (s "k3") 4; wcreate (s "k2") 4])].

Definition tcheck (be : backend) : Prop :=
  match acar be with
  | Some car =>
      let w := aworld be tfirst in
      honest_carb wdigest car = true /\ car_did car = Some alice /\
      errors be w (tafter car) = [true; false; false; true; false; true] /\
      op_did (arun wdigest xkdigest xvalidate xecdsa xnow xcb be w (firstn 2 (tafter car))) (SDeactivate 2) = Some bob /\
      op_did (arun wdigest xkdigest xvalidate xecdsa xnow xcb be w (firstn 4 (tafter car))) (SActivate 2) = Some bob /\
      option_map r_status (seen be (w_state w) alice) = Some (Some (s "tombstoned")) /\
      head_numbers (w_state w) be alice = [1]%Z /\
      head_numbers (w_state (arun wdigest xkdigest xvalidate xecdsa xnow xcb be w (tafter car))) be alice = [10; 1]%Z
  | None => False
  end.
Lemma tcheck_ok be : tcheck be.
Proof. destruct be; vm_compute; repeat split; reflexivity. Qed.
