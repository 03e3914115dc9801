(** C24: the status of a repo, when processes die. *)
From Coq Require Import String List NArith ZArith Bool Lia.
From Verif Require Import Base Lists Ipld MstModel StorageModel StorageSpec RepoSpec RepoExamples CrashModel CrashSpec CrashCheck OnwardExamples
  StatusSpec StatusCrashSpec StatusCrash.
Import ListNotations.

(** Whatever operations processes do and wherever they die doing them: a repo keeps its status until a call sets it
    that gets to the write that does so. So one that is tombstoned or deactivated is not active again because a process
    died in a commit, in activate_repo or in [Repo.create]. Missing for the full claim: activate_repo and [Repo.create]
    that get there, see C24_refuted. *)
Theorem C24_deaths_partial digest kdigest validate ecdsa now cb l1 l2 did o : setting digest kdigest validate cb ->
  Forall turn_ok (l1 ++ l2) -> is_did did ->
  seen Datastore (w_state (turns digest kdigest validate ecdsa now cb l1)) did = Some o ->
  (forall a t b, l2 = a ++ t :: b -> lets_be (turns digest kdigest validate ecdsa now cb (l1 ++ a)) t did) ->
  exists o', seen Datastore (w_state (turns digest kdigest validate ecdsa now cb (l1 ++ l2))) did = Some o' /\ r_status o' = r_status o.
Proof. exact (fun SET => turns_mark digest kdigest validate ecdsa now cb SET l1 l2 did o). Qed.
Print Assumptions C24_deaths_partial.

(** Alice's repo is tombstoned. A commit through a reference that does not know goes through, another one dies with its
    blocks written, activate_repo dies before it does anything and a second creation just before its last write.
    Bob's repo is created and deactivated. *)
Definition dead_first : list turn := [Done (SCreate alice None None true 1); Done (SLoad alice); Done (STombstone 0)].
Definition dead_then : list turn :=
  [Done (SCommit 1 [wcreate (s "k0") 1]); Died (SCommit 1 [wcreate (s "k1") 2]) 2 3; Done (SLoad alice); Died (SActivate 0) 0 1;
   Died (SCreate alice None None false 2) 8 0; Done (SCreate bob None None false 3); Done (SDeactivate 0)].
Example C24_deaths_case : setting xdigest xkdigest xvalidate xcb /\ Forall turn_ok (dead_first ++ dead_then) /\ is_did alice /\
  (forall a t b, dead_then = a ++ t :: b -> lets_be (xturns (dead_first ++ a)) t alice) /\
  option_map r_status (seen Datastore (w_state (xturns dead_first)) alice) = Some (Some (s "tombstoned")) /\
  head_numbers (w_state (xturns dead_first)) Datastore alice = [1]%Z /\
  head_numbers (w_state (xturns (dead_first ++ dead_then))) Datastore alice = [6; 1]%Z.
Proof.
  split; [exact xsetting|]. split; [apply turns_ok; reflexivity|]. split; [reflexivity|]. split.
  { intros a t b E. destruct a as [|? [|? [|? [|? [|? [|? [|? a]]]]]]]; try (destruct a; discriminate E); injection E; intros; subst; cbn [lets_be decisive for_status];
      intros; try contradiction; try (exfalso; lia); vm_compute; discriminate. }
  vm_compute. auto.
Qed.
