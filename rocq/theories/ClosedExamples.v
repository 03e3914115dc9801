(** A repo is deactivated; requests, an import and operations on another repo follow. *)
From Coq Require Import String List NArith ZArith Bool.
From Verif Require Import Base Lists Ipld MstModel CarModel StorageModel StorageSpec RepoSpec RepoExamples MessageSpec MessageExamples
  UriModel ServerModel ServerSpec ServerExamples ExportExamples ImportFacts AnySpec AnyExamples.
Import ListNotations.

Definition dstory : list act :=
  [AStorage (SCreate alice (Some (s "al.ice")) None false 1); AStorage (SCreate bob None None false 2);
   ARequest vnetloc vcfg (vput alice (s "k1") 2); AStorage (SDeactivate 0)].
(** The CAR is Alice's repo, in part; the second commit is to Bob's repo. *)
Definition dafter (car : list N) : list act :=
  [ARequest vnetloc vcfg (vput (s "al.ice") (s "k1") 5); ARequest vnetloc vcfg (vput bob (s "k1") 3); aimport car;
   ARequest vnetloc vcfg (vdel alice (s "k1")); AStorage (SCommit 1 [wcreate (s "k2") 4])].

Fixpoint errors (be : backend) (w : world) (l : list act) : list bool :=
  match l with
  | [] => []
  | a :: r => let '(w', e) := adoes be w a in match e with None => false | Some _ => true end :: errors be w' r
  end.

(** The CIDs of Alice's records, what requests raise and what the operation is about. *)
Definition dcheck (be : backend) : Prop :=
  match acar be with
  | Some car =>
      honest_carb wdigest car = true /\ car_did car = Some alice /\
      errors be (aworld be dstory) (dafter car) = [true; false; true; true; false] /\
      op_did (arun wdigest xkdigest xvalidate xecdsa xnow xcb be (aworld be dstory) (firstn 4 (dafter car))) (SCommit 1 [wcreate (s "k2") 4]) = Some bob
  | None => False
  end.
Lemma dcheck_ok be : dcheck be.
Proof. destruct be; vm_compute; repeat split; reflexivity. Qed.
Lemma dseen be : match seen be (w_state (aworld be dstory)) alice with
  | Some o => r_status o = Some (s "deactivated") /\ get_record xkdigest (w_state (aworld be dstory)) o (s "app.post") (s "k1") = Ok (Some (norm (post 2)))
  | None => False
  end.
Proof. destruct be; vm_compute; split; reflexivity. Qed.
