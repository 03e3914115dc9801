(** A repo with failed requests, a failed batch, a status change and an import, on a server. *)
From Coq Require Import String List NArith ZArith Bool.
From Verif Require Import Base Lists Ipld MstModel CarModel StorageModel StorageSpec RepoSpec RepoExamples MessageSpec MessageExamples
  UriModel ServerModel ServerSpec ServerExamples ExportExamples ImportFacts AnySpec AnyExamples ClosedExamples.
Import ListNotations.

Definition ofirst : list act :=
  [AStorage (SCreate alice (Some (s "al.ice")) None true 1); ARequest vnetloc vcfg (vput alice (s "k1") 2)].
(** The second batch fails at its second write, after the tree of the object has changed. *)
Definition oafter (car : list N) : list act :=
  [AStorage (SLoad alice); AStorage (SCommit 0 [wcreate (s "k2") 3]); AStorage (SCommit 1 [wcreate (s "k3") 4; wcreate (s "k1") 4]);
   aimport car; AStorage (SCreate bob None None false 2); AStorage (SDeactivate 0); ARequest vnetloc vcfg (vput alice (s "k4") 5);
   AStorage (SActivate 1); ARequest vnetloc vcfg (vdel (s "al.ice") (s "k1"))].

(** The numbers of the commits from a CID on. *)
Fixpoint numbers (fuel : nat) (st : state) (c : cid) : list Z :=
  match fuel, read st c with
  | S f, Some b => b_seq b :: match item (s "prev") (b_val b) with Ok (ILink p) => numbers f st p | _ => [] end
  | _, _ => []
  end.
Definition head_numbers (st : state) (be : backend) (did : str) : list Z :=
  match seen be st did with
  | Some o => match r_head o with Some h => numbers 20 st (b_cid h) | None => [] end
  | None => []
  end.
Definition ocheck (be : backend) : Prop :=
  match acar be with
  | Some car =>
      honest_carb wdigest car = true /\ car_did car = Some alice /\
      errors be (aworld be ofirst) (oafter car) = [false; false; true; true; false; false; true; false; false] /\
      head_numbers (w_state (aworld be ofirst)) be alice = [5; 1]%Z /\
      head_numbers (w_state (aworld be (ofirst ++ oafter car))) be alice = [14; 6; 5; 1]%Z
  | None => False
  end.
Lemma ocheck_ok be : ocheck be.
Proof. destruct be; vm_compute; repeat split; reflexivity. Qed.
