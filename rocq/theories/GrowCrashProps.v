(** C85: the commits of a repo only grow, also when processes die. *)
From Coq Require Import String List NArith ZArith Bool.
From Verif Require Import Base Lists Ipld MstModel StorageModel StorageSpec RepoSpec RepoExamples CrashModel CrashSpec CrashCheck GrowSpec GrowCrash OnwardExamples.
Import ListNotations.

(** Whatever operations processes do and wherever they die doing them, short of another creation of the repo that
    gets to its last write: the head that a repo had is found by following prev from the head that it has, through
    stored commits with ever lower numbers and revs. Commits that a dead process left are never among them again.
    Missing for the full claim: creating the repo again, see C85_refuted. *)
Theorem C85_deaths_partial digest kdigest validate ecdsa now cb l1 l2 did o h : setting digest kdigest validate cb ->
  Forall turn_ok (l1 ++ l2) -> is_did did ->
  seen Datastore (w_state (turns digest kdigest validate ecdsa now cb l1)) did = Some o -> r_head o = Some h ->
  (forall handle status x key, ~ In (Done (SCreate did handle status x key)) l2) ->
  (forall handle status x key k lost, In (Died (SCreate did handle status x key) k lost) l2 -> k < 9) ->
  let st := w_state (turns digest kdigest validate ecdsa now cb (l1 ++ l2)) in
  exists o' h', seen Datastore st did = Some o' /\ r_head o' = Some h' /\ descends st h h'.
Proof. exact (fun SET => turns_grow digest kdigest validate ecdsa now cb SET l1 l2 did o h). Qed.
Print Assumptions C85_deaths_partial.

(** After the creation of Alice's repo and a commit, another commit dies with its blocks written, and later a second creation
    of the repo just before its last write. Shown are the numbers of Alice's commits, before and after. *)
Example C85_deaths_case : let l2 := skipn 2 crash_story ++ [Died (SCreate alice None None false 3) 8 1; Done (SLoad alice); Done (SCommit 0 [wcreate (s "k5") 5])] in
  setting xdigest xkdigest xvalidate xcb /\ Forall turn_ok (firstn 2 crash_story ++ l2) /\ is_did alice /\
  (forall handle status x key, ~ In (Done (SCreate alice handle status x key)) l2) /\
  (forall handle status x key k lost, In (Died (SCreate alice handle status x key) k lost) l2 -> k < 9) /\
  head_numbers (w_state (xturns (firstn 2 crash_story))) Datastore alice = [5; 1]%Z /\
  head_numbers (w_state (xturns (firstn 2 crash_story ++ l2))) Datastore alice = [20; 10; 5; 1]%Z.
Proof.
  cbv zeta. split; [exact xsetting|]. split; [apply turns_ok; reflexivity|]. split; [reflexivity|]. split.
  { intros handle status x key I. cbn [skipn crash_story app In] in I. repeat (destruct I as [I|I]; [discriminate I|]). destruct I. }
  split.
  { intros handle status x key k lost I. cbn [skipn crash_story app In] in I.
    repeat (destruct I as [I|I]; [first [injection I; intros; subst k; repeat constructor|discriminate I]|]). destruct I. }
  split; vm_compute; reflexivity.
Qed.
