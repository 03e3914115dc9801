(** A datastore whose processes die now and then. *)
From Coq Require Import String List NArith ZArith Bool Lia.
From Verif Require Import Base Lists Ipld MstModel MstSpec MstHist StorageModel StorageSpec RepoSpec RepoExamples CrashModel CrashSpec.
Import ListNotations.

Definition xturns (l : list turn) : world := turns xdigest xkdigest xvalidate xecdsa xnow xcb l.
Definition xbook (l : list turn) : book := turns_book xdigest xkdigest xvalidate xecdsa xnow xcb [] init_world l.
Definition xcrash (w : world) (op : sop) (k lost : nat) : world := crash xdigest xkdigest xvalidate xecdsa xnow xcb w op k lost.

(** Alice has a record. A commit dies with its blocks written, and three numbers are lost; the next one goes
    well. Bob's creation dies after its second event, then Alice's deactivation before its event. *)
Definition crash_story : list turn :=
  [Done (SCreate alice (Some (s "al.ice")) None true 1); Done (SCommit 0 [wcreate (s "k0") 1]);
   Died (SCommit 0 [wcreate (s "k1") 2]) 2 3; Done (SLoad alice); Done (SCommit 0 [wcreate (s "k2") 3]);
   Died (SCreate bob None None false 2) 6 0; Done (SLoad alice); Died (SDeactivate 0) 1 0; Done (SLoad alice); Done (SActivate 0)].

Lemma turns_ok l : forallb op_namedb (map turn_op l) = true -> Forall turn_ok l.
Proof.
  intros H. pose proof (op_namedb_ok _ H) as F. rewrite Forall_map in F. exact F.
Qed.

(** What the repo [did] holds, as far as one can print it. *)
Definition print_repo (w : world) (did : str) : option (option str * N * res (list (str * list (str * ipld)))) :=
  match seen Datastore (w_state w) did with
  | Some o => Some (r_status o, r_key o, get_contents xkdigest (w_state w) o)
  | None => None
  end.
Definition print_posts (l : list (str * Z)) : res (list (str * list (str * ipld))) :=
  Ok (match l with [] => [] | _ => [(s "app.post", map (fun x => (fst x, norm (post (snd x)))) l)] end).

Definition orphan_story : list turn := [Died (SCreate bob None None false 2) 4 0].
Definition orphan_state : state := Eval vm_compute in w_state (xturns orphan_story).
Definition orphan_val : ipld := Eval vm_compute in event_value xnow (s "identity") 2 bob [(s "handle", INull)].
Definition orphan_block : str * block := Eval vm_compute in
  match find (fun cb => match item_text (s "$type") (b_val (snd cb)) with Ok _ => true | _ => false end) (s_blocks orphan_state) with
  | Some cb => cb | None => ([], Block [] INull 0 None None) end.
Lemma c81_refuted : exists digest kdigest validate ecdsa now cb l did n c b,
  setting digest kdigest validate cb /\ Forall turn_ok l /\ is_did did /\
  let st := w_state (turns digest kdigest validate ecdsa now cb l) in
  read st c = Some b /\ b_val b = event_value now (s "identity") n did [(s "handle", INull)] /\ (0 < n)%Z /\ seen Datastore st did = None.
Proof.
  exists xdigest, xkdigest, xvalidate, xecdsa, xnow, xcb, orphan_story, bob, 2%Z, (fst orphan_block), (snd orphan_block).
  split; [exact xsetting|]. split; [apply turns_ok; reflexivity|]. split; [reflexivity|]. cbv zeta.
  assert (E : w_state (turns xdigest xkdigest xvalidate xecdsa xnow xcb orphan_story) = orphan_state) by (vm_compute; reflexivity). rewrite E. clear E.
  split; [vm_compute; reflexivity|]. split; [vm_compute; reflexivity|]. split; [reflexivity|]. vm_compute. reflexivity.
Qed.

Definition fork_state : state := Eval vm_compute in w_state (xturns (firstn 5 crash_story)).
Definition is_commit (cb : str * block) : bool := match item (s "sig") (b_val (snd cb)) with Ok _ => true | _ => false end.
Definition fork_blocks : list (str * block) := Eval vm_compute in filter is_commit (s_blocks fork_state).
Definition nth_block (n : nat) : str * block := nth n fork_blocks ([], Block [] INull 0 None None).
Definition link_of (k : str) (b : block) : cid := match item_link k (b_val b) with Ok c => c | Err _ => [] end.
Lemma c81_fork_refuted : exists digest kdigest validate ecdsa now cb l c1 c2 b1 b2 did key prev root1 root2,
  setting digest kdigest validate cb /\ Forall turn_ok l /\
  let st := w_state (turns digest kdigest validate ecdsa now cb l) in
  read st c1 = Some b1 /\ read st c2 = Some b2 /\ b1 <> b2 /\
  commit_of ecdsa b1 did key (Some prev) root1 /\ commit_of ecdsa b2 did key (Some prev) root2.
Proof.
  exists xdigest, xkdigest, xvalidate, xecdsa, xnow, xcb, (firstn 5 crash_story), (fst (nth_block 2)), (fst (nth_block 3)), (snd (nth_block 2)), (snd (nth_block 3)),
    alice, 1%N, (fst (nth_block 1)), (link_of (s "data") (snd (nth_block 2))), (link_of (s "data") (snd (nth_block 3))).
  split; [exact xsetting|]. split; [apply turns_ok; reflexivity|]. cbv zeta.
  assert (E : w_state (turns xdigest xkdigest xvalidate xecdsa xnow xcb (firstn 5 crash_story)) = fork_state) by (vm_compute; reflexivity). rewrite E. clear E.
  split; [vm_compute; reflexivity|]. split; [vm_compute; reflexivity|].
  split; [intros X; apply (f_equal b_seq) in X; vm_compute in X; discriminate X|].
  split; unfold commit_of; eexists; (split; [vm_compute; reflexivity|]); split; vm_compute; reflexivity.
Qed.

Definition silent_story : list turn := [Done (SCreate alice None None false 1); Died (SDeactivate 0) 1 0].
Definition silent_state : state := Eval vm_compute in w_state (xturns silent_story).
Definition tells (b : block) : bool := match item (s "active") (b_val b) with Ok (IBool false) => true | _ => false end.
Lemma silent_blocks (l : list (str * block)) c b : forallb (fun x => negb (tells (snd x))) l = true -> dget c l = Some b -> item (s "active") (b_val b) <> Ok (IBool false).
Proof.
  intros F D X. induction l as [|[k x] l IH]; [discriminate D|]. cbn [forallb snd dget] in *. apply andb_prop in F. destruct F as [F1 F2].
  destruct (str_eqb c k); [|auto]. injection D as ->. unfold tells in F1. rewrite X in F1. discriminate F1.
Qed.
Lemma c81_silent_refuted : exists digest kdigest validate ecdsa now cb l did o,
  setting digest kdigest validate cb /\ Forall turn_ok l /\
  let st := w_state (turns digest kdigest validate ecdsa now cb l) in
  seen Datastore st did = Some o /\ r_status o = Some (s "deactivated") /\
  forall c b, read st c = Some b -> item (s "active") (b_val b) <> Ok (IBool false).
Proof.
  exists xdigest, xkdigest, xvalidate, xecdsa, xnow, xcb, silent_story, alice. eexists.
  split; [exact xsetting|]. split; [apply turns_ok; reflexivity|]. cbv zeta.
  assert (E : w_state (turns xdigest xkdigest xvalidate xecdsa xnow xcb silent_story) = silent_state) by (vm_compute; reflexivity). rewrite E. clear E.
  split; [vm_compute; reflexivity|]. split; [reflexivity|]. intros c b R. apply (silent_blocks (s_blocks silent_state) c); [vm_compute; reflexivity|exact R].
Qed.

(** Writes that are allowed, decided. *)
Definition allowedb (recs : records) (w : write) : bool :=
  let p := record_path (w_collection w) (w_rkey w) in
  match w_action w, w_record w with
  | CREATE, Some v => valid_key p && negb (is_some (dget p recs)) &&
      match xvalidate v with Ok _ => true | _ => false end && (len (dag_cbor_encode v) <=? 1000000)%N && match v with IMap (_ :: _) => true | _ => false end
  | DELETE, _ => is_some (dget p recs)
  | _, _ => false
  end.
Lemma allowedb_ok recs w : allowedb recs w = true -> write_allowed xvalidate recs w.
Proof.
  unfold allowedb, write_allowed, has_record, record_ok. cbv zeta. destruct (w_action w), (w_record w) as [v|]; try discriminate.
  - intros H. repeat (apply andb_prop in H; destruct H as [H ?]). split; [apply valid_key_spec; assumption|]. split; [destruct (dget _ recs); [discriminate|reflexivity]|].
    exists v. split; [reflexivity|]. split; [destruct v as [| | | | | |[|x m]|]; try discriminate; exists (x :: m); split; [reflexivity|discriminate]|].
    split; [destruct (xvalidate v) as [[]|]; [reflexivity|discriminate]|]. apply N.leb_le. assumption.
  - destruct (dget _ recs); [discriminate|intros H; discriminate H].
  - destruct (dget _ recs); [discriminate|intros H; discriminate H].
Qed.
