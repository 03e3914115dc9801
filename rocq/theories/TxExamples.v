(** Runs of concurrent commits for the examples. *)
From Coq Require Import String List NArith ZArith Bool.
From Verif Require Import Base Lists Ipld MstModel StorageModel StorageSpec RepoSpec RepoExamples
  EventsModel EventsSpec EventsFacts TxModel TxSpec TxFacts.
Import ListNotations.

Definition xtx_run (w : tx_world) (evs : list tx_event) : tx_world := tx_run xdigest xkdigest xvalidate xecdsa w evs.
Definition steps (t : nat) (nonces : list Z) : list tx_event := map (EStep t) nonces.

(** Alice's and Bob's repos after [story], alice's has k0 and k2. *)
Definition tx0 : tx_world := tx_start (w_state (after Datastore story)).

(** Two threads commit to one repo at the same time, a third to another. Thread 0 begins first, but thread 1
    is faster, and thread 0 has to begin again; thread 1 then fails to create the same record
    again. *)
Definition race : list tx_event :=
  [ECall 0 alice [wcreate (s "k3") 7] None; EStep 0 1;
   ECall 1 alice [wdelete (s "k0"); wcreate (s "k4") 8] None; EStep 1 2; EStep 0 3; EStep 1 4; EStep 0 5;
   ECall 2 bob [wupdate (s "k0") 6] None; EStep 2 6; EStep 2 6;
   EStep 1 7; EStep 1 8; EStep 0 9; EStep 2 10; EStatus alice (Some (s "busy")); EStep 2 11] ++
  steps 0 [12; 13; 14; 15]%Z ++
  [ECall 1 alice [wcreate (s "k4") 9] None] ++ steps 1 [16; 17]%Z ++
  [ECall 2 bob [] (Some (s "deactivated"))].

Definition log_kind (r : returned) : str * Z * nat * option exn :=
  (j_did (t_job r), j_seq (t_job r), j_aborts (t_job r), match t_result r with Ok _ => None | Err x => Some x end).

Lemma race_log : map log_kind (x_log (xtx_run tx0 race)) =
  [(bob, 19, 0%nat, Some InactiveRepo); (alice, 18, 0%nat, Some ValueError); (alice, 15, 1%nat, None);
   (bob, 17, 0%nat, None); (alice, 16, 0%nat, None)]%Z.
Proof. vm_compute. reflexivity. Qed.

(** Thread 1 gets the later number and is done first. *)
Definition crossing : list tx_event :=
  [ECall 0 alice [wcreate (s "k3") 7] None; ECall 1 alice [wcreate (s "k4") 8] None] ++
  steps 1 [1; 2; 3; 4]%Z ++ steps 0 [5; 6; 7; 8]%Z.

Lemma rev_refuted : exists digest kdigest validate ecdsa now cb ops w outs did key recs0 evs j1 cd1 j2 cd2 r1 r2,
  setting digest kdigest validate cb /\ history digest kdigest validate ecdsa now cb Datastore ops w outs /\
  dget did (book_of [] ops outs) = Some (key, recs0) /\
  commits did (x_log (tx_run digest kdigest validate ecdsa (tx_start (w_state w)) evs)) = [(j2, cd2); (j1, cd1)] /\
  cd_prev cd2 = Some (b_cid (cd_commit cd1)) /\
  item_text (s "rev") (b_val (cd_commit cd1)) = Ok r1 /\ item_text (s "rev") (b_val (cd_commit cd2)) = Ok r2 /\
  str_cmp r2 r1 = Lt.
Proof.
  exists xdigest, xkdigest, xvalidate, xecdsa, xnow, xcb, story, (after Datastore story), (snd (xrun Datastore story)), alice.
  do 2 eexists. exists crossing. do 6 eexists.
  split; [exact xsetting|]. split; [exact (story_history Datastore)|]. split; [rewrite story_book; reflexivity|].
  split; [vm_compute; reflexivity|]. split; [vm_compute; reflexivity|]. split; [vm_compute; reflexivity|].
  split; [vm_compute; reflexivity|]. vm_compute. reflexivity.
Qed.

(** Thread 0 has put its blocks when thread 1 commits, and then begins again. *)
Definition retry : list tx_event :=
  [ECall 0 alice [wcreate (s "k3") 7] None] ++ steps 0 [1; 2; 3]%Z ++
  [ECall 1 alice [wcreate (s "k4") 8] None] ++ steps 1 [4; 5; 6; 7]%Z ++ steps 0 [8; 9; 10; 11; 12]%Z.

Local Notation retry_end := (tx_run xdigest xkdigest xvalidate xecdsa (tx_start (w_state (after Datastore story))) retry).
Definition retry_commit (n : nat) : job * commit_data :=
  nth n (commits alice (x_log retry_end)) ({| j_did := []; j_writes := []; j_seq := 0; j_aborts := 0 |}, CommitData (mk_block xdigest INull None 0 None) [] None).
Definition retry_blocks : list block := seq_sort (filter (in_range 15 None) (rev (map snd (s_blocks (tx_state retry_end))))).
Definition retry_items : list eitem := fst (read_events (tx_state retry_end) (Ok retry_blocks)).
Definition is_of (c : cid) (i : eitem) : bool := match i with ECommit cd => str_eqb (b_cid (cd_commit cd)) c | EEvent _ => false end.
Definition retry_event : commit_data :=
  match retry_items with ECommit cd :: _ => cd | _ => snd (retry_commit 9) end.

Lemma retry_facts : 
  commits alice (x_log retry_end) = [((fst (retry_commit 0)), (snd (retry_commit 0))); ((fst (retry_commit 1)), (snd (retry_commit 1)))] /\
  exists bs items cd, enumerates (tx_state retry_end) (s_next (w_state (after Datastore story))) None bs /\
    read_events (tx_state retry_end) (Ok bs) = (items, None) /\
    In (ECommit cd) items /\ b_seq (cd_commit cd) = j_seq (fst (retry_commit 0)) /\ b_repo (cd_commit cd) = Some alice /\
    b_cid (cd_commit cd) <> b_cid (cd_commit (snd (retry_commit 1))) /\ b_cid (cd_commit cd) <> b_cid (cd_commit (snd (retry_commit 0))) /\
    forall cd', In (ECommit cd') items -> b_cid (cd_commit cd') <> b_cid (cd_commit (snd (retry_commit 0))).
Proof.
  split; [vm_compute; reflexivity|].
  exists retry_blocks, retry_items, retry_event.
  split.
  { replace (s_next (w_state (after Datastore story))) with 15%Z by (vm_compute; reflexivity).
    apply (flip_ok _ None 1). exact (tx_keyed _ _ _ _ _ _ xsetting _ _ _ retry (story_history Datastore)). }
  assert (E : snd (read_events (tx_state retry_end) (Ok retry_blocks)) = None) by (vm_compute; reflexivity).
  split; [rewrite <- E; apply surjective_pairing|].
  split.
  { assert (X : hd_error retry_items = Some (ECommit retry_event)) by (vm_compute; reflexivity).
    destruct retry_items; [discriminate X|]. injection X as ->. left. reflexivity. }
  split; [vm_compute; reflexivity|]. split; [vm_compute; reflexivity|].
  split; [apply str_eqb_neq; vm_compute; reflexivity|]. split; [apply str_eqb_neq; vm_compute; reflexivity|].
  assert (A : forallb (fun i => negb (is_of (b_cid (cd_commit (snd (retry_commit 0)))) i)) retry_items = true) by (vm_compute; reflexivity).
  rewrite forallb_forall in A. intros cd' H. specialize (A _ H). cbn [is_of] in A. apply str_eqb_neq. apply negb_true_iff in A. exact A.
Qed.

Lemma events_refuted : exists digest kdigest validate ecdsa now cb ops w outs did key recs0 evs j1 cd1 j2 cd2,
  setting digest kdigest validate cb /\ history digest kdigest validate ecdsa now cb Datastore ops w outs /\
  dget did (book_of [] ops outs) = Some (key, recs0) /\
  let w' := tx_run digest kdigest validate ecdsa (tx_start (w_state w)) evs in
  commits did (x_log w') = [(j2, cd2); (j1, cd1)] /\
  exists bs items cd, enumerates (tx_state w') (s_next (w_state w)) None bs /\
    read_events (tx_state w') (Ok bs) = (items, None) /\
    In (ECommit cd) items /\ b_seq (cd_commit cd) = j_seq j2 /\ b_repo (cd_commit cd) = Some did /\
    b_cid (cd_commit cd) <> b_cid (cd_commit cd1) /\ b_cid (cd_commit cd) <> b_cid (cd_commit cd2) /\
    forall cd', In (ECommit cd') items -> b_cid (cd_commit cd') <> b_cid (cd_commit cd2).
Proof.
  exists xdigest, xkdigest, xvalidate, xecdsa, xnow, xcb, story, (after Datastore story), (snd (xrun Datastore story)), alice.
  do 2 eexists. exists retry, (fst (retry_commit 1)), (snd (retry_commit 1)), (fst (retry_commit 0)), (snd (retry_commit 0)).
  split; [exact xsetting|]. split; [exact (story_history Datastore)|]. split; [rewrite story_book; reflexivity|].
  exact retry_facts.
Qed.
