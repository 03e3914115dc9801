(** C28 without restrictions on histories. *)
From Coq Require Import String List NArith ZArith Bool.
From Verif Require Import Base Lists Ipld MstModel StorageModel StorageSpec RepoSpec RepoExamples IsolateProps TellProofs.
Import ListNotations.

(** ** C28 *)

(** In every history, also if batches failed halfway and callbacks raised: a commit uses one number.
    Either it is stored, what was stored stays and everything new has the number, and the callback
    gets the commit; if it raises, then it is told on top of that that the number is lost. Or nothing
    is written, nothing has the number, and the callback is told that the number is lost. *)
Theorem C28_any digest kdigest validate ecdsa now cb be ops w outs h o ws w' out : (forall a b, digest a = digest b -> a = b) ->
  srun digest kdigest validate ecdsa now cb be init_world ops = (w, outs) -> Forall op_named ops ->
  handle_obj w h = Some o -> sstep digest kdigest validate ecdsa now cb be w (SCommit h ws) = (w', out) ->
  s_next (w_state w') = (s_next (w_state w) + 1)%Z /\
  ((exists cd b, b_seq (cd_commit cd) = s_next (w_state w) /\
      read (w_state w') (b_cid (cd_commit cd)) = Some b /\ b_val b = b_val (cd_commit cd) /\
      (forall c x, read (w_state w) c = Some x -> read (w_state w') c = Some x) /\
      (forall c x, read (w_state w') c = Some x -> read (w_state w) c = Some x \/ b_seq x = s_next (w_state w)) /\
      (out = Ok (OutCommit cd) /\ s_calls (w_state w') = (if r_callback o then [CData (MCommit cd)] else []) ++ s_calls (w_state w) \/
       r_callback o = true /\ (exists k e, cb k = Some e) /\ (exists e, out = Err e) /\
         s_calls (w_state w') = [CLost (s_next (w_state w)); CData (MCommit cd)] ++ s_calls (w_state w))) \/
   (exists e, out = Err e) /\ s_blocks (w_state w') = s_blocks (w_state w) /\
     (forall c x, read (w_state w') c = Some x -> b_seq x <> s_next (w_state w)) /\
     s_calls (w_state w') = (if r_callback o then [CLost (s_next (w_state w))] else []) ++ s_calls (w_state w)).
Proof. exact (fun inj => c28_any digest kdigest validate ecdsa now cb be inj ops w outs h o ws w' out). Qed.
Print Assumptions C28_any.

(** In every history, a change of status that fails on the way to its event uses no number. Otherwise
    it uses one, its event is stored, everything new has the number, and the callback gets the
    event. The number is never reported as lost, and only the callback can fail then. *)
Theorem C28_status_any digest kdigest validate ecdsa now cb be ops w outs op h x type extra o did w' out :
  (forall a b, digest a = digest b -> a = b) ->
  srun digest kdigest validate ecdsa now cb be init_world ops = (w, outs) -> Forall op_named ops ->
  status_op op = Some (h, x, type, extra) -> handle_obj w h = Some o -> handle_did w h = Some did ->
  sstep digest kdigest validate ecdsa now cb be w op = (w', out) ->
  let n := s_next (w_state w) in let v := event_value now type n did extra in
  (exists e, out = Err e) /\ s_next (w_state w') = n /\ s_blocks (w_state w') = s_blocks (w_state w) /\ s_calls (w_state w') = s_calls (w_state w) \/
  s_next (w_state w') = (n + 1)%Z /\ (forall c x, read (w_state w) c = Some x -> read (w_state w') c = Some x) /\
  (forall c x, read (w_state w') c = Some x -> read (w_state w) c = Some x \/ b_seq x = n) /\
  (exists x, read (w_state w') (cid_of digest v) = Some x /\ b_val x = v) /\
  s_calls (w_state w') = (if r_callback o then [CData (MEvent v)] else []) ++ s_calls (w_state w) /\
  (out = Ok OutDone \/ r_callback o = true /\ exists k e, cb k = Some e /\ out = Err e).
Proof. exact (fun inj => c28_status digest kdigest validate ecdsa now cb be inj ops w outs op h x type extra o did w' out). Qed.
Print Assumptions C28_status_any.

(** In every history, nothing is stored with a number that has not been taken yet. *)
Theorem C28_below digest kdigest validate ecdsa now cb be ops w outs c b : (forall a b, digest a = digest b -> a = b) ->
  srun digest kdigest validate ecdsa now cb be init_world ops = (w, outs) -> Forall op_named ops ->
  read (w_state w) c = Some b -> (b_seq b < s_next (w_state w))%Z.
Proof. exact (fun inj => c28_below digest kdigest validate ecdsa now cb be inj ops w outs c b). Qed.
Print Assumptions C28_below.

(** After a commit that failed halfway: a commit whose callback raises, one that fails, a change of
    status, and a commit to a repo without callback. The callback raises whatever comes next. *)
Definition tell_call (c : call) : Z + bool :=
  match c with CLost n => inl n | CData (MCommit _) => inr true | CData (MEvent _) => inr false end.
Definition tell_of (be : backend) (op : sop) :=
  let w := fst (srun xdigest xkdigest xvalidate xecdsa xnow messy_cb be init_world messy) in
  let '(w', out) := sstep xdigest xkdigest xvalidate xecdsa xnow messy_cb be w op in
  (kind_of out, length (s_blocks (w_state w')) - length (s_blocks (w_state w)), (s_next (w_state w') - s_next (w_state w))%Z,
   map tell_call (firstn (length (s_calls (w_state w')) - length (s_calls (w_state w))) (s_calls (w_state w')))).
Example C28_any_case : (forall a b, xdigest a = xdigest b -> a = b) /\ Forall op_named messy /\
  forall be, let w := fst (srun xdigest xkdigest xvalidate xecdsa xnow messy_cb be init_world messy) in
    option_map r_callback (handle_obj w 0) = Some true /\ handle_did w 0 = Some alice /\
    tell_of be messy_op = (inl (Some RuntimeError), match be with Memory => 4 | Datastore => 3 end, 1%Z, [inl 11%Z; inr true]) /\
    tell_of be (SCommit 0 [wdelete (s "zz")]) = (inl (Some RuntimeError), 0, 1%Z, [inl 11%Z]) /\
    tell_of be (SDeactivate 0) = (inl (Some RuntimeError), 1, 1%Z, [inr false]) /\
    tell_of be (SCommit 1 [wcreate (s "k3") 3]) = (inr 3, 5, 1%Z, []).
Proof.
  split; [exact (fun a b H => H)|]. split; [apply op_namedb_ok; reflexivity|].
  intros be. destruct be; vm_compute; repeat (split; [reflexivity|]); reflexivity.
Qed.
