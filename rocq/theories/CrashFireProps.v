(** C82: the firehose of a datastore whose processes die in the middle of operations. *)
From Coq Require Import String List NArith ZArith Bool Lia.
From Verif Require Import Base Lists Ipld MstModel StorageModel StorageSpec RepoSpec RepoExamples EventsModel EventsSpec EventsProps LogSpec LogProps CrashModel CrashSpec CrashProofs CrashFire CrashCheck.
Import ListNotations.

(** Wherever processes died, whatever callbacks raised: reading the events never raises, and gives one item for
    each commit and event in the datastore from [start] on, for [repo] if given, in the order of their numbers; the item of
    a commit has the blocks of the commit. Each commit and event of an operation that ended well has its item. *)
Theorem C82 digest kdigest validate ecdsa now cb l start repo query fails :
  (forall a b, digest a = digest b -> a = b) -> (forall v, validate v = Ok tt -> plain v) -> Forall turn_ok l -> (0 <= start)%Z ->
  let st := w_state (turns digest kdigest validate ecdsa now cb l) in
  (forall i cur, enumerates st cur repo (query i cur)) ->
  exists items lg, read_events st (scan query fails start) = (items, None) /\
    logged ecdsa st start repo lg /\ Forall2 (item_for ecdsa st) items lg /\
    forall e, In e (turns_log digest kdigest validate ecdsa now cb init_world l) -> entry_selected start repo e = true ->
      exists i, In i items /\ entry_item ecdsa now st i e.
Proof. exact (fun inj pl => crash_fire digest kdigest validate ecdsa now cb inj pl l start repo query fails). Qed.
Print Assumptions C82.

(** The story: 1 to 5 are Alice's creation and commit; 6 the commit that died, whose item is there though her repo is
    without it; 10 the next commit; 11 to 13 Bob's creation that died; 14 the activation. *)
Example C82_case : (forall a b, xdigest a = xdigest b -> a = b) /\ (forall v, xvalidate v = Ok tt -> plain v) /\ Forall turn_ok crash_story /\
  let st := w_state (xturns crash_story) in
  (forall i cur, enumerates st cur None (flip_query st None i cur)) /\
  map entry_seq (turns_log xdigest xkdigest xvalidate xecdsa xnow xcb init_world crash_story) = [1; 2; 3; 4; 5; 10; 14]%Z /\
  map item_seq (fst (read_events st (scan (flip_query st None) [2; 0] 2))) = map Some [2; 3; 4; 5; 6; 10; 11; 12; 13; 14]%Z.
Proof.
  assert (T : Forall turn_ok crash_story) by (apply turns_ok; reflexivity).
  split; [exact (fun a b H => H)|]. split; [exact (proj1 (proj2 (proj2 xsetting)))|]. split; [exact T|]. cbv zeta. split.
  - intros i cur. apply flip_enumerates. apply crash_keyed; [exact (fun a b H => H)|exact (proj1 (proj2 (proj2 xsetting)))|exact T].
  - vm_compute. split; reflexivity.
Qed.
