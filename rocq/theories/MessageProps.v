(** Properties of firehose messages (arroba/firehose.py:346-433). *)
From Coq Require Import String List NArith ZArith Bool.
From Verif Require Import Base Lists Ipld MstModel CarModel StorageModel StorageSpec RepoSpec RepoExamples EventsModel EventsSpec
  MessageModel MessageSpec MessageProofs MessageExamples.
Import ListNotations.

(** ** C35 *)

(** Every commit of every repo of every history has a message, and so has the creation [c0] of the
    repo, whether or not the previous commit was fetched beforehand: repo, seq, rev and commit are
    those of the commit, the ops are those of the commit, prevData is the tree root of the commit
    before, and the blocks are a CAR with all that [commit_car] asks for. [commit_blocks] says what
    the storage yields for a commit (C25). Missing: since, which is always null. *)
Theorem C35_message_partial : forall digest kdigest validate ecdsa now cb btime be,
  setting digest kdigest validate cb -> (forall x, length (digest x) = 32) ->
  forall ops w outs did l, history digest kdigest validate ecdsa now cb be ops w outs -> dget did (trail_of [] ops outs) = Some l ->
  dget did (book_of [] ops outs) <> None ->
  exists c0,
    (forall blocks cdp, commit_blocks (w_state w) c0 blocks ->
       exists header payload, process_event btime (w_state w) (ECommit (CommitData c0 blocks cdp)) None = Ok (header, payload) /\
         commit_message digest kdigest (w_state w) did None c0 [] header payload) /\
    (exists o, seen be (w_state w) did = Some o /\ r_head o = Some (commit_before c0 l)) /\
    forall l1 cd recs l2, l = l1 ++ (cd, recs) :: l2 ->
      forall blocks cdp pre, commit_blocks (w_state w) (cd_commit cd) blocks -> pre = None \/ pre = Some (commit_before c0 l2) ->
      exists header payload, process_event btime (w_state w) (ECommit (CommitData (cd_commit cd) blocks cdp)) pre = Ok (header, payload) /\
        commit_message digest kdigest (w_state w) did (Some (commit_before c0 l2)) (cd_commit cd) recs header payload.
Proof. exact c35. Qed.
Print Assumptions C35_message_partial.

(** The history of [wstory], its items and their messages. *)
Definition ex_state : state := w_state (wafter wstory).
Definition ex_items : list eitem := fst (read_events ex_state (mem_blocks_by_seq ex_state 0 None)).
Definition ex_message (n : nat) : res message_parts :=
  match nth_error ex_items n with Some i => process_event (fun _ => s "now") ex_state i None | None => Err KeyError end.
Definition ex_field (n : nat) (k : str) : option ipld := match ex_message n with Ok (_, p) => dget k p | Err _ => None end.
Example C35_example : setting wdigest xkdigest xvalidate xcb /\ (forall x, length (wdigest x) = 32) /\
  whistory wstory (wafter wstory) (snd (wrun wstory)) /\
  match dget alice (trail_of [] wstory (snd (wrun wstory))) with Some l => length l = 2 | None => False end /\
  dget alice (book_of [] wstory (snd (wrun wstory))) <> None.
Proof.
  split; [exact wsetting|]. split; [exact wdigest_length|]. split; [exact wstory_history|]. split; [|rewrite wstory_book; discriminate].
  vm_compute. reflexivity.
Qed.
(** Item 9 is the last commit: three ops; its CAR has the commit, both new records and the nodes. *)
Example C35_example_message :
  ex_field 9 (s "seq") = Some (IInt 10) /\ ex_field 9 (s "repo") = Some (IText alice) /\
  match ex_field 9 (s "ops") with Some (IList l) => length l = 3 | _ => False end /\
  match ex_field 9 (s "blocks") with
  | Some (IBytes car) => match read_car car with Some ([_], bl) => length bl = 6 | _ => False end
  | _ => False
  end.
Proof. split; [vm_compute; reflexivity|]. split; [vm_compute; reflexivity|]. split; vm_compute; reflexivity. Qed.

(** The commit before has a rev, but since is not it. *)
Theorem C35_refuted : exists digest kdigest validate ecdsa now cb btime be ops w outs did cd recs cd' recs' blocks payload rev,
  setting digest kdigest validate cb /\ history digest kdigest validate ecdsa now cb be ops w outs /\
  dget did (trail_of [] ops outs) = Some [(cd, recs); (cd', recs')] /\ item_text (s "rev") (b_val (cd_commit cd')) = Ok rev /\
  In (ECommit (CommitData (cd_commit cd) blocks (cd_prev cd))) (fst (read_events (w_state w) (mem_blocks_by_seq (w_state w) 0 None))) /\
  process_event btime (w_state w) (ECommit (CommitData (cd_commit cd) blocks (cd_prev cd))) None
    = Ok ([(s "op", IInt 1); (s "t", IText (s "#commit"))], payload) /\
  dget (s "since") payload <> Some (IText rev).
Proof.
  pose (st := w_state (after Memory story)).
  pose (item := nth 9 (fst (read_events st (mem_blocks_by_seq st 0 None))) (EEvent INull)).
  pose (none := CommitData (Block [] INull 0 None None) [] None).
  pose (cd n := match dget alice (trail_of [] story (snd (xrun Memory story))) with Some l => nth n l (none, []) | None => (none, []) end).
  exists xdigest, xkdigest, xvalidate, xecdsa, xnow, xcb, (fun _ => s "now"), Memory, story, (after Memory story), (snd (xrun Memory story)), alice,
    (fst (cd 0)), (snd (cd 0)), (fst (cd 1)), (snd (cd 1)),
    (match item with ECommit c => cd_blocks c | _ => [] end),
    (match process_event (fun _ => s "now") st item None with Ok (_, p) => p | Err _ => [] end),
    (match item_text (s "rev") (b_val (cd_commit (fst (cd 1)))) with Ok r => r | Err _ => [] end).
  split; [exact xsetting|]. split; [exact (story_history Memory)|]. split; [vm_compute; reflexivity|]. split; [vm_compute; reflexivity|].
  split; [apply (nth_error_In _ 9); vm_compute; reflexivity|]. split; [vm_compute; reflexivity|]. vm_compute. discriminate.
Qed.
Print Assumptions C35_refuted.

(** Other events: the type goes into the header, the rest is the payload. *)
Theorem C35_event : forall btime st m frag pre, frag <> [] -> NoDup (keys m) ->
  dget (s "$type") m = Some (IText (s "com.atproto.sync.subscribeRepos" ++ frag)) ->
  exists payload, process_event btime st (EEvent (IMap m)) pre = Ok ([(s "op", IInt 1); (s "t", IText frag)], payload) /\
    forall k, dget k payload = if str_eqb k (s "$type") then None else dget k m.
Proof. exact event_message. Qed.
Print Assumptions C35_event.
Example C35_event_example : exists m, nth_error ex_items 1 = Some (EEvent (IMap m)) /\
  dget (s "$type") m = Some (IText (s "com.atproto.sync.subscribeRepos" ++ s "#identity")) /\ length m = 5.
Proof. eexists. split; [vm_compute; reflexivity|]. split; vm_compute; reflexivity. Qed.
