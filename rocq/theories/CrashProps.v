(** C80, C81: a datastore whose processes die in the middle of operations. *)
From Coq Require Import String List NArith ZArith Bool Lia.
From Verif Require Import Base Lists Ipld MstModel BlockModel StorageModel StorageSpec RepoSpec RepoExamples CrashModel CrashSpec CrashProofs CrashFacts CrashLog CrashCheck.
Import ListNotations.

(** Wherever an operation dies, every repo is as if it had not begun, or as if it had ended: which one is
    decided by whether it got to its write of the repo's entity. *)
Theorem C80_atomic digest kdigest validate ecdsa now cb l op k lost did : setting digest kdigest validate cb -> Forall turn_ok l -> op_named op -> is_did did ->
  let w := turns digest kdigest validate ecdsa now cb l in
  seen Datastore (w_state (crash digest kdigest validate ecdsa now cb w op k lost)) did =
  seen Datastore (w_state (if Nat.leb (decisive op) k then fst (sstep digest kdigest validate ecdsa now cb Datastore w op) else w)) did.
Proof. exact (fun SET => crash_atomic digest kdigest validate ecdsa now cb SET l op k lost did). Qed.
Print Assumptions C80_atomic.

(** After any history with any number of such deaths, every repo shows exactly the records of the commits
    that got to that write. *)
Theorem C80_records digest kdigest validate ecdsa now cb l did key recs : setting digest kdigest validate cb -> Forall turn_ok l ->
  dget did (turns_book digest kdigest validate ecdsa now cb [] init_world l) = Some (key, recs) ->
  let st := w_state (turns digest kdigest validate ecdsa now cb l) in
  exists o, seen Datastore st did = Some o /\ shows kdigest st o recs /\ r_key o = key.
Proof. exact (fun SET => crash_records digest kdigest validate ecdsa now cb SET l did key recs). Qed.
Print Assumptions C80_records.

Theorem C80_none digest kdigest validate ecdsa now cb l did : setting digest kdigest validate cb -> Forall turn_ok l ->
  dget did (turns_book digest kdigest validate ecdsa now cb [] init_world l) = None -> is_did did ->
  seen Datastore (w_state (turns digest kdigest validate ecdsa now cb l)) did = None.
Proof. exact (fun SET => crash_none digest kdigest validate ecdsa now cb SET l did). Qed.
Print Assumptions C80_none.

(** The process that comes next can go on: load the repo and commit to it, and the new commit has a number
    above all that is stored, also above what a dead operation left. *)
Theorem C80_next digest kdigest validate ecdsa now cb l did key recs o ws : setting digest kdigest validate cb -> Forall turn_ok l ->
  dget did (turns_book digest kdigest validate ecdsa now cb [] init_world l) = Some (key, recs) ->
  let w := turns digest kdigest validate ecdsa now cb l in
  seen Datastore (w_state w) did = Some o -> r_status o = None -> writes_allowed validate recs ws -> (len ws <= 200)%N -> (s_next (w_state w) < 2 ^ 55)%Z ->
  exists w1 w2 cd o', sstep digest kdigest validate ecdsa now cb Datastore w (SLoad did) = (w1, Ok OutRepo) /\
    sstep digest kdigest validate ecdsa now cb Datastore w1 (SCommit (length (w_refs w)) ws) = (w2, Ok (OutCommit cd)) /\
    seen Datastore (w_state w2) did = Some o' /\ r_head o' = Some (cd_commit cd) /\ shows kdigest (w_state w2) o' (apply_writes recs ws) /\
    forall c b, read (w_state w) c = Some b -> (b_seq b < b_seq (cd_commit cd))%Z.
Proof. exact (fun SET F B SE ST A L N => crash_next digest kdigest validate ecdsa now cb SET l did key recs o ws F B SE ST (conj A (conj L N))). Qed.
Print Assumptions C80_next.

(** Also a creation that died can be done again. *)
Theorem C80_create digest kdigest validate ecdsa now cb l did handle hc key : setting digest kdigest validate cb -> Forall turn_ok l -> is_did did -> handle_ok handle ->
  let w := turns digest kdigest validate ecdsa now cb l in (s_next (w_state w) < 2 ^ 55)%Z ->
  exists w2 o, sstep digest kdigest validate ecdsa now cb Datastore w (SCreate did handle None hc key) = (w2, Ok OutRepo) /\
    seen Datastore (w_state w2) did = Some o /\ shows kdigest (w_state w2) o [] /\ r_key o = key.
Proof. exact (fun SET => crash_create digest kdigest validate ecdsa now cb SET l did handle hc key). Qed.
Print Assumptions C80_create.

(** No block is lost. *)
Theorem C80_kept digest kdigest validate ecdsa now cb l t c b : setting digest kdigest validate cb -> Forall turn_ok (l ++ [t]) ->
  read (w_state (turns digest kdigest validate ecdsa now cb l)) c = Some b ->
  read (w_state (turns digest kdigest validate ecdsa now cb (l ++ [t]))) c = Some b.
Proof. exact (fun SET => turn_keeps digest kdigest validate ecdsa now cb SET l t c b). Qed.
Print Assumptions C80_kept.

(** The story: its deaths change nothing, but for the last, which changes the status; the records are those
    of the commits that ended; one more commit is possible, and Bob can be created again. *)
Example C80_case : setting xdigest xkdigest xvalidate xcb /\ Forall turn_ok crash_story /\
  map (fun n => print_repo (xturns (firstn n crash_story)) alice) [2; 3; 5; 6; 7; 8; 10]%nat =
    [Some (None, 1%N, print_posts [(s "k0", 1%Z)]); Some (None, 1%N, print_posts [(s "k0", 1%Z)]);
     Some (None, 1%N, print_posts [(s "k0", 1%Z); (s "k2", 3%Z)]); Some (None, 1%N, print_posts [(s "k0", 1%Z); (s "k2", 3%Z)]);
     Some (None, 1%N, print_posts [(s "k0", 1%Z); (s "k2", 3%Z)]); Some (Some (s "deactivated"), 1%N, print_posts [(s "k0", 1%Z); (s "k2", 3%Z)]);
     Some (None, 1%N, print_posts [(s "k0", 1%Z); (s "k2", 3%Z)])] /\
  print_repo (xturns crash_story) bob = None /\
  map (fun n => length (s_blocks (w_state (xturns (firstn n crash_story))))) [2; 3; 5; 6; 8; 10]%nat = [8; 11; 15; 18; 18; 19]%nat /\
  xbook crash_story = [(alice, (1%N, [(record_path (s "app.post") (s "k0"), post 1); (record_path (s "app.post") (s "k2"), post 3)]))] /\
  writes_allowed xvalidate [(record_path (s "app.post") (s "k0"), post 1); (record_path (s "app.post") (s "k2"), post 3)]
    [wdelete (s "k0"); wcreate (s "k1") 7] /\
  s_next (w_state (xturns crash_story)) = 15%Z.
Proof.
  split; [exact xsetting|]. split; [apply turns_ok; reflexivity|]. split; [vm_compute; reflexivity|]. split; [vm_compute; reflexivity|].
  split; [vm_compute; reflexivity|]. split; [vm_compute; reflexivity|].
  split; [|vm_compute; reflexivity]. cbn [writes_allowed]. split; [apply allowedb_ok; vm_compute; reflexivity|]. split; [apply allowedb_ok; vm_compute; reflexivity|exact I].
Qed.

(** Not so the firehose. The creation of a repo that dies has its events stored, though there is no such repo;
    they are sent from the datastore. *)
Theorem C81_refuted : exists digest kdigest validate ecdsa now cb l did n c b,
  setting digest kdigest validate cb /\ Forall turn_ok l /\ is_did did /\
  let st := w_state (turns digest kdigest validate ecdsa now cb l) in
  read st c = Some b /\ b_val b = event_value now (s "identity") n did [(s "handle", INull)] /\ (0 < n)%Z /\ seen Datastore st did = None.
Proof. exact c81_refuted. Qed.
Print Assumptions C81_refuted.

(** A commit that dies leaves its blocks; the next commit to the repo has the same predecessor, and both are
    in the log. *)
Theorem C81_fork_refuted : exists digest kdigest validate ecdsa now cb l c1 c2 b1 b2 did key prev root1 root2,
  setting digest kdigest validate cb /\ Forall turn_ok l /\
  let st := w_state (turns digest kdigest validate ecdsa now cb l) in
  read st c1 = Some b1 /\ read st c2 = Some b2 /\ b1 <> b2 /\
  commit_of ecdsa b1 did key (Some prev) root1 /\ commit_of ecdsa b2 did key (Some prev) root2.
Proof. exact c81_fork_refuted. Qed.
Print Assumptions C81_fork_refuted.

(** A change of status that dies has happened, and no event tells. *)
Theorem C81_silent_refuted : exists digest kdigest validate ecdsa now cb l did o,
  setting digest kdigest validate cb /\ Forall turn_ok l /\
  let st := w_state (turns digest kdigest validate ecdsa now cb l) in
  seen Datastore st did = Some o /\ r_status o = Some (s "deactivated") /\
  forall c b, read st c = Some b -> item (s "active") (b_val b) <> Ok (IBool false).
Proof. exact c81_silent_refuted. Qed.
Print Assumptions C81_silent_refuted.

(** That is all that can happen: an operation that dies before its first block or after its last leaves the
    blocks that it found, or the blocks that it leaves when it does not die. Missing: the deaths in between. *)
Theorem C81_partial digest kdigest validate ecdsa now cb l op k lost : whole op k ->
  let w := turns digest kdigest validate ecdsa now cb l in
  s_blocks (w_state (crash digest kdigest validate ecdsa now cb w op k lost)) =
  s_blocks (w_state (if Nat.leb (decisive op) k then fst (sstep digest kdigest validate ecdsa now cb Datastore w op) else w)).
Proof. exact (cut_blocks digest kdigest validate ecdsa now cb (turns digest kdigest validate ecdsa now cb l) op k). Qed.
Print Assumptions C81_partial.

Example C81_partial_case : whole (SDeactivate 0) 3 /\ whole (SCommit 0 [wcreate (s "k3") 4]) 1 /\ whole (SCreate bob None None false 2) 9 /\
  let w := xturns (firstn 5 crash_story) in
  map (fun x => length (s_blocks (w_state (xcrash w (fst x) (snd x) 0))))
    [(SDeactivate 0, 3); (SCommit 0 [wcreate (s "k3") 4], 1); (SCommit 0 [wcreate (s "k3") 4], 3); (SCreate bob None None false 2, 9)] = [16; 15; 18; 19].
Proof. split; [cbn; lia|]. split; [cbn; lia|]. split; [cbn; lia|]. vm_compute. reflexivity. Qed.
