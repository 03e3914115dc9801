(** Model of the firehose (arroba/firehose.py:62-343) and of the subscribeRepos method
    (arroba/xrpc_sync.py:114-163): the collector thread, any number of subscriber threads and
    their surroundings, as a machine that takes one step at a time.

    What a step is. Steps of the threads are separated wherever a thread reads or writes something
    that another thread writes: the storage, the sequence counter, the clock, [lost_seqs],
    [rollback] and [subscribers]. Code under [lock] is one step, since the only accesses without
    the lock are reads of [rollback], which changes once under each lock. Waiting for
    [new_events] ends at any time (it has a timeout), so the notification is not modelled, and
    neither are sleeping, logging, [reset] and the [limit] of the collector, all three of which
    are for tests.

    What is abstract. An event is a sequence number and a body, which stands for all else in
    the header and the payload: what [process_event] makes of an event of the storage is the subject
    of MessageModel, here it either fails or passes the event on. Reads of the storage give whatever
    the action says; FireSpec says which answers are honest. *)
From Coq Require Import String List NArith ZArith Bool.
From Verif Require Import Base.
Import ListNotations.
Local Open Scope Z_scope.

Record event := Ev { e_seq : Z; e_body : str }.

(** What subscribers get: events, the error for a cursor in the future with the cursor and the
    current sequence number, and the info about an outdated cursor (xrpc_sync.py:148-161). *)
Inductive msg :=
| MEvent (e : event)
| MFuture (cursor current : Z)
| MOutdated.

(** ROLLBACK_WINDOW, PRELOAD_WINDOW, SUBSCRIBE_REPOS_SKIPPED_SEQ_WINDOW and
    SUBSCRIBE_REPOS_SKIPPED_SEQ_DELAY (firehose.py:30-38); time is in some unit such as
    microseconds. *)
Record config := Config { rollback_window : nat; preload_window : Z; skip_window : Z; skip_delay : Z }.

(** A running [read_events_by_seq]: where it is, and which of the events that were there when it
    began are still to come. Only FireSpec looks at these. *)
Record query := Query { q_pos : Z; q_left : list event }.
Definition seqs_from (n : Z) (l : list event) : list event := filter (fun e => n <=? e_seq e) l.
Definition query_at (log : list event) (n : Z) : query := Query n (seqs_from n log).
Definition query_past (e : event) (q : query) : query := Query (e_seq e + 1) (seqs_from (e_seq e + 1) (q_left q)).

(** Where the collector is in [Collector.run] and [Collector._collect]. *)
Inductive cstate :=
| CNew                                        (* before run *)
| CPreload (last : Z) (q : query) (got : list event)  (* 230-247, [list(query)] *)
| CIdle                                       (* 281-285, waiting *)
| CRead (q : query)                           (* 287, about to ask for the next event *)
| CGot (q : query) (e : event)                (* 295, has an event *)
| CGap (q : query) (e : event)                (* 307, some number is missing *)
| CAsk (q : query) (e : event)                (* 308, not too late to wait for it *)
| CEmit (q : query) (e : event)               (* 319 *)
| CSend (q : query) (e : event)               (* 334 *)
| CDead.

(** Where a subscriber is in [subscribe_repos] and [subscribe]. *)
Inductive sstate :=
| SRequest (cursor : option Z)                (* xrpc_sync.py:144 *)
| SNew (cursor : option Z)                    (* 115 *)
| SQuery (c : Z) (pre : list event) (last : option Z) (q : query)  (* 132 *)
| SGot (c : Z) (pre : list event) (q : query) (e : event)  (* 140 *)
| SCopy (c : Z)                               (* 166 *)
| SServe (c : Z) (handoff todo : list event)  (* 170 *)
| SEnqueue (handoff : option (list event))    (* 178 *)
| SLive (queue : list event)                  (* 195 *)
| SDead (why : option exn).

Record sub := Sub { s_state : sstate; s_out : list msg }.

(** All there is. [f_pre] and [f_sent] keep a record of the events loaded at the start and of those
    that the collector put into [rollback]. [f_rollback] counts once [f_started] is set. *)
Record fire := Fire {
  f_log : list event;           (* the events in the storage *)
  f_last : option Z;            (* sequences.last *)
  f_lost : list Z;              (* lost_seqs *)
  f_now : Z;                    (* the clock *)
  f_started : bool;
  f_rollback : list event;
  f_subscribers : list nat;     (* whose queues are in [subscribers] *)
  f_coll : cstate;
  f_last_seq : Z;               (* Collector.last_seq *)
  f_last_event : Z;             (* last_event of _collect *)
  f_threads : list sub;
  f_pre : list event;
  f_sent : list event }.

(** What can happen: something in the surroundings, a step of the collector or of a subscriber. The
    read of a thread gives an event or ends; [CFail] and [SFail] are exceptions from
    the storage or from [process_event]. *)
Inductive act :=
| EAdd (e : event)
| ELast (n : option Z)
| ELost (n : Z)
| ETime (t : Z)
| CStep | CItem (e : event) | CEnd | CFail
| SOpen (st : sstate)
| SStep (i : nat) | SItem (i : nat) (e : event) | SEnd (i : nat) | SFail (i : nat) | SClose (i : nat).

Definition with_coll (f : fire) (c : cstate) : fire :=
  Fire (f_log f) (f_last f) (f_lost f) (f_now f) (f_started f) (f_rollback f) (f_subscribers f) c (f_last_seq f) (f_last_event f)
    (f_threads f) (f_pre f) (f_sent f).

(** A new round of [_collect] after an exception (firehose.py:255-261, 275-276). *)
Definition restart (f : fire) : fire :=
  Fire (f_log f) (f_last f) (f_lost f) (f_now f) (f_started f) (f_rollback f) (f_subscribers f) CIdle (f_last_seq f) (f_now f)
    (f_threads f) (f_pre f) (f_sent f).

(** A deque with a maximum length keeps the last of what it gets. *)
Definition lastn {A} (n : nat) (l : list A) : list A := skipn (length l - n) l.

Definition last_of (l : list event) : option event := match l with [] => None | x :: r => Some (last r x) end.

Section Fire.
Variable cf : config.

(** The end of the preload (firehose.py:240-251), and entering [_collect] (275-276). *)
Definition preloaded (f : fire) (last : Z) (got : list event) : fire :=
  let rb := lastn (rollback_window cf) got in
  Fire (f_log f) (f_last f) (f_lost f) (f_now f) true rb (f_subscribers f) CIdle
    (match last_of rb with Some e => e_seq e | None => last end) (f_now f) (f_threads f) got (f_sent f).

(** The loop over the numbers after [last_seq] that are lost (firehose.py:295-300): [k] numbers
    from [n] on. *)
Fixpoint skip_lost (lost : list Z) (n : Z) (k : nat) : Z :=
  match k with
  | O => n
  | S k' => match k' with O => n | _ => if existsb (Z.eqb n) lost then skip_lost lost (n + 1) k' else n end
  end.
Definition next_seq (f : fire) (cur : Z) : Z := skip_lost (f_lost f) (f_last_seq f + 1) (Z.to_nat (cur - f_last_seq f)).

Fixpoint put_all (i : nat) (subs : list nat) (e : event) (l : list sub) : list sub :=
  match l with
  | [] => []
  | t :: r =>
      (if existsb (Nat.eqb i) subs then
         match s_state t with SLive q => Sub (SLive (q ++ [e])) (s_out t) | _ => t end
       else t) :: put_all (S i) subs e r
  end.

(** Adding to [rollback] and to the queues of all subscribers (firehose.py:334-340). *)
Definition send (f : fire) (q : query) (e : event) : fire :=
  Fire (f_log f) (f_last f) (f_lost f) (f_now f) (f_started f) (lastn (rollback_window cf) (f_rollback f ++ [e])) (f_subscribers f)
    (CRead q) (f_last_seq f) (f_last_event f) (put_all 0 (f_subscribers f) e (f_threads f)) (f_pre f) (f_sent f ++ [e]).

(** [Collector.run] and [_collect] (firehose.py:225-343). *)
Definition coll_step (f : fire) : option fire :=
  match f_coll f with
  | CNew =>
      Some (with_coll f
        match f_last f with
        | None => CDead
        | Some last => CPreload last (query_at (f_log f) (Z.max (last - preload_window cf + 1) 0)) []
        end)
  | CIdle =>
      if f_last_seq f + 1 <? 0 then Some (restart f)
      else Some (with_coll f (CRead (query_at (f_log f) (f_last_seq f + 1))))
  | CGot q e => Some (with_coll f (if next_seq f (e_seq e) <? e_seq e then CGap q e else CEmit q e))
  | CGap q e => Some (with_coll f (if f_now f - f_last_event f <=? skip_delay cf then CAsk q e else CEmit q e))
  | CAsk q e =>
      Some (with_coll f
        match f_last f with
        | None => CIdle
        | Some last => if last - e_seq e <=? skip_window cf then CIdle else CEmit q e
        end)
  | CEmit q e =>
      Some (Fire (f_log f) (f_last f) (f_lost f) (f_now f) (f_started f) (f_rollback f) (f_subscribers f) (CSend q e)
              (e_seq e) (f_now f) (f_threads f) (f_pre f) (f_sent f))
  | CSend q e => Some (send f q e)
  | CPreload _ _ _ | CRead _ | CDead => None
  end.

Definition coll_item (f : fire) (e : event) : option fire :=
  match f_coll f with
  | CPreload last q got => Some (with_coll f (CPreload last (query_past e q) (got ++ [e])))
  | CRead q =>
      Some (with_coll f (if e_seq e <=? f_last_seq f then CRead (query_past e q) else CGot (query_past e q) e))
  | _ => None
  end.

Definition coll_end (f : fire) : option fire :=
  match f_coll f with
  | CPreload last _ got => Some (preloaded f last got)
  | CRead _ => Some (with_coll f CIdle)
  | _ => None
  end.

(** Exceptions end the thread during the preload and restart [_collect] later. *)
Definition coll_fail (f : fire) : option fire :=
  match f_coll f with
  | CPreload _ _ _ => Some (with_coll f CDead)
  | CRead _ | CEmit _ _ => Some (restart f)
  | _ => None
  end.

(** ** Subscribers *)

Fixpoint set_nth {A} (n : nat) (x : A) (l : list A) : list A :=
  match l, n with
  | [], _ => []
  | _ :: r, O => x :: r
  | y :: r, S n' => y :: set_nth n' x r
  end.

Definition with_sub (f : fire) (i : nat) (t : sub) : fire :=
  Fire (f_log f) (f_last f) (f_lost f) (f_now f) (f_started f) (f_rollback f) (f_subscribers f) (f_coll f) (f_last_seq f)
    (f_last_event f) (set_nth i t (f_threads f)) (f_pre f) (f_sent f).
Definition with_rollback (f : fire) (rb : list event) : fire :=
  Fire (f_log f) (f_last f) (f_lost f) (f_now f) (f_started f) rb (f_subscribers f) (f_coll f) (f_last_seq f)
    (f_last_event f) (f_threads f) (f_pre f) (f_sent f).
Definition with_subscribers (f : fire) (subs : list nat) : fire :=
  Fire (f_log f) (f_last f) (f_lost f) (f_now f) (f_started f) (f_rollback f) subs (f_coll f) (f_last_seq f)
    (f_last_event f) (f_threads f) (f_pre f) (f_sent f).

(** [subscribe_repos] up to [yield from] (xrpc_sync.py:144-163). *)
Definition request_step (f : fire) (cursor : option Z) (out : list msg) : sub :=
  match f_last f with
  | None => Sub (SDead (Some AssertionError)) out
  | Some cur =>
      match cursor with
      | None => Sub (SNew None) out
      | Some c =>
          let start := Z.max (cur - Z.of_nat (rollback_window cf)) 0 in
          if cur <? c then Sub (SDead None) (out ++ [MFuture c cur])
          else if c <? start then Sub (SNew (Some start)) (out ++ [MOutdated])
          else Sub (SNew (Some c)) out
      end
  end.

(** The start of [subscribe] (firehose.py:124-132): [read_events_by_seq] asserts that it does not start
    below zero. *)
Definition new_step (f : fire) (cursor : option Z) : sstate :=
  match cursor with
  | None => SEnqueue None
  | Some c =>
      let start := match f_rollback f with e :: _ => e_seq e | [] => 0 end in
      if c <? start then if c <? 0 then SDead (Some AssertionError) else SQuery c [] None (query_at (f_log f) c)
      else SCopy c
  end.

(** The non-monotonic check (firehose.py:135-138); zero counts as no last number. *)
Definition query_item (c : Z) (pre : list event) (lst : option Z) (q : query) (e : event) : sstate :=
  let old := match lst with Some n => negb (n =? 0) && (e_seq e <=? n) | None => false end in
  if old then SQuery c pre lst (query_past e q) else SGot c pre (query_past e q) e.

(** What is merged into the rollback window (firehose.py:146-153). *)
Definition merged (rb pre : list event) : list event :=
  match rb with
  | [] => []
  | first :: _ =>
      let room := (rollback_window cf - length rb)%nat in
      match room, pre with
      | O, _ | _, [] => []
      | _, _ => lastn room (filter (fun e => e_seq e <? e_seq first) pre)
      end
  end.

(** Reaching the rollback window or not (firehose.py:140-163). *)
Definition got_step (f : fire) (i : nat) (c : Z) (pre : list event) (q : query) (e : event) (out : list msg) : fire :=
  match f_rollback f with
  | [] => with_sub f i (Sub (SDead (Some IndexError)) out)
  | first :: _ =>
      if e_seq first <=? e_seq e then
        let old := merged (f_rollback f) pre in
        let ok := match last_of old with
                  | None => true
                  | Some l => (length (f_rollback f) + length old <=? rollback_window cf)%nat && (e_seq l <? e_seq first)
                  end in
        if ok then with_rollback (with_sub f i (Sub (SServe c (f_rollback f) (f_rollback f)) out)) (old ++ f_rollback f)
        else with_sub f i (Sub (SDead (Some AssertionError)) out)
      else with_sub f i (Sub (SQuery c (pre ++ [e]) (Some (e_seq e)) q) (out ++ [MEvent e]))
  end.

(** Events of the rollback window after [last] (firehose.py:184-188). *)
Fixpoint catch_up (last : Z) (rb : list event) : list event :=
  match rb with
  | [] => []
  | e :: r => if last <? e_seq e then e :: catch_up (e_seq e) r else catch_up last r
  end.

(** Registering (firehose.py:178-191). *)
Definition enqueue_step (f : fire) (i : nat) (handoff : option (list event)) (out : list msg) : fire :=
  let live q := with_subscribers (with_sub f i (Sub (SLive q) out)) (f_subscribers f ++ [i]) in
  match handoff with
  | None => live []
  | Some h =>
      match last_of h, f_rollback f with
      | Some l, first :: _ =>
          if e_seq first <=? e_seq l then live (catch_up (e_seq l) (f_rollback f))
          else with_sub f i (Sub (SDead (Some AssertionError)) out)
      | _, _ => with_sub f i (Sub (SDead (Some IndexError)) out)
      end
  end.

Definition sub_step (f : fire) (i : nat) (t : sub) : option fire :=
  let out := s_out t in
  match s_state t with
  | SRequest c => Some (with_sub f i (request_step f c out))
  | SNew c => if f_started f then Some (with_sub f i (Sub (new_step f c) out)) else None
  | SGot c pre q e => Some (got_step f i c pre q e out)
  | SCopy c =>
      Some (with_sub f i (Sub (match f_rollback f with [] => SDead (Some IndexError) | _ => SServe c (f_rollback f) (f_rollback f) end) out))
  | SServe c h [] => Some (with_sub f i (Sub (SEnqueue (Some h)) out))
  | SServe c h (e :: r) => Some (with_sub f i (Sub (SServe c h r) (if c <=? e_seq e then out ++ [MEvent e] else out)))
  | SEnqueue h => Some (enqueue_step f i h out)
  | SLive (e :: r) => Some (with_sub f i (Sub (SLive r) (out ++ [MEvent e])))
  | SQuery _ _ _ _ | SLive [] | SDead _ => None
  end.

Definition sub_item (f : fire) (i : nat) (t : sub) (e : event) : option fire :=
  match s_state t with
  | SQuery c pre last q => Some (with_sub f i (Sub (query_item c pre last q e) (s_out t)))
  | _ => None
  end.

Definition sub_end (f : fire) (i : nat) (t : sub) : option fire :=
  match s_state t with
  | SQuery c _ _ _ => Some (with_sub f i (Sub (SCopy c) (s_out t)))
  | _ => None
  end.

Definition sub_fail (f : fire) (i : nat) (t : sub) : option fire :=
  match s_state t with
  | SQuery _ _ _ _ => Some (with_sub f i (Sub (SDead (Some (OtherError (Base.s "read")))) (s_out t)))
  | _ => None
  end.

(** The consumer closes the generator (firehose.py:197-201). *)
Definition sub_close (f : fire) (i : nat) (t : sub) : option fire :=
  match s_state t with
  | SDead _ => None
  | _ => Some (with_subscribers (with_sub f i (Sub (SDead None) (s_out t))) (filter (fun j => negb (Nat.eqb i j)) (f_subscribers f)))
  end.

Definition on_thread (f : fire) (i : nat) (k : sub -> option fire) : option fire :=
  match nth_error (f_threads f) i with Some t => k t | None => None end.

(** New subscribers come from requests or call [subscribe] directly. *)
Definition opening (st : sstate) : bool := match st with SRequest _ | SNew _ => true | _ => false end.

Definition step (f : fire) (a : act) : option fire :=
  match a with
  | EAdd e => Some (Fire (f_log f ++ [e]) (f_last f) (f_lost f) (f_now f) (f_started f) (f_rollback f) (f_subscribers f) (f_coll f)
                      (f_last_seq f) (f_last_event f) (f_threads f) (f_pre f) (f_sent f))
  | ELast n => Some (Fire (f_log f) n (f_lost f) (f_now f) (f_started f) (f_rollback f) (f_subscribers f) (f_coll f)
                      (f_last_seq f) (f_last_event f) (f_threads f) (f_pre f) (f_sent f))
  | ELost n => Some (Fire (f_log f) (f_last f) (f_lost f ++ [n]) (f_now f) (f_started f) (f_rollback f) (f_subscribers f) (f_coll f)
                      (f_last_seq f) (f_last_event f) (f_threads f) (f_pre f) (f_sent f))
  | ETime t => Some (Fire (f_log f) (f_last f) (f_lost f) t (f_started f) (f_rollback f) (f_subscribers f) (f_coll f)
                      (f_last_seq f) (f_last_event f) (f_threads f) (f_pre f) (f_sent f))
  | CStep => coll_step f
  | CItem e => coll_item f e
  | CEnd => coll_end f
  | CFail => coll_fail f
  | SOpen st =>
      if opening st then
        Some (Fire (f_log f) (f_last f) (f_lost f) (f_now f) (f_started f) (f_rollback f) (f_subscribers f) (f_coll f)
                (f_last_seq f) (f_last_event f) (f_threads f ++ [Sub st []]) (f_pre f) (f_sent f))
      else None
  | SStep i => on_thread f i (sub_step f i)
  | SItem i e => on_thread f i (fun t => sub_item f i t e)
  | SEnd i => on_thread f i (sub_end f i)
  | SFail i => on_thread f i (sub_fail f i)
  | SClose i => on_thread f i (sub_close f i)
  end.

Fixpoint run (f : fire) (l : list act) : option fire :=
  match l with
  | [] => Some f
  | a :: r => match step f a with Some f' => run f' r | None => None end
  end.

(** Nothing has happened yet. *)
Definition fire0 : fire := Fire [] None [] 0 false [] [] CNew 0 0 [] [] [].

End Fire.
