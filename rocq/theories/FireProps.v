(** C29-C34 and C59: the firehose. *)
From Coq Require Import String List NArith ZArith Bool Sorted.
From Verif Require Import Base FireModel FireSpec FireProofs FireWait FireHonest FireServe FireFacts FireExamples.
Import ListNotations.
Local Open Scope Z_scope.

(** ** C29: strictly increasing numbers *)

(** Whatever the storage answers, what the collector sends has increasing numbers, all after the last
    event that was loaded at the start. *)
Theorem C29 : forall cf f, reached cf anything f ->
  increasing (f_sent f) /\ NoDup (map e_seq (f_sent f)) /\
  forall p x, (0 < rollback_window cf)%nat -> last_of (f_pre f) = Some p -> In x (f_sent f) -> e_seq p < e_seq x.
Proof. exact c29. Qed.
Print Assumptions C29.

(** With an honest storage this includes the events loaded at the start, and all of them come from
    the storage. *)
Theorem C29_honest : forall cf f, (0 < rollback_window cf)%nat -> reached cf honest f ->
  increasing (collected f) /\ incl (collected f) (f_log f).
Proof. exact c29_honest. Qed.
Print Assumptions C29_honest.

Example C29_case : reached cf4 honest ex1 /\ run cf4 ex1 (SStep 0 :: ex_run) = Some ex2 /\ collected ex2 = evs [4; 5; 6; 7; 8].
Proof. exact (conj (proj1 ex1_ok) (conj (proj1 ex2_ok) ex2_collected)). Qed.

(** ** C30: waiting for missing numbers *)

(** Full statement: a missing number is skipped only if it was reported lost, or more than the configured
    window of later numbers has been allocated, or the configured delay has passed since the gap was first
    noticed. The code measures the delay from the event before or from when it began to collect,
    and does not look for missing numbers among the events it loads at the start. *)
Theorem C30_partial : forall cf f a f' e, (0 < rollback_window cf)%nat -> reached cf anything f -> step cf f a = Some f' ->
  f_sent f' = f_sent f ++ [e] ->
  exists p, previous cf f p /\
    ((forall m, p < m < e_seq e -> In m (f_lost f)) \/ waited cf f \/ too_far cf f (e_seq e)).
Proof. exact c30_wait. Qed.
Print Assumptions C30_partial.

(** An event is sent at the very moment when it turns up, though the number before it is on its way, and
    that number is never sent. *)
Theorem C30_refuted : exists cf l f f' p e m last, (0 < rollback_window cf)%nat /\ 0 < skip_delay cf /\
  run cf fire0 l = Some f /\ along cf honest fire0 l /\ step cf f CStep = Some f' /\ f_sent f' = f_sent f ++ [e] /\
  last_of (collected f) = Some p /\ e_seq p < m < e_seq e /\
  ~ In m (f_lost f) /\ ~ In m (map e_seq (f_log f)) /\ f_last f = Some last /\ last - e_seq p <= skip_window cf /\
  throughout cf (fun g => (exists x, In x (f_log g) /\ m < e_seq x) -> f_now g = f_now f) fire0 l /\
  forall l' f'', run cf f' l' = Some f'' -> ~ In m (map e_seq (f_sent f'')).
Proof. exact hasty. Qed.
Print Assumptions C30_refuted.

(** The same with a number that is on its way when the server starts. *)
Theorem C30_start_refuted : exists cf l f m p, (0 < rollback_window cf)%nat /\ 0 < skip_delay cf /\
  run cf fire0 l = Some f /\ along cf honest fire0 l /\
  f_started f = true /\ throughout cf (fun g => f_now g = 0) fire0 l /\ ~ In m (f_lost f) /\ ~ In m (map e_seq (f_log f)) /\
  last_of (collected f) = Some p /\ f_last f = Some (e_seq p) /\ m < e_seq p /\
  forall l' f'', run cf f l' = Some f'' -> ~ In m (map e_seq (f_sent f'')).
Proof. exact overlooked. Qed.
Print Assumptions C30_start_refuted.

(** ** C31: one subscriber *)

(** Full statement: a subscriber with a cursor not above the last event gets every event from the cursor on
    exactly once and in order; without a cursor, exactly the events emitted after it subscribed. For
    the first part it takes that nothing is emitted in the moment before the window is copied and that
    the subscriber reaches the window in time. *)
Theorem C31_partial : forall cf i c out0 f1 l f2, (0 < rollback_window cf)%nat ->
  reached cf honest f1 -> thread f1 i (SNew (Some c)) out0 -> 0 <= c ->
  (exists x, In x (collected f1) /\ c <= e_seq x) -> run cf f1 (SStep i :: l) = Some f2 ->
  along cf (fun f a => honest f a /\ alone i f a /\ calm cf i f a) f1 (SStep i :: l) ->
  throughout cf (timely cf i (length (f_sent f1))) f1 (SStep i :: l) ->
  exists st D, thread f2 i st (out0 ++ map MEvent D) /\ increasing D /\
    (forall e, In e D -> In e (f_log f2) /\ c <= e_seq e) /\
    (forall d e, In d D -> owed f1 f2 c e -> e_seq e <= e_seq d -> In e D) /\
    (st = SLive [] -> forall e, owed f1 f2 c e -> In e D) /\
    (forall x, st = SDead x -> gone cf f1 x f2).
Proof. exact c31. Qed.
Print Assumptions C31_partial.

(** In order and at most once in any case. *)
Theorem C31_order : forall cf i c out0 f1 l f2, (0 < rollback_window cf)%nat ->
  reached cf honest f1 -> thread f1 i (SNew (Some c)) out0 -> 0 <= c ->
  (exists x, In x (collected f1) /\ c <= e_seq x) -> run cf f1 (SStep i :: l) = Some f2 ->
  along cf (fun f a => honest f a /\ alone i f a) f1 (SStep i :: l) ->
  exists st D, thread f2 i st (out0 ++ map MEvent D) /\ increasing D /\
    (forall e, In e D -> In e (f_log f2) /\ c <= e_seq e).
Proof. exact c31_order. Qed.
Print Assumptions C31_order.

Example C31_case : reached cf4 honest ex1 /\ thread ex1 0 (SNew (Some 2)) [] /\ (exists x, In x (collected ex1) /\ 2 <= e_seq x) /\
  run cf4 ex1 (SStep 0 :: ex_run) = Some ex2 /\
  along cf4 (fun f a => honest f a /\ alone 0 f a /\ calm cf4 0 f a) ex1 (SStep 0 :: ex_run) /\
  throughout cf4 (timely cf4 0 (length (f_sent ex1))) ex1 (SStep 0 :: ex_run) /\
  thread ex2 0 (SLive []) (map MEvent (evs [2; 3; 4; 5; 6; 7; 8])).
Proof. exact ex_alone. Qed.

(** Without a cursor, whatever anyone else does: either it is not registered yet and has got
    nothing, or it has got what was emitted since it was registered, up to what waits in its queue. *)
Theorem C31_no_cursor : forall cf f i out l f2, reached cf anything f -> thread f i (SNew None) out -> run cf f l = Some f2 ->
  (exists st, thread f2 i st out /\ (st = SNew None \/ st = SEnqueue None \/ st = SDead None)) \/
  exists l1 g g' l2 sent' got rest st, l = l1 ++ SStep i :: l2 /\ run cf f l1 = Some g /\ thread g i (SEnqueue None) out /\
    step cf g (SStep i) = Some g' /\ thread g' i (SLive []) out /\
    f_sent f2 = f_sent g ++ sent' /\ sent' = got ++ rest /\ thread f2 i st (out ++ map MEvent got) /\
    (st = SLive rest \/ exists x, st = SDead x).
Proof. exact (fun cf => no_cursor cf anything). Qed.
Print Assumptions C31_no_cursor.

Example C31_no_cursor_case : exists f f2, reached cf4 anything f /\ thread f 0 (SNew None) [] /\ run cf4 f live_run = Some f2 /\
  thread f2 0 (SLive (evs [7])) (map MEvent (evs [6])).
Proof. exact live_case. Qed.

(** The window moves on between two looks at it: the subscriber never gets an event that was in
    the window when it subscribed. *)
Theorem C31_race_refuted : exists cf f1 c l f2 D e, (0 < rollback_window cf)%nat /\ reached cf honest f1 /\
  thread f1 0 (SNew (Some c)) [] /\ 0 <= c /\
  (exists x, In x (collected f1) /\ c <= e_seq x) /\ run cf f1 (SStep 0 :: l) = Some f2 /\
  along cf (fun g a => honest g a /\ alone 0 g a) f1 (SStep 0 :: l) /\ throughout cf (timely cf 0 (length (f_sent f1))) f1 (SStep 0 :: l) /\
  thread f2 0 (SLive []) (map MEvent D) /\ In e (collected f1) /\ owed f1 f2 c e /\ ~ In e D.
Proof. exact race. Qed.
Print Assumptions C31_race_refuted.

(** The window moves on while the storage is read: the subscriber misses an event without noticing. *)
Theorem C31_slow_refuted : exists cf f1 c l f2 D e, (0 < rollback_window cf)%nat /\ reached cf honest f1 /\
  thread f1 0 (SNew (Some c)) [] /\ 0 <= c /\
  (exists x, In x (collected f1) /\ c <= e_seq x) /\ run cf f1 (SStep 0 :: l) = Some f2 /\
  along cf (fun g a => honest g a /\ alone 0 g a /\ calm cf 0 g a) f1 (SStep 0 :: l) /\
  thread f2 0 (SLive []) (map MEvent D) /\ owed f1 f2 c e /\ (exists d, In d D /\ e_seq e < e_seq d) /\ ~ In e D.
Proof. exact overrun. Qed.
Print Assumptions C31_slow_refuted.

(** A cursor above the last event sent, but not above the last number: the subscriber gets an event before
    its cursor. *)
Theorem C31_below_refuted : exists cf f1 c last l f2 e, (0 < rollback_window cf)%nat /\ reached cf honest f1 /\
  f_last f1 = Some last /\ c <= last /\
  thread f1 0 (SNew (Some c)) [] /\ run cf f1 (SStep 0 :: l) = Some f2 /\
  along cf (fun g a => honest g a /\ alone 0 g a /\ calm cf 0 g a) f1 (SStep 0 :: l) /\
  thread f2 0 (SLive []) [MEvent e] /\ e_seq e < c.
Proof. exact below_cursor. Qed.
Print Assumptions C31_below_refuted.

(** ** C32: any number of subscribers *)

(** Full statement: the same for every subscriber whatever others do. It takes that no other one merges
    older events into the window while this one is on its way to it. *)
Theorem C32_partial : forall cf i c out0 f1 l f2, (0 < rollback_window cf)%nat ->
  reached cf honest f1 -> thread f1 i (SNew (Some c)) out0 -> 0 <= c ->
  (exists x, In x (collected f1) /\ c <= e_seq x) -> run cf f1 (SStep i :: l) = Some f2 ->
  along cf (fun f a => honest f a /\ undisturbed cf i f a /\ calm cf i f a) f1 (SStep i :: l) ->
  throughout cf (timely cf i (length (f_sent f1))) f1 (SStep i :: l) ->
  exists st D, thread f2 i st (out0 ++ map MEvent D) /\ increasing D /\
    (forall e, In e D -> In e (f_log f2) /\ c <= e_seq e) /\
    (forall d e, In d D -> owed f1 f2 c e -> e_seq e <= e_seq d -> In e D) /\
    (st = SLive [] -> forall e, owed f1 f2 c e -> In e D) /\
    (forall x, st = SDead x -> gone cf f1 x f2).
Proof. exact (fun cf i c out0 f1 l f2 W => c32 cf W i c out0 f1 l f2). Qed.
Print Assumptions C32_partial.

Theorem C32_order_partial : forall cf i c out0 f1 l f2, (0 < rollback_window cf)%nat ->
  reached cf honest f1 -> thread f1 i (SNew (Some c)) out0 -> 0 <= c ->
  (exists x, In x (collected f1) /\ c <= e_seq x) -> run cf f1 (SStep i :: l) = Some f2 ->
  along cf (fun f a => honest f a /\ undisturbed cf i f a) f1 (SStep i :: l) ->
  exists st D, thread f2 i st (out0 ++ map MEvent D) /\ increasing D /\
    (forall e, In e D -> In e (f_log f2) /\ c <= e_seq e).
Proof. exact (fun cf i c out0 f1 l f2 W => c32_order cf W i c out0 f1 l f2). Qed.
Print Assumptions C32_order_partial.

(** Two subscribers catch up; the second merges its events into the window before the first one
    gets there, who then gets them once more. *)
Theorem C32_refuted : exists cf f1 c l f2 st D, (0 < rollback_window cf)%nat /\ reached cf honest f1 /\
  thread f1 0 (SNew (Some c)) [] /\ 0 <= c /\
  (exists x, In x (collected f1) /\ c <= e_seq x) /\ run cf f1 (SStep 0 :: l) = Some f2 /\
  along cf (fun g a => honest g a /\ calm cf 0 g a) f1 (SStep 0 :: l) /\ throughout cf (timely cf 0 (length (f_sent f1))) f1 (SStep 0 :: l) /\
  thread f2 0 st (map MEvent D) /\ ~ increasing D /\ ~ NoDup D.
Proof. exact disturbed. Qed.
Print Assumptions C32_refuted.

(** ** C33: live fan-out *)

(** Those registered are exactly those that listen to their queues, and each of them gets all that is
    emitted from then on, in order, after what is in its queue. *)
Theorem C33 : forall cf f, reached cf anything f ->
  (NoDup (f_subscribers f) /\ forall i, In i (f_subscribers f) <-> exists q out, thread f i (SLive q) out) /\
  forall i q out l f', In i (f_subscribers f) -> thread f i (SLive q) out -> run cf f l = Some f' ->
    exists sent' got rest st, f_sent f' = f_sent f ++ sent' /\ q ++ sent' = got ++ rest /\
      thread f' i st (out ++ map MEvent got) /\ (st = SLive rest \/ exists x, st = SDead x).
Proof. exact c33. Qed.
Print Assumptions C33.

(** The window never gets too long and ends with the latest events. *)
Theorem C33_window : forall cf f, reached cf anything f ->
  (length (f_rollback f) <= rollback_window cf)%nat /\
  exists older, f_rollback f = older ++ lastn (rollback_window cf) (collected f).
Proof. exact (fun cf => reached_window cf anything). Qed.
Print Assumptions C33_window.

(** With an honest storage it is in order. *)
Theorem C33_sorted : forall cf f, (0 < rollback_window cf)%nat -> reached cf honest f ->
  increasing (f_rollback f) /\ incl (f_rollback f) (f_log f).
Proof. exact c33_sorted. Qed.
Print Assumptions C33_sorted.

Example C33_case : reached cf4 anything ex2 /\ f_subscribers ex2 = [0%nat] /\ thread ex2 0 (SLive []) (map MEvent (evs [2; 3; 4; 5; 6; 7; 8])) /\
  f_rollback ex2 = evs [5; 6; 7; 8].
Proof. exact ex2_window. Qed.

(** ** C34: cursors *)

Theorem C34 : forall cf f i cursor f1 l f2, thread f i (SRequest cursor) [] -> step cf f (SStep i) = Some f1 -> run cf f1 l = Some f2 ->
  match f_last f, cursor with
  | None, _ => thread f2 i (SDead (Some AssertionError)) []
  | Some n, Some c =>
      let start := Z.max (n - Z.of_nat (rollback_window cf)) 0 in
      (n < c -> thread f2 i (SDead None) [MFuture c n]) /\
      (c <= n -> c < start -> thread f1 i (SNew (Some start)) [MOutdated] /\ exists st D, thread f2 i st (MOutdated :: map MEvent D)) /\
      (c <= n -> start <= c -> thread f1 i (SNew (Some c)) [] /\ exists st D, thread f2 i st (map MEvent D))
  | Some _, None => thread f1 i (SNew None) [] /\ exists st D, thread f2 i st (map MEvent D)
  end.
Proof. exact c34. Qed.
Print Assumptions C34.

Example C34_case : exists f1 f2 f3, run cf4 fire0 (boot ++ request_all) = Some f1 /\ step cf4 f1 (SStep 0) = Some f2 /\
  run cf4 f2 [SStep 1; SStep 2; SStep 3] = Some f3 /\ thread f3 0 (SDead None) [MFuture 6 5] /\ thread f3 1 (SNew (Some 1)) [MOutdated] /\
  thread f3 2 (SNew (Some 5)) [] /\ thread f3 3 (SNew None) [].
Proof. exact request_case. Qed.

(** While nothing has been collected, a subscriber with a valid cursor gets no stream. *)
Theorem C34_empty_refuted : exists cf f1 f2, (0 < rollback_window cf)%nat /\ reached cf honest f1 /\ f_last f1 = Some 0 /\ f_started f1 = true /\
  thread f1 0 (SNew (Some 0)) [] /\ run cf f1 [SStep 0; SStep 0] = Some f2 /\ thread f2 0 (SDead (Some IndexError)) [].
Proof. exact empty_window. Qed.
Print Assumptions C34_empty_refuted.

(** ** C59: failures *)

(** Full statement: whatever fails, the collector goes on. True once it has loaded the first events. *)
Theorem C59_partial : forall cf f l f', reached cf anything f -> f_started f = true -> run cf f l = Some f' ->
  f_started f' = true /\ f_coll f' <> CDead /\
  forall g, step cf f' CFail = Some g -> f_coll g = CIdle /\ f_sent g = f_sent f' /\ f_rollback g = f_rollback f' /\ f_threads g = f_threads f' /\
    (forall x, In x (f_sent g) -> e_seq x <= f_last_seq g) /\
    forall e q, f_coll f' = CEmit q e -> f_last_seq g < e_seq e.
Proof. exact c59. Qed.
Print Assumptions C59_partial.

Theorem C59_refuted : exists cf f, reached cf honest f /\ thread f 0 (SNew None) [] /\
  forall l f', run cf f l = Some f' -> f_started f' = false /\ f_sent f' = [].
Proof. exact never_starts. Qed.
Print Assumptions C59_refuted.
