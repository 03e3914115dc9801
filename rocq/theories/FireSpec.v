(** What the firehose is supposed to do. *)
From Coq Require Import String List NArith ZArith Bool Sorted.
From Verif Require Import Base FireModel.
Import ListNotations.
Local Open Scope Z_scope.

Definition increasing (l : list event) : Prop := StronglySorted (fun a b => e_seq a < e_seq b) l.

(** The events among the messages of a subscriber. *)
Fixpoint events (l : list msg) : list event :=
  match l with
  | [] => []
  | MEvent e :: r => e :: events r
  | _ :: r => events r
  end.

(** All that the collector has taken up: loaded at the start or emitted. *)
Definition collected (f : fire) : list event := f_pre f ++ f_sent f.

Definition thread (f : fire) (i : nat) (st : sstate) (out : list msg) : Prop := nth_error (f_threads f) i = Some (Sub st out).

(** ** Runs *)

(** [P] holds of every state of a run and the action taken there. *)
Fixpoint along (cf : config) (P : fire -> act -> Prop) (f : fire) (l : list act) : Prop :=
  match l with
  | [] => True
  | a :: r => P f a /\ match step cf f a with Some f' => along cf P f' r | None => True end
  end.

(** [Q] holds of every state of a run. *)
Fixpoint throughout (cf : config) (Q : fire -> Prop) (f : fire) (l : list act) : Prop :=
  Q f /\ match l with
         | [] => True
         | a :: r => match step cf f a with Some f' => throughout cf Q f' r | None => True end
         end.

(** A run from the beginning on which [P] holds. *)
Definition reached (cf : config) (P : fire -> act -> Prop) (f : fire) : Prop :=
  exists l, run cf fire0 l = Some f /\ along cf P fire0 l.
Definition anything (f : fire) (a : act) : Prop := True.

(** ** Honest storages

    Each event gets its own positive number. A read gives events of the storage in
    increasing order; it may or may not see those that arrive while it runs, but misses none that were
    there when it began. *)
Definition gives (log : list event) (q : query) (e : event) : Prop :=
  In e log /\ q_pos q <= e_seq e /\ forall x, In x (q_left q) -> e_seq e <= e_seq x.

Definition honest (f : fire) (a : act) : Prop :=
  match a with
  | EAdd e => 0 < e_seq e /\ ~ In (e_seq e) (map e_seq (f_log f))
  | CItem e => match f_coll f with CPreload _ q _ | CRead q => gives (f_log f) q e | _ => True end
  | CEnd => match f_coll f with CPreload _ q _ | CRead q => q_left q = [] | _ => True end
  | SItem i e => forall c pre last q out, thread f i (SQuery c pre last q) out -> gives (f_log f) q e
  | SEnd i => forall c pre last q out, thread f i (SQuery c pre last q) out -> q_left q = []
  | _ => True
  end.

(** ** Waiting for missing numbers *)

(** The step from [f] sets out to send [e], or begins to collect anew. *)
Definition sets_out (f : fire) (a : act) (e : event) : Prop := exists q, f_coll f = CEmit q e /\ a = CStep.
Definition begins (f : fire) (a : act) : Prop :=
  match a, f_coll f with
  | CEnd, CPreload _ _ _ | CFail, CRead _ | CFail, CEmit _ _ => True
  | CStep, CIdle => f_last_seq f + 1 < 0
  | _, _ => False
  end.

(** [f2] comes after [f1]. *)
Definition later (cf : config) (f1 f2 : fire) : Prop := exists l, run cf f1 l = Some f2.

(** The number of the last event taken up before [f]; without any, the last number at the start. *)
Definition previous (cf : config) (f : fire) (n : Z) : Prop :=
  match last_of (collected f) with
  | Some e => n = e_seq e
  | None => exists f0, f_coll f0 = CNew /\ f_last f0 = Some n /\ later cf f0 f
  end.

(** More than the configured time lies between two moments before [f], where the first is when the event
    before was about to be sent or collecting began, and no other event was sent since then. *)
Definition waited (cf : config) (f : fire) : Prop :=
  exists f1 a f1' f2, step cf f1 a = Some f1' /\ later cf f1' f2 /\ later cf f2 f /\
    skip_delay cf < f_now f2 - f_now f1 /\
    ((begins f1 a /\ f_sent f = f_sent f1) \/ exists e, sets_out f1 a e /\ f_sent f = f_sent f1 ++ [e]).

(** At some moment since the event before was sent, the last number was too far from [n]. *)
Definition too_far (cf : config) (f : fire) (n : Z) : Prop :=
  exists f1 last, later cf f1 f /\ f_sent f1 = f_sent f /\ f_last f1 = Some last /\ skip_window cf < last - n.

(** ** Subscribers *)

(** Subscriber [i] is reading what comes before the rollback window. *)
Definition catching_up (f : fire) (i : nat) : Prop :=
  exists out, (exists c pre last q, thread f i (SQuery c pre last q) out) \/ (exists c pre q e, thread f i (SGot c pre q e) out).
(** It is about to copy the rollback window. *)
Definition copying (f : fire) (i : nat) : Prop := exists c out, thread f i (SCopy c) out.

(** Until [i] has reached the rollback window, no other subscriber changes the window. *)
Definition undisturbed (cf : config) (i : nat) (f : fire) (a : act) : Prop :=
  forall j f', catching_up f i \/ copying f i -> a = SStep j -> j <> i -> step cf f a = Some f' -> f_rollback f' = f_rollback f.

(** No other subscriber does anything. *)
Definition alone (i : nat) (f : fire) (a : act) : Prop := forall j, a = SStep j -> j = i.

(** No event is emitted in the moment before [i] copies the window. *)
Definition calm (cf : config) (i : nat) (f : fire) (a : act) : Prop :=
  copying f i -> forall f', step cf f a = Some f' -> f_sent f' = f_sent f.

(** [i] reaches the rollback window before more than a whole window of events is emitted after the
    first [n] ones. *)
Definition timely (cf : config) (i n : nat) (f : fire) : Prop :=
  catching_up f i \/ copying f i -> (length (f_sent f) <= n + rollback_window cf)%nat.

(** The events that a subscriber with cursor [c] is owed who subscribed in [f1]: those that the
    collector takes up, and those in the storage before or in the rollback window. *)
Definition before_window (f : fire) (e : event) : Prop :=
  match f_rollback f with first :: _ => e_seq e < e_seq first | [] => False end.
Definition owed (f1 f : fire) (c : Z) (e : event) : Prop :=
  c <= e_seq e /\ (In e (collected f) \/ (In e (f_log f1) /\ (before_window f1 e \/ In e (f_rollback f1)))).

(** Why a subscriber who subscribed in [f1] may be gone: the consumer closed the stream, the storage
    failed, or a whole window of events was emitted before it could keep up. *)
Definition gone (cf : config) (f1 : fire) (why : option exn) (f : fire) : Prop :=
  match why with
  | None | Some (OtherError _) => True
  | Some AssertionError => (length (f_sent f1) + rollback_window cf <= length (f_sent f))%nat
  | _ => False
  end.
