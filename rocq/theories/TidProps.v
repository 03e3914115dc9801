(** Properties of TIDs (arroba/util.py). *)
From Coq Require Import String List NArith ZArith Bool Lia.
From Verif Require Import Base TidModel TidProofs.
Import ListNotations.
Local Open Scope Z_scope.

(** ** C44 *)

(** 2^55 is where 11 base 32 digits end. Below, [int_to_tid] gives a 13 character
    string from which [tid_to_int] recovers the number; from there on the code's
    assertion fails. Clock ids have two base 32 digits. *)
Theorem C44_round_trip : forall n clock_id, 0 <= n < 2 ^ 55 -> 0 <= clock_id < 1024 ->
  exists t, int_to_tid n clock_id = Ok t /\ length t = 13%nat /\ tid_to_int t = Ok n.
Proof. exact tid_round_trip. Qed.
Print Assumptions C44_round_trip.

Theorem C44_too_large : forall n clock_id, 2 ^ 55 <= n -> int_to_tid n clock_id = Err AssertionError.
Proof. exact tid_too_large. Qed.
Print Assumptions C44_too_large.

Example C44_example : 0 <= 1672531200000000 < 2 ^ 55 /\
  int_to_tid 1672531200000000 17 = Ok (s "3jl7442uk22l2") /\
  tid_to_int (s "3jl7442uk22l2") = Ok 1672531200000000 /\
  int_to_tid (2 ^ 55) 17 = Err AssertionError.
Proof. split; [lia|vm_compute; auto]. Qed.

(** TIDs with the same clock id are ordered as strings like their numbers. *)
Theorem C44_order : forall n m clock_id t u, 0 <= n < 2 ^ 55 -> 0 <= m < 2 ^ 55 -> 0 <= clock_id < 1024 ->
  int_to_tid n clock_id = Ok t -> int_to_tid m clock_id = Ok u -> (slt t u <-> n < m).
Proof. exact tid_order. Qed.
Print Assumptions C44_order.

Example C44_order_example : int_to_tid 31 17 = Ok (s "2222222222zl2") /\
  int_to_tid 32 17 = Ok (s "22222222232l2") /\ slt (s "2222222222zl2") (s "22222222232l2").
Proof. vm_compute. auto. Qed.

(** The other direction: every 13 character string over the alphabet decodes, and
    encoding the result again gives the same timestamp part. *)
Theorem C44_decode_encode : forall t clock_id, length t = 13%nat -> Forall (fun x => In x s32_chars) t ->
  0 <= clock_id < 1024 ->
  exists n u, tid_to_int t = Ok n /\ 0 <= n < 2 ^ 55 /\ int_to_tid n clock_id = Ok u /\ firstn 11 u = firstn 11 t.
Proof. exact tid_decode_encode. Qed.
Print Assumptions C44_decode_encode.

Example C44_decode_example : tid_to_int (s "zzzzzzzzzzzzz") = Ok (2 ^ 55 - 1).
Proof. vm_compute. reflexivity. Qed.

(** Datetimes, as microseconds since the epoch. *)
Theorem C44_datetimes : forall dt clock_id, 0 <= dt < 2 ^ 55 -> 0 <= clock_id < 1024 ->
  exists t, datetime_to_tid dt clock_id = Ok t /\ tid_to_datetime t = Ok dt.
Proof. exact datetime_round_trip. Qed.
Print Assumptions C44_datetimes.

(** Negative numbers (datetimes before the epoch) are silently encoded as zero, and
    a clock id of three digits shifts the timestamp. *)
Theorem C44_outside_refuted : (exists n t, n < 0 /\ int_to_tid n 17 = Ok t /\ tid_to_int t <> Ok n) /\
  (exists n c t, 0 <= n < 2 ^ 50 /\ 1024 <= c /\ int_to_tid n c = Ok t /\ tid_to_int t <> Ok n).
Proof. exact tid_outside. Qed.
Print Assumptions C44_outside_refuted.

(** ** C45 *)

(** Calls one after the other, whatever the clock returns: the TIDs increase. The
    calls only fail when the clock is past 2^55 microseconds (the year 3111). *)
Theorem C45_next_tid_partial : forall clockid, 0 <= clockid < 1024 -> forall clock last i j t u,
  0 <= last -> (i < j)%nat ->
  nth_error (next_tids clockid last clock) i = Some (Ok t) ->
  nth_error (next_tids clockid last clock) j = Some (Ok u) -> slt t u.
Proof. exact next_tid_increasing. Qed.
Print Assumptions C45_next_tid_partial.

Theorem C45_succeeds : forall clockid last ns, 0 <= clockid < 1024 -> 0 <= last + 1 < 2 ^ 55 ->
  ns / 1000 < 2 ^ 55 -> exists t, snd (next_tid clockid last ns) = Ok t.
Proof. exact next_tid_ok. Qed.
Print Assumptions C45_succeeds.

Example C45_example : next_tids 17 0 [5000000; 4000000; 4000000; 9000000]
  = [Ok (s "222222226wcl2"); Ok (s "222222226wdl2"); Ok (s "222222226wel2"); Ok (s "22222222ctcl2")].
Proof. vm_compute. reflexivity. Qed.

(** Two threads: the first one stores a value it computed before the second one
    completed three calls. The second thread's next TID is smaller than its last one
    and equal to an earlier one. *)
Theorem C45_threads_refuted : exists clockid evs i t u pre mid post, 0 <= clockid < 32 /\
  t_out (trun clockid evs) = pre ++ (i, Ok t) :: mid ++ (i, Ok u) :: post /\ slt u t /\
  In (i, Ok u) pre.
Proof. exact next_tid_threads. Qed.
Print Assumptions C45_threads_refuted.
