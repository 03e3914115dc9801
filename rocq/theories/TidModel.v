(** TIDs (arroba/util.py:31-37, 81-220). *)
From Coq Require Import String List NArith ZArith Bool.
From Verif Require Import Base.
Import ListNotations.

(** [S32_CHARS] (util.py:36). *)
Definition s32_chars : str := s "234567abcdefghijklmnopqrstuvwxyz".

(** Loop of [s32encode] (util.py:94-98): [encoded] grows at the front. *)
Fixpoint s32loop (fuel : nat) (num : Z) (encoded : str) : res str :=
  match fuel with
  | O => Err OutOfFuel
  | S f =>
      if (0 <? num)%Z
      then s32loop f (num / 32)%Z (nth (Z.to_nat (num mod 32)) s32_chars 0%N :: encoded)
      else Ok encoded
  end.

(** [s32encode] (util.py:81-100). The loop runs once per base 32 digit. *)
Definition s32encode (num : Z) : res str := s32loop (S (Z.to_nat (Z.log2_up (num + 2)))) num [].

(** [str.index] on a one-character string. *)
Fixpoint index_of (c : N) (l : str) (i : Z) : res Z :=
  match l with
  | [] => Err ValueError
  | x :: r => if N.eqb x c then Ok i else index_of c r (i + 1)%Z
  end.

(** [s32decode] (util.py:103-118). *)
Fixpoint s32decode_from (i : Z) (val : str) : res Z :=
  match val with
  | [] => Ok i
  | c :: r => do d <- index_of c s32_chars 0%Z; s32decode_from (i * 32 + d)%Z r
  end.
Definition s32decode (val : str) : res Z := s32decode_from 0%Z val.

(** [str.ljust], [str.rjust]. *)
Definition ljust (n : nat) (c : N) (x : str) : str := x ++ repeat c (n - length x).
Definition rjust (n : nat) (c : N) (x : str) : str := repeat c (n - length x) ++ x.

(** [int_to_tid] (util.py:142-160), with the clock id given. '2' is 50. *)
Definition int_to_tid (num clock_id : Z) : res str :=
  do a <- s32encode num;
  do b <- s32encode clock_id;
  let tid := a ++ ljust 2 50%N b in
  if Nat.leb (length tid) 13 then Ok (rjust 13 50%N tid) else Err AssertionError.

(** [tid_to_int] (util.py:180-198) on a [str]. '-' is 45. On [bytes] the call of
    [replace] with [str] arguments raises TypeError; not modelled further. *)
Definition tid_to_int (tid : str) : res Z :=
  if Nat.eqb (length tid) 13 then
    let encoded := filter (fun c => negb (N.eqb c 45)) tid in
    s32decode (firstn (length encoded - 2) encoded)
  else Err ValueError.

(** A Python [datetime] with a time zone, as microseconds since the epoch; a naive
    one is first converted with the local time zone, which is not modelled.
    [datetime_to_tid] (util.py:121-139): the difference of two datetimes has
    microsecond resolution, so the floor division is exact. *)
Definition datetime_to_tid (dt clock_id : Z) : res str := int_to_tid dt clock_id.

(** [datetime.max] is 9999-12-31T23:59:59.999999. *)
Definition max_datetime : Z := 253402300799999999.

(** [tid_to_datetime] (util.py:163-177); addition past [datetime.max] overflows. *)
Definition tid_to_datetime (tid : str) : res Z :=
  do n <- tid_to_int tid;
  if (n <=? max_datetime)%Z then Ok n else Err OverflowError.

(** ** next_tid *)

(** [next_tid] (util.py:201-220), called when [time_ns()] returns [ns] and the global
    [_tid_ts_last] is [last]: the new global and the result. *)
Definition next_tid (clockid last ns : Z) : Z * res str :=
  let last := Z.max (ns / 1000) (last + 1) in
  (last, int_to_tid last clockid).

(** Calls one after the other, with the clock readings given. *)
Fixpoint next_tids (clockid last : Z) (clock : list Z) : list (res str) :=
  match clock with
  | [] => []
  | ns :: r => let '(last, t) := next_tid clockid last ns in t :: next_tids clockid last r
  end.

(** The same function in several threads: the global is read, then written, then read
    again for the result (util.py:219-220). *)
Inductive tphase := TIdle | TLoaded (v : Z) | TStored.
Record tstate := TState { t_last : Z; t_phase : nat -> tphase; t_out : list (nat * res str) }.

Definition tset (f : nat -> tphase) (i : nat) (p : tphase) : nat -> tphase :=
  fun j => if Nat.eqb i j then p else f j.

(** Thread [i] makes its next step; [ns] is the clock reading if it needs one. *)
Definition tstep (clockid : Z) (st : tstate) (ev : nat * Z) : tstate :=
  let '(i, ns) := ev in
  match t_phase st i with
  | TIdle => TState (t_last st) (tset (t_phase st) i (TLoaded (Z.max (ns / 1000) (t_last st + 1)))) (t_out st)
  | TLoaded v => TState v (tset (t_phase st) i TStored) (t_out st)
  | TStored => TState (t_last st) (tset (t_phase st) i TIdle) (t_out st ++ [(i, int_to_tid (t_last st) clockid)])
  end.

Definition trun (clockid : Z) (evs : list (nat * Z)) : tstate :=
  fold_left (tstep clockid) evs (TState 0 (fun _ => TIdle) []).

(** ** Runs against the constants in the tests (arroba/tests/test_util.py) *)

Example tid_42 : int_to_tid 42 17 = Ok (s "2222222223el2"). Proof. vm_compute. reflexivity. Qed.
Example tid_0 : int_to_tid 0 17 = Ok (s "22222222222l2"). Proof. vm_compute. reflexivity. Qed.
Example tid_00 : int_to_tid 0 0 = Ok (s "2222222222222"). Proof. vm_compute. reflexivity. Qed.
