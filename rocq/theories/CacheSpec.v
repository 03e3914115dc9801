(** What the caches of did.py should do. *)
From Coq Require Import String List NArith ZArith.
From Verif Require Import Base CacheModel.
Import ListNotations.

Definition thread_of (e : event) : nat := match e with Call i _ _ | Answer i _ | Store i _ => i end.
Definition time_of (e : event) : Z := match e with Call _ _ t | Answer _ t | Store _ t => t end.
(** The clock does not go back. *)
Fixpoint in_order (es : list event) : Prop :=
  match es with
  | [] => True
  | e :: r => (forall e', In e' r -> (time_of e <= time_of e')%Z) /\ in_order r
  end.
(** In [es], the thread [j] calls with [k], gets its answer at [ta] and stores it at [ts]. *)
Definition served (es : list event) (j : nat) (k : str) (ta ts : Z) : Prop :=
  exists a t0 b c d, es = a ++ Call j k t0 :: b ++ Answer j ta :: c ++ Store j ts :: d /\
    (forall e, In e (b ++ c) -> thread_of e <> j).
Definition asked (e : event) : list str := match e with Call _ k _ => [k] | _ => [] end.
