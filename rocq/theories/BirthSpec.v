(** What creating a repo may do. *)
From Coq Require Import String List NArith ZArith.
From Verif Require Import Base Lists Ipld MstModel TidModel CarModel StorageModel RepoSpec.
Import ListNotations.

(** The three events that follow the first commit [c], which has number [n]. *)
Definition birth_events (now : Z -> str) (did : str) (handle : option str) (n : Z) (c : block) (rev : str) : list ipld :=
  [event_value now (s "identity") (n + 1) did [(s "handle", match handle with Some h => IText h | None => INull end)];
   event_value now (s "account") (n + 2) did [(s "active", IBool true)];
   event_value now (s "sync") (n + 3) did [(s "blocks", IBytes (write_car [b_cid c] [(b_cid c, encode (b_val c))])); (s "rev", IText rev)]].

(** Either one number is used for nothing, and the callback hears that it is lost. Or the first commit is
    stored with it and then [k] of the three events with the next [k] numbers, all that is new has one of
    these numbers, and the callback hears exactly of these, in order, and when all is done once more of the
    commit. It stops early only when the callback raises. *)
Definition birth (digest : list N -> list N) (now : Z -> str) (cb : nat -> option exn) (did : str) (handle : option str)
  (with_callback : bool) (st st' : state) (failed : Prop) : Prop :=
  let n := s_next st in
  failed /\ s_next st' = (n + 1)%Z /\ s_blocks st' = s_blocks st /\ (forall c x, read st' c = Some x -> b_seq x <> n) /\
    s_calls st' = (if with_callback then [CLost n] else []) ++ s_calls st \/
  exists cd r b k, let evs := birth_events now did handle n (cd_commit cd) r in
    let told := CData (MCommit cd) :: map (fun v => CData (MEvent v)) evs ++ [CData (MCommit cd)] in
    b_seq (cd_commit cd) = n /\ int_to_tid n 0 = Ok r /\ item (s "rev") (b_val (cd_commit cd)) = Ok (IText r) /\
    read st' (b_cid (cd_commit cd)) = Some b /\ b_val b = b_val (cd_commit cd) /\
    k <= 3 /\ s_next st' = (n + 1 + Z.of_nat k)%Z /\
    (forall v, In v (firstn k evs) -> exists x, read st' (cid_of digest v) = Some x /\ b_val x = v) /\
    (forall c x, read st c = Some x -> read st' c = Some x) /\
    (forall c x, read st' c = Some x -> read st c = Some x \/ (n <= b_seq x < s_next st')%Z) /\
    (~ failed /\ k = 3 /\ s_calls st' = (if with_callback then rev told else []) ++ s_calls st \/
     failed /\ with_callback = true /\ (exists j e, cb j = Some e) /\
       (k = 0 /\ s_calls st' = [CLost n; CData (MCommit cd)] ++ s_calls st \/
        0 < k /\ s_calls st' = rev (firstn (S k) told) ++ s_calls st \/
        k = 3 /\ s_calls st' = rev told ++ s_calls st)).
