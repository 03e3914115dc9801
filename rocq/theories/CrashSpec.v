(** Histories in which processes die. *)
From Coq Require Import String List NArith ZArith Bool.
From Verif Require Import Base Lists Ipld MstModel StorageModel StorageSpec RepoSpec EventsSpec CrashModel.
Import ListNotations.

Inductive turn :=
| Done (op : sop)
| Died (op : sop) (k lost : nat).
Definition turn_op (t : turn) : sop := match t with Done op => op | Died op _ _ => op end.

(** DIDs look like DIDs and handles do not. *)
Definition turn_ok (t : turn) : Prop := op_named (turn_op t).

(** The write that makes the operation happen. *)
Definition decisive (op : sop) : nat :=
  match op with
  | SCreate _ _ _ _ _ => 9
  | SCommit _ _ => 3
  | SDeactivate _ | SActivate _ | STombstone _ => 1
  | SLoad _ | SLoadAt _ _ | SCallback _ _ => 0
  end.

(** The blocks of the operation are all written, or none is. *)
Definition whole (op : sop) (k : nat) : Prop :=
  match op with
  | SCreate _ _ _ _ _ => k < 2 \/ 9 <= k
  | SCommit _ _ => k < 2 \/ 3 <= k
  | SDeactivate _ | SActivate _ | STombstone _ => k = 0 \/ 3 <= k
  | SLoad _ | SLoadAt _ _ | SCallback _ _ => True
  end.

Section History.
Variable digest : list N -> list N.
Variable kdigest : str -> list N.
Variable validate : ipld -> res unit.
Variable ecdsa : N -> Z -> list N -> list N.
Variable now : Z -> str.
Variable cb : nat -> option exn.
Notation sstep := (sstep digest kdigest validate ecdsa now cb Datastore).

Definition take_turn (w : world) (t : turn) : world :=
  match t with
  | Done op => fst (sstep w op)
  | Died op k lost => crash digest kdigest validate ecdsa now cb w op k lost
  end.
Definition turns (l : list turn) : world := fold_left take_turn l init_world.

(** The keys and records of the repos, from the operations that happened. *)
Definition turn_book (bk : book) (w : world) (t : turn) : book :=
  match t with
  | Done op => book_step bk op (snd (sstep w op))
  | Died op k _ => if Nat.leb (decisive op) k then book_step bk op (snd (sstep w op)) else bk
  end.
Fixpoint turns_book (bk : book) (w : world) (l : list turn) : book :=
  match l with
  | [] => bk
  | t :: l => turns_book (turn_book bk w t) (take_turn w t) l
  end.

(** What the operations that ended put into the log. *)
Fixpoint turns_log (w : world) (l : list turn) : list entry :=
  match l with
  | [] => []
  | t :: l => match t with Done op => log_entries w op (snd (sstep w op)) | Died _ _ _ => [] end ++ turns_log (take_turn w t) l
  end.
End History.
