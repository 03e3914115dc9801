(** Firehoses over storages in which events turn up in the order of their numbers. *)
From Coq Require Import String List NArith ZArith Bool.
From Verif Require Import Base FireModel FireSpec.
Import ListNotations.
Local Open Scope Z_scope.

(** Events are stored in the order of their numbers, as by operations that come one after the other, and
    reads do not pass over an event that is there. *)
Definition least (log : list event) (q : query) (e : event) : Prop := forall x, In x log -> q_pos q <= e_seq x -> e_seq e <= e_seq x.
Definition in_turn (f : fire) (a : act) : Prop :=
  match a with
  | EAdd e => forall x, In x (f_log f) -> e_seq x < e_seq e
  | CItem e => match f_coll f with CPreload _ q _ | CRead q => least (f_log f) q e | _ => True end
  | SItem i e => forall c pre last q out, thread f i (SQuery c pre last q) out -> least (f_log f) q e
  | _ => True
  end.

Definition steady (f : fire) (a : act) : Prop := honest f a /\ in_turn f a.

(** [l] has everything of the storage that lies between two of its events. *)
Definition gapless (log l : list event) : Prop :=
  forall x y e, In x l -> In y l -> In e log -> e_seq x <= e_seq e <= e_seq y -> In e l.

(** The collector has taken up the last event of the storage. *)
Definition up_to_date (f : fire) : Prop :=
  forall e, In e (f_log f) -> exists y, In y (collected f) /\ e_seq e <= e_seq y.
