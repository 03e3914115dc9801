(** What a request may do, and the histories it may come in. *)
From Coq Require Import String List NArith ZArith.
From Verif Require Import Base Lists Ipld MstModel StorageModel RepoSpec ServerModel ServerSpec AnySpec.
Import ListNotations.

(** Operations and requests, but no imports. *)
Definition no_import (a : act) : Prop :=
  match a with AStorage op => op_named op | ARequest _ _ _ => True | AImport _ _ _ _ _ _ _ _ => False end.

Definition untouched (st st' : state) : Prop :=
  s_blocks st' = s_blocks st /\ s_next st' = s_next st /\ s_calls st' = s_calls st.

(** One number is used. Either a commit is stored with it, and all that is new has it; the callback gets
    the commit, and if it raises it also hears that the number is lost. Or nothing is stored, and the callback
    hears that the number is lost. *)
Definition outcome (cb : nat -> option exn) (with_callback : bool) (st st' : state) (failed : Prop) : Prop :=
  s_next st' = (s_next st + 1)%Z /\
  ((exists cd b, b_seq (cd_commit cd) = s_next st /\
      read st' (b_cid (cd_commit cd)) = Some b /\ b_val b = b_val (cd_commit cd) /\
      (forall c x, read st c = Some x -> read st' c = Some x) /\
      (forall c x, read st' c = Some x -> read st c = Some x \/ b_seq x = s_next st) /\
      (s_calls st' = (if with_callback then [CData (MCommit cd)] else []) ++ s_calls st \/
       with_callback = true /\ (exists k e, cb k = Some e) /\ failed /\
         s_calls st' = [CLost (s_next st); CData (MCommit cd)] ++ s_calls st)) \/
   failed /\ s_blocks st' = s_blocks st /\ (forall c x, read st' c = Some x -> b_seq x <> s_next st) /\
     s_calls st' = (if with_callback then [CLost (s_next st)] else []) ++ s_calls st).

(** The repo that a request names. *)
Definition request_repo (q : request) : option str :=
  match q with RCreate _ i _ | RPut _ i | RDelete _ i => i_repo i | RGet repo _ _ _ => repo end.
