(** What reading events by sequence number is supposed to give. *)
From Coq Require Import String List NArith ZArith Bool Sorted.
From Verif Require Import Base Lists Ipld MstModel TidModel CarModel StorageModel StorageSpec RepoSpec EventsModel.
Import ListNotations.

(** ** Enumerations of the stored blocks *)

(** [bs] are the blocks of the storage from [start] on, for [repo] if given, each once and
    in the order of their numbers; the order of blocks with the same number is open. *)
Definition in_order (l : list block) : Prop := StronglySorted (fun a b => (b_seq a <= b_seq b)%Z) l.
Definition enumerates (st : state) (start : Z) (repo : option str) (bs : list block) : Prop :=
  NoDup (map b_cid bs) /\ in_order bs /\
  forall b, In b bs <-> (exists c, read st c = Some b) /\ in_range start repo b = true.

(** ** The log of a history

    One entry for each commit and event, computed from the operations, their outcomes and
    the number they got. *)
Inductive entry :=
| LCommit (seq : Z) (did : str) (cd : option commit_data)
| LEvent (seq : Z) (did type : str) (extra : list (str * ipld))
| LSync (seq : Z) (did : str).

Definition entry_seq (e : entry) : Z := match e with LCommit n _ _ | LEvent n _ _ _ | LSync n _ => n end.
Definition entry_did (e : entry) : str := match e with LCommit _ d _ | LEvent _ d _ _ | LSync _ d => d end.

Definition log_entries (w : world) (o : sop) (out : res sout) : list entry :=
  let n := s_next (w_state w) in
  match o, out with
  | SCommit _ _, Ok (OutCommit cd) => [LCommit n (commit_did cd) (Some cd)]
  | SCreate did handle _ _ _, Ok _ =>
      [LCommit n did None; LEvent (n + 1) did (s "identity") [(s "handle", opt_text handle)];
       LEvent (n + 2) did (s "account") [(s "active", IBool true)]; LSync (n + 3) did]
  | _, Ok _ =>
      match status_op o with
      | Some (h, _, type, extra) =>
          match handle_did w h with Some did => [LEvent n did type extra] | None => [] end
      | None => []
      end
  | _, Err _ => []
  end.

Definition entry_selected (start : Z) (repo : option str) (e : entry) : bool :=
  (start <=? entry_seq e)%Z &&
  match repo with
  | Some ((_ :: _) as d) => str_eqb d (entry_did e)
  | _ => true
  end.

Section Spec.
Variable digest : list N -> list N.
Variable kdigest : str -> list N.
Variable validate : ipld -> res unit.
Variable ecdsa : N -> Z -> list N -> list N.
Variable now : Z -> str.
Variable cb : nat -> option exn.
Variable be : backend.

Fixpoint log_from (w : world) (ops : list sop) : list entry :=
  match ops with
  | [] => []
  | o :: r =>
      let '(w1, out) := sstep digest kdigest validate ecdsa now cb be w o in
      log_entries w o out ++ log_from w1 r
  end.

(** The blocks of a commit item: those first written by the commit, the records of its
    creates and updates, and the root of the tree. *)
Definition commit_blocks (st : state) (c : block) (blocks : list (cid * block)) : Prop :=
  NoDup (keys blocks) /\
  forall k b, dget k blocks = Some b <-> read st k = Some b /\
    (b_seq b = b_seq c \/
     (exists ops op, b_ops c = Some ops /\ In op ops /\ op_action op <> DELETE /\ op_cid op = Some k) \/
     item_link (s "data") (b_val c) = Ok k).

(** The item for an entry. *)
Definition entry_item (st : state) (i : eitem) (e : entry) : Prop :=
  match e, i with
  | LCommit n did (Some cd), ECommit cd' =>
      cd_commit cd' = cd_commit cd /\ cd_prev cd' = cd_prev cd /\ b_seq (cd_commit cd) = n /\ b_repo (cd_commit cd) = Some did /\
      commit_blocks st (cd_commit cd) (cd_blocks cd')
  | LCommit n did None, ECommit cd' =>
      (exists key root, commit_of ecdsa (cd_commit cd') did key None root) /\ b_ops (cd_commit cd') = Some [] /\ cd_prev cd' = None /\
      b_seq (cd_commit cd') = n /\ read st (b_cid (cd_commit cd')) = Some (cd_commit cd') /\
      commit_blocks st (cd_commit cd') (cd_blocks cd')
  | LEvent n did type extra, EEvent v => v = event_value now type n did extra
  | LSync n did, EEvent v => exists c rev, read st (b_cid c) = Some c /\ b_seq c = (n - 3)%Z /\ int_to_tid (n - 3) 0 = Ok rev /\
      (exists key root, commit_of ecdsa c did key None root) /\
      v = event_value now (s "sync") n did
            [(s "blocks", IBytes (write_car [b_cid c] [(b_cid c, encode (b_val c))])); (s "rev", IText rev)]
  | _, _ => False
  end.
End Spec.
