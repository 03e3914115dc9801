(** The event log of a storage, stated with the blocks in it. *)
From Coq Require Import String List NArith ZArith Bool Sorted.
From Verif Require Import Base Lists Ipld MstModel TidModel CarModel StorageModel StorageSpec RepoSpec EventsModel EventsSpec.
Import ListNotations.

(** The signing key that an operation brings. *)
Definition op_key (op : sop) : option N := match op with SCreate _ _ _ _ key | SLoadAt _ key => Some key | _ => None end.

(** The operations of a commit: one for each write, in their order, with the CID of the record; updates
    that change nothing may have none. *)
Inductive made (digest : list N -> list N) : list write -> list commit_op -> Prop :=
| made_nil : made digest [] []
| made_op w ws op ops : op_action op = w_action w -> op_path op = w_collection w ++ s "/" ++ w_rkey w ->
    match w_action w with DELETE => op_cid op = None | _ => exists v, w_record w = Some v /\ op_cid op = Some (dag_cbor_cid digest v) end ->
    made digest ws ops -> made digest (w :: ws) (op :: ops)
| made_same w ws ops : w_action w = UPDATE -> made digest ws ops -> made digest (w :: ws) ops.

Section Spec.
Variable ecdsa : N -> Z -> list N -> list N.

Definition is_event_block (b : block) : Prop := exists t, item_text (s "$type") (b_val b) = Ok (s "com.atproto.sync.subscribeRepos#" ++ t).
Definition is_commit_block (b : block) : Prop := exists did key prev root, commit_of ecdsa b did key prev root.

(** [lg] are the commits and events in the storage from [start] on, for [repo] if given, in the
    order of their numbers; no two have the same. *)
Definition logged (st : state) (start : Z) (repo : option str) (lg : list block) : Prop :=
  StronglySorted (fun a b => (b_seq a < b_seq b)%Z) lg /\
  forall b, In b lg <-> (exists c, read st c = Some b) /\ in_range start repo b = true /\ (is_event_block b \/ is_commit_block b).

(** The item for a block. *)
Definition item_for (st : state) (i : eitem) (b : block) : Prop :=
  match i with
  | EEvent v => is_event_block b /\ v = b_val b
  | ECommit cd => cd_commit cd = b /\ (exists did key root, commit_of ecdsa b did key (cd_prev cd) root) /\
      commit_blocks st b (cd_blocks cd)
  end.
End Spec.
