(** What the theorems about concurrent commits speak of. *)
From Coq Require Import String List NArith ZArith Bool.
From Verif Require Import Base Ipld MstModel TidModel StorageModel StorageSpec RepoSpec TxModel.
Import ListNotations.

(** The successful commits to [did], the latest first. *)
Fixpoint commits (did : str) (l : list returned) : list (job * commit_data) :=
  match l with
  | [] => []
  | r :: l' =>
      match t_result r with
      | Ok cd => if str_eqb (j_did (t_job r)) did then (t_job r, cd) :: commits did l' else commits did l'
      | Err _ => commits did l'
      end
  end.

(** A commit object for [did], signed with [key], whatever the nonce. *)
Definition signed_commit (ecdsa : N -> Z -> list N -> list N) (v : ipld) (did rev : str) (prev : cid) (root : cid) (key : N) : Prop :=
  exists nonce,
    let m := [(s "did", IText did); (s "version", IInt 3); (s "rev", IText rev); (s "prev", ILink prev); (s "data", ILink root)] in
    v = norm (IMap (m ++ [(s "sig", IBytes (ecdsa key nonce (dag_cbor_encode (IMap m))))])).

Section Tx.
Variable digest : list N -> list N.
Variable kdigest : str -> list N.
Variable validate : ipld -> res unit.
Variable ecdsa : N -> Z -> list N -> list N.

(** The commits of the list were made one after the other, each on what the one before left: from
    the head [h0] with the records [recs0] they lead to the head [h] with the records [recs]. All of
    them are stored in [st], and a Repo at them shows the records of their time. *)
Inductive serial (st : state) (did : str) (key : N) (h0 : cid) (recs0 : records) : list (job * commit_data) -> cid -> records -> Prop :=
| serial_none : serial st did key h0 recs0 [] h0 recs0
| serial_commit l h recs j cd b rev root : serial st did key h0 recs0 l h recs ->
    writes_allowed validate recs (j_writes j) ->
    cd_prev cd = Some h -> b_ops (cd_commit cd) = Some (commit_ops digest recs (j_writes j)) -> b_seq (cd_commit cd) = j_seq j ->
    int_to_tid (j_seq j) 0 = Ok rev -> signed_commit ecdsa (b_val (cd_commit cd)) did rev h root key ->
    read st (b_cid (cd_commit cd)) = Some b -> b_val b = b_val (cd_commit cd) ->
    shows kdigest st (Repo (mst_load root) (Some b) None None false key) (apply_writes recs (j_writes j)) ->
    serial st did key h0 recs0 ((j, cd) :: l) (b_cid (cd_commit cd)) (apply_writes recs (j_writes j)).
End Tx.
