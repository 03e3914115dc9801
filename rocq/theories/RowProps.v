(** C67: blocks in the datastore. *)
From Coq Require Import String List NArith ZArith Bool.
From Verif Require Import Base Lists Ipld MstModel MstClient StorageModel RowModel RowSpec RowProofs.
Import ListNotations.

(** ** C67 *)

(** Entities keep blocks like a dictionary by CID: no entities keep no blocks, *)
Theorem C67_none local : keeps local [] [].
Proof. exact (fun c _ => eq_refl). Qed.
Print Assumptions C67_none.

(** writing blocks adds those that are not there yet, *)
Theorem C67_write_blocks local ws bl bs : keeps local ws bl -> Forall storable bs -> NoDup (map d_cid bs) ->
  exists ws', row_write_blocks local ws bs = Ok ws' /\ keeps local ws' (fold_left dsetdefault (map (fun b => (d_cid b, b)) bs) bl).
Proof. exact (c67_write_blocks local ws bl bs). Qed.
Print Assumptions C67_write_blocks.

(** and writing an object adds a block for it if there is none, returns the block there is, and refuses
    numbers that are smaller than that of the block. *)
Theorem C67_write local digest ws bl now did data seq : keeps local ws bl -> (0 < seq)%Z -> did <> [] ->
  proper ([1; 113; 18; 32]%N ++ digest (dag_cbor_encode data)) ->
  let c := [1; 113; 18; 32]%N ++ digest (dag_cbor_encode data) in
  let b := DBlock c (dag_cbor_encode data) (Some seq) None (Moment now (Some 0%Z)) (Did did) in
  match dget c bl with
  | None => exists ws' b', row_write digest ws now did data seq = Ok (ws', b') /\ comes_back local b b' /\ keeps local ws' (dsetdefault bl (c, b))
  | Some old => forall n, d_seq old = Some n ->
      if (n <=? seq)%Z then exists b', row_write digest ws now did data seq = Ok (ws, b') /\ comes_back local old b'
      else row_write digest ws now did data seq = Err AssertionError
  end.
Proof. exact (c67_write local digest ws bl now did data seq). Qed.
Print Assumptions C67_write.
(** Numbers below one are refused. *)
Theorem C67_unnumbered digest ws now did data seq : (seq <= 0)%Z -> row_write digest ws now did data seq = Err AssertionError.
Proof. exact (c67_unnumbered digest ws now did data seq). Qed.
Print Assumptions C67_unnumbered.

(** A commit block with three ops, at noon somewhere east, and a record. *)
Definition ex_cid (n : N) : cid := [1; 113; 18; 32]%N ++ n :: repeat 255%N 31.
Definition ex_commit : dblock :=
  DBlock (ex_cid 1) [160%N] (Some 7%Z)
    (Some [CommitOp CREATE (s "app.post/k0") (Some (ex_cid 2)) None; CommitOp UPDATE (s "app.post/k1") (Some (ex_cid 3)) (Some (ex_cid 4));
           CommitOp DELETE (s "app.post/k2") None (Some (ex_cid 5))])
    (Moment 43200 (Some 7200%Z)) (Did (s "did:plc:alice")).
Definition ex_record : dblock := DBlock (ex_cid 2) [161%N] (Some 7%Z) None (Moment 43200 (Some 0%Z)) (Did (s "did:plc:alice")).

Lemma ex_proper n : (n < 256)%N -> proper (ex_cid n).
Proof.
  intros H. exists 113%N, (n :: repeat 255%N 31). split; [auto|]. split; [reflexivity|]. split; [|reflexivity].
  constructor; [exact H|]. apply Forall_forall. intros x HX. apply repeat_spec in HX. subst x. reflexivity.
Qed.
Example C67_case : Forall storable [ex_commit; ex_record] /\ NoDup (map d_cid [ex_commit; ex_record]).
Proof.
  split.
  - assert (X : forall b n, In b [ex_commit; ex_record] -> d_cid b = ex_cid n -> (n < 256)%N ->
      (forall ops op, d_ops b = Some ops -> In op ops -> proper_opt (op_cid op) /\ proper_opt (op_prev op)) -> storable b).
    { intros b n HB E L O. split; [rewrite E; apply ex_proper, L|].
      split; [exists (s "did:plc:alice"); destruct HB as [<-|[<-|[]]]; (split; [discriminate|reflexivity])|].
      split; [exists 7%Z; destruct HB as [<-|[<-|[]]]; reflexivity|exact O]. }
    constructor; [|constructor; [|constructor]].
    + apply (X _ 1%N); [left; reflexivity|reflexivity|reflexivity|]. intros ops op E HI. injection E as <-.
      destruct HI as [<-|[<-|[<-|[]]]]; cbn; split; try exact I; apply ex_proper; reflexivity.
    + apply (X _ 2%N); [right; left; reflexivity|reflexivity|reflexivity|discriminate].
  - repeat constructor; cbn; intuition discriminate.
Qed.
Example C67_case_read : exists ws, row_write_blocks 0 [] [ex_commit; ex_record] = Ok ws /\ length ws = 2 /\
  row_read ws (ex_cid 1) = Ok (Some (DBlock (ex_cid 1) [160%N] (Some 7%Z) (d_ops ex_commit) (Moment 36000 None) (RepoKey (s "did:plc:alice")))) /\
  row_read ws (ex_cid 2) = Ok (Some (DBlock (ex_cid 2) [161%N] (Some 7%Z) (Some []) (Moment 43200 None) (RepoKey (s "did:plc:alice")))) /\
  row_read ws (ex_cid 3) = Ok None /\
  keys ws = [s "bafyreiab77777777777777777777777777777777777777777777777774"; s "bafyreiac77777777777777777777777777777777777777777777777774"].
Proof. eexists. split; [vm_compute; reflexivity|]. split; [reflexivity|]. split; [vm_compute; reflexivity|]. split; [vm_compute; reflexivity|]. split; [vm_compute; reflexivity|]. vm_compute. reflexivity. Qed.

(** A block that comes back cannot be written to another datastore, although it can be written to
    where it came from: its repo is a key, and not a DID as the documentation of Block says. *)
Theorem C67_again_refuted : exists local ws c b, row_write_blocks local [] [ex_commit] = Ok ws /\ row_read ws c = Ok (Some b) /\
  row_write_blocks local ws [b] = Ok ws /\ row_write_blocks local [] [b] = Err TypeError.
Proof.
  eexists 0%Z, _, (ex_cid 1), _. split; [vm_compute; reflexivity|]. split; [vm_compute; reflexivity|]. split; vm_compute; reflexivity.
Qed.
Print Assumptions C67_again_refuted.
