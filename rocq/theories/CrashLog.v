(** The blocks that a dying operation leaves. *)
From Coq Require Import String List NArith ZArith Bool Lia.
From Verif Require Import Base Lists Ipld MstModel StorageModel StorageSpec RepoSpec IsolateProofs TellProofs FullProofs CrashModel CrashSpec.
Import ListNotations.

Section Log.
Variable digest : list N -> list N.
Variable kdigest : str -> list N.
Variable validate : ipld -> res unit.
Variable ecdsa : N -> Z -> list N -> list N.
Variable now : Z -> str.
Variable cb : nat -> option exn.
Notation sstep := (sstep digest kdigest validate ecdsa now cb Datastore).
Notation cut := (cut digest kdigest validate ecdsa now cb).

Lemma new_blocks w (m : M (option nat)) : w_state (fst (on_new w m)) = fst (m (w_state w)).
Proof. unfold on_new. destruct (m (w_state w)) as [st [[r|]|e]]; reflexivity. Qed.
Lemma done_blocks {A B} (m : M A) (f : A -> B) st : fst (bindM m (fun a => ret (f a)) st) = fst (m st).
Proof. unfold bindM. destruct (m st) as [st1 [a|e]]; reflexivity. Qed.
Lemma ref_blocks {A} w h (m : nat -> M A) f : w_state (fst (on_ref w h (fun r => bindM (m r) (fun a => ret (f a))))) =
  match nth_error (w_refs w) h with Some r => fst (m r (w_state w)) | None => w_state w end.
Proof.
  unfold on_ref. destruct (nth_error (w_refs w) h) as [r|]; [|reflexivity]. rewrite <- (done_blocks (m r) f).
  destruct (bindM (m r) _ (w_state w)); reflexivity.
Qed.
Lemma front_mst d vs : front (lift (mst_create d vs None)).
Proof. apply front_pure, pure_lift. Qed.

Lemma cut_blocks w op k : whole op k ->
  s_blocks (cut w op k) = s_blocks (w_state (if Nat.leb (decisive op) k then fst (sstep w op) else w)).
Proof.
  intros W. destruct op as [did handle status hc key|x|h key|h x|h ws|h|h|h]; cbn [whole decisive] in *; unfold CrashModel.cut.
  - unfold create_until. destruct (Nat.leb_spec 9 k) as [L|L].
    + unfold StorageModel.sstep. rewrite new_blocks, !done_blocks. reflexivity.
    + destruct W as [W|W]; [|lia]. destruct k as [|[|k]]; [| |lia]; cbv zeta; unfold bindM, lift, new_obj; destruct (mst_create digest [] None); reflexivity.
  - cbn [Nat.leb]. unfold StorageModel.sstep. rewrite new_blocks. symmetry. apply front_load.
  - cbn [Nat.leb]. unfold StorageModel.sstep. destruct (nth_error (w_refs w) h); [|reflexivity]. rewrite new_blocks. symmetry.
    eapply front_bind; [apply front_pure, pure_obj|]. intros o. destruct (r_head o) as [b|]; [|apply front_pure, pure_throw].
    eapply front_bind; [apply front_repo_load|]. intros r. apply front_pure, pure_ret.
  - cbn [Nat.leb]. unfold StorageModel.sstep. rewrite ref_blocks. destruct (nth_error (w_refs w) h); [|reflexivity]. symmetry. apply front_set_attr.
  - destruct (Nat.leb_spec 3 k) as [L|L].
    + unfold StorageModel.sstep. rewrite ref_blocks. destruct (nth_error (w_refs w) h); [|reflexivity]. destruct k as [|[|[|k]]]; [lia..|].
      unfold commit_until. rewrite done_blocks. reflexivity.
    + destruct W as [W|W]; [|lia]. destruct (nth_error (w_refs w) h); [|reflexivity]. destruct k as [|[|k]]; [| |lia]; reflexivity.
  - destruct W as [->|W]; [destruct (nth_error (w_refs w) h); reflexivity|]. replace (Nat.leb 1 k) with true by (symmetry; apply Nat.leb_le; lia).
    unfold StorageModel.sstep. rewrite (ref_blocks w h _ (fun _ => OutDone)). destruct (nth_error (w_refs w) h); [|reflexivity]. destruct k as [|[|[|k]]]; [lia..|]. reflexivity.
  - destruct W as [->|W]; [destruct (nth_error (w_refs w) h); reflexivity|]. replace (Nat.leb 1 k) with true by (symmetry; apply Nat.leb_le; lia).
    unfold StorageModel.sstep. rewrite (ref_blocks w h _ (fun _ => OutDone)). destruct (nth_error (w_refs w) h); [|reflexivity]. destruct k as [|[|[|k]]]; [lia..|]. reflexivity.
  - destruct W as [->|W]; [destruct (nth_error (w_refs w) h); reflexivity|]. replace (Nat.leb 1 k) with true by (symmetry; apply Nat.leb_le; lia).
    unfold StorageModel.sstep. rewrite (ref_blocks w h _ (fun _ => OutDone)). destruct (nth_error (w_refs w) h); [|reflexivity]. destruct k as [|[|[|k]]]; [lia..|]. reflexivity.
Qed.
End Log.
