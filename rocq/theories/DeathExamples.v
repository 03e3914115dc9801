(** Requests that died on the servers of LiveExamples.v. *)
From Coq Require Import String List NArith ZArith Bool.
From Verif Require Import Base Lists Ipld MstModel StorageModel StorageSpec RepoSpec RepoExamples MessageSpec MessageExamples
  UriModel ServerModel ServerSpec ServerExamples ExportSpec ExportExamples AnyExamples CrashModel CrashSpec LiveSpec LiveFacts LiveExamples.
Import ListNotations.

Notation dserver := (lserver Datastore).
Notation dask := (on_request wdigest xkdigest dserver).
(** Alice's server when a request for a third record has died, and five numbers are lost with it. *)
Definition dput : request := vput alice (s "c0") 3.
Definition dget_of (rkey : str) : request := RGet (Some alice) (Some (s "app.post")) (Some rkey) None.
Definition dworld : world := v_world (lsource Memory).
Definition dead : state := halfway 5 (w_state dworld) (fst (dask dput (w_state dworld))).
Definition dsum : list bool :=
  [v_fine (lsource Memory); (s_next dead <? 2 ^ 55)%Z; Nat.ltb (length (s_blocks (w_state dworld))) (length (s_blocks dead));
   is_ok (snd (dask (dget_of (s "a0")) dead)); negb (is_ok (snd (dask (dget_of (s "c0")) dead))); is_ok (snd (dask dput dead));
   is_ok (snd (dask (dget_of (s "c0")) (fst (dask dput dead))))].
Lemma dsum_true : dsum = repeat true 7.
Proof. vm_compute. reflexivity. Qed.
Lemma dhosts : hosts wdigest xkdigest dserver dworld (v_book (lsource Memory)).
Proof. destruct (lstory Memory) as (car & Y). exact (y_source _ _ Y). Qed.
Lemma is_ok_ex {A} (x : res A) : is_ok x = true -> exists a, x = Ok a.
Proof. destruct x; [eauto|discriminate]. Qed.
Lemma not_ok_ex {A} (x : res A) : negb (is_ok x) = true -> exists e, x = Err e.
Proof. destruct x; [discriminate|eauto]. Qed.
Lemma dstory : (s_next dead < 2 ^ 55)%Z /\ length (s_blocks (w_state dworld)) < length (s_blocks dead) /\
  (exists a, snd (dask (dget_of (s "a0")) dead) = Ok a) /\ (exists e, snd (dask (dget_of (s "c0")) dead) = Err e) /\
  (exists a, snd (dask dput dead) = Ok a) /\ (exists a, snd (dask (dget_of (s "c0")) (fst (dask dput dead))) = Ok a).
Proof.
  assert (Y := all_true _ _ dsum_true). unfold dsum in Y. apply Forall_cons_iff in Y as [X1 Y]. apply Forall_cons_iff in Y as [X2 Y]. apply Forall_cons_iff in Y as [X3 Y].
  apply Forall_cons_iff in Y as [X4 Y]. apply Forall_cons_iff in Y as [X5 Y]. apply Forall_cons_iff in Y as [X6 Y]. apply Forall_cons_iff in Y as [X7 _].
  split; [apply Z.ltb_lt; exact X2|]. split; [apply Nat.ltb_lt; exact X3|]. split; [apply is_ok_ex; exact X4|]. split; [apply not_ok_ex; exact X5|]. split; apply is_ok_ex; assumption.
Qed.

(** An import died, then the same one again. *)
Definition iworld : world := v_world (lbefore Datastore).
Definition idead (car : list N) : state := halfway 0 (w_state iworld) (fst (on_import dserver vtoken car 7 (w_state iworld))).
Definition isum : list bool :=
  match lcar Datastore with
  | None => []
  | Some car => [Nat.ltb (length (s_blocks (w_state iworld))) (length (s_blocks (idead car))); is_ok (snd (on_import dserver vtoken car 8 (idead car)))]
  end.
Lemma isum_true : isum = repeat true 2.
Proof. vm_compute. reflexivity. Qed.
Lemma lcar_is be car : story be car -> lcar be = Some car.
Proof.
  intros Y. pose proof (y_car _ _ Y) as X. unfold lcar, wcar. unfold lsource, on_get_repo in X. cbn [lserver p_be p_netloc] in X.
  destruct (snd (get_repo _ _ _ _ _ _ _)) as [c|]; [|discriminate X]. injection X as ->. reflexivity.
Qed.
Lemma istory : exists car, story Datastore car /\ length (s_blocks (w_state iworld)) < length (s_blocks (idead car)) /\ exists a, snd (on_import dserver vtoken car 8 (idead car)) = Ok a.
Proof.
  destruct (lstory Datastore) as (car & Y). exists car. split; [exact Y|].
  pose proof (all_true _ _ isum_true) as Z. unfold isum in Z. rewrite (lcar_is _ _ Y) in Z. apply Forall_cons_iff in Z as [X1 Z]. apply Forall_cons_iff in Z as [X2 _].
  split; [apply Nat.ltb_lt; exact X1|apply is_ok_ex; exact X2].
Qed.
