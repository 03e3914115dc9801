(** A server that supports two collections. *)
From Coq Require Import String List NArith ZArith Bool.
From Verif Require Import Base Lists Ipld MstModel CarModel StorageModel StorageSpec RepoSpec RepoExamples MessageSpec MessageExamples
  UriModel ServerModel ServerSpec ServerExamples ExportSpec ExportExamples ImportFacts AnyExamples LiveSpec LiveFacts LiveExamples.
Import ListNotations.

Definition dserver : server := Server xvalidate xecdsa xnow xcb Datastore vnetloc (Config (Some (s "token")) true [s "b"; s "a"]) aresolve ikey iverify ihandle.
Definition dcreate : sop := SCreate alice (Some (s "al.ice")) None false 2.
Definition dstate : world * res sout := on_storage wdigest xkdigest dserver init_world dcreate.

Definition dresult := snd (describe_repo xkdigest (p_be dserver) (p_netloc dserver) (p_cfg dserver) (fun _ => Ok INull) (Some alice) (w_state (fst dstate))).

Definition described : bool :=
  match dresult with
  | Ok (d, Some h, INull, [a; b]) => str_eqb d alice && str_eqb h (s "al.ice") && str_eqb a (s "a") && str_eqb b (s "b")
  | _ => false
  end && isb None (seen Datastore (w_state (fst dstate)) alice) && match seen Datastore (w_state (fst dstate)) alice with
  | Some o => match r_handle o with Some h => str_eqb h (s "al.ice") | None => false end | None => false end &&
  match dget alice (book_step [] dcreate (snd dstate)) with Some _ => true | None => false end.
Lemma described_true : described = true.
Proof. vm_compute. reflexivity. Qed.

Lemma describe_two : exists sv w bk o key recs, hosts wdigest xkdigest sv w bk /\ names (p_be sv) (p_netloc sv) (w_state w) alice alice o /\
  r_status o = None /\ dget alice bk = Some (key, recs) /\ c_supported (p_cfg sv) = [s "b"; s "a"] /\
  snd (describe_repo xkdigest (p_be sv) (p_netloc sv) (p_cfg sv) (fun _ => Ok INull) (Some alice) (w_state w)) = Ok (alice, r_handle o, INull, [s "a"; s "b"]).
Proof.
  pose proof described_true as X. unfold described in X. apply andb_prop in X as [X X4]. apply andb_prop in X as [X X3]. apply andb_prop in X as [X1 X2].
  assert (H : hosts wdigest xkdigest dserver (fst dstate) (book_step [] dcreate (snd dstate))).
  { eapply h_storage.
    - apply h_new. split; [exact wsetting|]. intros doc. cbn [dserver p_handle]. discriminate.
    - split; [reflexivity|discriminate].
    - discriminate.
    - unfold dstate. destruct (on_storage _ _ _ _ _). reflexivity. }
  apply isb_ok in X2 as (o & h & SN & RD & ST & _). rewrite SN in X3.
  destruct (dget alice (book_step [] dcreate (snd dstate))) as [[key recs]|] eqn:B; [|discriminate].
  exists dserver, (fst dstate), (book_step [] dcreate (snd dstate)), o, key, recs. split; [exact H|]. split; [|split; [exact ST|split; [exact B|split; [reflexivity|]]]].
  - exists alice. split; [reflexivity|split; [exact SN|exact RD]].
  - fold dresult. clear H SN B RD. destruct dresult as [[[[d [h1|]] doc] l]|]; [|discriminate X1..].
    destruct doc; [|discriminate X1..]. destruct l as [|a [|b [|]]]; [discriminate X1..| |discriminate X1].
    apply andb_prop in X1 as [X1 Y4]. apply andb_prop in X1 as [X1 Y3]. apply andb_prop in X1 as [Y1 Y2].
    apply str_eqb_eq in Y1, Y2, Y3, Y4. destruct (r_handle o) as [h2|]; [|discriminate X3]. apply str_eqb_eq in X3. rewrite Y1, Y2, Y3, Y4, X3. reflexivity.
Qed.
