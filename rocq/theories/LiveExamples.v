(** A repo that is moved to a new server and lives on there. *)
From Coq Require Import String List NArith ZArith Bool.
From Verif Require Import Base Lists Ipld MstModel CarModel StorageModel StorageSpec RepoSpec RepoExamples MessageSpec MessageExamples
  UriModel ServerModel ServerSpec ServerExamples ExportSpec ExportExamples ImportFacts AnyExamples LiveSpec LiveFacts.
Import ListNotations.

Definition lserver (be : backend) : server := Server xvalidate xecdsa xnow xcb be vnetloc vcfg aresolve ikey iverify ihandle.
Notation lhosts be := (hosts wdigest xkdigest (lserver be)).
Lemma lproper be : proper wdigest xkdigest (lserver be).
Proof. split; [exact wsetting|]. intros doc. cbn [lserver p_handle]. discriminate. Qed.

Lemma vstep_hosts be x c : lhosts be (v_world x) (v_book x) -> v_fine (vstep be x c) = true ->
  lhosts be (v_world (vstep be x c)) (v_book (vstep be x c)) /\ v_fine x = true.
Proof.
  intros S F. destruct c as [op|q]; cbn [vstep v_world v_book v_fine] in *.
  - apply andb_prop in F as [F C]. apply andb_prop in F as [F N]. split; auto. eapply h_storage; eauto.
    + assert (FA : Forall op_named [op]) by (apply op_namedb_ok; cbn; rewrite N; reflexivity). inversion FA; auto.
    + intros _. apply clean_stepb_ok. exact C.
    + unfold on_storage. cbn [lserver p_validate p_ecdsa p_now p_cb p_be]. destruct (sstep _ _ _ _ _ _ _ _ _); reflexivity.
  - apply andb_prop in F as [F C]. split; auto. refine (h_request _ _ (lserver be) _ _ _ _ _ S _ _).
    + intros _. apply Z.ltb_lt. exact C.
    + unfold on_request. cbn [lserver p_validate p_ecdsa p_now p_cb p_be p_netloc p_cfg]. destruct (serve _ _ _ _ _ _ _ _ _ _); reflexivity.
Qed.
Lemma vsteps_hosts be cs : forall x, lhosts be (v_world x) (v_book x) -> v_fine (fold_left (vstep be) cs x) = true ->
  lhosts be (v_world (fold_left (vstep be) cs x)) (v_book (fold_left (vstep be) cs x)).
Proof.
  induction cs as [|c cs IH]; intros x S H; cbn [fold_left] in *; auto. apply IH; auto. apply vstep_hosts; auto.
  clear IH S. revert H. generalize (vstep be x c). clear. induction cs as [|d cs IH]; intros y H; cbn [fold_left] in H; auto.
  apply IH in H. destruct d; cbn [vstep v_fine] in H; apply andb_prop in H as [H _]; [apply andb_prop in H as [H _]|]; auto.
Qed.

(** Alice's repo on another storage of the other kind, with two records. *)
Definition other (be : backend) : backend := match be with Memory => Datastore | Datastore => Memory end.
Definition lsource (be : backend) : vstate := vrun (other be) azone.
Definition lcar (be : backend) : option (list N) := wcar (other be).
(** The new server has a repo of Bob's, imports Alice's, activates it, and writes another record. *)
Definition lbefore (be : backend) : vstate := vrun be [inl (SCreate bob None None false 2)].
Definition limport (be : backend) (car : list N) : state * res unit := on_import (lserver be) vtoken car 7 (w_state (v_world (lbefore be))).
Definition limported (be : backend) (car : list N) : vstate :=
  VState (World (fst (limport be car)) (w_refs (v_world (lbefore be))))
    (match snd (limport be car), dget alice (v_book (lsource be)) with
     | Ok _, Some (_, recs) => dset alice (7%N, recs) (v_book (lbefore be)) | _, _ => v_book (lbefore be) end) true [].
Definition lactive (be : backend) (car : list N) : vstate := fold_left (vstep be) [inl (SLoad alice); inl (SActivate 1)] (limported be car).
Definition lafter (be : backend) (car : list N) : vstate := vstep be (lactive be car) (inr (vput alice (s "c0") 3)).
Definition lput : list write := [wcreate (s "c0") 3; wcreate (s "c1") 4].
Definition lwrite (be : backend) (car : list N) : world * res sout := on_storage wdigest xkdigest (lserver be) (v_world (lactive be car)) (SCommit 1 lput).

Definition is_ok {A} (x : res A) : bool := match x with Ok _ => true | Err _ => false end.
(** Alice's repo is there with that status; the book has records with those keys for her. *)
Definition status_eqb (x y : option str) : bool := match x, y with Some a, Some b => str_eqb a b | None, None => true | _, _ => false end.
Definition isb (status : option str) (x : option repo) : bool :=
  match x with
  | Some o => match repo_did o with Ok (Some d) => str_eqb d alice | _ => false end && status_eqb (r_status o) status &&
              match r_head o with Some _ => true | None => false end
  | None => false
  end.
Lemma isb_ok status x : isb status x = true -> exists o h, x = Some o /\ repo_did o = Ok (Some alice) /\ r_status o = status /\ r_head o = Some h.
Proof.
  unfold isb. destruct x as [o|]; [|discriminate]. destruct (repo_did o) as [[d|]|] eqn:R; cbn [andb]; try discriminate.
  destruct (str_eqb d alice) eqn:E; cbn [andb]; [|discriminate]. apply str_eqb_eq in E. subst d.
  destruct (status_eqb (r_status o) status) eqn:T; cbn [andb]; [|discriminate]. destruct (r_head o) as [h|] eqn:H; [|discriminate].
  intros _. exists o, h. repeat split; auto. unfold status_eqb in T. destruct (r_status o), status; try discriminate; auto.
  apply str_eqb_eq in T. congruence.
Qed.
Fixpoint strs_eqb (a b : list str) : bool :=
  match a, b with [], [] => true | x :: a', y :: b' => str_eqb x y && strs_eqb a' b' | _, _ => false end.
Definition hasb (bk : book) (ks : list str) : bool :=
  match dget alice bk with Some (_, recs) => strs_eqb (map fst recs) ks | None => false end.
Lemma hasb_ok bk ks : hasb bk ks = true -> exists key recs, dget alice bk = Some (key, recs) /\ map fst recs = ks.
Proof.
  unfold hasb. destruct (dget alice bk) as [[key recs]|]; [|discriminate]. intros H. exists key, recs. split; auto.
  revert ks H. generalize (map fst recs). clear. induction l as [|x l IH]; intros [|y ks] H; cbn in H; try discriminate; auto.
  apply andb_prop in H as [A B]. apply str_eqb_eq in A. subst y. f_equal. auto.
Qed.
Definition wst (x : vstate) : state := w_state (v_world x).
Definition recs0 : list str := [s "app.post/a0"; s "app.post/b2"].
Definition lsum (be : backend) : list bool :=
  match lcar be with
  | None => []
  | Some car =>
      [v_fine (lsource be); isb None (seen (other be) (wst (lsource be)) alice); hasb (v_book (lsource be)) recs0;
       v_fine (lbefore be); match dget alice (v_book (lbefore be)) with None => true | Some _ => false end; is_ok (snd (limport be car));
       isb (Some (s "deactivated")) (seen be (wst (limported be car)) alice);
       isb None (handle_obj (v_world (lactive be car)) 1); hasb (v_book (lactive be car)) recs0;
       v_fine (lactive be car); (s_next (wst (lactive be car)) <? 2 ^ 55)%Z; match snd (lwrite be car) with Ok (OutCommit _) => true | _ => false end;
       v_fine (lafter be car); forallb is_ok (v_outs (lafter be car)); isb None (seen be (wst (lafter be car)) alice);
       hasb (v_book (lafter be car)) (recs0 ++ [s "app.post/c0"])]
  end.
Lemma lsum_true be : lsum be = repeat true 16.
Proof. destruct be; vm_compute; reflexivity. Qed.

Record story (be : backend) (car : list N) : Prop := {
  y_source : hosts wdigest xkdigest (lserver (other be)) (v_world (lsource be)) (v_book (lsource be));
  y_names : exists o h key recs, names (other be) vnetloc (w_state (v_world (lsource be))) alice alice o /\ r_status o = None /\ r_head o = Some h /\
    dget alice (v_book (lsource be)) = Some (key, recs) /\ map fst recs = recs0;
  y_car : snd (on_get_repo wdigest (lserver (other be)) alice None (w_state (v_world (lsource be)))) = Ok car;
  y_before : lhosts be (v_world (lbefore be)) (v_book (lbefore be));
  y_takes : forall h, takes (lserver be) vtoken (v_book (lbefore be)) alice h;
  y_import : snd (limport be car) = Ok tt;
  y_imported : lhosts be (v_world (limported be car)) (v_book (limported be car));
  y_status : exists o, seen be (w_state (v_world (limported be car))) alice = Some o /\ r_status o = Some (s "deactivated");
  y_active : lhosts be (v_world (lactive be car)) (v_book (lactive be car));
  y_handle : exists o key recs, handle_obj (v_world (lactive be car)) 1 = Some o /\ repo_did o = Ok (Some alice) /\ r_status o = None /\
    dget alice (v_book (lactive be car)) = Some (key, recs) /\ map fst recs = recs0;
  y_small : (s_next (w_state (v_world (lactive be car))) < 2 ^ 55)%Z;
  y_write : exists cd, snd (lwrite be car) = Ok (OutCommit cd);
  y_put : exists a, snd (on_request wdigest xkdigest (lserver be) (vput alice (s "c0") 3) (w_state (v_world (lactive be car)))) = Ok a;
  y_after : lhosts be (v_world (lafter be car)) (v_book (lafter be car));
  y_final : exists o key recs, names be vnetloc (w_state (v_world (lafter be car))) alice alice o /\ r_status o = None /\
    dget alice (v_book (lafter be car)) = Some (key, recs) /\ map fst recs = recs0 ++ [s "app.post/c0"]
}.

Lemma all_true l : forall n, l = repeat true n -> Forall (fun b => b = true) l.
Proof. intros n ->. induction n; constructor; auto. Qed.
Lemma lstory be : exists car, story be car.
Proof.
  pose proof (lsum_true be) as X. unfold lsum in X. destruct (lcar be) as [car|] eqn:C; [|discriminate]. exists car.
  assert (Y := all_true _ _ X). clear X. apply Forall_cons_iff in Y as [X1 Y]. apply Forall_cons_iff in Y as [X2 Y]. apply Forall_cons_iff in Y as [X3 Y]. apply Forall_cons_iff in Y as [X4 Y]. apply Forall_cons_iff in Y as [X5 Y]. apply Forall_cons_iff in Y as [X6 Y]. apply Forall_cons_iff in Y as [X7 Y]. apply Forall_cons_iff in Y as [X8 Y]. apply Forall_cons_iff in Y as [X9 Y]. apply Forall_cons_iff in Y as [X10 Y]. apply Forall_cons_iff in Y as [X11 Y]. apply Forall_cons_iff in Y as [X12 Y]. apply Forall_cons_iff in Y as [X13 Y]. apply Forall_cons_iff in Y as [X14 Y]. apply Forall_cons_iff in Y as [X15 Y]. apply Forall_cons_iff in Y as [X16 Y].
  apply isb_ok in X2 as (o2 & h2 & A1 & A2 & A3 & A4). apply hasb_ok in X3 as (k3 & r3 & B1 & B2).
  apply isb_ok in X7 as (o7 & h7 & C1 & C2 & C3 & C4). apply isb_ok in X8 as (o8 & h8 & D1 & D2 & D3 & D4).
  apply hasb_ok in X9 as (k9 & r9 & E1 & E2). apply isb_ok in X15 as (o15 & h15 & F1 & F2 & F3 & F4).
  apply hasb_ok in X16 as (k16 & r16 & G1 & G2). apply Z.ltb_lt in X11.
  assert (SRC : hosts wdigest xkdigest (lserver (other be)) (v_world (lsource be)) (v_book (lsource be))).
  { apply serves_hosts; [apply lproper|]. apply vrun_serves, X1. }
  assert (NM : names (other be) vnetloc (w_state (v_world (lsource be))) alice alice o2) by (exists alice; repeat split; auto).
  assert (CAR : snd (on_get_repo wdigest (lserver (other be)) alice None (w_state (v_world (lsource be)))) = Ok car).
  { unfold lcar, wcar in C. unfold lsource, on_get_repo. cbn [lserver p_be p_netloc].
    destruct (snd (get_repo _ _ _ _ _ _ _)) as [c|]; [|discriminate]. injection C as ->. reflexivity. }
  assert (BEF : lhosts be (v_world (lbefore be)) (v_book (lbefore be))).
  { apply serves_hosts; [apply lproper|]. apply vrun_serves, X4. }
  assert (IMP : snd (limport be car) = Ok tt) by (destruct (snd (limport be car)) as [[]|]; [reflexivity|discriminate]).
  assert (IMD : lhosts be (v_world (limported be car)) (v_book (limported be car))).
  { pose proof (h_import wdigest xkdigest (lserver be) _ _ (lserver (other be)) _ _ alice alice o2 k3 r3 None car vtoken 7%N (fst (limport be car)) (Ok tt)
      BEF SRC NM B1 (or_introl eq_refl) CAR) as H.
    unfold limported. cbn [v_world v_book]. rewrite IMP, B1. apply H. unfold limport in *.
    rewrite <- IMP. apply surjective_pairing. }
  assert (ACT : lhosts be (v_world (lactive be car)) (v_book (lactive be car))) by (apply vsteps_hosts; [exact IMD|exact X10]).
  constructor; auto.
  - exists o2, h2, k3, r3. auto 8.
  - intros h. split; [|split].
    + exists (s "token"). repeat split; discriminate.
    + destruct (dget alice (v_book (lbefore be))); [discriminate|reflexivity].
    + exists idoc, [1%N]. repeat split.
  - exists o7. auto.
  - exists o8, k9, r9. auto 8.
  - destruct (snd (lwrite be car)) as [[]|]; try discriminate. eauto.
  - cbn [lafter vstep v_outs] in X14. rewrite forallb_app in X14. apply andb_prop in X14 as [_ X14]. cbn [forallb] in X14.
    unfold on_request. cbn [lserver p_validate p_ecdsa p_now p_cb p_be p_netloc p_cfg].
    destruct (snd (vserve be (vput alice (s "c0") 3) (w_state (v_world (lactive be car))))) as [a|]; [eauto|discriminate].
  - apply vstep_hosts; auto.
  - exists o15, k16, r16. split; [exists alice; repeat split; auto|auto].
Qed.
