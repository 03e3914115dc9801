(** Concrete servers for the examples beside the theorems about XRPC methods. *)
From Coq Require Import String List NArith ZArith Bool Lia.
From Verif Require Import Base Lists Ipld MstModel BlockModel CarModel StorageModel StorageSpec RepoSpec RepoExamples MessageExamples
  UriModel ServerModel ServerSpec.
Import ListNotations.

Definition vcfg : config := Config (Some (s "token")) true [].
Definition vnetloc (x : str) : bool := true.
Definition vtoken : option str := Some (s "Bearer token").
Notation vserve be q := (serve wdigest xkdigest xvalidate xecdsa xcb be vnetloc vcfg q).
Notation vserves be := (serves wdigest xkdigest xvalidate xecdsa xnow xcb be vnetloc vcfg).

(** Uses of the storage and requests in turn; whether they are in order; the outcomes of the requests. *)
Definition vcall := (sop + request)%type.
Record vstate := VState { v_world : world; v_book : book; v_fine : bool; v_outs : list (res answer) }.
Definition vstep (be : backend) (x : vstate) (c : vcall) : vstate :=
  match c with
  | inl op =>
      let y := sstep wdigest xkdigest xvalidate xecdsa xnow xcb be (v_world x) op in
      VState (fst y) (book_step (v_book x) op (snd y)) (v_fine x && op_namedb op && clean_stepb (v_world x) op (snd y)) (v_outs x)
  | inr q =>
      let y := vserve be q (w_state (v_world x)) in
      VState (World (fst y) (w_refs (v_world x))) (request_book be vnetloc (w_state (v_world x)) (v_book x) q (snd y))
        (v_fine x && (s_next (w_state (v_world x)) <? 2 ^ 55)%Z) (v_outs x ++ [snd y])
  end.
Definition vrun (be : backend) (cs : list vcall) : vstate := fold_left (vstep be) cs (VState init_world [] true []).

Lemma vstep_serves be x c : vserves be (v_world x) (v_book x) -> v_fine (vstep be x c) = true ->
  vserves be (v_world (vstep be x c)) (v_book (vstep be x c)) /\ v_fine x = true.
Proof.
  intros S F. destruct c as [op|q]; cbn [vstep v_world v_book v_fine] in *.
  - apply andb_prop in F as [F C]. apply andb_prop in F as [F N]. split; auto. eapply sv_storage; eauto.
    + assert (FA : Forall op_named [op]) by (apply op_namedb_ok; cbn; rewrite N; reflexivity). inversion FA; auto.
    + intros _. apply clean_stepb_ok. exact C.
    + destruct (sstep _ _ _ _ _ _ _ _ _); reflexivity.
  - apply andb_prop in F as [F C]. split; auto. eapply sv_request; eauto.
    + intros _. apply Z.ltb_lt. exact C.
    + destruct (serve _ _ _ _ _ _ _ _ _ _); reflexivity.
Qed.

Lemma vrun_serves be cs : v_fine (vrun be cs) = true -> vserves be (v_world (vrun be cs)) (v_book (vrun be cs)).
Proof.
  unfold vrun.
  assert (K : forall cs x, v_fine (fold_left (vstep be) cs x) = true -> v_fine x = true).
  { clear cs. induction cs as [|c cs IH]; intros x H; cbn [fold_left] in H; auto. apply IH in H. destruct c; cbn [vstep v_fine] in H; apply andb_prop in H as [H _]; [apply andb_prop in H as [H _]|]; auto. }
  assert (X : forall cs x, vserves be (v_world x) (v_book x) -> v_fine (fold_left (vstep be) cs x) = true ->
     vserves be (v_world (fold_left (vstep be) cs x)) (v_book (fold_left (vstep be) cs x))).
  { clear cs. induction cs as [|c cs IH]; intros x S H; cbn [fold_left] in *; auto. apply IH; auto.
    apply vstep_serves; auto. exact (K _ _ H). }
  apply X. constructor.
Qed.

Definition vput (repo rkey : str) (n : Z) : request := RPut vtoken (Input (Some repo) (Some (s "app.post")) (Some rkey) (Some (post n)) false).
Definition vdel (repo rkey : str) : request := RDelete vtoken (Input (Some repo) (Some (s "app.post")) (Some rkey) None false).
Definition vget (repo rkey : str) : request := RGet (Some repo) (Some (s "app.post")) (Some rkey) None.

(** Two repos; records created, replaced and deleted under several names of a repo; a wrong token; a
    repo that is deactivated. *)
Definition vstory : list vcall :=
  [inl (SCreate alice (Some (s "al.ice")) None true 1); inl (SCreate bob None None false 2);
   inr (RCreate vtoken (Input (Some (s "al.ice")) (Some (s "app.post")) None (Some (post 1)) false) (s "k0"));
   inr (vput alice (s "k1") 2);
   inr (vput (s "at://did:plc:alice/x/y") (s "k1") 3);
   inr (RPut (Some (s "Bearer wrong")) (Input (Some alice) (Some (s "app.post")) (Some (s "k9")) (Some (post 2)) false));
   inr (vput alice (s "k2") 4); inr (vput alice (s "k3") 5);
   inr (vdel alice (s "k0")); inr (vdel alice (s "k0")); inr (vget alice (s "k0")); inr (vget alice (s "k1"));
   inl (SDeactivate 1); inr (vput bob (s "k0") 1)].
Definition vend (be : backend) : world := v_world (vrun be vstory).
Notation vst be := (w_state (vend be)).
Definition vbook : book :=
  [(alice, (1%N, [(s "app.post/k1", post 3); (s "app.post/k2", post 4); (s "app.post/k3", post 5)])); (bob, (2%N, []))].

Lemma vstory_serves be : vserves be (vend be) vbook.
Proof.
  assert (X : v_book (vrun be vstory) = vbook) by (destruct be; vm_compute; reflexivity). rewrite <- X.
  apply vrun_serves. destruct be; vm_compute; reflexivity.
Qed.
Definition voutcome (x : res answer) : option exn := match x with Ok _ => None | Err e => Some e end.
Lemma vstory_outs be : map voutcome (v_outs (vrun be vstory)) =
  [None; None; None; Some ValueError; None; None; None; None; Some (XrpcError (s "RecordNotFound")); None; Some (XrpcError (s "RepoDeactivated"))].
Proof. destruct be; vm_compute; reflexivity. Qed.

(** Names for the repos. *)
Definition named_repo (be : backend) (x did : str) (status : option str) : bool :=
  match repo_name vnetloc x with
  | Ok y => match seen be (vst be) y with
            | Some o => match repo_did o with Ok (Some d) => str_eqb d did | _ => false end &&
                        match r_status o, status with Some a, Some b => str_eqb a b | None, None => true | _, _ => false end
            | None => false
            end
  | Err _ => false
  end.
Lemma named_repo_ok be x did status : named_repo be x did status = true -> exists o, names be vnetloc (vst be) x did o /\ r_status o = status.
Proof.
  unfold named_repo, names. destruct (repo_name vnetloc x) as [y|]; [|discriminate]. destruct (seen be (vst be) y) as [o|] eqn:E; [|discriminate].
  destruct (repo_did o) as [[d|]|] eqn:D; try discriminate. intros H. apply andb_prop in H as [A B]. apply str_eqb_eq in A. subst d.
  exists o. split; [exists y; auto|]. destruct (r_status o), status; try discriminate; auto. apply str_eqb_eq in B. congruence.
Qed.
Lemma vnames be : exists o, names be vnetloc (vst be) (s "al.ice") alice o /\ r_status o = None.
Proof. apply named_repo_ok. destruct be; vm_compute; reflexivity. Qed.
Lemma vnames_bob be : exists o, names be vnetloc (vst be) bob bob o /\ r_status o = Some (s "deactivated").
Proof. apply named_repo_ok. destruct be; vm_compute; reflexivity. Qed.

(** ** Refutations *)

(** Without flask. *)
Lemma c38_flask : exists digest kdigest validate ecdsa now cb netloc_ok cfg, setting digest kdigest validate cb /\ forall be, exists w bk m st',
  serves digest kdigest validate ecdsa now cb be netloc_ok cfg w bk /\
  mutate digest kdigest validate ecdsa cb be netloc_ok cfg m (w_state w) = (st', Ok tt) /\ st' <> w_state w /\
  header_of m = Some None /\ ~ has_token cfg None.
Proof.
  exists wdigest, xkdigest, xvalidate, xecdsa, xnow, xcb, vnetloc, (Config (Some (s "token")) false []). split; [exact wsetting|]. intros be.
  set (cfg := Config _ _ _). set (op := SCreate alice None None false 1).
  set (w := fst (sstep wdigest xkdigest xvalidate xecdsa xnow xcb be init_world op)).
  set (out := snd (sstep wdigest xkdigest xvalidate xecdsa xnow xcb be init_world op)).
  set (m := XRecord (RPut None (Input (Some alice) (Some (s "app.post")) (Some (s "k0")) (Some (post 1)) false))).
  exists w, (book_step [] op out), m, (fst (mutate wdigest xkdigest xvalidate xecdsa xcb be vnetloc cfg m (w_state w))).
  split; [|split; [|split; [|split]]].
  - eapply sv_storage; [constructor| | |].
    + split; [reflexivity|exact Logic.I].
    + intros _. exact Logic.I.
    + unfold w, out. destruct (sstep _ _ _ _ _ _ _ _ _); reflexivity.
  - assert (X : snd (mutate wdigest xkdigest xvalidate xecdsa xcb be vnetloc cfg m (w_state w)) = Ok tt) by (destruct be; vm_compute; reflexivity).
    rewrite <- X. destruct (mutate _ _ _ _ _ _ _ _ _ _); reflexivity.
  - intros E. apply (f_equal s_next) in E. revert E. destruct be; vm_compute; discriminate.
  - reflexivity.
  - intros (t & _ & _ & H). discriminate.
Qed.

(** A request for a CID. *)
Lemma c39_cid : exists digest kdigest validate ecdsa now cb netloc_ok cfg, setting digest kdigest validate cb /\ forall be, exists w bk did key recs coll rkey,
  serves digest kdigest validate ecdsa now cb be netloc_ok cfg w bk /\ dget did bk = Some (key, recs) /\ dget (record_path coll rkey) recs <> None /\
  (exists a, snd (serve digest kdigest validate ecdsa cb be netloc_ok cfg (RGet (Some did) (Some coll) (Some rkey) None) (w_state w)) = Ok a) /\
  forall c, c <> [] ->
    snd (serve digest kdigest validate ecdsa cb be netloc_ok cfg (RGet (Some did) (Some coll) (Some rkey) (Some c)) (w_state w)) = Err ValueError.
Proof.
  exists wdigest, xkdigest, xvalidate, xecdsa, xnow, xcb, vnetloc, vcfg. split; [exact wsetting|]. intros be.
  exists (vend be), vbook, alice, 1%N, [(s "app.post/k1", post 3); (s "app.post/k2", post 4); (s "app.post/k3", post 5)], (s "app.post"), (s "k1").
  split; [exact (vstory_serves be)|]. split; [reflexivity|]. split; [discriminate|]. split.
  - assert (X : match snd (vserve be (vget alice (s "k1")) (vst be)) with Ok _ => true | Err _ => false end = true) by (destruct be; vm_compute; reflexivity).
    unfold vget in X. destruct (snd (vserve be (RGet _ _ _ _) (vst be))); [eauto|discriminate].
  - intros c NE. destruct c as [|x c]; [congruence|]. reflexivity.
Qed.
