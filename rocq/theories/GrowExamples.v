(** alice's commits in the story of ServerExamples, and after the repo is created again. *)
From Coq Require Import String List NArith ZArith Bool Lia.
From Verif Require Import Base Lists Ipld MstModel StorageModel StorageSpec RepoSpec RepoExamples UriModel ServerModel ServerSpec MessageSpec MessageExamples ServerExamples RequestSpec RequestExamples GrowSpec.
Import ListNotations.

Notation vstays be := (stays wdigest xkdigest xvalidate xecdsa xnow xcb be vnetloc vcfg).
Definition creates (did : str) (c : vcall) : bool := match c with inl (SCreate d _ _ _ _) => str_eqb d did | _ => false end.

Lemma vstep_stays be did w bk x c : creates did c = false -> vstays be did w bk (v_world x) (v_book x) -> v_fine (vstep be x c) = true ->
  vstays be did w bk (v_world (vstep be x c)) (v_book (vstep be x c)).
Proof.
  intros NC S F. destruct c as [op|q]; cbn [vstep v_world v_book v_fine] in *.
  - apply andb_prop in F as [F C]. apply andb_prop in F as [F N]. eapply t_storage; eauto.
    + assert (FA : Forall op_named [op]) by (apply op_namedb_ok; cbn; rewrite N; reflexivity). inversion FA; auto.
    + intros _. apply clean_stepb_ok. exact C.
    + intros a b c d ->. cbn [creates] in NC. rewrite str_eqb_refl in NC. discriminate NC.
    + destruct (sstep _ _ _ _ _ _ _ _ _); reflexivity.
  - apply andb_prop in F as [F C]. eapply t_request; eauto.
    + intros _. apply Z.ltb_lt. exact C.
    + destruct (serve _ _ _ _ _ _ _ _ _ _); reflexivity.
Qed.
Lemma vrun_stays be did a b : existsb (creates did) b = false -> v_fine (vrun be (a ++ b)) = true ->
  vstays be did (v_world (vrun be a)) (v_book (vrun be a)) (v_world (vrun be (a ++ b))) (v_book (vrun be (a ++ b))).
Proof.
  unfold vrun. rewrite fold_left_app. generalize (fold_left (vstep be) a (VState init_world [] true [])) as x0. intros x0.
  assert (X : forall cs x, existsb (creates did) cs = false -> vstays be did (v_world x0) (v_book x0) (v_world x) (v_book x) -> v_fine (fold_left (vstep be) cs x) = true ->
    vstays be did (v_world x0) (v_book x0) (v_world (fold_left (vstep be) cs x)) (v_book (fold_left (vstep be) cs x))).
  { induction cs as [|c cs IH]; intros x NC G F; cbn [fold_left existsb] in *; [exact G|]. apply orb_false_elim in NC as [N1 N2].
    apply IH; [exact N2| |exact F]. apply vstep_stays; [exact N1|exact G|]. exact (vfine_all be cs _ F). }
  intros NC F. apply X; [exact NC|constructor|exact F].
Qed.

(** The numbers of the commits from a repo's head on. *)
Fixpoint numbers (n : nat) (st : state) (b : block) : list Z :=
  match n with
  | O => []
  | S n => b_seq b :: match item (s "prev") (b_val b) with Ok (ILink c) => match read st c with Some p => numbers n st p | None => [] end | _ => [] end
  end.
Definition vnumbers (be : backend) (cs : list vcall) : list Z :=
  let st := w_state (v_world (vrun be cs)) in
  match seen be st alice with Some o => match r_head o with Some h => numbers 20 st h | None => [] end | None => [] end.
Lemma vnumbers4 be : vnumbers be (firstn 4 vstory) = [10; 9; 1]%Z.
Proof. destruct be; vm_compute; reflexivity. Qed.
Lemma vnumbers_all be : vnumbers be vstory = [14; 13; 12; 11; 10; 9; 1]%Z.
Proof. destruct be; vm_compute; reflexivity. Qed.

(** The repo is created again. *)
Definition vanew : list vcall := [inl (SCreate alice (Some (s "al.ice")) None true 1)].
Lemma vanew_fine be : v_fine (vrun be (firstn 4 vstory ++ vanew)) = true.
Proof. destruct be; vm_compute; reflexivity. Qed.
Definition vhead (be : backend) (cs : list vcall) : option (repo * block) :=
  match seen be (w_state (v_world (vrun be cs))) alice with Some o => match r_head o with Some h => Some (o, h) | None => None end | None => None end.
Lemma vhead_some be cs o h : vhead be cs = Some (o, h) -> seen be (w_state (v_world (vrun be cs))) alice = Some o /\ r_head o = Some h.
Proof. unfold vhead. destruct (seen _ _ _) as [o'|]; [|discriminate]. destruct (r_head o') as [h'|] eqn:E; [|discriminate]. intros [= <- <-]. auto. Qed.
Definition vshape (be : backend) (cs : list vcall) : option (Z * bool) :=
  option_map (fun oh => (b_seq (snd oh), match item (s "prev") (b_val (snd oh)) with Ok INull => true | _ => false end)) (vhead be cs).
Lemma vshape4 be : vshape be (firstn 4 vstory) = Some (10%Z, false).
Proof. destruct be; vm_compute; reflexivity. Qed.
Lemma vshape_anew be : vshape be (firstn 4 vstory ++ vanew) = Some (11%Z, true).
Proof. destruct be; vm_compute; reflexivity. Qed.
Lemma not_descends st c h : item (s "prev") (b_val h) = Ok INull -> b_seq c <> b_seq h -> ~ descends st c h.
Proof. intros P N D. inversion D; subst; [apply N; reflexivity|]. congruence. Qed.

Lemma anew be : exists o1 h1 o h key recs, let x := vrun be (firstn 4 vstory) in let y := vrun be (firstn 4 vstory ++ vanew) in
  vserves be (v_world x) (v_book x) /\ vgoes be (v_world x) (v_book x) (v_world y) (v_book y) /\ dget alice (v_book x) = Some (key, recs) /\
  seen be (w_state (v_world x)) alice = Some o1 /\ r_head o1 = Some h1 /\ seen be (w_state (v_world y)) alice = Some o /\ r_head o = Some h /\
  ~ descends (w_state (v_world y)) h1 h.
Proof.
  pose proof (vshape4 be) as A. pose proof (vshape_anew be) as B. unfold vshape in A, B.
  destruct (vhead be (firstn 4 vstory)) as [[o1 h1]|] eqn:E1; [|discriminate A]. destruct (vhead be (firstn 4 vstory ++ vanew)) as [[o h]|] eqn:E2; [|discriminate B].
  cbn [option_map snd] in A, B. injection A as A1 A2. injection B as B1 B2.
  assert (BK : exists key recs, dget alice (v_book (vrun be (firstn 4 vstory))) = Some (key, recs)) by (destruct be; vm_compute; eauto).
  destruct BK as (key & recs & BK). exists o1, h1, o, h, key, recs. cbv zeta.
  apply vhead_some in E1 as [S1 H1]. apply vhead_some in E2 as [S2 H2].
  split; [apply vrun_serves, vfine4|]. split; [apply vrun_goes, vanew_fine|]. split; [exact BK|]. split; [exact S1|]. split; [exact H1|]. split; [exact S2|]. split; [exact H2|].
  apply not_descends; [|lia]. destruct (item (s "prev") (b_val h)) as [[]|]; try discriminate B2. reflexivity.
Qed.
