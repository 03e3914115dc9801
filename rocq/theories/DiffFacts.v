(** Facts behind the theorems about diffs. *)
From Coq Require Import String List NArith ZArith Bool Lia.
From Verif Require Import Base Lists Ipld IpldProofs MstModel MstTree MstTreeProofs MstRep MstTrav MstClient MstSpec
  MstHist MstFacts DiffModel DiffSpec DiffProofs.
Import ListNotations.

(** ** Nodes of a tree are all different *)

Section Nodes.
Variable digest : list N -> list N.
Variable kdigest : str -> list N.
Notation wf := (wf kdigest).
Notation tcid := (tcid digest).

Lemma nodes_subtree t : forall x, In x (nodes_of t) <-> subtree x t.
Proof.
  induction t as [es IH] using tree_ind'. intros x. cbn [nodes_of In]. rewrite in_flat_map. split.
  - intros [<-|([k v|t'] & HI & HX)]; [constructor|contradiction|]. apply IH in HX; auto. econstructor; eauto.
  - intros H. inversion H as [|? t' ? HI HS]; subst; auto. right. exists (TSub t'). split; auto. apply IH; auto.
Qed.

Lemma subtree_size x t : subtree x t -> length (nodes_of x) <= length (nodes_of t).
Proof.
  induction 1 as [|x t es HI _ IH]; auto. cbn [nodes_of length]. apply in_split in HI as (a & b & ->).
  rewrite flat_map_app, app_length. cbn [flat_map]. rewrite app_length. lia.
Qed.

Lemma subtree_leaves x t : subtree x t -> incl (keys (leaves x)) (keys (leaves t)).
Proof.
  induction 1 as [|x t es HI _ IH]; [apply incl_refl|]. intros k A. apply IH in A.
  change (leaves (Node es)) with (L es). apply in_map_iff in A as ((k' & v) & E & A). apply in_map_iff. exists (k', v). split; auto.
  unfold L. apply in_flat_map. exists (TSub t). auto.
Qed.

Lemma subtree_nonempty x t : subtree x t -> forall n, wf n t -> t <> Node [] -> x <> Node [].
Proof.
  induction 1 as [|x t es HI _ IH]; intros n W NE; auto. apply wf_node in W as [_ F]. rewrite Forall_forall in F.
  specialize (F _ HI). destruct n as [|n]; [contradiction|]. destruct F as [WT NT]. exact (IH n WT NT).
Qed.

Notation below es := (flat_map (fun e => match e with TLeaf _ _ => [] | TSub t' => nodes_of t' end) es).

Lemma below_nodup n es : Forall (wfE kdigest n) es -> NoDup (keys (L es)) ->
  (forall t, In (TSub t) es -> NoDup (nodes_of t)) -> NoDup (below es).
Proof.
  induction es as [|e es IH]; intros W ND H; cbn [flat_map]; [constructor|].
  inversion W as [|? ? WE W']; subst. change (L (e :: es)) with (eleaves e ++ L es) in ND. rewrite keys_app in ND.
  specialize (IH W' (NoDup_app_remove_l _ _ ND) (fun t A => H t (or_intror A))).
  destruct e as [k v|t]; [exact IH|].
  assert (X : forall x, In x (nodes_of t) -> In x (below es) -> False).
  { intros x A B. apply nodes_subtree in A. apply in_flat_map in B as ([k v|t'] & B1 & B2); [contradiction|]. apply nodes_subtree in B2.
    destruct n as [|n]; [contradiction|]. destruct WE as [WT NE].
    destruct (wf_subtree kdigest x t A n WT) as (m & _ & WX).
    pose proof (wf_nonempty kdigest m x WX (subtree_nonempty x t A n WT NE)) as NX.
    destruct (leaves x) as [|[k v] r] eqn:LX; [congruence|].
    assert (KX : In k (keys (leaves x))) by (rewrite LX; left; reflexivity).
    apply (NoDup_app_disjoint _ _ k ND).
    - exact (subtree_leaves x t A k KX).
    - apply (subtree_leaves x t' B2) in KX. apply in_map_iff in KX as ((k' & v') & E & KX). apply in_map_iff. exists (k', v'). split; auto.
      unfold L. apply in_flat_map. exists (TSub t'). auto. }
  pose proof (H t (or_introl eq_refl)) as NT. clear - NT IH X. induction (nodes_of t) as [|y l IHl]; [exact IH|].
  inversion NT; subst. cbn [app]. constructor.
  - intros A. apply in_app_or in A as [A|A]; [auto|]. exact (X y (or_introl eq_refl) A).
  - apply IHl; auto. intros x A. apply X. right. exact A.
Qed.

Lemma nodes_nodup t : forall n, wf n t -> NoDup (keys (leaves t)) -> NoDup (nodes_of t).
Proof.
  induction t as [es IH] using tree_ind'. intros n W ND. apply wf_node in W as [_ F]. cbn [nodes_of]. constructor.
  - intros A. apply in_flat_map in A as ([k v|t'] & A & B); [contradiction|]. apply nodes_subtree in B. apply subtree_size in B.
    cbn [nodes_of length] in B. apply in_split in A as (a & b & ->). rewrite flat_map_app, app_length in B. cbn [flat_map] in B.
    rewrite app_length in B. lia.
  - apply (below_nodup n); auto. intros t HI. rewrite Forall_forall in F. pose proof (F _ HI) as WE.
    destruct n as [|n]; [contradiction|]. destruct WE as [WT _]. eapply IH; eauto.
    change (leaves (Node es)) with (L es) in ND. clear - HI ND. induction es as [|e es IH]; [contradiction|].
    change (L (e :: es)) with (eleaves e ++ L es) in ND. rewrite keys_app in ND. destruct HI as [->|HI].
    + clear IH. cbn [eleaves] in ND. induction (keys (leaves t)) as [|x l IHl]; [constructor|]. cbn [app] in ND.
      inversion ND; subst. constructor; auto. intros A. match goal with H : ~ In _ (_ ++ _) |- _ => apply H, in_or_app; auto end.
    + apply IH; auto. eapply NoDup_app_remove_l; eauto.
Qed.

Lemma nodup_map_in {A B} (f : A -> B) l : NoDup l -> (forall x y, In x l -> In y l -> f x = f y -> x = y) -> NoDup (map f l).
Proof.
  induction 1 as [|x l NI ND IH]; intros I; cbn; constructor.
  - intros A1. apply in_map_iff in A1 as (y & E & HY). apply I in E; cbn; auto. subst. auto.
  - apply IH. intros y z HY HZ. apply I; cbn; auto.
Qed.

Lemma node_cids_nodup t n : collision_free digest -> wf n t -> sorted_tree t -> NoDup (NC digest [TSub t]).
Proof.
  intros inj W S. unfold NC. cbn [flat_map ncids]. rewrite app_nil_r. apply nodup_map_in.
  - eapply nodes_nodup; eauto. apply ssorted_NoDup. exact S.
  - intros x y HX HY E. apply nodes_subtree in HX, HY.
    destruct (wf_subtree kdigest x t HX n W) as (nx & _ & WX). destruct (wf_subtree kdigest y t HY n W) as (ny & _ & WY).
    exact (tcid_inj digest kdigest inj nx x ny y WX WY E).
Qed.

Lemma NC_node t c : In c (NC digest [TSub t]) <-> node_cid digest t c.
Proof.
  unfold NC, node_cid. cbn [flat_map ncids]. rewrite app_nil_r, in_map_iff. split.
  - intros (x & <- & H). apply nodes_subtree in H. eauto.
  - intros (x & H & ->). apply nodes_subtree in H. eauto.
Qed.

(** ** mst_diff *)

Lemma L_single t : L [TSub t] = leaves t.
Proof. unfold L. cbn [flat_map eleaves]. apply app_nil_r. Qed.

Lemma dicts_loop rdl rdr hint fuel : forall l r d d', diff_loop digest kdigest rdl rdr hint fuel l r d = Ok d' -> dicts d -> dicts d'.
Proof.
  assert (D1 : forall d k c, dicts d -> dicts (record_add d k c)).
  { intros d k c (A & B & C). unfold dicts. cbn. splits; auto. apply dset_NoDup; auto. }
  assert (D2 : forall d k p c, dicts d -> dicts (record_update d k p c)).
  { intros d k p c (A & B & C). unfold dicts. cbn. splits; auto. apply dset_NoDup; auto. }
  assert (D3 : forall d k c, dicts d -> dicts (record_delete d k c)).
  { intros d k c (A & B & C). unfold dicts. cbn. splits; auto. apply dset_NoDup; auto. }
  assert (D4 : forall d c, dicts d -> dicts (record_new_cid d c)) by (intros d c; unfold record_new_cid; destruct (set_in _ _); auto).
  assert (D5 : forall d c, dicts d -> dicts (record_removed_cid d c)) by (intros d c; unfold record_removed_cid; destruct (set_in _ _); auto).
  assert (D6 : forall d e d', log_new digest d e = Ok d' -> dicts d -> dicts d').
  { intros d [k v|m] d' E D; cbn [log_new] in E; [injection E as <-; auto|].
    destruct (get_pointer digest m); cbn [bind] in E; [injection E as <-; auto|discriminate]. }
  assert (D7 : forall d e d', log_removed digest d e = Ok d' -> dicts d -> dicts d').
  { intros d [k v|m] d' E D; cbn [log_removed] in E; [injection E as <-; auto|].
    destruct (get_pointer digest m); cbn [bind] in E; [injection E as <-; auto|discriminate]. }
  induction fuel as [|f IH]; intros l r d d' E D; cbn [diff_loop] in E; [discriminate|].
  repeat match type of E with
  | bind ?x _ = _ => destruct x eqn:?; cbn [bind] in E; [|discriminate E]
  | match ?x with _ => _ end = _ => destruct x eqn:?
  | (if ?x then _ else _) = _ => destruct x eqn:?
  end; try discriminate; try (injection E as <-; auto); try (eapply IH; [exact E|]; eauto; match goal with |- context [if ?x then _ else _] => destruct x; auto end).
Qed.

Lemma mst_diff_ok rdl rdr hint n1 m1 t1 n2 m2 t2 : collision_free digest ->
  rep digest rdl n1 m1 t1 -> wf n1 t1 -> sorted_tree t1 -> rep digest rdr n2 m2 t2 -> wf n2 t2 -> sorted_tree t2 ->
  forall fuel, length (leaves t1) + length (nodes_of t1) + length (leaves t2) + length (nodes_of t2) < fuel ->
  exists d, mst_diff digest kdigest rdl rdr hint fuel m2 (Some m1) = Ok d /\ dicts d /\ exact_diff (leaves t1) (leaves t2) d /\
    (forall c, In c (df_removed d) -> node_cid digest t1 c /\ ~ node_cid digest t2 c) /\
    (forall c, ~ node_cid digest t1 c -> (In c (df_new d) <-> node_cid digest t2 c \/
       exists k, dget k (leaves t2) = Some c /\ dget k (leaves t1) <> Some c)) /\
    ((forall k c, dget k (leaves t2) = Some c -> ~ node_cid digest t1 c /\ ~ node_cid digest t2 c) -> forall c,
      (In c (df_new d) <-> (node_cid digest t2 c /\ ~ node_cid digest t1 c) \/
       exists k, dget k (leaves t2) = Some c /\ dget k (leaves t1) <> Some c) /\
      (In c (df_removed d) <-> node_cid digest t1 c /\ ~ node_cid digest t2 c)).
Proof.
  intros inj R1 W1 S1 R2 W2 S2 fuel FU. unfold mst_diff.
  rewrite (get_pointer_ok digest kdigest rdr n2 m2 t2 R2 W2). cbn [bind].
  rewrite (get_pointer_ok digest kdigest rdl n1 m1 t1 R1 W1). cbn [bind].
  destruct (diff_loop_ok digest kdigest inj rdl rdr hint fuel (walker_of m1) (walker_of m2) empty_diff [TSub t1] [TSub t2])
    as (d & E & [[K X] Y]); rewrite ?L_single; auto.
  - econstructor; eauto.
  - econstructor; eauto.
  - unfold weight, NC. rewrite !L_single. cbn [flat_map ncids]. rewrite !app_nil_r, !map_length. lia.
  - exists d. split; [exact E|]. split.
    { eapply dicts_loop; eauto. unfold dicts. cbn. splits; constructor. }
    pose proof (node_cids_nodup t1 n1 inj W1 S1) as N1. pose proof (node_cids_nodup t2 n2 inj W2 S2) as N2.
    assert (FV : forall c, fresh_value [TSub t1] [TSub t2] c <-> exists k, dget k (leaves t2) = Some c /\ dget k (leaves t1) <> Some c)
      by (intros c; unfold fresh_value; rewrite !L_single; tauto).
    assert (WP : weak_pre digest [TSub t1] [TSub t2] empty_diff) by (split; [auto|split; [auto|intros c []]]).
    specialize (Y WP). unfold weak_res in Y.
    split; [|split; [|split]].
    + intros k. specialize (K k). rewrite !L_single in K. exact K.
    + intros c A. destruct (Y c) as [_ Y2]. apply Y2 in A as [[[] _]|(A & B & _)]. rewrite NC_node in A, B. auto.
    + intros c A. destruct (Y c) as [Y1 _]. rewrite FV, !NC_node in Y1. rewrite (Y1 A). cbn [empty_diff df_new df_removed In]. tauto.
    + intros P c. assert (SP : sets_pre digest [TSub t1] [TSub t2] empty_diff).
      { split; [auto|split; [auto|split; [intros ? []|split; [intros ? []|]]]]. intros k x A. rewrite L_single in A.
        rewrite !NC_node. exact (P k x A). }
      specialize (X SP c). rewrite FV, !NC_node in X. cbn [empty_diff df_new df_removed In] in X. tauto.
Qed.

(** ** null_diff *)

(** A tree in the order of [walk]. *)
Fixpoint preorder (t : tree) : list tentry :=
  match t with
  | Node es => TSub (Node es) :: flat_map (fun e => match e with TLeaf k v => [TLeaf k v] | TSub t' => preorder t' end) es
  end.
Definition epre (e : tentry) : list tentry := match e with TLeaf k v => [TLeaf k v] | TSub t' => preorder t' end.

Definition walked (e : entry) (te : tentry) : Prop :=
  match e, te with
  | Leaf k v, TLeaf k' v' => k = k' /\ v = v'
  | Sub m, TSub t => get_pointer digest m = Ok (tcid t)
  | _, _ => False
  end.

Lemma walk_pre rd n : forall fuel m t, n < fuel -> rep digest rd n m t -> wf n t ->
  exists w, walk kdigest rd fuel m = Ok w /\ Forall2 walked w (preorder t).
Proof.
  induction n as [n IH] using lt_wf_ind. intros fuel m [tes] Hf R W.
  destruct fuel as [|f]; [lia|]. cbn [walk].
  destruct (get_entries_ok _ _ _ _ _ _ R W) as (es & Hes & HF). rewrite Hes. cbn [bind].
  pose proof (get_pointer_ok _ _ _ _ _ _ R W) as GP.
  apply wf_node in W as [_ F].
  set (go := fix go (es0 : list entry) : res (list entry) :=
           match es0 with
           | [] => Ok []
           | Leaf k v :: r => do r' <- go r; Ok (Leaf k v :: r')
           | Sub m' :: r => do a <- walk kdigest rd f m'; do r' <- go r; Ok (a ++ r')
           end).
  change (exists w : list entry, (do sub <- go es; Ok (Sub m :: sub)) = Ok w /\ Forall2 walked w (TSub (Node tes) :: flat_map epre tes)).
  assert (X : exists w, go es = Ok w /\ Forall2 walked w (flat_map epre tes)).
  { clear Hes R GP. induction HF as [|e te es tes He HF IHF].
    - exists []. split; auto. constructor.
    - inversion F as [|? ? W1 F']; subst. destruct (IHF F') as (w & E & EL).
      destruct e as [k v|m'], te as [k' v'|t']; simpl in He; try tauto.
      + destruct He; subst. exists (Leaf k' v' :: w). split.
        * change (go (Leaf k' v' :: es)) with (do r' <- go es; Ok (Leaf k' v' :: r')). rewrite E. auto.
        * cbn [flat_map epre app]. constructor; auto. cbn. auto.
      + destruct n as [|n]; [tauto|]. destruct W1 as [W1 _].
        destruct (IH n ltac:(lia) f m' t' ltac:(lia) He W1) as (w1 & E1 & EL1).
        exists (w1 ++ w). split.
        { change (go (Sub m' :: es)) with (do a <- walk kdigest rd f m'; do r' <- go es; Ok (a ++ r')).
          rewrite E1. cbn [bind]. rewrite E. auto. }
        cbn [flat_map epre]. apply Forall2_app; auto. }
  destruct X as (w & -> & EL). cbn [bind]. eexists; split; [reflexivity|]. constructor; auto.
Qed.

Lemma null_loop_ok k : forall fr w d, weight digest fr < k -> Forall2 walked w (flat_map epre fr) -> ssorted (keys (L fr)) ->
  exists d', null_loop digest w d = Ok d' /\ res_ok digest [] fr d d'.
Proof.
  induction k as [|k IH]; intros fr w d WT F S; [lia|]. destruct fr as [|[x v|[tes]] fr].
  - inversion F; subst. exists d. split; auto. apply res_done; auto.
  - cbn [flat_map epre app] in F. inversion F as [|e te w' fr' HE F']; subst. destruct e as [k' v'|]; [|contradiction].
    destruct HE as [-> ->]. cbn [null_loop log_new bind]. apply sorted_leaf in S as [S A].
    rewrite weight_leaf in WT.
    destruct (IH fr w' (record_add d x v) ltac:(lia) F' S) as (d' & E & RO).
    exists d'. split; auto. apply res_add; auto; apply above_None; auto.
  - cbn [flat_map epre preorder app] in F. inversion F as [|e te w' fr' HE F']; subst. destruct e as [|m]; [contradiction|].
    cbn [walked] in HE. cbn [null_loop log_new]. rewrite HE. cbn [bind]. rewrite L_into in S. rewrite weight_into in WT.
    destruct (IH (tes ++ fr) w' (record_new_cid d (tcid (Node tes))) ltac:(lia)) as (d' & E & RO); auto.
    { rewrite flat_map_app. exact F'. }
    exists d'. split; auto. apply res_into_r; auto.
Qed.

Lemma dicts_null w : forall d d', null_loop digest w d = Ok d' -> dicts d -> dicts d'.
Proof.
  induction w as [|[k v|m] w IH]; intros d d' E D; cbn [null_loop log_new] in E.
  - injection E as <-. exact D.
  - cbn [bind] in E. apply IH in E; auto. destruct D as (A & B & C). unfold dicts. cbn. splits; auto. apply dset_NoDup; auto.
  - destruct (get_pointer digest m); cbn [bind] in E; [|discriminate]. apply IH in E; auto.
    unfold record_new_cid. destruct (set_in _ _); auto.
Qed.

Lemma null_diff_ok rdl rdr hint n m t : collision_free digest ->
  rep digest rdr n m t -> wf n t -> sorted_tree t -> forall fuel, n < fuel ->
  exists d, mst_diff digest kdigest rdl rdr hint fuel m None = Ok d /\ dicts d /\ exact_diff [] (leaves t) d /\
    df_removed d = [] /\
    forall c, In c (df_new d) <-> node_cid digest t c \/ exists k, dget k (leaves t) = Some c.
Proof.
  intros inj R W S fuel FU. unfold mst_diff, null_diff. rewrite (get_pointer_ok digest kdigest rdr n m t R W). cbn [bind].
  destruct (walk_pre rdr n fuel m t FU R W) as (w & -> & F). cbn [bind].
  destruct (null_loop_ok (1 + weight digest [TSub t]) [TSub t] w empty_diff) as (d & E & [[K X] Y]); auto.
  { cbn [flat_map epre]. rewrite app_nil_r. exact F. }
  { rewrite L_single. exact S. }
  assert (WP : weak_pre digest [] [TSub t] empty_diff).
  { split; [constructor|split; [|intros c []]]. eapply node_cids_nodup; eauto. }
  specialize (Y WP). exists d. split; [exact E|]. split; [eapply dicts_null; eauto; unfold dicts; cbn; splits; constructor|].
  split; [|split].
  - intros k. specialize (K k). rewrite !L_single in K. exact K.
  - destruct (df_removed d) as [|c r] eqn:ER; auto. exfalso. destruct (Y c) as [_ Y2]. rewrite ER in Y2.
    destruct (Y2 (or_introl eq_refl)) as [[[] _]|[[] _]].
  - intros c. destruct (Y c) as [Y1 _]. rewrite NC_node in Y1. rewrite Y1 by (intros []). cbn [empty_diff df_new df_removed In].
    assert (FV : fresh_value [] [TSub t] c <-> exists k, dget k (leaves t) = Some c).
    { unfold fresh_value. rewrite L_single. split; intros (k & A); exists k; [tauto|]. split; auto. cbn. discriminate. }
    rewrite FV. tauto.
Qed.

End Nodes.

(** ** add_diff *)

Definition vw : Type := option change * option change * option change.
Definition view (k : str) (d : diff) : vw := (dget k (df_adds d), dget k (df_updates d), dget k (df_deletes d)).

Definition vadd (k : str) (a : change) (v : vw) : vw :=
  let '(A, U, D) := v in
  match D with
  | Some x => (A, if str_eqb (ch_cid x) (ch_cid a) then U else Some (Change k (ch_cid a) (Some (ch_cid x))), None)
  | None => (Some (Change k (ch_cid a) None), U, None)
  end.
Definition vupd (k : str) (u : change) (v : vw) : vw :=
  (None, Some (Change k (ch_cid u) (ch_prev u)), None).
Definition vdel (k : str) (x : change) (v : vw) : vw :=
  let '(A, U, D) := v in
  match A with Some _ => (None, U, D) | None => (None, None, Some (Change k (ch_cid x) None)) end.

Lemma str_eqb_sym a b : str_eqb a b = str_eqb b a.
Proof. destruct (str_eqb a b) eqn:E; destruct (str_eqb b a) eqn:F; auto; [apply str_eqb_eq in E|apply str_eqb_eq in F]; subst; rewrite str_eqb_refl in *; congruence. Qed.

Lemma merge_add_view d a k : dicts d -> dicts (merge_add d a) /\
  view k (merge_add d a) = if str_eqb k (ch_key a) then vadd k a (view k d) else view k d.
Proof.
  intros (A & B & C). unfold merge_add, view. destruct (dget (ch_key a) (df_deletes d)) as [x|] eqn:E.
  - split.
    + unfold dicts, pop_delete. destruct (str_eqb _ _); cbn; splits; repeat first [assumption|apply dset_NoDup|apply ddel_NoDup].
    + destruct (str_eqb k (ch_key a)) eqn:K.
      * apply str_eqb_eq in K. subst k. unfold vadd. rewrite E.
        destruct (str_eqb (ch_cid x) (ch_cid a)); cbn; rewrite ?dget_dset, ?dget_ddel, ?str_eqb_refl by auto; reflexivity.
      * destruct (str_eqb (ch_cid x) (ch_cid a)); cbn; rewrite ?dget_dset, ?dget_ddel, ?K by auto; reflexivity.
  - split.
    + unfold dicts. cbn. splits; repeat first [assumption|apply dset_NoDup|apply ddel_NoDup].
    + cbn. rewrite dget_dset. destruct (str_eqb k (ch_key a)) eqn:K; [|reflexivity].
      apply str_eqb_eq in K. subst k. unfold vadd. rewrite E. reflexivity.
Qed.

Lemma merge_update_view d u k : dicts d -> dicts (merge_update d u) /\
  view k (merge_update d u) = if str_eqb k (ch_key u) then vupd k u (view k d) else view k d.
Proof.
  intros (A & B & C). unfold merge_update, view, pop_add, pop_delete. cbn. split.
  - unfold dicts. cbn. splits; repeat first [assumption|apply dset_NoDup|apply ddel_NoDup].
  - rewrite dget_dset, !dget_ddel by auto. destruct (str_eqb k (ch_key u)) eqn:K; [|reflexivity].
    apply str_eqb_eq in K. subst k. reflexivity.
Qed.

Lemma merge_delete_view d x k : dicts d -> dicts (merge_delete d x) /\
  view k (merge_delete d x) = if str_eqb k (ch_key x) then vdel k x (view k d) else view k d.
Proof.
  intros (A & B & C). unfold merge_delete, view, pop_add. destruct (dget (ch_key x) (df_adds d)) as [y|] eqn:E.
  - split.
    + unfold dicts. cbn. splits; repeat first [assumption|apply dset_NoDup|apply ddel_NoDup].
    + cbn. rewrite dget_ddel by auto. destruct (str_eqb k (ch_key x)) eqn:K; [|reflexivity].
      apply str_eqb_eq in K. subst k. unfold vdel. rewrite E. reflexivity.
  - split.
    + unfold dicts. cbn. splits; repeat first [assumption|apply dset_NoDup|apply ddel_NoDup].
    + cbn. rewrite dget_dset, dget_ddel by auto. destruct (str_eqb k (ch_key x)) eqn:K; [|reflexivity].
      apply str_eqb_eq in K. subst k. unfold vdel. rewrite E. reflexivity.
Qed.

(** Changes listed under their own keys. *)
Definition named (cs : list (str * change)) : Prop := forall k c, In (k, c) cs -> ch_key c = k.

Lemma fold_view (f : diff -> change -> diff) (g : str -> change -> vw -> vw) :
  (forall d a k, dicts d -> dicts (f d a) /\ view k (f d a) = if str_eqb k (ch_key a) then g k a (view k d) else view k d) ->
  forall cs k, NoDup (keys cs) -> named cs -> forall d, dicts d -> dicts (fold_left f (map snd cs) d) /\
  view k (fold_left f (map snd cs) d) = match dget k cs with Some a => g k a (view k d) | None => view k d end.
Proof.
  intros H. induction cs as [|[x a] cs IH]; intros k ND NM d D; [auto|].
  inversion ND as [|? ? NI ND']; subst. cbn [map snd fold_left dget].
  assert (KX : ch_key a = x) by (apply NM; left; reflexivity).
  destruct (H d a k D) as [D1 V1].
  destruct (IH k ND' (fun k c A => NM k c (or_intror A)) (f d a) D1) as [D2 V2]. split; auto.
  rewrite V2, V1, KX. destruct (str_eqb k x) eqn:E; [|reflexivity].
  apply str_eqb_eq in E. subst k. rewrite (proj2 (dget_None x cs) NI). reflexivity.
Qed.

Lemma exact_named a b d : exact_diff a b d -> dicts d -> named (df_adds d) /\ named (df_updates d) /\ named (df_deletes d).
Proof.
  intros X (D1 & D2 & D3). unfold named. splits; intros k c HI; apply In_dget in HI; auto; destruct (X k) as (X1 & X2 & X3).
  - rewrite X1 in HI. destruct (dget k a), (dget k b); try discriminate. injection HI as <-. reflexivity.
  - rewrite X3 in HI. destruct (dget k a), (dget k b); try discriminate. destruct (str_eqb _ _); [discriminate|]. injection HI as <-. reflexivity.
  - rewrite X2 in HI. destruct (dget k a), (dget k b); try discriminate. injection HI as <-. reflexivity.
Qed.

Lemma add_diff_view d e a b k : dicts d -> dicts e -> exact_diff a b e -> dicts (add_diff d e) /\
  view k (add_diff d e) =
  let ap {X} (f : str -> change -> X -> X) o v := match o with Some c => f k c v | None => v end in
  ap vdel (dget k (df_deletes e)) (ap vupd (dget k (df_updates e)) (ap vadd (dget k (df_adds e)) (view k d))).
Proof.
  intros D E X. destruct (exact_named _ _ _ X E) as (M1 & M2 & M3). destruct E as (E1 & E2 & E3). unfold add_diff.
  destruct (fold_view merge_add vadd merge_add_view (df_adds e) k E1 M1 d D) as [D1 V1].
  set (d1 := fold_left merge_add (map snd (df_adds e)) d) in *.
  destruct (fold_view merge_update vupd merge_update_view (df_updates e) k E2 M2 d1 D1) as [D2 V2].
  set (d2 := fold_left merge_update (map snd (df_updates e)) d1) in *.
  destruct (fold_view merge_delete vdel merge_delete_view (df_deletes e) k E3 M3 d2 D2) as [D3 V3].
  set (d3 := fold_left merge_delete (map snd (df_deletes e)) d2) in *.
  split; [exact D3|]. match goal with |- _ = ?r => change (view k d3 = r) end. rewrite V3, V2, V1. reflexivity.
Qed.

Lemma patched_view d a k : patched d a k =
  let '(A, U, D) := view k d in
  match D with Some _ => None | None => match U with Some u => Some (ch_cid u) | None =>
    match A with Some x => Some (ch_cid x) | None => dget k a end end end.
Proof. reflexivity. Qed.

Lemma exact_patched a b d : exact_diff a b d -> forall k, patched d a k = dget k b.
Proof.
  intros X k. unfold patched. destruct (X k) as (X1 & X2 & X3). rewrite X1, X2, X3.
  destruct (dget k a) as [x|], (dget k b) as [y|]; auto. destruct (str_eqb x y) eqn:E; auto. apply str_eqb_eq in E. congruence.
Qed.

Lemma c16_patched a b c d1 d2 : dicts d1 -> dicts d2 -> exact_diff a b d1 -> exact_diff b c d2 ->
  forall k, patched (add_diff d1 d2) a k = dget k c.
Proof.
  intros D1 D2 X1 X2 k. rewrite patched_view.
  destruct (add_diff_view d1 d2 b c k D1 D2 X2) as [_ ->]. unfold view.
  destruct (X1 k) as (A1 & A2 & A3), (X2 k) as (B1 & B2 & B3). rewrite A1, A2, A3, B1, B2, B3.
  destruct (dget k a) as [x|], (dget k b) as [y|], (dget k c) as [z|];
    repeat match goal with |- context [str_eqb ?p ?q] => destruct (str_eqb p q) eqn:?; cbn [ch_cid ch_key ch_prev vadd vupd vdel] end;
    cbn; auto; repeat match goal with H : str_eqb _ _ = true |- _ => apply str_eqb_eq in H; subst end; auto; try congruence.
  destruct (str_eqb x z) eqn:E; [apply str_eqb_eq in E; subst|]; reflexivity.
Qed.

Lemma c16_exact a b c d1 d2 : dicts d1 -> dicts d2 -> exact_diff a b d1 -> exact_diff b c d2 ->
  (forall k, dget k a = dget k b \/ dget k b = dget k c \/ dget k b = None \/ (dget k a = None /\ dget k c = None)) ->
  exact_diff a c (add_diff d1 d2).
Proof.
  intros D1 D2 X1 X2 H k. specialize (H k). destruct (add_diff_view d1 d2 b c k D1 D2 X2) as [_ V].
  assert (VE : dget k (df_adds (add_diff d1 d2)) = fst (fst (view k (add_diff d1 d2))) /\
    dget k (df_deletes (add_diff d1 d2)) = snd (view k (add_diff d1 d2)) /\
    dget k (df_updates (add_diff d1 d2)) = snd (fst (view k (add_diff d1 d2)))) by (unfold view; auto).
  destruct VE as (-> & -> & ->). rewrite V. unfold view.
  destruct (X1 k) as (A1 & A2 & A3), (X2 k) as (B1 & B2 & B3). rewrite A1, A2, A3, B1, B2, B3. clear - H.
  destruct (dget k a) as [x|], (dget k b) as [y|], (dget k c) as [z|];
    repeat match goal with
    | H : _ \/ _ |- _ => destruct H
    | H : _ /\ _ |- _ => destruct H
    | H : Some _ = Some _ |- _ => injection H as H; subst
    | H : Some _ = None |- _ => discriminate
    | H : None = Some _ |- _ => discriminate
    end; cbn; rewrite ?str_eqb_refl; cbn; auto;
    repeat match goal with |- context [str_eqb ?p ?q] => destruct (str_eqb p q) eqn:? end; cbn; auto.
Qed.

(** ** Histories *)

Section Hist.
Variable digest : list N -> list N.
Variable kdigest : str -> list N.
Hypothesis klen : forall k, length (kdigest k) = 32.
Hypothesis inj : collision_free digest.
Notation run ops := (fst (crun digest kdigest (cinit digest) ops)).

Lemma hist_tree ops d outs rd : dict_run [] ops d outs -> finds rd (cl_store (run ops)) ->
  exists n t, rep digest rd n (cl_tree (run ops)) t /\ wf kdigest n t /\ sorted_tree t /\ n <= 128 /\ same_items (leaves t) d /\
    expand kdigest rd max_depth (cl_tree (run ops)) = Ok t.
Proof.
  intros DR FI. destruct (reach_cs digest kdigest klen ops inj) as (d' & A & B & _).
  destruct (dict_run_fun _ _ _ _ _ _ DR A) as [<- _].
  destruct (rel_listing digest kdigest _ _ _ B) as (n & t & l & R & W & S & LE & <- & _ & SI).
  assert (R' : rep digest rd n (cl_tree (run ops)) t) by (eapply rep_mono; [|exact R]; exact FI).
  exists n, t. splits; auto. eapply expand_ok; eauto. pose proof md. lia.
Qed.

Lemma exact_same a a' b b' d : same_items a a' -> same_items b b' -> exact_diff a b d -> exact_diff a' b' d.
Proof. intros A B X k. destruct (X k) as (X1 & X2 & X3). rewrite (A k), (B k) in *. auto. Qed.

Lemma hist_diff ops1 ops2 d1 d2 o1 o2 rdl rdr hint :
  dict_run [] ops1 d1 o1 -> dict_run [] ops2 d2 o2 ->
  finds rdl (cl_store (run ops1)) -> finds rdr (cl_store (run ops2)) ->
  exists t1 t2, expand kdigest rdl max_depth (cl_tree (run ops1)) = Ok t1 /\ expand kdigest rdr max_depth (cl_tree (run ops2)) = Ok t2 /\
  exists n, forall fuel, n <= fuel -> exists d,
    mst_diff digest kdigest rdl rdr hint fuel (cl_tree (run ops2)) (Some (cl_tree (run ops1))) = Ok d /\ dicts d /\ exact_diff d1 d2 d /\
    (forall c, In c (df_removed d) -> node_cid digest t1 c /\ ~ node_cid digest t2 c) /\
    (forall c, ~ node_cid digest t1 c -> (In c (df_new d) <-> node_cid digest t2 c \/
       exists k, dget k d2 = Some c /\ dget k d1 <> Some c)) /\
    ((forall k c, dget k d2 = Some c -> ~ node_cid digest t1 c /\ ~ node_cid digest t2 c) -> forall c,
      (In c (df_new d) <-> (node_cid digest t2 c /\ ~ node_cid digest t1 c) \/
       exists k, dget k d2 = Some c /\ dget k d1 <> Some c) /\
      (In c (df_removed d) <-> node_cid digest t1 c /\ ~ node_cid digest t2 c)).
Proof.
  intros R1 R2 F1 F2. destruct (hist_tree _ _ _ _ R1 F1) as (n1 & t1 & A1 & W1 & S1 & L1 & I1 & E1).
  destruct (hist_tree _ _ _ _ R2 F2) as (n2 & t2 & A2 & W2 & S2 & L2 & I2 & E2).
  exists t1, t2. split; [exact E1|]. split; [exact E2|].
  exists (S (length (leaves t1) + length (nodes_of t1) + length (leaves t2) + length (nodes_of t2))). intros fuel FU.
  destruct (mst_diff_ok digest kdigest rdl rdr hint _ _ _ _ _ _ inj A1 W1 S1 A2 W2 S2 fuel ltac:(lia)) as (d & E & D & X & P & Q & T).
  assert (FV : forall c, (exists k, dget k (leaves t2) = Some c /\ dget k (leaves t1) <> Some c) <->
    exists k, dget k d2 = Some c /\ dget k d1 <> Some c).
  { intros c. split; intros (k & B1 & B2); exists k; rewrite (I1 k), (I2 k) in *; auto. }
  exists d. split; [exact E|]. split; [exact D|]. split; [eapply exact_same; eauto|]. split; [exact P|]. split.
  - intros c NC. rewrite (Q c NC), FV. reflexivity.
  - intros H c. rewrite <- FV. apply T. intros k x B. apply (H k). rewrite <- (I2 k). exact B.
Qed.

Lemma hist_null ops d2 o2 rdl rdr hint :
  dict_run [] ops d2 o2 -> finds rdr (cl_store (run ops)) ->
  exists t, expand kdigest rdr max_depth (cl_tree (run ops)) = Ok t /\ forall fuel, max_depth <= fuel -> exists d,
    mst_diff digest kdigest rdl rdr hint fuel (cl_tree (run ops)) None = Ok d /\ dicts d /\ exact_diff [] d2 d /\ df_removed d = [] /\
    forall c, In c (df_new d) <-> node_cid digest t c \/ exists k, dget k d2 = Some c.
Proof.
  intros R2 F2. destruct (hist_tree _ _ _ _ R2 F2) as (n2 & t2 & A2 & W2 & S2 & L2 & I2 & E2).
  exists t2. split; [exact E2|]. intros fuel FU. pose proof md.
  destruct (null_diff_ok digest kdigest rdl rdr hint n2 _ t2 inj A2 W2 S2 fuel ltac:(lia)) as (d & E & D & X & P & Q).
  exists d. split; [exact E|]. split; [exact D|]. split.
  { eapply exact_same; [| |exact X]; auto. intros k. reflexivity. }
  split; [exact P|]. intros c. rewrite Q. split; (intros [?|(k & B)]; [auto|right; exists k]); [rewrite <- (I2 k)|rewrite (I2 k)]; exact B.
Qed.

End Hist.

Lemma c14 digest kdigest : (forall k, length (kdigest k) = 32) -> collision_free digest ->
  forall ops1 ops2 d1 d2 o1 o2, dict_run [] ops1 d1 o1 -> dict_run [] ops2 d2 o2 ->
  let c1 := fst (crun digest kdigest (cinit digest) ops1) in
  let c2 := fst (crun digest kdigest (cinit digest) ops2) in
  forall rdl rdr hint, finds rdl (cl_store c1) -> finds rdr (cl_store c2) ->
  exists n, forall fuel, n <= fuel ->
  (exists d, mst_diff digest kdigest rdl rdr hint fuel (cl_tree c2) (Some (cl_tree c1)) = Ok d /\ dicts d /\
    exact_diff d1 d2 d /\ forall k, patched d d1 k = dget k d2) /\
  (exists d, mst_diff digest kdigest rdl rdr hint fuel (cl_tree c2) None = Ok d /\ dicts d /\
    exact_diff [] d2 d /\ forall k, patched d [] k = dget k d2).
Proof.
  intros klen inj ops1 ops2 d1 d2 o1 o2 R1 R2 c1 c2 rdl rdr hint F1 F2.
  destruct (hist_diff digest kdigest klen inj _ _ _ _ _ _ rdl rdr hint R1 R2 F1 F2) as (t1 & t2 & _ & _ & n & H).
  destruct (hist_null digest kdigest klen inj _ _ _ rdl rdr hint R2 F2) as (t & _ & H').
  exists (max n max_depth). intros fuel FU. split.
  - destruct (H fuel ltac:(lia)) as (d & E & D & X & _). exists d. splits; auto. apply exact_patched; auto.
  - destruct (H' fuel ltac:(lia)) as (d & E & D & X & _). exists d. splits; auto. apply exact_patched; auto.
Qed.

Lemma c15 digest kdigest : (forall k, length (kdigest k) = 32) -> collision_free digest ->
  forall ops1 ops2 d1 d2 o1 o2, dict_run [] ops1 d1 o1 -> dict_run [] ops2 d2 o2 ->
  let c1 := fst (crun digest kdigest (cinit digest) ops1) in
  let c2 := fst (crun digest kdigest (cinit digest) ops2) in
  forall rdl rdr hint, finds rdl (cl_store c1) -> finds rdr (cl_store c2) ->
  exists t1 t2, expand kdigest rdl max_depth (cl_tree c1) = Ok t1 /\ expand kdigest rdr max_depth (cl_tree c2) = Ok t2 /\
  exists n, forall fuel d, n <= fuel -> mst_diff digest kdigest rdl rdr hint fuel (cl_tree c2) (Some (cl_tree c1)) = Ok d ->
  (forall c, node_cid digest t2 c -> ~ node_cid digest t1 c -> In c (df_new d)) /\
  (forall k c, dget k d2 = Some c -> dget k d1 <> Some c -> ~ node_cid digest t1 c -> In c (df_new d)) /\
  (forall c, In c (df_removed d) -> ~ node_cid digest t2 c) /\
  (forall c, In c (df_removed d) -> node_cid digest t1 c) /\
  (forall c, In c (df_new d) -> node_cid digest t1 c \/ node_cid digest t2 c \/ exists k, dget k d2 = Some c /\ dget k d1 <> Some c).
Proof.
  intros klen inj ops1 ops2 d1 d2 o1 o2 R1 R2 c1 c2 rdl rdr hint F1 F2.
  destruct (hist_diff digest kdigest klen inj _ _ _ _ _ _ rdl rdr hint R1 R2 F1 F2) as (t1 & t2 & E1 & E2 & n & H).
  exists t1, t2. split; [exact E1|]. split; [exact E2|]. exists n. intros fuel d FU E.
  destruct (H fuel FU) as (d' & E' & _ & _ & P & Q & _). unfold c1, c2 in E. rewrite E' in E. injection E as <-.
  splits.
  - intros c A B. apply Q; auto.
  - intros k c A B C. apply Q; eauto.
  - intros c A. apply P; auto.
  - intros c A. apply P; auto.
  - intros c A. destruct (in_dec (list_eq_dec N.eq_dec) c (map (tcid digest) (nodes_of t1))) as [B|B].
    + left. apply in_map_iff in B as (x & <- & B). apply nodes_subtree in B. exists x. auto.
    + right. apply Q; auto. intros (x & B1 & ->). apply B, in_map, nodes_subtree, B1.
Qed.

Lemma c15_exact digest kdigest : (forall k, length (kdigest k) = 32) -> collision_free digest ->
  forall ops1 ops2 d1 d2 o1 o2, dict_run [] ops1 d1 o1 -> dict_run [] ops2 d2 o2 ->
  let c1 := fst (crun digest kdigest (cinit digest) ops1) in
  let c2 := fst (crun digest kdigest (cinit digest) ops2) in
  forall rdl rdr hint, finds rdl (cl_store c1) -> finds rdr (cl_store c2) ->
  exists t1 t2, expand kdigest rdl max_depth (cl_tree c1) = Ok t1 /\ expand kdigest rdr max_depth (cl_tree c2) = Ok t2 /\
  ((forall k c, dget k d2 = Some c -> ~ node_cid digest t1 c /\ ~ node_cid digest t2 c) ->
  exists n, forall fuel d, n <= fuel -> mst_diff digest kdigest rdl rdr hint fuel (cl_tree c2) (Some (cl_tree c1)) = Ok d -> forall c,
  (In c (df_new d) <-> (node_cid digest t2 c /\ ~ node_cid digest t1 c) \/ exists k, dget k d2 = Some c /\ dget k d1 <> Some c) /\
  (In c (df_removed d) <-> node_cid digest t1 c /\ ~ node_cid digest t2 c)).
Proof.
  intros klen inj ops1 ops2 d1 d2 o1 o2 R1 R2 c1 c2 rdl rdr hint F1 F2.
  destruct (hist_diff digest kdigest klen inj _ _ _ _ _ _ rdl rdr hint R1 R2 F1 F2) as (t1 & t2 & E1 & E2 & n & H).
  exists t1, t2. split; [exact E1|]. split; [exact E2|]. intros NV. exists n. intros fuel d FU E.
  destruct (H fuel FU) as (d' & E' & _ & _ & _ & _ & T). unfold c1, c2 in E. rewrite E' in E. injection E as <-.
  exact (T NV).
Qed.

Lemma c15_null digest kdigest : (forall k, length (kdigest k) = 32) -> collision_free digest ->
  forall ops d2 o2, dict_run [] ops d2 o2 ->
  let c2 := fst (crun digest kdigest (cinit digest) ops) in
  forall rdl rdr hint, finds rdr (cl_store c2) ->
  exists t, expand kdigest rdr max_depth (cl_tree c2) = Ok t /\
  forall fuel d, max_depth <= fuel -> mst_diff digest kdigest rdl rdr hint fuel (cl_tree c2) None = Ok d ->
  df_removed d = [] /\ forall c, In c (df_new d) <-> node_cid digest t c \/ exists k, dget k d2 = Some c.
Proof.
  intros klen inj ops d2 o2 R2 c2 rdl rdr hint F2.
  destruct (hist_null digest kdigest klen inj _ _ _ rdl rdr hint R2 F2) as (t & E2 & H).
  exists t. split; [exact E2|]. intros fuel d FU E.
  destruct (H fuel FU) as (d' & E' & _ & _ & P & Q). unfold c2 in E. rewrite E' in E. injection E as <-. auto.
Qed.
