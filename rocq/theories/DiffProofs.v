(** Proofs about diffs: the walkers as lists of remaining entries, and the diff loop over them. *)
From Coq Require Import String List NArith ZArith Bool Lia.
From Verif Require Import Base Lists Ipld IpldProofs MstModel MstTree MstTreeProofs MstRep MstTrav MstClient MstSpec
  MstHist MstFacts DiffModel DiffSpec.
Import ListNotations.

(** ** Walkers *)

Section Walkers.
Variable digest : list N -> list N.
Variable kdigest : str -> list N.
Variable rd : cid -> option ipld.
Notation rep := (rep digest rd).
Notation repE := (repE digest rd).
Notation wf := (wf kdigest).
Notation wfE := (wfE kdigest).
Notation tcid := (tcid digest).
Notation get_entries := (get_entries kdigest rd).

(** The entries that come after those of a stack of statuses. *)
Inductive srep : list status -> list tentry -> Prop :=
| sr_nil : srep [] []
| sr_cons n m i e es tes stack fr : get_entries m = Ok es -> Forall2 (repE n) es tes -> Forall (wfE n) tes ->
    srep stack fr -> srep (Status e (Some m) i :: stack) (skipn (S i) tes ++ fr).

(** The entries a walker has not passed yet. *)
Inductive wrep : walker -> list tentry -> Prop :=
| wr_done stack : wrep (Walker stack None) []
| wr_root n m t : rep n m t -> wf n t -> wrep (Walker [] (Some (Status (Sub m) None 0))) [TSub t]
| wr_in n m i e te es tes stack fr : get_entries m = Ok es -> Forall2 (repE n) es tes -> Forall (wfE n) tes ->
    nth_error es i = Some e -> nth_error tes i = Some te -> srep stack fr ->
    wrep (Walker stack (Some (Status e (Some m) i))) (te :: skipn (S i) tes ++ fr).

Lemma skipn_nth {A} (l : list A) i x : nth_error l i = Some x -> skipn i l = x :: skipn (S i) l.
Proof. revert i. induction l as [|a l IH]; intros [|i] H; cbn in *; try congruence. rewrite (IH _ H). reflexivity. Qed.

Lemma Forall2_nth {A B} (P : A -> B -> Prop) l1 l2 i x : Forall2 P l1 l2 -> nth_error l1 i = Some x ->
  exists y, nth_error l2 i = Some y /\ P x y.
Proof. intros F. revert i. induction F; intros [|i] E; cbn in *; try discriminate; eauto. injection E as <-. eauto. Qed.

Lemma Forall2_nth_None {A B} (P : A -> B -> Prop) l1 l2 i : Forall2 P l1 l2 -> nth_error l1 i = None -> skipn i l2 = [].
Proof.
  intros F H. apply nth_error_None in H. rewrite (Forall2_length_eq _ _ _ F) in H. apply skipn_all2. exact H.
Qed.

Lemma step_over_from_ok stack : forall fr n m i e es tes, get_entries m = Ok es -> Forall2 (repE n) es tes ->
  Forall (wfE n) tes -> srep stack fr ->
  exists w, step_over_from kdigest rd stack (Status e (Some m) i) = Ok w /\ wrep w (skipn (S i) tes ++ fr).
Proof.
  induction stack as [|st stack IH]; intros fr n m i e es tes GE F W SR; cbn [step_over_from st_walking st_index];
    rewrite GE; cbn [bind]; destruct (nth_error es (S i)) as [e'|] eqn:NE.
  1, 3: destruct (Forall2_nth _ _ _ _ _ F NE) as (te & NT & _); eexists; split; [reflexivity|];
    rewrite (skipn_nth _ _ _ NT); econstructor; eauto.
  - eexists. split; [reflexivity|]. inversion SR; subst. rewrite (Forall2_nth_None _ _ _ _ F NE). constructor.
  - rewrite (Forall2_nth_None _ _ _ _ F NE). cbn [app]. inversion SR; subst. eapply IH; eauto.
Qed.

Lemma step_over_ok w te fr : wrep w (te :: fr) -> exists w', step_over kdigest rd w = Ok w' /\ wrep w' fr.
Proof.
  intros H. inversion H; subst.
  - eexists. split; [reflexivity|]. constructor.
  - unfold step_over. cbn [wk_status wk_stack]. eapply step_over_from_ok; eauto.
Qed.

Lemma step_into_ok w tes fr : wrep w (TSub (Node tes) :: fr) ->
  exists w', step_into kdigest rd w = Ok w' /\ wrep w' (tes ++ fr).
Proof.
  intros H. inversion H as [|n m t R W|n m i e te es tes' stack fr' GE F W NE NT SR]; subst.
  - destruct (get_entries_ok digest kdigest rd n m tes R W) as (es & GE & F). unfold step_into.
    cbn [wk_status st_walking st_cur]. rewrite GE. cbn [bind]. apply wf_node in W as [_ W].
    inversion F as [|e te es' tes' HE F']; subst.
    + eexists. split; [reflexivity|]. constructor.
    + eexists. split; [reflexivity|]. cbn [app].
      change tes' with (skipn 1 (te :: tes')) at 1. econstructor; eauto; try reflexivity. constructor.
  - destruct (Forall2_nth _ _ _ _ _ F NE) as (te' & NT' & RE). rewrite NT in NT'. injection NT' as <-.
    destruct e as [k v|m']; cbn [MstRep.repE] in RE; [contradiction|]. destruct n as [|n]; [contradiction|].
    assert (WE : wfE (S n) (TSub (Node tes))) by (rewrite Forall_forall in W; apply W; eapply nth_error_In; eauto).
    destruct WE as [WT NN].
    destruct (get_entries_ok digest kdigest rd n m' tes RE WT) as (es' & GE' & F'). unfold step_into.
    cbn [wk_status wk_stack st_walking st_cur]. rewrite GE'. cbn [bind]. apply wf_node in WT as [_ WT].
    inversion F' as [|e te es1 tes1 HE F1]; subst; [congruence|].
    eexists. split; [reflexivity|]. cbn [app].
    change tes1 with (skipn 1 (te :: tes1)) at 1. econstructor; eauto; try reflexivity. econstructor; eauto.
Qed.

Lemma cur_leaf w k v fr : wrep w (TLeaf k v :: fr) -> exists st, wk_status w = Some st /\ st_cur st = Leaf k v /\
  (forall h, exists z, walker_layer h st = Ok z) /\ advance kdigest rd w = step_over kdigest rd w.
Proof.
  intros H. inversion H as [|n m t R W|n m i e te es tes' stack fr' GE F W NE NT SR]; subst.
  destruct (Forall2_nth _ _ _ _ _ F NE) as (te' & NT' & RE). rewrite NT in NT'. injection NT' as <-.
  destruct e as [k' v'|m']; cbn [MstRep.repE] in RE; [|contradiction]. destruct RE as [-> ->].
  eexists. split; [reflexivity|]. split; [reflexivity|]. split; [|reflexivity]. intros h. eexists. reflexivity.
Qed.

Lemma cur_sub w t fr : wrep w (TSub t :: fr) -> exists st m, wk_status w = Some st /\ st_cur st = Sub m /\
  (forall h, exists z, walker_layer h st = Ok z) /\ advance kdigest rd w = step_into kdigest rd w /\
  get_pointer digest m = Ok (tcid t) /\ exists n, wf n t.
Proof.
  intros H. inversion H as [|n m t' R W|n m i e te es tes' stack fr' GE F W NE NT SR]; subst.
  - eexists _, m. split; [reflexivity|]. split; [reflexivity|]. split; [intros h; eexists; reflexivity|].
    split; [reflexivity|]. split; [exact (get_pointer_ok digest kdigest rd n m t R W)|eauto].
  - destruct (Forall2_nth _ _ _ _ _ F NE) as (te' & NT' & RE). rewrite NT in NT'. injection NT' as <-.
    destruct e as [k v|m']; cbn [MstRep.repE] in RE; [contradiction|]. destruct n as [|n]; [contradiction|].
    assert (WE : wfE (S n) (TSub t)) by (rewrite Forall_forall in W; apply W; eapply nth_error_In; eauto).
    destruct WE as [WT NN].
    eexists _, m'. split; [reflexivity|]. split; [reflexivity|]. split; [intros h; eexists; reflexivity|].
    split; [reflexivity|]. split; [exact (get_pointer_ok digest kdigest rd n m' t RE WT)|eauto].
Qed.

Lemma cur_done w : wrep w [] -> wk_status w = None.
Proof. intros H. inversion H; subst; reflexivity. Qed.

Lemma at_leaf w k v fr : wrep w (TLeaf k v :: fr) -> exists st w1, wk_status w = Some st /\ st_cur st = Leaf k v /\
  (forall h, exists z, walker_layer h st = Ok z) /\ advance kdigest rd w = Ok w1 /\ wrep w1 fr.
Proof.
  intros H. destruct (cur_leaf _ _ _ _ H) as (st & A & B & C & D). destruct (step_over_ok _ _ _ H) as (w1 & E & F).
  exists st, w1. rewrite D. auto.
Qed.

Lemma at_sub w tes fr : wrep w (TSub (Node tes) :: fr) -> exists st m w1 w2, wk_status w = Some st /\ st_cur st = Sub m /\
  (forall h, exists z, walker_layer h st = Ok z) /\ advance kdigest rd w = Ok w1 /\ step_into kdigest rd w = Ok w1 /\
  wrep w1 (tes ++ fr) /\ step_over kdigest rd w = Ok w2 /\ wrep w2 fr /\
  get_pointer digest m = Ok (tcid (Node tes)) /\ exists n, wf n (Node tes).
Proof.
  intros H. destruct (cur_sub _ _ _ H) as (st & m & A & B & C & D & P & W). destruct (step_over_ok _ _ _ H) as (w2 & E & F).
  destruct (step_into_ok _ _ _ H) as (w1 & G & I). exists st, m, w1, w2. rewrite D. splits; auto.
Qed.

End Walkers.

(** ** Sets *)

Lemma NoDup_app_remove_l {A} (a b : list A) : NoDup (a ++ b) -> NoDup b.
Proof. induction a as [|x a IH]; cbn; auto. intros D. inversion D; auto. Qed.

Lemma NoDup_app_disjoint {A} (a b : list A) x : NoDup (a ++ b) -> In x a -> In x b -> False.
Proof.
  induction a as [|y a IH]; cbn; intros D A1 B; [contradiction|]. inversion D; subst. destruct A1 as [->|A1]; auto.
  match goal with H : ~ In _ (a ++ b) |- _ => apply H, in_or_app; auto end.
Qed.

Lemma set_in_iff c l : set_in c l = true <-> In c l.
Proof.
  unfold set_in. rewrite existsb_exists. split.
  - intros (x & HI & E). apply str_eqb_eq in E. subst. exact HI.
  - intros HI. exists c. split; auto. apply str_eqb_refl.
Qed.
Lemma set_add_iff c l x : In x (set_add c l) <-> x = c \/ In x l.
Proof.
  unfold set_add. destruct (set_in c l) eqn:E.
  - apply set_in_iff in E. split; auto. intros [->|]; auto.
  - rewrite in_app_iff. cbn. intuition.
Qed.
Lemma set_remove_iff c l x : In x (set_remove c l) <-> x <> c /\ In x l.
Proof.
  unfold set_remove. rewrite filter_In, negb_true_iff. split; intros [A B]; split; auto.
  - intros ->. rewrite str_eqb_refl in B. discriminate.
  - destruct (str_eqb c x) eqn:E; auto. apply str_eqb_eq in E. congruence.
Qed.

(** ** The loop *)

Section Loop.
Variable digest : list N -> list N.
Variable kdigest : str -> list N.
Hypothesis inj : collision_free digest.
Notation tcid := (tcid digest).

(** The CIDs of the nodes below entries. *)
Definition ncids (e : tentry) : list cid := match e with TLeaf _ _ => [] | TSub t => map tcid (nodes_of t) end.
Definition NC (es : list tentry) : list cid := flat_map ncids es.

Lemma NC_app a b : NC (a ++ b) = NC a ++ NC b.
Proof. apply flat_map_app. Qed.

Lemma NC_into tes fr : NC (TSub (Node tes) :: fr) = tcid (Node tes) :: NC (tes ++ fr).
Proof.
  rewrite NC_app. unfold NC at 1. cbn [flat_map ncids nodes_of map app]. f_equal. f_equal.
  rewrite flat_map_concat_map, concat_map, map_map, <- flat_map_concat_map. apply flat_map_ext. intros [k v|t]; reflexivity.
Qed.

Lemma L_into tes fr : L (TSub (Node tes) :: fr) = L (tes ++ fr).
Proof. unfold L. rewrite flat_map_app. reflexivity. Qed.

(** What the loop adds to a diff, given the remaining entries of both sides. *)
Definition keys_res (fl fr : list tentry) (d d' : diff) : Prop := forall k,
  dget k (df_adds d') = match dget k (L fl), dget k (L fr) with
                        | None, Some c => Some (Change k c None) | _, _ => dget k (df_adds d) end /\
  dget k (df_deletes d') = match dget k (L fl), dget k (L fr) with
                        | Some c, None => Some (Change k c None) | _, _ => dget k (df_deletes d) end /\
  dget k (df_updates d') = match dget k (L fl), dget k (L fr) with
                        | Some x, Some y => if str_eqb x y then dget k (df_updates d) else Some (Change k y (Some x))
                        | _, _ => dget k (df_updates d) end.

Definition sets_pre (fl fr : list tentry) (d : diff) : Prop :=
  NoDup (NC fl) /\ NoDup (NC fr) /\ (forall c, In c (df_new d) -> ~ In c (NC fr)) /\
  (forall c, In c (df_removed d) -> ~ In c (NC fl)) /\
  (forall k c, dget k (L fr) = Some c -> ~ In c (NC fl) /\ ~ In c (NC fr)).

Definition fresh_value (fl fr : list tentry) (c : cid) : Prop := exists k, dget k (L fr) = Some c /\ dget k (L fl) <> Some c.

Definition sets_res (fl fr : list tentry) (d d' : diff) : Prop := forall c,
  (In c (df_new d') <-> (In c (df_new d) /\ ~ In c (NC fl)) \/
     (In c (NC fr) /\ ~ In c (NC fl) /\ ~ In c (df_removed d)) \/ fresh_value fl fr c) /\
  (In c (df_removed d') <-> (In c (df_removed d) /\ ~ In c (NC fr)) \/ (In c (NC fl) /\ ~ In c (NC fr) /\ ~ In c (df_new d))).

Definition res1 (fl fr : list tentry) (d d' : diff) : Prop :=
  keys_res fl fr d d' /\ (sets_pre fl fr d -> sets_res fl fr d d').

Lemma res_done1 d : res1 [] [] d d.
Proof.
  split; [intros k; cbn; auto|]. intros _ c.
  assert (V : ~ fresh_value [] [] c) by (intros (k & A & _); discriminate). cbn. tauto.
Qed.

(** The two ways of going into a subtree. *)
Lemma res_into_r1 fl tes fr d d' : res1 fl (tes ++ fr) (record_new_cid d (tcid (Node tes))) d' ->
  res1 fl (TSub (Node tes) :: fr) d d'.
Proof.
  intros [K S]. split.
  - intros k. specialize (K k). rewrite L_into.
    unfold record_new_cid in K. destruct (set_in _ _); exact K.
  - intros PRE. unfold sets_pre in PRE. rewrite L_into, NC_into in PRE. destruct PRE as (N1 & N2 & P1 & P2 & P3).
    set (c0 := tcid (Node tes)) in *. inversion N2 as [|? ? NI N2']; subst.
    assert (PRE' : sets_pre fl (tes ++ fr) (record_new_cid d c0)).
    { unfold record_new_cid. destruct (set_in c0 (df_removed d)) eqn:E; split; [auto|split|auto|split]; auto; cbn [df_new df_removed].
      - split; [|split].
        + intros c A B. exact (P1 c A (or_intror B)).
        + intros c A. apply set_remove_iff in A. apply P2. tauto.
        + intros k c A. destruct (P3 k c A) as [B C]. split; auto. intros D. apply C. right. exact D.
      - split; [|split]; auto.
        + intros c A B. apply set_add_iff in A as [->|A]; auto. exact (P1 c A (or_intror B)).
        + intros k c A. destruct (P3 k c A) as [B C]. split; auto. intros D. apply C. right. exact D. }
    specialize (S PRE'). intros c. specialize (S c). unfold fresh_value in *. rewrite L_into, NC_into. fold c0.
    specialize (P1 c). specialize (P2 c). cbn [In] in *.
    unfold record_new_cid in S. destruct (set_in c0 (df_removed d)) eqn:E; cbn [df_new df_removed] in S.
    + apply set_in_iff in E. rewrite set_remove_iff in S. destruct S as [-> ->].
      destruct (list_eq_dec N.eq_dec c0 c) as [<-|NE]; [|assert (c <> c0) by congruence]; tauto.
    + assert (E' : ~ In c0 (df_removed d)) by (intros X; apply set_in_iff in X; congruence).
      rewrite set_add_iff in S. destruct S as [-> ->].
      destruct (list_eq_dec N.eq_dec c0 c) as [<-|NE]; [|assert (c <> c0) by congruence]; tauto.
Qed.

Lemma res_into_l1 tes fl fr d d' : res1 (tes ++ fl) fr (record_removed_cid d (tcid (Node tes))) d' ->
  res1 (TSub (Node tes) :: fl) fr d d'.
Proof.
  intros [K S]. split.
  - intros k. specialize (K k). rewrite L_into.
    unfold record_removed_cid in K. destruct (set_in _ _); exact K.
  - intros PRE. unfold sets_pre in PRE. rewrite NC_into in PRE. destruct PRE as (N1 & N2 & P1 & P2 & P3).
    set (c0 := tcid (Node tes)) in *. inversion N1 as [|? ? NI N1']; subst.
    assert (V : ~ fresh_value (tes ++ fl) fr c0).
    { intros (k & A & _). destruct (P3 k c0 A) as [B _]. apply B. left. reflexivity. }
    assert (PRE' : sets_pre (tes ++ fl) fr (record_removed_cid d c0)).
    { unfold record_removed_cid. destruct (set_in c0 (df_new d)) eqn:E; split; [auto|split|auto|split]; auto; cbn [df_new df_removed].
      - split; [|split].
        + intros c A. apply set_remove_iff in A. apply P1. tauto.
        + intros c A B. exact (P2 c A (or_intror B)).
        + intros k c A. destruct (P3 k c A) as [B C]. split; auto. intros D. apply B. right. exact D.
      - split; [|split]; auto.
        + intros c A B. apply set_add_iff in A as [->|A]; auto. exact (P2 c A (or_intror B)).
        + intros k c A. destruct (P3 k c A) as [B C]. split; auto. intros D. apply B. right. exact D. }
    specialize (S PRE'). intros c. specialize (S c).
    assert (V' : fresh_value (TSub (Node tes) :: fl) fr c <-> fresh_value (tes ++ fl) fr c)
      by (unfold fresh_value; rewrite L_into; tauto).
    rewrite V', NC_into. fold c0.
    specialize (P1 c). specialize (P2 c). cbn [In] in *.
    unfold record_removed_cid in S. destruct (set_in c0 (df_new d)) eqn:E; cbn [df_new df_removed] in S.
    + apply set_in_iff in E. rewrite set_remove_iff in S. destruct S as [-> ->].
      destruct (list_eq_dec N.eq_dec c0 c) as [<-|NE]; [|assert (c <> c0) by congruence]; tauto.
    + assert (E' : ~ In c0 (df_new d)) by (intros X; apply set_in_iff in X; congruence).
      rewrite set_add_iff in S. destruct S as [-> ->].
      destruct (list_eq_dec N.eq_dec c0 c) as [<-|NE]; [|assert (c <> c0) by congruence]; tauto.
Qed.

(** Leaves. *)
Lemma res_add1 fl k v fr d d' : dget k (L fl) = None -> dget k (L fr) = None ->
  res1 fl fr (record_add d k v) d' -> res1 fl (TLeaf k v :: fr) d d'.
Proof.
  intros NL NR [K S].
  assert (G : forall x, dget x (L (TLeaf k v :: fr)) = if str_eqb x k then Some v else dget x (L fr)) by reflexivity.
  split.
  - intros x. destruct (K x) as (K1 & K2 & K3). rewrite G. cbn [record_add df_adds df_updates df_deletes] in *.
    rewrite dget_dset in K1. destruct (str_eqb x k) eqn:E.
    + apply str_eqb_eq in E. subst x. rewrite NL, NR in *. auto.
    + auto.
  - intros (N1 & N2 & P1 & P2 & P3). change (NC (TLeaf k v :: fr)) with (NC fr) in *.
    assert (V : ~ In v (NC fl) /\ ~ In v (NC fr)) by (apply (P3 k); rewrite G, str_eqb_refl; reflexivity).
    assert (PRE' : sets_pre fl fr (record_add d k v)).
    { split; [auto|split; [auto|split; [|split]]]; cbn [record_add df_new df_removed]; auto.
      - intros c A. apply set_add_iff in A as [->|A]; [tauto|auto].
      - intros x c A. apply (P3 x). rewrite G. destruct (str_eqb x k) eqn:E; auto. apply str_eqb_eq in E. congruence. }
    specialize (S PRE'). intros c. specialize (S c). change (NC (TLeaf k v :: fr)) with (NC fr).
    cbn [record_add df_new df_removed] in S. rewrite set_add_iff in S.
    assert (FV : fresh_value fl (TLeaf k v :: fr) c <-> c = v \/ fresh_value fl fr c).
    { unfold fresh_value. split.
      - intros (x & A & B). rewrite G in A. destruct (str_eqb x k) eqn:E; [left; congruence|right; eauto].
      - intros [->|(x & A & B)].
        + exists k. rewrite G, str_eqb_refl, NL. split; congruence.
        + exists x. rewrite G. destruct (str_eqb x k) eqn:E; auto. apply str_eqb_eq in E. congruence. }
    rewrite FV. destruct S as [-> ->]. destruct (list_eq_dec N.eq_dec c v) as [->|NE]; tauto.
Qed.

Lemma res_delete1 fl k v fr d d' : dget k (L fl) = None -> dget k (L fr) = None ->
  res1 fl fr (record_delete d k v) d' -> res1 (TLeaf k v :: fl) fr d d'.
Proof.
  intros NL NR [K S].
  assert (G : forall x, dget x (L (TLeaf k v :: fl)) = if str_eqb x k then Some v else dget x (L fl)) by reflexivity.
  split.
  - intros x. destruct (K x) as (K1 & K2 & K3). rewrite G. cbn [record_delete df_adds df_updates df_deletes] in *.
    rewrite dget_dset in K2. destruct (str_eqb x k) eqn:E.
    + apply str_eqb_eq in E. subst x. rewrite NL, NR in *. auto.
    + auto.
  - intros PRE. specialize (S PRE). intros c. specialize (S c).
    assert (FV : fresh_value (TLeaf k v :: fl) fr c <-> fresh_value fl fr c).
    { unfold fresh_value. split; intros (x & A & B); exists x; rewrite G in *; destruct (str_eqb x k) eqn:E; auto;
        apply str_eqb_eq in E; subst x; congruence. }
    rewrite FV. exact S.
Qed.

Lemma res_same1 fl k v w fr d d' : dget k (L fl) = None -> dget k (L fr) = None ->
  res1 fl fr (if str_eqb v w then d else record_update d k v w) d' -> res1 (TLeaf k v :: fl) (TLeaf k w :: fr) d d'.
Proof.
  intros NL NR [K S].
  assert (G : forall x, dget x (L (TLeaf k v :: fl)) = if str_eqb x k then Some v else dget x (L fl)) by reflexivity.
  assert (G2 : forall x, dget x (L (TLeaf k w :: fr)) = if str_eqb x k then Some w else dget x (L fr)) by reflexivity.
  split.
  - intros x. destruct (K x) as (K1 & K2 & K3). rewrite G, G2. destruct (str_eqb x k) eqn:E.
    + apply str_eqb_eq in E. subst x. rewrite NL, NR in *. destruct (str_eqb v w) eqn:VW; [auto|].
      cbn [record_update df_adds df_updates df_deletes] in *. rewrite dget_dset, str_eqb_refl in K3. auto.
    + destruct (str_eqb v w); [auto|]. cbn [record_update df_adds df_updates df_deletes] in *.
      rewrite dget_dset, E in K3. auto.
  - intros (N1 & N2 & P1 & P2 & P3). change (NC (TLeaf k v :: fl)) with (NC fl) in *.
    change (NC (TLeaf k w :: fr)) with (NC fr) in *.
    assert (V : ~ In w (NC fl) /\ ~ In w (NC fr)) by (apply (P3 k); rewrite G2, str_eqb_refl; reflexivity).
    assert (P3' : forall x c, dget x (L fr) = Some c -> ~ In c (NC fl) /\ ~ In c (NC fr)).
    { intros x c A. apply (P3 x). rewrite G2. destruct (str_eqb x k) eqn:E; auto. apply str_eqb_eq in E. congruence. }
    assert (FV : forall c, fresh_value (TLeaf k v :: fl) (TLeaf k w :: fr) c <-> (v <> w /\ c = w) \/ fresh_value fl fr c).
    { intros c. unfold fresh_value. split.
      - intros (x & A & B). rewrite G in B. rewrite G2 in A. destruct (str_eqb x k) eqn:E; [|right; eauto].
        left. split; congruence.
      - intros [[NE ->]|(x & A & B)].
        + exists k. rewrite G, G2, str_eqb_refl. split; [reflexivity|]. intros X. injection X as X. exact (NE X).
        + exists x. rewrite G, G2. destruct (str_eqb x k) eqn:E; auto. apply str_eqb_eq in E. congruence. }
    destruct (str_eqb v w) eqn:VW.
    + apply str_eqb_eq in VW. subst w. specialize (S (conj N1 (conj N2 (conj P1 (conj P2 P3'))))).
      intros c. specialize (S c). rewrite FV. change (NC (TLeaf k v :: fl)) with (NC fl). change (NC (TLeaf k v :: fr)) with (NC fr).
      tauto.
    + assert (NE : v <> w) by (intros ->; rewrite str_eqb_refl in VW; discriminate).
      assert (PRE' : sets_pre fl fr (record_update d k v w)).
      { split; [auto|split; [auto|split; [|split]]]; cbn [record_update df_new df_removed]; auto.
        intros c A. apply set_add_iff in A as [->|A]; [tauto|auto]. }
      specialize (S PRE'). intros c. specialize (S c). rewrite FV.
      change (NC (TLeaf k v :: fl)) with (NC fl). change (NC (TLeaf k w :: fr)) with (NC fr).
      cbn [record_update df_new df_removed] in S. rewrite set_add_iff in S. destruct S as [-> ->].
      destruct (list_eq_dec N.eq_dec c w) as [->|NE']; tauto.
Qed.

(** Equal subtrees are skipped. *)
Lemma res_skip1 t fl fr d d' : NoDup (keys (L (TSub t :: fl))) -> NoDup (keys (L (TSub t :: fr))) ->
  res1 fl fr d d' -> res1 (TSub t :: fl) (TSub t :: fr) d d'.
Proof.
  change (L (TSub t :: fl)) with (leaves t ++ L fl). change (L (TSub t :: fr)) with (leaves t ++ L fr).
  intros D1 D2 [K S].
  assert (DJ : forall (l : list (str * cid)) k, NoDup (keys (leaves t ++ l)) -> In k (keys (leaves t)) -> dget k l = None).
  { intros l k D A. apply dget_None. intros B. rewrite keys_app in D. eapply NoDup_app_disjoint; eauto. }
  assert (GS : forall k x, dget k (leaves t) = Some x -> In k (keys (leaves t))).
  { intros k x A. apply dget_In in A. apply in_map_iff. exists (k, x). auto. }
  split.
  - intros k. specialize (K k). change (L (TSub t :: fl)) with (leaves t ++ L fl). change (L (TSub t :: fr)) with (leaves t ++ L fr).
    rewrite !dget_app. destruct (dget k (leaves t)) as [x|] eqn:E; [|exact K].
    rewrite (DJ _ k D1 (GS _ _ E)), (DJ _ k D2 (GS _ _ E)) in K. rewrite str_eqb_refl. exact K.
  - intros PRE. unfold sets_pre in PRE.
    change (NC (TSub t :: fl)) with (map tcid (nodes_of t) ++ NC fl) in PRE.
    change (NC (TSub t :: fr)) with (map tcid (nodes_of t) ++ NC fr) in PRE.
    change (L (TSub t :: fr)) with (leaves t ++ L fr) in PRE. destruct PRE as (N1 & N2 & P1 & P2 & P3).
    assert (PRE' : sets_pre fl fr d).
    { split; [eapply NoDup_app_remove_l; eauto|]. split; [eapply NoDup_app_remove_l; eauto|]. split; [|split].
      - intros c A B. apply (P1 c A), in_or_app. auto.
      - intros c A B. apply (P2 c A), in_or_app. auto.
      - intros k c A. destruct (P3 k c) as [B C].
        + rewrite dget_app. destruct (dget k (leaves t)) as [x|] eqn:E; auto.
          rewrite (DJ _ k D2 (GS _ _ E)) in A. discriminate.
        + split; intros X; [apply B|apply C]; apply in_or_app; auto. }
    specialize (S PRE'). intros c. specialize (S c).
    change (NC (TSub t :: fl)) with (map tcid (nodes_of t) ++ NC fl).
    change (NC (TSub t :: fr)) with (map tcid (nodes_of t) ++ NC fr).
    assert (FV : fresh_value (TSub t :: fl) (TSub t :: fr) c <-> fresh_value fl fr c).
    { unfold fresh_value. change (L (TSub t :: fl)) with (leaves t ++ L fl). change (L (TSub t :: fr)) with (leaves t ++ L fr).
      split; intros (k & A & B); exists k; rewrite !dget_app in *; destruct (dget k (leaves t)) as [x|] eqn:E; auto.
      - congruence.
      - rewrite (DJ _ k D2 (GS _ _ E)) in A. discriminate. }
    rewrite FV. specialize (P1 c). specialize (P2 c). 
    assert (AI : forall x, In c (map tcid (nodes_of t) ++ NC x) <-> In c (map tcid (nodes_of t)) \/ In c (NC x)) by (intros x; apply in_app_iff).
    rewrite AI in P1, P2. rewrite !AI.
    assert (T1 : In c (map tcid (nodes_of t)) -> ~ In c (NC fl)) by (intros A B; exact (NoDup_app_disjoint _ _ c N1 A B)).
    assert (T2 : In c (map tcid (nodes_of t)) -> ~ In c (NC fr)) by (intros A B; exact (NoDup_app_disjoint _ _ c N2 A B)).
    destruct S as [-> ->]. destruct (in_dec (list_eq_dec N.eq_dec) c (map tcid (nodes_of t))); tauto.
Qed.

(** The same without assuming that record CIDs are not node CIDs. *)
Definition weak_pre (fl fr : list tentry) (d : diff) : Prop :=
  NoDup (NC fl) /\ NoDup (NC fr) /\ (forall c, In c (df_removed d) -> ~ In c (NC fl)).
Definition weak_res (fl fr : list tentry) (d d' : diff) : Prop := forall c,
  (~ In c (NC fl) -> (In c (df_new d') <-> In c (df_new d) \/ (In c (NC fr) /\ ~ In c (df_removed d)) \/ fresh_value fl fr c)) /\
  (In c (df_removed d') -> (In c (df_removed d) /\ ~ In c (NC fr)) \/ (In c (NC fl) /\ ~ In c (NC fr) /\ ~ In c (df_new d))).
Definition weak_ok (fl fr : list tentry) (d d' : diff) : Prop := weak_pre fl fr d -> weak_res fl fr d d'.

Lemma fresh_into_r fl tes fr c : fresh_value fl (TSub (Node tes) :: fr) c <-> fresh_value fl (tes ++ fr) c.
Proof. unfold fresh_value. rewrite L_into. tauto. Qed.
Lemma fresh_into_l tes fl fr c : fresh_value (TSub (Node tes) :: fl) fr c <-> fresh_value (tes ++ fl) fr c.
Proof. unfold fresh_value. rewrite L_into. tauto. Qed.
Lemma fresh_add fl k v fr c : dget k (L fl) = None -> dget k (L fr) = None ->
  fresh_value fl (TLeaf k v :: fr) c <-> c = v \/ fresh_value fl fr c.
Proof.
  intros NL NR.
  assert (G : forall x, dget x (L (TLeaf k v :: fr)) = if str_eqb x k then Some v else dget x (L fr)) by reflexivity.
  unfold fresh_value. split.
  - intros (x & A & B). rewrite G in A. destruct (str_eqb x k) eqn:E; [left; congruence|right; eauto].
  - intros [->|(x & A & B)].
    + exists k. rewrite G, str_eqb_refl, NL. split; congruence.
    + exists x. rewrite G. destruct (str_eqb x k) eqn:E; auto. apply str_eqb_eq in E. congruence.
Qed.
Lemma fresh_delete fl k v fr c : dget k (L fl) = None -> dget k (L fr) = None ->
  fresh_value (TLeaf k v :: fl) fr c <-> fresh_value fl fr c.
Proof.
  intros NL NR.
  assert (G : forall x, dget x (L (TLeaf k v :: fl)) = if str_eqb x k then Some v else dget x (L fl)) by reflexivity.
  unfold fresh_value. split; intros (x & A & B); exists x; rewrite G in *; destruct (str_eqb x k) eqn:E; auto;
    apply str_eqb_eq in E; subst x; congruence.
Qed.
Lemma fresh_same fl k v w fr c : dget k (L fl) = None -> dget k (L fr) = None ->
  fresh_value (TLeaf k v :: fl) (TLeaf k w :: fr) c <-> (v <> w /\ c = w) \/ fresh_value fl fr c.
Proof.
  intros NL NR.
  assert (G : forall x, dget x (L (TLeaf k v :: fl)) = if str_eqb x k then Some v else dget x (L fl)) by reflexivity.
  assert (G2 : forall x, dget x (L (TLeaf k w :: fr)) = if str_eqb x k then Some w else dget x (L fr)) by reflexivity.
  unfold fresh_value. split.
  - intros (x & A & B). rewrite G in B. rewrite G2 in A. destruct (str_eqb x k) eqn:E; [|right; eauto].
    left. split; congruence.
  - intros [[NE ->]|(x & A & B)].
    + exists k. rewrite G, G2, str_eqb_refl. split; [reflexivity|]. intros X. injection X as X. exact (NE X).
    + exists x. rewrite G, G2. destruct (str_eqb x k) eqn:E; auto. apply str_eqb_eq in E. congruence.
Qed.
Lemma fresh_skip t fl fr c : NoDup (keys (L (TSub t :: fl))) -> NoDup (keys (L (TSub t :: fr))) ->
  fresh_value (TSub t :: fl) (TSub t :: fr) c <-> fresh_value fl fr c.
Proof.
  change (L (TSub t :: fl)) with (leaves t ++ L fl). change (L (TSub t :: fr)) with (leaves t ++ L fr). intros D1 D2.
  assert (DJ : forall (l : list (str * cid)) k x, NoDup (keys (leaves t ++ l)) -> dget k (leaves t) = Some x -> dget k l = None).
  { intros l k x D A. apply dget_None. intros B. rewrite keys_app in D. eapply NoDup_app_disjoint; eauto.
    apply dget_In in A. apply in_map_iff. exists (k, x). auto. }
  unfold fresh_value. change (L (TSub t :: fl)) with (leaves t ++ L fl). change (L (TSub t :: fr)) with (leaves t ++ L fr).
  split; intros (k & A & B); exists k; rewrite !dget_app in *; destruct (dget k (leaves t)) as [x|] eqn:E; auto.
  - congruence.
  - rewrite (DJ _ k x D2 E) in A. discriminate.
Qed.

Lemma weak_into_r fl tes fr d d' : weak_ok fl (tes ++ fr) (record_new_cid d (tcid (Node tes))) d' ->
  weak_ok fl (TSub (Node tes) :: fr) d d'.
Proof.
  intros S PRE. unfold weak_pre in PRE. rewrite NC_into in PRE. destruct PRE as (N1 & N2 & P2).
  set (c0 := tcid (Node tes)) in *. inversion N2 as [|? ? NI N2']; subst.
  assert (PRE' : weak_pre fl (tes ++ fr) (record_new_cid d c0)).
  { split; [auto|split; [auto|]]. unfold record_new_cid. destruct (set_in c0 (df_removed d)) eqn:E; cbn [df_removed]; auto.
    intros c A. apply set_remove_iff in A. apply P2. tauto. }
  specialize (S PRE'). intros c. specialize (S c). rewrite fresh_into_r, NC_into. fold c0. specialize (P2 c). cbn [In].
  unfold record_new_cid in S. destruct (set_in c0 (df_removed d)) eqn:E; cbn [df_new df_removed] in S.
  - apply set_in_iff in E. rewrite set_remove_iff in S.
    destruct (list_eq_dec N.eq_dec c0 c) as [<-|NE]; [|assert (c <> c0) by congruence]; tauto.
  - assert (E' : ~ In c0 (df_removed d)) by (intros X; apply set_in_iff in X; congruence).
    rewrite set_add_iff in S. destruct (list_eq_dec N.eq_dec c0 c) as [<-|NE]; [|assert (c <> c0) by congruence]; tauto.
Qed.

Lemma weak_into_l tes fl fr d d' : weak_ok (tes ++ fl) fr (record_removed_cid d (tcid (Node tes))) d' ->
  weak_ok (TSub (Node tes) :: fl) fr d d'.
Proof.
  intros S PRE. unfold weak_pre in PRE. rewrite NC_into in PRE. destruct PRE as (N1 & N2 & P2).
  set (c0 := tcid (Node tes)) in *. inversion N1 as [|? ? NI N1']; subst.
  assert (PRE' : weak_pre (tes ++ fl) fr (record_removed_cid d c0)).
  { split; [auto|split; [auto|]]. unfold record_removed_cid. destruct (set_in c0 (df_new d)) eqn:E; cbn [df_removed]; intros c A B.
    - exact (P2 c A (or_intror B)).
    - apply set_add_iff in A as [->|A]; auto. exact (P2 c A (or_intror B)). }
  specialize (S PRE'). intros c. specialize (S c). rewrite fresh_into_l, NC_into. fold c0. specialize (P2 c). cbn [In] in *.
  unfold record_removed_cid in S. destruct (set_in c0 (df_new d)) eqn:E; cbn [df_new df_removed] in S.
  - apply set_in_iff in E. rewrite set_remove_iff in S.
    destruct (list_eq_dec N.eq_dec c0 c) as [<-|NE]; [|assert (c <> c0) by congruence]; tauto.
  - assert (E' : ~ In c0 (df_new d)) by (intros X; apply set_in_iff in X; congruence).
    rewrite set_add_iff in S. destruct (list_eq_dec N.eq_dec c0 c) as [<-|NE]; [|assert (c <> c0) by congruence]; tauto.
Qed.

Lemma weak_skip t fl fr d d' : NoDup (keys (L (TSub t :: fl))) -> NoDup (keys (L (TSub t :: fr))) ->
  weak_ok fl fr d d' -> weak_ok (TSub t :: fl) (TSub t :: fr) d d'.
Proof.
  intros D1 D2 S (N1 & N2 & P2).
  change (NC (TSub t :: fl)) with (map tcid (nodes_of t) ++ NC fl) in *.
  change (NC (TSub t :: fr)) with (map tcid (nodes_of t) ++ NC fr) in *.
  assert (PRE' : weak_pre fl fr d).
  { split; [eapply NoDup_app_remove_l; eauto|]. split; [eapply NoDup_app_remove_l; eauto|].
    intros c A B. apply (P2 c A), in_or_app. auto. }
  specialize (S PRE'). intros c. specialize (S c). rewrite fresh_skip by auto. specialize (P2 c).
  change (NC (TSub t :: fl)) with (map tcid (nodes_of t) ++ NC fl).
  change (NC (TSub t :: fr)) with (map tcid (nodes_of t) ++ NC fr).
  assert (AI : forall x, In c (map tcid (nodes_of t) ++ NC x) <-> In c (map tcid (nodes_of t)) \/ In c (NC x)) by (intros x; apply in_app_iff).
  rewrite AI in P2. rewrite !AI.
  assert (T1 : In c (map tcid (nodes_of t)) -> ~ In c (NC fl)) by (intros A B; exact (NoDup_app_disjoint _ _ c N1 A B)).
  assert (T2 : In c (map tcid (nodes_of t)) -> ~ In c (NC fr)) by (intros A B; exact (NoDup_app_disjoint _ _ c N2 A B)).
  destruct (in_dec (list_eq_dec N.eq_dec) c (map tcid (nodes_of t))); tauto.
Qed.

Lemma weak_add fl k v fr d d' : dget k (L fl) = None -> dget k (L fr) = None ->
  weak_ok fl fr (record_add d k v) d' -> weak_ok fl (TLeaf k v :: fr) d d'.
Proof.
  intros NL NR S PRE c. specialize (S PRE c). cbn [record_add df_new df_removed] in S. rewrite set_add_iff in S.
  rewrite fresh_add by auto. change (NC (TLeaf k v :: fr)) with (NC fr). tauto.
Qed.
Lemma weak_delete fl k v fr d d' : dget k (L fl) = None -> dget k (L fr) = None ->
  weak_ok fl fr (record_delete d k v) d' -> weak_ok (TLeaf k v :: fl) fr d d'.
Proof.
  intros NL NR S PRE c. specialize (S PRE c). rewrite fresh_delete by auto. exact S.
Qed.
Lemma weak_same fl k v w fr d d' : dget k (L fl) = None -> dget k (L fr) = None ->
  weak_ok fl fr (if str_eqb v w then d else record_update d k v w) d' -> weak_ok (TLeaf k v :: fl) (TLeaf k w :: fr) d d'.
Proof.
  intros NL NR S PRE c. rewrite fresh_same by auto.
  change (NC (TLeaf k v :: fl)) with (NC fl). change (NC (TLeaf k w :: fr)) with (NC fr).
  destruct (str_eqb v w) eqn:E.
  - apply str_eqb_eq in E. specialize (S PRE c). tauto.
  - assert (v <> w) by (intros ->; rewrite str_eqb_refl in E; discriminate).
    specialize (S PRE c). cbn [record_update df_new df_removed] in S. rewrite set_add_iff in S. tauto.
Qed.

Definition res_ok (fl fr : list tentry) (d d' : diff) : Prop := res1 fl fr d d' /\ weak_ok fl fr d d'.

Lemma res_done d : res_ok [] [] d d.
Proof.
  split; [apply res_done1|]. intros _ c.
  assert (V : ~ fresh_value [] [] c) by (intros (k & A & _); discriminate). cbn. tauto.
Qed.
Lemma res_into_r fl tes fr d d' : res_ok fl (tes ++ fr) (record_new_cid d (tcid (Node tes))) d' ->
  res_ok fl (TSub (Node tes) :: fr) d d'.
Proof. intros [A B]. split; [apply res_into_r1; auto|apply weak_into_r; auto]. Qed.
Lemma res_into_l tes fl fr d d' : res_ok (tes ++ fl) fr (record_removed_cid d (tcid (Node tes))) d' ->
  res_ok (TSub (Node tes) :: fl) fr d d'.
Proof. intros [A B]. split; [apply res_into_l1; auto|apply weak_into_l; auto]. Qed.
Lemma res_add fl k v fr d d' : dget k (L fl) = None -> dget k (L fr) = None ->
  res_ok fl fr (record_add d k v) d' -> res_ok fl (TLeaf k v :: fr) d d'.
Proof. intros X Y [A B]. split; [apply res_add1; auto|apply weak_add; auto]. Qed.
Lemma res_delete fl k v fr d d' : dget k (L fl) = None -> dget k (L fr) = None ->
  res_ok fl fr (record_delete d k v) d' -> res_ok (TLeaf k v :: fl) fr d d'.
Proof. intros X Y [A B]. split; [apply res_delete1; auto|apply weak_delete; auto]. Qed.
Lemma res_same fl k v w fr d d' : dget k (L fl) = None -> dget k (L fr) = None ->
  res_ok fl fr (if str_eqb v w then d else record_update d k v w) d' -> res_ok (TLeaf k v :: fl) (TLeaf k w :: fr) d d'.
Proof. intros X Y [A B]. split; [apply res_same1; auto|apply weak_same; auto]. Qed.
Lemma res_skip t fl fr d d' : NoDup (keys (L (TSub t :: fl))) -> NoDup (keys (L (TSub t :: fr))) ->
  res_ok fl fr d d' -> res_ok (TSub t :: fl) (TSub t :: fr) d d'.
Proof. intros X Y [A B]. split; [apply res_skip1; auto|apply weak_skip; auto]. Qed.

Variable rdl rdr : cid -> option ipld.
Variable hint : nat -> bool -> mst -> Z.
Notation wrepl := (wrep digest kdigest rdl).
Notation wrepr := (wrep digest kdigest rdr).
Notation loop := (diff_loop digest kdigest rdl rdr hint).

Definition weight (es : list tentry) : nat := length (L es) + length (NC es).

Lemma weight_leaf k v es : weight (TLeaf k v :: es) = S (weight es).
Proof. reflexivity. Qed.
Lemma weight_into tes es : weight (TSub (Node tes) :: es) = S (weight (tes ++ es)).
Proof. unfold weight. rewrite L_into, NC_into. cbn [length]. lia. Qed.
Lemma weight_skip t es : weight es < weight (TSub t :: es).
Proof.
  unfold weight. change (L (TSub t :: es)) with (leaves t ++ L es). change (NC (TSub t :: es)) with (map tcid (nodes_of t) ++ NC es).
  rewrite !app_length. destruct t. cbn [nodes_of map length]. lia.
Qed.

Lemma sorted_nodup (l : list (str * cid)) : ssorted (keys l) -> NoDup (keys l).
Proof. apply ssorted_NoDup. Qed.

Lemma sorted_leaf k v es : ssorted (keys (L (TLeaf k v :: es))) ->
  ssorted (keys (L es)) /\ Forall (slt k) (keys (L es)).
Proof. intros S. inversion S; auto. Qed.

Lemma above_None k (l : list (str * cid)) : Forall (slt k) (keys l) -> dget k l = None.
Proof.
  intros F. apply dget_None. intros A. rewrite Forall_forall in F. exact (slt_irrefl _ (F _ A)).
Qed.

Lemma above_trans k k' (l : list (str * cid)) : slt k k' -> Forall (slt k') (keys l) -> Forall (slt k) (keys l).
Proof. intros S F. eapply Forall_impl; [|exact F]. cbn. intros x X. eapply slt_trans; eauto. Qed.

Lemma diff_loop_ok fuel : forall l r d fl fr, wrepl l fl -> wrepr r fr -> weight fl + weight fr < fuel ->
  ssorted (keys (L fl)) -> ssorted (keys (L fr)) -> exists d', loop fuel l r d = Ok d' /\ res_ok fl fr d d'.
Proof.
  induction fuel as [|f IH]; intros l r d fl fr WL WR FU SL SR; [lia|].
  destruct fl as [|[lk lv|[lt]] fl]; destruct fr as [|[rk rv|[rt]] fr]; cbn [diff_loop].
  - rewrite (cur_done _ _ _ _ WL), (cur_done _ _ _ _ WR). exists d. split; auto. apply res_done.
  - rewrite (cur_done _ _ _ _ WL). destruct (at_leaf _ _ _ _ _ _ _ WR) as (sr & r1 & -> & -> & _ & -> & R1).
    cbn [log_new bind]. apply sorted_leaf in SR as [SR AR].
    destruct (IH _ _ (record_add d rk rv) _ _ WL R1) as (d' & E & RO); auto; [rewrite weight_leaf in FU; lia|].
    exists d'. split; auto. apply res_add; auto. apply above_None; auto.
  - rewrite (cur_done _ _ _ _ WL).
    destruct (at_sub _ _ _ _ _ _ WR) as (sr & mr & r1 & r2 & -> & -> & _ & -> & _ & R1 & _ & _ & PR & _).
    cbn [log_new]. rewrite PR. cbn [bind]. rewrite weight_into in FU. rewrite L_into in SR.
    destruct (IH _ _ (record_new_cid d (tcid (Node rt))) _ _ WL R1) as (d' & E & RO); auto; [lia|].
    exists d'. split; auto. apply res_into_r; auto.
  - rewrite (cur_done _ _ _ _ WR). destruct (at_leaf _ _ _ _ _ _ _ WL) as (sl & l1 & -> & -> & _ & -> & L1).
    cbn [log_removed bind]. apply sorted_leaf in SL as [SL AL].
    destruct (IH _ _ (record_delete d lk lv) _ _ L1 WR) as (d' & E & RO); auto; [rewrite weight_leaf in FU; lia|].
    exists d'. split; auto. apply res_delete; auto. apply above_None; auto.
  - destruct (at_leaf _ _ _ _ _ _ _ WL) as (sl & l1 & -> & -> & _ & AL & L1).
    destruct (at_leaf _ _ _ _ _ _ _ WR) as (sr & r1 & -> & -> & _ & AR & R1).
    pose proof SL as SL0. pose proof SR as SR0.
    apply sorted_leaf in SL as [SL HL]. apply sorted_leaf in SR as [SR HR]. rewrite !weight_leaf in FU.
    destruct (str_eqb lk rk) eqn:EK.
    + apply str_eqb_eq in EK. subst rk. rewrite AL, AR. cbn [bind].
      destruct (IH _ _ (if str_eqb lv rv then d else record_update d lk lv rv) _ _ L1 R1) as (d' & E & RO); auto; [lia|].
      exists d'. split; auto. apply res_same; auto; apply above_None; auto.
    + destruct (str_ltb lk rk) eqn:LT.
      * apply str_ltb_lt in LT. rewrite AL. cbn [bind].
        destruct (IH _ _ (record_delete d lk lv) _ _ L1 WR) as (d' & E & RO); auto; [rewrite weight_leaf; lia|].
        exists d'. split; auto. apply res_delete; auto; apply above_None; auto.
        constructor; auto. eapply above_trans; eauto.
      * assert (GT : slt rk lk).
        { destruct (slt_total lk rk) as [X|[X|X]]; auto.
          - apply str_ltb_lt in X. congruence.
          - subst. rewrite str_eqb_refl in EK. discriminate. }
        rewrite AR. cbn [bind].
        destruct (IH _ _ (record_add d rk rv) _ _ WL R1) as (d' & E & RO); auto; [rewrite weight_leaf; lia|].
        exists d'. split; auto. apply res_add; auto; apply above_None; auto.
        constructor; auto. eapply above_trans; eauto.
  - destruct (at_leaf _ _ _ _ _ _ _ WL) as (sl & l1 & -> & -> & LL & AL & L1).
    destruct (at_sub _ _ _ _ _ _ WR) as (sr & mr & r1 & r2 & -> & -> & LR & AR & IR & R1 & _ & _ & PR & _).
    destruct (LL (hint f true)) as [zl ->]. destruct (LR (hint f false)) as [zr ->]. cbn [bind log_new].
    rewrite PR, AR, IR. cbn [bind]. rewrite weight_into in FU. rewrite L_into in SR.
    destruct (IH _ _ (record_new_cid d (tcid (Node rt))) _ _ WL R1) as (d' & E & RO); auto; [lia|].
    exists d'. split; [|apply res_into_r; auto]. destruct (zr <? zl)%Z; [|destruct (zl <? zr)%Z]; exact E.
  - rewrite (cur_done _ _ _ _ WR).
    destruct (at_sub _ _ _ _ _ _ WL) as (sl & ml & l1 & l2 & -> & -> & _ & -> & _ & L1 & _ & _ & PL & _).
    cbn [log_removed]. rewrite PL. cbn [bind]. rewrite weight_into in FU. rewrite L_into in SL.
    destruct (IH _ _ (record_removed_cid d (tcid (Node lt))) _ _ L1 WR) as (d' & E & RO); auto; [lia|].
    exists d'. split; auto. apply res_into_l; auto.
  - destruct (at_leaf _ _ _ _ _ _ _ WR) as (sr & r1 & -> & -> & LR & AR & R1).
    destruct (at_sub _ _ _ _ _ _ WL) as (sl & ml & l1 & l2 & -> & -> & LL & AL & IL & L1 & _ & _ & PL & _).
    destruct (LL (hint f true)) as [zl ->]. destruct (LR (hint f false)) as [zr ->]. cbn [bind log_removed].
    rewrite PL, AL, IL. cbn [bind]. rewrite weight_into in FU. rewrite L_into in SL.
    destruct (IH _ _ (record_removed_cid d (tcid (Node lt))) _ _ L1 WR) as (d' & E & RO); auto; [lia|].
    exists d'. split; [|apply res_into_l; auto]. destruct (zr <? zl)%Z; [|destruct (zl <? zr)%Z]; exact E.
  - destruct (at_sub _ _ _ _ _ _ WL) as (sl & ml & l1 & l2 & -> & -> & LL & AL & IL & L1 & OL & L2 & PL & (nl & WFL)).
    destruct (at_sub _ _ _ _ _ _ WR) as (sr & mr & r1 & r2 & -> & -> & LR & AR & IR & R1 & OR & R2 & PR & (nr & WFR)).
    destruct (LL (hint f true)) as [zl ->]. destruct (LR (hint f false)) as [zr ->]. cbn [bind log_removed log_new].
    rewrite PL, PR, IL, IR, OL, OR. cbn [bind].
    pose proof SL as SL0. pose proof SR as SR0. rewrite L_into in SL, SR.
    pose proof FU as FU0. rewrite !weight_into in FU.
    destruct (zr <? zl)%Z; [|destruct (zl <? zr)%Z].
    + destruct (IH _ _ (record_removed_cid d (tcid (Node lt))) _ _ L1 WR) as (d' & E & RO); auto; [rewrite weight_into; lia|].
      exists d'. split; auto. apply res_into_l; auto.
    + destruct (IH _ _ (record_new_cid d (tcid (Node rt))) _ _ WL R1) as (d' & E & RO); auto; [rewrite weight_into; lia|].
      exists d'. split; auto. apply res_into_r; auto.
    + destruct (str_eqb (tcid (Node lt)) (tcid (Node rt))) eqn:EP.
      * apply str_eqb_eq in EP. apply (tcid_inj digest kdigest inj nl _ nr _ WFL WFR) in EP. rewrite EP in *.
        pose proof (weight_skip (Node rt) fl). pose proof (weight_skip (Node rt) fr).
        assert (S1 : forall es, ssorted (keys (L (TSub (Node rt) :: es))) -> ssorted (keys (L es))).
        { intros es S. change (L (TSub (Node rt) :: es)) with (leaves (Node rt) ++ L es) in S. rewrite keys_app in S.
          apply StronglySorted_app in S. tauto. }
        destruct (IH _ _ d _ _ L2 R2) as (d' & E & RO); auto; [lia|].
        exists d'. split; auto. apply res_skip; auto; apply sorted_nodup; auto.
      * destruct (IH _ _ (record_removed_cid (record_new_cid d (tcid (Node rt))) (tcid (Node lt))) _ _ L1 R1) as (d' & E & RO); auto; [lia|].
        exists d'. split; auto. apply res_into_r. apply res_into_l. exact RO.
Qed.

End Loop.
