(** Representation of specification trees by MST objects, and the lemma for each
    operation: what it returns on a well-formed tree. *)
From Coq Require Import String List NArith ZArith Bool Lia Sorted.
From Coq Require Import ZifyBool ZifyNat ZifyN.
From Verif Require Import Base Lists Ipld IpldProofs MstModel MstTree MstTreeProofs.
Import ListNotations.

Ltac splits := repeat match goal with |- _ /\ _ => split end.

(** ** List facts *)

Lemma firstn_len {A} (l r : list A) : firstn (length l) (l ++ r) = l.
Proof. rewrite firstn_app, firstn_all, Nat.sub_diag. simpl. apply app_nil_r. Qed.

Lemma skipn_len {A} (l r : list A) : skipn (length l) (l ++ r) = r.
Proof. rewrite skipn_app, skipn_all, Nat.sub_diag. auto. Qed.

Lemma skipn_S_len {A} (l : list A) x r : skipn (S (length l)) (l ++ x :: r) = r.
Proof.
  replace (S (length l)) with (length (l ++ [x])) by (rewrite app_length; simpl; lia).
  replace (l ++ x :: r) with ((l ++ [x]) ++ r) by (rewrite <- app_assoc; auto).
  apply skipn_len.
Qed.

Lemma nth_error_len {A} (l : list A) x r : nth_error (l ++ x :: r) (length l) = Some x.
Proof. rewrite nth_error_app2, Nat.sub_diag; auto. Qed.

Lemma snoc_len {A} (l : list A) x : length (l ++ [x]) = S (length l).
Proof. rewrite app_length. simpl. lia. Qed.

Lemma S_sub n : S n - 1 = n.
Proof. lia. Qed.

Lemma at_prev_snoc l x r : at_prev ((l ++ [x]) ++ r) (length (l ++ [x])) = Some x.
Proof. rewrite snoc_len. simpl. rewrite <- app_assoc. apply nth_error_len. Qed.

Lemma at_prev_last l x : at_prev (l ++ [x]) (length (l ++ [x])) = Some x.
Proof. rewrite snoc_len. simpl. apply nth_error_len. Qed.

Lemma Forall2_snoc_inv {A B} (R : A -> B -> Prop) l1 l2 : Forall2 R l1 l2 ->
  (l1 = [] /\ l2 = []) \/
  exists a x b y, l1 = a ++ [x] /\ l2 = b ++ [y] /\ Forall2 R a b /\ R x y.
Proof.
  induction 1 as [|x y l1 l2 H F IH]; [auto|right].
  destruct IH as [[-> ->]|(a & x' & b & y' & -> & -> & F' & H')].
  - exists [], x, [], y. auto.
  - exists (x :: a), x', (y :: b), y'. auto.
Qed.

Lemma Forall_keys_app {V} (P : str -> Prop) (a b : list (str * V)) :
  Forall P (keys (a ++ b)) <-> Forall P (keys a) /\ Forall P (keys b).
Proof. rewrite keys_app. apply Forall_app. Qed.

Lemma dget_lt {V} key (a b : list (str * V)) :
  Forall (fun k => slt k key) (keys a) -> dget key (a ++ b) = dget key b.
Proof.
  intros F. rewrite dget_app. rewrite (proj2 (dget_None key a)); auto.
  intros H. rewrite Forall_forall in F. exact (slt_irrefl _ (F _ H)).
Qed.

Lemma dget_gt {V} key (a b : list (str * V)) :
  Forall (fun k => slt key k) (keys b) -> dget key (a ++ b) = dget key a.
Proof.
  intros F. rewrite dget_app. rewrite (proj2 (dget_None key b)).
  - destruct (dget key a); auto.
  - intros H. rewrite Forall_forall in F. exact (slt_irrefl _ (F _ H)).
Qed.

Lemma noadj_leaf a k v b : noadj (a ++ TLeaf k v :: b) <-> noadj a /\ noadj b.
Proof.
  rewrite noadj_app. change (noadj (TLeaf k v :: b)) with (noadj b). split; [tauto|].
  intros [H1 H2]. splits; auto. intros [_ (t & r & E)]. discriminate.
Qed.

Lemma noadj_sub a t b :
  noadj (a ++ TSub t :: b) <-> noadj a /\ noadj b /\ ~ ends_sub a /\ ~ starts_sub b.
Proof.
  rewrite noadj_app. split.
  - intros (H1 & H2 & H3). splits; auto.
    + eapply noadj_tl; eauto.
    + intros E. apply H3. split; auto. exists t, b; auto.
    + intros (t2 & r & ->). simpl in H2. auto.
  - intros (H1 & H2 & H3 & H4). splits; auto.
    + destruct b as [|[k v|t2] r]; simpl; auto. apply H4. exists t2, r; auto.
    + tauto.
Qed.

Lemma not_ends_sub_nil : ~ ends_sub [].
Proof. intros (l & t & E). destruct l; discriminate. Qed.
Lemma not_starts_sub_nil : ~ starts_sub [].
Proof. intros (t & r & E). discriminate. Qed.
Lemma not_starts_sub_leaf k v r : ~ starts_sub (TLeaf k v :: r).
Proof. intros (t & r' & E). discriminate. Qed.
Lemma not_ends_sub_leaf l k v : ~ ends_sub (l ++ [TLeaf k v]).
Proof. intros (l' & t & E). apply app_inj_tail in E as [_ E]. discriminate. Qed.
Lemma ends_sub_snoc l t : ends_sub (l ++ [TSub t]).
Proof. exists l, t. auto. Qed.

Section Rep.
Variable digest : list N -> list N.
Variable kdigest : str -> list N.
Variable rd : cid -> option ipld.

Notation zeros := (zeros kdigest).
Notation wf := (wf kdigest).
Notation wfE := (wfE kdigest).
Notation tcid := (tcid digest).
Notation pent := (pent digest).
Notation tnode := (tnode digest).
Notation get_entries := (get_entries kdigest rd).
Notation get_pointer := (get_pointer digest).
Notation pentries := (pentries digest).
Notation lz := (leading_zeros_on_hash kdigest).

(** The whole tree is in block storage. *)
Inductive stored : tree -> Prop :=
| stored_node es :
    rd (tcid (Node es)) = Some (tnode (Node es)) ->
    (forall t, In (TSub t) es -> stored t) -> stored (Node es).

(** [rep n m t]: the object [m], taken as a node at layer [n], stands for [t]. *)
Fixpoint rep (n : nat) (m : mst) (t : tree) {struct n} : Prop :=
  match m, t with
  | Mst oes p l o, Node tes =>
      (l = None \/ l = Some (Z.of_nat n)) /\
      (l = None -> tes = [] -> n = 0) /\
      (o = false -> p = Some (tcid t)) /\
      match oes with
      | Some es =>
          Forall2 (fun e te => match e, te with
                               | Leaf k v, TLeaf k' v' => k = k' /\ v = v'
                               | Sub m', TSub t' => match n with O => False | S n' => rep n' m' t' end
                               | _, _ => False
                               end) es tes
      | None => o = false /\ stored t
      end
  end.

Definition repE (n : nat) (e : entry) (te : tentry) : Prop :=
  match e, te with
  | Leaf k v, TLeaf k' v' => k = k' /\ v = v'
  | Sub m', TSub t' => match n with O => False | S n' => rep n' m' t' end
  | _, _ => False
  end.

Lemma rep_eq n oes p l o tes :
  rep n (Mst oes p l o) (Node tes) <->
  (l = None \/ l = Some (Z.of_nat n)) /\
  (l = None -> tes = [] -> n = 0) /\
  (o = false -> p = Some (tcid (Node tes))) /\
  match oes with
  | Some es => Forall2 (repE n) es tes
  | None => o = false /\ stored (Node tes)
  end.
Proof. destruct n; reflexivity. Qed.

Lemma tcid_eq es : tcid (Node es) = cid_of digest (ndata_ipld (ser (map pent es))).
Proof. reflexivity. Qed.

Lemma get_entries_ok n m tes : rep n m (Node tes) -> wf n (Node tes) ->
  exists es, get_entries m = Ok es /\ Forall2 (repE n) es tes.
Proof.
  destruct m as [oes p l o]. rewrite rep_eq. intros (Hl & Hle & Hp & H) W.
  apply wf_node in W as [NA F].
  destruct oes as [es|].
  - exists es. simpl. auto.
  - destruct H as [-> ST]. rewrite (Hp eq_refl). cbn [MstModel.get_entries].
    inversion ST as [es' Hrd Hsub]; subst es'. rewrite Hrd.
    unfold MstTree.tnode. cbn [tentries].
    rewrite ipld_ndata_ok. cbn [bind].
    pose proof (ser_ok digest kdigest n tes NA F) as S1.
    remember (ser (map pent tes)) as d eqn:Hd.
    eexists; split; [reflexivity|].
    rewrite (deser_ser _ _ _ S1).
    clear Hd.
    pose proof (ser_first_key _ _ S1) as K.
    set (layer := match nd_e d with [] => None | e :: _ => Some (lz (ed_k e)) end).
    assert (Hlay : layer = None \/ layer = Some (Z.of_nat n)).
    { unfold layer. destruct (nd_e d) as [|e es']; auto. right. destruct K as [v K].
      apply in_map_iff in K as (te & E & HI). destruct te as [k v'|t]; simpl in E; inversion E; subst.
      rewrite Forall_forall in F. destruct (F _ HI) as [Hz _].
      unfold leading_zeros_on_hash. unfold MstTree.zeros in Hz. rewrite Hz. auto. }
    clearbody layer. clear - F Hsub Hlay.
    induction tes as [|te tes IH]; simpl; constructor.
    + inversion F as [|? ? W F']; subst. destruct te as [k v|t]; cbn [MstTree.pent lazy repE]; auto.
      destruct n as [|n]; [destruct W|]. destruct W as [W NE].
      destruct t as [tes']. apply rep_eq. refine (conj _ (conj _ (conj _ (conj _ _)))); auto.
      * destruct Hlay as [->| ->]; auto. right. f_equal. lia.
      * congruence.
      * apply Hsub. simpl; auto.
    + apply IH.
      * inversion F; auto.
      * intros t Ht. apply Hsub. simpl; auto.
Qed.

Lemma get_pointer_some es p l :
  get_pointer (Mst (Some es) p l true) = do pes <- pentries es; cid_for_pentries digest pes.
Proof.
  reflexivity.
Qed.

Lemma get_pointer_ok n : forall m t, rep n m t -> wf n t -> get_pointer m = Ok (tcid t).
Proof.
  induction n as [|n IH]; intros [oes p l o] [tes] R W;
    apply rep_eq in R as (Hl & Hle & Hp & H); apply wf_node in W as [NA F].
  - destruct o.
    + destruct oes as [es|]; [|destruct H; discriminate].
      rewrite get_pointer_some.
      assert (E : pentries es = Ok (map pent tes)).
      { clear NA. induction H as [|e te es tes He H IHe]; simpl; auto.
        inversion F as [|? ? Wte F']; subst.
        destruct e as [k v|m'], te as [k' v'|t']; simpl in He; try tauto.
        destruct He; subst. cbn [MstModel.pentries]. rewrite IHe by (auto; congruence). auto. }
      rewrite E. cbn [bind]. unfold cid_for_pentries.
      rewrite (ser_ok digest kdigest 0) by auto. auto.
    + simpl. rewrite Hp; auto.
  - destruct o.
    + destruct oes as [es|]; [|destruct H; discriminate].
      rewrite get_pointer_some.
      assert (E : pentries es = Ok (map pent tes)).
      { clear NA Hp Hle. induction H as [|e te es tes He H IHe]; simpl; auto.
        inversion F as [|? ? Wte F']; subst.
        destruct e as [k v|m'], te as [k' v'|t']; simpl in He; try tauto.
        - destruct He; subst. cbn [MstModel.pentries]. rewrite IHe by auto. auto.
        - destruct Wte as [Wt NE].
          cbn [MstModel.pentries]. rewrite (IH _ _ He Wt). cbn [bind].
          rewrite IHe by auto. auto. }
      rewrite E. cbn [bind]. unfold cid_for_pentries.
      rewrite (ser_ok digest kdigest (S n)) by auto. auto.
    + simpl. rewrite Hp; auto.
Qed.

Lemma pentries_ok n es tes : Forall2 (repE n) es tes -> Forall (wfE n) tes ->
  pentries es = Ok (map pent tes).
Proof.
  intros H F. induction H as [|e te es tes He H IHe]; simpl; auto.
  inversion F as [|? ? Wte F']; subst.
  destruct e as [k v|m'], te as [k' v'|t']; simpl in He; try tauto.
  - destruct He; subst. cbn [MstModel.pentries]. rewrite IHe by auto. auto.
  - destruct n as [|n]; [destruct He|]. destruct Wte as [Wt NE].
    cbn [MstModel.pentries]. rewrite (get_pointer_ok _ _ _ He Wt). cbn [bind].
    rewrite IHe by auto. auto.
Qed.

Lemma cid_for_entries_ok n es tes : Forall2 (repE n) es tes -> wf n (Node tes) ->
  cid_for_entries digest es = Ok (tcid (Node tes)).
Proof.
  intros H W. apply wf_node in W as [NA F]. unfold cid_for_entries.
  rewrite (pentries_ok _ _ _ H F). cbn [bind]. unfold cid_for_pentries.
  rewrite (ser_ok digest kdigest n) by auto. auto.
Qed.

Lemma mst_create_ok n es tes l : Forall2 (repE n) es tes -> wf n (Node tes) ->
  l = Some (Z.of_nat n) -> exists m, mst_create digest es l = Ok m /\ rep n m (Node tes)
  /\ rep n (mark_outdated m) (Node tes).
Proof.
  intros H W ->. unfold mst_create. rewrite (cid_for_entries_ok _ _ _ H W). cbn [bind].
  eexists; split; [reflexivity|].
  split; apply rep_eq; splits; auto; discriminate.
Qed.

Lemma new_tree_rep n m t es tes : rep n m t -> Forall2 (repE n) es tes -> tes <> [] ->
  rep n (new_tree m es) (Node tes).
Proof.
  destruct m as [oes p l o], t as [tes0]. rewrite rep_eq. intros (Hl & Hle & Hp & H) F NE.
  simpl. apply rep_eq. splits; auto; try discriminate. congruence.
Qed.

(** Without the side condition, for trees whose layer hint is set. *)
Lemma new_tree_rep_hint n m t es tes : rep n m t -> m_layer m = Some (Z.of_nat n) ->
  Forall2 (repE n) es tes -> rep n (new_tree m es) (Node tes).
Proof.
  destruct m as [oes p l o], t as [tes0]. rewrite rep_eq. intros (Hl & Hle & Hp & H) E F.
  simpl in E. subst. simpl. apply rep_eq. splits; auto; discriminate.
Qed.

Lemma set_layer_rep n m t : rep n m t -> rep n (set_layer m (Z.of_nat n)) t.
Proof.
  destruct m as [oes p l o], t as [tes0]. rewrite rep_eq. intros (Hl & Hle & Hp & H).
  simpl. apply rep_eq. splits; auto; discriminate.
Qed.

Lemma set_layer_entries m l : get_entries (set_layer m l) = get_entries m.
Proof. destruct m as [[es|] [p|] l' o]; auto. Qed.

(** ** Layers *)

Lemma layer_for_entries_ok n es tes : Forall2 (repE n) es tes -> Forall (wfE n) tes ->
  (layer_for_entries kdigest es = Some (Z.of_nat n) /\ exists k v, In (TLeaf k v) tes)
  \/ (layer_for_entries kdigest es = None /\ forall k v, ~ In (TLeaf k v) tes).
Proof.
  intros H F. induction H as [|e te es tes He H IHe]; simpl.
  - right. auto.
  - inversion F as [|? ? Wte F']; subst.
    destruct e as [k v|m'], te as [k' v'|t']; simpl in He; try tauto.
    + destruct He; subst. left. destruct Wte as [Hz _]. split; [|eauto].
      unfold leading_zeros_on_hash. unfold MstTree.zeros in Hz. rewrite Hz. auto.
    + destruct (IHe F') as [[E (k & v & HI)]|[E HN]]; [left|right]; split; auto.
      * eauto.
      * intros k v [X|X]; [discriminate|]. eapply HN; eauto.
Qed.

Lemma noleaf_noadj tes : noadj tes -> (forall k v, ~ In (TLeaf k v) tes) ->
  tes = [] \/ exists t, tes = [TSub t].
Proof.
  intros NA HN. destruct tes as [|[k v|t] tes]; auto.
  - exfalso. eapply HN. simpl; eauto.
  - right. destruct tes as [|[k v|t2] tes]; eauto.
    + exfalso. eapply HN. simpl; eauto.
    + simpl in NA. tauto.
Qed.

Lemma attempt_get_layer_ok n : forall fuel m t, n < fuel -> rep n m t -> wf n t -> t <> Node [] ->
  attempt_get_layer kdigest rd fuel m = Ok (Some (Z.of_nat n)).
Proof.
  induction n as [|n IH]; intros fuel m [tes] Hf R W NE; (destruct fuel as [|f]; [lia|]);
    cbn [attempt_get_layer]; pose proof (get_entries_ok _ _ _ R W) as (es & Hes & HF);
    destruct m as [oes p l o]; pose proof R as R'; apply rep_eq in R' as (Hl & Hle & Hp & H);
    cbn [m_layer]; (destruct Hl as [->| ->]; [|auto]);
    rewrite Hes; cbn [bind]; pose proof W as W'; apply wf_node in W' as [NA F];
    (destruct (layer_for_entries_ok _ _ _ HF F) as [[E _]|[E HN]]; rewrite E; [auto|]);
    (destruct (noleaf_noadj _ NA HN) as [->|[t' ->]]; [congruence|]).
  - inversion F as [|? ? W1]; subst. destruct W1.
  - inversion F as [|? ? W1]; subst. destruct W1 as [Wt NEt].
    inversion HF as [|e te es' tes' He HF' E1 E2]; subst. inversion HF'; subst.
    destruct e as [k v|m']; simpl in He; [tauto|].
    rewrite (IH f m' t' ltac:(lia) He Wt NEt). cbn [bind]. do 2 f_equal. lia.
Qed.

Lemma get_layer_ok fuel n m t : n < fuel -> rep n m t -> wf n t ->
  get_layer kdigest rd fuel m = Ok (Z.of_nat n).
Proof.
  intros Hf R W. unfold get_layer. destruct t as [[|te tes]].
  - destruct fuel as [|f]; [lia|]. cbn [attempt_get_layer].
    destruct (get_entries_ok _ _ _ R W) as (es & Hes & HF). inversion HF; subst.
    destruct m as [oes p l o]. apply rep_eq in R as (Hl & Hle & Hp & H). cbn [m_layer].
    destruct Hl as [->| ->]; [|auto]. rewrite Hes. cbn [bind layer_for_entries].
    rewrite Hle; auto.
  - rewrite (attempt_get_layer_ok n fuel m _ Hf R W); [auto|discriminate].
Qed.

(** ** The view of a node around a key *)

Lemma ord_l key tl0 : ~ ends_sub tl0 -> ssorted (keys (L tl0)) ->
  (forall k v, In (TLeaf k v) tl0 -> slt k key) -> Forall (fun k => slt k key) (keys (L tl0)).
Proof.
  intros NE S H. destruct tl0 as [|x tl0 _] using rev_ind; [constructor|].
  destruct x as [k0 v0|t]; [|exfalso; apply NE, ends_sub_snoc].
  rewrite L_app, L_one in *. rewrite keys_app in *. cbn in S |- *.
  apply StronglySorted_app in S as (S1 & S2 & F).
  assert (H0 : slt k0 key) by (eapply H; apply in_or_app; right; simpl; eauto).
  apply Forall_app; split; [|constructor; auto].
  eapply Forall_impl; [|exact F]. intros k Hk. inversion Hk; subst.
  eapply slt_trans; eauto.
Qed.

Lemma find_index_cut n es tes key : Forall2 (repE n) es tes -> exists el er tl tr,
  es = el ++ er /\ tes = tl ++ tr /\ find_index key es = length el /\
  Forall2 (repE n) el tl /\ Forall2 (repE n) er tr /\
  (forall k v, In (TLeaf k v) tl -> slt k key) /\
  ((er = [] /\ tr = []) \/
   exists k v er' tr', er = Leaf k v :: er' /\ tr = TLeaf k v :: tr' /\ ~ slt k key
                       /\ Forall2 (repE n) er' tr').
Proof.
  induction 1 as [|e te es tes He H IH].
  - exists [], [], [], []. splits; simpl; auto; tauto.
  - destruct IH as (el & er & tl & tr & E1 & E2 & E3 & F1 & F2 & H1 & H2).
    destruct e as [k v|m], te as [k' v'|t]; simpl in He; try tauto.
    + destruct He; subst k' v'. cbn [find_index].
      destruct (str_leb key k) eqn:E.
      * exists [], (Leaf k v :: es), [], (TLeaf k v :: tes).
        splits; auto.
        -- constructor; simpl; auto.
        -- simpl; tauto.
        -- right. exists k, v, es, tes. splits; auto. apply str_leb_nlt; auto.
      * exists (Leaf k v :: el), er, (TLeaf k v :: tl), tr.
        subst. simpl. splits; auto; try (constructor; simpl; auto; fail).
        intros k2 v2 [HI|HI]; [|eauto]. inversion HI; subst.
        rewrite str_leb_ltb in E. apply negb_false_iff, str_ltb_lt in E. auto.
    + cbn [find_index]. exists (Sub m :: el), er, (TSub t :: tl), tr.
      subst. simpl. splits; auto; try (constructor; simpl; auto; fail).
      intros k2 v2 [HI|HI]; [discriminate|eauto].
Qed.

Definition prev_not_sub (es : list entry) (i : nat) : Prop :=
  forall m, at_prev es i <> Some (Sub m).
Definition no_leaf_at (key : str) (es : list entry) (i : nat) : Prop :=
  forall v, at_index es i <> Some (Leaf key v).

Lemma skip_leaf {A} key es i (X : str -> cid -> A) (D : A) : no_leaf_at key es i ->
  match at_index es i with
  | Some (Leaf k v) => if str_eqb k key then X k v else D
  | _ => D
  end = D.
Proof.
  intros H. destruct (at_index es i) as [[k v|m]|] eqn:E; auto.
  destruct (str_eqb_spec k key); auto. subst. exfalso. eapply H; eauto.
Qed.

Lemma skip_prev {A} es i (X : mst -> A) (D : A) : prev_not_sub es i ->
  match at_prev es i with Some (Sub p) => X p | _ => D end = D.
Proof.
  intros H. destruct (at_prev es i) as [[k v|m]|] eqn:E; auto. exfalso. eapply H; eauto.
Qed.

Lemma view n es tes key :
  Forall2 (repE n) es tes -> wf n (Node tes) -> ssorted (keys (L tes)) ->
  exists el er tl tr,
    es = el ++ er /\ tes = tl ++ tr /\ find_index key es = length el /\
    Forall2 (repE n) el tl /\ Forall2 (repE n) er tr /\
    ((prev_not_sub es (length el) /\ Forall (fun k => slt k key) (keys (L tl)) /\ ~ ends_sub tl)
     \/ exists n' el0 m' tl0 t', n = S n' /\ el = el0 ++ [Sub m'] /\ tl = tl0 ++ [TSub t'] /\
          Forall2 (repE n) el0 tl0 /\ rep n' m' t' /\ wf n' t' /\ t' <> Node [] /\
          Forall (fun k => slt k key) (keys (L tl0)) /\ ~ ends_sub tl0) /\
    ((no_leaf_at key es (length el) /\ Forall (fun k => slt key k) (keys (L tr)) /\ ~ starts_sub tr)
     \/ exists v er' tr', er = Leaf key v :: er' /\ tr = TLeaf key v :: tr' /\
          Forall2 (repE n) er' tr' /\ Forall (fun k => slt key k) (keys (L tr'))).
Proof.
  intros HF W S. apply wf_node in W as [NA F].
  destruct (find_index_cut n es tes key HF) as (el & er & tl & tr & E1 & E2 & E3 & F1 & F2 & H1 & H2).
  exists el, er, tl, tr. do 5 (split; [auto|]).
  subst tes. rewrite L_app, keys_app in S. apply StronglySorted_app in S as (S1 & S2 & S3).
  apply noadj_app in NA as (NA1 & NA2 & NA3). apply Forall_app in F as [Fl Fr].
  split.
  - destruct (Forall2_snoc_inv _ _ _ F1) as [[-> ->]|(el0 & x & tl0 & y & -> & -> & F0 & Hxy)].
    + left. split; [intros m E; discriminate E|].
      split; [constructor|apply not_ends_sub_nil].
    + destruct x as [k v|m'], y as [k' v'|t']; simpl in Hxy; try tauto.
      * left. split; [|split].
        -- intros m. rewrite E1, at_prev_snoc. discriminate.
        -- apply ord_l; auto. apply not_ends_sub_leaf.
        -- apply not_ends_sub_leaf.
      * destruct n as [|n]; [tauto|]. right.
        apply Forall_app in Fl as [Fl0 Fl1]. inversion Fl1 as [|? ? W1]; subst. destruct W1 as [Wt NE].
        apply (noadj_sub tl0 t' []) in NA1 as (NA1 & _ & NE0 & _).
        exists n, el0, m', tl0, t'. splits; auto.
        apply ord_l; auto.
        -- rewrite L_app, keys_app in S1. apply StronglySorted_app in S1. tauto.
        -- intros k v HI. apply (H1 k v). apply in_or_app; auto.
  - destruct H2 as [[-> ->]|(k & v & er' & tr' & -> & -> & Hk & F2')].
    + left. split; [|split; [constructor|apply not_starts_sub_nil]].
      intros v. rewrite E1, app_nil_r. unfold at_index.
      rewrite (proj2 (nth_error_None el (length el))); [discriminate|lia].
    + rewrite L_cons in S2. cbn [eleaves app keys map fst] in S2.
      inversion S2 as [|? ? S2' F2k]; subst.
      destruct (slt_total k key) as [X|[X|X]]; [tauto| |].
      * subst k. right. exists v, er', tr'. auto.
      * left. split; [|split].
        -- intros v'. unfold at_index. rewrite nth_error_len.
           intros E. inversion E; subst. exact (slt_irrefl _ X).
        -- rewrite L_cons. cbn [eleaves app keys map fst]. constructor; auto.
           eapply Forall_impl; [|exact F2k]. intros k' Hk'. eapply slt_trans; eauto.
        -- apply not_starts_sub_leaf.
Qed.

Lemma sorted_app_inv {V} (a b : list (str * V)) :
  ssorted (keys (a ++ b)) -> ssorted (keys a) /\ ssorted (keys b).
Proof. rewrite keys_app. intros H. apply StronglySorted_app in H. tauto. Qed.

(** ** get *)

Lemma get_ok n : forall fuel m t key, n < fuel -> rep n m t -> wf n t -> sorted_tree t ->
  get kdigest rd fuel m key = Ok (dget key (leaves t)).
Proof.
  induction n as [n IH] using lt_wf_ind. intros fuel m [tes] key Hf R W S.
  destruct fuel as [|f]; [lia|]. unfold sorted_tree in S. rewrite leaves_node in *.
  cbn [get]. destruct (get_entries_ok _ _ _ R W) as (es & Hes & HF). rewrite Hes. cbn [bind].
  destruct (view n es tes key HF W S) as (el & er & tl & tr & E1 & E2 & E3 & F1 & F2 & HL & HR).
  rewrite E3.
  destruct HR as [(NL & GT & NS)|(v & er' & tr' & -> & -> & F2' & GT)].
  - set (desc := match at_prev es (length el) with Some (Sub prev) => get kdigest rd f prev key | _ => Ok None end).
    assert (HD : desc = Ok (dget key (L tes))).
    { unfold desc. destruct HL as [(NP & LT & _)|(n' & el0 & m' & tl0 & t' & -> & -> & -> & F0 & R' & W' & NE' & LT & NE0)].
      - assert (E : dget key (L tes) = None).
        { rewrite E2, L_app, dget_gt, <- (app_nil_r (L tl)), dget_lt; auto. }
        rewrite E. destruct (at_prev es (length el)) as [[|m']|] eqn:E4; auto.
        exfalso. eapply NP; eauto.
      - rewrite E1, at_prev_snoc. rewrite (IH n' ltac:(lia) f m' t' key); auto; try lia.
        + rewrite E2, !L_app, L_one, dget_gt, dget_lt; auto.
        + rewrite E2, !L_app, L_one in S. apply sorted_app_inv in S as [S _].
          apply sorted_app_inv in S as [_ S]. auto. }
    destruct (at_index es (length el)) as [[k v|]|] eqn:E4; auto.
    destruct (str_eqb_spec k key); auto. subst k. exfalso. eapply NL; eauto.
  - rewrite E1. unfold at_index. rewrite nth_error_len, str_eqb_refl. f_equal. symmetry.
    apply In_dget; [apply ssorted_NoDup; auto|].
    rewrite E2, L_app, L_cons. apply in_or_app; right; simpl; auto.
Qed.

(** ** update *)

Lemma dset_mid {V} key (v v0 : V) a b : Forall (fun k => slt k key) (keys a) ->
  dset key v (a ++ (key, v0) :: b) = a ++ (key, v) :: b.
Proof.
  induction a as [|[k x] a IH]; simpl; intros F.
  - rewrite str_eqb_refl. auto.
  - inversion F; subst. destruct (str_eqb_spec key k).
    + subst. exfalso. eapply slt_irrefl; eauto.
    + f_equal. auto.
Qed.

Lemma dset_lt {V} key (v : V) a b : Forall (fun k => slt k key) (keys a) ->
  dset key v (a ++ b) = a ++ dset key v b.
Proof.
  induction a as [|[k x] a IH]; simpl; intros F; auto.
  inversion F; subst. destruct (str_eqb_spec key k).
  - subst. exfalso. eapply slt_irrefl; eauto.
  - f_equal. auto.
Qed.

Lemma dset_present {V} key (v : V) a b : dget key a <> None ->
  dset key v (a ++ b) = dset key v a ++ b.
Proof.
  induction a as [|[k x] a IH]; simpl; intros H; [congruence|].
  destruct (str_eqb_spec key k); auto. simpl. f_equal. auto.
Qed.

Lemma keys_dset_present {V} key (v : V) a : dget key a <> None -> keys (dset key v a) = keys a.
Proof.
  induction a as [|[k x] a IH]; simpl; intros H; [congruence|].
  destruct (str_eqb_spec key k); auto. simpl. f_equal. auto.
Qed.

Lemma update_ok n : forall fuel m t key v, n < fuel -> rep n m t -> wf n t -> sorted_tree t ->
  valid_key key = true ->
  match dget key (leaves t) with
  | None => update kdigest rd fuel m key v = Err KeyError
  | Some _ => exists m' t', update kdigest rd fuel m key v = Ok m' /\ rep n m' t' /\ wf n t' /\
                t' <> Node [] /\ leaves t' = dset key v (leaves t)
  end.
Proof.
  induction n as [n IH] using lt_wf_ind. intros fuel m [tes] key v Hf R W S V.
  destruct fuel as [|f]; [lia|]. unfold sorted_tree in S. rewrite leaves_node in *.
  cbn [update]. unfold ensure_valid_key. rewrite V. cbn [bind].
  destruct (get_entries_ok _ _ _ R W) as (es & Hes & HF). rewrite Hes. cbn [bind].
  destruct (view n es tes key HF W S) as (el & er & tl & tr & E1 & E2 & E3 & F1 & F2 & HL & HR).
  rewrite E3. pose proof W as W0. apply wf_node in W0 as [NA F].
  destruct HR as [(NL & GT & NS)|(v0 & er' & tr' & -> & -> & F2' & GT)].
  - rewrite (skip_leaf key es (length el)) by auto.
    destruct HL as [(NP & LT & _)|(n' & el0 & m' & tl0 & t' & -> & -> & -> & F0 & R' & W' & NE' & LT & NE0)].
    + assert (E : dget key (L tes) = None).
      { rewrite E2, L_app, dget_gt, <- (app_nil_r (L tl)), dget_lt; auto. }
      rewrite E. destruct (at_prev es (length el)) as [[|m']|] eqn:E4; auto.
      exfalso. eapply NP; eauto.
    + rewrite E1, at_prev_snoc.
      assert (ED : dget key (L tes) = dget key (leaves t')).
      { rewrite E2, !L_app, L_one, dget_gt, dget_lt; auto. }
      assert (S' : sorted_tree t').
      { rewrite E2, !L_app, L_one in S. apply sorted_app_inv in S as [S _].
        apply sorted_app_inv in S as [_ S]. auto. }
      specialize (IH n' ltac:(lia) f m' t' key v ltac:(lia) R' W' S' V).
      rewrite ED. destruct (dget key (leaves t')) eqn:EG.
      * destruct IH as (m2 & t2 & -> & R2 & W2 & NE2 & L2). cbn [bind].
        rewrite snoc_len. rewrite S_sub.
        unfold update_entry. rewrite <- app_assoc. cbn [app]. rewrite firstn_len, skipn_S_len.
        exists (new_tree m (el0 ++ Sub m2 :: er)), (Node (tl0 ++ TSub t2 :: tr)).
        rewrite E2 in NA, F. rewrite <- app_assoc in NA, F. cbn [app] in NA, F.
        apply noadj_sub in NA. apply Forall_app in F as [Fl Fr].
        inversion Fr; subst.
        splits; auto.
        -- eapply new_tree_rep; eauto.
           ++ apply Forall2_app; auto.
           ++ intros E. apply app_eq_nil in E as [_ E]. discriminate.
        -- apply wf_node; split; [apply noadj_sub; tauto|].
           apply Forall_app; split; auto. constructor; auto. simpl. auto.
        -- intros E. inversion E as [E']. apply app_eq_nil in E' as [_ E']. discriminate.
        -- rewrite leaves_node, !L_app, L_cons, L_one. cbn [eleaves].
           rewrite L2, <- app_assoc. rewrite dset_lt by auto. rewrite dset_present by congruence. auto.
      * rewrite IH. auto.
  - assert (LT : Forall (fun k => slt k key) (keys (L tl))).
    { rewrite E2, L_app, L_cons, keys_app in S. apply StronglySorted_app in S as (_ & _ & S).
      eapply Forall_impl; [|exact S]. intros k Hk. simpl in Hk. inversion Hk; auto. }
    rewrite E1. unfold at_index. rewrite nth_error_len, str_eqb_refl.
    rewrite E2, L_app, L_cons. cbn [eleaves app]. rewrite dget_lt by auto.
    cbn [dget]. rewrite str_eqb_refl.
    unfold update_entry. rewrite firstn_len, skipn_S_len. cbn [app].
    exists (new_tree m (el ++ Leaf key v :: er')), (Node (tl ++ TLeaf key v :: tr')).
    rewrite E2 in NA, F. apply noadj_leaf in NA. apply Forall_app in F as [Fl Fr].
    inversion Fr as [|? ? Wk Fr']; subst.
    splits; auto.
    + eapply new_tree_rep; eauto.
      * apply Forall2_app; auto. constructor; auto. simpl; auto.
      * intros E. apply app_eq_nil in E as [_ E]. discriminate.
    + apply wf_node; split; [apply noadj_leaf; tauto|]. apply Forall_app; split; auto.
    + intros E. inversion E as [E']. apply app_eq_nil in E' as [_ E']. discriminate.
    + rewrite leaves_node, L_app, L_cons. cbn [eleaves app]. rewrite dset_mid; auto.
Qed.

End Rep.
