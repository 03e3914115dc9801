(** Lemmas about specification trees: serialization, uniqueness. *)
From Coq Require Import String List NArith ZArith Bool Lia Sorted.
From Coq Require Import ZifyBool ZifyNat ZifyN.
From Verif Require Import Base Lists Ipld IpldProofs MstModel MstTree.
Import ListNotations.

Lemma tree_ind' (P : tree -> Prop) :
  (forall es, (forall t, In (TSub t) es -> P t) -> P (Node es)) -> forall t, P t.
Proof.
  intros H. fix IH 1. intros [es]. apply H.
  induction es as [|e es IHes]; intros t HI; [destruct HI|].
  destruct e as [k v|t'].
  - destruct HI as [HI|HI]; [discriminate|]. apply IHes; exact HI.
  - pose proof (IH t') as Ht'. destruct HI as [HI|HI].
    + injection HI as <-. exact Ht'.
    + apply IHes; exact HI.
Qed.

Lemma leaves_node es : leaves (Node es) = L es.
Proof. reflexivity. Qed.

Lemma L_app a b : L (a ++ b) = L a ++ L b.
Proof. unfold L. apply flat_map_app. Qed.

Lemma L_cons e es : L (e :: es) = eleaves e ++ L es.
Proof. reflexivity. Qed.

Lemma L_one e : L [e] = eleaves e.
Proof. unfold L. simpl. apply app_nil_r. Qed.

Lemma noadj_tl e es : noadj (e :: es) -> noadj es.
Proof. destruct e; simpl; auto. destruct es as [|[]]; simpl; tauto. Qed.

Definition ends_sub (es : list tentry) : Prop := exists l t, es = l ++ [TSub t].
Definition starts_sub (es : list tentry) : Prop := exists t r, es = TSub t :: r.

Lemma noadj_app a b :
  noadj (a ++ b) <-> noadj a /\ noadj b /\ ~ (ends_sub a /\ starts_sub b).
Proof.
  induction a as [|e a IH]; simpl app.
  - split; [|tauto]. intros H. repeat split; simpl; auto.
    intros [(l & t & E) _]. destruct l; discriminate.
  - assert (EE : a <> [] -> (ends_sub (e :: a) <-> ends_sub a)).
    { intros NE. split; intros (l & t & E).
      - destruct l as [|x l]; inversion E; subst; [congruence|]. exists l, t; auto.
      - exists (e :: l), t. rewrite E. auto. }
    destruct e as [k v|t].
    + change (noadj (a ++ b) <-> noadj a /\ noadj b /\ ~ (ends_sub (TLeaf k v :: a) /\ starts_sub b)).
      rewrite IH. destruct a as [|x a].
      * split; intros (H1 & H2 & H3); repeat split; auto; intros [(l & t & E) _].
        -- destruct l as [|? [|? ?]]; discriminate.
        -- destruct l; discriminate.
      * rewrite EE by discriminate. tauto.
    + destruct a as [|x a].
      * simpl app. split.
        -- intros H. repeat split; auto; [destruct b as [|[|] ?]; simpl in H; auto; tauto|].
           intros [_ (t2 & r & ->)]. simpl in H. auto.
        -- intros (_ & H2 & H3). destruct b as [|[k v|t2] r]; simpl; auto.
           apply H3. split; [exists [], t|exists t2, r]; auto.
      * rewrite EE by discriminate. destruct x as [k v|t2]; [|simpl; tauto].
        change (noadj ((TLeaf k v :: a) ++ b) <-> noadj (TLeaf k v :: a) /\ noadj b /\ ~ (ends_sub (TLeaf k v :: a) /\ starts_sub b)).
        exact IH.
Qed.

Section TreeProofs.
Variable digest : list N -> list N.
Variable kdigest : str -> list N.
Notation zeros := (zeros kdigest).
Notation wf := (wf kdigest).
Notation wfE := (wfE kdigest).
Notation tcid := (tcid digest).
Notation pent := (pent digest).
Notation tnode := (tnode digest).

Lemma wf_node n es : wf n (Node es) <-> noadj es /\ Forall (wfE n) es.
Proof. destruct n; reflexivity. Qed.

Lemma wf_leaf_in n : forall t k v, wf n t -> In (k, v) (leaves t) -> zeros k <= n /\ valid_key k = true.
Proof. clear digest.
  induction n as [|n IH]; intros [es] k v W HI; rewrite wf_node in W; destruct W as [_ F];
    rewrite leaves_node in HI; unfold L in HI; apply in_flat_map in HI as (e & He & HI);
    rewrite Forall_forall in F; specialize (F _ He); destruct e as [k' v'|t]; simpl in F, HI.
  - destruct HI as [HI|[]]. inversion HI; subst. destruct F; split; auto; lia.
  - tauto.
  - destruct HI as [HI|[]]. inversion HI; subst. destruct F; split; auto; lia.
  - destruct F as [W NE]. destruct (IH _ _ _ W HI). split; auto.
Qed.

Lemma wf_key_in n t k : wf n t -> In k (keys (leaves t)) -> zeros k <= n /\ valid_key k = true.
Proof. clear digest.
  intros W H. unfold keys in H. apply in_map_iff in H as ([k' v] & E & H). simpl in E; subst.
  eapply wf_leaf_in; eauto.
Qed.

Lemma wf_nonempty n : forall t, wf n t -> t <> Node [] -> leaves t <> [].
Proof.
  induction n as [|n IH]; intros [es] W NE; rewrite wf_node in W; destruct W as [_ F];
    rewrite leaves_node; destruct es as [|[k v|t] es]; try congruence;
    try (rewrite L_cons; simpl; discriminate);
    inversion F as [|? ? H1 H2]; subst; simpl in H1; [destruct H1|].
  destruct H1 as [W' NE']. rewrite L_cons. simpl. intros E. apply app_eq_nil in E as [E _].
  eapply IH; eauto.
Qed.

Lemma wf_empty n : wf n (Node []).
Proof. apply wf_node. split; simpl; auto. Qed.

(** Serialization never fails on well-formed entries. *)
Lemma ser_entries_ok n es last : noadj es -> ~ starts_sub es -> Forall (wfE n) es ->
  exists d, ser_entries last (map pent es) = Ok d.
Proof.
  remember (length es) as k eqn:Hk. assert (Hle : length es <= k) by lia. clear Hk.
  revert es last Hle; induction k as [|k IH]; intros es last Hle NA NS F.
  - destruct es; [|simpl in Hle; lia]. simpl. eauto.
  - destruct es as [|[key v|t] es]; [simpl; eauto| |exfalso; apply NS; exists t, es; auto].
    inversion F as [|? ? HW F']; subst; destruct HW as [Hz Hv]. simpl in NA.
    destruct es as [|[k2 v2|t2] es].
    + simpl. unfold ensure_valid_key. rewrite Hv. simpl. eauto.
    + simpl map. cbn [ser_entries]. unfold ensure_valid_key at 1. rewrite Hv. cbn [bind].
      destruct (IH (TLeaf k2 v2 :: es) key) as [d Hd]; auto.
      { simpl in *; lia. }
      { intros (t & r & E); discriminate. }
      simpl map in Hd. cbn [ser_entries] in Hd. rewrite Hd. cbn [bind]. eauto.
    + simpl map. cbn [ser_entries]. unfold ensure_valid_key at 1. rewrite Hv. cbn [bind].
      destruct (IH es key) as [d Hd].
      { simpl in *; lia. }
      { destruct es as [|[|]]; simpl in *; tauto. }
      { intros (t & r & E). subst es. simpl in NA. auto. }
      { inversion F'; auto. }
      rewrite Hd. cbn [bind]. eauto.
Qed.

Lemma ser_ok n es : noadj es -> Forall (wfE n) es ->
  serialize_node_data (map pent es) = Ok (ser (map pent es)).
Proof.
  intros NA F. unfold ser. assert (exists d, serialize_node_data (map pent es) = Ok d) as [d Hd].
  { destruct es as [|[k v|t] es].
    - simpl. eauto.
    - destruct (ser_entries_ok n (TLeaf k v :: es) []) as [d Hd]; auto.
      { intros (t & r & E); discriminate. }
      simpl map in Hd. unfold serialize_node_data. simpl map. rewrite Hd. simpl. eauto.
    - simpl map. unfold serialize_node_data.
      destruct (ser_entries_ok n es []) as [d Hd].
      { eapply noadj_tl; eauto. }
      { intros (t2 & r & E). subst. simpl in NA. auto. }
      { inversion F; auto. }
      rewrite Hd. simpl. eauto. }
  rewrite Hd. auto.
Qed.

Lemma firstn_cpl a b : firstn (common_prefix_len a b) a ++ skipn (common_prefix_len a b) b = b.
Proof.
  revert b; induction a as [|x a IH]; destruct b as [|y b]; simpl; auto.
  destruct (N.eqb_spec x y); simpl; auto. subst. f_equal. auto.
Qed.

(** Deserializing inverts serializing: the entries come back, with subtrees as
    lazy nodes. *)
Definition lazy (hint : option Z) (p : pentry) : entry :=
  match p with
  | PLeaf k v => Leaf k v
  | PSub c => Sub (Mst None (Some c) hint false)
  end.

Lemma deser_ser_entries hint pes : forall last d, ser_entries last pes = Ok d ->
  deser_entries hint last d = map (lazy hint) pes.
Proof. clear digest kdigest.
  remember (length pes) as k eqn:Hk. assert (Hle : length pes <= k) by lia. clear Hk.
  revert pes Hle; induction k as [|k IH]; intros pes Hle last d H.
  - destruct pes; [|simpl in Hle; lia]. simpl in H. inversion H. auto.
  - destruct pes as [|[key v|c] pes]; simpl in H; try discriminate.
    + inversion H; auto.
    + unfold ensure_valid_key in H.
      destruct pes as [|[k2 v2|c2] pes].
      * destruct (valid_key key); simpl in H; try discriminate. inversion H; subst.
        simpl. rewrite firstn_cpl. auto.
      * destruct (valid_key key); cbn [bind] in H; try discriminate.
        destruct (ser_entries key (PLeaf k2 v2 :: pes)) as [r|] eqn:E; cbn [bind] in H; try discriminate.
        inversion H; subst. cbn [deser_entries ed_p ed_k ed_v ed_t].
        rewrite firstn_cpl. cbn [app].
        rewrite (IH (PLeaf k2 v2 :: pes)); auto. simpl in *; lia.
      * destruct (valid_key key); cbn [bind] in H; try discriminate.
        destruct (ser_entries key pes) as [r|] eqn:E; cbn [bind] in H; try discriminate.
        inversion H; subst. cbn [deser_entries ed_p ed_k ed_v ed_t].
        rewrite firstn_cpl. cbn [app map lazy].
        rewrite (IH pes); auto. simpl in *; lia.
Qed.

Lemma deser_ser layer pes d : serialize_node_data pes = Ok d ->
  deserialize_node_data d layer
  = map (lazy (match layer with Some l => Some (l - 1)%Z | None => None end)) pes.
Proof. clear digest kdigest.
  unfold serialize_node_data, deserialize_node_data. intros H.
  destruct pes as [|[k v|c] pes].
  - simpl in H. inversion H; subst. auto.
  - destruct (ser_entries [] (PLeaf k v :: pes)) as [r|] eqn:E; cbn [bind] in H; inversion H; subst.
    cbn [nd_l nd_e app]. apply (deser_ser_entries _ _ _ _ E).
  - destruct (ser_entries [] pes) as [r|] eqn:E; cbn [bind] in H; inversion H; subst.
    cbn [nd_l nd_e app]. rewrite (deser_ser_entries _ _ _ _ E). reflexivity.
Qed.

(** The first entry's compressed key is the full key. *)
Lemma ser_first_key pes d : serialize_node_data pes = Ok d ->
  match nd_e d with
  | [] => forall k v, ~ In (PLeaf k v) pes
  | e :: _ => exists v, In (PLeaf (ed_k e) v) pes
  end.
Proof.
  assert (X : forall pes r, ser_entries [] pes = Ok r ->
     match r with [] => forall k v, ~ In (PLeaf k v) pes | e :: _ => exists v, In (PLeaf (ed_k e) v) pes end).
  { clear. intros pes r H. destruct pes as [|[k v|c] pes]; simpl in H; try discriminate.
    - inversion H. auto.
    - destruct pes as [|[|] pes]; unfold ensure_valid_key in H;
        destruct (valid_key k); cbn [bind] in H; try discriminate;
        match type of H with context [ser_entries k ?p] => destruct (ser_entries k p) as [r'|] eqn:E end;
        cbn [bind] in H; inversion H; subst; cbn [ed_k]; exists v; simpl; auto. }
  unfold serialize_node_data. intros H. destruct pes as [|[k v|c] pes].
  - simpl in H. inversion H. simpl. auto.
  - destruct (ser_entries [] (PLeaf k v :: pes)) as [r|] eqn:E; cbn [bind] in H; inversion H; subst.
    cbn [nd_e]. apply X in E. exact E.
  - destruct (ser_entries [] pes) as [r|] eqn:E; cbn [bind] in H; inversion H; subst.
    cbn [nd_e]. apply X in E. destruct r.
    + intros k v [HI|HI]; [discriminate|]. eapply E; eauto.
    + destruct E as [v E]. exists v. right. auto.
Qed.

Lemma mapM_ok {A B} (f : A -> res B) (g : B -> A) l :
  (forall b, f (g b) = Ok b) -> mapM f (map g l) = Ok l.
Proof. intros H. induction l as [|b l IH]; simpl; auto. rewrite H. simpl. rewrite IH. auto. Qed.

Lemma opt_link_link c : opt_link (link_opt c) = Ok c.
Proof. destruct c; auto. Qed.

Lemma ipld_edata_ok e : ipld_edata (edata_ipld e) = Ok e.
Proof. clear digest kdigest.
  destruct e as [p k v t]. unfold edata_ipld, ipld_edata. cbn -[Z.of_nat Z.ltb Z.to_nat].
  destruct (Z.ltb_spec (Z.of_nat p) 0); [lia|]. rewrite opt_link_link. cbn [bind].
  rewrite Nat2Z.id. auto.
Qed.

Lemma ipld_ndata_ok d : ipld_ndata (ndata_ipld d) = Ok d.
Proof. clear digest kdigest.
  destruct d as [l e]. unfold ndata_ipld, ipld_ndata. cbn -[mapM].
  rewrite opt_link_link. cbn [bind]. rewrite (mapM_ok ipld_edata edata_ipld).
  - auto.
  - apply ipld_edata_ok.
Qed.

Lemma ndata_ipld_inj d1 d2 : ndata_ipld d1 = ndata_ipld d2 -> d1 = d2.
Proof. clear digest kdigest.
  intros H. pose proof (ipld_ndata_ok d1) as A. rewrite H, ipld_ndata_ok in A. congruence.
Qed.

(** ** Uniqueness *)

Notation group := (group kdigest).
Notation build := (build kdigest).
Notation max_zeros := (max_zeros kdigest).

Lemma group_run sub n run : forall run0 rest, Forall (fun kv => zeros (fst kv) < n) run ->
  group sub n run0 (run ++ rest) = group sub n (run0 ++ run) rest.
Proof. clear digest.
  induction run as [|[k v] run IH]; intros run0 rest F; simpl app.
  - rewrite app_nil_r. auto.
  - inversion F as [|? ? H1 H2]; subst. simpl in H1. cbn [MstTree.group].
    destruct (Nat.eqb_spec (zeros k) n); [lia|].
    rewrite IH by auto. rewrite <- app_assoc. auto.
Qed.

Definition flush (sub : list (str * cid) -> tree) (run : list (str * cid)) : list tentry :=
  match run with [] => [] | _ => [TSub (sub run)] end.

Lemma group_leaf sub n run k v rest : zeros k = n ->
  group sub n run ((k, v) :: rest) = flush sub run ++ TLeaf k v :: group sub n [] rest.
Proof.
  intros H. cbn [MstTree.group]. rewrite (proj2 (Nat.eqb_eq _ _) H). destruct run; auto.
Qed.

Lemma build_unique n : forall t, wf n t -> t = build n (leaves t).
Proof. clear digest.
  induction n as [|n IH]; intros [es] W; rewrite wf_node in W; destruct W as [NA F].
  - cbn [MstTree.build]. f_equal. rewrite leaves_node.
    induction es as [|[k v|t] es IHes]; auto.
    + inversion F as [|? ? HW F']; subst; destruct HW as [H1 H2]. rewrite L_cons. cbn [eleaves app].
      rewrite group_leaf by auto. cbn [flush app]. f_equal. apply IHes; auto.
    + inversion F as [|? ? H1]; subst. destruct H1.
  - cbn [MstTree.build]. f_equal. rewrite leaves_node.
    assert (LZ : forall t, wf n t -> Forall (fun kv => zeros (fst kv) < S n) (leaves t)).
    { intros t W. apply Forall_forall. intros [k v] HI.
      destruct (wf_leaf_in _ _ _ _ W HI). simpl. lia. }
    remember (length es) as kk eqn:Hk. assert (Hle : length es <= kk) by lia. clear Hk.
    revert es Hle NA F; induction kk as [|kk IHk]; intros es Hle NA F.
    { destruct es; [|simpl in Hle; lia]. auto. }
    destruct es as [|[k v|t] es]; auto.
    + inversion F as [|? ? HW F']; subst; destruct HW as [H1 H2]. rewrite L_cons. cbn [eleaves app].
      rewrite group_leaf by auto. cbn [flush app]. f_equal. apply IHk; auto. simpl in Hle; lia.
    + inversion F as [|? ? HW F']; subst; destruct HW as [Wt NEt]. rewrite L_cons. cbn [eleaves].
      rewrite group_run by auto. cbn [app].
      assert (NEl : leaves t <> []) by (eapply wf_nonempty; eauto).
      assert (FL : flush (build n) (leaves t) = [TSub t]).
      { unfold flush. destruct (leaves t) eqn:E; [congruence|]. rewrite <- E.
        rewrite <- IH; auto. }
      destruct es as [|[k2 v2|t2] es].
      * change (L []) with (@nil (str * cid)). cbn [MstTree.group].
        unfold flush in FL. destruct (leaves t); auto.
      * inversion F' as [|? ? HW F'']; subst; destruct HW as [H1 H2]. rewrite L_cons. cbn [eleaves app].
        rewrite group_leaf by auto. rewrite FL. cbn [app].
        do 2 f_equal. apply IHk; auto. simpl in Hle; lia.
      * simpl in NA. tauto.
Qed.

Lemma wf_unique n t1 t2 : wf n t1 -> wf n t2 -> leaves t1 = leaves t2 -> t1 = t2.
Proof. clear digest. intros W1 W2 E. rewrite (build_unique _ _ W1), (build_unique _ _ W2), E. auto. Qed.

(** A root is canonical if it is empty at layer 0 or has a leaf of its own. *)
Definition root_ok (n : nat) (t : tree) : Prop :=
  (t = Node [] /\ n = 0) \/ exists k v, In (TLeaf k v) (tentries t).

Lemma max_zeros_le n kvs : Forall (fun kv => zeros (fst kv) <= n) kvs -> max_zeros kvs <= n.
Proof. induction 1; simpl; lia. Qed.

Lemma max_zeros_in kv kvs : In kv kvs -> zeros (fst kv) <= max_zeros kvs.
Proof. clear digest. induction kvs as [|x kvs IH]; simpl; [tauto|]. intros [H|H]; subst; [lia|]. specialize (IH H). lia. Qed.

Lemma root_layer n t : wf n t -> root_ok n t -> n = max_zeros (leaves t).
Proof. clear digest.
  intros W [[E ->]|(k & v & HI)].
  - subst. auto.
  - assert (A : max_zeros (leaves t) <= n).
    { apply max_zeros_le. apply Forall_forall. intros [k' v'] H. eapply wf_leaf_in; eauto. }
    destruct t as [es]. simpl in HI. rewrite wf_node in W. destruct W as [_ F].
    rewrite Forall_forall in F. specialize (F _ HI). destruct F as [Hz _].
    assert (In (k, v) (leaves (Node es))).
    { rewrite leaves_node. unfold L. apply in_flat_map. exists (TLeaf k v). simpl; auto. }
    pose proof (max_zeros_in _ _ H) as X. cbn [fst] in X. lia.
Qed.

Lemma canonical_unique n t : wf n t -> root_ok n t -> t = canonical kdigest (leaves t).
Proof. clear digest.
  intros W R. unfold canonical. rewrite <- (root_layer n t W R). apply build_unique; auto.
Qed.

(** ** The root CID commits to the contents *)

Lemma tcid_inj : (forall a b, digest a = digest b -> a = b) ->
  forall n1 t1 n2 t2, wf n1 t1 -> wf n2 t2 -> tcid t1 = tcid t2 -> t1 = t2.
Proof.
  intros HD n1. induction n1 as [|n1 IH]; intros t1 n2 t2 W1 W2 E.
  - destruct t1 as [es1], t2 as [es2]. rewrite wf_node in W1, W2.
    destruct W1 as [NA1 F1], W2 as [NA2 F2].
    apply (cid_of_inj digest) in E; auto. apply ndata_ipld_inj in E.
    pose proof (ser_ok 0 es1 NA1 F1) as S1. pose proof (ser_ok n2 es2 NA2 F2) as S2.
    change (ser (map pent es1) = ser (map pent es2)) in E.
    apply (deser_ser None) in S1. apply (deser_ser None) in S2. rewrite E in S1. rewrite S1 in S2.
    f_equal. clear - S2 F1. revert es2 S2; induction es1 as [|e1 es1 IHe]; intros [|e2 es2] H;
      simpl in H; try discriminate; auto.
    inversion F1 as [|? ? W F]; subst. inversion H as [[H1 H2]].
    destruct e1 as [k1 v1|t1]; [|destruct W].
    destruct e2 as [k2 v2|t2]; simpl in H1; inversion H1; subst. f_equal. auto.
  - destruct t1 as [es1], t2 as [es2]. rewrite wf_node in W1, W2.
    destruct W1 as [NA1 F1], W2 as [NA2 F2].
    apply (cid_of_inj digest) in E; auto. apply ndata_ipld_inj in E.
    pose proof (ser_ok _ es1 NA1 F1) as S1. pose proof (ser_ok _ es2 NA2 F2) as S2.
    change (ser (map pent es1) = ser (map pent es2)) in E.
    apply (deser_ser None) in S1. apply (deser_ser None) in S2. rewrite E in S1. rewrite S1 in S2.
    f_equal. clear - S2 F1 F2 IH. revert es2 S2 F2; induction es1 as [|e1 es1 IHe]; intros [|e2 es2] H F2;
      simpl in H; try discriminate; auto.
    inversion F1 as [|? ? W F]; inversion F2 as [|? ? W' F']; subst. inversion H as [[H1 H2]].
    destruct e1 as [k1 v1|t1], e2 as [k2 v2|t2]; simpl in H1; inversion H1; subst.
    + f_equal. auto.
    + destruct n2 as [|n2]; [destruct W'|]. destruct W as [W _], W' as [W' _].
      f_equal; [|apply IHe; auto]. f_equal. eapply IH; eauto.
Qed.

End TreeProofs.
