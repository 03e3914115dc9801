(** What [split_around], [append_merge], [add] and [delete] do on well-formed trees. *)
From Coq Require Import String List NArith ZArith Bool Lia Sorted.
From Coq Require Import ZifyBool ZifyNat ZifyN.
From Verif Require Import Base Lists Ipld IpldProofs MstModel MstTree MstTreeProofs MstRep.
Import ListNotations.

Lemma nil_or_not {A} (l : list A) : l = [] \/ l <> [].
Proof. destruct l; [auto|right; discriminate]. Qed.

Definition osub (ta : list tentry) : list tentry :=
  match ta with [] => [] | _ => [TSub (Node ta)] end.

Lemma L_osub ta : L (osub ta) = L ta.
Proof. destruct ta; auto. simpl osub. rewrite L_one. auto. Qed.

Lemma noadj_osub ta : noadj (osub ta).
Proof. destruct ta; simpl; auto. Qed.

Lemma noadj_osub_l a ta : noadj a -> ~ ends_sub a -> noadj (a ++ osub ta).
Proof. intros. apply noadj_app. splits; auto using noadj_osub. tauto. Qed.

Lemma noadj_osub_r b ta : noadj b -> ~ starts_sub b -> noadj (osub ta ++ b).
Proof. intros. apply noadj_app. splits; auto using noadj_osub. tauto. Qed.

Lemma noadj_osub_leaf a ta k v tb b : noadj a -> ~ ends_sub a -> noadj b -> ~ starts_sub b ->
  noadj (a ++ osub ta ++ TLeaf k v :: osub tb ++ b).
Proof.
  intros. rewrite app_assoc. apply noadj_leaf. split.
  - apply noadj_osub_l; auto.
  - apply noadj_osub_r; auto.
Qed.

Definition has_leaf (t : tree) : Prop := exists k v, In (TLeaf k v) (tentries t).

(** [l'] is [l] with [(key, v)] inserted in order. *)
Definition inserted {V} (key : str) (v : V) (l l' : list (str * V)) : Prop :=
  exists a b, l = a ++ b /\ l' = a ++ (key, v) :: b /\
    Forall (fun k => slt k key) (keys a) /\ Forall (fun k => slt key k) (keys b).

Lemma inserted_mid {V} key (v : V) a b l l' :
  Forall (fun k => slt k key) (keys a) -> Forall (fun k => slt key k) (keys b) ->
  inserted key v l l' -> inserted key v (a ++ l ++ b) (a ++ l' ++ b).
Proof.
  intros Fa Fb (x & y & -> & -> & Fx & Fy). exists (a ++ x), (y ++ b).
  rewrite <- !app_assoc. splits; auto.
  - apply Forall_keys_app; auto.
  - apply Forall_keys_app; auto.
Qed.

Lemma inserted_sorted {V} key (v : V) l l' : inserted key v l l' ->
  ssorted (keys l) -> ssorted (keys l').
Proof.
  intros (a & b & -> & -> & Fa & Fb) S. rewrite keys_app in *. cbn [keys map fst].
  apply StronglySorted_app in S as (S1 & S2 & S3). apply StronglySorted_app. splits; auto.
  - constructor; auto.
  - rewrite Forall_forall in *. intros k Hk. constructor; auto.
Qed.

Lemma inserted_dget {V} key (v : V) l l' k : inserted key v l l' ->
  dget k l' = if str_eqb k key then Some v else dget k l.
Proof.
  intros (a & b & -> & -> & Fa & Fb). destruct (str_eqb_spec k key).
  - subst. rewrite dget_lt by auto. simpl. rewrite str_eqb_refl. auto.
  - rewrite !dget_app. cbn [dget]. rewrite (proj2 (str_eqb_neq k key) n). auto.
Qed.

Lemma ddel_lt {V} key (a b : list (str * V)) : Forall (fun k => slt k key) (keys a) ->
  ddel key (a ++ b) = a ++ ddel key b.
Proof.
  induction a as [|[k x] a IH]; simpl; intros F; auto.
  inversion F; subst. destruct (str_eqb_spec key k).
  - subst. exfalso. eapply slt_irrefl; eauto.
  - simpl. f_equal. auto.
Qed.

Lemma ddel_gt {V} key (a b : list (str * V)) : Forall (fun k => slt key k) (keys b) ->
  ddel key (a ++ b) = ddel key a ++ b.
Proof.
  intros F. induction a as [|[k x] a IH]; simpl.
  - induction b as [|[k x] b IHb]; simpl; auto.
    inversion F; subst. destruct (str_eqb_spec key k).
    + subst. exfalso. eapply slt_irrefl; eauto.
    + f_equal. auto.
  - destruct (str_eqb_spec key k); simpl; auto. f_equal. auto.
Qed.

Lemma ddel_absent {V} key (a : list (str * V)) : dget key a = None -> ddel key a = a.
Proof.
  induction a as [|[k x] a IH]; simpl; auto.
  destruct (str_eqb_spec key k); [discriminate|]. intros. f_equal. auto.
Qed.

Section Ops.
Variable digest : list N -> list N.
Variable kdigest : str -> list N.
Variable rd : cid -> option ipld.

Notation zeros := (zeros kdigest).
Notation wf := (wf kdigest).
Notation wfE := (wfE kdigest).
Notation tcid := (tcid digest).
Notation rep := (rep digest rd).
Notation repE := (repE digest rd).
Notation get_entries := (get_entries kdigest rd).

Definition half (n : nat) (o : option mst) (ta : list tentry) : Prop :=
  match o with None => ta = [] | Some m => rep n m (Node ta) /\ ta <> [] end.

Lemma half_osub n o ta : half n o ta -> Forall2 (repE (S n)) (opt_sub o) (osub ta).
Proof.
  destruct o as [m|]; simpl.
  - intros [R NE]. destruct ta as [|x ta]; [congruence|]. simpl. constructor; auto.
  - intros ->. constructor.
Qed.

Lemma wf_osub n ta : wf n (Node ta) -> Forall (wfE (S n)) (osub ta).
Proof.
  intros W. destruct ta as [|x ta]; simpl osub; constructor; auto.
  split; auto. discriminate.
Qed.

Lemma mk_half n m t es tes : rep n m t -> Forall2 (repE n) es tes ->
  half n (if nonempty es then Some (new_tree m es) else None) tes.
Proof.
  intros R F. destruct F as [|e te es tes He F]; simpl; auto.
  split; [|discriminate]. eapply new_tree_rep; eauto. discriminate.
Qed.

Lemma split_ok n : forall fuel m t key, n < fuel -> rep n m t -> wf n t -> sorted_tree t ->
  dget key (leaves t) = None ->
  exists a b ta tb, split_around kdigest rd fuel m key = Ok (a, b) /\
    half n a ta /\ half n b tb /\ wf n (Node ta) /\ wf n (Node tb) /\
    leaves t = L ta ++ L tb /\
    Forall (fun k => slt k key) (keys (L ta)) /\ Forall (fun k => slt key k) (keys (L tb)).
Proof.
  induction n as [n IH] using lt_wf_ind. intros fuel m [tes] key Hf R W Srt G.
  destruct fuel as [|f]; [lia|]. unfold sorted_tree in Srt. rewrite leaves_node in *.
  cbn [split_around]. destruct (get_entries_ok _ _ _ _ _ _ R W) as (es & Hes & HF).
  rewrite Hes. cbn [bind].
  destruct (view digest kdigest rd n es tes key HF W Srt)
    as (el & er & tl & tr & E1 & E2 & E3 & F1 & F2 & HL & HR).
  rewrite E3. pose proof W as W0. apply wf_node in W0 as [NA F].
  destruct HR as [(NL & GT & NS)|(v & er' & tr' & -> & -> & F2' & GT)].
  2:{ exfalso. rewrite E2, L_app, L_cons, dget_app in G. cbn [eleaves app dget] in G.
      rewrite str_eqb_refl in G. destruct (dget key (L tl)); discriminate. }
  subst tes. apply noadj_app in NA as (NA1 & NA2 & NA3). apply Forall_app in F as [Fl Fr].
  destruct HL as [(NP & LT & NE0)|(n' & el0 & m' & tl0 & t' & -> & -> & -> & F0 & R' & W' & NE' & LT & NE0)].
  - rewrite skip_prev by auto. cbn [bind fst snd].
    do 2 eexists. exists tl, tr. split; [reflexivity|].
    rewrite E1, firstn_len, skipn_len.
    splits; auto.
    + eapply mk_half; eauto.
    + eapply mk_half; eauto.
    + apply wf_node; auto.
    + apply wf_node; auto.
    + apply L_app.
  - rewrite E1, at_prev_snoc.
    destruct (IH n' ltac:(lia) f m' t' key) as (a & b & ta & tb & EQ & Ha & Hb & Wa & Wb & EL & La & Lb);
      auto; try lia.
    { rewrite !L_app, L_one in Srt. apply sorted_app_inv in Srt as [Srt _].
      apply sorted_app_inv in Srt as [_ Srt]. auto. }
    { rewrite !L_app, L_one, dget_gt, dget_lt in G; auto. }
    rewrite EQ. cbn [bind fst snd].
    do 2 eexists. exists (tl0 ++ osub ta), (osub tb ++ tr). split; [reflexivity|].
    rewrite snoc_len, S_sub. rewrite <- (snoc_len el0 (Sub m')).
    rewrite skipn_len. rewrite <- app_assoc, firstn_len.
    apply (noadj_sub tl0 t' []) in NA1 as (NA0 & _ & _ & _).
    apply Forall_app in Fl as [Fl0 _].
    splits.
    + eapply mk_half; eauto. apply Forall2_app; auto. apply half_osub; auto.
    + eapply mk_half; eauto. apply Forall2_app; auto. apply half_osub; auto.
    + apply wf_node; split; [apply noadj_osub_l; auto|]. apply Forall_app; auto using wf_osub.
    + apply wf_node; split; [apply noadj_osub_r; auto|]. apply Forall_app; auto using wf_osub.
    + rewrite !L_app, L_one, !L_osub. cbn [eleaves]. rewrite EL, !app_assoc. auto.
    + rewrite L_app, L_osub. apply Forall_keys_app; auto.
    + rewrite L_app, L_osub. apply Forall_keys_app; auto.
Qed.

Lemma append_merge_ok n : forall fuel m1 m2 a b, n < fuel ->
  rep n m1 (Node a) -> rep n m2 (Node b) -> wf n (Node a) -> wf n (Node b) -> a <> [] -> b <> [] ->
  exists m' c, append_merge kdigest rd fuel m1 m2 = Ok m' /\ rep n m' (Node c) /\ wf n (Node c) /\
    c <> [] /\ L c = L a ++ L b.
Proof.
  induction n as [n IH] using lt_wf_ind. intros fuel m1 m2 a b Hf R1 R2 W1 W2 NE1 NE2.
  destruct fuel as [|f]; [lia|]. cbn [append_merge].
  rewrite (get_layer_ok _ _ _ _ _ _ _ Hf R1 W1), (get_layer_ok _ _ _ _ _ _ _ Hf R2 W2). cbn [bind].
  rewrite Z.eqb_refl, set_layer_entries.
  destruct (get_entries_ok _ _ _ _ _ _ R1 W1) as (es1 & Hes1 & HF1).
  destruct (get_entries_ok _ _ _ _ _ _ R2 W2) as (es2 & Hes2 & HF2).
  rewrite Hes1, Hes2. cbn [bind].
  apply wf_node in W1 as [NA1 FA1]. apply wf_node in W2 as [NA2 FA2].
  assert (PLAIN : ~ (ends_sub a /\ starts_sub b) -> exists m' c,
     Ok (new_tree (set_layer m1 (Z.of_nat n)) (es1 ++ es2)) = Ok m' /\ rep n m' (Node c) /\ wf n (Node c) /\
     c <> [] /\ L c = L a ++ L b).
  { intros NB. eexists. exists (a ++ b). split; [reflexivity|]. splits.
    - eapply new_tree_rep; [apply set_layer_rep; eauto|apply Forall2_app; auto|].
      intros E. apply app_eq_nil in E. tauto.
    - apply wf_node. split; [apply noadj_app; auto|apply Forall_app; auto].
    - intros E. apply app_eq_nil in E. tauto.
    - apply L_app. }
  destruct (Forall2_snoc_inv _ _ _ HF1) as [[-> ->]|(x1 & e1 & y1 & te1 & -> & -> & F0 & He1)]; [congruence|].
  destruct b as [|te2 b']; [congruence|].
  inversion HF2 as [|e2 ? es2' ? He2 HF2']; subst.
  rewrite at_prev_last.
  destruct e1 as [k1 v1|s1], te1 as [k1' v1'|ts1]; simpl in He1; try tauto.
  - apply PLAIN. intros [X _]. eapply not_ends_sub_leaf; eauto.
  - destruct n as [|n]; [tauto|].
    destruct e2 as [k2 v2|s2], te2 as [k2' v2'|ts2]; simpl in He2; try tauto.
    + apply PLAIN. intros [_ X]. eapply not_starts_sub_leaf; eauto.
    + apply Forall_app in FA1 as [FA0 FA1]. inversion FA1 as [|? ? Ws1 _]; subst. destruct Ws1 as [Ws1 NEs1].
      inversion FA2 as [|? ? Ws2 FA2']; subst. destruct Ws2 as [Ws2 NEs2].
      destruct ts1 as [c1], ts2 as [c2].
      destruct (IH n ltac:(lia) f s1 s2 c1 c2) as (mm & c & EQ & RM & WM & NEM & LM);
        auto; try lia; try congruence.
      rewrite EQ. cbn [bind]. rewrite snoc_len, S_sub, firstn_len.
      eexists. exists (y1 ++ TSub (Node c) :: b'). split; [reflexivity|].
      apply (noadj_sub y1 _ []) in NA1 as (NA1 & _ & NE & _).
      apply (noadj_sub [] _ b') in NA2 as (_ & NA2 & _ & NS).
      splits.
      * eapply new_tree_rep; [apply set_layer_rep; eauto| |].
        -- apply Forall2_app; auto; constructor; auto.
        -- intros E. apply app_eq_nil in E as [_ E]. discriminate.
      * apply wf_node. split; [apply noadj_sub; auto|]. apply Forall_app; split; auto.
        constructor; auto. split; auto. congruence.
      * intros E. apply app_eq_nil in E as [_ E]. discriminate.
      * rewrite !L_app, L_one, !L_cons. cbn [eleaves]. rewrite !leaves_node, LM, !app_assoc. auto.
Qed.

(** ** add *)

Lemma lz_zeros key : leading_zeros_on_hash kdigest key = Z.of_nat (zeros key).
Proof. reflexivity. Qed.

Lemma wf_absent n t key : wf n t -> n < zeros key -> dget key (leaves t) = None.
Proof.
  intros W H. apply dget_None. intros HI. destruct (wf_key_in _ _ _ _ W HI). lia.
Qed.

Lemma noadj_insert_sub a b t : noadj (a ++ b) -> ~ ends_sub a -> ~ starts_sub b ->
  noadj (a ++ TSub t :: b).
Proof. intros H ? ?. apply noadj_app in H as (? & ? & ?). apply noadj_sub. auto. Qed.

Lemma add_le n : forall fuel m t key v known, n < fuel -> rep n m t -> wf n t -> sorted_tree t ->
  valid_key key = true -> zeros key <= n ->
  (known = None \/ known = Some (Z.of_nat (zeros key))) ->
  match dget key (leaves t) with
  | Some _ => add digest kdigest rd fuel m key v known = Err ValueError
  | None => exists m' t', add digest kdigest rd fuel m key v known = Ok m' /\
      rep n m' t' /\ wf n t' /\ t' <> Node [] /\ inserted key v (leaves t) (leaves t') /\
      (has_leaf t \/ zeros key = n -> has_leaf t')
  end.
Proof.
  induction n as [n IH] using lt_wf_ind. intros fuel m [tes] key v known Hf R W Srt V Hz HK.
  destruct fuel as [|f]; [lia|]. unfold sorted_tree in Srt. rewrite leaves_node in *.
  cbn [add]. unfold ensure_valid_key. rewrite V. cbn [bind].
  set (kz := match known with Some z => if (z =? 0)%Z then leading_zeros_on_hash kdigest key else z
             | None => leading_zeros_on_hash kdigest key end).
  assert (Hkz : kz = Z.of_nat (zeros key)).
  { unfold kz. rewrite lz_zeros. destruct HK as [->| ->]; auto. destruct (_ =? _)%Z eqn:E; lia. }
  clearbody kz. subst kz.
  rewrite (get_layer_ok _ _ _ _ _ _ _ Hf R W). cbn [bind]. rewrite set_layer_entries.
  destruct (get_entries_ok _ _ _ _ _ _ R W) as (es & Hes & HF). rewrite Hes. cbn [bind].
  destruct (view digest kdigest rd n es tes key HF W Srt)
    as (el & er & tl & tr & E1 & E2 & E3 & F1 & F2 & HL & HR).
  rewrite E3. pose proof W as W0. apply wf_node in W0 as [NA F].
  pose proof (set_layer_rep _ _ _ _ _ R) as RS.
  destruct (Z.of_nat (zeros key) =? Z.of_nat n)%Z eqn:EQ.
  - (* the key belongs in this node *)
    assert (HZ : zeros key = n) by lia. clear EQ.
    destruct HR as [(NL & GT & NS)|(v0 & er' & tr' & -> & -> & F2' & GT)].
    + rewrite skip_leaf by auto.
      assert (G : dget key (L tes) = None).
      { rewrite E2, L_app, dget_gt by auto.
        destruct HL as [(NP & LT & NE0)|(n' & el0 & m' & tl0 & t' & -> & -> & -> & F0 & R' & W' & NE' & LT & NE0)].
        - rewrite <- (app_nil_r (L tl)), dget_lt; auto.
        - rewrite L_app, L_one, dget_lt by auto. cbn [eleaves]. apply (wf_absent n'); auto. lia. }
      rewrite G. subst tes.
      apply noadj_app in NA as (NA1 & NA2 & NA3). apply Forall_app in F as [Fl Fr].
      destruct HL as [(NP & LT & NE0)|(n' & el0 & m' & tl0 & t' & -> & -> & -> & F0 & R' & W' & NE' & LT & NE0)].
      * rewrite skip_prev by auto. unfold splice_in. rewrite E1, firstn_len, skipn_len.
        eexists. exists (Node (tl ++ TLeaf key v :: tr)). split; [reflexivity|]. splits.
        -- eapply new_tree_rep; eauto.
           ++ apply Forall2_app; auto. constructor; simpl; auto.
           ++ intros E. apply app_eq_nil in E as [_ E]. discriminate.
        -- apply wf_node. split; [apply noadj_leaf; auto|]. apply Forall_app; split; auto.
           constructor; simpl; auto.
        -- intros E. inversion E as [E']. apply app_eq_nil in E' as [_ E']. discriminate.
        -- rewrite leaves_node, !L_app, L_cons. exists (L tl), (L tr). auto.
        -- intros _. exists key, v. simpl. apply in_or_app; simpl; auto.
      * rewrite E1, at_prev_snoc.
        destruct (split_ok n' f m' t' key) as (a & b & ta & tb & EQ & Ha & Hb & Wa & Wb & EL & La & Lb);
          auto; try lia.
        { rewrite !L_app, L_one in Srt. apply sorted_app_inv in Srt as [Srt _].
          apply sorted_app_inv in Srt as [_ Srt]. auto. }
        { rewrite !L_app, L_one, dget_gt, dget_lt in G; auto. }
        rewrite EQ. cbn [bind fst snd]. unfold replace_with_split.
        rewrite snoc_len, S_sub, <- app_assoc. cbn [app]. rewrite firstn_len, skipn_S_len.
        apply (noadj_sub tl0 t' []) in NA1 as (NA0 & _ & _ & _).
        apply Forall_app in Fl as [Fl0 _].
        eexists. exists (Node (tl0 ++ osub ta ++ TLeaf key v :: osub tb ++ tr)). split; [reflexivity|]. splits.
        -- eapply new_tree_rep; eauto.
           ++ apply Forall2_app; auto. apply Forall2_app; [apply half_osub; auto|].
              constructor; [simpl; auto|]. apply Forall2_app; auto. apply half_osub; auto.
           ++ intros E. apply app_eq_nil in E as [_ E]. apply app_eq_nil in E as [_ E]. discriminate.
        -- apply wf_node. split; [apply noadj_osub_leaf; auto|].
           apply Forall_app; split; auto. apply Forall_app; split; [apply wf_osub; auto|].
           constructor; [simpl; auto|]. apply Forall_app; split; auto. apply wf_osub; auto.
        -- intros E. inversion E as [E']. apply app_eq_nil in E' as [_ E']. apply app_eq_nil in E' as [_ E']. discriminate.
        -- rewrite leaves_node, !L_app, L_one, L_cons, !L_app, !L_osub. cbn [eleaves app]. rewrite EL.
           exists (L tl0 ++ L ta), (L tb ++ L tr). splits; try (rewrite <- !app_assoc; auto; fail).
           ++ apply Forall_keys_app; auto.
           ++ apply Forall_keys_app; auto.
        -- intros _. exists key, v. simpl. apply in_or_app; right. apply in_or_app; right. simpl; auto.
    + (* already there *)
      rewrite E1. unfold at_index. rewrite nth_error_len, str_eqb_refl.
      rewrite E2, L_app, L_cons, dget_app. cbn [eleaves app dget]. rewrite str_eqb_refl.
      destruct (dget key (L tl)); auto.
  - (* the key belongs in a subtree *)
    assert (HZ : zeros key < n) by lia. clear EQ.
    assert (LTB : (Z.of_nat (zeros key) <? Z.of_nat n)%Z = true) by lia. rewrite LTB. clear LTB.
    destruct HR as [(NL & GT & NS)|(v0 & er' & tr' & -> & -> & F2' & GT)].
    2:{ exfalso. subst tes. apply Forall_app in F as [_ F]. inversion F as [|? ? X ?]; subst.
        destruct X. lia. }
    destruct HL as [(NP & LT & NE0)|(n' & el0 & m' & tl0 & t' & -> & -> & -> & F0 & R' & W' & NE' & LT & NE0)].
    + assert (G : dget key (L tes) = None).
      { rewrite E2, L_app, dget_gt by auto. rewrite <- (app_nil_r (L tl)), dget_lt; auto. }
      rewrite G. rewrite skip_prev by auto.
      destruct n as [|n]; [lia|].
      unfold create_child. rewrite (get_layer_ok _ _ _ _ _ _ _ Hf RS W). cbn [bind].
      destruct (mst_create_ok digest kdigest rd n [] [] (Some (Z.of_nat (S n) - 1)%Z))
        as (c & Ec & Rc & _); [constructor|apply wf_empty|f_equal; lia|].
      rewrite Ec. cbn [bind].
      specialize (IH n ltac:(lia) f c (Node []) key v (Some (Z.of_nat (zeros key))) ltac:(lia) Rc
                     (wf_empty _ _) (SSorted_nil _) V ltac:(lia) (or_intror eq_refl)).
      cbn [leaves flat_map dget] in IH.
      destruct IH as (m2 & t2 & -> & R2 & W2 & NE2 & I2 & _). cbn [bind].
      unfold splice_in. rewrite E1, firstn_len, skipn_len. subst tes.
      apply Forall_app in F as [Fl Fr].
      eexists. exists (Node (tl ++ TSub t2 :: tr)). split; [reflexivity|]. splits.
      * eapply new_tree_rep; eauto.
        -- apply Forall2_app; auto; constructor; auto.
        -- intros E. apply app_eq_nil in E as [_ E]. discriminate.
      * apply wf_node. split; [apply noadj_insert_sub; auto|].
        apply Forall_app; split; auto. constructor; simpl; auto.
      * intros E. inversion E as [E']. apply app_eq_nil in E' as [_ E']. discriminate.
      * rewrite leaves_node, !L_app, L_cons. cbn [eleaves].
        apply (inserted_mid key v (L tl) (L tr) [] (leaves t2)); auto.
      * intros [(k & v' & HI)|X]; [|lia]. exists k, v'. simpl in HI |- *.
        apply in_app_or in HI as [HI|HI]; apply in_or_app; simpl; auto.
    + rewrite E1, at_prev_snoc.
      assert (ED : dget key (L tes) = dget key (leaves t')).
      { rewrite E2, !L_app, L_one, dget_gt, dget_lt; auto. }
      assert (S' : sorted_tree t').
      { rewrite E2, !L_app, L_one in Srt. apply sorted_app_inv in Srt as [Srt _].
        apply sorted_app_inv in Srt as [_ Srt]. auto. }
      specialize (IH n' ltac:(lia) f m' t' key v (Some (Z.of_nat (zeros key))) ltac:(lia) R' W' S' V
                     ltac:(lia) (or_intror eq_refl)).
      rewrite ED. destruct (dget key (leaves t')) eqn:EG; [rewrite IH; auto|].
      destruct IH as (m2 & t2 & -> & R2 & W2 & NE2 & I2 & _). cbn [bind].
      rewrite snoc_len, S_sub. unfold update_entry. rewrite <- app_assoc. cbn [app].
      rewrite firstn_len, skipn_S_len.
      rewrite E2 in NA, F. rewrite <- app_assoc in NA, F. cbn [app] in NA, F.
      apply noadj_sub in NA. apply Forall_app in F as [Fl Fr]. inversion Fr; subst.
      eexists. exists (Node (tl0 ++ TSub t2 :: tr)). split; [reflexivity|]. splits.
      * eapply new_tree_rep; eauto.
        -- apply Forall2_app; auto; constructor; auto.
        -- intros E. apply app_eq_nil in E as [_ E]. discriminate.
      * apply wf_node. split; [apply noadj_sub; tauto|].
        apply Forall_app; split; auto. constructor; simpl; auto.
      * intros E. inversion E as [E']. apply app_eq_nil in E' as [_ E']. discriminate.
      * rewrite leaves_node, !L_app, L_one, L_cons. cbn [eleaves]. rewrite <- app_assoc.
        apply inserted_mid; auto.
      * intros [(k & v' & HI)|X]; [|lia]. exists k, v'. simpl in HI |- *.
        rewrite <- app_assoc in HI. apply in_app_or in HI as [HI|[HI|HI]]; apply in_or_app; simpl; auto.
        discriminate.
Qed.

Lemma wrap_ok k : forall n fuel o ta, n + k <= fuel -> half n o ta -> wf n (Node ta) ->
  exists o' ta', wrap_parents digest kdigest rd fuel k o = Ok o' /\ half (n + k) o' ta' /\
    wf (n + k) (Node ta') /\ L ta' = L ta.
Proof.
  induction k as [|k IH]; intros n fuel o ta Hf H W.
  - exists o, ta. rewrite Nat.add_0_r. destruct o; auto.
  - destruct o as [m|].
    + cbn [wrap_parents]. unfold create_parent. destruct H as [R NE].
      rewrite (get_layer_ok digest kdigest rd fuel n m (Node ta)) by (auto; lia). cbn [bind].
      destruct (mst_create_ok digest kdigest rd (S n) [Sub m] [TSub (Node ta)] (Some (Z.of_nat n + 1)%Z))
        as (p & Ep & _ & Rp).
      { constructor; auto. }
      { apply wf_node. split; simpl; auto. constructor; auto. split; auto. congruence. }
      { f_equal. lia. }
      rewrite Ep. cbn [bind].
      destruct (IH (S n) fuel (Some (mark_outdated p)) [TSub (Node ta)]) as (o' & ta' & E & H' & W' & L').
      { lia. }
      { split; auto. discriminate. }
      { apply wf_node. split; simpl; auto. constructor; auto. split; auto. congruence. }
      exists o', ta'. rewrite E. replace (n + S k) with (S n + k) by lia. splits; auto.
      rewrite L', L_one. auto.
    + simpl in H. subst. exists None, []. splits; simpl; auto.
      apply (wf_empty kdigest (n + S k)).
Qed.

Lemma add_gt n fuel m t key v : n < fuel -> zeros key < fuel -> rep n m t -> wf n t -> sorted_tree t ->
  valid_key key = true -> n < zeros key ->
  exists m' t', add digest kdigest rd fuel m key v None = Ok m' /\
      rep (zeros key) m' t' /\ wf (zeros key) t' /\ inserted key v (leaves t) (leaves t') /\
      has_leaf t'.
Proof.
  intros Hf Hf2 R W Srt V Hz. destruct fuel as [|f]; [lia|].
  cbn [add]. unfold ensure_valid_key. rewrite V. cbn [bind]. rewrite lz_zeros.
  rewrite (get_layer_ok _ _ _ _ _ _ _ Hf R W). cbn [bind].
  replace (Z.of_nat (zeros key) =? Z.of_nat n)%Z with false by lia.
  replace (Z.of_nat (zeros key) <? Z.of_nat n)%Z with false by lia.
  pose proof (set_layer_rep _ _ _ _ _ R) as RS.
  destruct (split_ok n (S f) _ t key Hf RS W Srt (wf_absent _ _ _ W Hz))
    as (a & b & ta & tb & EQ & Ha & Hb & Wa & Wb & EL & La & Lb).
  rewrite EQ. cbn [bind fst snd].
  set (extra := Z.to_nat (Z.of_nat (zeros key) - Z.of_nat n - 1)).
  assert (HX : S (n + extra) = zeros key) by lia.
  destruct (wrap_ok extra n (S f) a ta) as (a' & ta' & -> & Ha' & Wa' & La'); auto; [lia|].
  destruct (wrap_ok extra n (S f) b tb) as (b' & tb' & -> & Hb' & Wb' & Lb'); auto; [lia|].
  cbn [bind].
  assert (WN : wf (zeros key) (Node (osub ta' ++ TLeaf key v :: osub tb'))).
  { apply wf_node. split.
    - pose proof (noadj_osub_leaf [] ta' key v tb' []) as X. cbn [app] in X. rewrite app_nil_r in X.
      apply X; auto using not_ends_sub_nil, not_starts_sub_nil; simpl; auto.
    - rewrite <- HX. apply Forall_app; split; [apply wf_osub; auto|].
      constructor; [simpl; auto|apply wf_osub; auto]. }
  destruct (mst_create_ok digest kdigest rd (zeros key) (opt_sub a' ++ Leaf key v :: opt_sub b')
             (osub ta' ++ TLeaf key v :: osub tb') (Some (Z.of_nat (zeros key)))) as (p & Ep & _ & Rp); auto.
  { rewrite <- HX. apply Forall2_app; [apply half_osub; auto|].
    constructor; [simpl; auto|apply half_osub; auto]. }
  cbn [app]. rewrite Ep. cbn [bind].
  eexists. exists (Node (osub ta' ++ TLeaf key v :: osub tb')). split; [reflexivity|]. splits; auto.
  - rewrite leaves_node, L_app, L_cons, !L_osub, La', Lb', EL. exists (L ta), (L tb). auto.
  - exists key, v. simpl. apply in_or_app; simpl; auto.
Qed.

Lemma root_ok_leaf n t : has_leaf t -> root_ok n t.
Proof. intros (k & v & H). right. exists k, v. destruct t; auto. Qed.

Lemma add_ok n fuel m t key v : n < fuel -> zeros key < fuel -> rep n m t -> wf n t -> sorted_tree t ->
  if valid_key key then
    match dget key (leaves t) with
    | Some _ => add digest kdigest rd fuel m key v None = Err ValueError
    | None => exists n' m' t', add digest kdigest rd fuel m key v None = Ok m' /\
        rep n' m' t' /\ wf n' t' /\ inserted key v (leaves t) (leaves t') /\
        n' = Nat.max n (zeros key) /\ (root_ok n t -> root_ok n' t')
    end
  else add digest kdigest rd fuel m key v None = Err ValueError.
Proof.
  intros Hf Hf2 R W Srt. destruct (valid_key key) eqn:V.
  - destruct (Nat.le_gt_cases (zeros key) n) as [Hz|Hz].
    + pose proof (add_le n fuel m t key v None Hf R W Srt V Hz (or_introl eq_refl)) as H.
      destruct (dget key (leaves t)); auto.
      destruct H as (m' & t' & E & R' & W' & NE' & I' & HL).
      exists n, m', t'. splits; auto; [lia|]. intros [[-> ->]|(k & v' & HI)].
      * apply root_ok_leaf, HL. right. lia.
      * apply root_ok_leaf, HL. left. exists k, v'. destruct t; auto.
    + rewrite (wf_absent _ _ _ W Hz).
      destruct (add_gt n fuel m t key v Hf Hf2 R W Srt V Hz) as (m' & t' & E & R' & W' & I' & HL).
      exists (zeros key), m', t'. splits; auto; [lia|]. intros _. apply root_ok_leaf; auto.
  - destruct fuel as [|f]; [lia|]. cbn [add]. unfold ensure_valid_key. rewrite V. auto.
Qed.

(** ** delete *)

Lemma new_tree_entries m es : get_entries (new_tree m es) = Ok es.
Proof. destruct m; auto. Qed.

Lemma new_tree_any n m t es tes : rep n m t -> Forall2 (repE n) es tes ->
  exists n0, n0 <= n /\ (tes <> [] -> n0 = n) /\ rep n0 (new_tree m es) (Node tes).
Proof.
  intros R F. destruct (nil_or_not tes) as [->|NE].
  - inversion F; subst. destruct m as [oes p l o], t as [tes0].
    apply rep_eq in R as (Hl & Hle & Hp & H). simpl.
    destruct Hl as [->| ->].
    + exists 0. splits; [lia|congruence|]. apply rep_eq. splits; auto; discriminate.
    + exists n. splits; auto. apply rep_eq. splits; auto; discriminate.
  - exists n. splits; auto. eapply new_tree_rep; eauto.
Qed.

Lemma delete_recurse_ok n : forall fuel m t key, n < fuel -> rep n m t -> wf n t -> sorted_tree t ->
  match dget key (leaves t) with
  | None => delete_recurse kdigest rd fuel m key = Err KeyError
  | Some _ => exists n0 m' es' tes', delete_recurse kdigest rd fuel m key = Ok m' /\
      get_entries m' = Ok es' /\ Forall2 (repE n) es' tes' /\
      n0 <= n /\ (tes' <> [] -> n0 = n) /\ rep n0 m' (Node tes') /\
      wf n (Node tes') /\ L tes' = ddel key (leaves t)
  end.
Proof.
  induction n as [n IH] using lt_wf_ind. intros fuel m [tes] key Hf R W Srt.
  destruct fuel as [|f]; [lia|]. unfold sorted_tree in Srt. rewrite leaves_node in *.
  cbn [delete_recurse].
  destruct (get_entries_ok _ _ _ _ _ _ R W) as (es & Hes & HF). rewrite Hes. cbn [bind].
  destruct (view digest kdigest rd n es tes key HF W Srt)
    as (el & er & tl & tr & E1 & E2 & E3 & F1 & F2 & HL & HR).
  rewrite E3. pose proof W as W0. apply wf_node in W0 as [NA F].
  assert (BUILD : forall es' tes', Forall2 (repE n) es' tes' -> wf n (Node tes') ->
     L tes' = ddel key (L tes) ->
     exists n0 m' es'' tes'', Ok (new_tree m es') = Ok m' /\
      get_entries m' = Ok es'' /\ Forall2 (repE n) es'' tes'' /\
      n0 <= n /\ (tes'' <> [] -> n0 = n) /\ rep n0 m' (Node tes'') /\
      wf n (Node tes'') /\ L tes'' = ddel key (L tes)).
  { intros es' tes' H1 H2 H3. destruct (new_tree_any _ _ _ _ _ R H1) as (n0 & ? & ? & ?).
    exists n0, (new_tree m es'), es', tes'. splits; auto. apply new_tree_entries. }
  destruct HR as [(NL & GT & NS)|(v0 & er' & tr' & -> & -> & F2' & GT)].
  - rewrite skip_leaf by auto.
    destruct HL as [(NP & LT & NE0)|(n' & el0 & m' & tl0 & t' & -> & -> & -> & F0 & R' & W' & NE' & LT & NE0)].
    + assert (G : dget key (L tes) = None).
      { rewrite E2, L_app, dget_gt by auto. rewrite <- (app_nil_r (L tl)), dget_lt; auto. }
      rewrite G. apply skip_prev. auto.
    + rewrite E1, at_prev_snoc.
      assert (ED : dget key (L tes) = dget key (leaves t')).
      { rewrite E2, !L_app, L_one, dget_gt, dget_lt; auto. }
      assert (S' : sorted_tree t').
      { rewrite E2, !L_app, L_one in Srt. apply sorted_app_inv in Srt as [Srt _].
        apply sorted_app_inv in Srt as [_ Srt]. auto. }
      specialize (IH n' ltac:(lia) f m' t' key ltac:(lia) R' W' S').
      rewrite ED. destruct (dget key (leaves t')) eqn:EG; [|rewrite IH; auto].
      destruct IH as (n0 & m2 & es2 & tes2 & -> & Hes2 & HF2 & Hn0 & Hn1 & R2 & W2 & L2). cbn [bind].
      rewrite Hes2. cbn [bind]. rewrite snoc_len, S_sub.
      unfold update_entry, remove_entry. rewrite <- app_assoc. cbn [app].
      rewrite firstn_len, skipn_S_len.
      assert (DD : ddel key (L tes) = L tl0 ++ L tes2 ++ L tr).
      { rewrite E2, !L_app, L_one. cbn [eleaves]. rewrite <- app_assoc, ddel_lt, ddel_gt, L2; auto. }
      rewrite E2 in NA, F. rewrite <- app_assoc in NA, F. cbn [app] in NA, F.
      apply noadj_sub in NA. apply Forall_app in F as [Fl Fr]. inversion Fr; subst.
      destruct (nonempty es2) eqn:NES.
      * assert (NE2 : tes2 <> []) by (destruct HF2; [discriminate|congruence]).
        rewrite (Hn1 NE2) in R2.
        apply (BUILD _ (tl0 ++ TSub (Node tes2) :: tr)).
        -- apply Forall2_app; auto.
        -- apply wf_node. split; [apply noadj_sub; tauto|]. apply Forall_app; split; auto.
           constructor; auto. split; auto. congruence.
        -- rewrite DD, L_app, L_cons. auto.
      * assert (NE2 : tes2 = []) by (destruct HF2; [auto|discriminate]). subst tes2.
        apply (BUILD _ (tl0 ++ tr)).
        -- apply Forall2_app; auto.
        -- apply wf_node. split; [apply noadj_app; tauto|]. apply Forall_app; split; auto.
        -- rewrite DD, L_app. auto.
  - assert (LT : Forall (fun k => slt k key) (keys (L tl))).
    { rewrite E2, L_app, L_cons, keys_app in Srt. apply StronglySorted_app in Srt as (_ & _ & S2).
      eapply Forall_impl; [|exact S2]. intros k Hk. simpl in Hk. inversion Hk; auto. }
    assert (G : dget key (L tes) = Some v0).
    { rewrite E2, L_app, L_cons. cbn [eleaves app]. rewrite dget_lt by auto. simpl.
      rewrite str_eqb_refl. auto. }
    rewrite G.
    assert (DD : ddel key (L tes) = L tl ++ L tr').
    { rewrite E2, L_app, L_cons. cbn [eleaves app]. rewrite ddel_lt by auto. simpl.
      rewrite str_eqb_refl. auto. }
    rewrite E1. unfold at_index. rewrite nth_error_len, str_eqb_refl.
    replace (nth_error (el ++ Leaf key v0 :: er') (S (length el))) with (nth_error er' 0).
    2:{ replace (S (length el)) with (length (el ++ [Leaf key v0])) by apply snoc_len.
        replace (el ++ Leaf key v0 :: er') with ((el ++ [Leaf key v0]) ++ er') by (rewrite <- app_assoc; auto).
        rewrite nth_error_app2, Nat.sub_diag; auto. }
    rewrite E2 in NA, F. apply noadj_leaf in NA as [NA1 NA2]. apply Forall_app in F as [Fl Fr].
    inversion Fr as [|? ? Wk Fr']; subst.
    assert (PLAIN : ~ (ends_sub tl /\ starts_sub tr') -> exists n0 m' es'' tes'',
       Ok (remove_entry m (el ++ Leaf key v0 :: er') (length el)) = Ok m' /\
      get_entries m' = Ok es'' /\ Forall2 (repE n) es'' tes'' /\
      n0 <= n /\ (tes'' <> [] -> n0 = n) /\ rep n0 m' (Node tes'') /\
      wf n (Node tes'') /\ L tes'' = ddel key (L (tl ++ TLeaf key v0 :: tr'))).
    { intros NB. unfold remove_entry. rewrite firstn_len, skipn_S_len.
      apply (BUILD _ (tl ++ tr')).
      - apply Forall2_app; auto.
      - apply wf_node. split; [apply noadj_app; auto|]. apply Forall_app; auto.
      - rewrite DD, L_app. auto. }
    destruct HL as [(NP & _ & NE0)|(n' & el0 & m' & tl0 & t' & -> & -> & -> & F0 & R' & W' & NE' & LT0 & NE0)].
    + rewrite skip_prev by auto. apply PLAIN. tauto.
    + rewrite at_prev_snoc.
      destruct F2' as [|e te er2 tr2 He F2'].
      { cbn [nth_error]. apply PLAIN. intros [_ X]. exact (not_starts_sub_nil X). }
      cbn [nth_error].
      destruct e as [k2 v2|m2], te as [k2' v2'|t2]; simpl in He; try tauto.
      { apply PLAIN. intros [_ X]. eapply not_starts_sub_leaf; eauto. }
      inversion Fr' as [|? ? W2 Fr2]; subst. destruct W2 as [W2 NE2].
      destruct t' as [c1], t2 as [c2].
      destruct (append_merge_ok n' f m' m2 c1 c2) as (mm & c & EQ & RM & WM & NEM & LM);
        auto; try lia; try congruence.
      rewrite EQ. cbn [bind].
      apply (noadj_sub tl0 _ []) in NA1 as (NA1 & _ & _ & _).
      apply (noadj_sub [] _ tr2) in NA2 as (_ & NA2 & _ & NS2).
      apply Forall_app in Fl as [Fl0 _].
      rewrite snoc_len, S_sub.
      replace (S (length el0) + 2) with (length (el0 ++ [Sub m'; Leaf key v0; Sub m2]))
        by (rewrite app_length; simpl; lia).
      replace ((el0 ++ [Sub m']) ++ Leaf key v0 :: Sub m2 :: er2)
        with ((el0 ++ [Sub m'; Leaf key v0; Sub m2]) ++ er2) by (rewrite <- !app_assoc; auto).
      rewrite skipn_len. rewrite <- app_assoc, firstn_len.
      apply (BUILD _ (tl0 ++ TSub (Node c) :: tr2)).
      * apply Forall2_app; auto. constructor; auto.
      * apply wf_node. split; [apply noadj_sub; auto|]. apply Forall_app; split; auto.
        constructor; auto. split; auto. congruence.
      * rewrite DD, !L_app, L_one, !L_cons. cbn [eleaves]. rewrite !leaves_node, LM, <- !app_assoc. auto.
Qed.

Lemma trim_top_ok n : forall fuel m t, n < fuel -> rep n m t -> wf n t ->
  exists n' m' t', trim_top kdigest rd fuel m = Ok m' /\ n' <= n /\ rep n' m' t' /\ wf n' t' /\
    leaves t' = leaves t /\ (t <> Node [] -> has_leaf t') /\ (t = Node [] -> n' = n /\ t' = Node []).
Proof.
  induction n as [n IH] using lt_wf_ind. intros fuel m [tes] Hf R W.
  destruct fuel as [|f]; [lia|]. cbn [trim_top].
  destruct (get_entries_ok _ _ _ _ _ _ R W) as (es & Hes & HF). rewrite Hes. cbn [bind].
  pose proof W as W0. apply wf_node in W0 as [NA F].
  assert (STAY : (forall t', tes <> [TSub t']) -> exists n' m' t', Ok m = Ok m' /\ n' <= n /\ rep n' m' t' /\ wf n' t' /\
    leaves t' = leaves (Node tes) /\ (Node tes <> Node [] -> has_leaf t') /\ (Node tes = Node [] -> n' = n /\ t' = Node [])).
  { intros NT. exists n, m, (Node tes). splits; auto. intros NE.
    destruct tes as [|[k v|t] [|[k2 v2|t2] tes]]; try (exfalso; congruence).
    - exists k, v; simpl; auto.
    - exists k, v; simpl; auto.
    - exists k, v; simpl; auto.
    - exists k2, v2; simpl; auto.
    - simpl in NA. tauto. }
  destruct HF as [|e te es tes He HF].
  { apply STAY. discriminate. }
  destruct HF as [|e2 te2 es tes He2 HF].
  2:{ destruct e; apply STAY; discriminate. }
  destruct e as [k v|m'], te as [k' v'|t']; simpl in He; try tauto.
  { apply STAY. discriminate. }
  destruct n as [|n]; [tauto|].
  inversion F as [|? ? W' _]; subst. destruct W' as [W' NE'].
  destruct (IH n ltac:(lia) f m' t' ltac:(lia) He W') as (n' & m2 & t2 & E & Hn & R2 & W2 & L2 & HL & _).
  exists n', m2, t2. splits; auto; try lia.
  - rewrite L2, leaves_node, L_one. auto.
  - discriminate.
Qed.

Lemma ddel_sorted {V} key (l : list (str * V)) : ssorted (keys l) -> ssorted (keys (ddel key l)).
Proof.
  induction l as [|[k v] l IH]; simpl; auto. intros S. inversion S as [|? ? S1 F1]; subst.
  destruct (str_eqb key k); [exact S1|]. simpl. constructor; [exact (IH S1)|].
  rewrite Forall_forall in *. intros x Hx. apply F1. apply ddel_keys_in in Hx. exact Hx.
Qed.

Lemma delete_ok n fuel m t key : n < fuel -> rep n m t -> wf n t -> sorted_tree t ->
  match dget key (leaves t) with
  | None => delete kdigest rd fuel m key = Err KeyError
  | Some _ => exists n' m' t', delete kdigest rd fuel m key = Ok m' /\ n' <= n /\
      rep n' m' t' /\ wf n' t' /\ leaves t' = ddel key (leaves t) /\ (t' <> Node [] -> has_leaf t')
  end.
Proof.
  intros Hf R W Srt. unfold delete.
  pose proof (delete_recurse_ok n fuel m t key Hf R W Srt) as H.
  destruct (dget key (leaves t)); [|rewrite H; auto].
  destruct H as (n0 & m1 & es1 & tes1 & -> & Hes1 & HF1 & Hn0 & Hn1 & R1 & W1 & L1). cbn [bind].
  assert (W0 : wf n0 (Node tes1)).
  { destruct (nil_or_not tes1) as [->|NE]; [apply wf_empty|]. rewrite (Hn1 NE). auto. }
  destruct (trim_top_ok n0 fuel m1 (Node tes1) ltac:(lia) R1 W0)
    as (n' & m' & t' & E & Hn & R' & W' & L' & HL & HE).
  exists n', m', t'. splits; auto; try lia.
  - rewrite L', leaves_node, L1. auto.
  - intros NE. apply HL. intros X. destruct (HE X). congruence.
Qed.

End Ops.
