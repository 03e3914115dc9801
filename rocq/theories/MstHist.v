(** Histories: the client refines the dictionary. *)
From Coq Require Import String List NArith ZArith Bool Lia Sorted.
From Coq Require Import ZifyBool ZifyNat ZifyN.
From Verif Require Import Base Lists Ipld IpldProofs MstModel MstTree MstTreeProofs MstRep MstOps MstTrav
  MstClient MstSpec.
Import ListNotations.

(** ** Keys *)

Lemma key_char_spec c : key_char c = true <-> segment_char c.
Proof. unfold key_char, segment_char, letter_or_digit. lia. Qed.

Lemma split_on_none sep x : ~ In sep x -> split_on sep x = [x].
Proof.
  induction x as [|c x IH]; simpl; auto. intros H.
  destruct (N.eqb_spec c sep); [subst; tauto|]. rewrite IH by tauto. auto.
Qed.

Lemma split_on_app sep a b : ~ In sep a -> split_on sep (a ++ sep :: b) = a :: split_on sep b.
Proof.
  induction a as [|c a IH]; simpl; intros H.
  - rewrite N.eqb_refl. auto.
  - destruct (N.eqb_spec c sep); [subst; tauto|]. rewrite IH by tauto. auto.
Qed.

Lemma split_on_inv sep x : forall segs, split_on sep x = segs ->
  match segs with
  | [] => False
  | [a] => a = x /\ ~ In sep x
  | a :: r => ~ In sep a /\ exists y, x = a ++ sep :: y /\ split_on sep y = r
  end.
Proof.
  induction x as [|c x IH]; simpl; intros segs <-; auto.
  destruct (N.eqb_spec c sep).
  - subst. specialize (IH _ eq_refl). destruct (split_on sep x) as [|a r] eqn:E; [tauto|].
    split; [simpl; tauto|]. exists x. split; auto.
  - specialize (IH _ eq_refl). destruct (split_on sep x) as [|a [|b r]] eqn:E; [contradiction| |].
    + destruct IH as [-> H]. split; auto. simpl. intuition.
    + destruct IH as [H (y & -> & H2)]. split; [simpl; intuition|].
      exists y. auto.
Qed.

Lemma segment_no_slash x : segment x -> ~ In 47%N x.
Proof.
  intros [_ F] H. rewrite Forall_forall in F. specialize (F _ H).
  unfold segment_char, letter_or_digit in F. lia.
Qed.

Lemma segment_bool x : nonempty x && forallb key_char x = true <-> segment x.
Proof.
  unfold segment. rewrite andb_true_iff, forallb_forall, Forall_forall.
  split; intros [H1 H2]; split.
  - destruct x; [discriminate|congruence].
  - intros c Hc. apply key_char_spec. auto.
  - destruct x; [congruence|auto].
  - intros c Hc. apply key_char_spec. auto.
Qed.

Lemma valid_key_spec k : valid_key k = true <-> repo_key k.
Proof.
  unfold valid_key, repo_key. split.
  - destruct (split_on 47 k) as [|a [|b [|c r]]] eqn:E; try discriminate.
    intros H. repeat rewrite andb_true_iff in H. destruct H as ((((H1 & H2) & H3) & H4) & H5).
    apply Nat.leb_le in H1. split; auto.
    apply split_on_inv in E as [_ (y & -> & E)]. apply split_on_inv in E as [-> E].
    exists a, y. splits; auto; apply segment_bool; rewrite andb_true_iff; auto.
  - intros [HL (a & b & -> & Sa & Sb)].
    rewrite split_on_app, split_on_none by (apply segment_no_slash; auto).
    apply segment_bool in Sa, Sb. rewrite andb_true_iff in Sa, Sb.
    apply Nat.leb_le in HL. rewrite HL. repeat rewrite andb_true_iff. tauto.
Qed.

Lemma valid_key_false k : valid_key k = false <-> ~ repo_key k.
Proof. rewrite <- valid_key_spec. destruct (valid_key k); split; congruence. Qed.

Lemma zeros_le d : zeros_of_digest d <= 4 * length d.
Proof.
  induction d as [|b d IH]; simpl; [lia|].
  destruct (b <? 64)%N, (b <? 16)%N, (b <? 4)%N, (b =? 0)%N; lia.
Qed.

(** ** Stores *)

Section Store.
Variable digest : list N -> list N.
Variable kdigest : str -> list N.
Hypothesis inj : forall a b, digest a = digest b -> a = b.

Notation wf := (wf kdigest).
Notation tcid := (tcid digest).
Notation tnode := (tnode digest).

Lemma closed_extend rd rd' bs n t :
  closed digest kdigest rd -> wf n t ->
  (forall c v, In (c, v) bs -> exists s, subtree s t /\ c = tcid s /\ v = tnode s /\ rd c = None) ->
  (forall s, subtree s t -> rd (tcid s) <> None \/ In (tcid s) (keys bs)) ->
  (forall c v, rd c = Some v -> rd' c = Some v) ->
  (forall c, In c (keys bs) -> rd' c <> None) ->
  (forall c v, rd' c = Some v -> rd c = Some v \/ In (c, v) bs \/ forall m t', wf m t' -> c <> tcid t') ->
  stored digest rd' t /\ closed digest kdigest rd'.
Proof.
  intros CL W B1 B2 M1 M2 M3.
  assert (MONO : forall t, stored digest rd t -> stored digest rd' t).
  { induction 1 as [es H _ IH]. constructor; auto. }
  assert (ALL : forall s, subtree s t -> stored digest rd' s).
  { induction s as [es IH] using tree_ind'. intros HS.
    destruct (wf_subtree kdigest _ _ HS n W) as (n' & _ & W').
    destruct (B2 _ HS) as [HR|HK].
    - apply MONO. eapply CL; eauto.
    - constructor.
      + destruct (rd' (tcid (Node es))) as [v|] eqn:E; [|exfalso; eapply M2; eauto].
        destruct (M3 _ _ E) as [H|[H|H]].
        * pose proof (CL n' _ W') as X. rewrite H in X. specialize (X ltac:(congruence)).
          inversion X; subst. congruence.
        * destruct (B1 _ _ H) as (s' & HS' & EC & EV & _).
          destruct (wf_subtree kdigest _ _ HS' n W) as (n2 & _ & W2).
          apply (tcid_inj digest kdigest inj n' _ n2 _ W' W2) in EC. congruence.
        * exfalso. eapply H; eauto.
      + intros t' HI. apply IH; auto. eapply subtree_trans; [|exact HS].
        econstructor; eauto. constructor. }
  split; [apply ALL; constructor|].
  intros m t' W' HR. destruct (rd' (tcid t')) as [v|] eqn:E; [|congruence].
  destruct (M3 _ _ E) as [H|[H|H]].
  - apply MONO. eapply CL; eauto. congruence.
  - destruct (B1 _ _ H) as (s' & HS' & EC & EV & _).
    destruct (wf_subtree kdigest _ _ HS' n W) as (n2 & _ & W2).
    apply (tcid_inj digest kdigest inj m _ n2 _ W' W2) in EC. subst. auto.
  - exfalso. eapply H; eauto.
Qed.

End Store.

Lemma stored_mono digest rd rd' t : (forall c v, rd c = Some v -> rd' c = Some v) ->
  stored digest rd t -> stored digest rd' t.
Proof. intros M. induction 1 as [es H _ IH]. constructor; auto. Qed.

Lemma rep_mono digest rd rd' n : (forall c v, rd c = Some v -> rd' c = Some v) ->
  forall m t, rep digest rd n m t -> rep digest rd' n m t.
Proof.
  intros M. induction n as [n IH] using lt_wf_ind. intros [oes p l o] [tes].
  rewrite !rep_eq. intros (A & B & C & D). splits; auto.
  destruct oes as [es|].
  - clear - D IH. induction D as [|e te es tes H D IHD]; constructor; auto.
    destruct e, te; simpl in *; auto. destruct n as [|n]; auto.
  - destruct D. split; auto. eapply stored_mono; eauto.
Qed.

Lemma dsetdefault_get {V} k (d : list (str * V)) kv :
  dget k (dsetdefault d kv) = match dget k d with
                              | Some v => Some v
                              | None => if str_eqb k (fst kv) then Some (snd kv) else None
                              end.
Proof.
  unfold dsetdefault. destruct kv as [k0 v0]. cbn [fst snd]. destruct (dget k0 d) eqn:E.
  - destruct (dget k d) eqn:E2; auto. destruct (str_eqb_spec k k0); auto. congruence.
  - rewrite dget_app. cbn [dget]. destruct (dget k d); auto.
Qed.

Lemma fold_setdefault_get {V} k bs : forall d : list (str * V),
  dget k (fold_left dsetdefault bs d) = match dget k d with Some v => Some v | None => dget k bs end.
Proof.
  induction bs as [|[k0 v0] bs IH]; intros d; cbn [fold_left].
  - cbn [dget]. destruct (dget k d); auto.
  - rewrite IH, dsetdefault_get. cbn [fst snd dget]. destruct (dget k d); auto.
    destruct (str_eqb k k0); auto.
Qed.

(** ** The client *)

Section Client.
Variable digest : list N -> list N.
Variable kdigest : str -> list N.
Hypothesis len : forall k, length (kdigest k) = 32.

Notation wf := (wf kdigest).
Notation rdc c := (fun k : str => dget k (cl_store c)).


(** What is known of the root besides well-formedness: nothing, or (with a flag that
    tells whether a delete has emptied the tree) that it is canonical. *)
Definition root_info (om : option bool) (n : nat) (t : tree) : Prop :=
  match om with
  | None => True
  | Some true => t = Node []
  | Some false => root_ok n t
  end.

(** [Rel om c d]: the client's tree represents [d]. *)
Definition Rel (om : option bool) (c : client) (d : list (str * cid)) : Prop :=
  exists n t, rep digest (rdc c) n (cl_tree c) t /\ wf n t /\ sorted_tree t /\ n <= 128 /\
    (forall k, dget k (leaves t) = dget k d) /\ NoDup (keys d) /\ root_info om n t.

Definition enext (e : bool) (o : mop) (d' : list (str * cid)) (out : res mout) : bool :=
  match o with
  | ODelete _ => match out, d' with Ok _, [] => true | _, _ => e end
  | OReload => false
  | _ => e
  end.

Lemma zeros_bound k : zeros kdigest k <= 128.
Proof. unfold zeros. pose proof (zeros_le (kdigest k)). rewrite len in H. lia. Qed.

Lemma dget_nil_empty {V} (l : list (str * V)) : (forall k, dget k l = None) -> l = [].
Proof.
  destruct l as [|[k v] l]; auto. intros H. specialize (H k). simpl in H.
  rewrite str_eqb_refl in H. discriminate.
Qed.

Lemma md : max_depth = S 129.
Proof. reflexivity. Qed.

Lemma Rel_weaken om c d : Rel om c d -> Rel None c d.
Proof. intros (n & t & H). exists n, t. simpl. intuition. Qed.

Lemma Rel_init : Rel (Some false) (cinit digest) [].
Proof.
  assert (E : exists p, mst_create digest [] None = Ok (Mst (Some []) (Some p) None false) /\ p = tcid digest (Node [])).
  { eexists. split; reflexivity. }
  destruct E as (p & E & ->).
  exists 0, (Node []). unfold cinit. rewrite E. cbn [cl_tree cl_store]. splits; auto.
  - apply rep_eq. splits; auto. 
  - apply wf_empty.
  - constructor.
  - lia.
  - constructor.
  - simpl. left. auto.
Qed.

Lemma update_invalid rd f m k v : valid_key k = false -> update kdigest rd (S f) m k v = Err ValueError.
Proof. intros V. cbn [update]. unfold ensure_valid_key. rewrite V. auto. Qed.

Lemma noleaf_dec tes : (exists k v, In (TLeaf k v) tes) \/ forall k v, ~ In (TLeaf k v) tes.
Proof.
  clear. induction tes as [|[k v|t] tes IH].
  - right. simpl. auto.
  - left. simpl. eauto.
  - destruct IH as [(k & v & H)|H]; [left; simpl; eauto|right].
    intros k v [X|X]; [discriminate|]. eapply H; eauto.
Qed.

(** Steps that do not touch the store. *)
Lemma cstep_tree om c d o : Rel om c d -> o <> OPersist -> o <> OReload ->
  exists d' out, dict_step d o d' out /\ snd (cstep digest kdigest c o) = out /\
    cl_store (fst (cstep digest kdigest c o)) = cl_store c /\
    Rel None (fst (cstep digest kdigest c o)) d' /\
    (forall e, om = Some e -> (forall k v, o = OAdd k v -> out = Ok Done -> e = false) ->
       Rel (Some (enext e o d' out)) (fst (cstep digest kdigest c o)) d').
Proof.
  intros HR NP NR. pose proof (Rel_weaken _ _ _ HR) as KT.
  destruct HR as (n & t & R & W & Srt & Hn & Same & ND & RO).
  pose proof md as MD.
  assert (KEEP : forall e, om = Some e -> Rel (Some e) c d).
  { intros e ->. exists n, t. splits; auto. }
  destruct o as [k v|k v|k|k| |]; try congruence; unfold cstep; cbv beta iota zeta.
  - pose proof (add_ok digest kdigest (rdc c) n max_depth (cl_tree c) t k v) as H.
    pose proof (zeros_bound k). specialize (H ltac:(lia) ltac:(lia) R W Srt).
    destruct (valid_key k) eqn:V.
    + rewrite Same in H. destruct (dget k d) as [x|] eqn:G.
      * rewrite H. exists d, (Err ValueError). cbn [assign fst snd enext]. splits; auto.
        eapply d_add_present; eauto.
      * destruct H as (n' & m' & t' & -> & R' & W' & I' & -> & RO'). cbn [assign fst snd cl_store enext].
        assert (X : forall om', root_info om' (Nat.max n (zeros kdigest k)) t' -> Rel om' {| cl_store := cl_store c; cl_tree := m' |} (dset k v d)).
        { intros om' He'. exists (Nat.max n (zeros kdigest k)), t'. cbn [cl_tree cl_store]. splits; auto.
          - eapply inserted_sorted; eauto.
          - lia.
          - intros k'. rewrite (inserted_dget _ _ _ _ k' I'), dget_dset, Same. auto.
          - apply dset_NoDup; auto. }
        exists (dset k v d), (Ok Done). splits; auto.
        -- constructor; auto. apply valid_key_spec; auto.
        -- apply X. simpl. auto.
        -- intros e -> He. assert (e = false) by eauto. subst. apply X. simpl. auto.
    + rewrite H. exists d, (Err ValueError). cbn [assign fst snd enext]. splits; auto.
      apply d_add_invalid. apply valid_key_false; auto.
  - destruct (valid_key k) eqn:V.
    + pose proof (update_ok digest kdigest (rdc c) n max_depth (cl_tree c) t k v ltac:(lia) R W Srt V) as H.
      rewrite Same in H. destruct (dget k d) as [x|] eqn:G.
      * destruct H as (m' & t' & -> & R' & W' & NE' & L'). cbn [assign fst snd cl_store enext].
        assert (SAME' : forall k', dget k' (leaves t') = dget k' (dset k v d)).
        { intros k'. rewrite L', !dget_dset, Same. auto. }
        assert (X : forall om', root_info om' n t' -> Rel om' {| cl_store := cl_store c; cl_tree := m' |} (dset k v d)).
        { intros om' He'. exists n, t'. cbn [cl_tree cl_store]. splits; auto.
          - unfold sorted_tree. rewrite L', keys_dset_present; auto. rewrite Same. congruence.
          - apply dset_NoDup; auto. }
        exists (dset k v d), (Ok Done). splits; auto.
        -- econstructor; eauto. apply valid_key_spec; auto.
        -- apply X. simpl. auto.
        -- intros e -> _. apply X. simpl in RO |- *. destruct e.
           { subst t. rewrite <- Same in G. discriminate. }
           (* the layer of the root is unchanged because the keys are *)
           assert (MZ : forall l, max_zeros kdigest (dset k v l) = max_zeros kdigest l \/ dget k l = None).
           { clear. induction l as [|[k0 v0] l IH]; simpl; auto.
             destruct (str_eqb_spec k k0); subst; simpl; auto. destruct IH as [->|IH]; auto. }
           destruct (MZ (leaves t)) as [E|E]; [|rewrite Same in E; congruence].
           pose proof (root_layer kdigest n t W RO) as RL.
           destruct t' as [tes']. pose proof W' as W2. apply wf_node in W2 as [NA' F'].
           destruct (nil_or_not tes') as [->|NE2]; [congruence|].
           destruct (noleaf_dec tes') as [HL|HN]; [right; exact HL|].
           exfalso. destruct (noleaf_noadj tes' NA' HN) as [->|[t1 ->]]; [congruence|].
           pose proof (Forall_inv F') as W1. destruct n as [|n]; [destruct W1|]. destruct W1 as [W1 NE1].
           rewrite leaves_node, L_one in L'. cbn [eleaves] in L'.
           assert (MX : max_zeros kdigest (leaves t1) <= n).
           { apply max_zeros_le. apply Forall_forall. intros [k' v'] HI. eapply wf_leaf_in; eauto. }
           rewrite L' in MX. lia.
      * rewrite H. exists d, (Err KeyError). cbn [assign fst snd enext]. splits; auto.
        apply d_update_absent; auto. apply valid_key_spec; auto.
    + assert (E : update kdigest (rdc c) max_depth (cl_tree c) k v = Err ValueError).
      { rewrite MD. apply update_invalid; auto. }
      rewrite E. exists d, (Err ValueError). cbn [assign fst snd enext]. splits; auto.
      apply d_update_invalid. apply valid_key_false; auto.
  - pose proof (delete_ok digest kdigest (rdc c) n max_depth (cl_tree c) t k ltac:(lia) R W Srt) as H.
    rewrite Same in H. destruct (dget k d) as [x|] eqn:G.
    + destruct H as (n' & m' & t' & -> & Hn' & R' & W' & L' & HL'). cbn [assign fst snd cl_store enext].
      assert (SAME' : forall k', dget k' (leaves t') = dget k' (ddel k d)).
      { intros k'. rewrite L', !dget_ddel, Same; auto. apply ssorted_NoDup; auto. }
      assert (X : forall om', root_info om' n' t' -> Rel om' {| cl_store := cl_store c; cl_tree := m' |} (ddel k d)).
      { intros om' He'. exists n', t'. cbn [cl_tree cl_store]. splits; auto.
        - unfold sorted_tree. rewrite L'. apply ddel_sorted; auto.
        - lia.
        - apply ddel_NoDup; auto. }
      exists (ddel k d), (Ok Done). splits; auto.
      * econstructor; eauto.
      * apply X. simpl. auto.
      * intros e -> _. apply X. destruct (ddel k d) as [|kv d'] eqn:ED.
        -- simpl. destruct t' as [[|te tes']]; auto. exfalso.
           apply (wf_nonempty kdigest _ _ W'); [congruence|]. apply dget_nil_empty. intros k'.
           rewrite SAME'. auto.
        -- simpl in RO. destruct e.
           { subst t. rewrite <- Same in G. discriminate. }
           simpl. eapply root_ok_leaf, HL'. intros ->. specialize (SAME' (fst kv)). destruct kv as [k1 v1].
           simpl in SAME'. rewrite str_eqb_refl in SAME'. discriminate.
    + rewrite H. exists d, (Err KeyError). cbn [assign fst snd enext]. splits; auto. constructor; auto.
  - rewrite (get_ok digest kdigest (rdc c) n max_depth (cl_tree c) t k ltac:(lia) R W Srt).
    exists d, (Ok (Got (dget k d))). cbn [bind fst snd enext]. rewrite Same. splits; auto. constructor.
Qed.

(** Steps that do. *)
Hypothesis inj : forall a b, digest a = digest b -> a = b.

Definition CS (c : client) : Prop := closed digest kdigest (rdc c).

Lemma persist_ok om c d : Rel om c d -> CS c -> exists root c', persist digest kdigest c = Ok (root, c') /\
  get_pointer digest (cl_tree c) = Ok root /\ cl_tree c' = cl_tree c /\
  (forall k v, dget k (cl_store c) = Some v -> dget k (cl_store c') = Some v) /\
  Rel om c' d /\ CS c' /\
  Rel (option_map (fun _ => false) om) (Client (cl_store c') (mst_load root)) d.
Proof.
  intros (n & t & R & W & Srt & Hn & Same & ND & RO) CL. pose proof md as MD.
  destruct (get_unstored_ok digest kdigest (rdc c) n max_depth (cl_tree c) t ltac:(lia) R W CL)
    as (bs & E & NDb & B1 & B2).
  unfold persist. rewrite E. cbn [bind fst snd].
  set (st' := fold_left dsetdefault bs (cl_store c)).
  assert (M1 : forall k v, dget k (cl_store c) = Some v -> dget k st' = Some v).
  { intros k v H. unfold st'. rewrite fold_setdefault_get, H. auto. }
  destruct (closed_extend digest kdigest inj (rdc c) (fun k : str => dget k st') bs n t CL W B1 B2 M1) as [ST' CL'].
  { intros k H. unfold st'. rewrite fold_setdefault_get. destruct (dget k (cl_store c)); [congruence|].
    apply dget_In_key. auto. }
  { intros k v H. unfold st' in H. rewrite fold_setdefault_get in H.
    destruct (dget k (cl_store c)); auto. right. left. apply dget_In. auto. }
  exists (tcid digest t), (Client st' (cl_tree c)). splits; auto.
  - exact (get_pointer_ok digest kdigest (rdc c) n (cl_tree c) t R W).
  - exists n, t. splits; auto. exact (rep_mono digest (rdc c) (fun k : str => dget k st') n M1 _ _ R).
  - destruct om as [e|]; cbn [option_map].
    + assert (exists n', n' <= n /\ wf n' t /\ root_ok n' t) as (n' & Hn' & W' & RO').
      { destruct e; simpl in RO; [|exists n; auto]. subst t. exists 0. splits; [lia|apply wf_empty|left; auto]. }
      exists n', t. cbn [cl_tree cl_store]. splits; auto; [|lia]. apply (load_rep digest kdigest); auto.
    + destruct (load_any digest kdigest (fun k : str => dget k st') n t W ST') as (n' & Hn' & W' & R' & _).
      exists n', t. cbn [cl_tree cl_store]. splits; auto; lia.
Qed.


(** ** Runs *)

Lemma dict_step_fun d o d1 out1 d2 out2 : dict_step d o d1 out1 -> dict_step d o d2 out2 ->
  d1 = d2 /\ out1 = out2.
Proof.
  clear. intros H1 H2. destruct H1; inversion H2; subst; split; congruence || tauto || auto.
Qed.


Lemma cstep_all om c d o : Rel om c d -> CS c ->
  exists d' out, dict_step d o d' out /\ snd (cstep digest kdigest c o) = out /\
    (forall k v, dget k (cl_store c) = Some v -> dget k (cl_store (fst (cstep digest kdigest c o))) = Some v) /\
    CS (fst (cstep digest kdigest c o)) /\ Rel None (fst (cstep digest kdigest c o)) d' /\
    (forall e, om = Some e -> (forall k v, o = OAdd k v -> out = Ok Done -> e = false) ->
       Rel (Some (enext e o d' out)) (fst (cstep digest kdigest c o)) d').
Proof.
  intros HR HC.
  assert (D : (o <> OPersist /\ o <> OReload) \/ o = OPersist \/ o = OReload).
  { destruct o; auto; left; split; discriminate. }
  destruct D as [[NP NR]|[->| ->]].
  - destruct (cstep_tree om c d o HR NP NR) as (d' & out & H1 & H2 & H3 & H4 & H5).
    exists d', out. splits; auto.
    + rewrite H3. auto.
    + unfold CS. rewrite H3. exact HC.
  - destruct (persist_ok om c d HR HC) as (root & c' & E & P & T & M & R1 & C1 & R2).
    exists d, (Ok Done). unfold cstep. rewrite E. cbn [fst snd enext]. splits; auto.
    + constructor.
    + eapply Rel_weaken; eauto.
    + intros e -> _. auto.
  - destruct (persist_ok om c d HR HC) as (root & c' & E & P & T & M & R1 & C1 & R2).
    exists d, (Ok Done). unfold cstep. rewrite E. cbn [fst snd enext]. splits; auto.
    + constructor.
    + eapply Rel_weaken; eauto.
    + intros e -> _. exact R2.
Qed.

Lemma crun_cons c o ops : crun digest kdigest c (o :: ops) =
  (fst (crun digest kdigest (fst (cstep digest kdigest c o)) ops),
   snd (cstep digest kdigest c o) :: snd (crun digest kdigest (fst (cstep digest kdigest c o)) ops)).
Proof.
  clear. cbn [crun]. destruct (cstep digest kdigest c o) as [c1 out]. cbn [fst snd].
  destruct (crun digest kdigest c1 ops). auto.
Qed.

Lemma crun_all ops : forall c d, Rel None c d -> CS c ->
  exists d', dict_run d ops d' (snd (crun digest kdigest c ops)) /\
    (forall k v, dget k (cl_store c) = Some v -> dget k (cl_store (fst (crun digest kdigest c ops))) = Some v) /\
    CS (fst (crun digest kdigest c ops)) /\ Rel None (fst (crun digest kdigest c ops)) d'.
Proof.
  induction ops as [|o ops IH]; intros c d HR HC.
  - exists d. cbn [crun fst snd]. splits; auto. constructor.
  - rewrite crun_cons. cbn [fst snd].
    destruct (cstep_all None c d o HR HC) as (d1 & out & H1 & H2 & H3 & H4 & H5 & _).
    destruct (IH _ _ H5 H4) as (d' & G1 & G2 & G3 & G4).
    exists d'. splits; auto. rewrite H2. econstructor; eauto.
Qed.

Lemma crun_canon ops : forall e c d, no_add_after_emptying e d ops -> Rel (Some e) c d -> CS c ->
  exists d' e', dict_run d ops d' (snd (crun digest kdigest c ops)) /\
    CS (fst (crun digest kdigest c ops)) /\ Rel (Some e') (fst (crun digest kdigest c ops)) d'.
Proof.
  induction ops as [|o ops IH]; intros e c d NA HR HC.
  - exists d, e. cbn [crun fst snd]. splits; auto. constructor.
  - rewrite crun_cons. cbn [fst snd].
    destruct (cstep_all (Some e) c d o HR HC) as (d1 & out & H1 & H2 & H3 & H4 & _ & H5).
    assert (NX : no_add_after_emptying (enext e o d1 out) d1 ops /\
                 (forall k v, o = OAdd k v -> out = Ok Done -> e = false)).
    { clear - NA H1. inversion NA; subst; cbn [enext];
        try (match goal with HS : dict_step d ?o ?d1' ?o', H1 : dict_step d ?o _ _ |- _ =>
               destruct (dict_step_fun _ _ _ _ _ _ HS H1); subst end);
        try (inversion H1; subst);
        split; try assumption; try congruence; auto. }
    destruct NX as [NX EX].
    destruct (IH _ _ _ NX (H5 e eq_refl EX) H4) as (d' & e' & G1 & G2 & G3).
    exists d', e'. splits; auto. rewrite H2. econstructor; eauto.
Qed.

Lemma CS_init : CS (cinit digest).
Proof. intros n t _ H. cbn in H. congruence. Qed.

End Client.

Section Memory.
Variable digest : list N -> list N.
Variable kdigest : str -> list N.
Hypothesis len : forall k, length (kdigest k) = 32.

Lemma crun_mem ops : forall c d, in_memory ops -> Rel digest kdigest None c d ->
  exists d', dict_run d ops d' (snd (crun digest kdigest c ops)) /\
    Rel digest kdigest None (fst (crun digest kdigest c ops)) d'.
Proof.
  induction ops as [|o ops IH]; intros c d IM HR.
  - exists d. cbn [crun fst snd]. splits; auto. constructor.
  - rewrite crun_cons. cbn [fst snd]. destruct (IM o (or_introl eq_refl)) as [NP NR].
    destruct (cstep_tree digest kdigest len None c d o HR NP NR) as (d1 & out & H1 & H2 & H3 & H4 & _).
    destruct (IH _ d1 ltac:(intros o' Ho; apply IM; right; auto) H4) as (d' & G1 & G2).
    exists d'. splits; auto. rewrite H2. econstructor; eauto.
Qed.

End Memory.
