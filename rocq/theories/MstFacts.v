(** The properties of reachable trees. *)
From Coq Require Import String List NArith ZArith Bool Lia Sorted.
From Coq Require Import ZifyBool ZifyNat ZifyN.
From Verif Require Import Base Lists Ipld IpldProofs Sha256 MstModel MstTree MstTreeProofs MstRep MstOps MstTrav
  MstClient MstSpec MstShape MstHist.
Import ListNotations.

(** ** Heights *)

Lemma height_ok d : zeros_of_digest d = height d.
Proof.
  unfold height. induction d as [|b d IH]; auto.
  cbn [zeros_of_digest flat_map bit_pairs app].
  assert (Z1 : (b < 64 <-> b / 64 = 0)%N).
  { split; intros H; [apply N.div_small; auto|apply N.div_small_iff in H; lia]. }
  destruct (N.ltb_spec b 64) as [L1|L1].
  - assert (X : (b / 64 = 0)%N) by tauto. rewrite X. cbn [leading_zeros_of].
    destruct (N.ltb_spec b 16) as [L2|L2].
    + assert (Y : (b / 16 = 0)%N) by (apply N.div_small; auto). rewrite Y.
      change (0 mod 4)%N with 0%N. cbn [leading_zeros_of].
      destruct (N.ltb_spec b 4) as [L3|L3].
      * assert (W : (b / 4 = 0)%N) by (apply N.div_small; auto). rewrite W.
        change (0 mod 4)%N with 0%N. cbn [leading_zeros_of].
        destruct (N.eqb_spec b 0) as [->|NZ].
        -- change (0 mod 4)%N with 0%N. cbn [leading_zeros_of]. rewrite IH. lia.
        -- rewrite N.mod_small by auto. destruct b; [congruence|]. cbn [leading_zeros_of]. lia.
      * destruct (N.eqb_spec b 0); [lia|].
        assert (W : (b / 4 < 4)%N) by (apply N.div_lt_upper_bound; lia).
        rewrite (N.mod_small (b / 4)) by auto.
        assert (W2 : (b / 4 <> 0)%N).
        { intros HH. apply N.div_small_iff in HH; lia. }
        destruct (b / 4)%N; [congruence|]. cbn [leading_zeros_of]. lia.
    + destruct (N.ltb_spec b 4); [lia|]. destruct (N.eqb_spec b 0); [lia|].
      assert (W : (b / 16 < 4)%N) by (apply N.div_lt_upper_bound; lia).
      rewrite (N.mod_small (b / 16)) by auto.
      assert (W2 : (b / 16 <> 0)%N).
      { intros HH. apply N.div_small_iff in HH; lia. }
      destruct (b / 16)%N; [congruence|]. cbn [leading_zeros_of]. lia.
  - destruct (N.ltb_spec b 16); [lia|]. destruct (N.ltb_spec b 4); [lia|].
    destruct (N.eqb_spec b 0); [lia|].
    assert (W2 : (b / 64 <> 0)%N) by (intros HH; apply Z1 in HH; lia).
    destruct (b / 64)%N; [congruence|]. cbn [leading_zeros_of]. lia.
Qed.

Lemma key_height kdigest k : leading_zeros_on_hash kdigest k = Z.of_nat (height (kdigest k)) /\
  height (kdigest k) <= 4 * length (kdigest k).
Proof.
  unfold leading_zeros_on_hash. rewrite height_ok. split; auto. rewrite <- height_ok. apply zeros_le.
Qed.

(** ** Node data *)

Definition leaf_keys_ok (pes : list pentry) : Prop := forall k v, In (PLeaf k v) pes -> repo_key k.
Definition no_adjacent_pointers (pes : list pentry) : Prop :=
  forall l a b r, pes <> l ++ PSub a :: PSub b :: r.

Lemma nap_tl e pes : no_adjacent_pointers (e :: pes) -> no_adjacent_pointers pes.
Proof. intros H l a b r E. apply (H (e :: l) a b r). rewrite E. auto. Qed.

Lemma pser_entries pes : forall last, leaf_keys_ok pes -> no_adjacent_pointers pes ->
  (forall c r, pes <> PSub c :: r) -> exists d, ser_entries last pes = Ok d.
Proof.
  remember (length pes) as k eqn:Hk. assert (Hle : length pes <= k) by lia. clear Hk.
  revert pes Hle; induction k as [|k IH]; intros pes Hle last KO NA NS.
  - destruct pes; [|simpl in Hle; lia]. simpl. eauto.
  - destruct pes as [|[key v|c] pes]; [simpl; eauto| |exfalso; eapply NS; eauto].
    assert (V : valid_key key = true) by (apply valid_key_spec; eapply KO; simpl; eauto).
    destruct pes as [|[k2 v2|c2] pes].
    + simpl. unfold ensure_valid_key. rewrite V. simpl. eauto.
    + destruct (IH (PLeaf k2 v2 :: pes)) with (last := key) as [d Hd].
      * simpl in *. lia.
      * intros k' v' H. eapply KO; right; eauto.
      * eapply nap_tl; eauto.
      * discriminate.
      * cbn [ser_entries] in Hd |- *. unfold ensure_valid_key at 1. rewrite V. cbn [bind].
        rewrite Hd. cbn [bind]. eauto.
    + destruct (IH pes) with (last := key) as [d Hd].
      * simpl in *. lia.
      * intros k' v' H. eapply KO; right; right; eauto.
      * eapply nap_tl, nap_tl; eauto.
      * intros c r E. subst. apply (NA [PLeaf key v] c2 c r). auto.
      * cbn [ser_entries]. unfold ensure_valid_key. rewrite V. cbn [bind]. rewrite Hd. cbn [bind]. eauto.
Qed.

Lemma pser_ok pes : leaf_keys_ok pes -> no_adjacent_pointers pes ->
  exists d, serialize_node_data pes = Ok d.
Proof.
  intros KO NA. destruct pes as [|[k v|c] pes].
  - simpl. eauto.
  - destruct (pser_entries (PLeaf k v :: pes) []) as [d Hd]; auto; [discriminate|].
    unfold serialize_node_data. rewrite Hd. simpl. eauto.
  - destruct (pser_entries pes []) as [d Hd].
    + intros k v H. eapply KO; right; eauto.
    + eapply nap_tl; eauto.
    + intros c' r E. subst. apply (NA [] c c' r). auto.
    + unfold serialize_node_data. rewrite Hd. simpl. eauto.
Qed.

Lemma pser_entries_inv pes : forall last d, ser_entries last pes = Ok d ->
  leaf_keys_ok pes /\ no_adjacent_pointers pes /\ (forall c r, pes <> PSub c :: r).
Proof.
  remember (length pes) as k eqn:Hk. assert (Hle : length pes <= k) by lia. clear Hk.
  revert pes Hle; induction k as [|k IH]; intros pes Hle last d H.
  - destruct pes; [|simpl in Hle; lia]. splits; [intros ? ? []| |discriminate].
    intros l a b r E. destruct l; discriminate.
  - destruct pes as [|[key v|c] pes]; simpl in H; try discriminate.
    { splits; [intros ? ? []| |discriminate]. intros l a b r E. destruct l; discriminate. }
    unfold ensure_valid_key in H.
    destruct (valid_key key) eqn:V; [|destruct pes as [|[|]]; discriminate].
    apply valid_key_spec in V.
    destruct pes as [|[k2 v2|c2] pes].
    + splits; [|intros [|x l] a b r E; [discriminate|destruct l; discriminate]|discriminate].
      intros k' v' [E|[]]. congruence.
    + cbn [bind] in H. destruct (ser_entries key (PLeaf k2 v2 :: pes)) as [r0|] eqn:E; [|discriminate].
      apply IH in E as (A & B & C); [|simpl in *; lia]. splits; [| |discriminate].
      * intros k' v' [X|X]; [congruence|eauto].
      * intros [|x l] a b r X; [discriminate|]. inversion X; subst. eapply B; eauto.
    + cbn [bind] in H. destruct (ser_entries key pes) as [r0|] eqn:E; [|discriminate].
      apply IH in E as (A & B & C); [|simpl in *; lia]. splits; [| |discriminate].
      * intros k' v' [X|[X|X]]; [congruence|discriminate|eauto].
      * intros [|x [|y l]] a b r X; [discriminate| |].
        -- inversion X; subst. eapply C; eauto.
        -- inversion X; subst. eapply B; eauto.
Qed.

Lemma pser_inv pes d : serialize_node_data pes = Ok d -> leaf_keys_ok pes /\ no_adjacent_pointers pes.
Proof.
  unfold serialize_node_data. intros H. destruct pes as [|[k v|c] pes].
  - split; [intros ? ? []|]. intros l a b r E; destruct l; discriminate.
  - destruct (ser_entries [] (PLeaf k v :: pes)) eqn:E; [|discriminate]. apply pser_entries_inv in E. tauto.
  - destruct (ser_entries [] pes) eqn:E; [|discriminate]. apply pser_entries_inv in E as (A & B & C). split.
    + intros k' v' [X|X]; [discriminate|eauto].
    + intros [|x l0] a0 b0 r0 X; inversion X; subst; [eapply C|eapply B]; eauto.
Qed.

(** ** Shape *)

Lemma noadj_spec es : noadj es <-> no_adjacent_subtrees es.
Proof.
  split.
  - intros H l t1 t2 r ->. induction l as [|[k v|t] l IH]; [simpl in H; auto| |].
    + simpl in H. auto.
    + apply IH. simpl app in H. destruct (l ++ TSub t1 :: TSub t2 :: r) as [|[|]]; simpl in H; tauto.
  - intros H. induction es as [|e es IH]; simpl; auto.
    assert (H' : noadj es).
    { apply IH. intros l t1 t2 r ->. apply (H (e :: l) t1 t2 r). auto. }
    destruct e as [k v|t]; auto. destruct es as [|[|t2] es]; auto.
    apply (H [] t t2 es). auto.
Qed.

Lemma wf_node_at kdigest n : forall t, wf kdigest n t -> node_at kdigest n t.
Proof.
  induction n as [n IH] using lt_wf_ind. intros [es] W. apply wf_node in W as [NA F].
  rewrite Forall_forall in F. constructor.
  - intros k v H. apply F in H as [Z V]. rewrite <- height_ok. split; auto. apply valid_key_spec. auto.
  - intros t H. apply F in H. cbn [wfE] in H. destruct n as [|n]; [tauto|]. destruct H as [W NE]. split; auto.
    exists n. split; auto.
  - apply noadj_spec. auto.
Qed.

Lemma spath_desc key : forall t, descending (spath key t) /\ exists r, spath key t = t :: r.
Proof.
  induction t as [es IH] using tree_ind'. rewrite spath_node. split; [|eauto].
  assert (X : forall es' cand, (forall t, In (TSub t) es' -> In (TSub t) es) ->
    (descending cand /\ match cand with [] => True | t :: _ => In (TSub t) es end) ->
    descending (spath_go key es' cand) /\ match spath_go key es' cand with [] => True | t :: _ => In (TSub t) es end).
  { induction es' as [|[k v|t] es' IHe]; intros cand S HC; simpl; auto.
    - destruct (str_eqb key k); [simpl; auto|]. destruct (str_ltb key k); auto.
      apply IHe; [intros; apply S; right; auto|simpl; auto].
    - apply IHe; [intros; apply S; right; auto|].
      destruct (IH t (S t (or_introl eq_refl))) as [D (r & E)].
      rewrite E in *. split; auto. apply S. left. auto. }
  destruct (X es [] ltac:(auto) ltac:(simpl; auto)) as [D H].
  destruct (spath_go key es []) as [|t r] eqn:E; simpl; auto.
Qed.

(** ** Reachable clients *)

Section Reach.
Variable digest : list N -> list N.
Variable kdigest : str -> list N.
Hypothesis klen : forall k, length (kdigest k) = 32.

Notation rdc c := (fun k : str => dget k (cl_store c)).
Notation run ops := (crun digest kdigest (cinit digest) ops).
Notation Rel := (Rel digest kdigest).

Lemma reach_rel ops : hash_ok digest ops ->
  exists d, dict_run [] ops d (snd (run ops)) /\ Rel None (fst (run ops)) d.
Proof.
  pose proof (Rel_weaken _ _ _ _ _ (Rel_init digest kdigest)) as R0.
  intros [M|I].
  - apply crun_mem; auto.
  - destruct (crun_all digest kdigest klen I ops _ _ R0 (CS_init digest kdigest)) as (d & A & _ & _ & B). eauto.
Qed.

Lemma reach_cs ops : collision_free digest ->
  exists d, dict_run [] ops d (snd (run ops)) /\ Rel None (fst (run ops)) d /\ CS digest kdigest (fst (run ops)).
Proof.
  pose proof (Rel_weaken _ _ _ _ _ (Rel_init digest kdigest)) as R0.
  intros I. destruct (crun_all digest kdigest klen I ops _ _ R0 (CS_init digest kdigest)) as (d & A & _ & C & B). eauto.
Qed.

Lemma dict_run_fun ops : forall d d1 d2 o1 o2, dict_run d ops d1 o1 -> dict_run d ops d2 o2 -> d1 = d2 /\ o1 = o2.
Proof.
  clear. induction ops as [|o ops IH]; intros d d1 d2 o1 o2 H1 H2; inversion H1; inversion H2; subst; auto.
  match goal with A : dict_step d o _ _, B : dict_step d o _ _ |- _ => destruct (dict_step_fun _ _ _ _ _ _ A B) end.
  subst. match goal with A : dict_run ?x ops _ _, B : dict_run ?x ops _ _ |- _ => destruct (IH _ _ _ _ _ A B) end.
  subst. auto.
Qed.

Lemma rel_get om c d k : Rel om c d -> get kdigest (rdc c) max_depth (cl_tree c) k = Ok (dget k d).
Proof. clear klen.
  intros (n & t & R & W & Srt & Hn & Same & _). pose proof md.
  rewrite (get_ok digest kdigest (rdc c) n max_depth (cl_tree c) t k ltac:(lia) R W Srt). rewrite Same. auto.
Qed.

(** What [leaves] lists is the dictionary, in order. *)
Definition listing (d l : list (str * cid)) : Prop :=
  ssorted (keys l) /\ forall k v, In (k, v) l <-> dget k d = Some v.

Lemma rel_listing om c d : Rel om c d -> exists n t l, rep digest (rdc c) n (cl_tree c) t /\ wf kdigest n t /\
  sorted_tree t /\ n <= 128 /\ leaves t = l /\ listing d l /\ same_items l d.
Proof. clear klen.
  intros (n & t & R & W & Srt & Hn & Same & ND & _). exists n, t, (leaves t). splits; auto. split; auto.
  intros k v. rewrite <- Same. split.
  - intros H. apply In_dget; auto. apply ssorted_NoDup; auto.
  - apply dget_In.
Qed.

Lemma rel_leaves om c d : Rel om c d -> exists l, mst_leaves kdigest (rdc c) max_depth (cl_tree c) = Ok l /\
  listing d l /\
  (forall key, walk_leaves_from kdigest (rdc c) max_depth (cl_tree c) key
               = Ok (filter (fun kv => str_leb key (fst kv)) l)) /\
  (forall after before, mst_list kdigest (rdc c) max_depth (cl_tree c) after before
               = Ok (filter (in_range after before) l)) /\
  (forall p, list_with_prefix kdigest (rdc c) max_depth (cl_tree c) p
               = Ok (filter (fun kv => starts_with p (fst kv)) l)).
Proof. clear klen.
  intros HR. destruct (rel_listing _ _ _ HR) as (n & t & l & R & W & Srt & Hn & HL & LS & _). pose proof md.
  exists l. subst l. splits; auto.
  - apply (leaves_ok digest kdigest (rdc c) n); auto. lia.
  - intros key. apply (walk_leaves_from_ok digest kdigest (rdc c) n); auto. lia.
  - intros a b. apply (mst_list_ok digest kdigest (rdc c) n); auto. lia.
  - intros p. apply (list_with_prefix_ok digest kdigest (rdc c) n); auto. lia.
Qed.

Lemma rel_shape om c d : Rel om c d -> exists n t, expand kdigest (rdc c) max_depth (cl_tree c) = Ok t /\
  node_at kdigest n t /\ listing d (leaves t) /\ get_pointer digest (cl_tree c) = Ok (tcid digest t).
Proof. clear klen.
  intros HR. destruct (rel_listing _ _ _ HR) as (n & t & l & R & W & Srt & Hn & HL & LS & _). pose proof md.
  exists n, t. subst l. splits; auto.
  - apply (expand_ok digest kdigest (rdc c) n); auto. lia.
  - apply wf_node_at; auto.
  - apply (get_pointer_ok digest kdigest (rdc c) n); auto.
Qed.

Lemma rel_path om c d key : Rel om c d -> exists t, expand kdigest (rdc c) max_depth (cl_tree c) = Ok t /\
  cids_for_path digest kdigest (rdc c) max_depth (cl_tree c) key
  = Ok (map (tcid digest) (spath key t) ++ match dget key d with Some v => [v] | None => [] end).
Proof. clear klen.
  intros HR. destruct (rel_listing _ _ _ HR) as (n & t & l & R & W & Srt & Hn & HL & LS & SI). pose proof md.
  exists t. split.
  - apply (expand_ok digest kdigest (rdc c) n); auto. lia.
  - rewrite (cids_for_path_ok digest kdigest (rdc c) n) with (t := t) by (auto; lia).
    rewrite HL. rewrite (SI key). auto.
Qed.

Lemma same_sorted l1 l2 : ssorted (keys l1) -> ssorted (keys l2) -> same_items l1 l2 -> l1 = l2.
Proof. intros. apply sorted_dget_ext; auto. Qed.

Lemma rel_canonical e c d : Rel (Some e) c d -> exists l, listing d l /\
  get_pointer digest (cl_tree c) = Ok (tcid digest (canonical kdigest l)).
Proof. clear klen.
  intros (n & t & R & W & Srt & Hn & Same & ND & RO).
  exists (leaves t). split.
  - split; auto. intros k v. rewrite <- Same. split.
    + intros H. apply In_dget; auto. apply ssorted_NoDup; auto.
    + apply dget_In.
  - rewrite (get_pointer_ok digest kdigest (rdc c) n (cl_tree c) t R W). do 2 f_equal.
    destruct e; simpl in RO.
    + subst t. reflexivity.
    + apply (canonical_unique kdigest n); auto.
Qed.

Lemma listing_unique d l1 l2 : listing d l1 -> listing d l2 -> l1 = l2.
Proof.
  clear. intros [S1 H1] [S2 H2]. apply sorted_dget_ext; auto. intros k.
  assert (X : forall l, listing d l -> dget k l = dget k d).
  { intros l [Sl Hl]. destruct (dget k d) as [v|] eqn:E.
    - apply In_dget; [apply ssorted_NoDup; auto|]. apply Hl. auto.
    - destruct (dget k l) as [v|] eqn:E2; auto. apply dget_In in E2. apply Hl in E2. congruence. }
  rewrite (X l1), (X l2); auto; split; auto.
Qed.

Lemma canonical_root ops : collision_free digest -> no_add_after_emptying false [] ops ->
  exists d l, dict_run [] ops d (snd (run ops)) /\ listing d l /\
    get_pointer digest (cl_tree (fst (run ops))) = Ok (tcid digest (canonical kdigest l)).
Proof.
  intros I NA.
  destruct (crun_canon digest kdigest klen I ops _ _ _ NA (Rel_init digest kdigest) (CS_init digest kdigest))
    as (d & e & A & _ & B).
  destruct (rel_canonical _ _ _ B) as (l & L1 & L2). exists d, l. auto.
Qed.

Lemma listing_same d1 d2 l : same_items d1 d2 -> listing d1 l -> listing d2 l.
Proof. clear. intros SI [A B]. split; auto. intros k v. rewrite B, (SI k). tauto. Qed.

Lemma root_by_contents ops1 ops2 d1 d2 o1 o2 : collision_free digest ->
  no_add_after_emptying false [] ops1 -> no_add_after_emptying false [] ops2 ->
  dict_run [] ops1 d1 o1 -> dict_run [] ops2 d2 o2 -> same_items d1 d2 ->
  get_pointer digest (cl_tree (fst (run ops1))) = get_pointer digest (cl_tree (fst (run ops2))).
Proof.
  intros I N1 N2 R1 R2 SI.
  destruct (canonical_root ops1 I N1) as (d1' & l1 & A1 & B1 & ->).
  destruct (canonical_root ops2 I N2) as (d2' & l2 & A2 & B2 & ->).
  destruct (dict_run_fun _ _ _ _ _ _ R1 A1) as [-> _].
  destruct (dict_run_fun _ _ _ _ _ _ R2 A2) as [-> _].
  rewrite (listing_unique d2' l1 l2); auto. eapply listing_same; eauto.
Qed.

Lemma rel_commits c1 c2 d1 d2 : collision_free digest -> Rel None c1 d1 -> Rel None c2 d2 ->
  get_pointer digest (cl_tree c1) = get_pointer digest (cl_tree c2) -> same_items d1 d2.
Proof. clear klen.
  intros I (n1 & t1 & R1 & W1 & _ & _ & S1 & _) (n2 & t2 & R2 & W2 & _ & _ & S2 & _) E.
  rewrite (get_pointer_ok digest kdigest (rdc c1) n1 (cl_tree c1) t1 R1 W1) in E.
  rewrite (get_pointer_ok digest kdigest (rdc c2) n2 (cl_tree c2) t2 R2 W2) in E.
  injection E as E. apply (tcid_inj digest kdigest I n1 t1 n2 t2 W1 W2) in E. subst t2.
  intros k. rewrite <- S1, <- S2. auto.
Qed.

Lemma root_commits ops1 ops2 d1 d2 o1 o2 : collision_free digest ->
  dict_run [] ops1 d1 o1 -> dict_run [] ops2 d2 o2 ->
  get_pointer digest (cl_tree (fst (run ops1))) = get_pointer digest (cl_tree (fst (run ops2))) ->
  same_items d1 d2.
Proof.
  intros I R1 R2 E.
  destruct (reach_cs ops1 I) as (d1' & A1 & B1 & _). destruct (reach_cs ops2 I) as (d2' & A2 & B2 & _).
  destruct (dict_run_fun _ _ _ _ _ _ R1 A1) as [-> _].
  destruct (dict_run_fun _ _ _ _ _ _ R2 A2) as [-> _].
  eapply rel_commits; eauto.
Qed.

Lemma persist_reload ops : collision_free digest ->
  exists root c', persist digest kdigest (fst (run ops)) = Ok (root, c') /\
    get_pointer digest (cl_tree (fst (run ops))) = Ok root /\
    (forall ops', snd (crun digest kdigest (Client (cl_store c') (mst_load root)) ops')
                  = snd (crun digest kdigest (fst (run ops)) ops')) /\
    mst_leaves kdigest (rdc c') max_depth (mst_load root)
    = mst_leaves kdigest (rdc (fst (run ops))) max_depth (cl_tree (fst (run ops))).
Proof.
  intros I. destruct (reach_cs ops I) as (d & A & B & C).
  destruct (persist_ok digest kdigest I None _ _ B C) as (root & c' & E & P & T & M & R1 & C1 & R2).
  exists root, c'. splits; [exact E|exact P| |].
  - intros ops'.
    destruct (crun_all digest kdigest klen I ops' _ _ R2 C1) as (d1 & D1 & _).
    destruct (crun_all digest kdigest klen I ops' _ _ B C) as (d2 & D2 & _).
    destruct (dict_run_fun _ _ _ _ _ _ D1 D2). auto.
  - destruct (rel_leaves _ _ _ R2) as (l1 & E1 & L1 & _). cbn [cl_tree cl_store] in E1. rewrite E1.
    destruct (rel_leaves _ _ _ B) as (l2 & -> & L2 & _).
    f_equal. eapply listing_unique; eauto.
Qed.

Lemma old_root_readable ops root c' ops' extra : collision_free digest ->
  persist digest kdigest (fst (run ops)) = Ok (root, c') ->
  let later := fold_left dsetdefault extra (cl_store (fst (crun digest kdigest c' ops'))) in
  mst_leaves kdigest (fun k : str => dget k later) max_depth (mst_load root)
  = mst_leaves kdigest (rdc (fst (run ops))) max_depth (cl_tree (fst (run ops))).
Proof.
  intros I HP later. destruct (reach_cs ops I) as (d & A & B & C).
  destruct (persist_ok digest kdigest I None _ _ B C) as (root' & c'' & E & P & T & M & R1 & C1 & R2).
  rewrite HP in E. injection E as <- <-.
  destruct (crun_all digest kdigest klen I ops' _ _ R1 C1) as (d1 & D1 & M1 & _).
  assert (M2 : forall k v, dget k (cl_store c') = Some v -> dget k later = Some v).
  { intros k v H. unfold later. rewrite fold_setdefault_get, (M1 k v H). auto. }
  assert (R3 : Rel None (Client later (mst_load root)) d).
  { destruct R2 as (n & t & X & Y). exists n, t. split; auto. cbn [cl_store cl_tree] in *.
    eapply rep_mono; [|exact X]. auto. }
  destruct (rel_leaves _ _ _ R3) as (l1 & E1 & L1 & _). cbn [cl_tree cl_store] in E1. rewrite E1.
  destruct (rel_leaves _ _ _ B) as (l2 & -> & L2 & _).
  f_equal. eapply listing_unique; eauto.
Qed.

End Reach.

(** ** The statements of MstProps *)

Section Final.
Variable digest : list N -> list N.
Variable kdigest : str -> list N.
Hypothesis klen : forall k, length (kdigest k) = 32.

Notation rdc c := (fun k : str => dget k (cl_store c)).

Lemma mst_is_a_map ops : hash_ok digest ops ->
  exists d, dict_run [] ops d (snd (crun digest kdigest (cinit digest) ops)) /\
    let c := fst (crun digest kdigest (cinit digest) ops) in
    forall k, get kdigest (rdc c) max_depth (cl_tree c) k = Ok (dget k d).
Proof.
  intros H. destruct (reach_rel digest kdigest klen ops H) as (d & A & B). exists d. split; [exact A|].
  cbv zeta. intros k. exact (rel_get digest kdigest None _ d k B).
Qed.

Lemma root_by_contents' : collision_free digest -> forall ops1 ops2 d1 d2 outs1 outs2,
  no_add_after_emptying false [] ops1 -> no_add_after_emptying false [] ops2 ->
  dict_run [] ops1 d1 outs1 -> dict_run [] ops2 d2 outs2 -> same_items d1 d2 ->
  get_pointer digest (cl_tree (fst (crun digest kdigest (cinit digest) ops1)))
  = get_pointer digest (cl_tree (fst (crun digest kdigest (cinit digest) ops2))) /\
  forall l, listing d1 l ->
    get_pointer digest (cl_tree (fst (crun digest kdigest (cinit digest) ops1)))
    = Ok (tcid digest (canonical kdigest l)).
Proof.
  intros I ops1 ops2 d1 d2 o1 o2 N1 N2 R1 R2 SI. split.
  - eapply root_by_contents; eauto.
  - intros l HL. destruct (canonical_root digest kdigest klen ops1 I N1) as (d1' & l1 & A1 & B1 & E).
    destruct (dict_run_fun _ _ _ _ _ _ R1 A1) as [-> _].
    rewrite (listing_unique d1' l l1); auto.
Qed.

Lemma leaves_listing ops : hash_ok digest ops ->
  exists d l, dict_run [] ops d (snd (crun digest kdigest (cinit digest) ops)) /\
    let c := fst (crun digest kdigest (cinit digest) ops) in
    mst_leaves kdigest (rdc c) max_depth (cl_tree c) = Ok l /\
    ssorted (keys l) /\ (forall k v, In (k, v) l <-> dget k d = Some v).
Proof.
  intros H. destruct (reach_rel digest kdigest klen ops H) as (d & A & B).
  destruct (rel_leaves digest kdigest None _ d B) as (l & E & L1 & _).
  exists d, l. split; [exact A|]. cbv zeta. split; [exact E|exact L1].
Qed.

Lemma ranges ops : hash_ok digest ops ->
  exists d, dict_run [] ops d (snd (crun digest kdigest (cinit digest) ops)) /\
    let c := fst (crun digest kdigest (cinit digest) ops) in
    (forall key, exists l, walk_leaves_from kdigest (rdc c) max_depth (cl_tree c) key = Ok l /\
       ssorted (keys l) /\ forall k v, In (k, v) l <-> dget k d = Some v /\ ~ slt k key) /\
    (forall after before, exists l, mst_list kdigest (rdc c) max_depth (cl_tree c) after before = Ok l /\
       ssorted (keys l) /\ forall k v, In (k, v) l <-> dget k d = Some v /\
         (match after with Some a => slt a k | None => True end /\
          match before with Some [] => True | Some b => slt k b | None => True end)) /\
    (forall p, exists l, list_with_prefix kdigest (rdc c) max_depth (cl_tree c) p = Ok l /\
       ssorted (keys l) /\ forall k v, In (k, v) l <-> dget k d = Some v /\ exists r, k = p ++ r).
Proof.
  intros H. destruct (reach_rel digest kdigest klen ops H) as (d & A & B).
  destruct (rel_leaves digest kdigest None _ d B) as (l & E & [Srt HL] & W & R & P).
  exists d. split; [exact A|]. cbv zeta.
  assert (FS : forall f, ssorted (keys (filter f l))).
  { intros f. clear - Srt. unfold keys, ssorted in *. induction l as [|x l IH]; simpl; [constructor|].
    inversion Srt as [|? ? S1 F1]; subst. destruct (f x); simpl; auto. constructor; auto.
    rewrite Forall_forall in *. intros y Hy. apply F1. rewrite in_map_iff in *.
    destruct Hy as (z & E & Hz). exists z. split; auto. apply filter_In in Hz. tauto. }
  splits.
  - intros key. eexists. split; [apply W|]. split; auto. intros k v. rewrite filter_In, HL. cbn [fst].
    rewrite str_leb_nlt. tauto.
  - intros a b. eexists. split; [apply R|]. split; auto. intros k v. rewrite filter_In, HL.
    unfold in_range. cbn [fst]. rewrite andb_true_iff.
    assert (X1 : match a with Some a => str_ltb a k | None => true end = true <-> match a with Some a => slt a k | None => True end).
    { destruct a; [apply str_ltb_lt|tauto]. }
    assert (X2 : match b with Some b => negb (nonempty b) || str_ltb k b | None => true end = true
                 <-> match b with Some [] => True | Some b => slt k b | None => True end).
    { destruct b as [[|x b]|]; simpl negb; [tauto| |tauto]. simpl orb. apply str_ltb_lt. }
    rewrite X1, X2. tauto.
  - intros p. eexists. split; [apply P|]. split; auto. intros k v. rewrite filter_In, HL. cbn [fst].
    assert (X : forall p k, starts_with p k = true <-> exists r, k = p ++ r).
    { clear. induction p as [|x p IH]; intros k; simpl.
      - split; eauto.
      - destruct k as [|y k]; [split; [discriminate|intros [r E]; discriminate]|].
        rewrite andb_true_iff, N.eqb_eq, IH. split.
        + intros [-> [r ->]]. eauto.
        + intros [r E]. inversion E; subst. eauto. }
    rewrite X. tauto.
Qed.

Lemma tree_shape ops : hash_ok digest ops ->
  let c := fst (crun digest kdigest (cinit digest) ops) in
  exists n t, expand kdigest (rdc c) max_depth (cl_tree c) = Ok t /\ node_at kdigest n t /\
    ssorted (keys (leaves t)) /\ get_pointer digest (cl_tree c) = Ok (tcid digest t).
Proof.
  intros H. destruct (reach_rel digest kdigest klen ops H) as (d & A & B).
  destruct (rel_shape digest kdigest None _ d B) as (n & t & E & N & [S1 _] & P). cbv zeta. 
  exists n, t. splits; assumption.
Qed.

Lemma assign_ok c r : snd (assign c r) = Ok Done <-> exists m, r = Ok m.
Proof. clear. destruct r; cbn; split; intros H; eauto; [discriminate|destruct H; discriminate]. Qed.

Lemma cstep_add c k v :
  cstep digest kdigest c (OAdd k v) = assign c (add digest kdigest (rdc c) max_depth (cl_tree c) k v None).
Proof. clear. reflexivity. Qed.

Lemma rel_add_accepts c d k v : Rel digest kdigest None c d -> dget k d = None ->
  ((exists m, add digest kdigest (rdc c) max_depth (cl_tree c) k v None = Ok m) <-> repo_key k).
Proof.
  intros B G. rewrite <- (assign_ok c), <- cstep_add.
  destruct (cstep_tree digest kdigest klen None c d (OAdd k v) B) as (d' & out & S1 & S2 & _); try discriminate.
  rewrite S2. clear S2. inversion S1; subst; split; intros; try congruence; auto; tauto.
Qed.

Lemma add_accepts ops : hash_ok digest ops -> forall k v,
  let c := fst (crun digest kdigest (cinit digest) ops) in
  get kdigest (rdc c) max_depth (cl_tree c) k = Ok None ->
  ((exists m, add digest kdigest (rdc c) max_depth (cl_tree c) k v None = Ok m) <-> repo_key k).
Proof.
  intros H k v. destruct (reach_rel digest kdigest klen ops H) as (d & A & B). intros c G.
  fold c in B. clearbody c. apply (rel_add_accepts c d k v B).
  rewrite (rel_get digest kdigest None c d k B) in G. injection G as G. exact G.
Qed.

Lemma path_cids ops : hash_ok digest ops ->
  exists d, dict_run [] ops d (snd (crun digest kdigest (cinit digest) ops)) /\
    let c := fst (crun digest kdigest (cinit digest) ops) in
    exists t, expand kdigest (rdc c) max_depth (cl_tree c) = Ok t /\
    forall key, exists p, spath key t = t :: p /\ descending (t :: p) /\
      cids_for_path digest kdigest (rdc c) max_depth (cl_tree c) key
      = Ok (map (tcid digest) (t :: p) ++ match dget key d with Some v => [v] | None => [] end).
Proof.
  intros H. destruct (reach_rel digest kdigest klen ops H) as (d & A & B). exists d. split; [exact A|]. cbv zeta.
  destruct (rel_shape digest kdigest None _ d B) as (n & t & E & _). exists t. split; [exact E|].
  intros key. destruct (rel_path digest kdigest None _ d key B) as (t' & E' & P).
  rewrite E in E'. injection E' as <-. destruct (spath_desc key t) as [D (p & EP)].
  exists p. rewrite EP in *. splits; auto.
Qed.

End Final.

Lemma ndata_norm d : norm (ndata_ipld d) = ndata_ipld d.
Proof.
  destruct d as [l e]. unfold ndata_ipld. cbn [norm map nd_l nd_e].
  assert (E : map norm (map edata_ipld e) = map edata_ipld e).
  { rewrite map_map. apply map_ext. intros [p k v [c|]]; reflexivity. }
  rewrite E. destruct l; reflexivity.
Qed.

Lemma node_round_trip pes :
  ((exists d, serialize_node_data pes = Ok d) <->
   (forall k v, In (PLeaf k v) pes -> repo_key k) /\
   (forall l a b r, pes <> l ++ PSub a :: PSub b :: r)) /\
  forall d, serialize_node_data pes = Ok d ->
    decode (dag_cbor_encode (ndata_ipld d)) = Some (ndata_ipld d) /\
    ipld_ndata (ndata_ipld d) = Ok d /\
    deserialize_node_data d None
    = map (fun p => match p with PLeaf k v => Leaf k v | PSub c => Sub (mst_load c) end) pes.
Proof.
  split; [split|].
  - intros [d H]. eapply pser_inv; eauto.
  - intros [A B]. apply pser_ok; auto.
  - intros d H. splits.
    + unfold dag_cbor_encode. rewrite ndata_norm. apply decode_encode_lemma.
    + apply ipld_ndata_ok.
    + rewrite (deser_ser None pes d H). apply map_ext. intros [|]; auto.
Qed.

Lemma key_validation k : (ensure_valid_key k = Ok tt <-> repo_key k) /\
  (ensure_valid_key k = Err ValueError <-> ~ repo_key k).
Proof.
  unfold ensure_valid_key. rewrite <- valid_key_spec. destruct (valid_key k); split; split; congruence.
Qed.

Lemma node_injective pes1 pes2 d1 d2 :
  serialize_node_data pes1 = Ok d1 -> serialize_node_data pes2 = Ok d2 ->
  dag_cbor_encode (ndata_ipld d1) = dag_cbor_encode (ndata_ipld d2) -> pes1 = pes2.
Proof.
  intros H1 H2 E. unfold dag_cbor_encode in E. rewrite !ndata_norm in E.
  apply encode_inj, ndata_ipld_inj in E. subst d2.
  pose proof (deser_ser None _ _ H1) as A. rewrite (deser_ser None _ _ H2) in A. clear - A.
  revert pes2 A. induction pes1 as [|x l IH]; intros [|y r] A; try discriminate; auto.
  inversion A as [[A1 A2]]. apply IH in A2. subst. f_equal.
  destruct x, y; cbn in A1; inversion A1; auto.
Qed.

(** ** The counterexample to canonicity *)

Definition high_key : str := s "app.bsky.feed.post/454397e440ec".
Definition low_key : str := s "com.example.record/3jqfcqzm3fo2j".
Definition bad_ops1 : list mop := [OAdd high_key [1%N]; ODelete high_key; OAdd low_key [2%N]].
Definition bad_ops2 : list mop := [OAdd low_key [2%N]].

Lemma root_depends_on_history : exists ops1 ops2 d outs1 outs2, in_memory ops1 /\ in_memory ops2 /\
  dict_run [] ops1 d outs1 /\ dict_run [] ops2 d outs2 /\
  get_pointer sha256 (cl_tree (fst (crun sha256 sha256 (cinit sha256) ops1)))
  <> get_pointer sha256 (cl_tree (fst (crun sha256 sha256 (cinit sha256) ops2))).
Proof.
  assert (KH : repo_key high_key) by (apply valid_key_spec; vm_compute; reflexivity).
  assert (KL : repo_key low_key) by (apply valid_key_spec; vm_compute; reflexivity).
  exists bad_ops1, bad_ops2, [(low_key, [2%N])], [Ok Done; Ok Done; Ok Done], [Ok Done]. splits.
  - intros o H. simpl in H. intuition; subst; discriminate.
  - intros o H. simpl in H. intuition; subst; discriminate.
  - eapply dr_cons; [apply d_add; [exact KH|reflexivity]|].
    eapply dr_cons; [eapply d_delete; vm_compute; reflexivity|].
    eapply dr_cons; [apply d_add; [exact KL|vm_compute; reflexivity]|].
    vm_compute. constructor.
  - eapply dr_cons; [apply d_add; [exact KL|reflexivity]|]. constructor.
  - vm_compute. discriminate.
Qed.
