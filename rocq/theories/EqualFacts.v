(** Facts behind the theorems about comparing and counting trees. *)
From Coq Require Import String List NArith ZArith Bool Lia Permutation.
From Verif Require Import Base Lists Ipld IpldProofs Sha256 MstModel MstTree MstTreeProofs MstRep MstTrav MstClient MstSpec
  MstShape MstHist MstFacts DiffProofs DiffFacts ExportSpec ExportProofs EqualModel.
Import ListNotations.

Section Walk.
Variable digest : list N -> list N.
Variable kdigest : str -> list N.
Variable rd : cid -> option ipld.
Notation wf := (wf kdigest).
Notation rep := (rep digest rd).
Notation tcid := (tcid digest).

Lemma only_nodes_app a b : only_nodes (a ++ b) = only_nodes a ++ only_nodes b.
Proof. induction a as [|[|] a IH]; cbn; auto. f_equal. auto. Qed.

(** The nodes of [walk] are those of the tree, in preorder. *)
Lemma walk_nodes n : forall fuel m t, n < fuel -> rep n m t -> wf n t ->
  exists w, walk kdigest rd fuel m = Ok (Sub m :: w) /\
    map (get_pointer digest) (only_nodes (Sub m :: w)) = map (fun x => Ok (tcid x)) (nodes_of t).
Proof.
  induction n as [n IH] using lt_wf_ind. intros fuel m [tes] Hf R W.
  pose proof (get_pointer_ok digest kdigest rd n m (Node tes) R W) as GP.
  destruct fuel as [|f]; [lia|]. cbn [walk].
  destruct (get_entries_ok _ _ _ _ _ _ R W) as (es & Hes & HF). rewrite Hes. cbn [bind].
  apply wf_node in W as [_ F].
  set (go := fix go (es0 : list entry) : res (list entry) :=
           match es0 with
           | [] => Ok []
           | Leaf k v :: r => do r' <- go r; Ok (Leaf k v :: r')
           | Sub m' :: r => do a <- walk kdigest rd f m'; do r' <- go r; Ok (a ++ r')
           end).
  assert (X : exists w, go es = Ok w /\ map (get_pointer digest) (only_nodes w)
    = map (fun x => Ok (tcid x)) (flat_map (fun e => match e with TLeaf _ _ => [] | TSub t' => nodes_of t' end) tes)).
  { clear Hes R GP. induction HF as [|e te es tes He HF IHF].
    - exists []. auto.
    - inversion F as [|? ? W1 F']; subst. destruct (IHF F') as (w & E & EL).
      destruct e as [k v|m'], te as [k' v'|t']; simpl in He; try tauto.
      + destruct He; subst. exists (Leaf k' v' :: w). split.
        * change (go (Leaf k' v' :: es)) with (do r' <- go es; Ok (Leaf k' v' :: r')). rewrite E. auto.
        * exact EL.
      + destruct n as [|n]; [tauto|]. destruct W1 as [W1 _].
        destruct (IH n ltac:(lia) f m' t' ltac:(lia) He W1) as (w1 & E1 & EL1).
        exists ((Sub m' :: w1) ++ w). split.
        { change (go (Sub m' :: es)) with (do a <- walk kdigest rd f m'; do r' <- go es; Ok (a ++ r')).
          rewrite E1. cbn [bind]. rewrite E. auto. }
        rewrite only_nodes_app, map_app, EL1, EL. cbn [flat_map]. rewrite map_app. reflexivity. }
  destruct X as (w & E & EL). exists w. split.
  - change ((do sub <- go es; Ok (Sub m :: sub)) = Ok (Sub m :: w)). rewrite E. reflexivity.
  - cbn [only_nodes map nodes_of]. rewrite EL, GP. reflexivity.
Qed.

End Walk.

Section Facts.
Variable digest : list N -> list N.
Variable kdigest : str -> list N.
Hypothesis klen : forall k, length (kdigest k) = 32.
Notation rdc c := (fun k : str => dget k (cl_store c)).
Notation run ops := (crun digest kdigest (cinit digest) ops).
Notation Rel := (Rel digest kdigest).

Lemma rel_pointer om c d : Rel om c d -> exists p, get_pointer digest (cl_tree c) = Ok p.
Proof. clear klen. intros (n & t & R & W & _). exists (tcid digest t). exact (get_pointer_ok digest kdigest (rdc c) n (cl_tree c) t R W). Qed.

Lemma equal_sound : collision_free digest -> forall ops1 ops2 d1 d2 outs1 outs2,
  dict_run [] ops1 d1 outs1 -> dict_run [] ops2 d2 outs2 ->
  exists b, mst_equal digest (cl_tree (fst (run ops1))) (cl_tree (fst (run ops2))) = Ok b /\
    (b = true -> same_items d1 d2).
Proof.
  intros I ops1 ops2 d1 d2 o1 o2 D1 D2.
  destruct (reach_rel digest kdigest klen ops1 (or_intror I)) as (e1 & A1 & B1).
  destruct (reach_rel digest kdigest klen ops2 (or_intror I)) as (e2 & A2 & B2).
  destruct (dict_run_fun _ _ _ _ _ _ D1 A1) as [-> _]. destruct (dict_run_fun _ _ _ _ _ _ D2 A2) as [-> _].
  destruct (rel_pointer _ _ _ B1) as (p1 & E1). destruct (rel_pointer _ _ _ B2) as (p2 & E2).
  unfold mst_equal. rewrite E1, E2. cbn [bind]. eexists. split; [reflexivity|]. intros Q. apply str_eqb_eq in Q. subst p2.
  eapply (rel_commits digest kdigest); eauto. congruence.
Qed.

Lemma equal_complete : collision_free digest -> forall ops1 ops2 d1 d2 outs1 outs2,
  no_add_after_emptying false [] ops1 -> no_add_after_emptying false [] ops2 ->
  dict_run [] ops1 d1 outs1 -> dict_run [] ops2 d2 outs2 -> same_items d1 d2 ->
  mst_equal digest (cl_tree (fst (run ops1))) (cl_tree (fst (run ops2))) = Ok true.
Proof.
  intros I ops1 ops2 d1 d2 o1 o2 N1 N2 D1 D2 SI.
  destruct (root_by_contents' digest kdigest klen I ops1 ops2 d1 d2 o1 o2 N1 N2 D1 D2 SI) as [E _].
  destruct (reach_rel digest kdigest klen ops1 (or_intror I)) as (e1 & A1 & B1).
  destruct (rel_pointer _ _ _ B1) as (p1 & E1). unfold mst_equal. rewrite <- E, E1. cbn [bind]. now rewrite str_eqb_refl.
Qed.

Lemma count_ok ops : hash_ok digest ops ->
  exists d, dict_run [] ops d (snd (run ops)) /\ NoDup (keys d) /\
    leaf_count kdigest (rdc (fst (run ops))) max_depth (cl_tree (fst (run ops))) = Ok (length d).
Proof.
  intros H. destruct (reach_rel digest kdigest klen ops H) as (d & A & B). exists d.
  destruct (rel_leaves digest kdigest None _ d B) as (l & E & [L1 L2] & _).
  assert (ND : NoDup (keys d)) by (destruct B as (n & t & _ & _ & _ & _ & _ & X & _); exact X).
  split; [exact A|]. split; [exact ND|]. unfold leaf_count. rewrite E. cbn [bind]. f_equal.
  apply Permutation_length, NoDup_Permutation.
  - apply (NoDup_map_inv fst). apply ssorted_NoDup. exact L1.
  - apply (NoDup_map_inv fst). exact ND.
  - intros [k v]. rewrite L2. split; [apply dget_In|apply In_dget; exact ND].
Qed.

Lemma nodes_ok ops : collision_free digest ->
  exists d root c', dict_run [] ops d (snd (run ops)) /\ persist digest kdigest (fst (run ops)) = Ok (root, c') /\
    exists w cs, all_nodes kdigest (rdc (fst (run ops))) max_depth (cl_tree (fst (run ops))) = Ok (Sub (cl_tree (fst (run ops))) :: w) /\
      listing d (only_leaves w) /\
      map (get_pointer digest) (cl_tree (fst (run ops)) :: only_nodes w) = map Ok cs /\
      NoDup cs /\ forall x, In x cs <-> node_of (rdc c') root x.
Proof.
  intros I. destruct (reach_cs digest kdigest klen ops I) as (d & A & B & C).
  destruct (persist_ok digest kdigest I None _ _ B C) as (root & c' & E & P & T & M & R1 & C1 & R2).
  exists d, root, c'. split; [exact A|]. split; [exact E|].
  destruct (rel_listing _ _ _ _ _ B) as (n & t & l & R & W & Srt & Hn & HL & LS & _). pose proof md as MD.
  destruct (walk_nodes digest kdigest (rdc (fst (run ops))) n max_depth _ t ltac:(lia) R W) as (w & EW & EN).
  destruct (walk_ok digest kdigest (rdc (fst (run ops))) n max_depth _ t ltac:(lia) R W) as (w' & EW' & EL).
  rewrite EW in EW'. injection EW' as <-. cbn [only_leaves] in EL.
  exists w, (map (tcid digest) (nodes_of t)). split; [exact EW|]. split; [rewrite EL, HL; exact LS|].
  split; [rewrite map_map; exact EN|].
  assert (NCE : NC digest [TSub t] = map (tcid digest) (nodes_of t)) by (unfold NC; cbn [flat_map ncids]; apply app_nil_r).
  split; [rewrite <- NCE; exact (node_cids_nodup digest kdigest t n I W Srt)|].
  destruct R2 as (n2 & t2 & RL & W2 & _). cbn [cl_tree cl_store] in RL.
  assert (ST : MstRep.stored digest (rdc c') t2 /\ root = tcid digest t2).
  { destruct t2 as [es2]. apply rep_eq in RL as (_ & _ & HP & _ & ST). split; [exact ST|]. specialize (HP eq_refl). congruence. }
  destruct ST as [ST ER]. rewrite (get_pointer_ok digest kdigest _ n _ t R W) in P. injection P as P.
  assert (t2 = t) as -> by (apply (tcid_inj digest kdigest I n2 t2 n t W2 W); congruence).
  intros x. rewrite ER, (node_of_subtree digest kdigest (rdc c') n2 t x W2 ST), in_map_iff. split.
  - intros (y & <- & HY). apply nodes_subtree in HY. eauto.
  - intros (y & HY & ->). apply nodes_subtree in HY. eauto.
Qed.

End Facts.

Lemma equal_by_history : exists ops1 ops2 d outs1 outs2, in_memory ops1 /\ in_memory ops2 /\
  dict_run [] ops1 d outs1 /\ dict_run [] ops2 d outs2 /\
  mst_equal sha256 (cl_tree (fst (crun sha256 sha256 (cinit sha256) ops1)))
    (cl_tree (fst (crun sha256 sha256 (cinit sha256) ops2))) = Ok false.
Proof.
  assert (KH : repo_key high_key) by (apply valid_key_spec; vm_compute; reflexivity).
  assert (KL : repo_key low_key) by (apply valid_key_spec; vm_compute; reflexivity).
  exists bad_ops1, bad_ops2, [(low_key, [2%N])], [Ok Done; Ok Done; Ok Done], [Ok Done]. splits.
  - intros o H. simpl in H. intuition; subst; discriminate.
  - intros o H. simpl in H. intuition; subst; discriminate.
  - eapply dr_cons; [apply d_add; [exact KH|reflexivity]|].
    eapply dr_cons; [eapply d_delete; vm_compute; reflexivity|].
    eapply dr_cons; [apply d_add; [exact KL|vm_compute; reflexivity]|].
    vm_compute. constructor.
  - eapply dr_cons; [apply d_add; [exact KL|reflexivity]|]. constructor.
  - vm_compute. reflexivity.
Qed.
