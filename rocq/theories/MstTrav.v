(** Traversal, listing, paths and persistence on well-formed trees. *)
From Coq Require Import String List NArith ZArith Bool Lia Sorted.
From Coq Require Import ZifyBool ZifyNat ZifyN.
From Verif Require Import Base Lists Ipld IpldProofs MstModel MstTree MstTreeProofs MstRep MstOps.
Import ListNotations.

Lemma filter_all {A} (f : A -> bool) l : Forall (fun x => f x = true) l -> filter f l = l.
Proof. induction 1; simpl; auto. rewrite H. f_equal. auto. Qed.

Lemma filter_none {A} (f : A -> bool) l : Forall (fun x => f x = false) l -> filter f l = [].
Proof. induction 1; simpl; auto. rewrite H. auto. Qed.

Lemma Forall_keys {V} (P : str -> Prop) (l : list (str * V)) :
  Forall P (keys l) <-> Forall (fun kv => P (fst kv)) l.
Proof. unfold keys. apply Forall_map. Qed.

Lemma dget_In_key {V} k (d : list (str * V)) : dget k d <> None <-> In k (keys d).
Proof.
  destruct (dget k d) as [v|] eqn:E.
  - split; [|congruence]. intros _. apply dget_In in E. apply in_map_iff. exists (k, v). auto.
  - apply dget_None in E. split; [congruence|tauto].
Qed.

(** A subtree, or the tree itself. *)
Inductive subtree : tree -> tree -> Prop :=
| subtree_refl t : subtree t t
| subtree_in s t es : In (TSub t) es -> subtree s t -> subtree s (Node es).

Section Trav.
Variable digest : list N -> list N.
Variable kdigest : str -> list N.

Notation zeros := (zeros kdigest).
Notation wf := (wf kdigest).
Notation wfE := (wfE kdigest).
Notation tcid := (tcid digest).
Notation tnode := (tnode digest).

Lemma wf_subtree s t : subtree s t -> forall n, wf n t -> exists n', n' <= n /\ wf n' s.
Proof.
  induction 1 as [t|s t es HI _ IH]; intros n W; [eauto|].
  apply wf_node in W as [_ F]. rewrite Forall_forall in F. specialize (F _ HI).
  destruct n as [|n]; [destruct F|]. destruct F as [W _].
  destruct (IH n W) as (n' & Hn & W'). exists n'. split; auto.
Qed.

Lemma subtree_trans a b : subtree a b -> forall c, subtree b c -> subtree a c.
Proof. intros H c H2. induction H2; auto. econstructor; eauto. Qed.

Section Rd.
Variable rd : cid -> option ipld.
Notation stored := (stored digest rd).
Notation rep := (rep digest rd).
Notation repE := (repE digest rd).
Notation get_entries := (get_entries kdigest rd).

Lemma stored_subtree s t : subtree s t -> stored t -> stored s.
Proof. induction 1 as [t|s t es HI _ IH]; auto. intros H. inversion H; subst. auto. Qed.

Lemma load_rep n t : wf n t -> root_ok n t -> stored t -> rep n (mst_load (tcid t)) t.
Proof.
  intros W RO ST. destruct t as [tes]. apply rep_eq. splits; auto.
  intros _ ->. destruct RO as [[_ E]|(k & v & [])]. auto.
Qed.

(** Loading an empty tree gives a tree at layer 0. *)
Lemma load_empty_rep : stored (Node []) -> rep 0 (mst_load (tcid (Node []))) (Node []).
Proof. intros ST. apply rep_eq. splits; auto. Qed.

Lemma load_any n t : wf n t -> stored t -> exists n', n' <= n /\ wf n' t /\
  rep n' (mst_load (tcid t)) t /\ (t <> Node [] -> n' = n).
Proof.
  intros W ST. destruct t as [[|e es]].
  - exists 0. splits; auto using wf_empty; [lia|apply load_empty_rep; auto|congruence].
  - exists n. splits; auto. apply rep_eq. splits; auto. discriminate.
Qed.

(** ** walk and leaves *)

Lemma walk_ok n : forall fuel m t, n < fuel -> rep n m t -> wf n t ->
  exists w, walk kdigest rd fuel m = Ok w /\ only_leaves w = leaves t.
Proof.
  induction n as [n IH] using lt_wf_ind. intros fuel m [tes] Hf R W.
  destruct fuel as [|f]; [lia|]. cbn [walk].
  destruct (get_entries_ok _ _ _ _ _ _ R W) as (es & Hes & HF). rewrite Hes. cbn [bind].
  apply wf_node in W as [_ F]. rewrite leaves_node.
  set (go := fix go (es0 : list entry) : res (list entry) :=
           match es0 with
           | [] => Ok []
           | Leaf k v :: r => do r' <- go r; Ok (Leaf k v :: r')
           | Sub m' :: r => do a <- walk kdigest rd f m'; do r' <- go r; Ok (a ++ r')
           end).
  change (exists w : list entry, (do sub <- go es; Ok (Sub m :: sub)) = Ok w /\ only_leaves w = L tes).
  assert (X : exists w, go es = Ok w /\ only_leaves w = L tes).
  { clear Hes R. induction HF as [|e te es tes He HF IHF].
    - exists []. auto.
    - inversion F as [|? ? W1 F']; subst. destruct (IHF F') as (w & E & EL).
      destruct e as [k v|m'], te as [k' v'|t']; simpl in He; try tauto.
      + destruct He; subst. exists (Leaf k' v' :: w). split.
        * change (go (Leaf k' v' :: es)) with (do r' <- go es; Ok (Leaf k' v' :: r')). rewrite E. auto.
        * cbn [only_leaves]. rewrite L_cons, EL. auto.
      + destruct n as [|n]; [tauto|]. destruct W1 as [W1 _].
        destruct (IH n ltac:(lia) f m' t' ltac:(lia) He W1) as (w1 & E1 & EL1).
        exists (w1 ++ w). split.
        { change (go (Sub m' :: es)) with (do a <- walk kdigest rd f m'; do r' <- go es; Ok (a ++ r')).
          rewrite E1. cbn [bind]. rewrite E. auto. }
        rewrite L_cons. cbn [eleaves]. rewrite <- EL1, <- EL. clear.
        induction w1 as [|[|] w1 IH]; simpl; auto. f_equal. auto. }
  destruct X as (w & -> & EL). cbn [bind]. eexists; split; [reflexivity|]. auto.
Qed.

Lemma leaves_ok n fuel m t : n < fuel -> rep n m t -> wf n t ->
  mst_leaves kdigest rd fuel m = Ok (leaves t).
Proof.
  intros Hf R W. unfold mst_leaves. destruct (walk_ok n fuel m t Hf R W) as (w & -> & E).
  cbn [bind]. rewrite E. auto.
Qed.

(** ** Ranges *)

Lemma ge_false key k : slt k key -> str_leb key k = false.
Proof. intros H. rewrite str_leb_ltb. apply negb_false_iff, str_ltb_lt. auto. Qed.

Lemma ge_true key k : slt key k -> str_leb key k = true.
Proof.
  intros H. rewrite str_leb_ltb. apply negb_true_iff.
  destruct (str_ltb k key) eqn:E; auto. apply str_ltb_lt in E. exfalso. eapply slt_asym; eauto.
Qed.

Lemma ge_refl k : str_leb k k = true.
Proof.
  rewrite str_leb_ltb. apply negb_true_iff.
  destruct (str_ltb k k) eqn:E; auto. apply str_ltb_lt in E. exfalso. eapply slt_irrefl; eauto.
Qed.

Lemma walk_leaves_from_ok n : forall fuel m t key, n < fuel -> rep n m t -> wf n t -> sorted_tree t ->
  walk_leaves_from kdigest rd fuel m key = Ok (filter (fun kv => str_leb key (fst kv)) (leaves t)).
Proof.
  induction n as [n IH] using lt_wf_ind. intros fuel m [tes] key Hf R W Srt.
  destruct fuel as [|f]; [lia|]. cbn [walk_leaves_from].
  unfold sorted_tree in Srt. rewrite leaves_node in *.
  destruct (get_entries_ok _ _ _ _ _ _ R W) as (es & Hes & HF). rewrite Hes. cbn [bind].
  destruct (view digest kdigest rd n es tes key HF W Srt)
    as (el & er & tl & tr & E1 & E2 & E3 & F1 & F2 & HL & HR).
  rewrite E3. pose proof W as W0. apply wf_node in W0 as [NA F].
  set (P := fun kv : str * cid => str_leb key (fst kv)).
  assert (B : match at_prev es (length el) with
              | Some (Sub prev) => walk_leaves_from kdigest rd f prev key | _ => Ok [] end
              = Ok (filter P (L tl))).
  { destruct HL as [(NP & LT & NE0)|(n' & el0 & m' & tl0 & t' & -> & -> & -> & F0 & R' & W' & NE' & LT & NE0)].
    - rewrite skip_prev by auto. rewrite filter_none; auto.
      apply Forall_keys in LT. eapply Forall_impl; [|exact LT]. intros kv H. apply ge_false. auto.
    - rewrite E1, at_prev_snoc. rewrite (IH n' ltac:(lia) f m' t'); auto; try lia.
      + rewrite L_app, L_one, filter_app. rewrite (filter_none P (L tl0)); auto.
        apply Forall_keys in LT. eapply Forall_impl; [|exact LT]. intros kv H. apply ge_false. auto.
      + rewrite E2, !L_app, L_one in Srt. apply sorted_app_inv in Srt as [Srt _].
        apply sorted_app_inv in Srt as [_ Srt]. auto. }
  rewrite B. cbn [bind]. clear B. rewrite E1, skipn_len.
  set (go := fix go (es0 : list entry) : res (list (str * cid)) :=
         match es0 with
         | [] => Ok []
         | Leaf k v :: r => do r' <- go r; Ok ((k, v) :: r')
         | Sub m' :: r => do a <- walk_leaves_from kdigest rd f m' key; do r' <- go r; Ok (a ++ r')
         end).
  assert (GE : Forall (fun kv => P kv = true) (L tr)).
  { destruct HR as [(NL & GT & NS)|(v & er' & tr' & -> & -> & F2' & GT)].
    - apply Forall_keys in GT. eapply Forall_impl; [|exact GT]. intros kv H. apply ge_true. auto.
    - rewrite L_cons. constructor; [apply ge_refl|].
      apply Forall_keys in GT. eapply Forall_impl; [|exact GT]. intros kv H. apply ge_true. auto. }
  assert (X : go er = Ok (L tr)).
  { assert (S2 : ssorted (keys (L tr))).
    { rewrite E2, L_app in Srt. apply sorted_app_inv in Srt. tauto. }
    assert (F3 : Forall (wfE n) tr).
    { rewrite E2 in F. apply Forall_app in F. tauto. }
    clear - F2 F3 S2 GE IH Hf. induction F2 as [|e te er tr He F2 IHF].
    - auto.
    - inversion F3 as [|? ? W1 F3']; subst. rewrite L_cons in *.
      apply sorted_app_inv in S2 as [S1 S2]. apply Forall_app in GE as [GE1 GE2].
      specialize (IHF GE2 S2 F3').
      destruct e as [k v|m'], te as [k' v'|t']; simpl in He; try tauto.
      + destruct He; subst. change (go (Leaf k' v' :: er)) with (do r' <- go er; Ok ((k', v') :: r')). rewrite IHF. auto.
      + destruct n as [|n]; [tauto|]. destruct W1 as [W1 _].
        change (go (Sub m' :: er)) with (do a <- walk_leaves_from kdigest rd f m' key; do r' <- go er; Ok (a ++ r')).
        rewrite (IH n ltac:(lia) f m' t'); auto; try lia. cbn [bind]. rewrite IHF. cbn [bind].
        rewrite (filter_all _ (leaves t')); auto. }
  change (do after <- go er; Ok (filter P (L tl) ++ after)) with
    (bind (go er) (fun after => Ok (filter P (L tl) ++ after))).
  rewrite X. cbn [bind]. rewrite E2, L_app, filter_app, (filter_all P (L tr)); auto.
Qed.

Definition in_range (after before : option str) (kv : str * cid) : bool :=
  match after with Some a => str_ltb a (fst kv) | None => true end
  && match before with Some b => negb (nonempty b) || str_ltb (fst kv) b | None => true end.

Lemma str_ltb_false_iff a b : str_ltb a b = false <-> ~ slt a b.
Proof. rewrite <- str_ltb_lt. destruct (str_ltb a b); split; congruence. Qed.

Lemma list_loop_ok after before ls : ssorted (keys ls) ->
  list_loop after before
    (filter (fun kv => str_leb (match after with Some a => a | None => [] end) (fst kv)) ls)
  = filter (in_range after before) ls.
Proof.
  set (a0 := match after with Some a => a | None => [] end).
  induction ls as [|[k v] ls IH]; simpl; auto. intros S. inversion S as [|? ? S1 F1]; subst.
  specialize (IH S1). unfold in_range at 1. cbn [fst].
  destruct (str_leb a0 k) eqn:EL.
  - cbn [list_loop]. destruct (match after with Some a => str_eqb k a | None => false end) eqn:EA.
    + destruct after as [a|]; [|discriminate]. apply str_eqb_eq in EA. subst k.
      destruct (str_ltb a a) eqn:E; [apply str_ltb_lt in E; exfalso; eapply slt_irrefl; eauto|].
      simpl. exact IH.
    + assert (AT : match after with Some a => str_ltb a k | None => true end = true).
      { destruct after as [a|]; auto. unfold a0 in EL. rewrite str_leb_ltb in EL.
        apply negb_true_iff, str_ltb_false_iff in EL. apply str_ltb_lt.
        destruct (slt_total a k) as [X|[X|X]]; auto; [|tauto].
        subst. rewrite str_eqb_refl in EA. discriminate. }
      rewrite AT. cbn [andb].
      destruct before as [b|].
      * destruct (nonempty b) eqn:NB; cbn [andb negb orb].
        -- rewrite (str_leb_ltb b k). destruct (str_ltb k b) eqn:EB; cbn [negb].
           ++ f_equal. exact IH.
           ++ symmetry. apply filter_none. rewrite Forall_forall. intros [k2 v2] H2.
              unfold in_range. cbn [fst]. rewrite NB. cbn [negb orb].
              apply andb_false_iff. right. apply str_ltb_false_iff in EB. apply str_ltb_false_iff.
              intros X. apply EB. rewrite Forall_forall in F1.
              assert (slt k k2) by (apply F1; apply in_map_iff; exists (k2, v2); auto).
              eapply slt_trans; eauto.
        -- f_equal. exact IH.
      * f_equal. exact IH.
  - assert (AT : match after with Some a => str_ltb a k | None => true end = false).
    { destruct after as [a|]; [|exfalso; unfold a0 in EL; destruct k; discriminate EL]. unfold a0 in EL. rewrite str_leb_ltb in EL.
      apply negb_false_iff, str_ltb_lt in EL. apply str_ltb_false_iff. intros X. eapply slt_asym; eauto. }
    rewrite AT. simpl. exact IH.
Qed.

Lemma mst_list_ok n fuel m t after before : n < fuel -> rep n m t -> wf n t -> sorted_tree t ->
  mst_list kdigest rd fuel m after before = Ok (filter (in_range after before) (leaves t)).
Proof.
  intros Hf R W Srt. unfold mst_list. rewrite (walk_leaves_from_ok n) with (t := t) by auto.
  cbn [bind]. rewrite list_loop_ok; auto.
Qed.

Lemma starts_with_ge p k : starts_with p k = true -> str_leb p k = true.
Proof.
  revert k; induction p as [|x p IH]; intros [|y k]; simpl; auto; try discriminate.
  intros H. apply andb_prop in H as [E H]. apply N.eqb_eq in E. subst.
  unfold str_leb in *. simpl. rewrite N.compare_refl. apply IH. auto.
Qed.

Lemma starts_with_convex p k1 k2 : slt k1 k2 -> str_leb p k1 = true ->
  starts_with p k2 = true -> starts_with p k1 = true.
Proof.
  revert k1 k2; induction p as [|x p IH]; intros [|y1 k1] [|y2 k2]; simpl; auto; try discriminate.
  - intros H L E. unfold slt in H. simpl in H. unfold str_leb in L. simpl in L.
    apply andb_prop in E as [E E2]. apply N.eqb_eq in E. subst y2.
    destruct (N.compare_spec y1 x) as [X|X|X]; subst.
    + rewrite N.compare_refl in L. rewrite N.eqb_refl. simpl. eapply (IH k1 k2); eauto.
    + exfalso. destruct (N.compare_spec x y1); [lia|lia|discriminate].
    + discriminate.
Qed.

Lemma prefix_loop_ok p ls : ssorted (keys ls) ->
  prefix_loop p (filter (fun kv => str_leb p (fst kv)) ls) = filter (fun kv => starts_with p (fst kv)) ls.
Proof.
  induction ls as [|[k v] ls IH]; simpl; auto. intros S. inversion S as [|? ? S1 F1]; subst.
  specialize (IH S1). destruct (str_leb p k) eqn:EL.
  - cbn [prefix_loop fst]. destruct (starts_with p k) eqn:ES.
    + f_equal. exact IH.
    + symmetry. apply filter_none. rewrite Forall_forall in *. intros [k2 v2] H2. cbn [fst].
      destruct (starts_with p k2) eqn:E2; auto.
      rewrite (starts_with_convex p k k2) in ES; auto.
      apply F1. apply in_map_iff. exists (k2, v2). auto.
  - destruct (starts_with p k) eqn:ES; auto. rewrite starts_with_ge in EL; auto. discriminate.
Qed.

Lemma list_with_prefix_ok n fuel m t p : n < fuel -> rep n m t -> wf n t -> sorted_tree t ->
  list_with_prefix kdigest rd fuel m p = Ok (filter (fun kv => starts_with p (fst kv)) (leaves t)).
Proof.
  intros Hf R W Srt. unfold list_with_prefix. rewrite (walk_leaves_from_ok n) with (t := t) by auto.
  cbn [bind]. rewrite prefix_loop_ok; auto.
Qed.

(** ** Persistence *)

Fixpoint nodes_of (t : tree) : list tree :=
  match t with
  | Node es => Node es :: flat_map (fun e => match e with TLeaf _ _ => [] | TSub t' => nodes_of t' end) es
  end.

(** [closed]: a node that is stored has all its subtrees stored. *)
Definition closed : Prop := forall n t, wf n t -> rd (tcid t) <> None -> stored t.

Lemma get_unstored_ok n : forall fuel m t, n < fuel -> rep n m t -> wf n t -> closed ->
  exists bs, get_unstored_blocks digest kdigest rd fuel m = Ok (tcid t, bs) /\
    NoDup (keys bs) /\
    (forall c v, In (c, v) bs -> exists s, subtree s t /\ c = tcid s /\ v = tnode s /\ rd c = None) /\
    (forall s, subtree s t -> rd (tcid s) <> None \/ In (tcid s) (keys bs)).
Proof.
  induction n as [n IH] using lt_wf_ind. intros fuel m [tes] Hf R W CL.
  destruct fuel as [|f]; [lia|]. cbn [get_unstored_blocks].
  rewrite (get_pointer_ok digest kdigest rd n m _ R W). cbn [bind].
  destruct (rd (tcid (Node tes))) eqn:ERD.
  - exists []. splits; auto; [constructor|intros c v []|].
    intros s HS. left. assert (ST : stored (Node tes)) by (apply (CL n); auto; congruence).
    pose proof (stored_subtree _ _ HS ST) as ST'. inversion ST'; subst. congruence.
  - destruct (get_entries_ok _ _ _ _ _ _ R W) as (es & Hes & HF). rewrite Hes. cbn [bind].
    pose proof W as W0. apply wf_node in W0 as [NA F].
    rewrite (pentries_ok digest kdigest rd n es tes HF F). cbn [bind].
    rewrite (ser_ok digest kdigest n tes NA F). cbn [bind].
    set (go := fix go (es : list entry) (acc : list (cid * ipld)) : res (list (cid * ipld)) :=
               match es with
               | [] => Ok acc
               | Leaf _ _ :: r => go r acc
               | Sub m' :: r =>
                   do pb <- get_unstored_blocks digest kdigest rd f m';
                   go r (fold_left (fun d kv => dset (fst kv) (snd kv) d) (snd pb) acc)
               end).
    assert (X : forall es tes acc, Forall2 (repE n) es tes -> Forall (wfE n) tes -> NoDup (keys acc) ->
       exists bs, go es acc = Ok bs /\ NoDup (keys bs) /\
        (forall k, In k (keys acc) -> In k (keys bs)) /\
        (forall c v, In (c, v) bs -> In (c, v) acc \/ exists s t, In (TSub t) tes /\ subtree s t /\ c = tcid s /\ v = tnode s /\ rd c = None) /\
        (forall s t, In (TSub t) tes -> subtree s t -> rd (tcid s) <> None \/ In (tcid s) (keys bs))).
    { clear - IH CL Hf. intros es tes acc HF. revert acc.
      induction HF as [|e te es tes He HF IHF]; intros acc F ND.
      - exists acc. splits; simpl; auto.
      - inversion F as [|? ? W1 F']; subst.
        destruct e as [k v|m'], te as [k' v'|t']; simpl in He; try tauto.
        + destruct (IHF acc F' ND) as (bs & E & ND' & H0 & H1 & H2). exists bs. change (go (Leaf k v :: es) acc) with (go es acc). splits; auto.
          * intros c v0 HI. destruct (H1 c v0 HI) as [?|(s & t & A & B)]; auto.
            right. exists s, t. simpl. auto.
          * intros s t [HI|HI]; [discriminate|]. eauto.
        + destruct n as [|n]; [tauto|]. destruct W1 as [W1 _].
          destruct (IH n ltac:(lia) f m' t' ltac:(lia) He W1 CL) as (bs0 & E0 & ND0 & A0 & B0).
          change (go (Sub m' :: es) acc) with
            (do pb <- get_unstored_blocks digest kdigest rd f m';
             go es (fold_left (fun d kv => dset (fst kv) (snd kv) d) (snd pb) acc)).
          rewrite E0. cbn [bind snd].
          set (acc' := fold_left (fun d kv => dset (fst kv) (snd kv) d) bs0 acc).
          assert (FA : forall bs0 acc, NoDup (keys acc) ->
             NoDup (keys (fold_left (fun d kv => dset (fst kv) (snd kv) d) bs0 acc)) /\
             (forall k : cid, In k (keys (fold_left (fun d (kv : cid * ipld) => dset (fst kv) (snd kv) d) bs0 acc)) <-> In k (keys acc) \/ In k (keys bs0)) /\
             (forall c v, In (c, v) (fold_left (fun d kv => dset (fst kv) (snd kv) d) bs0 acc) -> In (c, v) acc \/ In (c, v) bs0)).
          { clear. induction bs0 as [|[c0 v0] bs0 IH]; simpl; intros acc ND.
            - splits; auto. tauto.
            - destruct (IH (dset c0 v0 acc)) as (A & B & C); [apply dset_NoDup; auto|]. splits; auto.
              + intros k. rewrite B. rewrite dset_keys_in. intuition.
              + intros c v HI. destruct (C c v HI) as [X|X]; auto.
                apply (In_dget c v _) in X; [|apply dset_NoDup; auto].
                rewrite dget_dset in X. destruct (str_eqb_spec c c0).
                * inversion X; subst. auto.
                * left. apply dget_In. auto. }
          destruct (FA bs0 acc ND) as (FA1 & FA2 & FA3). fold acc' in FA1, FA2, FA3.
          destruct (IHF acc' F' FA1) as (bs & E & ND' & H0 & H1 & H2).
          exists bs. splits; auto.
          * intros k Hk. apply H0. apply FA2. auto.
          * intros c v HI. destruct (H1 c v HI) as [HA|(s & t & A & B)].
            -- destruct (FA3 c v HA) as [?|HB]; auto. right.
               destruct (A0 c v HB) as (s & S1 & S2 & S3 & S4). exists s, t'. simpl. splits; auto.
            -- right. exists s, t. simpl. auto.
          * intros s t [HI|HI] HS; [|eauto]. inversion HI; subst.
            destruct (B0 s HS) as [?|HK]; auto. right. apply H0. apply FA2. auto. }
    assert (T1 : cid_of digest (ndata_ipld (ser (map (pent digest) tes))) = tcid (Node tes)) by reflexivity.
    assert (T2 : ndata_ipld (ser (map (pent digest) tes)) = tnode (Node tes)) by reflexivity.
    rewrite T1, T2.
    destruct (X es tes [(tcid (Node tes), tnode (Node tes))] HF F) as (bs & E & ND & H0 & H1 & H2).
    { constructor; auto. constructor. }
    match goal with |- context [bind ?a _] => replace a with (Ok bs) by (symmetry; exact E) end. cbn [bind].
    exists bs. splits; auto.
    + intros c v HI. destruct (H1 c v HI) as [[HA|[]]|(s & t & A & B & C & D)].
      * inversion HA; subst. exists (Node tes). splits; auto. constructor.
      * exists s. splits; auto; try tauto. econstructor; eauto.
    + intros s HS. inversion HS; subst.
      * right. apply H0. simpl. auto.
      * eauto.
Qed.

(** ** Paths *)

Lemma spath_node key es : spath key (Node es) = Node es :: spath_go key es [].
Proof.
  cbn [spath]. f_equal.
  assert (X : forall es c, (fix go (es : list tentry) (cand : list tree) : list tree :=
              match es with
              | [] => cand
              | TLeaf k _ :: r =>
                  if str_eqb key k then [] else if str_ltb key k then cand else go r []
              | TSub t' :: r => go r (spath key t')
              end) es c = spath_go key es c).
  { clear. induction es as [|[k v|t'] es IH]; intros c; cbn [spath_go]; auto.
    destruct (str_eqb key k); auto. destruct (str_ltb key k); auto. }
  apply X.
Qed.

Lemma spath_go_sub key tl0 t' tr : Forall (fun k => slt k key) (keys (L tl0)) ->
  forall c, spath_go key (tl0 ++ TSub t' :: tr) c = spath_go key tr (spath key t').
Proof.
  induction tl0 as [|[k v|t0] tl0 IH]; intros F c; cbn [app spath_go]; auto.
  - rewrite L_cons in F. apply Forall_keys_app in F as [F1 F2]. inversion F1 as [|? ? X ?]; subst.
    cbn [fst] in X. destruct (str_eqb_spec key k); [subst; exfalso; eapply slt_irrefl; eauto|].
    destruct (str_ltb key k) eqn:E; [apply str_ltb_lt in E; exfalso; eapply slt_asym; eauto|]. auto.
  - rewrite L_cons in F. apply Forall_keys_app in F as [F1 F2]. auto.
Qed.

Lemma spath_go_leaf key tl tr : Forall (fun k => slt k key) (keys (L tl)) -> ~ ends_sub tl ->
  spath_go key (tl ++ tr) [] = spath_go key tr [].
Proof.
  intros F NE. destruct tl as [|x tl _] using rev_ind; auto.
  destruct x as [k0 v0|t0]; [|exfalso; apply NE, ends_sub_snoc].
  rewrite <- app_assoc. cbn [app]. clear NE. rewrite L_app in F. apply Forall_keys_app in F as [F F0].
  generalize (@nil tree) at 1. induction tl as [|[k v|t1] tl IH]; intros c; cbn [app spath_go]; auto.
  - inversion F0 as [|? ? X ?]; subst. cbn [fst] in X.
    destruct (str_eqb_spec key k0); [subst; exfalso; eapply slt_irrefl; eauto|].
    destruct (str_ltb key k0) eqn:E; [apply str_ltb_lt in E; exfalso; eapply slt_asym; eauto|]. auto.
  - rewrite L_cons in F. apply Forall_keys_app in F as [F1 F2]. inversion F1 as [|? ? X ?]; subst.
    cbn [fst] in X. destruct (str_eqb_spec key k); [subst; exfalso; eapply slt_irrefl; eauto|].
    destruct (str_ltb key k) eqn:E; [apply str_ltb_lt in E; exfalso; eapply slt_asym; eauto|]. auto.
  - rewrite L_cons in F. apply Forall_keys_app in F as [F1 F2]. auto.
Qed.

Lemma spath_go_right key tr c : Forall (fun k => slt key k) (keys (L tr)) -> ~ starts_sub tr ->
  spath_go key tr c = c.
Proof.
  intros F NS. destruct tr as [|[k v|t0] tr]; auto.
  - cbn [spath_go]. rewrite L_cons in F. apply Forall_keys_app in F as [F1 F2].
    inversion F1 as [|? ? X ?]; subst. cbn [fst] in X.
    destruct (str_eqb_spec key k); [subst; exfalso; eapply slt_irrefl; eauto|]. rewrite (proj2 (str_ltb_lt key k) X). auto.
  - exfalso. apply NS. exists t0, tr. auto.
Qed.

Lemma cids_for_path_ok n : forall fuel m t key, n < fuel -> rep n m t -> wf n t -> sorted_tree t ->
  cids_for_path digest kdigest rd fuel m key
  = Ok (map tcid (spath key t) ++ match dget key (leaves t) with Some v => [v] | None => [] end).
Proof.
  induction n as [n IH] using lt_wf_ind. intros fuel m [tes] key Hf R W Srt.
  destruct fuel as [|f]; [lia|]. cbn [cids_for_path].
  rewrite (get_pointer_ok digest kdigest rd n m _ R W). cbn [bind].
  unfold sorted_tree in Srt. rewrite leaves_node in *.
  destruct (get_entries_ok _ _ _ _ _ _ R W) as (es & Hes & HF). rewrite Hes. cbn [bind].
  destruct (view digest kdigest rd n es tes key HF W Srt)
    as (el & er & tl & tr & E1 & E2 & E3 & F1 & F2 & HL & HR).
  rewrite E3. rewrite spath_node.
  destruct HR as [(NL & GT & NS)|(v & er' & tr' & -> & -> & F2' & GT)].
  - rewrite skip_leaf by auto.
    destruct HL as [(NP & LT & NE0)|(n' & el0 & m' & tl0 & t' & -> & -> & -> & F0 & R' & W' & NE' & LT & NE0)].
    + rewrite skip_prev by auto.
      assert (SP : spath_go key tes [] = []).
      { rewrite E2, spath_go_leaf, spath_go_right by auto. auto. }
      assert (DG : dget key (L tes) = None).
      { rewrite E2, L_app, dget_gt, <- (app_nil_r (L tl)), dget_lt by auto. auto. }
      rewrite SP, DG. auto.
    + rewrite E1, at_prev_snoc. rewrite (IH n' ltac:(lia) f m' t'); auto; try lia.
      * cbn [bind].
        assert (SP : spath_go key tes [] = spath key t').
        { rewrite E2, <- app_assoc. cbn [app]. rewrite spath_go_sub, spath_go_right by auto. auto. }
        assert (DG : dget key (L tes) = dget key (leaves t')).
        { rewrite E2, !L_app, L_one, dget_gt, dget_lt by auto. auto. }
        rewrite SP, DG. auto.
      * rewrite E2, !L_app, L_one in Srt. apply sorted_app_inv in Srt as [Srt _].
        apply sorted_app_inv in Srt as [_ Srt]. auto.
  - assert (LT : Forall (fun k => slt k key) (keys (L tl))).
    { rewrite E2, L_app, L_cons, keys_app in Srt. apply StronglySorted_app in Srt as (_ & _ & S2).
      eapply Forall_impl; [|exact S2]. intros k Hk. simpl in Hk. inversion Hk; auto. }
    rewrite E1. unfold at_index. rewrite nth_error_len, str_eqb_refl.
    assert (DG : dget key (L tes) = Some v).
    { rewrite E2, L_app, L_cons. cbn [eleaves app]. rewrite dget_lt by auto.
      cbn [dget]. rewrite str_eqb_refl. auto. }
    assert (SP : forall c, spath_go key tes c = []).
    { rewrite E2. clear - LT. induction tl as [|[k v0|t1] tl IH]; intros c; cbn [app spath_go]; auto.
      - rewrite str_eqb_refl. auto.
      - rewrite L_cons in LT. apply Forall_keys_app in LT as [F1 F2]. inversion F1 as [|? ? X ?]; subst.
        cbn [fst] in X. destruct (str_eqb_spec key k); auto.
        destruct (str_ltb key k) eqn:E; [apply str_ltb_lt in E; exfalso; eapply slt_asym; eauto|]. auto.
      - rewrite L_cons in LT. apply Forall_keys_app in LT as [F1 F2]. auto. }
    rewrite SP, DG. auto.
Qed.

(** ** Expanding an object to the plain tree it stands for *)

Lemma expand_ok n : forall fuel m t, n < fuel -> rep n m t -> wf n t -> expand kdigest rd fuel m = Ok t.
Proof.
  induction n as [n IH] using lt_wf_ind. intros fuel m [tes] Hf R W.
  destruct fuel as [|f]; [lia|]. cbn [expand].
  destruct (get_entries_ok _ _ _ _ _ _ R W) as (es & Hes & HF). rewrite Hes. cbn [bind].
  apply wf_node in W as [_ F].
  set (go := fix go (es : list entry) : res (list tentry) :=
           match es with
           | [] => Ok []
           | Leaf k v :: r => do r' <- go r; Ok (TLeaf k v :: r')
           | Sub m' :: r => do t <- expand kdigest rd f m'; do r' <- go r; Ok (TSub t :: r')
           end).
  assert (X : go es = Ok tes).
  { clear Hes R. induction HF as [|e te es tes He HF IHF]; auto.
    inversion F as [|? ? W1 F']; subst. specialize (IHF F').
    destruct e as [k v|m'], te as [k' v'|t']; simpl in He; try tauto.
    - destruct He; subst. change (go (Leaf k' v' :: es)) with (do r' <- go es; Ok (TLeaf k' v' :: r')). rewrite IHF. auto.
    - destruct n as [|n]; [tauto|]. destruct W1 as [W1 _].
      change (go (Sub m' :: es)) with (do t <- expand kdigest rd f m'; do r' <- go es; Ok (TSub t :: r')).
      rewrite (IH n ltac:(lia) f m' t' ltac:(lia) He W1). cbn [bind]. rewrite IHF. auto. }
  change (bind (go es) (fun tes => Ok (Node tes)) = Ok (Node tes)). rewrite X. auto.
Qed.

End Rd.
End Trav.
