(** Covering proofs contain the search paths. *)
From Coq Require Import String List NArith ZArith Bool Lia Sorted.
From Verif Require Import Base Lists Ipld IpldProofs MstModel MstTree MstTreeProofs MstRep MstTrav MstClient MstSpec
  MstHist MstFacts StorageModel EventsModel EventsFacts CoverModel DiffSpec DiffFacts.
Import ListNotations.

(** ** Dicts *)

Lemma dict_update_get {V} (e : list (str * V)) : NoDup (keys e) -> forall d c,
  dget c (dict_update d e) = match dget c e with Some v => Some v | None => dget c d end.
Proof.
  unfold dict_update. induction e as [|[k v] e IH]; intros ND d c; cbn [fold_left dget fst snd]; auto.
  inversion ND as [|? ? NI ND']; subst. rewrite IH by auto. rewrite dget_dset.
  destruct (str_eqb c k) eqn:E; auto. apply str_eqb_eq in E. subst. rewrite (proj2 (dget_None k e) NI). auto.
Qed.

Lemma read_many_NoDup st cids : NoDup (keys (read_many st cids)).
Proof.
  unfold read_many. assert (X : forall d : list (cid * option block), NoDup (keys d) ->
    NoDup (keys (fold_left (fun d c => dset c (read st c) d) cids d))).
  { induction cids as [|c cids IH]; intros d ND; cbn [fold_left]; auto. apply IH, dset_NoDup, ND. }
  apply X. constructor.
Qed.

Lemma mem_str_iff x l : mem_str x l = true <-> In x l.
Proof.
  induction l as [|y l IH]; cbn [mem_str In]; [split; [discriminate|tauto]|].
  rewrite orb_true_iff, IH, str_eqb_eq. split; intros [A|A]; auto.
Qed.

Section Cover.
Variable digest : list N -> list N.
Variable kdigest : str -> list N.
Variable st : state.
Notation wf := (wf kdigest).
Notation wfE := (wfE kdigest).
Notation tcid := (tcid digest).
Notation tnode := (tnode digest).
Notation pent := (pent digest).
Notation cover_load := (cover_load st).
Notation cover_descend := (cover_descend st).

(** What is in the dict is what is in the storage. *)
Definition faithful (d : blocks_dict) : Prop := forall c ob, dget c d = Some ob -> ob = read st c.

Definition among (c : cid) (cids : list (option cid)) : bool :=
  existsb (fun oc => match oc with Some x => str_eqb c x | None => false end) cids.

Lemma load_get d cids c : dget c (cover_load d cids) =
  match dget c d with Some ob => Some ob | None => if among c cids
                                                   then Some (read st c) else None end.
Proof.
  unfold CoverModel.cover_load. rewrite dict_update_get by apply read_many_NoDup. rewrite read_many_ok.
  match goal with |- context [mem_str c ?x] => set (l := x) end. destruct (mem_str c l) eqn:M.
  - apply mem_str_iff in M. unfold l in M. apply in_flat_map in M as ([x|] & HX & HC); [|contradiction].
    destruct (dget x d) eqn:D; cbn [is_some] in HC; [contradiction|]. destruct HC as [->|[]]. rewrite D.
    assert (E : among c cids = true).
    { apply existsb_exists. exists (Some c). split; auto. apply str_eqb_refl. }
    rewrite E. reflexivity.
  - destruct (dget c d) eqn:D; auto.
    destruct (among c cids) eqn:E; auto. apply existsb_exists in E as ([x|] & HX & HC); [|discriminate].
    apply str_eqb_eq in HC. subst x. assert (X : mem_str c l = true); [|congruence].
    apply mem_str_iff. unfold l. apply in_flat_map. exists (Some c). split; auto. rewrite D. cbn. auto.
Qed.

Lemma load_faithful d cids : faithful d -> faithful (cover_load d cids).
Proof.
  intros C c ob. rewrite load_get. destruct (dget c d) eqn:D; [intros [= <-]; auto|].
  destruct (among c cids); [intros [= <-]; auto|discriminate].
Qed.

Lemma load_lookup d cids c : faithful d -> In (Some c) cids -> lookup (cover_load d cids) (Some c) = read st c.
Proof.
  intros C HI. cbn [lookup]. rewrite load_get. destruct (dget c d) eqn:D; [apply C in D; auto|].
  assert (E : among c cids = true).
  { apply existsb_exists. exists (Some c). split; auto. apply str_eqb_refl. }
  rewrite E. reflexivity.
Qed.

Lemma load_present d cids c : faithful d -> In (Some c) cids -> dget c (cover_load d cids) = Some (read st c).
Proof.
  intros C HI. rewrite load_get. destruct (dget c d) eqn:D; [apply C in D; subst; auto|].
  assert (E : among c cids = true).
  { apply existsb_exists. exists (Some c). split; auto. apply str_eqb_refl. }
  rewrite E. reflexivity.
Qed.

(** [d'] is [d] and blocks of nodes of [t]. *)
Definition grows (t : tree) (d d' : blocks_dict) : Prop :=
  (forall c ob, dget c d = Some ob -> dget c d' = Some ob) /\
  (forall c, dget c d = None -> dget c d' <> None -> exists x, subtree x t /\ c = tcid x).

Lemma grows_refl t d : grows t d d.
Proof. split; auto. intros c A B. contradiction. Qed.

Lemma grows_trans t d1 d2 d3 : grows t d1 d2 -> grows t d2 d3 -> grows t d1 d3.
Proof.
  intros [A1 A2] [B1 B2]. split; auto. intros c N1 N3. destruct (dget c d2) as [ob|] eqn:E; [|auto].
  apply A2; auto. congruence.
Qed.

Lemma subtree_trans x y z : subtree x y -> subtree y z -> subtree x z.
Proof. intros A B. induction B as [|? ? es HI _ IH]; auto. econstructor; eauto. Qed.

Lemma grows_sub x t d d' : subtree x t -> grows x d d' -> grows t d d'.
Proof. intros S [A B]. split; auto. intros c N1 N2. destruct (B c N1 N2) as (y & Y & E). exists y. split; auto. eapply subtree_trans; eauto. Qed.

(** A pointer to a subtree of [t], if any. *)
Definition ptr (t : tree) (oc : option cid) : Prop := forall c, oc = Some c -> exists x, In (TSub x) (tentries t) /\ c = tcid x.

Lemma child_subtree x t : In (TSub x) (tentries t) -> subtree x t.
Proof. destruct t as [es]. cbn [tentries]. intros H. econstructor; [exact H|]. constructor. Qed.

Lemma grows_load t d cids : (forall oc, In oc cids -> exists x, subtree x t /\ (oc = None \/ oc = Some (tcid x))) -> grows t d (cover_load d cids).
Proof.
  intros H. split.
  - intros c ob E. rewrite load_get, E. reflexivity.
  - intros c E N. rewrite load_get, E in N. destruct (among c cids) eqn:X; [|congruence].
    apply existsb_exists in X as ([x|] & HX & HC); [|discriminate]. apply str_eqb_eq in HC. subst x.
    destruct (H _ HX) as (x & S & [A|A]); [discriminate|]. injection A as ->. eauto.
Qed.

Lemma grows_load_ptr t d cids : (forall oc, In oc cids -> ptr t oc) -> grows t d (cover_load d cids).
Proof.
  intros H. apply grows_load. intros [c|] HI.
  - destruct (H _ HI c eq_refl) as (x & HX & ->). exists x. split; [apply child_subtree; auto|auto].
  - exists t. split; [constructor|auto].
Qed.

(** ** The entries of a node *)

Lemma ser_cons key v es last d : ser_entries last (map pent (TLeaf key v :: es)) = Ok d ->
  (exists x r d', es = TSub x :: r /\ ser_entries key (map pent r) = Ok d' /\
     d = Edata (common_prefix_len last key) (skipn (common_prefix_len last key) key) v (Some (tcid x)) :: d') \/
  (~ starts_sub es /\ exists d', ser_entries key (map pent es) = Ok d' /\
     d = Edata (common_prefix_len last key) (skipn (common_prefix_len last key) key) v None :: d').
Proof.
  intros H. cbn [map] in H. cbn [MstTree.pent] in H. unfold ensure_valid_key in H.
  destruct es as [|[k2 v2|x] es]; cbn [map MstTree.pent] in H; cbn [ser_entries] in H.
  - right. split; [apply not_starts_sub_nil|]. unfold ensure_valid_key in H. destruct (valid_key key); cbn [bind] in H; [|discriminate].
    injection H as <-. exists []. auto.
  - right. split; [apply not_starts_sub_leaf|]. unfold ensure_valid_key in H at 1. destruct (valid_key key); cbn [bind] in H; [|discriminate].
    change (match map pent es with
                 | PSub c :: rest' => _ | _ => _ end) with (ser_entries key (map pent (TLeaf k2 v2 :: es))) in H.
    destruct (ser_entries key (map pent (TLeaf k2 v2 :: es))) as [d'|] eqn:E; cbn [bind] in H; [|discriminate].
    injection H as <-. exists d'. auto.
  - left. unfold ensure_valid_key in H. destruct (valid_key key); cbn [bind] in H; [|discriminate].
    destruct (ser_entries key (map pent es)) as [d'|] eqn:E; cbn [bind] in H; [|discriminate].
    injection H as <-. exists x, es, d'. auto.
Qed.

Section Scan.
Variable path : str.
Variable Q : tree -> Prop.
Definition qptr (oc : option cid) : Prop := oc = None \/ exists x, oc = Some (tcid x) /\ Q x.

(** Entries above the path do not change the pointer to follow. *)
Lemma scan_above : forall k es last d lc rc cc, length es <= k -> ser_entries last (map pent es) = Ok d ->
  Forall (slt path) (keys (L es)) -> (forall x, In (TSub x) es -> Q x) -> qptr lc -> qptr rc ->
  let '(l, r, c) := cover_scan path last lc rc cc d in c = cc /\ qptr l /\ qptr r.
Proof.
  induction k as [|k IH]; intros es last d lc rc cc LE H F HQ QL QR.
  - destruct es; [|cbn in LE; lia]. injection H as <-. cbn. auto.
  - destruct es as [|[key v|x] es]; [injection H as <-; cbn; auto| |discriminate].
    rewrite L_cons in F. cbn [eleaves app keys map fst] in F. inversion F as [|? ? LT F']; subst.
    destruct (ser_cons _ _ _ _ _ H) as [(x & r & d' & -> & E & ->)|(NS & d' & E & ->)]; cbn [cover_scan ed_p ed_k ed_t]; rewrite firstn_cpl.
    + destruct (str_eqb_spec key path) as [->|NE]; [exfalso; eapply slt_irrefl; eauto|].
      rewrite (proj2 (str_ltb_lt path key) LT). splits; auto. right. exists x. split; auto. apply HQ. cbn; auto.
    + apply (IH es key d' lc None cc); auto; [cbn in LE; lia|intros y HY; apply HQ; cbn; auto|left; auto].
Qed.

Lemma scan_ok : forall k es last d lc rc cc cand, length es <= k -> ser_entries last (map pent es) = Ok d ->
  ssorted (keys (L es)) -> (forall x, In (TSub x) es -> Q x) -> qptr lc -> qptr rc ->
  (cc = None /\ cand = []) \/ (exists x, cc = Some (tcid x) /\ Q x /\ (cand = [] \/ cand = spath path x)) ->
  let '(l, r, c) := cover_scan path last lc rc cc d in qptr l /\ qptr r /\
    ((c = None /\ spath_go path es cand = []) \/
     exists x, c = Some (tcid x) /\ Q x /\ (spath_go path es cand = [] \/ spath_go path es cand = spath path x)).
Proof.
  induction k as [|k IH]; intros es last d lc rc cc cand LE H S HQ QL QR HC.
  - destruct es; [|cbn in LE; lia]. injection H as <-. cbn. auto.
  - destruct es as [|[key v|x] es]; [injection H as <-; cbn; auto| |discriminate].
    rewrite L_cons in S. cbn [eleaves app keys map fst] in S. inversion S as [|? ? S' F]; subst.
    destruct (ser_cons _ _ _ _ _ H) as [(x & r & d' & -> & E & ->)|(NS & d' & E & ->)]; cbn [cover_scan ed_p ed_k ed_t]; rewrite firstn_cpl;
      cbn [spath_go].
    + assert (QX : qptr (Some (tcid x))) by (right; exists x; split; auto; apply HQ; cbn; auto).
      destruct (str_eqb_spec key path) as [->|NE].
      { rewrite str_eqb_refl. splits; auto. }
      rewrite (proj2 (str_eqb_neq path key)) by congruence. destruct (str_ltb path key); [splits; auto|].
      apply (IH r key d'); auto; [cbn in LE; lia| |intros y HY; apply HQ; cbn; auto|].
      * rewrite L_cons in S'. apply sorted_app_inv in S'. tauto.
      * right. exists x. splits; auto. apply HQ. cbn; auto.
    + destruct (str_eqb_spec path key) as [EQ|NE].
      * (* found here; whatever pointer is followed, nothing more is needed *)
        pose proof (scan_above (length es) es key d' lc None cc (le_n _) E) as X.
        destruct (cover_scan path key lc None cc d') as [[l r] c].
        destruct X as (-> & Y & Z); auto; [rewrite EQ; exact F|intros y HY; apply HQ; cbn; auto|left; auto|].
        splits; auto. destruct HC as [[-> ->]|(x & -> & QX & _)]; [left; auto|right; exists x; auto].
      * destruct (str_ltb path key) eqn:LT.
        { apply str_ltb_lt in LT.
          pose proof (scan_above (length es) es key d' lc None cc (le_n _) E) as X.
          destruct (cover_scan path key lc None cc d') as [[l r] c].
          destruct X as (-> & Y & Z); [|intros y HY; apply HQ; cbn; auto|exact QL|left; auto|].
          - eapply Forall_impl; [|exact F]. intros a A. eapply slt_trans; eauto.
          - splits; auto. }
        apply (IH es key d'); auto; [cbn in LE; lia|intros y HY; apply HQ; cbn; auto|left; auto|].
        destruct HC as [[-> ->]|(x & -> & QX & _)]; [left; auto|right; exists x; auto].
Qed.
End Scan.

(** The pointers in a node's data. *)
Lemma ser_ptr : forall k es last d, length es <= k -> ser_entries last (map pent es) = Ok d ->
  forall e c, In e d -> ed_t e = Some c -> exists x, In (TSub x) es /\ c = tcid x.
Proof.
  induction k as [|k IH]; intros es last d LE H e c HI HT.
  - destruct es; [|cbn in LE; lia]. injection H as <-. destruct HI.
  - destruct es as [|[key v|x] es]; [injection H as <-; destruct HI| |discriminate].
    destruct (ser_cons _ _ _ _ _ H) as [(x & r & d' & -> & E & ->)|(NS & d' & E & ->)]; destruct HI as [<-|HI].
    + injection HT as <-. exists x. cbn. auto.
    + destruct (IH r key d' ltac:(cbn in LE; lia) E e c HI HT) as (y & HY & ->). exists y. cbn. auto.
    + discriminate.
    + destruct (IH es key d' ltac:(cbn in LE; lia) E e c HI HT) as (y & HY & ->). exists y. cbn. auto.
Qed.

Lemma data_ptr n es : wf n (Node es) -> exists d, ipld_ndata (tnode (Node es)) = Ok d /\
  ptr (Node es) (nd_l d) /\ (forall e, In e (nd_e d) -> ptr (Node es) (ed_t e)) /\
  forall path, let '(l, r, c) := cover_scan path [] (nd_l d) (nd_l d) (nd_l d) (nd_e d) in
    sorted_tree (Node es) -> ptr (Node es) l /\ ptr (Node es) r /\
    ((c = None /\ spath path (Node es) = [Node es]) \/
     exists x, c = Some (tcid x) /\ In (TSub x) es /\ (spath path (Node es) = [Node es] \/ spath path (Node es) = Node es :: spath path x)).
Proof.
  intros W. apply wf_node in W as [NA F]. pose proof (ser_ok digest kdigest n es NA F) as SO.
  unfold MstTree.tnode. cbn [tentries]. rewrite ipld_ndata_ok. eexists. split; [reflexivity|].
  set (d := ser (map pent es)) in *. clearbody d.
  assert (QP : forall oc, qptr (fun x => In (TSub x) es) oc -> ptr (Node es) oc).
  { intros oc [->|(x & -> & HX)] c; [discriminate|]. intros [= <-]. exists x. auto. }
  unfold serialize_node_data in SO. destruct es as [|[key v|x] es].
  - injection SO as <-. cbn [nd_l nd_e]. split; [discriminate|]. split; [intros e []|]. intros path. cbn.
    intros _. splits; auto; discriminate.
  - change (bind (ser_entries [] (map pent (TLeaf key v :: es))) (fun e => Ok (Ndata None e)) = Ok d) in SO.
    destruct (ser_entries [] (map pent (TLeaf key v :: es))) as [e|] eqn:E; cbn [bind] in SO; [|discriminate].
    injection SO as <-. cbn [nd_l nd_e]. split; [discriminate|].
    split; [intros x HX c HC; exact (ser_ptr _ _ _ _ (le_n _) E x c HX HC)|]. intros path.
    pose proof (scan_ok path (fun x => In (TSub x) (TLeaf key v :: es)) _ _ _ _ None None None [] (le_n _) E) as X.
    destruct (cover_scan path [] None None None e) as [[l r] c]. intros S. rewrite spath_node.
    destruct X as (A & B & C); auto; [left; auto|left; auto|]. splits; auto.
    destruct C as [[-> ->]|(x & -> & HX & [->| ->])]; [left; auto|right; exists x; auto|right; exists x; auto].
  - change (bind (ser_entries [] (map pent es)) (fun e => Ok (Ndata (Some (tcid x)) e)) = Ok d) in SO.
    destruct (ser_entries [] (map pent es)) as [e|] eqn:E; cbn [bind] in SO; [|discriminate].
    injection SO as <-. cbn [nd_l nd_e]. split; [intros c [= <-]; exists x; cbn; auto|].
    split; [intros y HY c HC; destruct (ser_ptr _ _ _ _ (le_n _) E y c HY HC) as (z & HZ & ->); exists z; cbn; auto|]. intros path.
    set (px := Some (tcid x)).
    pose proof (scan_ok path (fun y => In (TSub y) (TSub x :: es)) _ _ _ _ px px px (spath path x) (le_n _) E) as X.
    destruct (cover_scan path [] px px px e) as [[l r] c]. intros S. rewrite spath_node. cbn [spath_go].
    assert (QX : qptr (fun y => In (TSub y) (TSub x :: es)) px) by (right; exists x; cbn; auto).
    destruct X as (A & B & C); auto.
    + unfold sorted_tree in S. rewrite leaves_node, L_cons in S. apply sorted_app_inv in S. tauto.
    + intros y HY. cbn. auto.
    + right. exists x. cbn. auto.
    + splits; auto. destruct C as [[-> ->]|(y & -> & HY & [->| ->])]; [left; auto|right; exists y; auto|right; exists y; auto].
Qed.

(** ** The walk *)

Definition available (t : tree) : Prop := forall x, subtree x t -> exists b, read st (tcid x) = Some b /\ b_val b = tnode x.

Lemma available_sub x t : subtree x t -> available t -> available x.
Proof. intros S A y SY. apply A. eapply subtree_trans; eauto. Qed.

Definition side (t : tree) (ob : option block) : Prop := ob = None \/ exists x, In (TSub x) (tentries t) /\ ob = read st (tcid x).

Lemma child_wf n t x : wf n t -> In (TSub x) (tentries t) -> exists n', n = S n' /\ wf n' x.
Proof.
  destruct t as [es]. intros W HI. apply wf_node in W as [_ F]. rewrite Forall_forall in F. cbn [tentries] in HI.
  apply F in HI. destruct n as [|n]; [destruct HI|]. destruct HI as [W _]. eauto.
Qed.

Lemma child_sorted t x : sorted_tree t -> In (TSub x) (tentries t) -> sorted_tree x.
Proof.
  destruct t as [es]. unfold sorted_tree. rewrite leaves_node. cbn [tentries]. intros S HI.
  apply in_split in HI as (a & b & ->). rewrite L_app in S. apply sorted_app_inv in S as [_ S].
  rewrite L_cons in S. apply sorted_app_inv in S as [S _]. exact S.
Qed.

Lemma lookup_side t d l r c : faithful d -> ptr t l -> ptr t r -> ptr t c -> let d' := cover_load d [l; r; c] in
  side t (lookup d' l) /\ side t (lookup d' r) /\ side t (lookup d' c).
Proof.
  intros CF PL PR PC d'. assert (X : forall oc, In oc [l; r; c] -> ptr t oc -> side t (lookup d' oc)).
  { intros [x|] HI P; [|left; reflexivity]. destruct (P x eq_refl) as (y & HY & ->). right. exists y. split; auto.
    apply load_lookup; auto. }
  splits; apply X; cbn; auto.
Qed.

Lemma descend_ok path n : forall fuel t d, n < fuel -> wf n t -> sorted_tree t -> available t -> faithful d ->
  exists d' lb rb, cover_descend fuel d path (read st (tcid t)) = Ok (d', lb, rb) /\ grows t d d' /\ faithful d' /\
    (forall x, In x (spath path t) -> x = t \/ dget (tcid x) d' = Some (read st (tcid x))) /\
    (lb = None \/ exists x m, subtree x t /\ wf m x /\ m < n /\ lb = read st (tcid x)) /\
    (rb = None \/ exists x m, subtree x t /\ wf m x /\ m < n /\ rb = read st (tcid x)).
Proof.
  induction n as [n IH] using lt_wf_ind. intros fuel [es] d LT W SS AV CF. destruct fuel as [|f]; [lia|].
  cbn [CoverModel.cover_descend]. destruct (AV (Node es)) as (b & RB & VB); [constructor|]. rewrite RB. cbn [block_data]. rewrite VB.
  destruct (data_ptr n es W) as (data & -> & PL & PE & SC). cbn [bind]. specialize (SC path).
  destruct (cover_scan path [] (nd_l data) (nd_l data) (nd_l data) (nd_e data)) as [[l r] c].
  destruct (SC SS) as (QL & QR & QC). clear SC.
  assert (PC : ptr (Node es) c).
  { destruct QC as [[-> _]|(x & -> & HX & _)]; [discriminate|]. intros c0 [= <-]. eauto. }
  assert (G1 : grows (Node es) d (cover_load d [l; r; c])).
  { apply grows_load_ptr. cbn. intros oc [<-|[<-|[<-|[]]]]; auto. }
  destruct QC as [[-> SP]|(x & -> & HX & SP)].
  - destruct (lookup_side (Node es) d l r None CF QL QR PC) as (SL & SR & _).
    eexists _, _, _. split; [reflexivity|]. split; [exact G1|]. split; [apply load_faithful; auto|]. split.
    { rewrite SP. intros y [<-|[]]. auto. }
    assert (CV : forall ob, side (Node es) ob -> ob = None \/ exists x m, subtree x (Node es) /\ wf m x /\ m < n /\ ob = read st (tcid x)).
    { intros ob [->|(x & HX & ->)]; auto. right. destruct (child_wf _ _ _ W HX) as (n' & -> & WX). exists x, n'. splits; auto.
      apply child_subtree; auto. }
    split; apply CV; auto.
  - destruct (child_wf _ _ x W HX) as (n' & -> & WX).
    rewrite load_lookup; [|auto|cbn; auto].
    assert (SX : subtree x (Node es)) by (apply child_subtree; auto).
    destruct (IH n' ltac:(lia) f x (cover_load d [l; r; Some (tcid x)]) ltac:(lia) WX (child_sorted _ _ SS HX) (available_sub _ _ SX AV)
                (load_faithful _ _ CF)) as (d' & lb & rb & E & G2 & CF' & IN & SL & SR).
    exists d', lb, rb. split; [exact E|].
    assert (G3 : grows (Node es) (cover_load d [l; r; Some (tcid x)]) d') by (eapply grows_sub; eauto).
    split; [eapply grows_trans; eauto|]. split; [exact CF'|]. split.
    { intros y HY. assert (Y : y = Node es \/ In y (spath path x)).
      { destruct SP as [SP|SP]; rewrite SP in HY; destruct HY as [<-|HY]; auto. destruct HY. }
      destruct Y as [->|HY']; [auto|]. right. destruct (IN y HY') as [->|D]; auto.
      apply G3. apply load_present; auto. cbn. auto. }
    assert (CV : forall ob, (ob = None \/ exists x0 m, subtree x0 x /\ wf m x0 /\ m < n' /\ ob = read st (tcid x0)) ->
      ob = None \/ exists x0 m, subtree x0 (Node es) /\ wf m x0 /\ m < S n' /\ ob = read st (tcid x0)).
    { intros ob [->|(y & m & A & B & C & D)]; auto. right. exists y, m. splits; auto. eapply subtree_trans; eauto. }
    split; apply CV; auto.
Qed.

Lemma left_ok n : forall fuel t d, n < fuel -> wf n t -> available t -> faithful d ->
  exists d', cover_left st fuel d (read st (tcid t)) = Ok d' /\ grows t d d' /\ faithful d'.
Proof.
  induction n as [n IH] using lt_wf_ind. intros fuel [es] d LT W AV CF. destruct fuel as [|f]; [lia|].
  cbn [CoverModel.cover_left]. destruct (AV (Node es)) as (b & RB & VB); [constructor|]. rewrite RB. cbn [block_data]. rewrite VB.
  destruct (data_ptr n es W) as (data & -> & PL & PE & _). cbn [bind].
  set (next := match rev (nd_e data) with e :: _ => ed_t e | [] => nd_l data end).
  assert (PN : ptr (Node es) next).
  { unfold next. destruct (rev (nd_e data)) as [|e r] eqn:R; auto. apply PE. apply in_rev. rewrite R. cbn. auto. }
  clearbody next. destruct next as [c|]; [|exists d; splits; auto using grows_refl].
  destruct (PN c eq_refl) as (x & HX & ->). destruct (child_wf _ _ x W HX) as (n' & -> & WX).
  rewrite load_lookup; [|auto|cbn; auto].
  assert (SX : subtree x (Node es)) by (apply child_subtree; auto).
  destruct (IH n' ltac:(lia) f x (cover_load d [Some (tcid x)]) ltac:(lia) WX (available_sub _ _ SX AV) (load_faithful _ _ CF))
    as (d' & E & G & CF').
  exists d'. splits; auto. eapply grows_trans; [|eapply grows_sub; eauto].
  apply grows_load_ptr. intros oc [<-|[]]. exact PN.
Qed.

Lemma right_ok n : forall fuel t d, n < fuel -> wf n t -> available t -> faithful d ->
  exists d', cover_right st fuel d (read st (tcid t)) = Ok d' /\ grows t d d' /\ faithful d'.
Proof.
  induction n as [n IH] using lt_wf_ind. intros fuel [es] d LT W AV CF. destruct fuel as [|f]; [lia|].
  cbn [CoverModel.cover_right]. destruct (AV (Node es)) as (b & RB & VB); [constructor|]. rewrite RB. cbn [block_data]. rewrite VB.
  destruct (data_ptr n es W) as (data & -> & PN & _ & _). cbn [bind].
  destruct (nd_l data) as [c|]; [|exists d; splits; auto using grows_refl].
  destruct (PN c eq_refl) as (x & HX & ->). destruct (child_wf _ _ x W HX) as (n' & -> & WX).
  rewrite load_lookup; [|auto|cbn; auto].
  assert (SX : subtree x (Node es)) by (apply child_subtree; auto).
  destruct (IH n' ltac:(lia) f x (cover_load d [Some (tcid x)]) ltac:(lia) WX (available_sub _ _ SX AV) (load_faithful _ _ CF))
    as (d' & E & G & CF').
  exists d'. splits; auto. eapply grows_trans; [|eapply grows_sub; eauto].
  apply grows_load_ptr. intros oc [<-|[]]. exact PN.
Qed.

Lemma op_ok path n fuel t d : n < fuel -> wf n t -> sorted_tree t -> available t -> faithful d ->
  exists d', cover_op st fuel (tcid t) d path = Ok d' /\ grows t d d' /\ faithful d' /\
    forall x, In x (spath path t) -> dget (tcid x) d' = Some (read st (tcid x)).
Proof.
  intros LT W S AV CF. unfold cover_op. rewrite load_lookup; [|auto|cbn; auto].
  set (d0 := cover_load d [Some (tcid t)]).
  assert (CF0 : faithful d0) by (apply load_faithful; auto).
  assert (G0 : grows t d d0).
  { apply grows_load. intros oc [<-|[]]. exists t. split; [constructor|auto]. }
  assert (R0 : dget (tcid t) d0 = Some (read st (tcid t))) by (apply load_present; auto; cbn; auto).
  destruct (descend_ok path n fuel t d0 LT W S AV CF0) as (d1 & lb & rb & -> & G1 & CF1 & IN & SL & SR). cbn [bind].
  assert (X : exists d2, match lb with None => Ok d1 | Some _ => cover_left st fuel d1 lb end = Ok d2 /\ grows t d1 d2 /\ faithful d2).
  { destruct SL as [->|(x & m & A & B & C & ->)]; [exists d1; splits; auto using grows_refl|].
    destruct (AV x A) as (b & RB & _). destruct (left_ok m fuel x d1 ltac:(lia) B (available_sub _ _ A AV) CF1) as (d2 & E & G & CF2).
    exists d2. rewrite RB in *. splits; auto. eapply grows_sub; eauto. }
  destruct X as (d2 & -> & G2 & CF2). cbn [bind].
  assert (X : exists d3, match rb with None => Ok d2 | Some _ => cover_right st fuel d2 rb end = Ok d3 /\ grows t d2 d3 /\ faithful d3).
  { destruct SR as [->|(x & m & A & B & C & ->)]; [exists d2; splits; auto using grows_refl|].
    destruct (AV x A) as (b & RB & _). destruct (right_ok m fuel x d2 ltac:(lia) B (available_sub _ _ A AV) CF2) as (d3 & E & G & CF3).
    exists d3. rewrite RB in *. splits; auto. eapply grows_sub; eauto. }
  destruct X as (d3 & -> & G3 & CF3). exists d3. split; [reflexivity|].
  assert (G13 : grows t d1 d3) by (eapply grows_trans; eauto).
  assert (G03 : grows t d0 d3) by (eapply grows_trans; eauto).
  split; [eapply grows_trans; eauto|]. split; [exact CF3|].
  intros x HX. destruct (IN x HX) as [->|D]; [apply G03, R0|apply G13, D].
Qed.

Lemma ops_ok n fuel t : n < fuel -> wf n t -> sorted_tree t -> available t -> forall paths d, faithful d ->
  exists d', cover_ops st fuel (tcid t) d paths = Ok d' /\ grows t d d' /\ faithful d' /\
    forall path x, In path paths -> In x (spath path t) -> dget (tcid x) d' = Some (read st (tcid x)).
Proof.
  intros LT W S AV. induction paths as [|p paths IH]; intros d CF; cbn [cover_ops].
  - exists d. splits; auto using grows_refl. intros p x [].
  - destruct (op_ok p n fuel t d LT W S AV CF) as (d1 & -> & G1 & CF1 & IN1). cbn [bind].
    destruct (IH d1 CF1) as (d2 & E & G2 & CF2 & IN2). exists d2. splits; auto; [eapply grows_trans; eauto|].
    intros path x [<-|HP] HX; [apply G2, IN1, HX|eapply IN2; eauto].
Qed.

End Cover.

(** ** Looking a key up reads only its search path *)

Lemma lazy_entries kdigest rd p l o es m : get_entries kdigest rd (Mst None p l o) = Ok es -> In (Sub m) es ->
  exists c h, m = Mst None (Some c) h false.
Proof.
  cbn [get_entries]. destruct p as [c|]; [|discriminate]. destruct (rd c) as [v|]; [|discriminate].
  destruct (ipld_ndata v) as [d|]; cbn [bind]; [|discriminate]. intros [= <-]. unfold deserialize_node_data.
  set (h := match match nd_e d with [] => None | e :: _ => Some (leading_zeros_on_hash kdigest (ed_k e)) end with
            | Some l => Some (l - 1)%Z | None => None end). clearbody h. intros HI. apply in_app_or in HI as [HI|HI].
  - destruct (nd_l d); [|destruct HI]. destruct HI as [[= <-]|[]]. eauto.
  - assert (X : forall es last, In (Sub m) (deser_entries h last es) -> exists c0 h0, m = Mst None (Some c0) h0 false).
    { induction es as [|e es IH]; intros last X; [destruct X|]. cbn [deser_entries] in X. destruct X as [X|X]; [discriminate|].
      apply in_app_or in X as [X|X]; [|eauto]. destruct (ed_t e); [|destruct X]. destruct X as [[= <-]|[]]. eauto. }
    eauto.
Qed.

Lemma get_path digest kdigest rd rd' key n : forall fuel l t, rep digest rd n (Mst None (Some (tcid digest t)) l false) t ->
  wf kdigest n t -> sorted_tree t -> (forall x, In x (spath key t) -> rd' (tcid digest x) = Some (tnode digest x)) ->
  get kdigest rd' fuel (Mst None (Some (tcid digest t)) l false) key = get kdigest rd fuel (Mst None (Some (tcid digest t)) l false) key.
Proof.
  induction n as [n IH] using lt_wf_ind. intros fuel l [tes] R W S H. destruct fuel as [|f]; [reflexivity|].
  set (m := Mst None (Some (tcid digest (Node tes))) l false) in *. cbn [get].
  unfold sorted_tree in S. rewrite leaves_node in S.
  destruct (get_entries_ok _ _ _ _ _ _ R W) as (es & Hes & HF).
  assert (SP0 : spath key (Node tes) = Node tes :: spath_go key tes []) by apply spath_node.
  assert (SAME : get_entries kdigest rd' m = get_entries kdigest rd m).
  { unfold m. cbn [get_entries]. rewrite (H (Node tes)) by (rewrite SP0; cbn; auto).
    apply rep_eq in R as (_ & _ & _ & _ & ST). inversion ST as [? X _]; subst. rewrite X. reflexivity. }
  rewrite SAME, Hes. cbn [bind].
  destruct (MstRep.view digest kdigest rd n es tes key HF W S) as (el & er & tl & tr & E1 & E2 & E3 & F1 & F2 & HL & HR).
  rewrite E3. destruct HR as [(NL & GT & NS)|(v & er' & tr' & -> & -> & F2' & GT)].
  - rewrite !skip_leaf by auto.
    destruct HL as [(NP & LT & NE0)|(n' & el0 & m' & tl0 & t' & -> & -> & -> & F0 & R' & W' & NE' & LT & NE0)].
    + rewrite !skip_prev by auto. reflexivity.
    + rewrite E1, at_prev_snoc. unfold m in Hes.
      destruct (lazy_entries _ _ _ _ _ _ m' Hes) as (c & h & ->); [rewrite E1; apply in_or_app; left; apply in_or_app; cbn; auto|].
      assert (c = tcid digest t') as ->.
      { destruct t' as [tes']. apply rep_eq in R' as (_ & _ & X & _). specialize (X eq_refl). congruence. }
      apply (IH n'); auto.
      * rewrite E2, !L_app, L_one in S. apply sorted_app_inv in S as [S _]. apply sorted_app_inv in S as [_ S]. exact S.
      * intros x HX. apply H. rewrite SP0. right. rewrite E2, <- app_assoc. cbn [app]. rewrite spath_go_sub, spath_go_right by auto. exact HX.
  - rewrite E1. unfold at_index. rewrite nth_error_len, str_eqb_refl. reflexivity.
Qed.
