(** Exporting repos: getRepo. *)
From Coq Require Import String List NArith ZArith Bool Lia Sorted.
From Coq Require Import ZifyBool ZifyNat ZifyN.
From Verif Require Import Base Lists Ipld IpldProofs MstModel MstTree MstTreeProofs MstRep MstTrav
  MstClient MstSpec MstHist MstFacts TidModel TidProofs BlockModel BlockSpec BlockProofs
  CarModel CarProofs StorageModel StorageSpec CommitProofs StoreProofs ExecProofs RepoSpec RepoProofs RepoHist RepoSteps RepoFacts
  UriModel EventsModel EventsFacts CoverProofs MessageSpec ServerModel ServerSpec ServerProofs ServerFacts ServerSync ExportSpec.
Import ListNotations.

(** ** Nodes come after what is below them *)

Section Order.
Variable digest : list N -> list N.
Variable kdigest : str -> list N.
Variable validate : ipld -> res unit.
Variable ecdsa : N -> Z -> list N -> list N.
Variable now : Z -> str.
Variable cb : nat -> option exn.
Variable be : backend.
Notation inv := (inv digest kdigest validate ecdsa be).
Notation effect := (effect digest kdigest validate ecdsa now be).
Notation tcid := (tcid digest).
Notation wf := (wf kdigest).
Hypothesis SET : setting digest kdigest validate cb.
Notation rdv bl := (fun k : str => dget k (vals bl)).

(** Whatever is below a stored node is stored, and was not first written after the node. *)
Definition ordered (bl : store) : Prop := forall n t b, wf n t -> dget (tcid t) bl = Some b ->
  (forall x, subtree x t -> exists b', dget (tcid x) bl = Some b' /\ (b_seq b' <= b_seq b)%Z) /\
  (forall k v, In (k, v) (leaves t) -> exists b', dget v bl = Some b' /\ (b_seq b' <= b_seq b)%Z).

Lemma ordered_extends bl bl' : ordered bl -> extends bl bl' ->
  (forall n t b, wf n t -> dget (tcid t) bl = None -> dget (tcid t) bl' = Some b ->
    (forall x, subtree x t -> exists b', dget (tcid x) bl' = Some b' /\ (b_seq b' <= b_seq b)%Z) /\
    (forall k v, In (k, v) (leaves t) -> exists b', dget v bl' = Some b' /\ (b_seq b' <= b_seq b)%Z)) -> ordered bl'.
Proof.
  clear. intros O EX NEW n t b W D. destruct (dget (tcid t) bl) as [b0|] eqn:D0; [|eauto].
  pose proof (EX _ _ D0) as D1. rewrite D in D1. injection D1 as <-.
  destruct (O n t b W D0) as [A B]. split.
  - intros x HX. destruct (A x HX) as (b' & H & L). eauto.
  - intros k v HI. destruct (B k v HI) as (b' & H & L). eauto.
Qed.

Lemma leaf_stored bl recs k v : recs_stored digest bl recs -> dget k (cids_of digest recs) = Some v -> dget v bl <> None.
Proof.
  clear. intros RS D. rewrite dget_cids_of in D. destruct (dget k recs) as [x|] eqn:E; [|discriminate]. cbn in D. injection D as <-.
  specialize (RS _ _ E). rewrite dget_vals in RS. unfold StorageSpec.rcid in *. destruct (dget _ bl); [discriminate|discriminate RS].
Qed.

Lemma store_nodes bl next n t b : store_ok digest kdigest bl next -> wf n t -> dget (tcid t) bl = Some b ->
  forall x, subtree x t -> exists b', dget (tcid x) bl = Some b' /\ b_val b' = tnode digest x.
Proof.
  clear. intros SO W D x HX. assert (ST : stored digest (rdv bl) t).
  { apply (so_closed _ _ _ _ SO n t W). rewrite dget_vals, D. discriminate. }
  pose proof (stored_subtree _ _ _ _ HX ST) as SX. inversion SX as [es R _]; subst. rewrite dget_vals in R.
  destruct (dget (tcid (Node es)) bl) as [b'|] eqn:E; [|discriminate]. cbn [option_map] in R. exists b'. split; auto. congruence.
Qed.

Lemma empty_tree n t : wf n t -> leaves t = [] -> t = Node [].
Proof.
  clear. intros W E. destruct t as [[|e es]]; auto. exfalso. apply (wf_nonempty kdigest n (Node (e :: es)) W); auto. discriminate.
Qed.

Lemma event_not_node b type seq v n t : is_event type seq v -> b_cid b = cid_of digest (norm v) -> wf n t -> b_cid b <> tcid t.
Proof.
  pose proof (s_inj _ _ _ _ SET) as SI. clear - SI. intros [T _] E W X. destruct t as [es]. rewrite E, tcid_eq in X. apply cid_of_inj in X; auto.
  rewrite X, vtype_node in T. discriminate.
Qed.

Lemma effect_ordered st refs bk op st' refs' out : inv st refs bk ->
  effect st refs bk op st' refs' out -> ordered (s_blocks st) -> ordered (s_blocks st').
Proof.
  intros I E O.
  assert (SAME : s_blocks st' = s_blocks st -> ordered (s_blocks st')) by (intros ->; exact O).
  destruct E as [op out H1 H2 H3|x did key recs o st' r HS B D L|h k r0 o0 did key recs hb root H1 H2 H3 H4 H5|h x r0 o0 H1 H2
    |h ws r0 o0 x H1 H2 H3|h ws r0 o0 did key0 recs0 key recs st' cd H1 H2 H3 H4 H5 H6 C
    |h ws r0 o0 did key0 recs0 key recs o st1 r m' e H1 H2 H3 H4 H5 H6 H7 L H8 H9
    |op h x type extra r0 o0 did key recs SO H1 H2 H3 H4 FR
    |did handle has_callback key st' cd H1 H2 H3 C I2
    |did handle status has_callback key o e H1 H2 H3]; try (apply SAME; reflexivity).
  - apply SAME. unfold loaded in L. destruct be; destruct L as [_ ->]; reflexivity.
  - apply SAME. rewrite called_blocks. reflexivity.
  - pose proof (c_store _ _ _ _ _ _ _ _ _ _ _ _ _ _ C) as SO.
    assert (TOP : forall c b, dget c (s_blocks st') = Some b -> (b_seq b <= s_next st)%Z).
    { intros c b D. destruct (so_block _ _ _ _ SO _ _ D) as (_ & _ & Q & _). rewrite (c_next _ _ _ _ _ _ _ _ _ _ _ _ _ _ C) in Q. lia. }
    destruct (c_objs _ _ _ _ _ _ _ _ _ _ _ _ _ _ C) as (o & root & m' & _ & _ & CH & _).
    pose proof (chain_stored _ _ _ _ _ _ _ _ _ _ CH) as RS.
    apply (ordered_extends (s_blocks st)); auto.
    + eapply committed_extends; eauto.
    + intros n t b W DN DS.
      assert (NW : dget (tcid t) (cd_blocks cd) = Some b).
      { rewrite (c_blocks _ _ _ _ _ _ _ _ _ _ _ _ _ _ C), fold_setdefault_get, DN in DS. exact DS. }
      destruct (c_new _ _ _ _ _ _ _ _ _ _ _ _ _ _ C _ _ NW) as (Q & _).
      split.
      * intros x HX. destruct (store_nodes _ _ _ _ _ SO W DS x HX) as (b' & D' & _). exists b'. split; auto. rewrite Q. eauto.
      * intros k v HI. pose proof (c_nodes _ _ _ _ _ _ _ _ _ _ _ _ _ _ C n t k v W ltac:(congruence) HI) as X.
        pose proof (leaf_stored _ _ _ _ RS X) as Y. destruct (dget v (s_blocks st')) as [b'|] eqn:D'; [|congruence]. exists b'. split; auto. rewrite Q. eauto.
  - apply SAME. rewrite called_blocks. unfold loaded in L. destruct be; destruct L as [_ ->]; reflexivity.
  - destruct (after_event_facts (status_set be st r0 o0 did x) (with_status x o0) (event_block digest now did type (s_next st) extra)) as (_ & BL & _).
    assert (SB : s_blocks (status_set be st r0 o0 did x) = s_blocks st).
    { destruct (status_facts digest kdigest validate ecdsa be st refs bk r0 o0 did key recs x I H2 H3 H4) as (_ & _ & X & _). exact X. }
    rewrite BL, SB. apply (ordered_extends (s_blocks st)); auto; [apply extends_app|].
    intros n t b W DN DS. exfalso. rewrite dget_app, DN in DS. cbn [dget] in DS.
    destruct (str_eqb_spec (tcid t) (b_cid (event_block digest now did type (s_next st) extra))) as [X|]; [|discriminate].
    symmetry in X. revert X. eapply event_not_node; [|reflexivity|exact W]. eapply status_event; eauto.
  - pose proof (i_store _ _ _ _ _ _ _ _ I2) as SO.
    assert (EV : exists e1 e2 e3, s_blocks st' = fold_left dsetdefault (cd_blocks cd) (s_blocks st) ++ [(b_cid e1, e1); (b_cid e2, e2); (b_cid e3, e3)] /\
      forall e n t, In e [e1; e2; e3] -> wf n t -> b_cid e <> tcid t).
    { destruct (n_commit _ _ _ _ _ _ _ _ _ _ _ _ _ _ C) as (rev & _ & BL & _). eexists _, _, _. split; [exact BL|].
      intros e n t [<-|[<-|[<-|[]]]] W; (eapply event_not_node; [|reflexivity|exact W]); split; destruct handle; reflexivity. }
    destruct EV as (e1 & e2 & e3 & BL & NN).
    apply (ordered_extends (s_blocks st)); auto.
    + intros c b D. rewrite BL, dget_app, fold_setdefault_get, D. reflexivity.
    + intros n t b W DN DS.
      assert (NW : dget (tcid t) (cd_blocks cd) = Some b).
      { rewrite BL, dget_app, fold_setdefault_get, DN in DS. destruct (dget (tcid t) (cd_blocks cd)); [exact DS|]. exfalso. cbn [dget] in DS.
        destruct (str_eqb_spec (tcid t) (b_cid e1)) as [X|]; [symmetry in X; revert X; eapply NN; cbn; eauto|].
        destruct (str_eqb_spec (tcid t) (b_cid e2)) as [X|]; [symmetry in X; revert X; eapply NN; cbn; eauto|].
        destruct (str_eqb_spec (tcid t) (b_cid e3)) as [X|]; [symmetry in X; revert X; eapply NN; cbn; eauto|]. discriminate. }
      pose proof (n_nodes _ _ _ _ _ _ _ _ _ _ _ _ _ _ C n t W ltac:(congruence)) as LE. rewrite LE. split; [|intros ? ? []].
      rewrite (empty_tree n t W LE) in *. intros x HX. inversion HX as [|? ? ? HI]; subst; [|destruct HI]. exists b. split; auto. lia.
  - apply SAME. rewrite called_blocks. reflexivity.
Qed.
End Order.

(** ** Loading a tree from storage *)

Section Load.
Variable digest : list N -> list N.
Variable kdigest : str -> list N.
Variable be : backend.
Variable st : state.
Variable start : Z.
Notation tcid := (tcid digest).
Notation tnode := (tnode digest).
Notation wf := (wf kdigest).
Hypothesis inj : forall x y, digest x = digest y -> x = y.

(** The number with which the block was first written. *)
Definition seq_of (c : cid) : Z := match read st c with Some b => b_seq b | None => 0%Z end.
Definition tenc (t : tree) : cid * list N := (tcid t, encode (tnode t)).
Definition tent (t : tree) : cid * (list N * Z) := (tcid t, (encode (tnode t), seq_of (tcid t))).
Definition dleaves (t : tree) : list cid := flat_map (fun e => match e with TLeaf _ v => [v] | TSub _ => [] end) (tentries t).
Definition kids (t : tree) : list tree := flat_map (fun e => match e with TLeaf _ _ => [] | TSub x => [x] end) (tentries t).
Definition late (t : tree) : bool := negb (seq_of (tcid t) <? start)%Z.

Lemma layer_ok n us : Forall (wf n) us ->
  load_layer start (map tent us) =
    Ok (map tenc (filter late us), flat_map dleaves (filter late us), map tcid (flat_map kids (filter late us))).
Proof.
  clear inj. induction us as [|t us IH]; intros F; [reflexivity|]. inversion F as [|? ? W F']; subst. cbn [map load_layer filter].
  unfold tent at 1. assert (LT : late t = negb (seq_of (tcid t) <? start)%Z) by reflexivity. rewrite LT. clear LT.
  destruct (seq_of (tcid t) <? start)%Z; cbn [negb]; [exact (IH F')|].
  rewrite decode_encode_lemma. destruct t as [es]. unfold MstTree.tnode at 1. rewrite ipld_ndata_ok. cbn [bind tentries].
  pose proof W as W0. apply wf_node in W0 as [NA FE]. pose proof (ser_ok digest kdigest n es NA FE) as S1.
  rewrite (deser_ser None _ _ S1). rewrite IH by auto. cbn [bind map flat_map]. rewrite map_app.
  assert (A : flat_map (fun e => match e with Leaf _ x => [x] | Sub _ => [] end) (map (lazy None) (map (pent digest) es)) = dleaves (Node es)).
  { unfold dleaves. cbn [tentries]. clear. induction es as [|[k v|t] es IH]; cbn [map flat_map]; auto. rewrite IH. reflexivity. }
  assert (B : flat_map (fun e => match e with Leaf _ _ => [] | Sub m => match m_pointer m with Some p => [p] | None => [] end end)
     (map (lazy None) (map (pent digest) es)) = map tcid (kids (Node es))).
  { unfold kids. cbn [tentries]. clear. induction es as [|[k v|t] es IH]; cbn [map flat_map]; auto. rewrite IH. reflexivity. }
  rewrite A, B. reflexivity.
Qed.

(** The nodes reached through nodes that are not too old. *)
Inductive reach : tree -> tree -> Prop :=
| reach_here t : (start <= seq_of (tcid t))%Z -> reach t t
| reach_in t x y : (start <= seq_of (tcid t))%Z -> In x (kids t) -> reach x y -> reach t y.

Lemma in_kids x t : In x (kids t) <-> In (TSub x) (tentries t).
Proof.
  clear. unfold kids. rewrite in_flat_map. split.
  - intros ([k v|y] & HI & HX); [destruct HX|]. destruct HX as [->|[]]. exact HI.
  - intros HI. exists (TSub x). split; auto. cbn. auto.
Qed.

Lemma in_dleaves v t : In v (dleaves t) <-> exists k, In (TLeaf k v) (tentries t).
Proof.
  clear. unfold dleaves. rewrite in_flat_map. split.
  - intros ([k w|y] & HI & HX); [|destruct HX]. destruct HX as [->|[]]. eauto.
  - intros (k & HI). exists (TLeaf k v). split; auto. cbn. auto.
Qed.

Lemma reach_subtree t x : reach t x -> subtree x t.
Proof.
  clear. induction 1 as [|[es] x y _ K _ IH]; [constructor|]. apply in_kids in K. econstructor; eauto.
Qed.

Lemma stored_read t : stored digest (rd st) t -> exists b, read st (tcid t) = Some b /\ b_val b = tnode t.
Proof.
  clear. intros H. inversion H as [es R _]; subst. unfold rd in R. rewrite dget_vals in R. unfold read.
  destruct (dget _ (s_blocks st)) as [b|] eqn:E; [|discriminate]. exists b. split; auto. cbn in R. congruence.
Qed.

Lemma raw_entries cids : (forall c, In c cids -> read st c <> None) ->
  exists d, read_many_raw be st [] cids = Ok d /\ NoDup (keys d) /\
    (forall c x, In (c, x) d <-> In c cids /\ exists b, read st c = Some b /\ x = (encode (b_val b), b_seq b)).
Proof.
  clear. intros H. destruct (read_many_raw_ok be st cids [] (fun _ => H)) as (d & E & G). exists d.
  assert (ND : NoDup (keys d)).
  { assert (X : forall cs acc d, NoDup (keys acc) -> read_many_raw be st acc cs = Ok d -> NoDup (keys d)).
    { clear. induction cs as [|c cs IH]; intros acc d ND E; cbn [read_many_raw] in E; [congruence|].
      destruct (read st c) as [b|].
      - apply IH in E; auto using dset_NoDup.
      - destruct be; [discriminate|eauto]. }
    apply (X cids [] d); auto. constructor. }
  splits; auto. intros c x. assert (IFF : In (c, x) d <-> dget c d = Some x).
  { split; [apply In_dget; auto|apply dget_In]. }
  rewrite IFF, G. destruct (mem_str c cids) eqn:M.
  - assert (HI : In c cids).
    { clear - M. induction cids as [|a l IH]; cbn in M; [discriminate|]. apply orb_true_iff in M as [M|M]; [apply str_eqb_eq in M|]; cbn; auto. }
    destruct (read st c) as [b|] eqn:R; [|exfalso; exact (H c HI R)]. split.
    + intros [= <-]. split; auto. exists b. auto.
    + intros (_ & b' & [= <-] & ->). reflexivity.
  - split; [discriminate|]. intros [HI _]. rewrite mem_str_true in M by auto. discriminate.
Qed.

Lemma layer_trees n ts : Forall (wf n) ts -> (forall t, In t ts -> stored digest (rd st) t) ->
  exists us, read_many_raw be st [] (map tcid ts) = Ok (map tent us) /\ Forall (wf n) us /\ (forall t, In t us <-> In t ts).
Proof.
  intros F H.
  destruct (raw_entries (map tcid ts)) as (d & E & ND & G).
  { intros c HI. apply in_map_iff in HI as (t & <- & HI). destruct (stored_read t (H t HI)) as (b & R & _). congruence. }
  rewrite Forall_forall in F.
  assert (X : exists us, d = map tent us /\ forall t, In t us -> In t ts).
  { assert (Y : forall c x, In (c, x) d -> exists t, In t ts /\ (c, x) = tent t).
    { intros c x HI. apply G in HI as (HC & b & R & ->). apply in_map_iff in HC as (t & <- & HT). exists t. split; auto.
      unfold tent, seq_of. destruct (stored_read t (H t HT)) as (b' & R' & V). rewrite R in *. injection R' as <-. rewrite V. reflexivity. }
    clear - Y. induction d as [|[c x] d IH]; [exists []; cbn; tauto|].
    destruct IH as (us & -> & IN); [intros; apply Y; cbn; auto|]. destruct (Y c x (or_introl eq_refl)) as (t & HT & ->).
    exists (t :: us). split; auto. intros t' [<-|HI]; auto. }
  destruct X as (us & -> & IN). exists us. splits; auto.
  - apply Forall_forall. auto.
  - intros t. split; auto. intros HT. destruct (stored_read t (H t HT)) as (b & R & V).
    assert (Z : In (tcid t, (encode (b_val b), b_seq b)) (map tent us)) by (apply G; split; [apply in_map; auto|eauto]).
    apply in_map_iff in Z as (u & Eu & HU). injection Eu as EC _ _. rewrite <- (tcid_inj digest kdigest inj n u n t); auto.
Qed.

Lemma load_nodes_ok n : forall fuel ts, n < fuel -> Forall (wf n) ts -> (forall t, In t ts -> stored digest (rd st) t) ->
  exists rs, load_nodes be fuel st start (map tcid ts) = Ok (map tenc rs, flat_map dleaves rs) /\
    forall x, In x rs <-> exists t, In t ts /\ reach t x.
Proof.
  induction n as [|n IH]; intros fuel ts LT F H; (destruct fuel as [|fuel]; [lia|]);
    (destruct ts as [|t0 ts0]; [exists []; split; [reflexivity|]; intros x; split; [intros []|intros (t & [] & _)]|]);
    cbn [load_nodes map]; change (tcid t0 :: map tcid ts0) with (map tcid (t0 :: ts0)); set (ts := t0 :: ts0) in *; clearbody ts;
    destruct (layer_trees _ ts F H) as (us & E & FU & IN); rewrite E; cbn [bind]; rewrite (layer_ok _ us FU); cbn [bind].
  - assert (NK : flat_map kids (filter late us) = []).
    { rewrite Forall_forall in FU. assert (X : forall x, ~ In x (flat_map kids (filter late us))).
      { intros x HX. apply in_flat_map in HX as ([es] & HT & HX). apply filter_In in HT as [HT _]. apply in_kids in HX.
        specialize (FU _ HT). apply wf_node in FU as [_ FE]. rewrite Forall_forall in FE. exact (FE _ HX). }
      destruct (flat_map kids (filter late us)) as [|x l]; auto. exfalso. apply (X x). cbn; auto. }
    rewrite NK. destruct fuel; cbn [map load_nodes bind fst snd]; rewrite !app_nil_r; exists (filter late us); (split; [reflexivity|]);
    intros x; rewrite filter_In, IN; unfold late; (split;
      [intros [HT L]; exists x; split; auto; constructor; lia|]);
    intros (t & HT & R); (inversion R as [? L|? y ? L K _]; subst; [split; auto; lia|]);
    exfalso; assert (XI : In y (flat_map kids (filter late us))) by
      (apply in_flat_map; exists t; split; auto; apply filter_In; split; [apply IN; auto|unfold late; lia]); rewrite NK in XI; destruct XI.
  - destruct (IH fuel (flat_map kids (filter late us)) ltac:(lia)) as (rs & EL & RS).
    + rewrite Forall_forall in FU. apply Forall_forall. intros x HX. apply in_flat_map in HX as ([es] & HT & HX). apply filter_In in HT as [HT _]. apply in_kids in HX.
      specialize (FU _ HT). apply wf_node in FU as [_ FE]. rewrite Forall_forall in FE. destruct (FE _ HX). auto.
    + intros x HX. apply in_flat_map in HX as ([es] & HT & HX). apply filter_In in HT as [HT _]. apply in_kids in HX.
      eapply stored_subtree; [|apply H, IN, HT]. econstructor; [exact HX|constructor].
    + rewrite EL. cbn [bind fst snd]. exists (filter late us ++ rs). rewrite map_app, flat_map_app. split; [reflexivity|].
      intros x. rewrite in_app_iff, filter_In, RS, IN. unfold late at 1. split.
      * intros [[HT L]|(t & HT & R)]; [exists x; split; auto; constructor; lia|].
        apply in_flat_map in HT as (t' & HT' & K). apply filter_In in HT' as [HT' L]. unfold late in L. exists t'. split; [apply IN; auto|].
        econstructor; eauto. lia.
      * intros (t & HT & R). inversion R as [? L|? y ? L K R']; subst; [left; split; auto; lia|]. right. exists y. split; auto.
        apply in_flat_map. exists t. split; auto. apply filter_In. split; [apply IN; auto|unfold late; lia].
Qed.

(** Every node that is not too old is reached, as nodes are not older than what is below them. *)
Lemma reach_late n t : ordered digest kdigest (s_blocks st) -> wf n t -> read st (tcid t) <> None ->
  forall x, subtree x t -> (start <= seq_of (tcid x))%Z -> reach t x.
Proof.
  clear inj. intros O W R x HX. revert n W R. induction HX as [t|x t es HI HX IH]; intros n W R L; [constructor; auto|].
  destruct (read st (tcid (Node es))) as [b|] eqn:RB; [|congruence].
  destruct (O n (Node es) b W RB) as [A _].
  assert (GE : forall y, subtree y (Node es) -> read st (tcid y) <> None /\ (seq_of (tcid y) <= seq_of (tcid (Node es)))%Z).
  { intros y HY. destruct (A y HY) as (b' & D & LE). unfold seq_of. unfold read in *. rewrite D, RB. split; [discriminate|auto]. }
  pose proof W as W0. apply wf_node in W0 as [_ FE]. rewrite Forall_forall in FE. specialize (FE _ HI). destruct n as [|n]; [destruct FE|]. destruct FE as [WT _].
  apply reach_in with t.
  - destruct (GE x) as [_ Q]; [econstructor; eauto|]. lia.
  - apply in_kids. exact HI.
  - apply (IH n); auto. apply GE. econstructor; [exact HI|constructor].
Qed.

Lemma leaf_node t : forall k v, In (k, v) (leaves t) -> exists x, subtree x t /\ In (TLeaf k v) (tentries x).
Proof.
  clear. induction t as [es IH] using tree_ind'. intros k v HI. rewrite leaves_node in HI. unfold L in HI. apply in_flat_map in HI as (e & HE & HI).
  destruct e as [k' v'|t].
  - destruct HI as [[= -> ->]|[]]. exists (Node es). split; [constructor|exact HE].
  - destruct (IH t HE k v HI) as (x & HX & HL). exists x. split; auto. econstructor; eauto.
Qed.

Lemma node_leaf x k v : In (TLeaf k v) (tentries x) -> In (k, v) (leaves x).
Proof. clear. destruct x as [es]. intros H. rewrite leaves_node. unfold L. apply in_flat_map. exists (TLeaf k v). split; auto. cbn. auto. Qed.

End Load.

(** ** Nodes of a stored tree *)

Section Nodes.
Variable digest : list N -> list N.
Variable kdigest : str -> list N.
Notation tcid := (tcid digest).
Notation tnode := (tnode digest).
Notation wf := (wf kdigest).

Lemma deser_link d layer c : (nd_l d = Some c \/ exists e, In e (nd_e d) /\ ed_t e = Some c) <->
  exists l, In (Sub (Mst None (Some c) l false)) (deserialize_node_data d layer).
Proof.
  unfold deserialize_node_data. set (ch := match layer with Some l => _ | None => None end). clearbody ch.
  assert (X : forall es last, (exists e, In e es /\ ed_t e = Some c) <-> exists l, In (Sub (Mst None (Some c) l false)) (deser_entries ch last es)).
  { induction es as [|e es IH]; intros last; cbn [deser_entries].
    - split; [intros (e & [] & _)|intros (l & [])].
    - specialize (IH (firstn (ed_p e) last ++ ed_k e)). split.
      + intros (e' & [<-|HI] & E).
        * exists ch. rewrite E. cbn. auto.
        * destruct (proj1 IH) as (l & HL); [eauto|]. exists l. right. apply in_or_app. auto.
      + intros (l & [X|HI]); [discriminate|]. apply in_app_or in HI as [HI|HI].
        * exists e. split; [cbn; auto|]. destruct (ed_t e); [|destruct HI]. destruct HI as [[= -> _]|[]]. reflexivity.
        * destruct (proj2 IH) as (e' & HE & E); [eauto|]. exists e'. split; [cbn; auto|exact E]. }
  specialize (X (nd_e d) []). split.
  - intros [E|E]; [exists ch; rewrite E; cbn; auto|]. destruct (proj1 X E) as (l & HL). exists l. apply in_or_app. auto.
  - intros (l & HI). apply in_app_or in HI as [HI|HI]; [left|right; apply X; eauto].
    destruct (nd_l d); [|destruct HI]. destruct HI as [[= -> _]|[]]. reflexivity.
Qed.

Lemma node_links n es d c : wf n (Node es) -> ipld_ndata (tnode (Node es)) = Ok d ->
  ((nd_l d = Some c \/ exists e, In e (nd_e d) /\ ed_t e = Some c) <-> exists x, In (TSub x) es /\ c = tcid x).
Proof.
  intros W D. unfold MstTree.tnode in D. rewrite ipld_ndata_ok in D. injection D as <-. cbn [tentries].
  apply wf_node in W as [NA F]. rewrite (deser_link _ None), (deser_ser None _ _ (ser_ok digest kdigest n es NA F)). split.
  - intros (l & HI). apply in_map_iff in HI as (p & E & HI). apply in_map_iff in HI as (e & <- & HI).
    destruct e as [k v|x]; [discriminate|]. injection E as <- _. eauto.
  - intros (x & HI & ->). eexists. apply in_map_iff. exists (pent digest (TSub x)). split; [reflexivity|]. apply in_map. exact HI.
Qed.

Lemma node_of_subtree rd n t c : wf n t -> stored digest rd t -> (node_of rd (tcid t) c <-> exists x, subtree x t /\ c = tcid x).
Proof.
  intros W ST. split.
  - induction 1 as [|p v d c N IH R D LK]; [exists t; split; auto; constructor|]. destruct IH as ([es] & HX & ->).
    pose proof (stored_subtree _ _ _ _ HX ST) as SX. inversion SX as [? RX _]; subst. rewrite R in RX. injection RX as ->.
    destruct (wf_subtree kdigest _ _ HX n W) as (m & _ & WX). apply (node_links m es d c WX D) in LK as (x & HI & ->).
    exists x. split; auto. eapply subtree_trans; [|exact HX]. econstructor; [exact HI|constructor].
  - intros (x & HX & ->). revert n W ST.
    assert (G : forall t0 root, node_of rd root (tcid t0) -> forall n, wf n t0 -> stored digest rd t0 -> subtree x t0 -> node_of rd root (tcid x)).
    { intros t0 root N n W ST HS. revert root N n W ST. clear HX. induction HS as [|x t1 es HI HS IH]; intros root N n W ST; auto.
      inversion ST as [? R S']; subst. pose proof W as W0. apply wf_node in W0 as [_ F]. rewrite Forall_forall in F. pose proof (F _ HI) as FE.
      destruct n as [|n]; [destruct FE|]. destruct FE as [W1 _]. eapply IH; eauto.
      pose proof (ipld_ndata_ok (ser (map (pent digest) es))) as D.
      eapply (node_child rd root); [exact N|exact R|exact D|]. apply (node_links (S n) es _ (tcid t1) W D). eauto. }
    intros n W ST. eapply (G t); eauto. constructor.
Qed.

Lemma spath_subtree key t : forall x, In x (spath key t) -> subtree x t.
Proof.
  clear. induction t as [es IH] using tree_ind'. intros x. rewrite spath_node. intros [<-|HI]; [constructor|].
  assert (G : forall l c, (forall t0, In (TSub t0) l -> In (TSub t0) es) -> (forall y, In y c -> subtree y (Node es)) ->
    forall y, In y (spath_go key l c) -> subtree y (Node es)).
  { induction l as [|[k v|t0] l IHl]; intros c HL HC y HY; cbn [spath_go] in HY; auto.
    - destruct (str_eqb key k); [destruct HY|]. destruct (str_ltb key k); [auto|].
      eapply IHl; [| |exact HY]; [intros; apply HL; cbn; auto|intros z []].
    - eapply IHl; [| |exact HY]; [intros; apply HL; cbn; auto|]. intros z HZ. econstructor; [apply HL; cbn; auto|]. apply IH; auto. apply HL. cbn. auto. }
  eapply (G es []); eauto. intros y [].
Qed.
End Nodes.

(** ** The export *)

Section Export.
Variable digest : list N -> list N.
Variable kdigest : str -> list N.
Variable validate : ipld -> res unit.
Variable ecdsa : N -> Z -> list N -> list N.
Variable now : Z -> str.
Variable cb : nat -> option exn.
Variable be : backend.
Variable netloc_ok : str -> bool.
Variable cfg : config.
Notation rcid := (rcid digest).
Notation tcid := (tcid digest).
Notation tnode := (tnode digest).
Notation wf := (wf kdigest).
Notation inv := (inv digest kdigest validate ecdsa be).
Notation names := (names be netloc_ok).
Notation serves := (serves digest kdigest validate ecdsa now cb be netloc_ok cfg).
Notation found := (found digest kdigest validate ecdsa now be netloc_ok).
Notation ordered := (ordered digest kdigest).
Notation block_of := (block_of digest).
Notation readable := (readable digest kdigest).
Notation genuine := (genuine digest).
Hypothesis SET : setting digest kdigest validate cb.

Lemma serves_ordered w bk : serves w bk -> ordered (s_blocks (w_state w)).
Proof.
  induction 1 as [|w bk op w' out H IH ON CL E|w bk q st' out H IH LIM E].
  - intros n t b W D. discriminate D.
  - destruct (serves_inv digest kdigest validate ecdsa now cb be netloc_ok cfg SET _ _ H) as [I ST].
    pose proof (step_eff digest kdigest validate ecdsa now cb be SET _ _ _ _ _ I ON E) as X.
    eapply effect_ordered; eauto.
  - destruct (serves_inv digest kdigest validate ecdsa now cb be netloc_ok cfg SET _ _ H) as [I ST].
    destruct (serve_outcome digest kdigest validate ecdsa now cb be netloc_ok cfg SET _ (w_refs w) _ _ _ _ I ST LIM E) as [(extra & SS) _]. cbn [w_state].
    revert SS IH. apply (steps_keep digest kdigest validate ecdsa now be (fun st _ => ordered (s_blocks st))).
    intros. eapply effect_ordered; eauto.
Qed.

(** The tree of a commit. *)
Definition tree_at (st : state) (n : nat) (t : tree) (root : cid) (recs : records) : Prop :=
  rep digest (rd st) n (mst_load root) t /\ wf n t /\ sorted_tree t /\ n <= 128 /\ stored digest (rd st) t /\ tcid t = root /\
  (forall k, dget k (leaves t) = option_map rcid (dget k recs)) /\ recs_stored digest (s_blocks st) recs.

Lemma chain_tree st did key h root recs : chain digest kdigest validate ecdsa (s_blocks st) did key h root recs -> exists n t, tree_at st n t root recs.
Proof.
  intros CH. pose proof (chain_stored _ _ _ _ _ _ _ _ _ _ CH) as RS. apply chain_snapshot in CH.
  destruct CH as (n & t & R & W & Srt & LE & ST & RT & SM & ND). exists n, t. unfold tree_at. splits; auto.
  intros k. rewrite SM. apply dget_cids_of.
Qed.

Lemma tree_leaf st n t root recs k v : tree_at st n t root recs -> In (k, v) (leaves t) ->
  exists x b, dget k recs = Some x /\ v = rcid x /\ read st v = Some b /\ b_val b = norm x.
Proof.
  clear. intros (_ & _ & Srt & _ & _ & _ & SM & RS) HI. apply In_dget in HI; [|apply ssorted_NoDup; exact Srt]. rewrite SM in HI.
  destruct (dget k recs) as [x|] eqn:E; [|discriminate]. cbn in HI. injection HI as <-. pose proof (RS _ _ E) as R. rewrite dget_vals in R.
  unfold read. destruct (dget _ (s_blocks st)) as [b|]; [|discriminate]. cbn in R. injection R as R. exists x, b. auto.
Qed.

Lemma tree_record st n t root recs k x : tree_at st n t root recs -> dget k recs = Some x -> In (k, rcid x) (leaves t).
Proof. clear. intros (_ & _ & _ & _ & _ & _ & SM & _) E. apply dget_In. rewrite SM, E. reflexivity. Qed.

Lemma tree_node_of st n t root recs c : tree_at st n t root recs -> (node_of (rd st) root c <-> exists x, subtree x t /\ c = tcid x).
Proof. clear. intros (_ & W & _ & _ & ST & RT & _). rewrite <- RT. eapply node_of_subtree; eauto. Qed.

Lemma load_all_ok st m n t root recs start : ordered (s_blocks st) -> get_pointer digest m = Ok root -> tree_at st n t root recs ->
  exists bl, load_all digest be st m start = Ok bl /\
    (forall c data, In (c, data) bl -> exists b, read st c = Some b /\ data = encode (b_val b) /\
       (node_of (rd st) root c \/ exists path v, dget path recs = Some v /\ c = rcid v)) /\
    (forall c b, read st c = Some b -> (start <= b_seq b)%Z ->
       node_of (rd st) root c \/ (exists path v, dget path recs = Some v /\ c = rcid v) -> In c (keys bl)).
Proof.
  intros O P T. pose proof T as (R & W & Srt & LE & ST & RT & SM & RS). pose proof md as MD.
  destruct (load_nodes_ok digest kdigest be st start (s_inj _ _ _ _ SET) n max_depth [t]) as (rs & E & IN);
    [lia|constructor; auto|intros x [<-|[]]; auto|].
  cbn [map] in E. rewrite RT in E.
  assert (RI : forall x, In x rs <-> reach digest st start t x).
  { intros x. rewrite IN. split; [intros (t' & [<-|[]] & H); exact H|intros H; exists t; cbn; auto]. }
  assert (LV : forall v, In v (flat_map dleaves rs) -> exists k, In (k, v) (leaves t)).
  { intros v HI. apply in_flat_map in HI as (x & HX & HV). apply RI, reach_subtree in HX. apply in_dleaves in HV as (k & HK). exists k.
    eapply StoreProofs.subtree_leaves; [exact HX|]. apply node_leaf. exact HK. }
  destruct (raw_entries be st (flat_map dleaves rs)) as (d & ED & ND & GD).
  { intros v HV. apply LV in HV as (k & HK). destruct (tree_leaf _ _ _ _ _ _ _ T HK) as (x & b & _ & _ & RB & _). congruence. }
  exists (map (tenc digest) rs ++ map (fun kv => (fst kv, fst (snd kv))) d).
  unfold load_all. rewrite P. cbn [bind]. rewrite E. cbn [bind fst snd]. rewrite ED. cbn [bind]. splits; [reflexivity| |].
  - intros c data HI. apply in_app_or in HI as [HI|HI].
    + apply in_map_iff in HI as (x & EX & HX). injection EX as <- <-. apply RI, reach_subtree in HX.
      destruct (stored_read digest st x (stored_subtree _ _ _ _ HX ST)) as (b & RB & VB). exists b. rewrite VB. splits; auto.
      left. apply (tree_node_of _ _ _ _ _ _ T). eauto.
    + apply in_map_iff in HI as ([c' x] & EX & HX). cbn [fst snd] in EX. injection EX as -> <-. apply GD in HX as (HV & b & RB & ->).
      exists b. splits; auto. right. apply LV in HV as (k & HK). destruct (tree_leaf _ _ _ _ _ _ _ T HK) as (x & _ & D & -> & _). eauto.
  - intros c b RB LB OF. unfold keys. rewrite map_app, !map_map. cbn [fst]. apply in_or_app. destruct OF as [NO|(path & v & D & ->)].
    + left. apply (tree_node_of _ _ _ _ _ _ T) in NO as (x & HX & ->). apply in_map_iff. exists x. split; [reflexivity|]. apply RI.
      eapply reach_late; eauto.
      * rewrite RT. destruct (stored_read digest st t ST) as (b' & RB' & _). rewrite RT in RB'. congruence.
      * unfold seq_of. rewrite RB. exact LB.
    + right. pose proof (tree_record _ _ _ _ _ _ _ T D) as HL. destruct (leaf_node t _ _ HL) as (x & HX & HK).
      assert (HV : In (rcid v) (flat_map dleaves rs)).
      { apply in_flat_map. exists x. split; [|apply in_dleaves; eauto]. apply RI. eapply reach_late; eauto.
        - destruct (stored_read digest st t ST) as (b' & RB' & _). congruence.
        - destruct (wf_subtree kdigest _ _ HX n W) as (n' & _ & WX). destruct (stored_read digest st x (stored_subtree _ _ _ _ HX ST)) as (bx & RX & _).
          destruct (O n' x bx WX RX) as [_ OL]. destruct (OL path (rcid v)) as (b2 & D2 & Q2); [apply node_leaf; exact HK|].
          unfold seq_of. rewrite RX. unfold read in RB. rewrite RB in D2. injection D2 as <-. lia. }
      apply in_map_iff. exists (rcid v, (encode (b_val b), b_seq b)). split; [reflexivity|]. apply GD. split; auto. eauto.
Qed.

(** ** Readers *)

Lemma car_reader_genuine st bl c b : genuine st bl -> read st c = Some b -> In c (keys bl) -> car_reader bl c = Some (b_val b).
Proof.
  clear. intros G R HI. unfold car_reader. destruct (dget c bl) as [data|] eqn:D.
  - apply dget_In in D. destruct (G _ _ D) as (b' & R' & -> & _). rewrite R in R'. injection R' as <-. apply decode_encode_lemma.
  - apply dget_None in D. contradiction.
Qed.

Lemma car_reader_some st bl c v : genuine st bl -> car_reader bl c = Some v -> exists b, read st c = Some b /\ b_val b = v.
Proof.
  clear. intros G. unfold car_reader. destruct (dget c bl) as [data|] eqn:D; [|discriminate]. apply dget_In in D.
  destruct (G _ _ D) as (b & R & -> & _). rewrite decode_encode_lemma. intros [= <-]. eauto.
Qed.

(** A reader that has the blocks of the repo reads it. *)
Lemma readable_all st rd' n t h root recs : tree_at st n t root recs -> read st (b_cid h) = Some h ->
  (forall c b, block_of st h root recs c -> read st c = Some b -> rd' c = Some (b_val b)) -> readable rd' h root recs.
Proof.
  intros T RH ALL. pose proof T as (R & W & Srt & LE & ST & RT & SM & RS). pose proof md as MD. split; [|split].
  - apply ALL; [left|]; auto.
  - intros path. unfold mst_load. rewrite <- RT. unfold mst_load in R. rewrite <- RT in R.
    rewrite (get_path digest kdigest (rd st) rd' path n max_depth None t R W Srt).
    + rewrite <- SM. apply (get_ok digest kdigest (rd st) n); auto. lia.
    + intros x HX. assert (SX : subtree x t) by (eapply spath_subtree; eauto).
      destruct (stored_read digest st x (stored_subtree _ _ _ _ SX ST)) as (b & RB & <-). apply ALL; auto. right. left.
      apply (tree_node_of _ _ _ _ _ _ T). eauto.
  - intros path v D. pose proof (tree_record _ _ _ _ _ _ _ T D) as HL. destruct (tree_leaf _ _ _ _ _ _ _ T HL) as (x & b & D' & _ & RB & VB).
    rewrite D in D'. injection D' as <-. rewrite <- VB. apply ALL; auto. right. right. eauto.
Qed.
End Export.
