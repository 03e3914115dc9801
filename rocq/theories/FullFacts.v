(** What the trees of a server give. *)
From Coq Require Import String List NArith ZArith Bool Lia.
From Verif Require Import Base Lists Ipld MstModel MstTree MstRep MstTrav MstHist BlockModel StorageModel StorageSpec StoreProofs RepoSpec RepoProofs EventsModel AnySpec IsolateProofs ChainProofs MessageSpec WholeSpec WholeProofs FullSpec FullProofs.
Import ListNotations.
Local Open Scope m_scope.

Section Facts.
Variable digest : list N -> list N.
Variable kdigest : str -> list N.
Variable validate : ipld -> res unit.
Variable ecdsa : N -> Z -> list N -> list N.
Variable now : Z -> str.
Variable cb : nat -> option exn.
Hypothesis inj : forall a b, digest a = digest b -> a = b.
Hypothesis plains : forall v, validate v = Ok tt -> plain v.
Hypothesis klen : forall k, length (kdigest k) = 32.
Notation rdv bl := (fun c : str => dget c (vals bl)).
Notation V := (WholeProofs.V digest kdigest).

Lemma rep_readable rd n m t : rep digest rd n m t -> MstTree.wf kdigest n t -> sorted_tree t -> n <= 128 -> readable kdigest rd m (leaves t).
Proof.
  intros R W S L. pose proof md as MD. split; [eapply leaves_ok; [|exact R|exact W]; lia|]. split; [exact S|]. intros k. eapply get_ok; [|exact R|exact W|exact S]. lia.
Qed.
Lemma healthy_readable bl m : healthy digest kdigest bl m -> exists lv, readable kdigest (rdv bl) m lv.
Proof. intros (n & t & R & W & S & L). exists (leaves t). eapply rep_readable; eauto. Qed.
Lemma rooted_readable bl v : rooted digest kdigest bl v -> exists root lv, item_link (s "data") v = Ok root /\ readable kdigest (rdv bl) (mst_load root) lv.
Proof.
  intros (m & root & -> & D & WH). destruct (healthy_readable bl _ (healthy_load digest kdigest cb bl root WH)) as [lv R]. exists root, lv. split; [|exact R]. unfold item_link, item. rewrite D. reflexivity.
Qed.
Lemma seen_V be st x o : V st -> seen be st x = Some o -> okobj digest kdigest (s_blocks st) o.
Proof.
  intros HV. unfold seen. destruct (calm_load digest kdigest cb be inj (s_blocks st) x st HV eq_refl) as (EB & V1 & _). destruct (load_repo be x st) as [st1 [[r|]|e]]; try discriminate. cbn [fst] in *.
  intros E. rewrite <- EB. exact (v_objs _ _ _ V1 r o E).
Qed.
Lemma trees_readable be l x o : Forall (act_ok digest) l -> Forall (whole_import digest kdigest) l ->
  let st := w_state (arun digest kdigest validate ecdsa now cb be init_world l) in
  seen be st x = Some o ->
  (exists lv, readable kdigest (rd st) (r_mst o) lv) /\
  forall h, r_head o = Some h -> exists b root lv, read st (b_cid h) = Some b /\ b_val b = b_val h /\ item_link (s "data") (b_val h) = Ok root /\ readable kdigest (rd st) (mst_load root) lv.
Proof.
  intros F1 F2 st HS. pose proof (arun_V digest kdigest validate ecdsa now cb be inj plains klen l init_world (init_V digest kdigest) F1 F2) as HV. change (V st) in HV.
  destruct (seen_V be st x o HV HS) as [HH HD]. split; [exact (healthy_readable _ _ HH)|]. intros h E. destruct (HD h E) as (RO & b & D & EV). destruct (rooted_readable _ _ RO) as (root & lv & IL & R).
  exists b, root, lv. auto.
Qed.
Lemma commits_readable be l c b : Forall (act_ok digest) l -> Forall (whole_import digest kdigest) l ->
  let st := w_state (arun digest kdigest validate ecdsa now cb be init_world l) in
  read st c = Some b -> b_seq b <> 0%Z -> commit_keys (b_val b) = true ->
  (exists root lv, item_link (s "data") (b_val b) = Ok root /\ readable kdigest (rd st) (mst_load root) lv) /\
  forall p, item (s "prev") (b_val b) = Ok (ILink p) -> exists b' root lv, read st p = Some b' /\ item_link (s "data") (b_val b') = Ok root /\ readable kdigest (rd st) (mst_load root) lv.
Proof.
  intros F1 F2 st RD NS CK. pose proof (arun_V digest kdigest validate ecdsa now cb be inj plains klen l init_world (init_V digest kdigest) F1 F2) as HV. change (V st) in HV.
  destruct (v_log _ _ _ HV c b RD NS CK) as (_ & RO & OP). split; [exact (rooted_readable _ _ RO)|]. intros p E. destruct (OP p E) as (b' & D & RO'). destruct (rooted_readable _ _ RO') as (root & lv & IL & R).
  exists b', root, lv. auto.
Qed.

Lemma whole_named bl root lv : whole digest kdigest bl root -> filled digest kdigest (rdv bl) -> readable kdigest (rdv bl) (mst_load root) lv -> forall k c, In (k, c) lv -> dget c bl <> None.
Proof.
  intros WH HF (RL & _ & _) k c HI. destruct WH as (n & t & W & S & L & ST & ->). destruct (load_any digest kdigest (rdv bl) n t W ST) as (n' & LE & W' & R & _).
  destruct (rep_readable _ _ _ _ R W' S ltac:(lia)) as (RL' & _). rewrite RL in RL'. injection RL' as ->. assert (X : dget c (vals bl) <> None).
  { apply (HF n t W) with (k := k); [|exact HI]. inversion ST as [es H _]; subst. rewrite H. discriminate. }
  intros Y. apply X. rewrite dget_vals, Y. reflexivity.
Qed.
Lemma arun_filled l : Forall (act_ok digest) l -> Forall (whole_import digest kdigest) l -> Forall full_import l ->
  let st := w_state (arun digest kdigest validate ecdsa now cb Datastore init_world l) in V st /\ filled digest kdigest (rd st).
Proof. intros F1 F2 F3. exact (arun_full digest kdigest validate ecdsa now cb inj plains klen l init_world (init_full digest kdigest) F1 F2 F3). Qed.
Lemma cid_nonempty v : nonempty (cid_of digest v) = true.
Proof. reflexivity. Qed.
Lemma records_stored l x o : Forall (act_ok digest) l -> Forall (whole_import digest kdigest) l -> Forall full_import l ->
  let st := w_state (arun digest kdigest validate ecdsa now cb Datastore init_world l) in
  seen Datastore st x = Some o ->
  exists lv, readable kdigest (rd st) (r_mst o) lv /\ (forall k c, In (k, c) lv -> exists b, read st c = Some b) /\
  forall coll rkey, get_record kdigest st o coll rkey = Ok (match dget (coll ++ 47%N :: rkey) lv with Some c => rd st c | None => None end) /\
    (get_record kdigest st o coll rkey = Ok None <-> dget (coll ++ 47%N :: rkey) lv = None).
Proof.
  intros F1 F2 F3 st HS. destruct (arun_filled l F1 F2 F3) as [HV HF]. fold st in HV, HF.
  assert (X : exists root, r_mst o = mst_load root /\ whole digest kdigest (s_blocks st) root).
  { unfold seen in HS. pose proof (load_fresh digest kdigest x st HV) as L. destruct (load_repo Datastore x st) as [st1 [[r|]|e]]; try discriminate HS. destruct L as (EB & o' & root & E & EM & WH).
    rewrite E in HS. injection HS as <-. eauto. }
  destruct X as (root & EM & WH). destruct (healthy_readable (s_blocks st) _ (healthy_load digest kdigest cb _ root WH)) as [lv R]. rewrite EM.
  assert (ST : forall k c, In (k, c) lv -> exists b, read st c = Some b).
  { intros k c HI. pose proof (whole_named (s_blocks st) root lv WH HF R k c HI) as N0. unfold read. destruct (dget c (s_blocks st)) as [b|]; [eauto|exfalso; apply N0; reflexivity]. }
  exists lv. split; [exact R|]. split; [exact ST|]. intros coll rkey. destruct R as (_ & _ & G).
  assert (GR : get_record kdigest st o coll rkey = Ok (match dget (coll ++ 47%N :: rkey) lv with Some c => rd st c | None => None end)).
  { unfold get_record. rewrite EM. change (rd st) with (rdv (s_blocks st)) at 1. rewrite G. cbn [bind]. destruct (dget (coll ++ 47%N :: rkey) lv) as [c|] eqn:D; [|reflexivity].
    apply dget_In in D. destruct (ST _ _ D) as [b RB]. destruct (v_wf _ _ _ HV c b RB) as [EC BW]. unfold IsolateProofs.wf in BW. rewrite <- EC, BW at 1. rewrite cid_nonempty, RB.
    unfold rd. rewrite dget_vals. unfold read in RB. rewrite RB. reflexivity. }
  split; [exact GR|]. rewrite GR. destruct (dget (coll ++ 47%N :: rkey) lv) as [c|] eqn:D; [|split; reflexivity]. apply dget_In in D. destruct (ST _ _ D) as [b RB].
  unfold rd. rewrite dget_vals. unfold read in RB. rewrite RB. split; discriminate.
Qed.
Lemma commit_records l c b : Forall (act_ok digest) l -> Forall (whole_import digest kdigest) l -> Forall full_import l ->
  let st := w_state (arun digest kdigest validate ecdsa now cb Datastore init_world l) in
  read st c = Some b -> b_seq b <> 0%Z -> commit_keys (b_val b) = true ->
  exists root lv, item_link (s "data") (b_val b) = Ok root /\ readable kdigest (rd st) (mst_load root) lv /\ forall k c', In (k, c') lv -> exists b', read st c' = Some b'.
Proof.
  intros F1 F2 F3 st RD NS CK. destruct (arun_filled l F1 F2 F3) as [HV HF]. fold st in HV, HF.
  destruct (v_log _ _ _ HV c b RD NS CK) as (_ & (m & root & EV & D & WH) & _). destruct (healthy_readable (s_blocks st) _ (healthy_load digest kdigest cb _ root WH)) as [lv R].
  exists root, lv. split; [unfold item_link, item; rewrite EV, D; reflexivity|]. split; [exact R|]. intros k c' HI. pose proof (whole_named (s_blocks st) root lv WH HF R k c' HI) as N0.
  unfold read. destruct (dget c' (s_blocks st)) as [b'|]; [eauto|exfalso; apply N0; reflexivity].
Qed.
End Facts.
