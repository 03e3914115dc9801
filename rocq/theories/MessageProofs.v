(** Proofs about firehose messages. *)
From Coq Require Import String List NArith ZArith Bool Lia.
From Verif Require Import Base Lists Ipld IpldProofs MstModel MstTree MstRep MstOps MstTrav MstClient MstSpec MstShape MstHist TidModel CarModel CarProofs
  StorageModel StorageSpec CommitProofs StoreProofs RepoSpec RepoProofs RepoHist RepoSteps RepoFacts
  EventsModel EventsSpec EventsProofs EventsHist EventsFacts DiffSpec CoverModel CoverSpec CoverProofs CoverFacts MessageModel MessageSpec.
Import ListNotations.

(** ** Keys stay distinct *)

Lemma dict_update_NoDup {V} (e d : list (str * V)) : NoDup (keys d) -> NoDup (keys (dict_update d e)).
Proof.
  unfold dict_update. revert d. induction e as [|[k v] e IH]; intros d H; cbn; auto. apply IH, dset_NoDup, H.
Qed.

Section Keys.
Variable st : state.
Lemma load_NoDup d cids : NoDup (keys d) -> NoDup (keys (cover_load st d cids)).
Proof. apply dict_update_NoDup. Qed.

Lemma descend_NoDup path : forall fuel d b d' l r, NoDup (keys d) -> cover_descend st fuel d path b = Ok (d', l, r) -> NoDup (keys d').
Proof.
  induction fuel as [|f IH]; intros d b d' l r H E; cbn [cover_descend] in E; [discriminate|].
  destruct (block_data b) as [x|]; cbn [bind] in E; [|discriminate].
  destruct (cover_scan _ _ _ _ _ _) as [[lc rc] cc]. destruct cc as [cc|].
  - eapply IH; [|exact E]. apply load_NoDup, H.
  - injection E as <- _ _. apply load_NoDup, H.
Qed.
Lemma left_NoDup : forall fuel d b d', NoDup (keys d) -> cover_left st fuel d b = Ok d' -> NoDup (keys d').
Proof.
  induction fuel as [|f IH]; intros d b d' H E; cbn [cover_left] in E; [discriminate|].
  destruct (block_data b) as [x|]; cbn [bind] in E; [|discriminate]. cbv zeta in E.
  match type of E with match ?y with _ => _ end = _ => destruct y as [n|] end.
  - eapply IH; [|exact E]. apply load_NoDup, H.
  - injection E as <-. exact H.
Qed.
Lemma right_NoDup : forall fuel d b d', NoDup (keys d) -> cover_right st fuel d b = Ok d' -> NoDup (keys d').
Proof.
  induction fuel as [|f IH]; intros d b d' H E; cbn [cover_right] in E; [discriminate|].
  destruct (block_data b) as [x|]; cbn [bind] in E; [|discriminate].
  destruct (nd_l x) as [n|].
  - eapply IH; [|exact E]. apply load_NoDup, H.
  - injection E as <-. exact H.
Qed.
Lemma cover_NoDup fuel root paths : forall d d', NoDup (keys d) -> cover_ops st fuel root d paths = Ok d' -> NoDup (keys d').
Proof.
  induction paths as [|p r IH]; intros d d' H E; cbn [cover_ops] in E; [injection E as <-; exact H|].
  destruct (cover_op st fuel root d p) as [d1|] eqn:E1; cbn [bind] in E; [|discriminate]. eapply IH; [|exact E]. clear IH E.
  unfold cover_op in E1. cbv zeta in E1.
  destruct (cover_descend _ _ _ _ _) as [[[d2 l] x]|] eqn:E2; cbn [bind] in E1; [|discriminate].
  apply descend_NoDup in E2; [|apply load_NoDup, H].
  assert (N3 : exists d3, NoDup (keys d3) /\ match x with None => Ok d3 | Some _ => cover_right st fuel d3 x end = Ok d1).
  { destruct l as [l|].
    - destruct (cover_left st fuel d2 (Some l)) as [d3|] eqn:E3; cbn [bind] in E1; [|discriminate].
      exists d3. split; auto. eapply left_NoDup; eauto.
    - exists d2. auto. }
  destruct N3 as (d3 & N3 & E3). destruct x as [x|]; [eapply right_NoDup; eauto|]. congruence.
Qed.
End Keys.

(** ** The CAR *)

Lemma car_blocks_ok d : (forall c ob, In (c, ob) d -> exists b, ob = Some b /\ b_cid b = c) ->
  exists l, car_blocks d = Ok l /\ keys l = keys d /\
    forall c, dget c l = match dget c d with Some (Some b) => Some (encode (b_val b)) | _ => None end.
Proof.
  induction d as [|[c ob] d IH]; intros H; cbn [car_blocks]; [exists []; auto|].
  destruct (H c ob (or_introl eq_refl)) as (b & -> & BC). destruct IH as (l & E & K & G).
  { intros c' ob' HI. apply (H c' ob'). right; auto. }
  rewrite E. cbn [bind]. eexists. split; [reflexivity|]. split; [cbn; unfold cid in *; rewrite BC; f_equal; exact K|].
  intros c'. cbn [dget fst snd]. unfold cid in *. rewrite BC. destruct (str_eqb c' c); auto.
Qed.

Section Message.
Variable digest : list N -> list N.
Variable kdigest : str -> list N.
Variable validate : ipld -> res unit.
Variable ecdsa : N -> Z -> list N -> list N.
Variable btime : block -> str.
Hypothesis dlen : forall x, length (digest x) = 32.

Notation chain := (chain digest kdigest validate ecdsa).

Lemma cover_car st n t ops blocks : let root := tcid digest t in
  rep digest (rd st) n (Mst None (Some root) None false) t -> wf kdigest n t -> sorted_tree t -> n <= 128 -> stored digest (rd st) t ->
  (forall c b, read st c = Some b -> b_cid b = c /\ c = cid_of digest (b_val b)) ->
  NoDup (keys blocks) -> (forall c b, dget c blocks = Some b -> read st c = Some b) ->
  exists out bl, add_covering_proofs st max_depth root (Some ops) (map (fun kb : cid * block => (fst kb, Some (snd kb))) blocks) = Ok out /\
    car_blocks out = Ok bl /\ NoDup (keys bl) /\
    (forall k x, In (k, x) bl -> exists b, read st k = Some b /\ x = encode (b_val b) /\ k = cid_of digest (b_val b)) /\
    (forall k b, dget k blocks = Some b -> dget k bl = Some (encode (b_val b))) /\
    (forall path, In path (map op_path ops) -> get kdigest (car_reader bl) max_depth (mst_load root) path = Ok (dget path (leaves t))).
Proof.
  intros root R W SO LE ST KS ND BS. pose proof md as MD.
  set (d := map (fun kb : cid * block => (fst kb, Some (snd kb))) blocks).
  assert (DG : forall c, dget c d = option_map Some (dget c blocks)).
  { intros c. unfold d. clear. induction blocks as [|[k b] r IH]; cbn; auto. destruct (str_eqb c k); auto. }
  assert (KD : keys d = keys blocks) by (unfold d, keys; rewrite map_map; reflexivity).
  assert (FS : from_storage st d).
  { intros c ob H. rewrite DG in H. destruct (dget c blocks) as [b|] eqn:E; cbn in H; [|discriminate]. injection H as <-.
    symmetry. auto. }
  destruct (tree_cover digest kdigest st n t ops d R W SO LE ST FS) as (out & E & (C1 & C2 & C3) & FO & _). fold root in E.
  assert (NO : NoDup (keys out)).
  { eapply (cover_NoDup st max_depth root (map op_path ops) d); [rewrite KD; exact ND|exact E]. }
  assert (VO : forall c ob, dget c out = Some ob -> exists b, ob = Some b /\ read st c = Some b).
  { intros c ob H. destruct (dget c d) as [ob'|] eqn:ED.
    - pose proof (C1 _ _ ED) as H'. rewrite H in H'. injection H' as <-. rewrite DG in ED.
      destruct (dget c blocks) as [b|] eqn:EB; cbn in ED; [|discriminate]. injection ED as <-. eauto.
    - destruct (C2 _ _ ED H) as (_ & b & -> & RB). eauto. }
  destruct (car_blocks_ok out) as (bl & EB & KB & GB).
  { intros c ob HI. apply In_dget in HI; auto. destruct (VO _ _ HI) as (b & -> & RB). exists b. split; auto. apply (KS _ _ RB). }
  exists out, bl. split; [exact E|]. split; [exact EB|]. split; [rewrite KB; exact NO|]. split; [|split].
  - intros k x HI. apply In_dget in HI; [|rewrite KB; exact NO]. rewrite GB in HI.
    destruct (dget k out) as [ob|] eqn:EO; [|discriminate]. destruct (VO _ _ EO) as (b & -> & RB). injection HI as <-.
    exists b. split; auto. split; auto. apply (KS _ _ RB).
  - intros k b H. rewrite GB. rewrite (C1 k (Some b)); auto. rewrite DG, H. reflexivity.
  - intros path HP. unfold mst_load, root.
    rewrite (get_path digest kdigest (rd st) (car_reader bl) path n max_depth None t R W SO).
    + apply (get_ok digest kdigest (rd st) n); auto. lia.
    + intros x HX. destruct (C3 path x HP HX) as (b & D & _ & VB). unfold car_reader. rewrite GB, D, VB. apply decode_encode_lemma.
Qed.


(** ** Ops *)

Definition op_fits (op : commit_op) : Prop :=
  match op_action op with
  | CREATE => (exists c, op_cid op = Some c) /\ op_prev op = None
  | UPDATE => (exists c, op_cid op = Some c) /\ exists p, op_prev op = Some p
  | DELETE => op_cid op = None /\ exists p, op_prev op = Some p
  end.

Lemma ops_fit ws : forall recs op, writes_allowed validate recs ws -> In op (commit_ops digest recs ws) -> op_fits op.
Proof.
  clear. induction ws as [|w ws IH]; intros recs op WA HI; [destruct HI|]. destruct WA as [A WA]. cbn [commit_ops] in HI.
  apply in_app_or in HI as [HI|HI]; [|eauto]. unfold write_ops, write_allowed in *. cbv zeta in *. unfold op_fits.
  destruct (w_action w), (w_record w) as [v|].
  - destruct HI as [<-|[]]. cbn. split; eauto.
  - destruct HI.
  - destruct (option_map _ _) as [c|]; [|destruct HI]. destruct (str_eqb c _); [destruct HI|]. destruct HI as [<-|[]]. cbn. split; eauto.
  - destruct HI.
  - destruct HI as [<-|[]]. cbn. destruct (dget _ recs); [cbn; split; eauto|congruence].
  - destruct HI as [<-|[]]. cbn. destruct (dget _ recs); [cbn; split; eauto|congruence].
Qed.

Lemma chain_ops_fit bl did key b root recs : chain bl did key b root recs ->
  exists ops, b_ops b = Some ops /\ forall op, In op ops -> op_fits op.
Proof.
  intros C. destruct C.
  - exists []. split; auto. intros op [].
  - eexists. split; [eassumption|]. intros op. eapply ops_fit; eauto.
Qed.

Lemma event_op_shown op : op_fits op -> op_shown op (event_op op).
Proof.
  destruct op as [a p c q]. unfold op_fits, op_shown, event_op. cbn [op_action op_path op_cid op_prev].
  intros H. eexists. split; [reflexivity|]. destruct a; cbn [app action_name].
  - destruct H as ((x & ->) & ->). cbn. splits; auto. eauto.
  - destruct H as ((x & ->) & (y & ->)). cbn. splits; auto; eauto.
  - destruct H as (-> & (y & ->)). cbn. splits; auto; eauto.
Qed.

(** ** The message *)

Lemma commit_of_items b did key prev root : commit_of ecdsa b did key prev root ->
  item_link (s "data") (b_val b) = Ok root /\ item (s "did") (b_val b) = Ok (IText did) /\
  item (s "prev") (b_val b) = Ok (link_opt prev) /\
  (exists m, b_val b = IMap m /\ dget (s "data") m = Some (ILink root)) /\
  exists rev, item_text (s "rev") (b_val b) = Ok rev /\ int_to_tid (b_seq b) 0 = Ok rev.
Proof.
  clear. intros (rev & A & _ & ->). destruct prev; splits; try reflexivity; eexists; (split; [reflexivity|]); first [exact A|reflexivity].
Qed.

Lemma message_ok st did key c root recs prev bp blocks pre cdp :
  (forall c b, read st c = Some b -> b_cid b = c /\ c = cid_of digest (b_val b)) ->
  chain (s_blocks st) did key c root recs -> commit_of ecdsa c did key prev root -> is_item_commit st c ->
  (match bp with
   | Some p => prev = Some (b_cid p) /\ read st (b_cid p) = Some p /\ exists k q r, commit_of ecdsa p did k q r
   | None => prev = None
   end) ->
  (pre = None \/ pre = bp) -> commit_blocks st c blocks ->
  exists header payload, process_event btime st (ECommit (CommitData c blocks cdp)) pre = Ok (header, payload) /\
    commit_message digest kdigest st did bp c recs header payload.
Proof.
  intros KS CH CO IC BP PRE (NB & BI).
  destruct (commit_of_items _ _ _ _ _ CO) as (I1 & I2 & I3 & _ & rev & I4 & I5).
  destruct (chain_ops_fit _ _ _ _ _ _ CH) as (ops & OPS & FIT).
  pose proof (chain_snapshot _ _ _ _ _ _ _ _ _ _ CH) as SN. apply snapshot_load in SN as (n & t & R & W & SO & LE & ST & TR & SM & _).
  subst root.
  destruct (cover_car st n t ops blocks R W SO LE ST KS NB) as (out & bl & E1 & E2 & NBL & BLS & BLI & BLG).
  { intros k b H. apply BI in H. tauto. }
  assert (PD : exists pd, match link_opt prev with
       | ILink p => match (match pre with Some b => Some b | None => read st p end) with
                    | Some b => get_data (b_val b) | None => Ok None end
       | _ => Ok None end = Ok pd /\
       match bp with
       | Some p => exists r, item_link (s "data") (b_val p) = Ok r /\ pd = Some (ILink r)
       | None => pd = None
       end).
  { destruct bp as [p|].
    - destruct BP as (-> & RP & k & q & r & CP). destruct (commit_of_items _ _ _ _ _ CP) as (J1 & _ & _ & (m & J2 & J3) & _).
      exists (Some (ILink r)). split; [|eauto]. cbn [link_opt].
      assert (match pre with Some b => Some b | None => read st (b_cid p) end = Some p) as ->.
      { destruct PRE as [->| ->]; auto. }
      unfold get_data. rewrite J2, J3. reflexivity.
    - subst prev. exists None. auto. }
  destruct PD as (pd & PD1 & PD2).
  eexists _, _. split.
  { unfold process_event. cbn [cd_commit cd_blocks]. cbv zeta. rewrite I1. cbn [bind]. rewrite OPS, E1. cbn [bind]. rewrite E2. cbn [bind].
    rewrite I3. cbn [bind]. unfold cid in *. rewrite PD1. cbn [bind]. rewrite I2. cbn [bind]. rewrite I5. cbn [bind]. reflexivity. }
  assert (PDV : match pd with Some INull | None => [] | Some v => [(s "prevData", v)] end
     = match bp with Some p => match item_link (s "data") (b_val p) with Ok r => [(s "prevData", ILink r)] | _ => [] end | None => [] end).
  { destruct bp as [p|].
    - destruct PD2 as (r & -> & ->). reflexivity.
    - subst pd. reflexivity. }
  rewrite PDV. split; try reflexivity.
  - exists rev. auto.
  - destruct bp as [p|].
    + destruct BP as (-> & RP & _). destruct PD2 as (r & J & _). splits; auto. exists r. rewrite J. auto.
    + subst prev. auto.
  - exists ops, (map event_op ops). splits; auto. clear - FIT. induction ops as [|o ops IH]; cbn; constructor.
    + apply event_op_shown, FIT. left; auto.
    + apply IH. intros op HI. apply FIT. right; auto.
  - eexists. split; [reflexivity|]. exists bl, (tcid digest t), ops.
    assert (INC : forall k b, read st k = Some b -> b_seq b = b_seq c \/
     (exists ops op, b_ops c = Some ops /\ In op ops /\ op_action op <> DELETE /\ op_cid op = Some k) \/
     item_link (s "data") (b_val c) = Ok k -> dget k bl = Some (encode (b_val b))).
    { intros k b HR HB. apply BLI, BI. auto. }
    splits; auto.
    + apply read_write_car. intros [k x] HI. destruct (BLS _ _ HI) as (b & _ & _ & ->). cbn [fst].
      unfold cid_of. rewrite app_length, dlen. reflexivity.
    + intros k x H. apply BLS. apply dget_In. exact H.
    + apply INC; auto. exact (chain_read _ _ _ _ _ _ _ _ _ _ CH).
    + intros op k HO NDL HC. destruct (ic_ops _ _ IC) as (ops' & OPS' & OK). rewrite OPS in OPS'. injection OPS' as <-.
      destruct (OK op HO NDL) as (k' & x & HC' & RX). rewrite HC in HC'. injection HC' as <-. exists x. split; auto.
      apply INC; auto. right. left. eauto 8.
    + intros op HO. rewrite BLG by (apply in_map; auto). rewrite SM. f_equal. apply dget_cids_of.
Qed.
End Message.

(** ** All commits of a history *)

Section Hist.
Variable digest : list N -> list N.
Variable kdigest : str -> list N.
Variable validate : ipld -> res unit.
Variable ecdsa : N -> Z -> list N -> list N.
Variable now : Z -> str.
Variable cb : nat -> option exn.
Variable btime : block -> str.
Notation chain := (chain digest kdigest validate ecdsa).
Notation tchain := (tchain digest kdigest validate ecdsa).

Lemma tchain_split bl did key b l : tchain bl did key b l ->
  exists c0 root0, chain bl did key c0 root0 [] /\ commit_of ecdsa c0 did key None root0 /\ b = commit_before c0 l /\
    forall l1 cd recs l2, l = l1 ++ (cd, recs) :: l2 ->
      exists root, chain bl did key (cd_commit cd) root recs /\ commit_of ecdsa (cd_commit cd) did key (Some (b_cid (commit_before c0 l2))) root /\
        dget (b_cid (commit_before c0 l2)) bl = Some (commit_before c0 l2) /\
        exists q r, commit_of ecdsa (commit_before c0 l2) did key q r.
Proof.
  induction 1 as [b root C CO|cd root recs b' l T IH C CO LT].
  - exists b, root. splits; auto. intros l1 cd recs l2 E. destruct l1; discriminate.
  - destruct IH as (c0 & root0 & A1 & A2 & A3 & A4). exists c0, root0. splits; auto.
    intros l1 cd' recs' l2 E. destruct l1 as [|x l1].
    + injection E as <- <- <-. exists root. rewrite <- A3. splits; auto; [eapply tchain_seq; eauto|].
      inversion T; subst; eauto.
    + injection E as _ E. eapply A4; eauto.
Qed.

Lemma log_commit st lg c did key prev root : log_ok st lg -> read st (b_cid c) = Some c -> commit_of ecdsa c did key prev root -> is_item_commit st c.
Proof.
  intros L R CO. destruct (commit_of_shape ecdsa _ _ _ _ _ CO) as (S1 & S2 & _).
  destruct (lo_part _ _ L _ _ R) as (e & HI & _ & _ & [->|[_ [O1 O2]]]); [|congruence].
  destruct (lo_item _ _ L e HI) as [X|X]; auto. unfold is_item_event in X. congruence.
Qed.

Lemma c35 be : setting digest kdigest validate cb -> (forall x, length (digest x) = 32) ->
  forall ops w outs did l, history digest kdigest validate ecdsa now cb be ops w outs -> dget did (trail_of [] ops outs) = Some l ->
  dget did (book_of [] ops outs) <> None ->
  exists c0,
    (forall blocks cdp, commit_blocks (w_state w) c0 blocks ->
       exists header payload, process_event btime (w_state w) (ECommit (CommitData c0 blocks cdp)) None = Ok (header, payload) /\
         commit_message digest kdigest (w_state w) did None c0 [] header payload) /\
    (exists o, seen be (w_state w) did = Some o /\ r_head o = Some (commit_before c0 l)) /\
    forall l1 cd recs l2, l = l1 ++ (cd, recs) :: l2 ->
      forall blocks cdp pre, commit_blocks (w_state w) (cd_commit cd) blocks -> pre = None \/ pre = Some (commit_before c0 l2) ->
      exists header payload, process_event btime (w_state w) (ECommit (CommitData (cd_commit cd) blocks cdp)) pre = Ok (header, payload) /\
        commit_message digest kdigest (w_state w) did (Some (commit_before c0 l2)) (cd_commit cd) recs header payload.
Proof.
  intros SET DL ops w outs did l H TR BK. destruct (hist_facts digest kdigest validate ecdsa now cb be SET _ _ _ H) as [I T].
  destruct (dget did (book_of [] ops outs)) as [[key rc]|] eqn:B; [|congruence].
  destruct (T _ _ _ B) as (l' & o & b & T1 & T2 & T3 & T4 & T5). rewrite TR in T1. injection T1 as <-.
  destruct (seen_stored digest kdigest validate ecdsa cb be SET _ _ _ _ _ _ I B) as (o' & S1 & HS & _).
  destruct (hist_log digest kdigest validate ecdsa now cb be SET _ _ _ H) as (lg & LG & _).
  assert (KS : forall c b, read (w_state w) c = Some b -> b_cid b = c /\ c = cid_of digest (b_val b)).
  { intros c x R. destruct (so_block _ _ _ _ (i_store _ _ _ _ _ _ _ _ I) _ _ R) as (K1 & K2 & _). auto. }
  destruct (tchain_split _ _ _ _ _ T4) as (c0 & root0 & A1 & A2 & A3 & A4).
  exists c0. splits.
  - intros blocks cdp CB. eapply (message_ok digest kdigest validate ecdsa btime DL); eauto.
    eapply log_commit; eauto. exact (chain_read _ _ _ _ _ _ _ _ _ _ A1).
  - exists o. split; congruence.
  - intros l1 cd recs l2 E blocks cdp pre CB PR. destruct (A4 _ _ _ _ E) as (root & B1 & B2 & B3 & q & r & B4).
    eapply (message_ok digest kdigest validate ecdsa btime DL); eauto.
    + eapply log_commit; eauto. exact (chain_read _ _ _ _ _ _ _ _ _ _ B1).
    + cbn. eauto 8.
Qed.
End Hist.

(** ** Events *)

Lemma event_message btime st m frag pre : frag <> [] -> NoDup (keys m) ->
  dget (s "$type") m = Some (IText (s "com.atproto.sync.subscribeRepos" ++ frag)) ->
  exists payload, process_event btime st (EEvent (IMap m)) pre = Ok ([(s "op", IInt 1); (s "t", IText frag)], payload) /\
    forall k, dget k payload = if str_eqb k (s "$type") then None else dget k m.
Proof.
  intros NE ND T. exists (ddel (s "$type") m). split; [|intros k; apply dget_ddel, ND].
  unfold process_event. rewrite T. cbv zeta.
  assert (starts_with (s "com.atproto.sync.subscribeRepos") (s "com.atproto.sync.subscribeRepos" ++ frag) = true) as -> by reflexivity.
  assert (skipn (length (s "com.atproto.sync.subscribeRepos")) (s "com.atproto.sync.subscribeRepos" ++ frag) = frag) as -> by reflexivity.
  assert (frag <> s "com.atproto.sync.subscribeRepos" ++ frag) as NQ.
  { intros H. apply (f_equal (@length N)) in H. rewrite app_length in H. cbn in H. lia. }
  destruct (str_eqb_spec frag (s "com.atproto.sync.subscribeRepos" ++ frag)); [contradiction|reflexivity].
Qed.
