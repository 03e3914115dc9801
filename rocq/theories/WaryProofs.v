(** Blocks under their right CIDs cannot lie about a tree or a repo. *)
From Coq Require Import String List NArith ZArith Bool Lia Sorted.
From Verif Require Import Base Lists Ipld IpldProofs MstModel MstTree MstTreeProofs MstRep MstOps MstTrav
  MstClient MstSpec MstHist MstFacts CarModel StorageModel StorageSpec StoreProofs RepoSpec RepoProofs RepoHist RepoFacts
  MessageSpec ServerModel ServerSpec ServerProofs ServerFacts ExportSpec ExportProofs ExportFacts ImportProofs IsolateProofs WarySpec.
Import ListNotations.

(** ** More blocks, the same answers *)
Section Mono.
Variable digest : list N -> list N.
Variable kdigest : str -> list N.
Variables r1 r2 : cid -> option ipld.
Hypothesis more : forall c v, r1 c = Some v -> r2 c = Some v.

Lemma all_mono : forall fuel m l, walk kdigest r1 fuel m = Ok l -> walk kdigest r2 fuel m = Ok l.
Proof.
  induction fuel as [|f IH]; intros m l; cbn [walk]; [discriminate|].
  destruct (get_entries kdigest r1 m) as [es|] eqn:E; [|discriminate]. rewrite (get_entries_mono kdigest r1 r2 more _ _ E). cbn [bind].
  match goal with |- bind (?g _) _ = _ -> bind (?g' _) _ = _ => set (go1 := g); set (go2 := g') end.
  assert (G : forall es l, go1 es = Ok l -> go2 es = Ok l).
  { clear - IH. induction es as [|[k' v|m'] es IHe]; intros l H; [exact H|..]; cbn in H |- *.
    - fold go1 in H. fold go2. destruct (go1 es) as [x|]; [|discriminate]. rewrite (IHe x eq_refl). exact H.
    - fold go1 in H. fold go2. destruct (walk kdigest r1 f m') as [x|] eqn:W; [|discriminate]. rewrite (IH _ _ W). cbn in *.
      destruct (go1 es) as [y|]; [|discriminate]. rewrite (IHe y eq_refl). exact H. }
  destruct (go1 es) as [x|] eqn:X; [|discriminate]. rewrite (G _ _ X). auto.
Qed.
Lemma leaves_mono fuel m l : mst_leaves kdigest r1 fuel m = Ok l -> mst_leaves kdigest r2 fuel m = Ok l.
Proof. unfold mst_leaves. destruct (walk kdigest r1 fuel m) as [w|] eqn:E; [|discriminate]. rewrite (all_mono _ _ _ E). auto. Qed.
Lemma list_mono fuel m a b l : mst_list kdigest r1 fuel m a b = Ok l -> mst_list kdigest r2 fuel m a b = Ok l.
Proof.
  unfold mst_list. destruct (walk_leaves_from kdigest r1 fuel m _) as [w|] eqn:E; [|discriminate].
  rewrite (walk_mono kdigest r1 r2 more _ _ _ _ E). auto.
Qed.
Lemma prefix_mono fuel m p l : list_with_prefix kdigest r1 fuel m p = Ok l -> list_with_prefix kdigest r2 fuel m p = Ok l.
Proof.
  unfold list_with_prefix. destruct (walk_leaves_from kdigest r1 fuel m _) as [w|] eqn:E; [|discriminate].
  rewrite (walk_mono kdigest r1 r2 more _ _ _ _ E). auto.
Qed.
Lemma path_mono : forall fuel m k l, cids_for_path digest kdigest r1 fuel m k = Ok l -> cids_for_path digest kdigest r2 fuel m k = Ok l.
Proof.
  induction fuel as [|f IH]; intros m k l; cbn [cids_for_path]; [discriminate|].
  destruct (get_pointer digest m) as [c|]; [|discriminate]. cbn [bind].
  destruct (get_entries kdigest r1 m) as [es|] eqn:E; [|discriminate]. rewrite (get_entries_mono kdigest r1 r2 more _ _ E). cbn [bind].
  set (i := find_index k es).
  assert (D : forall v, match at_prev es i with Some (Sub prev) => do r <- cids_for_path digest kdigest r1 f prev k; Ok (c :: r) | _ => Ok [c] end = Ok v ->
                   match at_prev es i with Some (Sub prev) => do r <- cids_for_path digest kdigest r2 f prev k; Ok (c :: r) | _ => Ok [c] end = Ok v).
  { intros v. destruct (at_prev es i) as [[|prev]|]; auto. destruct (cids_for_path digest kdigest r1 f prev k) as [x|] eqn:X; [|discriminate].
    rewrite (IH _ _ _ X). auto. }
  destruct (at_index es i) as [[k' v'|]|]; auto. destruct (str_eqb k' k); auto.
Qed.
End Mono.

Section Wary.
Variable digest : list N -> list N.
Variable kdigest : str -> list N.
Hypothesis inj : collision_free digest.
Notation bytes_cid := (bytes_cid digest).
Notation hashed := (hashed digest).
Notation rdc c := (fun k : str => dget k (cl_store c)).

Lemma bytes_value data v w : bytes_cid data = cid_of digest v -> decode data = Some w -> w = v.
Proof.
  unfold WarySpec.bytes_cid, cid_of. intros E D. apply app_inv_head in E. apply inj in E. subst data.
  rewrite decode_encode_lemma in D. congruence.
Qed.

(** Someone's blocks first, then those that are known to be right. *)
Definition either (r1 r2 : cid -> option ipld) (c : cid) : option ipld := match r1 c with Some v => Some v | None => r2 c end.

Lemma stored_either r1 r2 t : hashed r1 -> MstRep.stored digest r2 t -> MstRep.stored digest (either r1 r2) t.
Proof.
  intros H. induction 1 as [es E _ IH]. constructor; auto. unfold either.
  destruct (r1 (tcid digest (Node es))) as [v|] eqn:R; auto. destruct (H _ _ R) as (data & C & D). f_equal.
  eapply bytes_value; [|exact D]. rewrite <- C. reflexivity.
Qed.

Lemma rep_either r1 r2 n c t : hashed r1 -> rep digest r2 n (mst_load c) t -> rep digest (either r1 r2) n (mst_load c) t.
Proof.
  intros H. unfold mst_load. destruct t as [tes]. rewrite !rep_eq. intros (A & B & C & D & E). splits; auto.
  apply stored_either; auto.
Qed.

Hypothesis klen : forall k, length (kdigest k) = 32.

(** The client's tree is that of the owner. *)
Lemma same_tree rd ops root : hashed rd -> let c := fst (crun digest kdigest (cinit digest) ops) in
  get_pointer digest (cl_tree c) = Ok root ->
  exists r2 n n' t, (forall c v, rd c = Some v -> r2 c = Some v) /\
    rep digest r2 n (mst_load root) t /\ MstTree.wf kdigest n t /\ n <= 128 /\ sorted_tree t /\
    rep digest (rdc c) n' (cl_tree c) t /\ MstTree.wf kdigest n' t /\ n' <= 128.
Proof.
  intros H c GP. destruct (reach_cs digest kdigest klen ops inj) as (d & A & B & C). fold c in B, C.
  destruct (persist_ok digest kdigest inj None _ _ B C) as (root' & c' & E & P & T & M & R1 & C1 & R2).
  rewrite GP in P. injection P as <-.
  destruct R2 as (n & t & R & W & Srt & LE & SM & ND & _). destruct B as (n' & t' & R' & W' & Srt' & LE' & _).
  cbn [cl_tree] in R. pose proof (get_pointer_ok digest kdigest _ n _ _ R W) as Q. cbn [get_pointer mst_load] in Q. injection Q as Q.
  rewrite (get_pointer_ok digest kdigest (rdc c) n' _ _ R' W') in GP. injection GP as GP.
  assert (t' = t) by (eapply (tcid_inj digest kdigest inj); [exact W'|exact W|congruence]). subst t'.
  exists (either rd (rdc (Client (cl_store c') (mst_load root)))), n, n', t. splits; auto.
  - intros x v Hx. unfold either. rewrite Hx. reflexivity.
  - apply rep_either; auto.
Qed.

Lemma wary_tree rd ops root : hashed rd -> let c := fst (crun digest kdigest (cinit digest) ops) in
  get_pointer digest (cl_tree c) = Ok root ->
  (forall k y, get kdigest rd max_depth (mst_load root) k = Ok y -> get kdigest (rdc c) max_depth (cl_tree c) k = Ok y) /\
  (forall l, mst_leaves kdigest rd max_depth (mst_load root) = Ok l -> mst_leaves kdigest (rdc c) max_depth (cl_tree c) = Ok l) /\
  (forall k l, walk_leaves_from kdigest rd max_depth (mst_load root) k = Ok l -> walk_leaves_from kdigest (rdc c) max_depth (cl_tree c) k = Ok l) /\
  (forall a b l, mst_list kdigest rd max_depth (mst_load root) a b = Ok l -> mst_list kdigest (rdc c) max_depth (cl_tree c) a b = Ok l) /\
  (forall p l, list_with_prefix kdigest rd max_depth (mst_load root) p = Ok l -> list_with_prefix kdigest (rdc c) max_depth (cl_tree c) p = Ok l) /\
  (forall k l, cids_for_path digest kdigest rd max_depth (mst_load root) k = Ok l ->
     cids_for_path digest kdigest (rdc c) max_depth (cl_tree c) k = Ok l).
Proof.
  intros H c GP. destruct (same_tree rd ops root H GP) as (r2 & n & n' & t & MO & R & W & LE & Srt & R' & W' & LE').
  fold c in R'. pose proof md as MD. assert (L1 : n < max_depth) by lia. assert (L2 : n' < max_depth) by lia. clear MD LE LE' H. splits.
  - intros k y E. apply (get_mono kdigest _ _ MO) in E. rewrite <- E.
    rewrite (get_ok digest kdigest r2 n max_depth _ t k L1 R W Srt). apply (get_ok digest kdigest (rdc c) n'); auto.
  - intros l E. apply (leaves_mono kdigest _ _ MO) in E. rewrite <- E.
    rewrite (leaves_ok digest kdigest r2 n max_depth _ t L1 R W). apply (leaves_ok digest kdigest (rdc c) n'); auto.
  - intros k l E. apply (walk_mono kdigest _ _ MO) in E. rewrite <- E.
    rewrite (walk_leaves_from_ok digest kdigest r2 n max_depth) with (t := t) by auto. apply (walk_leaves_from_ok digest kdigest (rdc c) n'); auto.
  - intros a b l E. apply (list_mono kdigest _ _ MO) in E. rewrite <- E.
    rewrite (mst_list_ok digest kdigest r2 n max_depth) with (t := t) by auto. apply (mst_list_ok digest kdigest (rdc c) n'); auto.
  - intros p l E. apply (prefix_mono kdigest _ _ MO) in E. rewrite <- E.
    rewrite (list_with_prefix_ok digest kdigest r2 n max_depth) with (t := t) by auto. apply (list_with_prefix_ok digest kdigest (rdc c) n'); auto.
  - intros k l E. apply (path_mono digest kdigest _ _ MO) in E. rewrite <- E.
    rewrite (cids_for_path_ok digest kdigest r2 n max_depth) with (t := t) by auto. apply (cids_for_path_ok digest kdigest (rdc c) n'); auto.
Qed.

Lemma wary_dict rd ops root d outs : hashed rd -> dict_run [] ops d outs ->
  get_pointer digest (cl_tree (fst (crun digest kdigest (cinit digest) ops))) = Ok root ->
  forall k y, get kdigest rd max_depth (mst_load root) k = Ok y -> y = dget k d.
Proof.
  intros H DR GP k y E. apply (wary_tree rd ops root H GP) in E.
  destruct (reach_cs digest kdigest klen ops inj) as (d' & A & B & _). destruct (dict_run_fun _ _ _ _ _ _ DR A) as [-> _].
  rewrite (rel_get digest kdigest None _ _ k B) in E. congruence.
Qed.

(** ** Repos *)

Lemma read_wary bl st c b : s_blocks st = wary_blocks digest bl -> read st c = Some b -> exists data, c = bytes_cid data /\ decode data = Some (b_val b).
Proof.
  intros S R. unfold read in R. rewrite S in R. apply dget_In in R. unfold wary_blocks in R. apply in_flat_map in R.
  destruct R as ([c' data] & _ & R). cbn [fst snd] in R. destruct (str_eqb c' (bytes_cid data)) eqn:E; [|destruct R].
  apply str_eqb_eq in E. destruct (decode data) as [v|] eqn:D; [|destruct R]. destruct R as [R|[]]. injection R as <- <-. eauto.
Qed.

(** Reading a repo needs values only. *)
Definition says (a b : state) : Prop := forall c x, read a c = Some x -> exists y, read b c = Some y /\ b_val y = b_val x.
Lemma rd_read st c : rd st c = option_map b_val (read st c).
Proof. unfold rd, read. apply dget_vals. Qed.
Lemma rd_says a b : says a b -> forall c v, rd a c = Some v -> rd b c = Some v.
Proof.
  intros S c v. rewrite !rd_read. destruct (read a c) as [x|] eqn:E; [|discriminate]. destruct (S _ _ E) as (y & -> & V). cbn. congruence.
Qed.
Lemma record_says a b o o' coll rkey v : says a b -> r_mst o' = r_mst o ->
  get_record kdigest a o coll rkey = Ok v -> get_record kdigest b o' coll rkey = Ok v.
Proof.
  intros S E. unfold get_record. rewrite E.
  destruct (get kdigest (rd a) max_depth (r_mst o) (coll ++ 47%N :: rkey)) as [c|] eqn:X; [|discriminate].
  rewrite (get_mono kdigest _ _ (rd_says a b S) _ _ _ _ X). cbn [bind]. destruct c as [c|]; auto. destruct (nonempty c); auto.
  destruct (read a c) as [x|] eqn:R; [|discriminate]. destruct (S _ _ R) as (y & -> & ->). auto.
Qed.
Lemma contents_says a b : says a b -> forall es acc v, contents_loop a acc es = Ok v -> contents_loop b acc es = Ok v.
Proof.
  intros S. induction es as [|[k c] es IH]; intros acc v; cbn [contents_loop]; auto.
  destruct (split_on 47%N k) as [|x [|y [|]]]; auto. destruct (read a c) as [z|] eqn:R; [|discriminate].
  destruct (S _ _ R) as (z' & -> & ->). auto.
Qed.
Lemma all_says a b o o' v : says a b -> r_mst o' = r_mst o -> get_contents kdigest a o = Ok v -> get_contents kdigest b o' = Ok v.
Proof.
  intros S E. unfold get_contents, mst_list. rewrite E.
  destruct (walk_leaves_from kdigest (rd a) max_depth (r_mst o) []) as [l|] eqn:X; [|discriminate].
  rewrite (walk_mono kdigest _ _ (rd_says a b S) _ _ _ _ X). cbn [bind]. apply contents_says. exact S.
Qed.
End Wary.

Lemma ok_inj {A} (x y : A) : Ok x = Ok y -> x = y.
Proof. congruence. Qed.

Section Repos.
Variable digest : list N -> list N.
Variable kdigest : str -> list N.
Variable validate : ipld -> res unit.
Variable ecdsa : N -> Z -> list N -> list N.
Variable now : Z -> str.
Variable cb : nat -> option exn.
Variable be : backend.
Hypothesis SET : setting digest kdigest validate cb.

Lemma wary_repo ops w outs did key recs o0 h car st o :
  history digest kdigest validate ecdsa now cb be ops w outs -> dget did (book_of [] ops outs) = Some (key, recs) ->
  seen be (w_state w) did = Some o0 -> r_head o0 = Some h -> wary_client digest (b_cid h) car = Some (st, o) ->
  option_map b_val (r_head o) = Some (b_val h) /\
  (forall coll rkey y, get_record kdigest st o coll rkey = Ok y -> y = option_map norm (dget (record_path coll rkey) recs)) /\
  (forall m, get_contents kdigest st o = Ok m ->
     (forall coll rkey, match dget coll m with Some d => dget rkey d | None => None end = option_map norm (dget (record_path coll rkey) recs)) /\
     forall coll, dget coll m <> Some []).
Proof.
  intros H B SN HH WC. pose proof (s_inj _ _ _ _ SET) as inj.
  destruct (hist_facts digest kdigest validate ecdsa now cb be SET _ _ _ H) as [I _].
  destruct (seen_stored digest kdigest validate ecdsa cb be SET _ _ _ _ _ _ I B) as (o1 & SN' & _ & G & _).
  rewrite SN in SN'. injection SN' as <-. destruct G as (h' & root & HH' & CH & SNAP). rewrite HH in HH'. injection HH' as <-.
  unfold wary_client in WC. destruct (read_car car) as [[roots bl]|]; [|discriminate].
  set (st1 := State 1 (wary_blocks digest bl) [] [] [] []) in *. destruct (read st1 (b_cid h)) as [b|] eqn:RB; [|discriminate].
  pose proof (chain_read _ _ _ _ _ _ _ _ _ _ CH) as RH.
  pose proof (so_block _ _ _ _ (i_store _ _ _ _ _ _ _ _ I)) as OKB.
  assert (VB : b_val b = b_val h).
  { destruct (read_wary digest bl st1 _ _ eq_refl RB) as (data & C & D). destruct (OKB _ _ RH) as (_ & C2 & _).
    eapply (bytes_value digest inj); [|exact D]. rewrite <- C. exact C2. }
  rewrite VB, (chain_data _ _ _ _ _ _ _ _ _ _ CH) in WC. injection WC as <- <-. cbn [r_head option_map]. rewrite VB. split; [reflexivity|].
  (* all blocks together *)
  set (st2 := State 1 (s_blocks (w_state w) ++ wary_blocks digest bl) [] [] [] []).
  assert (S1 : says (w_state w) st2).
  { intros c x R. exists x. split; auto. unfold read in *. cbn [s_blocks st2]. rewrite dget_app, R. reflexivity. }
  assert (S2 : says st1 st2).
  { intros c x R. unfold read. cbn [s_blocks st2]. rewrite dget_app. destruct (dget c (s_blocks (w_state w))) as [y|] eqn:RY; [|exists x; auto].
    exists y. split; auto. destruct (read_wary digest bl st1 _ _ eq_refl R) as (data & C & D). destruct (OKB _ _ RY) as (_ & C2 & _).
    symmetry. eapply (bytes_value digest inj); [|exact D]. rewrite <- C. exact C2. }
  assert (G : good digest kdigest validate ecdsa (s_blocks (w_state w)) did key recs (Repo (mst_load root) (Some h) None None false 0)).
  { exists h, root. splits; auto. eapply chain_snapshot; eauto. }
  destruct (good_shows digest kdigest validate ecdsa _ _ _ _ _ G) as [SH (m0 & GC & SM & SE)].
  set (o1 := Repo (mst_load root) (Some h) None None false 0) in *. split.
  - intros coll rkey y E. pose proof (record_says kdigest st1 st2 (Repo (mst_load root) (Some b) None None false 0) o1 coll rkey y S2 eq_refl E) as E1.
    pose proof (record_says kdigest (w_state w) st2 o1 o1 coll rkey _ S1 eq_refl (SH coll rkey)) as E2.
    exact (ok_inj _ _ (eq_trans (eq_sym E1) E2)).
  - intros m E. pose proof (all_says kdigest st1 st2 (Repo (mst_load root) (Some b) None None false 0) o1 m S2 eq_refl E) as E1.
    pose proof (all_says kdigest (w_state w) st2 o1 o1 _ S1 eq_refl GC) as E2.
    rewrite (ok_inj _ _ (eq_trans (eq_sym E1) E2)). split; assumption.
Qed.

(** What getRepo gives is enough. *)
Lemma genuine_wary st bl : genuine digest st bl -> forall c, dget c (wary_blocks digest bl) =
  match dget c bl with Some data => option_map (fun v => Block c v 0 None None) (decode data) | None => None end.
Proof.
  intros G c. unfold wary_blocks. induction bl as [|[c' data] bl IH]; [reflexivity|]. cbn [flat_map fst snd dget].
  assert (G' : genuine digest st bl) by (intros x d Hx; apply G; right; exact Hx).
  destruct (G c' data (or_introl eq_refl)) as (b & _ & -> & ->). change (cid_of digest (b_val b)) with (bytes_cid digest (encode (b_val b))).
  rewrite str_eqb_refl, decode_encode_lemma. cbn [app dget]. destruct (str_eqb c (bytes_cid digest (encode (b_val b)))) eqn:E.
  - apply str_eqb_eq in E. subst c. rewrite decode_encode_lemma. reflexivity.
  - apply IH. exact G'.
Qed.

Lemma wary_enough netloc_ok cfg w bk x did o key recs since : (forall a, length (digest a) = 32) ->
  serves digest kdigest validate ecdsa now cb be netloc_ok cfg w bk ->
  names be netloc_ok (w_state w) x did o -> r_status o = None -> dget did bk = Some (key, recs) -> since = None \/ since = Some [] ->
  exists h car st o', r_head o = Some h /\ snd (get_repo digest be netloc_ok false x since (w_state w)) = Ok car /\
    wary_client digest (b_cid h) car = Some (st, o') /\ shows kdigest st o' recs.
Proof.
  intros D32 SV NM ST B SI.
  destruct (c40_whole digest kdigest validate ecdsa now cb be netloc_ok cfg SET _ _ _ _ _ _ _ _ SV NM ST B D32 SI) as (h & root & car & bl & HH & IL & GR & RC & G & HI & RH & RG & RR).
  assert (CR : forall c v, car_reader bl c = Some v -> dget c (wary_blocks digest bl) = Some (Block c v 0 None None)).
  { intros c v. rewrite (genuine_wary _ _ G). unfold car_reader. destruct (dget c bl) as [data|]; [|discriminate]. intros ->. reflexivity. }
  exists h, car. unfold wary_client. rewrite RC. unfold read at 1. cbn [s_blocks]. rewrite (CR _ _ RH). cbn [b_val]. rewrite IL.
  eexists _, _. splits; eauto.
  destruct (open_repo digest kdigest validate ecdsa now cb be netloc_ok cfg SET _ _ _ _ _ _ _ SV NM ST B) as (st1 & r & h1 & root1 & n & t & OP & refs & _ & GD).
  destruct OP as [_ _ HH' IL' _ _ _ TR _ _ _]. rewrite HH in HH'. injection HH' as <-. rewrite IL in IL'. injection IL' as <-.
  destruct GD as (h2 & root2 & _ & CH & _). pose proof (chain_keys _ _ _ _ _ _ _ _ _ _ CH) as [ND RK].
  pose proof TR as (R & W & Srt & LE & SO & RT & SM & RS).
  assert (SO' : MstRep.stored digest (fun k : str => dget k (vals (wary_blocks digest bl))) t).
  { apply stored_subtrees. intros y SX. destruct (stored_read digest (w_state w) y (stored_subtree _ _ _ _ SX SO)) as (b & RB & <-).
    rewrite dget_vals. assert (IK : In (tcid digest y) (keys bl)).
    { apply HI. right. left. apply (tree_node_of digest kdigest _ _ _ _ _ _ TR). eauto. }
    rewrite (CR _ _ (car_reader_genuine digest _ _ _ _ G RB IK)). reflexivity. }
  apply (snapshot_shows digest kdigest _ recs _ root); cbn [s_blocks r_mst].
  - exists n, t. splits; auto.
    + unfold mst_load in *. destruct t as [tes]. rewrite rep_eq in R |- *. destruct R as (R1 & R2 & R3 & R4 & _). splits; auto.
    + intros k. rewrite SM, dget_cids_of. reflexivity.
    + rewrite keys_cids_of. exact ND.
  - exact RK.
  - intros k v D. rewrite dget_vals. rewrite (CR _ _ (RR _ _ D)). reflexivity.
Qed.
End Repos.
