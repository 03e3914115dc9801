(** The block store: what is in it and how a commit extends it. *)
From Coq Require Import String List NArith ZArith Bool Lia Sorted.
From Coq Require Import ZifyBool ZifyNat ZifyN.
From Verif Require Import Base Lists Ipld IpldProofs MstModel MstTree MstTreeProofs MstRep MstOps MstTrav
  MstClient MstSpec MstShape MstHist MstFacts TidModel TidProofs BlockModel BlockSpec BlockProofs
  StorageModel StorageSpec CommitProofs.
Import ListNotations.

Notation store := (list (cid * block)).

Lemma dget_vals c (bl : store) : dget c (vals bl) = option_map b_val (dget c bl).
Proof. induction bl as [|[c' b] bl IH]; simpl; auto. destruct (str_eqb c c'); auto. Qed.

(** ** Shapes of values *)

Definition commit_map (did rev : str) (prev : option cid) (data : cid) (sig : list N) : list (str * ipld) :=
  [(s "did", IText did); (s "rev", IText rev); (s "sig", IBytes sig); (s "data", ILink data); (s "prev", link_opt prev);
   (s "version", IInt 3)].

Lemma commit_norm ecdsa key seq did rev prev root :
  norm (commit_value ecdsa key seq did rev prev root)
  = IMap (commit_map did rev prev root (ecdsa key seq (dag_cbor_encode (IMap (unsigned_commit did rev prev root))))).
Proof. destruct prev; reflexivity. Qed.

Definition vtype (v : ipld) : option ipld := match v with IMap m => dget (s "$type") m | _ => None end.

Lemma vtype_norm v : py_value v -> vtype (norm v) = option_map norm (vtype v).
Proof.
  intros PV. destruct v; auto. rewrite norm_map. cbn [vtype]. apply py_value_map in PV as [ND _].
  rewrite <- dget_norm. symmetry. apply dget_perm.
  - rewrite keys_norm. auto.
  - apply Permutation.Permutation_sym, sort_keys_perm.
Qed.

Lemma vtype_plain v : plain v -> exists t, vtype (norm v) = Some (IText t) /\
  starts_with nsid_hash t = false.
Proof.
  intros (PV & m & t & -> & T & NS). exists t. rewrite vtype_norm by auto. cbn [vtype]. rewrite T. auto.
Qed.

Lemma vtype_node d : vtype (ndata_ipld d) = None.
Proof. reflexivity. Qed.

Lemma vtype_commit did rev prev data sig : vtype (IMap (commit_map did rev prev data sig)) = None.
Proof. reflexivity. Qed.

Lemma node_not_commit d did rev prev data sig : ndata_ipld d <> IMap (commit_map did rev prev data sig).
Proof. discriminate. Qed.

Section Store.
Variable digest : list N -> list N.
Variable kdigest : str -> list N.
Hypothesis klen : forall k, length (kdigest k) = 32.
Hypothesis inj : forall a b, digest a = digest b -> a = b.
Notation Rel := (Rel digest kdigest None).
Notation rcid := (rcid digest).
Notation rdv bl := (fun k : str => dget k (vals bl)).

(** What a stored block can be. *)
Inductive kind (b : block) : Prop :=
| k_node d : b_val b = ndata_ipld d -> b_ops b = None -> kind b
| k_record v : plain v -> b_val b = norm v -> b_ops b = None -> kind b
| k_event t : vtype (b_val b) = Some (IText (nsid_hash ++ t)) ->
    item (s "seq") (b_val b) = Ok (IInt (b_seq b)) -> b_ops b = None -> kind b
| k_commit did rev prev data sig ops : b_val b = IMap (commit_map did rev prev data sig) ->
    int_to_tid (b_seq b) 0 = Ok rev -> b_ops b = Some ops -> b_repo b = Some did -> kind b.

Definition block_ok (next : Z) (c : cid) (b : block) : Prop :=
  b_cid b = c /\ c = cid_of digest (b_val b) /\ (0 < b_seq b < next)%Z /\ kind b.

Record store_ok (bl : store) (next : Z) : Prop := {
  so_block : forall c b, dget c bl = Some b -> block_ok next c b;
  so_closed : closed digest kdigest (rdv bl);
  so_nodup : NoDup (keys bl)
}.

(** The tree [m] is stored under [root] and holds [d]. *)
Definition snapshot (bl : store) (m : mst) (root : cid) (d : list (str * cid)) : Prop :=
  exists n t, rep digest (rdv bl) n m t /\ wf kdigest n t /\ sorted_tree t /\ n <= 128 /\
    stored digest (rdv bl) t /\ tcid digest t = root /\ (forall k, dget k (leaves t) = dget k d) /\ NoDup (keys d).

Lemma tid_inj a b x : (0 <= a)%Z -> (0 <= b)%Z -> int_to_tid a 0 = Ok x -> int_to_tid b 0 = Ok x -> a = b.
Proof.
  clear. intros Ha Hb Ea Eb.
  assert (La : (a < 2 ^ 55)%Z).
  { destruct (Z_lt_le_dec a (2 ^ 55)) as [H|H]; [exact H|]. rewrite (tid_too_large a 0 H) in Ea. discriminate. }
  assert (Lb : (b < 2 ^ 55)%Z).
  { destruct (Z_lt_le_dec b (2 ^ 55)) as [H|H]; [exact H|]. rewrite (tid_too_large b 0 H) in Eb. discriminate. }
  destruct (tid_round_trip a 0 (conj Ha La) ltac:(lia)) as (t & E1 & _ & D1).
  destruct (tid_round_trip b 0 (conj Hb Lb) ltac:(lia)) as (u & E2 & _ & D2). congruence.
Qed.

Lemma snapshot_mono bl bl' m root d :
  (forall c b, dget c bl = Some b -> dget c bl' = Some b) -> snapshot bl m root d -> snapshot bl' m root d.
Proof.
  clear. intros MO (n & t & R & W & Srt & Hn & ST & RT & SM & ND).
  assert (M : forall c v, dget c (vals bl) = Some v -> dget c (vals bl') = Some v).
  { intros c v. rewrite !dget_vals. destruct (dget c bl) as [b|] eqn:E; [|discriminate]. rewrite (MO _ _ E). auto. }
  exists n, t. splits; auto.
  - exact (rep_mono digest (rdv bl) (rdv bl') n M _ _ R).
  - exact (stored_mono digest (rdv bl) (rdv bl') t M ST).
Qed.

Lemma snapshot_rel bl m root d : snapshot bl m root d -> Rel (Client (vals bl) m) d.
Proof. clear. intros (n & t & R & W & Srt & Hn & _ & _ & SM & ND). exists n, t. splits; auto. exact I. Qed.

Lemma snapshot_pointer bl m root d : snapshot bl m root d -> get_pointer digest m = Ok root.
Proof.
  clear. intros (n & t & R & W & _ & _ & _ & <- & _). exact (get_pointer_ok digest kdigest _ n m t R W).
Qed.

Lemma snapshot_load bl m root d : snapshot bl m root d -> snapshot bl (mst_load root) root d.
Proof.
  clear. intros (n & t & R & W & Srt & Hn & ST & <- & SM & ND).
  destruct (load_any digest kdigest (rdv bl) n t W ST) as (n' & Hn' & W' & R' & _).
  exists n', t. splits; auto. lia.
Qed.

(** ** Record blocks of a commit *)

Lemma writes_blocks_get did seq c b : forall ws blocks,
  dget c (writes_blocks_of digest did seq blocks ws) = Some b ->
  dget c blocks = Some b \/
  exists w v, In w ws /\ w_action w <> DELETE /\ w_record w = Some v /\ c = rcid v /\ b = mk_block digest v (Some did) seq None.
Proof.
  clear. induction ws as [|w ws IH]; intros blocks G; cbn [writes_blocks_of fold_left] in G; auto.
  destruct (IH _ G) as [H|(w' & v & HI & H)].
  - unfold write_blocks_of in H.
    destruct (w_action w) eqn:A; destruct (w_record w) as [v|] eqn:R; auto;
      rewrite dget_dset in H; destruct (str_eqb_spec c (rcid v)) as [->|NE]; auto;
      right; exists w, v; splits; try (left; auto; fail); try congruence; auto.
  - right. exists w', v. split; [right; auto|auto].
Qed.

Lemma writes_blocks_keep did seq c : forall ws blocks,
  dget c blocks <> None -> dget c (writes_blocks_of digest did seq blocks ws) <> None.
Proof.
  clear. induction ws as [|w ws IH]; intros blocks H; cbn [writes_blocks_of fold_left]; auto.
  apply IH. unfold write_blocks_of. destruct (w_action w), (w_record w) as [v|]; auto;
    rewrite dget_dset; destruct (str_eqb c (rcid v)); congruence.
Qed.

Lemma writes_blocks_has did seq w v : forall ws blocks, In w ws -> w_action w <> DELETE -> w_record w = Some v ->
  dget (rcid v) (writes_blocks_of digest did seq blocks ws) <> None.
Proof.
  clear. induction ws as [|w' ws IH]; intros blocks HI A R; [destruct HI|]. destruct HI as [->|HI].
  - cbn [writes_blocks_of fold_left]. apply writes_blocks_keep. unfold write_blocks_of.
    destruct (w_action w); try congruence; rewrite R, dget_dset, str_eqb_refl; discriminate.
  - cbn [writes_blocks_of fold_left]. apply IH; auto.
Qed.

Definition keyed (l : store) : Prop := forall c b, In (c, b) l -> c = b_cid b.

Lemma dset_In {V} k (v : V) l x : In x (dset k v l) -> x = (k, v) \/ In x l.
Proof.
  clear. induction l as [|[k' v'] l IH]; simpl; [intros [<-|[]]; auto|].
  destruct (str_eqb_spec k k') as [->|NE]; simpl; intros [H|H]; auto.
  destruct (IH H); auto.
Qed.

Lemma keyed_dset l b : keyed l -> keyed (dset (b_cid b) b l).
Proof. clear. intros K c b' H. apply dset_In in H as [[= -> ->]|H]; auto. Qed.

Lemma writes_blocks_keyed did seq : forall ws blocks, keyed blocks -> keyed (writes_blocks_of digest did seq blocks ws).
Proof.
  clear. induction ws as [|w ws IH]; intros blocks K; cbn [writes_blocks_of fold_left]; auto. apply IH.
  unfold write_blocks_of. destruct (w_action w), (w_record w) as [v|]; auto;
    exact (keyed_dset blocks (mk_block digest v (Some did) seq None) K).
Qed.

Lemma writes_blocks_nodup did seq : forall ws blocks, NoDup (keys blocks) -> NoDup (keys (writes_blocks_of digest did seq blocks ws)).
Proof.
  clear. induction ws as [|w ws IH]; intros blocks K; cbn [writes_blocks_of fold_left]; auto. apply IH.
  unfold write_blocks_of. destruct (w_action w), (w_record w) as [v|]; auto using dset_NoDup.
Qed.

Lemma add_nodes_keyed did seq : forall bs blocks, keyed blocks -> keyed (add_nodes did seq bs blocks).
Proof.
  clear. induction bs as [|[c v] bs IH]; intros blocks K; cbn [add_nodes fold_left]; auto. apply IH.
  exact (keyed_dset blocks (Block c v seq None (Some did)) K).
Qed.

Lemma add_nodes_nodup did seq : forall bs blocks, NoDup (keys blocks) -> NoDup (keys (add_nodes did seq bs blocks)).
Proof.
  clear. induction bs as [|[c v] bs IH]; intros blocks K; cbn [add_nodes fold_left]; auto. apply IH.
  cbn [fst snd]. apply dset_NoDup; auto.
Qed.

Lemma add_nodes_get did seq c : forall bs blocks, NoDup (keys bs) ->
  dget c (add_nodes did seq bs blocks) = match dget c bs with
                                         | Some v => Some (Block c v seq None (Some did))
                                         | None => dget c blocks
                                         end.
Proof.
  clear. induction bs as [|[c' v] bs IH]; intros blocks ND; cbn [add_nodes fold_left]; auto.
  unfold keys in ND. cbn [map fst] in ND. inversion ND as [|? ? NI ND']; subst.
  change (dget c (add_nodes did seq bs (dset c' (Block c' v seq None (Some did)) blocks)) = match dget c ((c', v) :: bs) with
    | Some v0 => Some (Block c v0 seq None (Some did)) | None => dget c blocks end).
  rewrite IH by auto. cbn [dget]. rewrite dget_dset. destruct (str_eqb_spec c c') as [->|NE]; auto.
  destruct (dget c' bs) as [v'|] eqn:E; auto. exfalso. apply NI. apply dget_In in E.
  apply in_map_iff. exists (c', v'). auto.
Qed.

Lemma keyed_map l : keyed l -> map (fun b => (b_cid b, b)) (map snd l) = l.
Proof.
  clear. induction l as [|[c b] l IH]; intros K; cbn [map]; auto. rewrite IH.
  - cbn [snd]. rewrite <- (K c b); [auto|left; auto].
  - intros c' b' H. apply K. right. auto.
Qed.

Lemma fold_setdefault_nodup {V} : forall (bs d : list (str * V)), NoDup (keys d) -> NoDup (keys (fold_left dsetdefault bs d)).
Proof.
  clear. induction bs as [|[k v] bs IH]; intros d ND; cbn [fold_left]; auto. apply IH.
  unfold dsetdefault. cbn [fst]. destruct (dget k d) eqn:E; auto. rewrite keys_app.
  apply dget_None in E. unfold keys at 2. cbn [map fst].
  apply NoDup_rev in ND. rewrite <- (rev_involutive (keys d ++ [k])). apply NoDup_rev. rewrite rev_app_distr. cbn [rev app].
  constructor; auto. rewrite <- in_rev. auto.
Qed.

Lemma subtree_leaves t s' : subtree s' t -> forall k v, In (k, v) (leaves s') -> In (k, v) (leaves t).
Proof.
  clear. induction 1 as [t|s' t es HI _ IH]; auto. intros k v H. rewrite leaves_node. apply IH in H. clear IH.
  induction es as [|e es IHe]; [destruct HI|]. destruct HI as [->|HI]; rewrite L_cons; apply in_or_app; auto.
Qed.

(** ** Extending the store by a commit *)

Variable ecdsa : N -> Z -> list N -> list N.

Section Finish.
Variables (bl : store) (m : mst) (recs : records) (did : str) (seq : Z) (ws : list write) (ops : list commit_op).
Variables (key : N) (prev : option cid) (rev : str).
Hypothesis SO : store_ok bl seq.
Hypothesis pos : (0 < seq)%Z.
Hypothesis HR : Rel (Client (vals bl) m) (cids_of digest recs).
Hypothesis REV : int_to_tid seq 0 = Ok rev.
Hypothesis PL : forall w v, In w ws -> w_action w <> DELETE -> w_record w = Some v -> plain v.

Let blocks := writes_blocks_of digest did seq [] ws.

Definition finish_block (root : cid) : block :=
  mk_block digest (commit_value ecdsa key seq did rev prev root) (Some did) seq (Some ops).
Definition finish_new (root : cid) (bs : list (cid * ipld)) : store :=
  dset (b_cid (finish_block root)) (finish_block root) (add_nodes did seq bs blocks).
Definition finish_store (root : cid) (bs : list (cid * ipld)) : store :=
  fold_left dsetdefault (map (fun b => (b_cid b, b)) (map snd (finish_new root bs))) bl.

Lemma finish_keyed root bs : keyed (finish_new root bs).
Proof.
  clear. apply keyed_dset, add_nodes_keyed, writes_blocks_keyed. intros c b [].
Qed.

Lemma finish_nodup root bs : NoDup (keys (finish_new root bs)).
Proof. clear. apply dset_NoDup, add_nodes_nodup, writes_blocks_nodup. constructor. Qed.

Lemma commit_fresh root : dget (b_cid (finish_block root)) bl = None.
Proof.
  clear klen HR PL. destruct (dget (b_cid (finish_block root)) bl) as [b|] eqn:E; auto. exfalso.
  destruct (so_block _ _ SO _ _ E) as (_ & C & SQ & K). cbn [finish_block mk_block b_cid] in C.
  apply cid_of_inj in C; auto. rewrite commit_norm in C.
  destruct K as [d K|v P K|t T|did' rev' prev' data' sig' ops' K R].
  - rewrite K in C. symmetry in C. eapply node_not_commit; eauto.
  - destruct (vtype_plain _ P) as (t & T & _). rewrite <- K, <- C, vtype_commit in T. discriminate.
  - rewrite <- C, vtype_commit in T. discriminate.
  - rewrite K in C. unfold commit_map in C. assert (rev = rev') by congruence. subst rev'.
    assert (b_seq b = seq) by (eapply tid_inj; eauto; lia). lia.
Qed.

Lemma plain_not_node v n t : plain v -> wf kdigest n t -> rcid v <> tcid digest t.
Proof.
  intros P _ E. destruct t as [es]. rewrite tcid_eq in E. apply cid_of_inj in E; auto.
  destruct (vtype_plain _ P) as (t & T & _). rewrite E, vtype_node in T. discriminate.
Qed.

Lemma finish_ok : exists root bs,
  get_unstored_blocks digest kdigest (rdv bl) max_depth m = Ok (root, bs) /\
  get_pointer digest m = Ok root /\
  (forall c, dget c (finish_store root bs)
     = match dget c bl with Some b => Some b | None => dget c (finish_new root bs) end) /\
  (forall c b, dget c (finish_new root bs) = Some b ->
     b_seq b = seq /\ b_repo b = Some did /\ block_ok (seq + 1) c b /\
     (b = finish_block root \/
      (b_ops b = None /\ (exists d, b_val b = ndata_ipld d)) \/
      exists w v, In w ws /\ w_action w <> DELETE /\ w_record w = Some v /\ c = rcid v /\ b = mk_block digest v (Some did) seq None)) /\
  store_ok (finish_store root bs) (seq + 1) /\
  dget (b_cid (finish_block root)) (finish_store root bs) = Some (finish_block root) /\
  snapshot (finish_store root bs) m root (cids_of digest recs) /\
  (forall w v, In w ws -> w_action w <> DELETE -> w_record w = Some v -> dget (rcid v) (vals (finish_store root bs)) = Some (norm v)) /\
  (forall n t k v, wf kdigest n t -> dget (tcid digest t) (finish_new root bs) <> None -> In (k, v) (leaves t) ->
     dget k (cids_of digest recs) = Some v).
Proof.
  pose proof HR as (n & t & R & W & Srt & Hn & Same & ND & _). pose proof md as MD. cbn [cl_tree] in R.
  destruct (get_unstored_ok digest kdigest (rdv bl) n max_depth m t ltac:(lia) R W (so_closed _ _ SO))
    as (bs & E & NDb & B1 & B2).
  set (root := tcid digest t). exists root, bs.
  assert (GN : forall c, dget c (finish_new root bs) = if str_eqb c (b_cid (finish_block root)) then Some (finish_block root)
       else match dget c bs with Some v => Some (Block c v seq None (Some did)) | None => dget c blocks end).
  { intros c. unfold finish_new. rewrite dget_dset, add_nodes_get by auto. auto. }
  assert (GS : forall c, dget c (finish_store root bs)
     = match dget c bl with Some b => Some b | None => dget c (finish_new root bs) end).
  { intros c. unfold finish_store. rewrite keyed_map by apply finish_keyed. apply fold_setdefault_get. }
  assert (NK : forall c b, dget c (finish_new root bs) = Some b ->
     b_seq b = seq /\ b_repo b = Some did /\ block_ok (seq + 1) c b /\
     (b = finish_block root \/
      (b_ops b = None /\ (exists d, b_val b = ndata_ipld d)) \/
      exists w v, In w ws /\ w_action w <> DELETE /\ w_record w = Some v /\ c = rcid v /\ b = mk_block digest v (Some did) seq None)).
  { intros c b H. rewrite GN in H. destruct (str_eqb_spec c (b_cid (finish_block root))) as [->|NE].
    - injection H as <-. splits; auto. unfold block_ok. cbn [finish_block mk_block b_seq b_cid b_val]. splits; auto; [lia|].
      change (kind (finish_block root)).
      eapply k_commit; [apply commit_norm|exact REV|reflexivity|reflexivity].
    - destruct (dget c bs) as [v|] eqn:EB.
      + injection H as <-. apply dget_In in EB. destruct (B1 _ _ EB) as (s' & HS & EC & EV & _).
        splits; auto.
        * unfold block_ok. cbn [b_val b_seq b_cid]. splits; auto; [|lia|].
          { rewrite EC, EV. destruct s' as [es]. apply tcid_eq. }
          { eapply k_node; [|auto]. cbn [b_val]. rewrite EV. reflexivity. }
        * right. left. split; auto. eexists. cbn [b_val]. rewrite EV. reflexivity.
      + apply writes_blocks_get in H as [H|(w & v & HI & A & RR & EC & EV)]; [discriminate|].
        subst c b. splits; auto.
        * unfold block_ok. cbn [mk_block b_seq b_cid b_val]. splits; auto; [lia|]. eapply k_record; eauto.
        * right. right. exists w, v. splits; auto. }
  assert (NT : forall n' t', wf kdigest n' t' -> b_cid (finish_block root) <> tcid digest t').
  { intros n' [es] _ X. rewrite tcid_eq in X. cbn [finish_block mk_block b_cid] in X. apply cid_of_inj in X; auto.
    rewrite commit_norm in X. symmetry in X. eapply node_not_commit; eauto. }
  assert (M1 : forall c v, dget c (vals bl) = Some v -> dget c (vals (finish_store root bs)) = Some v).
  { intros c v. rewrite !dget_vals, GS. destruct (dget c bl); [auto|discriminate]. }
  destruct (closed_extend digest kdigest inj (rdv bl) (rdv (finish_store root bs)) bs n t (so_closed _ _ SO) W B1 B2 M1)
    as [ST CL].
  { intros c HI. rewrite dget_vals, GS. destruct (dget c bl) as [b|] eqn:EB; [discriminate|].
    rewrite GN. destruct (str_eqb c (b_cid (finish_block root))); [discriminate|].
    destruct (dget c bs) as [v|] eqn:EV; [discriminate|]. exfalso. apply dget_None in EV. auto. }
  { intros c v. rewrite !dget_vals, GS. destruct (dget c bl) as [b|] eqn:EB; [auto|].
    rewrite GN. destruct (str_eqb_spec c (b_cid (finish_block root))) as [->|NE].
    - intros _. right. right. exact NT.
    - destruct (dget c bs) as [v'|] eqn:EV.
      + cbn [option_map b_val]. intros [= ->]. right. left. apply dget_In. auto.
      + destruct (dget c blocks) as [b|] eqn:EK; [|discriminate]. intros _. right. right.
        apply writes_blocks_get in EK as [H|(w & v' & HI & A & RR & EC & _)]; [discriminate|]. subst c.
        intros n' t' W'. apply (plain_not_node v' n' t'); eauto. }
  splits.
  - exact E.
  - exact (get_pointer_ok digest kdigest (rdv bl) n m t R W).
  - exact GS.
  - exact NK.
  - split.
    + intros c b H. rewrite GS in H. destruct (dget c bl) as [b'|] eqn:EB.
      * injection H as ->. destruct (so_block _ _ SO _ _ EB) as (H1 & H2 & H3 & H4). unfold block_ok. splits; auto; lia.
      * destruct (NK _ _ H) as (_ & _ & X & _). exact X.
    + exact CL.
    + unfold finish_store. apply fold_setdefault_nodup. exact (so_nodup _ _ SO).
  - rewrite GS, commit_fresh, GN, str_eqb_refl. auto.
  - exists n, t. splits; auto. exact (rep_mono digest (rdv bl) (rdv (finish_store root bs)) n M1 _ _ R).
  - intros w v HI A RR.
    assert (X : dget (rcid v) (finish_store root bs) <> None).
    { rewrite GS. destruct (dget (rcid v) bl); [discriminate|]. rewrite GN.
      destruct (str_eqb (rcid v) (b_cid (finish_block root))); [discriminate|].
      destruct (dget (rcid v) bs); [discriminate|]. eapply writes_blocks_has; eauto. }
    rewrite dget_vals. destruct (dget (rcid v) (finish_store root bs)) as [b|] eqn:EB; [|congruence].
    cbn [option_map]. f_equal. rewrite GS in EB.
    assert (Y : rcid v = cid_of digest (b_val b)).
    { destruct (dget (rcid v) bl) as [b'|] eqn:E1.
      - injection EB as ->. destruct (so_block _ _ SO _ _ E1) as (_ & H & _). exact H.
      - destruct (NK _ _ EB) as (_ & _ & (_ & H & _) & _). exact H. }
    unfold StorageSpec.rcid in Y. apply cid_of_inj in Y; auto.
  - intros n' s' k v W' HN HI. rewrite GN in HN.
    destruct (str_eqb_spec (tcid digest s') (b_cid (finish_block root))) as [EQ|NE]; [exfalso; symmetry in EQ; exact (NT _ _ W' EQ)|].
    destruct (dget (tcid digest s') bs) as [x|] eqn:EB.
    + apply dget_In in EB. destruct (B1 _ _ EB) as (s2 & HS & EC & _). destruct (wf_subtree kdigest _ _ HS n W) as (n2 & _ & W2).
      rewrite (tcid_inj digest kdigest inj _ _ _ _ W' W2 EC) in HI. rewrite <- Same. apply In_dget; [apply ssorted_NoDup; exact Srt|].
      eapply subtree_leaves; eauto.
    + destruct (dget (tcid digest s') blocks) as [b|] eqn:EK; [|congruence].
      apply writes_blocks_get in EK as [H|(w & v' & HW & A & RR & EC & _)]; [discriminate|].
      exfalso. symmetry in EC. revert EC. apply (plain_not_node v' n' s'); eauto.
Qed.

End Finish.
End Store.
