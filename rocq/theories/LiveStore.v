(** Stores that also hold the blocks of imported repos. *)
From Coq Require Import String List NArith ZArith Bool Lia Sorted.
From Coq Require Import ZifyBool ZifyNat ZifyN.
From Verif Require Import Base Lists Ipld IpldProofs MstModel MstTree MstTreeProofs MstRep MstTrav
  MstClient MstSpec MstHist MstFacts TidModel TidProofs BlockModel BlockSpec
  CarModel StorageModel StorageSpec CommitProofs StoreProofs ExecProofs RepoSpec RepoProofs RepoHist.
Import ListNotations.

Section Live.
Variable digest : list N -> list N.
Variable kdigest : str -> list N.
Hypothesis klen : forall k, length (kdigest k) = 32.
Hypothesis inj : forall a b, digest a = digest b -> a = b.
Notation Rel := (Rel digest kdigest None).
Notation rcid := (rcid digest).
Notation cids_of := (cids_of digest).
Notation snapshot := (snapshot digest kdigest).
Notation rdv bl := (fun k : str => dget k (vals bl)).

(** What a stored block can be. An imported commit has no ops and a sequence number that
    says nothing about its rev. *)
Inductive wkind (b : block) : Prop :=
| wk_none : vtype (b_val b) = None -> wkind b
| wk_record v : plain v -> b_val b = norm v -> wkind b
| wk_event t : vtype (b_val b) = Some (IText (nsid_hash ++ t)) -> item (s "seq") (b_val b) = Ok (IInt (b_seq b)) -> wkind b.

Definition wblock (next : Z) (c : cid) (b : block) : Prop :=
  b_cid b = c /\ c = cid_of digest (b_val b) /\ (0 <= b_seq b < next)%Z /\ wkind b.

Record weak (bl : store) (next : Z) : Prop := {
  w_block : forall c b, dget c bl = Some b -> wblock next c b;
  w_closed : closed digest kdigest (rdv bl)
}.

Lemma weak_le bl a b : (a <= b)%Z -> weak bl a -> weak bl b.
Proof.
  clear. intros LE W. split; [|exact (w_closed _ _ W)].
  intros c x H. destruct (w_block _ _ W _ _ H) as (A & B & C & D). unfold wblock. splits; auto; lia.
Qed.

Lemma weak_val bl next c b b' : weak bl next -> dget c bl = Some b -> c = cid_of digest (b_val b') -> b_val b = b_val b'.
Proof. intros W D E. destruct (w_block _ _ W _ _ D) as (_ & C & _). apply (cid_of_inj digest); auto. congruence. Qed.

(** ** Events *)

Lemma weak_fresh bl seq type v : weak bl seq -> is_event type seq v -> dget (cid_of digest (norm v)) bl = None.
Proof.
  clear - inj. intros SO [T Q]. destruct (dget _ bl) as [b|] eqn:E; auto. exfalso.
  destruct (w_block _ _ SO _ _ E) as (_ & C & SQ & K). apply cid_of_inj in C; auto.
  destruct K as [K|v' P K|t T' Q'].
  - rewrite C, K in T. discriminate.
  - destruct (vtype_plain _ P) as (t & T' & NS). rewrite C, K, T' in T. assert (TE : t = nsid_hash ++ type) by congruence. subst t.
    assert (X : starts_with nsid_hash (nsid_hash ++ type) = true) by (apply starts_with_app; eauto). congruence.
  - rewrite C, Q' in Q. injection Q as Q. lia.
Qed.

(** Blocks that are no nodes of trees. *)
Lemma closed_more bl bl' : (forall c v, dget c (vals bl) = Some v -> dget c (vals bl') = Some v) ->
  (forall c, dget c bl = None -> dget c bl' <> None -> forall n t, wf kdigest n t -> c <> tcid digest t) ->
  closed digest kdigest (rdv bl) -> closed digest kdigest (rdv bl').
Proof.
  clear. intros MO NW CL n t W HR. apply (stored_mono digest (rdv bl) _ t MO). apply (CL n t W).
  rewrite dget_vals in HR. rewrite dget_vals. destruct (dget (tcid digest t) bl) eqn:D; [discriminate|]. exfalso.
  apply (NW (tcid digest t) D) with (n := n) (t := t); auto. intros X. rewrite X in HR. auto.
Qed.

Lemma not_node v n t : vtype v <> None -> wf kdigest n t -> cid_of digest v <> tcid digest t.
Proof. intros V _ E. destruct t as [es]. rewrite tcid_eq in E. apply cid_of_inj in E; auto. rewrite E, vtype_node in V. auto. Qed.

Lemma weak_event bl seq type v did : weak bl seq -> (0 < seq)%Z -> is_event type seq v ->
  let b := mk_block digest v did seq None in weak (bl ++ [(b_cid b, b)]) (seq + 1).
Proof.
  intros SO POS EV b. pose proof (weak_fresh _ _ _ _ SO EV) as FR. destruct EV as [T Q].
  assert (G : forall c, dget c (bl ++ [(b_cid b, b)]) = match dget c bl with Some x => Some x | None =>
     if str_eqb c (b_cid b) then Some b else None end).
  { intros c. rewrite dget_app. destruct (dget c bl); auto. }
  split.
  - intros c x H. rewrite G in H. destruct (dget c bl) as [y|] eqn:E.
    + injection H as ->. destruct (w_block _ _ SO _ _ E) as (A & B & C & D). unfold wblock. splits; auto; lia.
    + destruct (str_eqb_spec c (b_cid b)) as [->|NE]; [|discriminate]. injection H as <-. unfold wblock.
      cbn [b mk_block b_cid b_val b_seq]. splits; auto; [lia|lia|]. eapply wk_event; [exact T|exact Q].
  - apply (closed_more bl); [| |exact (w_closed _ _ SO)].
    + intros c y. rewrite !dget_vals, G. destruct (dget c bl); [auto|discriminate].
    + intros c D N n t W. rewrite G, D in N. destruct (str_eqb_spec c (b_cid b)) as [->|]; [|congruence].
      apply (not_node _ n); auto. cbn [b mk_block b_val]. congruence.
Qed.

(** ** Commits *)

Variable ecdsa : N -> Z -> list N -> list N.
Notation finish_block := (finish_block digest ecdsa).
Notation finish_new := (finish_new digest ecdsa).
Notation finish_store := (finish_store digest ecdsa).

Lemma weak_finish bl m recs did seq ws ops key prev rev root bs :
  weak bl seq -> (0 < seq)%Z -> Rel (Client (vals bl) m) (cids_of recs) ->
  (forall w v, In w ws -> w_action w <> DELETE -> w_record w = Some v -> plain v) ->
  get_unstored_blocks digest kdigest (rdv bl) max_depth m = Ok (root, bs) ->
  let cblock := finish_block did seq ops key prev rev root in
  let bl' := finish_store bl did seq ws ops key prev rev root bs in
  weak bl' (seq + 1) /\ extends bl bl' /\
  (exists b', dget (b_cid cblock) bl' = Some b' /\ b_val b' = b_val cblock) /\
  snapshot bl' m root (cids_of recs) /\
  (forall w v, In w ws -> w_action w <> DELETE -> w_record w = Some v -> dget (rcid v) (vals bl') = Some (norm v)).
Proof.
  intros SO POS HR PL GU cblock bl'.
  pose proof HR as (n & t & R & W & Srt & Hn & Same & ND & _). pose proof md as MD. cbn [cl_tree] in R.
  destruct (get_unstored_ok digest kdigest (rdv bl) n max_depth m t ltac:(lia) R W (w_closed _ _ SO))
    as (bs2 & E & NDb & B1 & B2).
  rewrite GU in E. injection E as -> <-.
  set (root := tcid digest t) in *. set (blocks := writes_blocks_of digest did seq [] ws).
  assert (GN : forall c, dget c (finish_new did seq ws ops key prev rev root bs) = if str_eqb c (b_cid cblock) then Some cblock
       else match dget c bs with Some v => Some (Block c v seq None (Some did)) | None => dget c blocks end).
  { intros c. unfold StoreProofs.finish_new. rewrite dget_dset, add_nodes_get by auto. auto. }
  assert (GS : forall c, dget c bl' = match dget c bl with Some b => Some b | None => dget c (finish_new did seq ws ops key prev rev root bs) end).
  { intros c. unfold bl', StoreProofs.finish_store. rewrite keyed_map by apply finish_keyed. apply fold_setdefault_get. }
  assert (CM : vtype (b_val cblock) = None) by (unfold cblock, StoreProofs.finish_block; cbn [mk_block b_val]; rewrite commit_norm; apply vtype_commit).
  assert (NK : forall c b, dget c (finish_new did seq ws ops key prev rev root bs) = Some b -> wblock (seq + 1) c b).
  { intros c b H. rewrite GN in H. destruct (str_eqb_spec c (b_cid cblock)) as [->|NE].
    - injection H as <-. unfold wblock. splits; auto; [cbn; lia|cbn; lia|]. apply wk_none. exact CM.
    - destruct (dget c bs) as [v|] eqn:EB.
      + injection H as <-. apply dget_In in EB. destruct (B1 _ _ EB) as (s' & HS & EC & EV & _).
        unfold wblock. cbn [b_val b_seq b_cid]. splits; auto; try lia.
        * rewrite EC, EV. destruct s' as [es]. apply tcid_eq.
        * apply wk_none. cbn [b_val]. rewrite EV. destruct s' as [es]. apply vtype_node.
      + apply writes_blocks_get in H as [H|(w & v & HI & A & RR & EC & EV)]; [discriminate|].
        subst c b. unfold wblock. cbn [mk_block b_seq b_cid b_val]. splits; auto; try lia. eapply wk_record; eauto. }
  assert (NT : forall n' t', wf kdigest n' t' -> b_cid cblock <> tcid digest t').
  { intros n' [es] _ X. rewrite tcid_eq in X. unfold cblock in X. cbn [StoreProofs.finish_block mk_block b_cid] in X. apply cid_of_inj in X; auto.
    rewrite commit_norm in X. symmetry in X. eapply node_not_commit; eauto. }
  assert (M1 : forall c v, dget c (vals bl) = Some v -> dget c (vals bl') = Some v).
  { intros c v. rewrite !dget_vals, GS. destruct (dget c bl); [auto|discriminate]. }
  destruct (closed_extend digest kdigest inj (rdv bl) (rdv bl') bs n t (w_closed _ _ SO) W B1 B2 M1)
    as [ST CL].
  { intros c HI. rewrite dget_vals, GS. destruct (dget c bl) as [b|] eqn:EB; [discriminate|].
    rewrite GN. destruct (str_eqb c (b_cid cblock)); [discriminate|].
    destruct (dget c bs) as [v|] eqn:EV; [discriminate|]. exfalso. apply dget_None in EV. auto. }
  { intros c v. rewrite !dget_vals, GS. destruct (dget c bl) as [b|] eqn:EB; [auto|].
    rewrite GN. destruct (str_eqb_spec c (b_cid cblock)) as [->|NE].
    - intros _. right. right. exact NT.
    - destruct (dget c bs) as [v'|] eqn:EV.
      + cbn [option_map b_val]. intros [= ->]. right. left. apply dget_In. auto.
      + destruct (dget c blocks) as [b|] eqn:EK; [|discriminate]. intros _. right. right.
        apply writes_blocks_get in EK as [H|(w & v' & HI & A & RR & EC & _)]; [discriminate|]. subst c.
        intros n' t' W'. apply (plain_not_node digest kdigest inj v' n' t'); eauto. }
  assert (W2 : weak bl' (seq + 1)).
  { split; [|exact CL]. intros c b H. rewrite GS in H. destruct (dget c bl) as [b'|] eqn:EB; [|auto].
    injection H as ->. destruct (w_block _ _ SO _ _ EB) as (H1 & H2 & H3 & H4). unfold wblock. splits; auto; lia. }
  splits; auto.
  - intros c b H. rewrite GS, H. auto.
  - assert (X : dget (b_cid cblock) bl' <> None).
    { rewrite GS. destruct (dget (b_cid cblock) bl); [discriminate|]. rewrite GN, str_eqb_refl. discriminate. }
    destruct (dget (b_cid cblock) bl') as [b'|] eqn:D; [|congruence]. exists b'. split; auto. eapply weak_val; eauto.
  - exists n, t. splits; auto. exact (rep_mono digest (rdv bl) (rdv bl') n M1 _ _ R).
  - intros w v HI A RR.
    assert (X : dget (rcid v) bl' <> None).
    { rewrite GS. destruct (dget (rcid v) bl); [discriminate|]. rewrite GN.
      destruct (str_eqb (rcid v) (b_cid cblock)); [discriminate|].
      destruct (dget (rcid v) bs); [discriminate|]. eapply writes_blocks_has; eauto. }
    rewrite dget_vals. destruct (dget (rcid v) bl') as [b|] eqn:EB; [|congruence].
    cbn [option_map]. f_equal. apply (weak_val bl' (seq + 1) (rcid v) b (mk_block digest v None 0 None) W2 EB). reflexivity.
Qed.

End Live.
