(** Facts about the event log, the block scans and the block store, in the form of the
    properties. *)
From Coq Require Import String List NArith ZArith Bool Lia Sorted Permutation.
From Coq Require Import ZifyBool ZifyNat ZifyN.
From Verif Require Import Base Lists Ipld IpldProofs MstModel MstTree MstRep MstHist TidModel BlockModel
  CarModel StorageModel StorageSpec CommitProofs StoreProofs ExecProofs RepoSpec RepoProofs RepoHist RepoSteps RepoFacts
  EventsModel EventsSpec EventsProofs EventsHist.
Import ListNotations.

Lemma Forall2_impl {A B} (R R' : A -> B -> Prop) l1 l2 : (forall a b, R a b -> R' a b) -> Forall2 R l1 l2 -> Forall2 R' l1 l2.
Proof. intros H. induction 1; auto. Qed.

Lemma NoDup_app_intro {A} (l1 l2 : list A) : NoDup l1 -> NoDup l2 -> (forall x, In x l1 -> In x l2 -> False) -> NoDup (l1 ++ l2).
Proof.
  induction 1 as [|x l1 N ND IH]; intros N2 D; cbn; auto. constructor.
  - intros H. apply in_app_or in H as [H|H]; auto. apply (D x); cbn; auto.
  - apply IH; auto. intros y H1 H2. apply (D y); cbn; auto.
Qed.

(** ** Events *)

Section Facts.
Variable digest : list N -> list N.
Variable kdigest : str -> list N.
Variable validate : ipld -> res unit.
Variable ecdsa : N -> Z -> list N -> list N.
Variable now : Z -> str.
Variable cb : nat -> option exn.
Variable be : backend.
Notation inv := (inv digest kdigest validate ecdsa be).
Notation sstep := (sstep digest kdigest validate ecdsa now cb be).
Notation srun := (srun digest kdigest validate ecdsa now cb be).
Notation history := (history digest kdigest validate ecdsa now cb be).
Notation clean_from := (clean_from digest kdigest validate ecdsa now cb be).
Notation log_from := (log_from digest kdigest validate ecdsa now cb be).
Notation entry_block := (entry_block digest ecdsa now).
Hypothesis SET : setting digest kdigest validate cb.

Lemma run_log ops : forall w bk lg es w' outs, inv (w_state w) (w_refs w) bk -> Forall op_named ops ->
  (be = Memory -> clean_from w ops) -> srun w ops = (w', outs) ->
  log_ok (w_state w) lg -> Forall2 (entry_block (w_state w)) lg es ->
  exists lg', log_ok (w_state w') lg' /\ Forall2 (entry_block (w_state w')) lg' (es ++ log_from w ops).
Proof.
  induction ops as [|o ops IH]; intros w bk lg es w' outs I F CL E L FE.
  - injection E as <- <-. exists lg. cbn. rewrite app_nil_r. auto.
  - inversion F as [|? ? F1 F2]; subst. cbn [StorageModel.srun EventsSpec.log_from] in *.
    destruct (sstep w o) as [w1 out] eqn:S1.
    pose proof (step_eff digest kdigest validate ecdsa now cb be SET _ _ _ _ _ I F1 S1) as EF.
    assert (CS : be = Memory -> clean_step (World (w_state w) (w_refs w)) o out).
    { intros BE. specialize (CL BE). cbn [RepoSpec.clean_from] in CL. rewrite world_eta. rewrite S1 in CL. exact (proj1 CL). }
    assert (I1 : inv (w_state w1) (w_refs w1) (book_step bk o out)).
    { destruct SET as (K1 & K2 & K3 & K4). eapply (effect_inv digest kdigest validate ecdsa now cb be); eauto. }
    destruct (effect_log digest kdigest validate ecdsa now be _ _ _ _ _ _ _ lg I EF L) as (new & L1 & N1).
    rewrite world_eta in N1.
    pose proof (effect_extends digest kdigest validate ecdsa now be _ _ _ _ _ _ _ I EF) as [EX _].
    destruct (srun w1 ops) as [w2 outs2] eqn:S2. injection E as <- <-.
    rewrite app_assoc. eapply IH; eauto.
    + intros BE. specialize (CL BE). cbn [RepoSpec.clean_from] in CL. rewrite S1 in CL. exact (proj2 CL).
    + apply Forall2_app; auto. eapply Forall2_impl; [|exact FE]. intros a b. apply entry_block_mono. exact EX.
Qed.

Lemma hist_log ops w outs : history ops w outs ->
  exists lg, log_ok (w_state w) lg /\ Forall2 (entry_block (w_state w)) lg (log_from init_world ops).
Proof.
  intros (R & F & CL).
  destruct (run_log ops init_world [] [] [] w outs (init_inv digest kdigest validate ecdsa be) F CL R) as (lg & A & B); eauto.
  split; cbn; try tauto; try constructor. intros c b H. discriminate H.
Qed.

Lemma heads_of st lg start repo bs : log_ok st lg -> enumerates st start repo bs ->
  (forall k b, read st k = Some b -> b_cid b = k) -> heads st (filter (in_range start repo) lg) bs.
Proof.
  clear. intros [L1 L2 L3 L4] (ND & SO & EN) CK.
  assert (RG : forall a b, b_seq a = b_seq b -> b_repo a = b_repo b -> in_range start repo a = in_range start repo b).
  { intros a b A B. unfold in_range. rewrite A, B. auto. }
  assert (UN : forall a b, In a lg -> In b lg -> b_seq a = b_seq b -> a = b).
  { clear - L1. induction L1 as [|x l S IH F]; [intros a b []|]. rewrite Forall_forall in F.
    intros a b [<-|A] [<-|B] E; auto; [specialize (F _ B)|specialize (F _ A)]; lia. }
  split.
  - apply StronglySorted_filter. auto.
  - intros e HE. apply filter_In in HE as [HE R]. apply EN. split; eauto.
  - intros e HE. apply filter_In in HE as [HE R]. auto.
  - intros b HB. apply EN in HB as [(c & RB) R]. destruct (L4 c b RB) as (e & A & B & C & D).
    exists e. splits; auto. apply filter_In. split; auto. rewrite (RG e b); auto.
  - intros e c b HE RB SB. apply filter_In in HE as [HE R]. apply EN. split; [eauto|].
    destruct (L4 c b RB) as (e' & A & B & C & D). assert (e' = e) by (apply UN; auto; congruence). subst e'.
    rewrite <- (RG e b); auto.
Qed.

Lemma c25_events ops w outs start repo bs : history ops w outs -> enumerates (w_state w) start repo bs ->
  exists items, read_events (w_state w) (Ok bs) = (items, None) /\
    Forall2 (entry_item ecdsa now (w_state w)) items (filter (entry_selected start repo) (log_from init_world ops)).
Proof.
  intros H EN. destruct (hist_log _ _ _ H) as (lg & L & FE).
  assert (CK : forall k b, read (w_state w) k = Some b -> b_cid b = k /\ b_seq b <> 0%Z).
  { intros k b R. destruct (c26_cid digest kdigest validate ecdsa now cb be SET _ _ _ _ _ H R) as (A & _ & B). split; auto. lia. }
  assert (HD : heads (w_state w) (filter (in_range start repo) lg) bs).
  { apply heads_of; auto. intros k b R. apply (CK k b R). }
  destruct EN as (ND & SO & EN).
  destruct (heads_loop (w_state w) (fun k b R => proj1 (CK k b R)) _ bs None None [] [] HD SO ND) as (items & E & F).
  - intros b HB. apply EN in HB as [(c & R) _]. destruct (CK c b R) as [-> N]. split; [exact R|exact N].
  - constructor.
  - discriminate.
  - exists items. split; [exact E|].
    pose proof (entry_filter digest ecdsa now (w_state w) lg _ start repo FE) as FF.
    assert (RD : Forall (fun b => read (w_state w) (b_cid b) = Some b) (filter (in_range start repo) lg)).
    { apply Forall_forall. intros b HB. apply filter_In in HB as [HB _]. exact (lo_in _ _ L b HB). }
    clear - F FF RD. revert F FF RD. generalize (filter (in_range start repo) lg), (filter (entry_selected start repo) (log_from init_world ops)).
    intros l1 l2 F. revert l2. induction F as [|i b items l BI F IH]; intros l2 FF RD; inversion FF; inversion RD; subst; constructor; auto.
    eapply entry_block_item; eauto.
Qed.

Lemma c25_sorted ops w outs : history ops w outs ->
  StronglySorted Z.lt (map entry_seq (log_from init_world ops)) /\
  forall e, In e (log_from init_world ops) -> (0 < entry_seq e < s_next (w_state w))%Z.
Proof.
  intros H. destruct (hist_log _ _ _ H) as (lg & L & FE). destruct L as [L1 L2 _ _].
  assert (M : map entry_seq (log_from init_world ops) = map b_seq lg).
  { clear - FE. induction FE as [|b e lg es HE F IH]; cbn; auto. f_equal; auto.
    symmetry. eapply entry_block_facts; eauto. }
  rewrite M. split.
  - clear - L1. induction L1 as [|x l S IH F]; cbn; constructor; auto. rewrite Forall_map. exact F.
  - intros e HE. apply (in_map entry_seq) in HE. rewrite M in HE. apply in_map_iff in HE as (b & <- & HB).
    destruct (c26_cid digest kdigest validate ecdsa now cb be SET _ _ _ _ _ H (L2 b HB)) as (_ & _ & X). exact X.
Qed.

End Facts.

(** ** Sorting *)

Lemma seq_insert_perm b l : Permutation (seq_insert b l) (b :: l).
Proof.
  induction l as [|x l IH]; cbn; auto. destruct (_ <? _)%Z; auto.
  rewrite IH. apply perm_swap.
Qed.

Lemma seq_insert_sorted b l : in_order l -> in_order (seq_insert b l).
Proof.
  induction 1 as [|x l S IH F]; cbn; [repeat constructor|].
  destruct (Z.ltb_spec (b_seq b) (b_seq x)) as [LT|GE].
  - constructor; [constructor; auto|]. constructor; [lia|]. eapply Forall_impl; [|exact F]. cbn. intros a. lia.
  - constructor; auto. eapply Permutation_Forall; [symmetry; apply seq_insert_perm|]. constructor; auto.
Qed.

Lemma seq_sort_gen l : forall acc, in_order acc -> in_order (fold_left (fun acc b => seq_insert b acc) l acc) /\
  Permutation (fold_left (fun acc b => seq_insert b acc) l acc) (acc ++ l).
Proof.
  induction l as [|b l IH]; intros acc SO; cbn [fold_left].
  - rewrite app_nil_r. auto.
  - destruct (IH (seq_insert b acc)) as [A B]; [apply seq_insert_sorted; auto|]. split; auto.
    rewrite B. rewrite seq_insert_perm. cbn. apply Permutation_middle.
Qed.

Lemma seq_sort_ok l : in_order (seq_sort l) /\ Permutation (seq_sort l) l.
Proof. apply (seq_sort_gen l []). constructor. Qed.

(** Storages in which blocks are stored under their CIDs, as all are. *)
Definition keyed_store (st : state) : Prop := NoDup (keys (s_blocks st)) /\ forall k b, read st k = Some b -> b_cid b = k.

Lemma stored_cids st : keyed_store st -> map b_cid (map snd (s_blocks st)) = keys (s_blocks st).
Proof.
  intros [ND CK]. unfold keys. rewrite map_map. apply map_ext_in. intros [c b] HI. cbn.
  apply CK. apply In_dget; auto.
Qed.

Lemma sorted_enumerates st start repo bl : keyed_store st -> Permutation bl (map snd (s_blocks st)) ->
  enumerates st start repo (seq_sort (filter (in_range start repo) bl)).
Proof.
  intros KS PB. pose proof KS as [ND CK].
  destruct (seq_sort_ok (filter (in_range start repo) bl)) as [SO PM]. split; [|split].
  - eapply Permutation_NoDup; [apply Permutation_map; symmetry; exact PM|]. apply NoDup_map_filter.
    eapply Permutation_NoDup; [apply Permutation_map; symmetry; exact PB|]. rewrite stored_cids; auto.
  - exact SO.
  - intros b.
    assert (X : In b (seq_sort (filter (in_range start repo) bl)) <-> In b (filter (in_range start repo) bl)).
    { split; apply Permutation_in; [|symmetry]; exact PM. }
    assert (Y : In b bl <-> In b (map snd (s_blocks st))) by (split; apply Permutation_in; [|symmetry]; exact PB).
    rewrite X, filter_In, Y, in_map_iff. split.
    + intros [((c & b') & E & HI) R]. cbn in E. subst b'. split; auto. exists c. apply In_dget; auto.
    + intros [(c & RB) R]. split; auto. exists (c, b). split; auto. apply dget_In. exact RB.
Qed.

Lemma mem_enumerates st start repo : keyed_store st -> (0 <= start)%Z ->
  exists bs, mem_blocks_by_seq st start repo = Ok bs /\ enumerates st start repo bs.
Proof.
  intros KS S0. unfold mem_blocks_by_seq. destruct (Z.ltb_spec start 0); [lia|]. eexists. split; [reflexivity|].
  apply sorted_enumerates; auto.
Qed.

Lemma flip_ok st repo (i : nat) cur : keyed_store st ->
  enumerates st cur repo (seq_sort (filter (in_range cur repo) (if Nat.even i then map snd (s_blocks st) else rev (map snd (s_blocks st))))).
Proof. intros KS. apply sorted_enumerates; auto. destruct (Nat.even i); auto. symmetry. apply Permutation_rev. Qed.

(** ** The restarted scan *)

Section Scan.
Variable st : state.
Variable start : Z.
Variable repo : option str.
Hypothesis CK : forall k b, read st k = Some b -> b_cid b = k.

Definition sel (b : block) : Prop := (exists c, read st c = Some b) /\ in_range start repo b = true.

Record scan_inv (cur : Z) (cids : list str) (out : list block) : Prop := {
  si_order : in_order out;
  si_nodup : NoDup (map b_cid out);
  si_sel : forall b, In b out -> sel b /\ (b_seq b <= cur)%Z;
  si_before : forall b, sel b -> (b_seq b < cur)%Z -> In b out;
  si_cids : forall c, In c cids <-> exists b, In b out /\ b_seq b = cur /\ b_cid b = c
}.

Lemma sel_cid a b : sel a -> sel b -> b_cid a = b_cid b -> a = b.
Proof. intros [(c & A) _] [(d & B) _] E. rewrite (CK _ _ A), (CK _ _ B) in E. congruence. Qed.

Lemma scan_rows_ok l : forall rest cur cids out, scan_inv cur cids out -> in_order (l ++ rest) ->
  (forall b, In b (l ++ rest) -> sel b /\ (cur <= b_seq b)%Z) -> (forall b, sel b -> In b out \/ In b (l ++ rest)) ->
  let '(cur', cids', o) := scan_rows cur cids l in
  scan_inv cur' cids' (out ++ o) /\ (cur <= cur')%Z /\ forall b, sel b -> In b (out ++ o) \/ In b rest.
Proof.
  induction l as [|b l IH]; intros rest cur cids out I SO RS COV; cbn [scan_rows].
  - rewrite app_nil_r. splits; auto. lia.
  - cbn [app] in SO, RS, COV. inversion SO as [|? ? SO' F]; subst. rewrite Forall_forall in F.
    destruct (RS b (or_introl eq_refl)) as [SB GE].
    set (cids1 := if (b_seq b =? cur)%Z then cids else []).
    assert (I1 : scan_inv (b_seq b) cids1 out).
    { destruct I as [I1 I2 I3 I4 I5]. split; auto.
      - intros x HX. destruct (I3 x HX). split; auto. lia.
      - intros x SX LT. destruct (COV x SX) as [|[<-|HX]]; auto; [lia|]. specialize (F x HX). lia.
      - intros c. unfold cids1. destruct (Z.eqb_spec (b_seq b) cur) as [E|NE]; [rewrite E; apply I5|].
        split; [intros []|]. intros (x & HX & SX & _). destruct (I3 x HX). lia. }
    assert (RS' : forall x, In x (l ++ rest) -> sel x /\ (b_seq b <= b_seq x)%Z).
    { intros x HX. split; [apply RS; right; auto|apply F; auto]. }
    destruct (mem_str (b_cid b) cids1) eqn:ME.
    + assert (IB : In b out).
      { apply mem_str_In in ME. apply (si_cids _ _ _ I1) in ME as (x & HX & _ & E). destruct (si_sel _ _ _ I1 x HX) as [SX _].
        rewrite <- (sel_cid x b SX SB E). exact HX. }
      specialize (IH rest (b_seq b) cids1 out I1 SO' RS').
      destruct (scan_rows (b_seq b) cids1 l) as [[cur' cids'] o]. destruct IH as (A & B & C).
      * intros x SX. destruct (COV x SX) as [|[<-|]]; auto.
      * splits; auto. lia.
    + assert (NB : ~ In (b_cid b) cids1) by (intros X; apply mem_str_In in X; congruence).
      assert (NO : ~ In b out).
      { intros HB. apply NB. apply (si_cids _ _ _ I1). exists b. auto. }
      assert (I2 : scan_inv (b_seq b) (cids1 ++ [b_cid b]) (out ++ [b])).
      { destruct I1 as [J1 J2 J3 J4 J5]. split.
        - apply StronglySorted_app. splits; auto; [repeat constructor|]. apply Forall_forall. intros x HX. constructor; [|constructor].
          apply J3. auto.
        - rewrite map_app. apply NoDup_app_intro; auto; [repeat constructor; intros []|].
          intros c HC [<-|[]]. apply in_map_iff in HC as (x & E & HX). destruct (J3 x HX) as [SX _].
          apply NO. rewrite <- (sel_cid x b SX SB E). exact HX.
        - intros x HX. apply in_app_or in HX as [HX|[<-|[]]]; auto. split; auto. lia.
        - intros x SX LT. apply in_or_app. auto.
        - intros c. rewrite in_app_iff, J5. split.
          + intros [(x & A & B)|[<-|[]]]; [exists x|exists b]; rewrite in_app_iff; cbn; auto.
          + intros (x & A & B). apply in_app_or in A as [A|[<-|[]]]; [left; exists x; auto|right; left; tauto]. }
      specialize (IH rest (b_seq b) (cids1 ++ [b_cid b]) (out ++ [b]) I2 SO' RS').
      destruct (scan_rows (b_seq b) (cids1 ++ [b_cid b]) l) as [[cur' cids'] o].
      rewrite <- app_assoc in IH. destruct IH as (A & B & C).
      * intros x SX. rewrite in_app_iff. destruct (COV x SX) as [|[<-|]]; cbn; auto.
      * splits; auto. lia.
Qed.

Lemma in_range_from cur b : (start <= cur)%Z -> in_range start repo b = true -> (cur <= b_seq b)%Z -> in_range cur repo b = true.
Proof. clear. unfold in_range. intros A B C. apply andb_prop in B as [_ ->]. rewrite andb_true_r. lia. Qed.
Lemma in_range_to cur b : (start <= cur)%Z -> in_range cur repo b = true -> in_range start repo b = true /\ (cur <= b_seq b)%Z.
Proof. clear. unfold in_range. intros A B. apply andb_prop in B as [B ->]. rewrite andb_true_r. lia. Qed.

Lemma scan_loop_ok query : (forall i cur, enumerates st cur repo (query i cur)) ->
  forall fails i cur cids out, (start <= cur)%Z -> scan_inv cur cids out ->
  enumerates st start repo (out ++ scan_loop query i fails cur cids).
Proof.
  intros Q. induction fails as [|n fails IH]; intros i cur cids out LE I; cbn [scan_loop];
    destruct (Q i cur) as (ND & SO & EN).
  - pose proof (scan_rows_ok (query i cur) [] cur cids out I) as R. rewrite app_nil_r in R.
    destruct (scan_rows cur cids (query i cur)) as [[cur' cids'] o]. destruct R as (A & B & C); auto.
    + intros b HB. apply EN in HB as [X Y]. destruct (in_range_to cur b LE Y). split; auto. split; auto.
    + intros b SB. destruct (Z_lt_le_dec (b_seq b) cur); [left; apply (si_before _ _ _ I); auto|right]. apply EN.
      destruct SB. split; auto. apply in_range_from; auto.
    + cbn [snd]. split; [apply (si_nodup _ _ _ A)|]. split; [apply (si_order _ _ _ A)|].
      intros b. split; [intros HB; apply (si_sel _ _ _ A b HB)|]. intros SB. destruct (C b SB) as [|[]]. auto.
  - pose proof (scan_rows_ok (firstn n (query i cur)) (skipn n (query i cur)) cur cids out I) as R.
    rewrite (firstn_skipn n) in R.
    destruct (scan_rows cur cids (firstn n (query i cur))) as [[cur' cids'] o]. destruct R as (A & B & C); auto.
    + intros b HB. apply EN in HB as [X Y]. destruct (in_range_to cur b LE Y). split; auto. split; auto.
    + intros b SB. destruct (Z_lt_le_dec (b_seq b) cur); [left; apply (si_before _ _ _ I); auto|right]. apply EN.
      destruct SB. split; auto. apply in_range_from; auto.
    + rewrite app_assoc. apply IH; auto. lia.
Qed.

Lemma scan_ok query fails : (forall i cur, enumerates st cur repo (query i cur)) -> (0 <= start)%Z ->
  exists bs, scan query fails start = Ok bs /\ enumerates st start repo bs.
Proof.
  intros Q S0. unfold scan. destruct (Z.ltb_spec start 0); [lia|]. eexists. split; [reflexivity|].
  apply (scan_loop_ok query Q fails 0 start [] []); [lia|]. split; try (constructor; fail); cbn.
  - intros b [].
  - intros b [_ R] LT. unfold in_range in R. lia.
  - intros c. split; [intros []|intros (b & [] & _)].
Qed.
End Scan.

(** ** Writing blocks *)

Section Write.
Variable digest : list N -> list N.
Variable be : backend.
Notation bstep := (bstep digest be).
Notation brun := (brun digest be).

Lemma setdefault_get bs : forall st c, read (fst (write_blocks bs st)) c
  = match read st c with Some b => Some b | None => dget c (map (fun b => (b_cid b, b)) bs) end.
Proof. intros st c. unfold write_blocks, modify, read. cbn. apply fold_setdefault_get. Qed.

Lemma write_obj_read did v n st st' out : write_obj digest be did v n st = (st', out) ->
  (st' = st /\ exists e, out = Err e) \/
  ((forall c, read st' c = match read st c with Some b => Some b | None =>
      if str_eqb c (cid_of digest (norm v)) then Some (mk_block digest v did n None) else None end) /\
   match out with
   | Ok b => (be = Memory /\ b = mk_block digest v did n None) \/ (be = Datastore /\ read st' (cid_of digest (norm v)) = Some b)
   | Err e => exists b, read st (cid_of digest (norm v)) = Some b /\ (n < b_seq b)%Z
   end).
Proof.
  unfold write_obj. cbv zeta. set (b := mk_block digest v did n None).
  assert (GET : forall c, read (fst (write_blocks [b] st)) c = match read st c with Some x => Some x | None =>
     if str_eqb c (cid_of digest (norm v)) then Some b else None end).
  { intros c. rewrite setdefault_get. cbn [map dget]. change (b_cid b) with (cid_of digest (norm v)). destruct (read st c); auto. }
  destruct be.
  - unfold assert. destruct (truthy v).
    + intros [= <- <-]. right. split; [exact GET|left; auto].
    + intros [= <- <-]. left. split; eauto.
  - unfold assert. destruct (Z.ltb_spec 0 n) as [LT|GE].
    + unfold bindM at 1. cbn [ret]. unfold bindM at 1.
      destruct (write_blocks [b] st) as [s1 u] eqn:W. assert (u = Ok tt) by (unfold write_blocks, modify in W; congruence). subst u.
      cbn [fst] in GET. unfold bindM at 1, reads.
      change (b_cid b) with (cid_of digest (norm v)). rewrite GET.
      destruct (read st (cid_of digest (norm v))) as [x|] eqn:RX.
      * destruct (Z.leb_spec (b_seq x) n).
        -- intros [= <- <-]. right. split; [exact GET|]. right. split; auto. rewrite GET, RX. auto.
        -- intros [= <- <-]. right. split; [exact GET|]. exists x. split; auto.
      * rewrite str_eqb_refl. destruct (Z.leb_spec (b_seq b) n) as [|X]; [|cbn in X; lia].
        intros [= <- <-]. right. split; [exact GET|]. right. split; auto. rewrite GET, RX, str_eqb_refl. auto.
    + intros [= <- <-]. left. split; eauto.
Qed.

Lemma bstep_kept st o c b : read st c = Some b -> read (fst (bstep st o)) c = Some b.
Proof.
  intros R. destruct o as [did v seq|bs|]; cbn [EventsModel.bstep].
  - assert (W : exists n st1, (match seq with Some n => ret n | None => allocate_seq end) st = (st1, Ok n) /\ s_blocks st1 = s_blocks st).
    { destruct seq as [n|]; eexists; eexists; split; reflexivity. }
    destruct W as (n & st1 & W & B). unfold write_value, bindM. rewrite W.
    destruct (write_obj digest be did v n st1) as [st' out] eqn:E.
    assert (X : read st' c = Some b).
    { assert (R1 : read st1 c = Some b) by (unfold read in *; rewrite B; exact R).
      destruct (write_obj_read _ _ _ _ _ _ E) as [(-> & _)|(G & _)]; auto. rewrite G, R1. auto. }
    destruct out; exact X.
  - unfold bindM. pose proof (setdefault_get bs st c) as G. rewrite R in G. destruct (write_blocks bs st) as [s1 [u|e]]; exact G.
  - exact R.
Qed.

Lemma brun_kept ops : forall st c b, read st c = Some b -> read (brun st ops) c = Some b.
Proof. induction ops as [|o ops IH]; intros st c b R; cbn; auto. apply IH. apply bstep_kept. auto. Qed.

Lemma bstep_write st did v seq st' out : bstep st (BWrite did v seq) = (st', out) ->
  let n := match seq with Some n => n | None => s_next st end in
  let c := cid_of digest (norm v) in
  match out with
  | Ok r => (forall k, k <> c -> read st' k = read st k) /\
      read st' c = Some (match read st c with Some old => old | None => mk_block digest v did n None end) /\
      exists b, r = Some b /\ (be = Memory -> b = mk_block digest v did n None) /\ (be = Datastore -> read st' c = Some b)
  | Err _ => forall k, read st' k = read st k
  end.
Proof.
  intros E n c. cbn [EventsModel.bstep] in E.
  assert (W : exists st1, (match seq with Some n => ret n | None => allocate_seq end) st = (st1, Ok n) /\ s_blocks st1 = s_blocks st).
  { unfold n. destruct seq as [m|]; eexists; split; reflexivity. }
  destruct W as (st1 & W & B). unfold write_value, bindM in E. rewrite W in E.
  assert (R1 : forall k, read st1 k = read st k) by (intros; unfold read; rewrite B; auto).
  destruct (write_obj digest be did v n st1) as [st2 o2] eqn:WO.
  destruct (write_obj_read _ _ _ _ _ _ WO) as [(-> & e & ->)|(G & O)].
  - injection E as <- <-. auto.
  - destruct o2 as [b|e]; injection E as <- <-.
    + splits.
      * intros k NE. rewrite G, R1. fold c. destruct (read st k); auto. destruct (str_eqb_spec k c); congruence.
      * rewrite G, R1. fold c. rewrite str_eqb_refl. destruct (read st c); auto.
      * exists b. splits; auto; intros BE; destruct O as [[? O]|[? O]]; solve [congruence|exact O].
    + destruct O as (x & RX & _). intros k. rewrite G, R1. fold c. fold c in RX. rewrite R1 in RX.
      destruct (read st k) eqn:RK; auto. destruct (str_eqb_spec k c); [congruence|auto].
Qed.

Lemma bstep_write_blocks st bs st' out : bstep st (BWriteBlocks bs) = (st', out) ->
  out = Ok None /\ (forall c b, read st c = Some b -> read st' c = Some b) /\
  (forall b, In b bs -> exists x, read st' (b_cid b) = Some x) /\
  (forall c x, read st' c = Some x -> read st c = Some x \/ (read st c = None /\ In x bs /\ b_cid x = c)) /\
  s_next st' = s_next st.
Proof.
  cbn [EventsModel.bstep]. unfold bindM. pose proof (setdefault_get bs st) as G.
  assert (NX : s_next (fst (write_blocks bs st)) = s_next st) by reflexivity.
  destruct (write_blocks bs st) as [s1 u] eqn:W. assert (u = Ok tt) by (unfold write_blocks, modify in W; congruence). subst u.
  intros [= <- <-]. cbn [fst] in *. splits; auto.
  - intros c b R. rewrite G, R. auto.
  - intros b HB. rewrite G. destruct (read st (b_cid b)) as [x|]; [eauto|].
    destruct (dget (b_cid b) (map (fun b => (b_cid b, b)) bs)) as [x|] eqn:D; [eauto|]. exfalso.
    apply dget_None in D. apply D. unfold keys. rewrite map_map. apply (in_map b_cid) in HB. exact HB.
  - intros c x R. rewrite G in R. destruct (read st c) as [y|]; [left; congruence|]. right. split; auto.
    apply dget_In in R. apply in_map_iff in R as (b & [= <- <-] & HB). auto.
Qed.

End Write.

Lemma read_many_ok st cids c : dget c (read_many st cids) = if mem_str c cids then Some (read st c) else None.
Proof.
  unfold read_many.
  assert (X : forall d, dget c (fold_left (fun d c => dset c (read st c) d) cids d)
    = if mem_str c cids then Some (read st c) else dget c d).
  { induction cids as [|k cids IH]; intros d; cbn [fold_left mem_str]; auto. rewrite IH, dget_dset.
    destruct (str_eqb_spec c k) as [->|NE]; cbn [orb]; destruct (mem_str _ cids); auto. }
  apply X.
Qed.

Lemma read_many_raw_ok be st cids : forall acc, (be = Memory -> forall c, In c cids -> read st c <> None) ->
  exists d, read_many_raw be st acc cids = Ok d /\
    forall c, dget c d = match (if mem_str c cids then read st c else None) with
                         | Some b => Some (encode (b_val b), b_seq b)
                         | None => dget c acc
                         end.
Proof.
  induction cids as [|k cids IH]; intros acc H; cbn [read_many_raw mem_str]; [eexists; split; eauto|].
  destruct (read st k) as [b|] eqn:R.
  - destruct (IH (dset k (encode (b_val b), b_seq b) acc)) as (d & E & G); [intros BE c HC; apply H; cbn; auto|].
    exists d. split; [exact E|]. intros c. rewrite G, dget_dset.
    destruct (str_eqb_spec c k) as [->|NE]; cbn [orb]; auto.
    rewrite R. destruct (mem_str k cids); auto.
  - destruct be; [exfalso; apply (H eq_refl k); cbn; auto|].
    destruct (IH acc ltac:(discriminate)) as (d & E & G). exists d. split; [exact E|]. intros c. rewrite G.
    destruct (str_eqb_spec c k) as [->|NE]; cbn [orb]; auto.
    rewrite R. destruct (mem_str k cids); auto.
Qed.

Lemma has_ok st c : has st c = true <-> exists b, read st c = Some b.
Proof. unfold has. destruct (read st c); cbn; split; eauto; try discriminate. intros (b & H). discriminate. Qed.

(** ** The properties *)

Section Props.
Variable digest : list N -> list N.
Variable kdigest : str -> list N.
Variable validate : ipld -> res unit.
Variable ecdsa : N -> Z -> list N -> list N.
Variable now : Z -> str.
Variable cb : nat -> option exn.
Notation history := (history digest kdigest validate ecdsa now cb).
Notation log_from := (log_from digest kdigest validate ecdsa now cb).

Lemma hist_keyed be ops w outs : setting digest kdigest validate cb -> history be ops w outs -> keyed_store (w_state w).
Proof.
  intros SET H. split.
  - destruct (hist_facts digest kdigest validate ecdsa now cb be SET _ _ _ H) as [I _].
    apply (so_nodup _ _ _ _ (i_store _ _ _ _ _ _ _ _ I)).
  - intros k b R. apply (c26_cid digest kdigest validate ecdsa now cb be SET _ _ _ _ _ H R).
Qed.

Lemma c25_memory ops w outs start repo : setting digest kdigest validate cb -> history Memory ops w outs -> (0 <= start)%Z ->
  exists items, read_events (w_state w) (mem_blocks_by_seq (w_state w) start repo) = (items, None) /\
    Forall2 (entry_item ecdsa now (w_state w)) items (filter (entry_selected start repo) (log_from Memory init_world ops)).
Proof.
  intros SET H S0. destruct (mem_enumerates (w_state w) start repo (hist_keyed _ _ _ _ SET H) S0) as (bs & -> & EN).
  eapply c25_events; eauto.
Qed.

Lemma c25_datastore ops w outs start repo query fails :
  setting digest kdigest validate cb -> history Datastore ops w outs -> (0 <= start)%Z ->
  (forall i cur, enumerates (w_state w) cur repo (query i cur)) ->
  exists items, read_events (w_state w) (scan query fails start) = (items, None) /\
    Forall2 (entry_item ecdsa now (w_state w)) items (filter (entry_selected start repo) (log_from Datastore init_world ops)).
Proof.
  intros SET H S0 Q. destruct (scan_ok (w_state w) start repo (proj2 (hist_keyed _ _ _ _ SET H)) query fails Q S0) as (bs & -> & EN).
  eapply c25_events; eauto.
Qed.

Lemma c25_order be ops w outs : setting digest kdigest validate cb -> history be ops w outs ->
  StronglySorted Z.lt (map entry_seq (log_from be init_world ops)) /\
  forall e, In e (log_from be init_world ops) -> (0 < entry_seq e < s_next (w_state w))%Z.
Proof. intros SET. apply c25_sorted. exact SET. Qed.
End Props.
