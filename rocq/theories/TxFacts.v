(** The theorems about concurrent commits. *)
From Coq Require Import String List NArith ZArith Bool Lia.
From Coq Require Import ZifyBool ZifyNat ZifyN.
From Verif Require Import Base Lists Ipld IpldProofs MstModel MstTree MstRep MstTrav
  MstClient MstSpec MstHist MstFacts TidModel TidProofs BlockModel BlockSpec
  StorageModel StorageSpec CommitProofs StoreProofs ExecProofs RepoSpec RepoProofs RepoHist RepoFacts
  TxModel TxSpec TxProofs EventsModel EventsSpec EventsFacts.
Import ListNotations.

Lemma dget_map {A B} (f : A -> B) k (l : list (str * A)) : dget k (map (fun kv => (fst kv, f (snd kv))) l) = option_map f (dget k l).
Proof. induction l as [|[k' v] l IH]; cbn [map dget fst snd]; auto. destruct (str_eqb k k'); auto. Qed.

(** ** Each call returns at most once *)
Section Calls.
Variable digest : list N -> list N.
Variable kdigest : str -> list N.
Variable validate : ipld -> res unit.
Variable ecdsa : N -> Z -> list N -> list N.
Notation tx_step := (tx_step digest kdigest validate ecdsa).
Notation tx_run := (tx_run digest kdigest validate ecdsa).

Definition running (pc : tx_pc) : option job :=
  match pc with
  | XIdle => None
  | XBegin j | XRead j _ _ | XPut j _ _ _ _ | XCommit j _ _ _ => Some j
  end.

Definition called_by (evs : list tx_event) (j : job) : Prop := exists t status, In (ECall t (j_did j) (j_writes j) status) evs.

Record calls (z0 : Z) (w : tx_world) (evs : list tx_event) : Prop := {
  ca_next : (z0 <= x_next w)%Z;
  ca_log : forall r, In r (x_log w) -> (z0 <= j_seq (t_job r) < x_next w)%Z /\ called_by evs (t_job r);
  ca_once : NoDup (map (fun r => j_seq (t_job r)) (x_log w));
  ca_run : forall t j, running (x_threads w t) = Some j -> (z0 <= j_seq j < x_next w)%Z /\ called_by evs j /\
    (forall r, In r (x_log w) -> j_seq (t_job r) <> j_seq j) /\
    forall u j', u <> t -> running (x_threads w u) = Some j' -> j_seq j' <> j_seq j
}.

Lemma called_more evs ev j : called_by evs j -> called_by (evs ++ [ev]) j.
Proof. intros (t & st & H). exists t, st. apply in_or_app. auto. Qed.

Lemma calls_more z0 w evs ev : calls z0 w evs -> calls z0 w (evs ++ [ev]).
Proof.
  intros [A B C D]. split; auto.
  - intros r H. destruct (B r H). split; auto using called_more.
  - intros t j H. destruct (D t j H) as (X & Y & Z). splits; auto using called_more; tauto.
Qed.

(** A thread goes on with the same call. *)
Lemma calls_at z0 w evs t j j' pc : calls z0 w evs -> running (x_threads w t) = Some j -> running pc = Some j' ->
  j_seq j' = j_seq j -> j_did j' = j_did j -> j_writes j' = j_writes j -> calls z0 (at_pc w t pc) evs.
Proof.
  intros [A B C D] R P E1 E2 E3. split; auto. intros u ju. cbn. destruct (Nat.eqb_spec u t) as [->|NE].
  - rewrite P. intros [= <-]. destruct (D _ _ R) as (X & Y & Z & W). rewrite E1. splits; auto; [lia|lia| |].
    + destruct Y as (t' & st & Y). exists t', st. rewrite E2, E3. auto.
    + intros u j2 NE. destruct (Nat.eqb_spec u t); [congruence|]. apply W; auto.
  - intros H. destruct (D _ _ H) as (X & Y & Z & W). splits; auto; [lia|lia|]. intros u' j2 NE'. destruct (Nat.eqb_spec u' t) as [->|NE2].
    + rewrite P. intros [= <-]. rewrite E1. apply (W t j); auto.
    + apply W; auto.
Qed.

Lemma calls_return z0 w evs t j r : calls z0 w evs -> running (x_threads w t) = Some j -> calls z0 (return_ w t j r) evs.
Proof.
  intros [A B C D] R. destruct (D _ _ R) as (X & Y & Z & W). split; auto.
  - intros x [<-|HI]; cbn [t_job]; auto.
  - cbn [return_ x_log map t_job]. constructor; auto. intros HI. apply in_map_iff in HI as (x & E & HI). exact (Z _ HI E).
  - intros u ju. cbn. destruct (Nat.eqb_spec u t) as [->|NE]; [discriminate|]. intros H.
    destruct (D _ _ H) as (X' & Y' & Z' & W'). splits; auto; [apply X'|apply X'| |].
    + intros x [<-|HI]; cbn [t_job]; auto. apply (W' t j); auto.
    + intros u' j2 NE'. destruct (Nat.eqb_spec u' t) as [->|NE2]; [discriminate|]. apply W'; auto.
Qed.

Lemma calls_abort z0 w evs t j : calls z0 w evs -> running (x_threads w t) = Some j -> calls z0 (abort w t j) evs.
Proof.
  intros H R. unfold abort. destruct (Nat.ltb _ _); [|apply calls_return; auto].
  eapply calls_at; [exact H|exact R|reflexivity|reflexivity|reflexivity|reflexivity].
Qed.

Lemma calls_same z0 w w' evs : x_next w' = x_next w -> x_threads w' = x_threads w -> x_log w' = x_log w -> calls z0 w evs -> calls z0 w' evs.
Proof. intros E1 E2 E3 [A B C D]. split; rewrite ?E1, ?E2, ?E3; auto. Qed.

Lemma calls_step z0 w evs ev : calls z0 w evs -> calls z0 (tx_step w ev) (evs ++ [ev]).
Proof.
  intros H. destruct ev as [t did ws status|t nonce|t|did status]; cbn [TxModel.tx_step].
  2-4: match goal with |- calls _ _ (_ ++ [?e]) => apply (calls_more z0 w evs e) in H end.
  - destruct (x_threads w t) eqn:T; try (apply calls_more; auto; fail).
    set (j := {| j_did := did; j_writes := ws; j_seq := x_next w; j_aborts := 0 |}).
    set (w1 := {| x_next := x_next w + 1; x_blocks := x_blocks w; x_ents := x_ents w; x_threads := x_threads w; x_log := x_log w |}).
    assert (CB : called_by (evs ++ [ECall t did ws status]) j).
    { exists t, status. apply in_or_app. right. left. reflexivity. }
    destruct (calls_more _ _ _ (ECall t did ws status) H) as [A B C D].
    assert (H2 : calls z0 (at_pc w1 t (XBegin j)) (evs ++ [ECall t did ws status])).
    { split; cbn [at_pc w1 x_next x_log x_threads].
      - lia.
      - intros r HI. destruct (B r HI). split; auto. lia.
      - exact C.
      - intros u ju. destruct (Nat.eqb_spec u t) as [->|NE].
        + intros [= <-]. cbn [j j_seq]. splits; auto; try lia.
          intros u j2 NE. destruct (Nat.eqb_spec u t); [congruence|]. intros R. destruct (D _ _ R). lia.
        + intros R. destruct (D _ _ R) as (X & Y & Z & W). splits; auto; try lia.
          intros u' j2 NE'. destruct (Nat.eqb_spec u' t); [|apply W; auto]. intros [= <-]. cbn [j j_seq]. lia. }
    destruct (is_some status); [|exact H2].
    pose proof (calls_return z0 _ _ t j (Err InactiveRepo) H2) as X.
    assert (R : running (x_threads (at_pc w1 t (XBegin j)) t) = Some j) by (cbn; rewrite Nat.eqb_refl; reflexivity).
    specialize (X R). destruct X as [A' B' C' D']. split; auto.
    intros u ju. specialize (D' u). cbn in D' |- *. destruct (Nat.eqb_spec u t) as [E0|NE]; [discriminate|].
    intros R1. destruct (D' ju) as (X & Y & Z & W); [destruct (Nat.eqb_spec u t); [congruence|auto]|].
    splits; auto; [apply X|apply X|]. intros u' j2 NE' R2. apply (W u' j2 NE'). cbn in R2 |- *. destruct (Nat.eqb_spec u' t); auto.
  - destruct (x_threads w t) as [|j|j v e|j v e cd new|j v e cd] eqn:T; auto;
      assert (R : running (x_threads w t) = Some j) by (rewrite T; reflexivity).
    + destruct (dget (j_did j) (x_ents w)) as [[v e]|]; [eapply calls_at; [exact H|exact R|reflexivity|reflexivity|reflexivity|reflexivity]|apply calls_return; auto].
    + destruct (attempt _ _ _ _ _ _ _ _) as [cd|x]; [eapply calls_at; [exact H|exact R|reflexivity|reflexivity|reflexivity|reflexivity]|apply calls_return; auto].
    + apply calls_at with (j := j) (j' := j); auto. eapply calls_same; [| | |exact H]; reflexivity.
    + destruct (dget (j_did j) (x_ents w)) as [[v' e']|]; [destruct (Nat.eqb v' v)|]; try (apply calls_abort; auto; fail).
      apply calls_return; auto. eapply calls_same; [| | |exact H]; reflexivity.
  - destruct (x_threads w t) as [|j|j v e|j v e cd new|j v e cd] eqn:T; auto; apply calls_abort; auto; rewrite T; reflexivity.
  - destruct (dget did (x_ents w)) as [[v e]|]; auto. eapply calls_same; [| | |exact H]; reflexivity.
Qed.

Lemma calls_run z0 evs : forall w evs0, calls z0 w evs0 -> calls z0 (tx_run w evs) (evs0 ++ evs).
Proof.
  induction evs as [|ev evs IH]; intros w evs0 H; [rewrite app_nil_r; exact H|].
  replace (evs0 ++ ev :: evs) with ((evs0 ++ [ev]) ++ evs) by (rewrite <- app_assoc; reflexivity).
  apply (IH (tx_step w ev)). apply calls_step. exact H.
Qed.

Lemma calls_start st : calls (s_next st) (tx_start st) [].
Proof. split; cbn; auto; try lia; try contradiction; try discriminate; constructor. Qed.

Theorem once st evs : let w := tx_run (tx_start st) evs in
  NoDup (map (fun r => j_seq (t_job r)) (x_log w)) /\
  forall r, In r (x_log w) -> (s_next st <= j_seq (t_job r) < x_next w)%Z /\
    exists t status, In (ECall t (j_did (t_job r)) (j_writes (t_job r)) status) evs.
Proof.
  cbv zeta. pose proof (calls_run (s_next st) evs _ _ (calls_start st)) as [A B C D]. split; auto.
Qed.
End Calls.

(** ** The commits are serial *)
Section Facts.
Variable digest : list N -> list N.
Variable kdigest : str -> list N.
Variable validate : ipld -> res unit.
Variable ecdsa : N -> Z -> list N -> list N.
Variable now : Z -> str.
Variable cb : nat -> option exn.
Hypothesis SET : setting digest kdigest validate cb.
Notation tx_run := (tx_run digest kdigest validate ecdsa).
Notation xinv := (xinv digest kdigest validate ecdsa).
Notation at_head := (at_head digest kdigest).
Notation history := (history digest kdigest validate ecdsa now cb Datastore).
Notation serial := (serial digest kdigest validate ecdsa).

Lemma head_shows st did recs h root o : at_head (s_blocks st) did recs h root -> r_mst o = mst_load root -> shows kdigest st o recs.
Proof.
  intros (_ & SN & RS) E. apply (snapshot_shows digest kdigest st recs o root); auto.
  - rewrite E. exact SN.
  - intros k H. destruct (dget k recs) as [v|] eqn:G; [|congruence].
    apply (rel_key digest kdigest _ _ _ k (rcid digest v) (snapshot_rel digest kdigest _ _ _ _ SN)).
    rewrite dget_cids_of, G. reflexivity.
Qed.

Lemma chained_serial st did key h0 recs0 l h recs :
  chained digest kdigest validate ecdsa (s_blocks st) did key h0 recs0 l h recs -> serial st did key h0 recs0 l h recs.
Proof.
  induction 1 as [|l h recs j cd C IH D F]; [constructor|].
  destruct F as (rev & root & F1 & F2 & F3 & F4 & F5 & F6 & F7 & F8). rewrite dget_vals in F7.
  destruct (dget (b_cid (cd_commit cd)) (s_blocks st)) as [b|] eqn:G; [|discriminate]. injection F7 as F7. rewrite D in *.
  eapply serial_commit; eauto. eapply head_shows; eauto.
Qed.

Definition start_records (bk : book) (did : str) : records := match dget did bk with Some (_, recs) => recs | None => [] end.

Lemma start_inv ops w outs : history ops w outs ->
  xinv (book_of [] ops outs) (s_ents (w_state w)) (tx_start (w_state w)) (start_records (book_of [] ops outs)).
Proof.
  intros H. destruct (hist_facts _ _ _ _ _ _ _ SET _ _ _ H) as [I _]. set (bk := book_of [] ops outs) in *.
  pose proof (i_store _ _ _ _ _ _ _ _ I) as SO.
  assert (DG : forall did, dget did (x_ents (tx_start (w_state w))) = option_map (fun e => (0, e)) (dget did (s_ents (w_state w)))).
  { intros did. apply (dget_map (fun e : entity => (0, e))). }
  split.
  - split; [|exact (so_closed _ _ _ _ SO)]. intros c b G. destruct (so_block _ _ _ _ SO _ _ G) as (A & B & _). auto.
  - intros did v e G. rewrite DG in G. destruct (dget did (s_ents (w_state w))) as [e0|] eqn:GE; [|discriminate].
    injection G as <- <-. unfold start_records. destruct (dget did bk) as [[key recs]|] eqn:B.
    + destruct (i_book _ _ _ _ _ _ _ _ I _ _ _ B) as (ID & RG & o & HS & GD & K & HN).
      exists key, recs, e0. rewrite B. unfold stored_repo in HS. rewrite GE in HS.
      destruct (dget (e_head e0) (s_blocks (w_state w))) as [b|] eqn:EB; [|discriminate].
      destruct (item_link (s "data") (b_val b)) as [data|] eqn:ED; [|discriminate]. injection HS as <-. cbn [r_key] in K.
      splits; auto; [|constructor].
      destruct GD as (h & root & HH & CH & SN). cbn [r_head] in HH. injection HH as <-. exists root.
      unfold TxProofs.at_head. cbn [tx_start x_blocks]. splits.
      * exists b. splits; auto; [eapply chain_did; eauto|eapply chain_data; eauto].
      * eapply chain_snapshot; eauto.
      * eapply chain_stored; eauto.
    + exfalso. apply (i_none _ _ _ _ _ _ _ _ I _ B). unfold registered. congruence.
  - intros did G. rewrite DG. destruct (dget did (s_ents (w_state w))); [discriminate|congruence].
  - intros t. exact Logic.I.
Qed.

Lemma sees w did v e recs root b : nonempty did = true -> dget did (x_ents w) = Some (v, e) ->
  at_head (x_blocks w) did recs (e_head e) root -> dget (e_head e) (x_blocks w) = Some b ->
  seen Datastore (tx_state w) did = Some (Repo (mst_load root) (Some b) (e_handle e) (e_status e) false (e_key e)).
Proof.
  intros NE G ((b' & GB & _ & RT) & _) GB'. rewrite GB in GB'. injection GB' as ->.
  assert (GE : dget did (s_ents (tx_state w)) = Some e).
  { cbn [tx_state s_ents]. rewrite (dget_map (fun ve : nat * entity => snd ve)), G. reflexivity. }
  assert (LD : load_repo Datastore did (tx_state w)
    = (add_obj (Repo (mst_load root) (Some b) (e_handle e) (e_status e) false (e_key e)) (tx_state w), Ok (Some 0))).
  { unfold load_repo. rewrite NE. unfold assert. rewrite (bindM_ok (ret tt) _ (tx_state w) (tx_state w) tt eq_refl).
    assert (EF : ent_find did (s_ents (tx_state w)) = Some (did, e)) by (unfold ent_find; rewrite GE; reflexivity).
    unfold bindM at 1, reads. rewrite EF. unfold repo_load. unfold bindM at 1. unfold bindM at 1, reads, read.
    change (s_blocks (tx_state w)) with (x_blocks w). rewrite GB. unfold bindM at 1, lift. rewrite RT. reflexivity. }
  unfold seen. rewrite LD. reflexivity.
Qed.

Theorem serial_ok ops w outs did key recs0 evs : history ops w outs -> dget did (book_of [] ops outs) = Some (key, recs0) ->
  let w' := tx_run (tx_start (w_state w)) evs in
  exists o0 b0 o b recs, seen Datastore (w_state w) did = Some o0 /\ r_head o0 = Some b0 /\
    seen Datastore (tx_state w') did = Some o /\ r_head o = Some b /\ r_key o = key /\
    serial (tx_state w') did key (b_cid b0) recs0 (commits did (x_log w')) (b_cid b) recs /\
    shows kdigest (tx_state w') o recs.
Proof.
  intros H B. cbv zeta. destruct SET as (klen & inj & VP & _).
  destruct (hist_facts _ _ _ _ _ _ _ SET _ _ _ H) as [I _].
  destruct (inv_run digest kdigest validate ecdsa klen inj VP _ _ evs _ _ (start_inv _ _ _ H)) as (cur & [SD EN DM _]).
  set (w' := tx_run (tx_start (w_state w)) evs) in *.
  destruct (seen_stored _ _ _ _ _ _ SET _ _ _ _ _ _ I B) as (o0 & S0 & HS & (h0 & root0 & HH & CH & _) & K).
  destruct (i_book _ _ _ _ _ _ _ _ I _ _ _ B) as (ID & RG & _).
  destruct (dget did (x_ents w')) as [[v e]|] eqn:G; [|exfalso; revert G; apply DM; exact RG].
  destruct (EN _ _ _ G) as (key' & recs0' & e0 & B' & E0 & EK & (root & AH) & C). rewrite B in B'. injection B' as <- <-.
  pose proof AH as ((b & GB & _) & _).
  assert (HB0 : b_cid h0 = e_head e0).
  { unfold stored_repo in HS. rewrite E0 in HS. destruct (dget (e_head e0) (s_blocks (w_state w))) as [b0|] eqn:EB; [|discriminate].
    destruct (item_link (s "data") (b_val b0)); [|discriminate]. injection HS as <-. cbn [r_head] in HH. injection HH as ->.
    destruct (so_block _ _ _ _ (i_store _ _ _ _ _ _ _ _ I) _ _ EB) as (X & _). exact X. }
  exists o0, h0, (Repo (mst_load root) (Some b) (e_handle e) (e_status e) false (e_key e)), b, (cur did). splits; auto.
  - eapply sees; eauto. destruct did; [discriminate ID|reflexivity].
  - destruct (sd_key _ _ _ SD _ _ GB) as [-> _]. rewrite HB0. apply chained_serial. exact C.
  - eapply head_shows; eauto.
Qed.

(** A call that is not disturbed succeeds, if its writes are allowed. *)
Theorem progress_ok ops w outs did key recs0 evs : history ops w outs -> dget did (book_of [] ops outs) = Some (key, recs0) ->
  let w' := tx_run (tx_start (w_state w)) evs in
  exists b0 h recs, option_map r_head (seen Datastore (w_state w) did) = Some (Some b0) /\
    serial (tx_state w') did key (b_cid b0) recs0 (commits did (x_log w')) h recs /\
    forall t ws n1 n2 n3 n4, x_threads w' t = XIdle -> writes_allowed validate recs ws -> (len ws <= 200)%N -> (x_next w' < 2 ^ 55)%Z ->
      exists j cd, j_did j = did /\ j_writes j = ws /\ j_seq j = x_next w' /\
      x_log (tx_run w' [ECall t did ws None; EStep t n1; EStep t n2; EStep t n3; EStep t n4])
      = {| t_job := j; t_result := Ok cd |} :: x_log w'.
Proof.
  intros H B. cbv zeta. destruct SET as (klen & inj & VP & _).
  destruct (hist_facts _ _ _ _ _ _ _ SET _ _ _ H) as [I _].
  destruct (inv_run digest kdigest validate ecdsa klen inj VP _ _ evs _ _ (start_inv _ _ _ H)) as (cur & [SD EN DM _]).
  destruct (calls_run digest kdigest validate ecdsa _ evs _ _ (calls_start (w_state w))) as [NX _ _ _].
  pose proof (i_next _ _ _ _ _ _ _ _ I) as POS.
  set (w' := tx_run (tx_start (w_state w)) evs) in *.
  destruct (seen_stored _ _ _ _ _ _ SET _ _ _ _ _ _ I B) as (o0 & S0 & HS & (h0 & root0 & HH & CH & _) & K).
  destruct (i_book _ _ _ _ _ _ _ _ I _ _ _ B) as (ID & RG & _).
  destruct (dget did (x_ents w')) as [[v e]|] eqn:G; [|exfalso; revert G; apply DM; exact RG].
  destruct (EN _ _ _ G) as (key' & recs0' & e0 & B' & E0 & EK & (root & AH) & C). rewrite B in B'. injection B' as <- <-.
  assert (HB0 : b_cid h0 = e_head e0).
  { unfold stored_repo in HS. rewrite E0 in HS. destruct (dget (e_head e0) (s_blocks (w_state w))) as [b0|] eqn:EB; [|discriminate].
    destruct (item_link (s "data") (b_val b0)); [|discriminate]. injection HS as <-. cbn [r_head] in HH. injection HH as ->.
    destruct (so_block _ _ _ _ (i_store _ _ _ _ _ _ _ _ I) _ _ EB) as (X & _). exact X. }
  exists h0, (e_head e), (cur did). splits; auto.
  - rewrite S0. cbn [option_map]. rewrite HH. reflexivity.
  - rewrite HB0. apply chained_serial. exact C.
  - intros t ws n1 n2 n3 n4 T AL LN SQ. set (j := {| j_did := did; j_writes := ws; j_seq := x_next w'; j_aborts := 0 |}).
    destruct (attempt_ok digest kdigest validate ecdsa klen inj (x_blocks w') j e n2 (cur did) root SD AH)
      as [(cd & AT & _)|(_ & X)].
    2:{ exfalso. apply X. cbn [j j_writes j_seq j_did]. splits; auto; try lia. destruct did; [discriminate ID|discriminate]. }
    exists j, cd. splits; auto. unfold TxModel.tx_run. cbn [fold_left].
    assert (E1 : forall x, tx_step digest kdigest validate ecdsa w' (ECall t did ws None) = x -> x_threads x t = XBegin j /\
       x_ents x = x_ents w' /\ x_blocks x = x_blocks w' /\ x_log x = x_log w').
    { intros x <-. cbn [tx_step]. rewrite T. cbn. rewrite Nat.eqb_refl. auto. }
    remember (tx_step digest kdigest validate ecdsa w' (ECall t did ws None)) as w1 eqn:W1.
    destruct (E1 w1 eq_refl) as (A1 & A2 & A3 & A4). clear E1 W1.
    assert (E2 : forall x, tx_step digest kdigest validate ecdsa w1 (EStep t n1) = x -> x_threads x t = XRead j v e /\
       x_ents x = x_ents w' /\ x_blocks x = x_blocks w' /\ x_log x = x_log w').
    { intros x <-. cbn [tx_step]. rewrite A1, A2. cbn [j_did j]. rewrite G. cbn. rewrite Nat.eqb_refl. auto. }
    remember (tx_step digest kdigest validate ecdsa w1 (EStep t n1)) as w2 eqn:W2.
    destruct (E2 w2 eq_refl) as (A5 & A6 & A7 & A8). clear E2 W2.
    assert (E3 : forall x, tx_step digest kdigest validate ecdsa w2 (EStep t n2) = x -> (exists new, x_threads x t = XPut j v e cd new) /\
       x_ents x = x_ents w' /\ x_log x = x_log w').
    { intros x <-. cbn [tx_step]. rewrite A5, A7, AT. cbn. rewrite Nat.eqb_refl. splits; eauto. }
    remember (tx_step digest kdigest validate ecdsa w2 (EStep t n2)) as w3 eqn:W3.
    destruct (E3 w3 eq_refl) as ((new & A9) & A10 & A11). clear E3 W3.
    assert (E4 : forall x, tx_step digest kdigest validate ecdsa w3 (EStep t n3) = x -> x_threads x t = XCommit j v e cd /\
       x_ents x = x_ents w' /\ x_log x = x_log w').
    { intros x <-. cbn [tx_step]. rewrite A9. cbn. rewrite Nat.eqb_refl. auto. }
    remember (tx_step digest kdigest validate ecdsa w3 (EStep t n3)) as w4 eqn:W4.
    destruct (E4 w4 eq_refl) as (A12 & A13 & A14). clear E4 W4.
    cbn [tx_step]. rewrite A12, A13. cbn [j_did j]. rewrite G, Nat.eqb_refl. cbn [return_ x_log with_ents]. rewrite A14. reflexivity.
Qed.

(** Blocks are keyed by their CIDs, each once. *)
Lemma nodup_run evs : forall w, NoDup (keys (x_blocks w)) -> NoDup (keys (x_blocks (tx_run w evs))).
Proof.
  induction evs as [|ev evs IH]; intros w H; [exact H|]. cbn [TxModel.tx_run fold_left]. apply IH.
  assert (AB : forall t j, x_blocks (abort w t j) = x_blocks w).
  { intros t j. unfold abort. destruct (Nat.ltb _ _); reflexivity. }
  destruct ev as [t did ws status|t nonce|t|did status]; cbn [tx_step].
  - destruct (x_threads w t); auto. destruct (is_some status); exact H.
  - destruct (x_threads w t) as [|j|j v e|j v e cd new|j v e cd]; auto.
    + destruct (dget _ _) as [[? ?]|]; exact H.
    + destruct (attempt _ _ _ _ _ _ _ _); exact H.
    + cbn [at_pc x_blocks]. generalize (x_blocks w) H. clear. induction new as [|b new IH]; intros bl H; auto.
      apply IH. apply dset_NoDup. auto.
    + destruct (dget _ _) as [[? ?]|]; [destruct (Nat.eqb _ _)|]; rewrite ?AB; exact H.
  - destruct (x_threads w t); rewrite ?AB; exact H.
  - destruct (dget _ _) as [[? ?]|]; exact H.
Qed.

Lemma tx_keyed ops w outs evs : history ops w outs -> keyed_store (tx_state (tx_run (tx_start (w_state w)) evs)).
Proof.
  intros H. destruct (hist_facts _ _ _ _ _ _ _ SET _ _ _ H) as [I _]. destruct SET as (klen & inj & VP & _).
  destruct (inv_run digest kdigest validate ecdsa klen inj VP _ _ evs _ _ (start_inv _ _ _ H)) as (cur & [SD _ _ _]). split.
  - apply nodup_run. exact (so_nodup _ _ _ _ (i_store _ _ _ _ _ _ _ _ I)).
  - intros k b G. destruct (sd_key _ _ _ SD _ _ G). auto.
Qed.
End Facts.
