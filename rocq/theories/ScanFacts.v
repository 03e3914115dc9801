(** The scan of the datastore while blocks are being written. *)
From Coq Require Import String List NArith ZArith Bool Lia Sorted.
From Verif Require Import Base Lists Ipld MstRep StorageModel EventsModel EventsSpec EventsProofs EventsFacts ScanSpec.
Import ListNotations.

Section Rows.
(** The blocks that there will ever be. *)
Variable ever : block -> Prop.
Hypothesis same : forall a b, ever a -> ever b -> b_cid a = b_cid b -> a = b.
Record walk_inv (cur : Z) (cids : list str) (out : list block) : Prop := {
  wi_order : in_order out;
  wi_nodup : NoDup (map b_cid out);
  wi_ever : forall b, In b out -> ever b /\ (b_seq b <= cur)%Z;
  wi_cids : forall c, In c cids <-> exists b, In b out /\ b_seq b = cur /\ b_cid b = c
}.
Lemma rows_walk l : forall cur cids out, walk_inv cur cids out -> in_order l -> (forall b, In b l -> ever b /\ (cur <= b_seq b)%Z) ->
  let '(cur', cids', o) := scan_rows cur cids l in
  walk_inv cur' cids' (out ++ o) /\ (cur' = cur \/ exists b, In b (out ++ o) /\ b_seq b = cur') /\ (forall b, In b o -> In b l) /\ (forall b, In b l -> In b (out ++ o)) /\
  (cur' = cur \/ exists b, In b l /\ b_seq b = cur').
Proof.
  induction l as [|b l IH]; intros cur cids out I SO RS; cbn [scan_rows].
  - rewrite app_nil_r. splits; auto. intros b [].
  - inversion SO as [|? ? SO' F]; subst. rewrite Forall_forall in F. destruct (RS b (or_introl eq_refl)) as [SB GE].
    set (cids1 := if (b_seq b =? cur)%Z then cids else []).
    assert (I1 : walk_inv (b_seq b) cids1 out).
    { destruct I as [I1 I2 I3 I5]. split; auto.
      - intros x HX. destruct (I3 x HX). split; auto. lia.
      - intros c. unfold cids1. destruct (Z.eqb_spec (b_seq b) cur) as [E|NE]; [rewrite E; apply I5|].
        split; [intros []|]. intros (x & HX & SX & _). destruct (I3 x HX). lia. }
    assert (RS' : forall x, In x l -> ever x /\ (b_seq b <= b_seq x)%Z).
    { intros x HX. split; [apply RS; right; auto|apply F; auto]. }
    destruct (mem_str (b_cid b) cids1) eqn:ME.
    + assert (IB : In b out).
      { apply mem_str_In in ME. apply (wi_cids _ _ _ I1) in ME as (x & HX & _ & E). destruct (wi_ever _ _ _ I1 x HX) as [SX _].
        rewrite <- (same x b SX SB E). exact HX. }
      specialize (IH (b_seq b) cids1 out I1 SO' RS').
      destruct (scan_rows (b_seq b) cids1 l) as [[cur' cids'] o]. destruct IH as (A & B & C & D & E). splits; auto.
      * right. destruct B as [->|B]; [|exact B]. exists b. rewrite in_app_iff. auto.
      * intros x HX. right. auto.
      * intros x [<-|HX]; [apply in_or_app; auto|auto].
      * right. destruct E as [->|(x & HX & E)]; [exists b; split; [left; reflexivity|reflexivity]|exists x; split; [right; exact HX|exact E]].
    + assert (NB : ~ In (b_cid b) cids1) by (intros X; apply mem_str_In in X; congruence).
      assert (NO : ~ In b out).
      { intros HB. apply NB. apply (wi_cids _ _ _ I1). exists b. auto. }
      assert (I2 : walk_inv (b_seq b) (cids1 ++ [b_cid b]) (out ++ [b])).
      { destruct I1 as [J1 J2 J3 J5]. split.
        - apply StronglySorted_app. splits; auto; [repeat constructor|]. apply Forall_forall. intros x HX. constructor; [|constructor].
          apply J3. auto.
        - rewrite map_app. apply NoDup_app_intro; auto; [repeat constructor; intros []|].
          intros c HC [<-|[]]. apply in_map_iff in HC as (x & E & HX). destruct (J3 x HX) as [SX _].
          apply NO. rewrite <- (same x b SX SB E). exact HX.
        - intros x HX. apply in_app_or in HX as [HX|[<-|[]]]; auto. split; auto. lia.
        - intros c. rewrite in_app_iff, J5. split.
          + intros [(x & A & B)|[<-|[]]]; [exists x|exists b]; rewrite in_app_iff; cbn; auto.
          + intros (x & A & B). apply in_app_or in A as [A|[<-|[]]]; [left; exists x; auto|right; left; tauto]. }
      specialize (IH (b_seq b) (cids1 ++ [b_cid b]) (out ++ [b]) I2 SO' RS').
      destruct (scan_rows (b_seq b) (cids1 ++ [b_cid b]) l) as [[cur' cids'] o].
      rewrite <- app_assoc in IH. destruct IH as (A & B & C & D & E). splits; auto.
      * right. destruct B as [->|B]; [|exact B]. exists b. rewrite !in_app_iff. cbn. auto.
      * intros x [<-|HX]; [left; reflexivity|right; auto].
      * intros x [<-|HX]; [rewrite !in_app_iff; cbn; auto|auto].
      * right. destruct E as [->|(x & HX & E)]; [exists b; split; [left; reflexivity|reflexivity]|exists x; split; [right; exact HX|exact E]].
Qed.
End Rows.

Section Grow.
Variable states : nat -> state.
Variable repo : option str.
Variable start : Z.
Hypothesis keys_ok : forall i k b, read (states i) k = Some b -> b_cid b = k.
Hypothesis growing : forall i k b, read (states i) k = Some b -> read (states (S i)) k = Some b.
Variable query : nat -> Z -> list block.
Hypothesis queries : forall i cur, queried (states i) (states (S i)) cur repo (query i cur).
Notation at_ i b := (exists c, read (states i) c = Some b).
Lemma grown i j k b : i <= j -> read (states i) k = Some b -> read (states j) k = Some b.
Proof. induction 1; auto. Qed.
Definition ever (b : block) : Prop := exists i, at_ i b.
Lemma ever_same a b : ever a -> ever b -> b_cid a = b_cid b -> a = b.
Proof.
  intros (i & c & A) (j & d & B) E. rewrite (keys_ok _ _ _ A), (keys_ok _ _ _ B) in E. subst d.
  apply (grown i (max i j)) in A; [|lia]. apply (grown j (max i j)) in B; [|lia]. congruence.
Qed.
Record grow_inv (i : nat) (cur : Z) (cids : list str) (out : list block) : Prop := {
  gi_walk : walk_inv ever cur cids out;
  gi_top : cur = start \/ exists b, In b out /\ b_seq b = cur;
  gi_sel : forall b, In b out -> at_ i b /\ in_range start repo b = true;
  gi_old : forall b, at_ 0 b -> in_range start repo b = true -> (b_seq b < cur)%Z -> In b out
}.
Lemma in_order_app a b : in_order (a ++ b) -> in_order a /\ forall x y, In x a -> In y b -> (b_seq x <= b_seq y)%Z.
Proof.
  intros H. apply StronglySorted_app in H as (A & _ & F). split; [exact A|]. intros x y HX HY. rewrite Forall_forall in F. specialize (F x HX). rewrite Forall_forall in F. exact (F y HY).
Qed.
Lemma grow_step i cur cids out n : (start <= cur)%Z -> grow_inv i cur cids out ->
  let '(cur', cids', o) := scan_rows cur cids (firstn n (query i cur)) in (start <= cur')%Z /\ grow_inv (S i) cur' cids' (out ++ o).
Proof.
  intros LE [W T S O]. destruct (queries i cur) as (ND & SO & ALL & ONLY).
  pose proof (rows_walk ever ever_same (firstn n (query i cur)) cur cids out W) as R.
  assert (SO1 : in_order (firstn n (query i cur) ++ skipn n (query i cur))) by (rewrite firstn_skipn; exact SO). apply in_order_app in SO1 as [SO1 SO2].
  assert (FI : forall b, In b (firstn n (query i cur)) -> In b (query i cur)) by (intros b HB; rewrite <- (firstn_skipn n (query i cur)); apply in_or_app; auto).
  assert (FR : forall b, In b (firstn n (query i cur)) -> at_ (1 + i) b /\ in_range start repo b = true /\ (cur <= b_seq b)%Z).
  { intros b HB. apply FI, ONLY in HB as [A B]. destruct (in_range_to start repo cur b LE B) as [C D]. auto. }
  specialize (R SO1 ltac:(intros b HB; destruct (FR b HB) as (A & _ & C); split; [exists (1 + i); exact A|exact C])).
  destruct (scan_rows cur cids (firstn n (query i cur))) as [[cur' cids'] o]. destruct R as (R1 & R2 & R3 & R4 & R5).
  assert (LE' : (cur <= cur')%Z) by (destruct R5 as [->|(b & HB & <-)]; [lia|apply FR; exact HB]).
  split; [lia|]. split; [exact R1| | |].
  - destruct R2 as [->|R2]; [|auto]. destruct T as [T|(b & HB & E)]; [auto|right]. exists b. rewrite in_app_iff. auto.
  - intros b HB. apply in_app_or in HB as [HB|HB].
    + destruct (S b HB) as [(c & A) B]. split; [exists c; apply growing; exact A|exact B].
    + apply R3 in HB. destruct (FR b HB) as (A & B & _). auto.
  - intros b A B LT. destruct (Z_lt_le_dec (b_seq b) cur) as [L0|G0]; [apply in_or_app; left; apply O; assumption|].
    assert (IQ : In b (query i cur)).
    { apply ALL; [destruct A as [c A]; exists c; apply (grown 0 i); [lia|exact A]|]. apply in_range_from with (start := start); assumption. }
    rewrite <- (firstn_skipn n) in IQ. apply in_app_or in IQ as [IQ|IQ]; [apply R4; exact IQ|]. exfalso.
    destruct R5 as [->|(x & HX & E)]; [lia|]. pose proof (SO2 x b HX IQ). lia.
Qed.
Lemma grow_loop : forall fails i cur cids out, (start <= cur)%Z -> grow_inv i cur cids out ->
  let bs := out ++ scan_loop query i fails cur cids in let n := i + length fails in
  NoDup (map b_cid bs) /\ in_order bs /\ (forall b, In b bs -> at_ (1 + n) b /\ in_range start repo b = true) /\
  (forall b, at_ 0 b -> in_range start repo b = true -> In b bs) /\
  (forall b, at_ n b -> in_range start repo b = true -> In b bs \/ exists b', In b' bs /\ (b_seq b < b_seq b')%Z).
Proof.
  induction fails as [|m fails IH]; intros i cur cids out LE I bs n; cbn [scan_loop] in bs.
  - destruct (queries i cur) as (ND & SO & ALL & ONLY). pose proof (grow_step i cur cids out (length (query i cur)) LE I) as G. rewrite firstn_all in G.
    pose proof (rows_walk ever ever_same (query i cur) cur cids out (gi_walk _ _ _ _ I) SO) as R.
    assert (QR : forall b, In b (query i cur) -> ever b /\ (cur <= b_seq b)%Z).
    { intros b HB. apply ONLY in HB as [A B]. split; [exists (1 + i); exact A|]. apply (in_range_to start repo cur b LE B). }
    specialize (R QR). destruct (scan_rows cur cids (query i cur)) as [[cur' cids'] o]. destruct R as (_ & _ & _ & R4 & _). destruct G as [_ G]. cbn [snd] in bs. cbn [length] in n.
    replace n with i by (unfold n; lia). clear n. subst bs.
    assert (NEW : forall b, at_ i b -> in_range start repo b = true -> (cur <= b_seq b)%Z -> In b (out ++ o)).
    { intros b A B GE. apply R4, ALL; [exact A|]. apply in_range_from with (start := start); assumption. }
    splits; [apply (wi_nodup _ _ _ _ (gi_walk _ _ _ _ G))|apply (wi_order _ _ _ _ (gi_walk _ _ _ _ G))|apply (gi_sel _ _ _ _ G)| |].
    + intros b A B. destruct (Z_lt_le_dec (b_seq b) cur); [apply in_or_app; left; apply (gi_old _ _ _ _ I); assumption|]. apply NEW; auto. destruct A as [c A]. exists c. apply (grown 0 i); [lia|exact A].
    + intros b A B. destruct (Z_lt_le_dec (b_seq b) cur) as [L0|]; [|left; apply NEW; assumption]. right. destruct (gi_top _ _ _ _ I) as [E|(b' & HB & E)].
      * exfalso. unfold in_range in B. apply andb_true_iff in B as [B _]. apply Z.leb_le in B. lia.
      * exists b'. split; [apply in_or_app; auto|lia].
  - pose proof (grow_step i cur cids out m LE I) as G. destruct (scan_rows cur cids (firstn m (query i cur))) as [[cur' cids'] o]. destruct G as [LE' G].
    specialize (IH (S i) cur' cids' (out ++ o) LE' G). cbv zeta in IH. rewrite <- app_assoc in IH. replace n with (S i + length fails) by (unfold n; cbn [length]; lia). exact IH.
Qed.
Lemma scan_grown fails : (0 <= start)%Z -> let n := length fails in
  exists bs, scan query fails start = Ok bs /\ NoDup (map b_cid bs) /\ in_order bs /\ (forall b, In b bs -> at_ (S n) b /\ in_range start repo b = true) /\
  (forall b, at_ 0 b -> in_range start repo b = true -> In b bs) /\
  (forall b, at_ n b -> in_range start repo b = true -> In b bs \/ exists b', In b' bs /\ (b_seq b < b_seq b')%Z).
Proof.
  intros S0 n. unfold scan. destruct (Z.ltb_spec start 0); [lia|]. eexists. split; [reflexivity|].
  apply (grow_loop fails 0 start [] []); [lia|]. split; [split|..]; try (constructor; fail); cbn; try (intros b []; fail).
  - split; [intros []|intros (x & [] & _)].
  - auto.
  - intros b _ R LT. exfalso. unfold in_range in R. apply andb_true_iff in R as [R _]. apply Z.leb_le in R. lia.
Qed.
End Grow.

(** ** The case *)
Lemma enumerates_queried before after cur repo rows : (forall k b, read before k = Some b -> read after k = Some b) -> enumerates before cur repo rows -> queried before after cur repo rows.
Proof.
  intros G (ND & SO & EN). split; [exact ND|]. split; [exact SO|]. split.
  - intros b A B. apply EN. auto.
  - intros b HB. apply EN in HB as [(c & A) B]. split; [exists c; apply G; exact A|exact B].
Qed.
Fixpoint no_dup (l : list str) : bool := match l with [] => true | x :: r => negb (mem_str x r) && no_dup r end.
Lemma no_dup_ok l : no_dup l = true -> NoDup l.
Proof. induction l as [|x r IH]; cbn [no_dup]; intros H; constructor; apply andb_true_iff in H as [A B]; auto. intros I. apply mem_str_In in I. rewrite I in A. discriminate A. Qed.
Lemma keyedb_ok st : no_dup (keys (s_blocks st)) && forallb (fun cb => str_eqb (b_cid (snd cb)) (fst cb)) (s_blocks st) = true -> keyed_store st.
Proof.
  intros H. apply andb_true_iff in H as [A B]. split; [apply no_dup_ok; exact A|]. intros k b R. apply dget_In in R. rewrite forallb_forall in B. specialize (B _ R). apply str_eqb_eq in B. exact B.
Qed.
Lemma longer st st' rest : s_blocks st' = s_blocks st ++ rest -> forall k b, read st k = Some b -> read st' k = Some b.
Proof. intros E k b R. unfold read in *. rewrite E, dget_app, R. reflexivity. Qed.
