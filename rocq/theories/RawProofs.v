(** Proofs about reading many blocks from the datastore. *)
From Coq Require Import String List NArith ZArith Bool Lia Permutation.
From Verif Require Import Base Lists Ipld IpldProofs MstModel MstRep StorageModel EventsModel EventsFacts ServerModel ExportProofs RawModel RawSpec.
Import ListNotations.

Lemma dget_dset_same {V} (k : str) (v : V) d : dget k (dset k v d) = Some v.
Proof. rewrite dget_dset, str_eqb_refl. reflexivity. Qed.
Lemma dget_dset_other {V} (k k' : str) (v : V) d : k' <> k -> dget k' (dset k v d) = dget k' d.
Proof. intros H. rewrite dget_dset. destruct (str_eqb_spec k k') as [->|]; [congruence|]. destruct (str_eqb_spec k' k); [congruence|reflexivity]. Qed.

(** ** Batches and lookups *)

Lemma limit_pos : exists m, lookup_limit = S m.
Proof. unfold lookup_limit. eexists. cbn. reflexivity. Qed.

Lemma batches_concat l : forall f, length l <= f -> concat (batches f l) = l.
Proof.
  intros f. revert l. destruct limit_pos as (m & LM).
  induction f as [|f IH]; intros l L; [destruct l; [reflexivity|cbn in L; lia]|]. destruct l as [|x l]; [reflexivity|].
  cbn [batches concat]. rewrite IH; [apply firstn_skipn|]. rewrite LM. cbn [skipn length] in *. rewrite skipn_length. lia.
Qed.

Lemma batches_nonempty f : forall l b, In b (batches f l) -> b <> [].
Proof.
  destruct limit_pos as (m & LM). induction f as [|f IH]; intros [|x l] b H; cbn [batches] in H; try destruct H as [].
  - rewrite LM in H. cbn [firstn] in H. subst b. discriminate.
  - eauto.
Qed.

Section Lookups.
Variable ds : nat -> list str -> response.

Lemma lookups_in bs : forall n a, In a (lookups ds n bs) -> exists i b, In b bs /\ a = ds i b.
Proof.
  induction bs as [|b bs IH]; intros n a H; cbn [lookups] in H; [destruct H|].
  destruct H as [<-|H]; [exists n, b; cbn; auto|]. destruct (IH _ _ H) as (i & b' & HI & E). exists i, b'. cbn. auto.
Qed.

Lemma in_lookups bs : forall n b, In b bs -> exists i, In (ds i b) (lookups ds n bs).
Proof.
  induction bs as [|b' bs IH]; intros n b H; [destruct H|]. destruct H as [<-|H]; cbn [lookups]; [exists n; cbn; auto|].
  destruct (IH (S n) b H) as (i & HI). exists i. cbn. auto.
Qed.

Lemma deferred_less bs : advances ds -> (forall b, In b bs -> b <> []) -> forall n,
  length (flat_map snd (lookups ds n bs)) + length bs <= length (concat bs).
Proof.
  intros A. induction bs as [|b bs IH]; intros NE n; cbn [lookups flat_map concat length]; [lia|].
  rewrite !app_length. specialize (IH ltac:(intros; apply NE; cbn; auto) (S n)). pose proof (A n b (NE b (or_introl eq_refl))). lia.
Qed.
End Lookups.

(** ** One call *)

Section Call.
Variable st st' : state.
Variable ds : nat -> list str -> response.
Hypothesis LA : later st st'.
Variable name_of : cid -> str.
Hypothesis NI : forall a b, name_of a = name_of b -> a = b.
Hypothesis HO : honest name_of st st' ds.
Variable cids : list cid.
Notation row b := (encode (b_val b), b_seq b).

Definition k2c : list (str * cid) := fold_left (fun d c => dset (name_of c) c d) cids [].

Lemma k2c_get c : In c cids -> dget (name_of c) k2c = Some c.
Proof.
  intros H. unfold k2c.
  assert (G : forall l acc, (forall x, In x l -> In x cids) -> In c l \/ dget (name_of c) acc = Some c ->
    dget (name_of c) (fold_left (fun d c => dset (name_of c) c d) l acc) = Some c).
  { induction l as [|x l IH]; intros acc HL HC; cbn [fold_left]; [destruct HC as [[]|HC]; exact HC|].
    apply IH; [intros; apply HL; cbn; auto|].
    destruct (str_eqb_spec (name_of c) (name_of x)) as [E|NE].
    - right. apply NI in E. subst x. apply dget_dset_same.
    - destruct HC as [[<-|HC]|HC]; [congruence|auto|]. right. rewrite dget_dset_other by congruence. exact HC. }
  apply G; auto.
Qed.

Definition good (d : list (cid * (list N * Z))) : Prop := NoDup (keys d) /\
  forall c x, dget c d = Some x -> In c cids /\ exists b, read st' c = Some b /\ x = row b.

Lemma take_ok found : forall acc, good acc ->
  (forall name x, In (name, x) found -> exists c b, In c cids /\ name = name_of c /\ read st' c = Some b /\ x = row b) ->
  exists d, take_found k2c found acc = Ok d /\ good d /\
    forall c, In c cids -> dget c acc <> None \/ In (name_of c) (map fst found) -> dget c d <> None.
Proof.
  induction found as [|[name x] found IH]; intros acc G H; cbn [take_found].
  - exists acc. splits; auto. intros c _ [D|[]]. exact D.
  - destruct (H name x (or_introl eq_refl)) as (c & b & HC & -> & RB & ->). rewrite (k2c_get c HC).
    destruct (IH (dset c (row b) acc)) as (d & E & GD & K).
    + destruct G as [ND G]. split; [apply dset_NoDup; exact ND|]. intros c' x' D.
      destruct (str_eqb_spec c' c) as [->|NE]; [rewrite dget_dset_same in D; injection D as <-; eauto|].
      rewrite dget_dset_other in D by congruence. auto.
    + intros. apply H. cbn. auto.
    + exists d. splits; auto. intros c' HC' D. apply K; auto. cbn [map fst In] in D.
      destruct (str_eqb_spec c' c) as [->|NE]; [left; rewrite dget_dset_same; discriminate|].
      rewrite dget_dset_other by congruence. destruct D as [D|[D|D]]; auto.
Qed.

Lemma rounds_ok k : forall n pending acc, good acc ->
  (forall name, In name pending -> In name (map name_of cids)) ->
  (forall c, In c cids -> read st c <> None -> dget c acc <> None \/ In (name_of c) pending) ->
  (raw_rounds ds k n k2c pending acc = Err OutOfFuel /\ ~ (advances ds /\ length pending <= k)) \/
  exists d n', raw_rounds ds k n k2c pending acc = Ok (d, n') /\ good d /\ forall c, In c cids -> read st c <> None -> dget c d <> None.
Proof.
  induction k as [|k IH]; intros n pending acc G P A.
  - destruct pending as [|p pending]; cbn [raw_rounds].
    + right. exists acc, n. splits; auto. intros c HC HR. destruct (A c HC HR) as [D|[]]. exact D.
    + left. split; auto. intros [_ L]. cbn in L. lia.
  - destruct pending as [|p pending0]; cbn [raw_rounds].
    + right. exists acc, n. splits; auto. intros c HC HR. destruct (A c HC HR) as [D|[]]. exact D.
    + set (pending := p :: pending0) in *. clearbody pending. cbv zeta.
      set (bs := batches (length pending) pending) in *.
      pose proof (batches_nonempty (length pending) pending : forall b, In b bs -> _) as BN.
      assert (BC : concat bs = pending) by (apply batches_concat; lia).
      assert (BI : forall b name, In b bs -> In name b -> In name pending).
      { intros b name HB HN. rewrite <- BC. apply in_concat. eauto. }
      assert (IB : forall name, In name pending -> exists b, In b bs /\ In name b).
      { intros name HN. rewrite <- BC in HN. apply in_concat in HN. exact HN. }
      clearbody bs.
      destruct (take_ok (flat_map fst (lookups ds n bs)) acc G) as (d & E & GD & K).
      { intros name x HX. apply in_flat_map in HX as (a & HA & HX). apply lookups_in in HA as (i & b & HB & ->).
        destruct (a_found _ _ _ _ HO _ _ _ _ HX) as (HN & c & b' & -> & RB & ->). exists c, b'. splits; auto.
        apply (BI b) in HN; auto. apply P, in_map_iff in HN as (c0 & EC & HC). apply NI in EC. subst c0. auto. }
      rewrite E. cbn [bind].
      destruct (IH (n + length bs) (flat_map snd (lookups ds n bs)) d GD) as [[EE NO]|OKR]; auto.
      * intros name HN. apply in_flat_map in HN as (a & HA & HN). apply lookups_in in HA as (i & b & HB & ->).
        apply (a_deferred _ _ _ _ HO) in HN. apply P. eauto.
      * intros c HC HR. destruct (A c HC HR) as [D|HP]; [left; apply K; auto|]. destruct (IB _ HP) as (b & HB & HN).
        destruct (read st c) as [blk|] eqn:RB; [|congruence].
        destruct (in_lookups ds bs n b HB) as (i & HI).
        destruct (a_all _ _ _ _ HO i b c blk HN RB) as [F|F].
        -- left. apply K; auto. right. apply in_map_iff in F as ((nm & x) & EN & F). cbn in EN. apply in_map_iff.
           exists (nm, x). split; auto. apply in_flat_map. eauto.
        -- right. apply in_flat_map. eauto.
      * left. split; auto. intros [AD L]. apply NO. split; auto.
        pose proof (deferred_less ds bs AD BN n) as DL. rewrite BC in DL. clear BN.
        destruct bs as [|b bs0]; [|cbn [length] in DL; lia]. cbn [concat] in BC. cbn [lookups flat_map length]. lia.
Qed.

(** What a call gives: what is there from the start, and maybe more of what was asked for. *)
Lemma raw_any rounds n :
  (ds_read_many_raw ds name_of rounds n cids = Err OutOfFuel /\ ~ (advances ds /\ length cids <= rounds)) \/
  exists d n', ds_read_many_raw ds name_of rounds n cids = Ok (d, n') /\ NoDup (keys d) /\
    (forall c b, In c cids -> read st c = Some b -> dget c d = Some (row b)) /\
    forall c x, dget c d = Some x -> In c cids /\ exists b, read st' c = Some b /\ x = row b.
Proof.
  unfold ds_read_many_raw. change (fold_left _ cids []) with k2c.
  destruct (rounds_ok rounds n (map name_of cids) []) as [[E NO]|(d & n' & E & [ND G] & K)].
  - split; [constructor|]. intros c x D. discriminate D.
  - auto.
  - intros c HC _. right. apply in_map. exact HC.
  - left. split; auto. rewrite map_length in NO. exact NO.
  - right. exists d, n'. splits; auto. intros c b HC RB. specialize (K c HC ltac:(congruence)).
    destruct (dget c d) as [x|] eqn:D; [|congruence].
    destruct (G c x D) as (_ & b' & RB' & ->). apply LA in RB. rewrite RB in RB'. injection RB' as <-. reflexivity.
Qed.

(** Exactly the blocks, if they are all there. *)
Lemma raw_ok rounds n : (forall c, In c cids -> read st c <> None) ->
  (ds_read_many_raw ds name_of rounds n cids = Err OutOfFuel /\ ~ (advances ds /\ length cids <= rounds)) \/
  exists d n', ds_read_many_raw ds name_of rounds n cids = Ok (d, n') /\ NoDup (keys d) /\
    forall c x, In (c, x) d <-> In c cids /\ exists b, read st c = Some b /\ x = row b.
Proof.
  intros IN. destruct (raw_any rounds n) as [H|(d & n' & E & ND & K & G)]; [left; exact H|]. right. exists d, n'. splits; auto. intros c x. split.
  - intros HI. apply In_dget in HI; auto. destruct (G c x HI) as (HC & b & RB & ->). split; auto.
    destruct (read st c) as [b0|] eqn:R0; [|exfalso; exact (IN c HC R0)]. apply LA in R0. rewrite RB in R0. injection R0 as ->. eauto.
  - intros (HC & b & RB & ->). apply dget_In. auto.
Qed.
End Call.

(** ** Trees *)

Lemma layer_perm start d d' : Permutation d d' -> forall o l n, load_layer start d = Ok (o, l, n) ->
  exists o' l' n', load_layer start d' = Ok (o', l', n') /\ Permutation o o' /\ Permutation l l' /\ Permutation n n'.
Proof.
  induction 1 as [|[c [e q]] d d' P IH|[c [e q]] [c' [e' q']] d|d1 d2 d3 P1 IH1 P2 IH2]; intros o l n E.
  - eexists _, _, _. split; [exact E|]. auto.
  - cbn [load_layer] in *. destruct (q <? start)%Z; [auto|]. destruct (decode e) as [v|]; [|discriminate].
    destruct (ipld_ndata v) as [dd|]; [|discriminate]. cbn [bind] in *.
    destruct (load_layer start d) as [[[o1 l1] n1]|]; [|discriminate]. cbn [bind] in E. injection E as <- <- <-.
    destruct (IH _ _ _ eq_refl) as (o' & l' & n' & -> & PO & PL & PN). cbn [bind]. eexists _, _, _. split; [reflexivity|].
    splits; [constructor; auto|apply Permutation_app_head; auto|apply Permutation_app_head; auto].
  - cbn [load_layer] in *.
    destruct (q <? start)%Z, (q' <? start)%Z.
    + eexists _, _, _. split; [exact E|]. auto.
    + destruct (decode e') as [v'|]; [|discriminate]. destruct (ipld_ndata v') as [dd'|]; [|discriminate]. cbn [bind] in *.
      destruct (load_layer start d) as [[[o1 l1] n1]|]; [|discriminate]. cbn [bind] in *. injection E as <- <- <-. eexists _, _, _. split; [reflexivity|]. auto.
    + destruct (decode e) as [v'|]; [|discriminate]. destruct (ipld_ndata v') as [dd'|]; [|discriminate]. cbn [bind] in *.
      destruct (load_layer start d) as [[[o1 l1] n1]|]; [|discriminate]. cbn [bind] in *. injection E as <- <- <-. eexists _, _, _. split; [reflexivity|]. auto.
    + destruct (decode e') as [v'|]; [|discriminate]. destruct (ipld_ndata v') as [dd'|]; [|discriminate]. cbn [bind] in *.
      destruct (decode e) as [v|]; [|discriminate]. destruct (ipld_ndata v) as [dd|]; [|discriminate]. cbn [bind] in *.
      destruct (load_layer start d) as [[[o1 l1] n1]|]; [|discriminate]. cbn [bind] in *. injection E as <- <- <-. eexists _, _, _. split; [reflexivity|].
      splits; [constructor| |]; apply Permutation_app_swap_app.
  - destruct (IH1 _ _ _ E) as (o' & l' & n' & E' & A & B & C). destruct (IH2 _ _ _ E') as (o2 & l2 & n2 & E2 & A2 & B2 & C2).
    exists o2, l2, n2. splits; auto; eapply Permutation_trans; eauto.
Qed.

Lemma memory_stored st cids : forall acc d, read_many_raw Memory st acc cids = Ok d -> forall c, In c cids -> read st c <> None.
Proof.
  induction cids as [|x cids IH]; intros acc d E c H; [destruct H|]. destruct H as [H|H].
  - subst c. cbn [read_many_raw] in E. destruct (read st x); [discriminate|discriminate E].
  - cbn [read_many_raw] in E. destruct (read st x); [|discriminate E]. eapply IH; eauto.
Qed.

Lemma memory_datastore st cids : forall acc d, read_many_raw Memory st acc cids = Ok d -> read_many_raw Datastore st acc cids = Ok d.
Proof.
  induction cids as [|x cids IH]; intros acc d E; [exact E|]. cbn [read_many_raw] in *. destruct (read st x); [auto|discriminate E].
Qed.

Lemma nodes_datastore st start fuel : forall tf x, load_nodes Memory fuel st start tf = Ok x -> load_nodes Datastore fuel st start tf = Ok x.
Proof.
  induction fuel as [|fuel IH]; intros [|c tf] x E; try exact E. cbn [load_nodes] in *.
  destruct (read_many_raw Memory st [] (c :: tf)) as [d|] eqn:R; [|discriminate E]. apply memory_datastore in R. rewrite R. cbn [bind] in *.
  destruct (load_layer start d) as [[[o l] n]|]; [|discriminate E]. cbn [bind] in *.
  destruct (load_nodes Memory fuel st start n) as [y|] eqn:L; [|discriminate E]. rewrite (IH _ _ L). exact E.
Qed.

Lemma NoDup_pairs {A B} (d : list (A * B)) : NoDup (map fst d) -> NoDup d.
Proof. apply NoDup_map_inv. Qed.

Section Tree.
Variable st st' : state.
Variable ds : nat -> list str -> response.
Hypothesis LA : later st st'.
Variable name_of : cid -> str.
Hypothesis NI : forall a b, name_of a = name_of b -> a = b.
Hypothesis HO : honest name_of st st' ds.

Lemma call_perm rounds n tf tf' d : read_many_raw Memory st [] tf = Ok d -> Permutation tf tf' ->
  (ds_read_many_raw ds name_of rounds n tf' = Err OutOfFuel /\ ~ (advances ds /\ length tf <= rounds)) \/
  exists d' n', ds_read_many_raw ds name_of rounds n tf' = Ok (d', n') /\ Permutation d d'.
Proof.
  intros R P. pose proof (memory_stored _ _ _ _ R) as S0.
  assert (S1 : forall c, In c tf' -> read st c <> None) by (intros c H; apply S0; eapply Permutation_in; [apply Permutation_sym; exact P|exact H]).
  rewrite (Permutation_length P).
  destruct (raw_ok st st' ds LA name_of NI HO tf' rounds n S1) as [H|(d' & n' & E & ND & K)]; [left; exact H|]. right. exists d', n'. split; auto.
  destruct (raw_entries Memory st tf S0) as (d0 & R0 & ND0 & K0). rewrite R in R0. injection R0 as <-.
  apply NoDup_Permutation; [apply NoDup_pairs; exact ND0|apply NoDup_pairs; exact ND|].
  intros [c x]. rewrite K0, K. split; (intros (HC & X); split; [|exact X]).
  - eapply Permutation_in; eauto.
  - eapply Permutation_in; [apply Permutation_sym|]; eauto.
Qed.

Lemma nodes_perm start fuel : forall tf o l, load_nodes Memory fuel st start tf = Ok (o, l) ->
  exists enough, forall rounds n tf', Permutation tf tf' ->
  (ds_load_nodes ds name_of rounds fuel n start tf' = Err OutOfFuel /\ ~ (advances ds /\ enough <= rounds)) \/
  exists o' l' n', ds_load_nodes ds name_of rounds fuel n start tf' = Ok (o', l', n') /\ Permutation o o' /\ Permutation l l'.
Proof.
  induction fuel as [|fuel IH]; intros tf o l E.
  - destruct tf as [|c tf]; [|discriminate E]. injection E as <- <-. exists 0. intros rounds n tf' P. apply Permutation_nil in P. subst tf'.
    right. exists [], [], n. cbn. auto.
  - destruct tf as [|c tf]; cbn [load_nodes] in E.
    { injection E as <- <-. exists 0. intros rounds n tf' P. apply Permutation_nil in P. subst tf'. right. exists [], [], n. cbn. auto. }
    set (tf0 := c :: tf) in *. assert (NE : tf0 <> []) by discriminate. clearbody tf0.
    destruct (read_many_raw Memory st [] tf0) as [d|] eqn:R; [|discriminate E]. cbn [bind] in E.
    destruct (load_layer start d) as [[[o1 l1] n1]|] eqn:LL; [|discriminate E]. cbn [bind] in E.
    destruct (load_nodes Memory fuel st start n1) as [[o2 l2]|] eqn:LN; [|discriminate E]. cbn [bind fst snd] in E. injection E as <- <-.
    destruct (IH _ _ _ LN) as (enough & H). exists (length tf0 + enough). intros rounds n tf' P.
    assert (X : ds_load_nodes ds name_of rounds (S fuel) n start tf' =
      do bn <- ds_read_many_raw ds name_of rounds n tf';
      do x <- load_layer start (fst bn);
      let '(out, leaves, next) := x in
      do y <- ds_load_nodes ds name_of rounds fuel (snd bn) start next;
      let '(out', leaves', n') := y in Ok (out ++ out', leaves ++ leaves', n')).
    { destruct tf' as [|x tf']; [exfalso; apply NE; apply Permutation_sym, Permutation_nil in P; exact P|reflexivity]. }
    rewrite X. clear X.
    destruct (call_perm rounds n tf0 tf' d R P) as [[-> NO]|(d' & n' & -> & PD)].
    { left. split; [reflexivity|]. intros [A L]. apply NO. split; auto. lia. }
    cbn [bind fst snd]. destruct (layer_perm start d d' PD _ _ _ LL) as (o1' & l1' & n1' & -> & PO & PL & PN). cbn [bind].
    destruct (H rounds n' n1' PN) as [[-> NO]|(o2' & l2' & n2' & -> & PO2 & PL2)].
    { left. split; [reflexivity|]. intros [A L]. apply NO. split; auto. lia. }
    right. cbn [bind]. eexists _, _, _. split; [reflexivity|]. split; apply Permutation_app; auto.
Qed.

Lemma all_perm digest m start bl : load_all digest Memory st m start = Ok bl ->
  exists enough, forall rounds,
  (ds_load_all ds name_of rounds digest m start = Err OutOfFuel /\ ~ (advances ds /\ enough <= rounds)) \/
  exists bl', ds_load_all ds name_of rounds digest m start = Ok bl' /\ Permutation bl bl'.
Proof.
  unfold load_all, ds_load_all. destruct (get_pointer digest m) as [root|]; [|discriminate]. cbn [bind]. intros E.
  destruct (load_nodes Memory max_depth st start [root]) as [[o l]|] eqn:LN; [|discriminate E]. cbn [bind fst snd] in E.
  destruct (read_many_raw Memory st [] l) as [d|] eqn:R; [|discriminate E]. cbn [bind] in E. injection E as <-.
  destruct (nodes_perm start max_depth _ _ _ LN) as (enough & H). exists (enough + length l). intros rounds.
  destruct (H rounds 0 [root] (Permutation_refl _)) as [[-> NO]|(o' & l' & n' & -> & PO & PL)].
  { left. split; [reflexivity|]. intros [A L]. apply NO. split; auto. lia. }
  cbn [bind]. destruct (call_perm rounds n' l l' d R PL) as [[-> NO]|(d' & n2 & -> & PD)].
  { left. split; [reflexivity|]. intros [A L]. apply NO. split; auto. lia. }
  right. cbn [bind fst]. eexists. split; [reflexivity|]. apply Permutation_app; auto. apply Permutation_map. exact PD.
Qed.
End Tree.

Lemma all_datastore digest st m start bl : load_all digest Memory st m start = Ok bl -> load_all digest Datastore st m start = Ok bl.
Proof.
  unfold load_all. destruct (get_pointer digest m) as [root|]; [|discriminate]. cbn [bind]. intros E.
  destruct (load_nodes Memory max_depth st start [root]) as [x|] eqn:LN; [|discriminate E]. rewrite (nodes_datastore _ _ _ _ _ LN). cbn [bind] in *.
  destruct (read_many_raw Memory st [] (snd x)) as [d|] eqn:R; [|discriminate E]. rewrite (memory_datastore _ _ _ _ R). exact E.
Qed.
