(** Facts behind the theorems about reading many blocks from the datastore. *)
From Coq Require Import String List NArith ZArith Bool Lia Sorted Permutation.
From Coq Require Import ZifyBool ZifyNat ZifyN.
From Verif Require Import Base Lists Ipld IpldProofs MstModel MstTree MstTreeProofs MstRep MstTrav
  MstClient MstSpec MstHist MstFacts TidModel TidProofs BlockModel BlockSpec BlockProofs
  CarModel CarProofs StorageModel StorageSpec CommitProofs StoreProofs ExecProofs RepoSpec RepoProofs RepoHist RepoSteps RepoFacts
  UriModel EventsModel CoverModel MessageSpec MessageProofs 
  ServerModel ServerSpec ServerProofs ExportSpec ExportProofs ImportProofs ImportFacts LiveStore LiveProofs LiveServe LiveMove LiveSpec LiveFacts
  RawModel RawSpec RawProofs.
Import ListNotations.

Section Facts.
Variable digest : list N -> list N.
Variable kdigest : str -> list N.
Hypothesis D32 : forall a, length (digest a) = 32%nat.
Variable name_of : cid -> str.
Hypothesis NI : forall a b, name_of a = name_of b -> a = b.
Notation hosts := (hosts digest kdigest).
Notation tree_at := (tree_at digest kdigest).

(** All of a tree is there to be read. *)
Lemma load_any (inj : forall a b, digest a = digest b -> a = b) st m n t root recs start :
  get_pointer digest m = Ok root -> tree_at st n t root recs ->
  exists bl, load_all digest Memory st m start = Ok bl /\ forall c data, In (c, data) bl -> read st c <> None.
Proof.
  intros P T. pose proof T as (R & W & Srt & LE & ST & RT & SM & RS). pose proof md as MD.
  destruct (load_nodes_ok digest kdigest Memory st start inj n max_depth [t]) as (rs & E & IN);
    [lia|constructor; auto|intros x [<-|[]]; auto|].
  cbn [map] in E. rewrite RT in E.
  assert (RI : forall x, In x rs -> subtree x t).
  { intros x HX. apply IN in HX as (t' & [<-|[]] & H). eapply reach_subtree; exact H. }
  assert (LV : forall v, In v (flat_map dleaves rs) -> read st v <> None).
  { intros v HV. apply in_flat_map in HV as (x & HX & HV). apply RI in HX. apply in_dleaves in HV as (k & HK).
    assert (HL : In (k, v) (leaves t)) by (eapply StoreProofs.subtree_leaves; [exact HX|]; apply node_leaf; exact HK).
    destruct (tree_leaf _ _ _ _ _ _ _ _ _ T HL) as (y & b & _ & _ & RB & _). congruence. }
  destruct (raw_entries Memory st (flat_map dleaves rs) LV) as (d & ED & ND & GD).
  exists (map (tenc digest) rs ++ map (fun kv => (fst kv, fst (snd kv))) d).
  unfold load_all. rewrite P. cbn [bind]. rewrite E. cbn [bind fst snd]. rewrite ED. cbn [bind]. split; [reflexivity|].
  intros c data HI. apply in_app_or in HI as [HI|HI].
  - apply in_map_iff in HI as (x & EX & HX). injection EX as <- <-. apply RI in HX.
    destruct (stored_read digest st x (stored_subtree _ _ _ _ HX ST)) as (b & RB & VB). congruence.
  - apply in_map_iff in HI as ([c' x] & EX & HX). cbn [fst snd] in EX. injection EX as -> <-. apply GD in HX as (HV & b & RB & ->). congruence.
Qed.

(** The reads of getRepo, when the datastore answers like this. *)
Definition alike (ds : nat -> list str -> response) (enough rounds : nat) (out out' : res (list N)) : Prop :=
  match out with
  | Err e => out' = Err e
  | Ok car => exists roots bl, read_car car = Some (roots, bl) /\
      ((out' = Err OutOfFuel /\ ~ (advances ds /\ enough <= rounds)) \/
       exists car' bl', out' = Ok car' /\ read_car car' = Some (roots, bl') /\ Permutation bl bl')
  end.

Lemma same_export sv w bk x since st' ds : hosts sv w bk -> p_be sv = Datastore ->
  later (w_state w) st' -> honest name_of (w_state w) st' ds ->
  exists enough, forall rounds,
    alike ds enough rounds (snd (on_get_repo digest sv x since (w_state w))) (snd (ds_get_repo ds name_of rounds digest (p_netloc sv) false x since (w_state w))).
Proof.
  intros H BE LA HO. destruct (hosts_live digest kdigest D32 _ _ _ H) as [[SET _] L]. set (st := w_state w) in *. unfold on_get_repo. rewrite BE in *.
  destruct (load_cases digest kdigest (p_validate sv) (p_cb sv) Datastore (p_netloc sv) SET st (w_refs w) bk x L)
    as [(did & o & st1 & r & key & recs & F)|(e & st1 & extra & LE & _)].
  2:{ exists 0%nat. intros rounds. unfold get_repo, ds_get_repo. rewrite !(bindM_err _ _ _ _ _ LE). reflexivity. }
  pose proof (f_good _ _ _ _ _ _ _ _ _ _ _ _ _ _ F) as G. pose proof (f_same _ _ _ _ _ _ _ _ _ _ _ _ _ _ F) as (_ & BL & _).
  rewrite BL in G. pose proof G as (h & root & HH & T & SN). destruct (tip_tree _ _ _ _ _ _ _ T) as (n & t & TA).
  pose proof (l_store _ _ _ _ _ _ L) as WK.
  assert (TA1 : tree_at st1 n t root recs) by (unfold ExportProofs.tree_at, rd in *; rewrite BL; exact TA).
  assert (RD : forall c, read st1 c = read st c) by (intros c; unfold read; rewrite BL; reflexivity).
  assert (LA1 : later st1 st') by (intros c b; rewrite RD; apply LA).
  assert (HO1 : honest name_of st1 st' ds).
  { destruct HO as [A B C]. split; auto. intros n0 ks c b HI. rewrite RD. eauto. }
  destruct (match since with Some ((_ :: _) as t) => tid_to_int t | _ => Ok 0%Z end) as [start|e] eqn:ES.
  2:{ exists 0%nat. intros rounds. unfold get_repo, ds_get_repo.
      assert (X : (match since with Some ((_ :: _) as t) => lift (tid_to_int t) | _ => ret 0%Z end) st1 = (st1, Err e)).
      { destruct since as [[|ch tl]|]; try discriminate ES. unfold lift. rewrite ES. reflexivity. }
      rewrite !(bindM_ok _ _ _ _ _ (f_load _ _ _ _ _ _ _ _ _ _ _ _ _ _ F)), !(bindM_ok (ret tt) _ st1 st1 tt) by reflexivity.
      rewrite !(bindM_err _ _ _ _ _ X). reflexivity. }
  assert (X : (match since with Some ((_ :: _) as t) => lift (tid_to_int t) | _ => ret 0%Z end) st1 = (st1, Ok start)).
  { destruct since as [[|ch tl]|]; unfold lift, ret; try (injection ES as <-; reflexivity). rewrite ES. reflexivity. }
  destruct (load_any (s_inj _ _ _ _ SET) st1 (r_mst o) n t root recs start) as (l & E & KK); auto.
  { eapply snapshot_pointer; eauto. }
  destruct (all_perm st1 st' ds LA1 name_of NI HO1 digest (r_mst o) start l E) as (enough & AP).
  pose proof (all_datastore _ _ _ _ _ E) as ED.
  assert (CL : forall l', Permutation l l' -> read_car (write_car [b_cid h] ((b_cid h, encode (b_val h)) :: l')) = Some ([b_cid h], (b_cid h, encode (b_val h)) :: l')).
  { intros l' PL. apply read_write_car. intros [c data] HI. cbn [fst].
    assert (ST1 : exists b, read st c = Some b).
    { destruct HI as [[= <- <-]|HI].
      - destruct T as ((h' & RH & VH) & _). exists h'. exact RH.
      - apply (Permutation_in _ (Permutation_sym PL)) in HI. apply KK in HI. rewrite RD in HI. destruct (read st c); [eauto|congruence]. }
    destruct ST1 as (b & RB). destruct (w_block _ _ _ _ WK _ _ RB) as (CB & CV & _).
    rewrite CV. unfold cid_of. rewrite app_length, D32. reflexivity. }
  exists enough. intros rounds. unfold get_repo, ds_get_repo.
  rewrite !(bindM_ok _ _ _ _ _ (f_load _ _ _ _ _ _ _ _ _ _ _ _ _ _ F)), !(bindM_ok (ret tt) _ st1 st1 tt) by reflexivity.
  rewrite !(bindM_ok _ _ _ _ _ X). rewrite !(bindM_ok _ _ _ _ _ (obj_some _ _ _ (f_obj _ _ _ _ _ _ _ _ _ _ _ _ _ _ F))).
  unfold head_of. rewrite HH. rewrite !(bindM_ok (ret h) _ st1 st1 h) by reflexivity.
  rewrite (bindM_ok (fun st0 => (st0, load_all digest Datastore st0 (r_mst o) start)) _ st1 st1 l) by (rewrite ED; reflexivity).
  cbn [ret snd]. unfold alike. eexists _, _. split; [apply CL; reflexivity|].
  destruct (AP rounds) as [[EE NO]|(l' & EE & PL)].
  - left. rewrite (bindM_err (lift (ds_load_all ds name_of rounds digest (r_mst o) start)) _ st1 st1 OutOfFuel) by (unfold lift; rewrite EE; reflexivity). auto.
  - right. rewrite (bindM_ok (lift (ds_load_all ds name_of rounds digest (r_mst o) start)) _ st1 st1 l') by (unfold lift; rewrite EE; reflexivity).
    cbn [ret snd]. eexists _, _. split; [reflexivity|]. split; [apply CL; exact PL|]. constructor. exact PL.
Qed.

Lemma whole_export sv w bk x did o key recs since st' ds : hosts sv w bk -> p_be sv = Datastore ->
  later (w_state w) st' -> honest name_of (w_state w) st' ds -> advances ds ->
  names Datastore (p_netloc sv) (w_state w) x did o -> r_status o = None -> dget did bk = Some (key, recs) -> since = None \/ since = Some [] ->
  exists enough h root, r_head o = Some h /\ item_link (s "data") (b_val h) = Ok root /\ forall rounds, enough <= rounds ->
  exists car bl, snd (ds_get_repo ds name_of rounds digest (p_netloc sv) false x since (w_state w)) = Ok car /\ read_car car = Some ([b_cid h], bl) /\
    genuine digest (w_state w) bl /\ (forall c, In c (keys bl) <-> block_of digest (w_state w) h root recs c) /\
    readable digest kdigest (car_reader bl) h root recs.
Proof.
  intros H BE LA HO AD NM R B SI. destruct (same_export sv w bk x since st' ds H BE LA HO) as (enough & SE).
  destruct (hosts_live digest kdigest D32 _ _ _ H) as [[SET _] L]. rewrite BE in *.
  destruct (live_export digest kdigest (p_validate sv) (p_ecdsa sv) (p_cb sv) Datastore (p_netloc sv) SET _ _ _ _ _ _ _ _ since L NM R B D32 SI)
    as (st1 & h & root & n & t & bl & E & _ & HH & T & TA & RC & G & K).
  exists enough, h, root. splits; auto; [apply T|]. intros rounds LE. specialize (SE rounds). unfold on_get_repo in SE. rewrite BE, E in SE. cbn [snd alike] in SE.
  destruct SE as (roots & bl0 & RC0 & [(_ & NO)|(car' & bl' & E' & RC' & PB)]); [exfalso; apply NO; auto|].
  rewrite RC in RC0. injection RC0 as <- <-. exists car', bl'. splits; auto.
  - intros c data HI. apply G. eapply Permutation_in; [apply Permutation_sym; exact PB|exact HI].
  - intros c. rewrite <- K. unfold keys. split; apply Permutation_in; [apply Permutation_sym|]; apply Permutation_map; exact PB.
  - destruct T as ((h' & RH & VH) & _). pose proof (w_block _ _ _ _ (l_store _ _ _ _ _ _ L) _ _ RH) as (CH & _).
    assert (X : readable digest kdigest (car_reader bl') h' root recs).
    { eapply (readable_all digest kdigest (p_netloc sv)); [exact TA|unfold read; rewrite CH; exact RH|].
      intros c b BO RB. eapply car_reader_genuine; eauto.
      - intros c0 data HI. apply G. eapply Permutation_in; [apply Permutation_sym; exact PB|exact HI].
      - unfold keys. eapply Permutation_in; [apply Permutation_map; exact PB|]. apply K. unfold block_of in *. rewrite CH in BO. exact BO. }
    unfold readable in *. rewrite CH, VH in X. exact X.
Qed.
End Facts.
