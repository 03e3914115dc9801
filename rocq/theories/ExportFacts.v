(** Facts behind the theorems about exports. *)
From Coq Require Import String List NArith ZArith Bool Lia Sorted.
From Coq Require Import ZifyBool ZifyNat ZifyN.
From Verif Require Import Base Lists Ipld IpldProofs MstModel MstTree MstTreeProofs MstRep MstTrav
  MstClient MstSpec MstHist MstFacts TidModel TidProofs BlockModel BlockSpec BlockProofs
  CarModel CarProofs StorageModel StorageSpec CommitProofs StoreProofs ExecProofs RepoSpec RepoProofs RepoHist RepoSteps RepoFacts
  UriModel EventsModel EventsFacts CoverModel CoverSpec CoverProofs CoverFacts MessageSpec MessageProofs
  ServerModel ServerSpec ServerProofs ServerFacts ServerSync ExportSpec ExportProofs.
Import ListNotations.

Section Export.
Variable digest : list N -> list N.
Variable kdigest : str -> list N.
Variable validate : ipld -> res unit.
Variable ecdsa : N -> Z -> list N -> list N.
Variable now : Z -> str.
Variable cb : nat -> option exn.
Variable be : backend.
Variable netloc_ok : str -> bool.
Variable cfg : config.
Notation rcid := (rcid digest).
Notation tcid := (tcid digest).
Notation tnode := (tnode digest).
Notation wf := (wf kdigest).
Notation names := (names be netloc_ok).
Notation serves := (serves digest kdigest validate ecdsa now cb be netloc_ok cfg).
Notation found := (found digest kdigest validate ecdsa now be netloc_ok).
Notation ordered := (ordered digest kdigest).
Notation tree_at := (tree_at digest kdigest).
Notation block_of := (block_of digest).
Notation readable := (readable digest kdigest).
Notation genuine := (genuine digest).
Hypothesis SET : setting digest kdigest validate cb.

(** Only the blocks matter. *)
Lemma node_of_ext rd rd' root c : (forall k, rd k = rd' k) -> node_of rd root c -> node_of rd' root c.
Proof. clear. intros E. induction 1 as [|p v d c N IH R D LK]; [constructor|]. econstructor; eauto. rewrite <- E. auto. Qed.

(** The repo that is named: its head, its tree. *)
Record opened (st : state) (did x : str) (o : repo) (recs : records) (st1 : state) (r : nat) (h : block) (root : cid) (n : nat) (t : tree) : Prop := {
  op_load : server_load be netloc_ok x st = (st1, Ok r);
  op_obj : nth_error (s_objs st1) r = Some o;
  op_head : r_head o = Some h;
  op_data : item_link (s "data") (b_val h) = Ok root;
  op_did : item_text (s "did") (b_val h) = Ok did;
  op_root : get_pointer digest (r_mst o) = Ok root;
  op_read : read st (b_cid h) = Some h;
  op_tree : tree_at st n t root recs;
  op_blocks : s_blocks st1 = s_blocks st;
  op_store : store_ok digest kdigest (s_blocks st) (s_next st);
  op_kind : exists prev, commit_of ecdsa h did (r_key o) prev root
}.

Lemma open_repo w bk x did o key recs : serves w bk -> names (w_state w) x did o -> r_status o = None -> dget did bk = Some (key, recs) ->
  exists st1 r h root n t, opened (w_state w) did x o recs st1 r h root n t /\
    exists refs, inv digest kdigest validate ecdsa be st1 refs bk /\ good digest kdigest validate ecdsa (s_blocks st1) did key recs o.
Proof.
  intros S NM R B. destruct (serves_inv digest kdigest validate ecdsa now cb be netloc_ok cfg SET _ _ S) as [I ST].
  destruct (names_found digest kdigest validate ecdsa now cb be netloc_ok cfg SET _ _ _ _ _ S NM R) as (st1 & r & key' & recs' & F).
  pose proof (f_book _ _ _ _ _ _ _ _ _ _ _ _ _ _ _ _ _ F) as B'. rewrite B in B'. injection B' as <- <-.
  pose proof (f_good _ _ _ _ _ _ _ _ _ _ _ _ _ _ _ _ _ F) as G. pose proof G as (h & root & HH & CH & SN).
  pose proof (f_same _ _ _ _ _ _ _ _ _ _ _ _ _ _ _ _ _ F) as (_ & BL & _).
  destruct (chain_tree _ _ _ _ _ _ _ _ _ _ CH) as (n & t & T).
  assert (RE : forall c, rd st1 c = rd (w_state w) c) by (intros c; unfold rd; rewrite BL; reflexivity).
  exists st1, r, h, root, n, t. split.
  - destruct (i_book _ _ _ _ _ _ _ _ I _ _ _ B) as (_ & _ & o2 & HS2 & _ & K2 & _).
    pose proof (f_stored _ _ _ _ _ _ _ _ _ _ _ _ _ _ _ _ _ F) as HS. rewrite HS in HS2. injection HS2 as <-.
    split.
    + exact (f_load _ _ _ _ _ _ _ _ _ _ _ _ _ _ _ _ _ F).
    + exact (f_obj _ _ _ _ _ _ _ _ _ _ _ _ _ _ _ _ _ F).
    + exact HH.
    + eapply chain_data; eauto.
    + eapply chain_did; eauto.
    + eapply snapshot_pointer; eauto.
    + unfold read. rewrite <- BL. eapply chain_read; eauto.
    + unfold ExportProofs.tree_at, rd in *. rewrite BL in T. exact T.
    + exact BL.
    + exact (i_store _ _ _ _ _ _ _ _ I).
    + rewrite K2. eapply chain_commit; eauto.
  - exists (w_refs w ++ [r]). split; auto. eapply (steps_inv digest kdigest validate ecdsa now cb be SET); [|exact I].
    exact (f_steps _ _ _ _ _ _ _ _ _ _ _ _ _ _ _ _ _ F).
Qed.

Lemma store_cid bl next c b : store_ok digest kdigest bl next -> dget c bl = Some b -> c = cid_of digest (b_val b) /\ (0 < b_seq b)%Z.
Proof. clear. intros SO D. destruct (so_block _ _ _ _ SO _ _ D) as (_ & A & B & _). split; auto. lia. Qed.

Lemma export st did x o recs st1 r h root n t disabled since start : opened st did x o recs st1 r h root n t -> ordered (s_blocks st) ->
  disabled = false -> (match since with Some ((_ :: _) as z) => tid_to_int z | _ => Ok 0%Z end) = Ok start -> (forall a, length (digest a) = 32%nat) ->
  exists bl, get_repo digest be netloc_ok disabled x since st = (st1, Ok (write_car [b_cid h] bl)) /\
    read_car (write_car [b_cid h] bl) = Some ([b_cid h], bl) /\
    genuine st bl /\ In (b_cid h) (keys bl) /\
    (forall c, In c (keys bl) -> block_of st h root recs c) /\
    (forall c b, read st c = Some b -> (start <= b_seq b)%Z -> block_of st h root recs c -> In c (keys bl)).
Proof.
  intros OP O -> SI D32.
  assert (T1 : tree_at st1 n t root recs).
  { pose proof (op_tree _ _ _ _ _ _ _ _ _ _ _ OP) as T. unfold ExportProofs.tree_at, rd in *. rewrite (op_blocks _ _ _ _ _ _ _ _ _ _ _ OP). exact T. }
  assert (RD : forall c, read st1 c = read st c) by (intros c; unfold read; rewrite (op_blocks _ _ _ _ _ _ _ _ _ _ _ OP); reflexivity).
  assert (NO : forall c, node_of (rd st1) root c <-> node_of (rd st) root c).
  { intros c. unfold rd. rewrite (op_blocks _ _ _ _ _ _ _ _ _ _ _ OP). tauto. }
  destruct (load_all_ok digest kdigest validate ecdsa now cb be netloc_ok SET st1 (r_mst o) n t root recs start) as (l & E & A & B); auto.
  { rewrite (op_blocks _ _ _ _ _ _ _ _ _ _ _ OP). exact O. }
  { exact (op_root _ _ _ _ _ _ _ _ _ _ _ OP). }
  set (bl := (b_cid h, encode (b_val h)) :: l). pose proof (op_store _ _ _ _ _ _ _ _ _ _ _ OP) as SO.
  assert (G : genuine st bl).
  { intros c data [[= <- <-]|HI].
    - exists h. pose proof (op_read _ _ _ _ _ _ _ _ _ _ _ OP) as RH. splits; auto. apply (store_cid _ _ _ _ SO RH).
    - destruct (A _ _ HI) as (b & RB & -> & _). rewrite RD in RB. exists b. splits; auto. apply (store_cid _ _ _ _ SO RB). }
  exists bl. splits; auto.
  - unfold get_repo. rewrite (bindM_ok _ _ _ _ _ (op_load _ _ _ _ _ _ _ _ _ _ _ OP)).
    rewrite (bindM_ok (ret tt) _ st1 st1 tt) by reflexivity.
    rewrite (bindM_ok (match since with Some ((_ :: _) as t) => lift (tid_to_int t) | _ => ret 0%Z end) _ st1 st1 start).
    2:{ destruct since as [[|z0 z]|]; [injection SI as <-; reflexivity| |injection SI as <-; reflexivity]. unfold lift. rewrite SI. reflexivity. }
    rewrite (bindM_ok _ _ _ _ _ (obj_some _ _ _ (op_obj _ _ _ _ _ _ _ _ _ _ _ OP))).
    unfold head_of. rewrite (op_head _ _ _ _ _ _ _ _ _ _ _ OP).
    rewrite (bindM_ok (ret h) _ st1 st1 h) by reflexivity.
    rewrite (bindM_ok (fun st0 => (st0, load_all digest be st0 (r_mst o) start)) _ st1 st1 l) by (rewrite E; reflexivity). reflexivity.
  - apply read_write_car. intros [c data] HI. cbn [fst]. destruct (G _ _ HI) as (b & _ & _ & ->). unfold cid_of. rewrite app_length, D32. reflexivity.
  - left. reflexivity.
  - intros c [<-|HI]; [left; auto|]. apply in_map_iff in HI as ([c' data] & <- & HI). cbn [fst]. right.
    destruct (A _ _ HI) as (b & _ & _ & [N|X]); [left; apply NO; exact N|right; exact X].
  - intros c b RB L [->|X]; [left; reflexivity|]. right. apply (B c b); auto; [rewrite RD; auto|]. destruct X as [N|X]; [left; apply NO; exact N|right; exact X].
Qed.

(** ** C40 *)

Lemma block_of_read st did x o recs st1 r h root n t c : opened st did x o recs st1 r h root n t -> block_of st h root recs c ->
  exists b, read st c = Some b.
Proof.
  intros OP. pose proof (op_tree _ _ _ _ _ _ _ _ _ _ _ OP) as T. intros [->|[N|(path & v & D & ->)]].
  - exists h. exact (op_read _ _ _ _ _ _ _ _ _ _ _ OP).
  - apply (tree_node_of _ _ _ _ _ _ _ _ T) in N as (y & HY & ->). destruct T as (_ & _ & _ & _ & ST & _).
    destruct (stored_read digest st y (stored_subtree _ _ _ _ HY ST)) as (b & RB & _). eauto.
  - pose proof (tree_record _ _ _ _ _ _ _ _ _ T D) as HL. destruct (tree_leaf _ _ _ _ _ _ _ _ _ T HL) as (_ & b & _ & _ & RB & _). eauto.
Qed.

Lemma c40_whole w bk x did o key recs since : serves w bk -> names (w_state w) x did o -> r_status o = None -> dget did bk = Some (key, recs) ->
  (forall a, length (digest a) = 32%nat) -> since = None \/ since = Some [] ->
  exists h root car bl, r_head o = Some h /\ item_link (s "data") (b_val h) = Ok root /\
    snd (get_repo digest be netloc_ok false x since (w_state w)) = Ok car /\ read_car car = Some ([b_cid h], bl) /\
    genuine (w_state w) bl /\ (forall c, In c (keys bl) <-> block_of (w_state w) h root recs c) /\
    readable (car_reader bl) h root recs.
Proof.
  intros S NM R B D32 SI. destruct (open_repo _ _ _ _ _ _ _ S NM R B) as (st1 & r & h & root & n & t & OP & _).
  destruct (export _ _ _ _ _ _ _ _ _ _ _ false since 0%Z OP) as (bl & E & RC & G & HI & IN & ALL); auto.
  { eapply (serves_ordered digest kdigest validate ecdsa now cb be netloc_ok cfg SET); eauto. }
  { destruct SI as [-> | ->]; reflexivity. }
  assert (K : forall c, block_of (w_state w) h root recs c -> In c (keys bl)).
  { intros c BO. destruct (block_of_read _ _ _ _ _ _ _ _ _ _ _ _ OP BO) as (b & RB). apply (ALL c b); auto.
    pose proof (store_cid _ _ _ _ (op_store _ _ _ _ _ _ _ _ _ _ _ OP) RB) as [_ Q]. lia. }
  exists h, root, (write_car [b_cid h] bl), bl. splits; auto.
  - exact (op_head _ _ _ _ _ _ _ _ _ _ _ OP).
  - exact (op_data _ _ _ _ _ _ _ _ _ _ _ OP).
  - rewrite E. reflexivity.
  - intros c. split; auto.
  - eapply (readable_all digest kdigest netloc_ok); [exact (op_tree _ _ _ _ _ _ _ _ _ _ _ OP)|exact (op_read _ _ _ _ _ _ _ _ _ _ _ OP)|].
    intros c b BO RB. eapply car_reader_genuine; eauto.
Qed.

(** The number in the rev of a commit. *)
Lemma rev_number bl next c b rev : store_ok digest kdigest bl next -> dget c bl = Some b -> b_ops b <> None -> item_text (s "rev") (b_val b) = Ok rev ->
  tid_to_int rev = Ok (b_seq b) /\ rev <> [].
Proof.
  clear. intros SO D OPS RV. destruct (so_block _ _ _ _ SO _ _ D) as (_ & _ & Q & K).
  destruct K as [d K1 K2|v K1 K2 K3|t K1 K2 K3|did r prev data sig ops K1 K2 K3]; try congruence.
  rewrite K1 in RV. assert (E : r = rev) by (unfold commit_map in RV; cbn in RV; congruence). subst r.
  assert (L : (b_seq b < 2 ^ 55)%Z).
  { destruct (Z_lt_le_dec (b_seq b) (2 ^ 55)) as [Q1|Q1]; [exact Q1|]. rewrite (tid_too_large _ 0 Q1) in K2. discriminate. }
  destruct (tid_round_trip (b_seq b) 0) as (u & E & LN & TI); [unfold p55; lia|lia|]. rewrite E in K2. injection K2 as <-. split; auto.
  intros ->. discriminate LN.
Qed.

Lemma c40_since w bk x did o key recs c0 b0 rev : serves w bk -> names (w_state w) x did o -> r_status o = None -> dget did bk = Some (key, recs) ->
  (forall a, length (digest a) = 32%nat) ->
  read (w_state w) c0 = Some b0 -> b_ops b0 <> None -> item_text (s "rev") (b_val b0) = Ok rev ->
  exists h root car bl, r_head o = Some h /\ item_link (s "data") (b_val h) = Ok root /\
    snd (get_repo digest be netloc_ok false x (Some rev) (w_state w)) = Ok car /\ read_car car = Some ([b_cid h], bl) /\
    genuine (w_state w) bl /\ (forall c, In c (keys bl) -> block_of (w_state w) h root recs c) /\
    (forall c b, block_of (w_state w) h root recs c -> read (w_state w) c = Some b -> (b_seq b0 <= b_seq b)%Z -> In c (keys bl)) /\
    forall have, (forall c b, block_of (w_state w) h root recs c -> read (w_state w) c = Some b -> (b_seq b < b_seq b0)%Z -> have c = Some (b_val b)) ->
      readable (with_car bl have) h root recs.
Proof.
  intros S NM R B D32 R0 OPS RV. destruct (open_repo _ _ _ _ _ _ _ S NM R B) as (st1 & r & h & root & n & t & OP & _).
  destruct (rev_number _ _ _ _ _ (op_store _ _ _ _ _ _ _ _ _ _ _ OP) R0 OPS RV) as [TI NE].
  destruct (export _ _ _ _ _ _ _ _ _ _ _ false (Some rev) (b_seq b0) OP) as (bl & E & RC & G & HI & IN & ALL); auto.
  { eapply (serves_ordered digest kdigest validate ecdsa now cb be netloc_ok cfg SET); eauto. }
  { destruct rev; [congruence|exact TI]. }
  exists h, root, (write_car [b_cid h] bl), bl. splits; auto.
  - exact (op_head _ _ _ _ _ _ _ _ _ _ _ OP).
  - exact (op_data _ _ _ _ _ _ _ _ _ _ _ OP).
  - rewrite E. reflexivity.
  - eauto.
  - intros have HV. eapply (readable_all digest kdigest netloc_ok); [exact (op_tree _ _ _ _ _ _ _ _ _ _ _ OP)|exact (op_read _ _ _ _ _ _ _ _ _ _ _ OP)|].
    intros c b BO RB. unfold with_car. destruct (Z_lt_le_dec (b_seq b) (b_seq b0)) as [L|L].
    + destruct (car_reader bl c) as [v|] eqn:C; [|apply HV; auto].
      destruct (car_reader_some _ _ _ _ _ G C) as (b' & RB' & <-). rewrite RB in RB'. injection RB' as <-. reflexivity.
    + rewrite (car_reader_genuine _ _ _ _ _ G RB); eauto.
Qed.
(** ** C41 *)

Lemma get_entries_less rd rd' m es : (forall c v, rd' c = Some v -> rd c = Some v) -> get_entries kdigest rd' m = Ok es -> get_entries kdigest rd m = Ok es.
Proof.
  intros LE. destruct m as [[es'|] [p|] l o]; cbn [get_entries]; auto.
  destruct (rd' p) as [v|] eqn:E; [rewrite (LE _ _ E); auto|]. discriminate.
Qed.
Lemma get_less rd rd' key : (forall c v, rd' c = Some v -> rd c = Some v) ->
  forall fuel m x, get kdigest rd' fuel m key = Ok x -> get kdigest rd fuel m key = Ok x.
Proof.
  intros LE. induction fuel as [|f IH]; intros m x H; cbn [get] in *; [discriminate|].
  destruct (get_entries kdigest rd' m) as [es|] eqn:E; [|discriminate]. cbn [bind] in H. rewrite (get_entries_less _ _ _ _ LE E). cbn [bind].
  destruct (at_index es (find_index key es)) as [[k v|sub]|]; [destruct (str_eqb k key); auto| |];
    (destruct (at_prev es (find_index key es)) as [[k' v'|prev]|]; auto).
Qed.

Lemma proof_blocks (d : blocks_dict) : (forall c ob, In (c, ob) d -> exists b, ob = Some b /\ c = cid_of digest (b_val b)) ->
  exists l, mapM (fun kv : cid * option block => match snd kv with
      | Some b => Ok (cid_of digest (b_val b), encode (b_val b))
      | None => Err AttributeError
      end) d = Ok l /\ (forall c data, In (c, data) l -> exists b, In (c, Some b) d /\ data = encode (b_val b)) /\
    (forall c b, In (c, Some b) d -> In (c, encode (b_val b)) l).
Proof.
  clear. induction d as [|[c ob] d IH]; intros H; cbn [mapM].
  - exists []. splits; auto. intros c data [].
  - destruct (H c ob (or_introl eq_refl)) as (b & -> & C). destruct IH as (l & E & A & B).
    { intros c' ob' HI. apply H. right; auto. }
    cbn [snd]. rewrite E. cbn [bind]. eexists. splits; [reflexivity| |].
    + intros c' data [[= <- <-]|HI]; [exists b; split; auto; left; congruence|]. destruct (A _ _ HI) as (b' & HI' & ->). exists b'. split; auto. right; auto.
    + intros c' b' [[= <- <-]|HI]; [left; congruence|]. right. auto.
Qed.

Lemma c41 w bk x did o key recs coll rkey v : serves w bk -> names (w_state w) x did o -> r_status o = None -> dget did bk = Some (key, recs) ->
  (forall a, length (digest a) = 32%nat) -> dget (record_path coll rkey) recs = Some v ->
  exists h root car bl, r_head o = Some h /\ item_link (s "data") (b_val h) = Ok root /\
    snd (sync_get_record digest kdigest be netloc_ok x coll rkey (w_state w)) = Ok car /\ read_car car = Some ([b_cid h], bl) /\
    genuine (w_state w) bl /\ (forall c, In c (keys bl) -> block_of (w_state w) h root recs c) /\
    In (b_cid h) (keys bl) /\ car_reader bl (rcid v) = Some (norm v) /\ In root (keys bl) /\
    forall path y, get kdigest (car_reader bl) max_depth (mst_load root) path = Ok y -> y = option_map rcid (dget path recs).
Proof.
  intros S NM R B D32 DV. destruct (open_repo _ _ _ _ _ _ _ S NM R B) as (st1 & r & h & root & n & t & OP & refs & I1 & G).
  pose proof (op_tree _ _ _ _ _ _ _ _ _ _ _ OP) as T. pose proof (op_store _ _ _ _ _ _ _ _ _ _ _ OP) as SO.
  pose proof (op_blocks _ _ _ _ _ _ _ _ _ _ _ OP) as BL. pose proof (op_read _ _ _ _ _ _ _ _ _ _ _ OP) as RH.
  set (st := w_state w) in *.
  assert (RD : forall c, read st1 c = read st c) by (intros c; unfold read; rewrite BL; reflexivity).
  assert (T1 : tree_at st1 n t root recs) by (unfold ExportProofs.tree_at, rd in *; rewrite BL; exact T).
  pose proof T1 as (R1 & W & Srt & LE & ST & RT & SM & _).
  pose proof (good_find digest kdigest validate ecdsa st1 did key recs o coll rkey G) as FR. rewrite DV in FR. cbn [option_map] in FR.
  destruct (good_keys _ _ _ _ _ _ _ _ _ G) as (_ & _ & RO). destruct (record_norm digest kdigest validate cb SET v (RO _ _ DV)) as [NN TV].
  set (ops := [CommitOp CREATE coll (Some (dag_cbor_cid digest (norm v))) None]).
  assert (FS : from_storage st1 []) by (intros ? ? H; discriminate H).
  pose proof R1 as R2. rewrite <- RT in R2.
  destruct (tree_cover digest kdigest st1 n t ops [] R2 W Srt LE ST FS) as (out & E & (_ & C2 & C3) & FO & _). rewrite RT in E.
  assert (NO : NoDup (keys out)) by (eapply (cover_NoDup st1 max_depth root (map op_path ops) []); [constructor|exact E]).
  assert (VO : forall c ob, In (c, ob) out -> exists b, ob = Some b /\ read st c = Some b /\ node_of (rd st) root c).
  { intros c ob HI. apply In_dget in HI; auto. destruct (C2 c ob eq_refl HI) as (NC & b & -> & RB). exists b. splits; auto; [rewrite <- RD; auto|].
    apply (tree_node_of _ _ _ _ _ _ _ _ T). exact NC. }
  destruct (proof_blocks out) as (l & EL & LA & LB).
  { intros c ob HI. destruct (VO _ _ HI) as (b & -> & RB & _). exists b. split; auto. apply (store_cid _ _ _ _ SO RB). }
  pose proof (tree_record _ _ _ _ _ _ _ _ _ T DV) as HL. destruct (tree_leaf _ _ _ _ _ _ _ _ _ T HL) as (v' & bv & DV' & _ & RV & VV).
  rewrite DV in DV'. injection DV' as <-.
  assert (CN : dag_cbor_cid digest (norm v) = rcid v) by (unfold dag_cbor_cid, StorageSpec.rcid; rewrite NN; reflexivity).
  set (bl := (dag_cbor_cid digest (norm v), dag_cbor_encode (norm v)) :: (b_cid h, encode (b_val h)) :: l).
  assert (GE : genuine st bl).
  { intros c data [[= <- <-]|[[= <- <-]|HI]].
    - rewrite CN. exists bv. splits; auto; [unfold dag_cbor_encode; rewrite NN, VV; reflexivity|]. apply (store_cid _ _ _ _ SO RV).
    - exists h. splits; auto. apply (store_cid _ _ _ _ SO RH).
    - destruct (LA _ _ HI) as (b & HI' & ->). destruct (VO _ _ HI') as (b' & [= <-] & RB & _). exists b. splits; auto. apply (store_cid _ _ _ _ SO RB). }
  assert (LESS : forall c u, car_reader bl c = Some u -> rd st c = Some u).
  { intros c u H. destruct (car_reader_some _ _ _ _ _ GE H) as (b & RB & <-). unfold rd, read in *. rewrite dget_vals, RB. reflexivity. }
  exists h, root, (write_car [b_cid h] bl), bl. splits; auto.
  - exact (op_head _ _ _ _ _ _ _ _ _ _ _ OP).
  - exact (op_data _ _ _ _ _ _ _ _ _ _ _ OP).
  - unfold sync_get_record. rewrite (bindM_ok _ _ _ _ _ (op_load _ _ _ _ _ _ _ _ _ _ _ OP)).
    rewrite (bindM_ok _ _ _ _ _ (obj_some _ _ _ (op_obj _ _ _ _ _ _ _ _ _ _ _ OP))).
    rewrite (bindM_ok _ _ _ _ _ FR). rewrite TV. rewrite (bindM_ok _ _ st1 st1 tt) by reflexivity.
    rewrite (op_root _ _ _ _ _ _ _ _ _ _ _ OP). rewrite (bindM_ok _ _ st1 st1 root) by reflexivity.
    fold ops. rewrite (bindM_ok (fun st0 => (st0, add_covering_proofs st0 max_depth root (Some ops) [])) _ st1 st1 out) by (rewrite E; reflexivity).
    rewrite EL. rewrite (bindM_ok _ _ st1 st1 l) by reflexivity.
    unfold head_of. rewrite (op_head _ _ _ _ _ _ _ _ _ _ _ OP). rewrite (bindM_ok (ret h) _ st1 st1 h) by reflexivity. reflexivity.
  - apply read_write_car. intros [c data] HI. cbn [fst]. destruct (GE _ _ HI) as (b & _ & _ & ->). unfold cid_of. rewrite app_length, D32. reflexivity.
  - intros c [<-|[<-|HI]]; cbn [fst].
    + right. right. exists (record_path coll rkey), v. auto.
    + left. reflexivity.
    + right. left. apply in_map_iff in HI as ([c' data] & <- & HI). destruct (LA _ _ HI) as (b & HI' & _). destruct (VO _ _ HI') as (_ & _ & _ & X). exact X.
  - right. left. reflexivity.
  - rewrite <- VV. eapply car_reader_genuine; eauto. left. exact CN.
  - destruct t as [es]. destruct (C3 coll (Node es)) as (b & D & _); [left; reflexivity|rewrite spath_node; left; reflexivity|].
    rewrite RT in D. apply dget_In in D. right. right. apply in_map_iff. exists (root, encode (b_val b)). split; auto.
  - intros path y H. apply (get_less (rd st)) in H; auto. rewrite <- SM. rewrite <- RT in H. unfold mst_load in H.
    pose proof md as MD. assert (R3 : rep digest (rd st) n (Mst None (Some (tcid t)) None false) t).
    { destruct T as (R3 & _). rewrite <- RT in R3. exact R3. }
    rewrite (get_ok digest kdigest (rd st) n) with (t := t) in H; auto; [|lia]. congruence.
Qed.

Lemma c41_missing w bk x did o key recs coll rkey : serves w bk -> names (w_state w) x did o -> r_status o = None -> dget did bk = Some (key, recs) ->
  dget (record_path coll rkey) recs = None ->
  snd (sync_get_record digest kdigest be netloc_ok x coll rkey (w_state w)) = Err (XrpcError (s "RecordNotFound")).
Proof.
  intros S NM R B DV. destruct (open_repo _ _ _ _ _ _ _ S NM R B) as (st1 & r & h & root & n & t & OP & refs & I1 & G).
  pose proof (good_find digest kdigest validate ecdsa st1 did key recs o coll rkey G) as FR. rewrite DV in FR. cbn [option_map] in FR.
  unfold sync_get_record. rewrite (bindM_ok _ _ _ _ _ (op_load _ _ _ _ _ _ _ _ _ _ _ OP)).
  rewrite (bindM_ok _ _ _ _ _ (obj_some _ _ _ (op_obj _ _ _ _ _ _ _ _ _ _ _ OP))).
  rewrite (bindM_ok _ _ _ _ _ FR). reflexivity.
Qed.
End Export.
