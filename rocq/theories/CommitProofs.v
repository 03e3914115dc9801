(** The loop of commit, on one repo object. *)
From Coq Require Import String List NArith ZArith Bool Lia Sorted.
From Coq Require Import ZifyBool ZifyNat ZifyN.
From Verif Require Import Base Lists Ipld IpldProofs MstModel MstTree MstTreeProofs MstRep MstOps MstTrav
  MstClient MstSpec MstShape MstHist MstFacts TidModel BlockModel StorageModel StorageSpec.
Import ListNotations.

Section Trees.
Variable digest : list N -> list N.
Variable kdigest : str -> list N.
Hypothesis klen : forall k, length (kdigest k) = 32.
Notation Rel := (Rel digest kdigest None).

Lemma rel_key B m d k x : Rel (Client B m) d -> dget k d = Some x -> repo_key k.
Proof.
  clear klen. intros (n & t & R & W & Srt & Hn & Same & ND & _) G. rewrite <- Same in G.
  apply dget_In in G. apply valid_key_spec. eapply wf_key_in; eauto. apply in_map_iff. exists (k, x). auto.
Qed.

Lemma rel_nodup B m d : Rel (Client B m) d -> NoDup (keys d).
Proof. clear. intros (n & t & _ & _ & _ & _ & _ & ND & _). auto. Qed.

Lemma cstep_delete B m k : cstep digest kdigest (Client B m) (ODelete k)
  = assign (Client B m) (delete kdigest (fun k : str => dget k B) max_depth m k).
Proof. clear. reflexivity. Qed.
Lemma cstep_add' B m k v : cstep digest kdigest (Client B m) (OAdd k v)
  = assign (Client B m) (add digest kdigest (fun k : str => dget k B) max_depth m k v None).
Proof. clear. reflexivity. Qed.

Lemma rel_delete B m d k x : Rel (Client B m) d -> dget k d = Some x ->
  exists m', delete kdigest (fun k : str => dget k B) max_depth m k = Ok m' /\ Rel (Client B m') (ddel k d).
Proof.
  intros HR G. destruct (cstep_tree digest kdigest klen None _ d (ODelete k) HR ltac:(discriminate) ltac:(discriminate))
    as (d' & out & H1 & H2 & _ & H4 & _).
  rewrite cstep_delete in H2, H4. generalize dependent (delete kdigest (fun k0 : str => dget k0 B) max_depth m k).
  intros x' H2 H4. destruct x' as [m'|e]; cbn [assign fst snd] in *;
    inversion H1; subst; try congruence.
  exists m'. split; auto.
Qed.

Lemma rel_add B m d k v : Rel (Client B m) d ->
  (repo_key k /\ dget k d = None /\
   exists m', add digest kdigest (fun k : str => dget k B) max_depth m k v None = Ok m' /\ Rel (Client B m') (dset k v d)) \/
  (~ (repo_key k /\ dget k d = None) /\ add digest kdigest (fun k : str => dget k B) max_depth m k v None = Err ValueError).
Proof.
  intros HR. destruct (cstep_tree digest kdigest klen None _ d (OAdd k v) HR ltac:(discriminate) ltac:(discriminate))
    as (d' & out & H1 & H2 & _ & H4 & _).
  rewrite cstep_add' in H2, H4.
  generalize dependent (add digest kdigest (fun k0 : str => dget k0 B) max_depth m k v None).
  intros x' H2 H4. destruct x' as [m'|e]; cbn [assign fst snd] in *.
  - inversion H1; subst; try congruence. left. splits; auto. exists m'. auto.
  - right. inversion H1; subst; try congruence.
    + split; [intros [_ X]; congruence|congruence].
    + split; [intros [X _]; auto|congruence].
Qed.

Hypothesis inj : forall a b, digest a = digest b -> a = b.

Lemma rel_update B m d k v x : Rel (Client B m) d -> dget k d = Some x ->
  exists m' p p', update kdigest (fun k : str => dget k B) max_depth m k v = Ok m' /\ Rel (Client B m') (dset k v d) /\
    get_pointer digest m = Ok p /\ get_pointer digest m' = Ok p' /\ (p' = p <-> v = x).
Proof.
  intros HR G. pose proof (rel_key _ _ _ _ _ HR G) as K.
  destruct HR as (n & t & R & W & Srt & Hn & Same & ND & RI). pose proof md as MD. cbn [cl_tree] in *.
  pose proof (update_ok digest kdigest (fun k : str => dget k B) n max_depth m t k v ltac:(lia) R W Srt
                (proj2 (valid_key_spec k) K)) as U.
  rewrite Same, G in U. destruct U as (m' & t' & U1 & R' & W' & NE & LV).
  exists m', (tcid digest t), (tcid digest t'). splits.
  - exact U1.
  - exists n, t'. cbn [cl_tree cl_store]. splits; auto.
    + unfold sorted_tree. rewrite LV, keys_dset_present; auto. rewrite Same. congruence.
    + intros k'. rewrite LV, !dget_dset, Same. auto.
    + apply dset_NoDup; auto.
  - exact (get_pointer_ok digest kdigest _ n m t R W).
  - exact (get_pointer_ok digest kdigest _ n m' t' R' W').
  - split.
    + intros E. assert (t' = t) by (exact (tcid_inj digest kdigest inj n t' n t W' W E)). subst t'.
      pose proof (f_equal (dget k) LV) as X. rewrite dget_dset, str_eqb_refl, Same, G in X. congruence.
    + intros ->. f_equal. apply (wf_unique kdigest n); auto. rewrite LV.
      assert (DS : forall l : list (str * cid), dget k l = Some x -> dset k x l = l).
      { clear. induction l as [|[k' y] l IH]; simpl; [discriminate|]. destruct (str_eqb k k') eqn:E.
        - intros [= ->]. apply str_eqb_eq in E. subst. auto.
        - intros H. rewrite IH; auto. }
      apply DS. rewrite Same. auto.
Qed.

End Trees.

(** ** Dictionaries of records *)

Lemma dget_cids digest k recs : dget k (cids_of digest recs) = option_map (rcid digest) (dget k recs).
Proof. induction recs as [|[k' v] r IH]; simpl; auto. destruct (str_eqb k k'); auto. Qed.

Lemma cids_dset digest k v recs : cids_of digest (dset k v recs) = dset k (rcid digest v) (cids_of digest recs).
Proof. induction recs as [|[k' v'] r IH]; simpl; auto. destruct (str_eqb k k'); simpl; auto. f_equal. auto. Qed.

Lemma cids_ddel digest k recs : cids_of digest (ddel k recs) = ddel k (cids_of digest recs).
Proof. induction recs as [|[k' v'] r IH]; simpl; auto. destruct (str_eqb k k'); simpl; auto. f_equal. auto. Qed.

Lemma keys_cids digest recs : keys (cids_of digest recs) = keys recs.
Proof. unfold cids_of, keys. rewrite map_map. auto. Qed.

Lemma replace_nth_same {A} n (a : A) l : nth_error l n = Some a -> replace_nth n a l = l.
Proof. revert n. induction l as [|x l IH]; intros [|n] H; simpl in *; try congruence. rewrite IH; auto. Qed.

Lemma replace_nth_twice {A} n (a b : A) l : replace_nth n a (replace_nth n b l) = replace_nth n a l.
Proof. revert n. induction l as [|x l IH]; intros [|n]; simpl; auto. rewrite IH. auto. Qed.

Lemma nth_replace_same {A} n (a b : A) l : nth_error l n = Some b -> nth_error (replace_nth n a l) n = Some a.
Proof. revert n. induction l as [|x l IH]; intros [|n] H; simpl in *; try congruence. eauto. Qed.

Lemma nth_replace_other {A} n m (a : A) l : n <> m -> nth_error (replace_nth n a l) m = nth_error l m.
Proof. revert n m. induction l as [|x l IH]; intros [|n] [|m] H; simpl; auto; try congruence. Qed.

Lemma replace_nth_length {A} n (a : A) l : length (replace_nth n a l) = length l.
Proof. revert n. induction l as [|x l IH]; intros [|n]; simpl; auto. Qed.

(** ** The loop *)

(** [st] with the tree of object [r] replaced. *)
Definition upd (st : state) (r : nat) (o : repo) : state := set_objs (replace_nth r o (s_objs st)) st.

Lemma upd_same st r o : nth_error (s_objs st) r = Some o -> upd st r o = st.
Proof. intros H. unfold upd. rewrite replace_nth_same; auto. destruct st; auto. Qed.

Section Loop.
Variable digest : list N -> list N.
Variable kdigest : str -> list N.
Variable validate : ipld -> res unit.
Hypothesis klen : forall k, length (kdigest k) = 32.
Hypothesis inj : forall a b, digest a = digest b -> a = b.
Notation Rel := (Rel digest kdigest None).
Notation rcid := (rcid digest).
Notation write_allowed := (write_allowed validate).
Notation writes_allowed := (writes_allowed validate).
Notation write_ops := (write_ops digest).
Notation commit_write := (commit_write digest kdigest validate).

(** The tree of an object holds these records. *)
Definition holds (st : state) (m : mst) (recs : records) : Prop :=
  Rel (Client (vals (s_blocks st)) m) (cids_of digest recs).

(** What a write adds to commit_blocks. *)
Definition write_blocks_of (did : str) (seq : Z) (blocks : list (cid * block)) (w : write) : list (cid * block) :=
  match w_action w, w_record w with
  | DELETE, _ => blocks
  | _, Some v => dset (rcid v) (mk_block digest v (Some did) seq None) blocks
  | _, None => blocks
  end.

Lemma cid_nonempty v : exists x r, cid_of digest v = x :: r.
Proof. clear. unfold cid_of. eexists. eexists. reflexivity. Qed.

Lemma path_eq w : path_of w = record_path (w_collection w) (w_rkey w).
Proof. reflexivity. Qed.

Lemma holds_get st m recs k : holds st m recs ->
  get kdigest (rd st) max_depth m k = Ok (option_map rcid (dget k recs)).
Proof.
  clear klen inj. intros H. pose proof (rel_get digest kdigest None _ _ k H) as X.
  rewrite dget_cids in X. exact X.
Qed.

Lemma obj_some st r o : nth_error (s_objs st) r = Some o -> obj r st = (st, Ok o).
Proof. unfold obj. intros ->. auto. Qed.

Lemma set_attr_some st r o f : nth_error (s_objs st) r = Some o -> set_attr r f st = (upd st r (f o), Ok tt).
Proof. intros H. unfold set_attr, bindM. rewrite (obj_some _ _ _ H). reflexivity. Qed.

Definition record_okb (v : ipld) : bool :=
  match v with
  | IMap (_ :: _) => match validate v with Ok _ => (len (dag_cbor_encode v) <=? 1000000)%N | Err _ => false end
  | _ => false
  end.

Lemma record_okb_spec v : record_okb v = true <-> record_ok validate v.
Proof.
  clear klen inj. unfold record_okb, record_ok. split.
  - destruct v as [| | | | | |[|kv m]|]; try discriminate.
    destruct (validate (IMap (kv :: m))) as [[]|]; [|discriminate]. intros H. splits; auto; [|lia].
    exists (kv :: m). split; congruence.
  - intros ((m & -> & NE) & V & L). rewrite V. destruct m; [congruence|]. lia.
Qed.

(** The part of a create or update before the tree is touched. *)

Lemma bindM_ok {A B} (m : M A) (f : A -> M B) st st' a : m st = (st', Ok a) -> bindM m f st = f a st'.
Proof. unfold bindM. intros ->. auto. Qed.
Lemma bindM_err {A B} (m : M A) (f : A -> M B) st st' e : m st = (st', Err e) -> bindM m f st = (st', Err e).
Proof. unfold bindM. intros ->. auto. Qed.

(** Reading the old CID. *)
Definition read_prev (r : nat) (path : str) : M (option cid) :=
  bindM (obj r) (fun o =>
  bindM (fun st => (st, get kdigest (rd st) max_depth (r_mst o) path)) (fun v =>
  match v with
  | None => throw ValueError
  | Some v => if nonempty v then ret (Some v) else throw ValueError
  end)).

Lemma read_prev_ok st r o recs path : nth_error (s_objs st) r = Some o -> holds st (r_mst o) recs ->
  read_prev r path st = match dget path recs with
                        | Some v => (st, Ok (Some (rcid v)))
                        | None => (st, Err ValueError)
                        end.
Proof.
  clear klen inj. intros HO HH. unfold read_prev. rewrite (bindM_ok _ _ _ _ _ (obj_some _ _ _ HO)).
  pose proof (holds_get st (r_mst o) recs path HH) as G.
  destruct (dget path recs) as [v|]; cbn [option_map] in G.
  - rewrite (bindM_ok (fun st0 => (st0, get kdigest (rd st0) max_depth (r_mst o) path)) _ st st (Some (rcid v)))
      by (rewrite G; exact eq_refl).
    destruct (cid_nonempty (norm v)) as (x & l & E). unfold StorageSpec.rcid. rewrite E. reflexivity.
  - rewrite (bindM_ok (fun st0 => (st0, get kdigest (rd st0) max_depth (r_mst o) path)) _ st st None)
      by (rewrite G; exact eq_refl).
    reflexivity.
Qed.

(** The checks of a record. *)
Definition check_record (did : str) (seq : Z) (v : ipld) {A} (f : M A) : M A :=
  bindM (match v with IMap _ => ret tt | _ => throw AttributeError end) (fun _ =>
  bindM (lift (validate v)) (fun _ =>
  bindM (assert (truthy v)) (fun _ =>
  bindM (if (max_record_size <? len (encode (b_val (mk_block digest v (Some did) seq None))))%N
         then throw ValueError else ret tt) (fun _ => f)))).

Lemma check_record_ok did seq v {A} (f : M A) st :
  (record_ok validate v /\ check_record did seq v f st = f st) \/
  (~ record_ok validate v /\ exists e, record_fails validate v e /\ check_record did seq v f st = (st, Err e)).
Proof.
  clear klen inj. destruct (record_okb v) eqn:E.
  - left. split; [apply record_okb_spec; auto|]. apply record_okb_spec in E as ((m & -> & NE) & V & LE).
    unfold check_record. unfold bindM at 1. cbn [ret]. unfold bindM at 1. unfold lift. rewrite V.
    unfold bindM at 1. destruct m; [congruence|]. cbn [truthy assert ret].
    cbn [b_val mk_block]. fold (dag_cbor_encode (IMap (p :: m))).
    assert (X : (max_record_size <? len (dag_cbor_encode (IMap (p :: m))))%N = false).
    { apply N.ltb_ge. exact LE. }
    rewrite X. reflexivity.
  - right. split; [rewrite <- record_okb_spec; congruence|].
    unfold check_record, record_okb in *.
    destruct v as [| | | | | |m|]; try (exists AttributeError; split; [apply rf_not_dict; discriminate|reflexivity]).
    unfold bindM at 1. cbn [ret]. unfold bindM at 1, lift. destruct (validate (IMap m)) as [[]|e] eqn:V.
    2:{ exists e. split; auto. eapply rf_invalid; eauto. }
    unfold bindM at 1. destruct m as [|p m].
    { exists AssertionError. split; [apply rf_empty; auto|reflexivity]. }
    cbn [truthy assert ret].
    cbn [b_val mk_block]. fold (dag_cbor_encode (IMap (p :: m))).
    apply N.leb_gt in E.
    assert (X : (max_record_size <? len (dag_cbor_encode (IMap (p :: m))))%N = true).
    { apply N.ltb_lt. exact E. }
    rewrite X. exists ValueError. split; [eapply rf_size; eauto; discriminate|reflexivity].
Qed.

Lemma upd_mst_same st r o : nth_error (s_objs st) r = Some o -> upd st r (with_mst (r_mst o) o) = st.
Proof. intros H. apply upd_same. rewrite H. destruct o. auto. Qed.

(** What follows the checks for a create and for an update. *)
Definition do_create (r : nat) (did : str) (seq : Z) blocks ops path v : M (list (cid * block) * list commit_op) :=
  let b := mk_block digest v (Some did) seq None in
  bindM (obj r) (fun o =>
  bindM (fun st => (st, add digest kdigest (rd st) max_depth (r_mst o) path (b_cid b) None)) (fun m =>
  bindM (set_attr r (with_mst m)) (fun _ =>
  ret (dset (b_cid b) b blocks, ops ++ [CommitOp CREATE path (Some (b_cid b)) None])))).

Definition do_update (r : nat) (did : str) (seq : Z) blocks ops path v prev : M (list (cid * block) * list commit_op) :=
  let b := mk_block digest v (Some did) seq None in
  bindM (obj r) (fun o =>
  bindM (lift (get_pointer digest (r_mst o))) (fun orig =>
  bindM (fun st => (st, update kdigest (rd st) max_depth (r_mst o) path (b_cid b))) (fun m =>
  bindM (set_attr r (with_mst m)) (fun _ =>
  bindM (lift (get_pointer digest m)) (fun pointer =>
  ret (dset (b_cid b) b blocks,
       if str_eqb pointer orig then ops else ops ++ [CommitOp UPDATE path (Some (b_cid b)) prev])))))).

Definition do_delete (r : nat) (blocks : list (cid * block)) ops path prev : M (list (cid * block) * list commit_op) :=
  bindM (obj r) (fun o =>
  bindM (fun st => (st, delete kdigest (rd st) max_depth (r_mst o) path)) (fun m =>
  bindM (set_attr r (with_mst m)) (fun _ =>
  ret (blocks, ops ++ [CommitOp DELETE path None prev])))).

Lemma commit_write_eq r did seq blocks ops w : commit_write r did seq (blocks, ops) w =
  match w_action w with
  | CREATE => match w_record w with
              | None => bindM (ret None) (fun _ : option cid => throw AssertionError)
              | Some v => bindM (ret None) (fun _ : option cid =>
                            check_record did seq v (do_create r did seq blocks ops (path_of w) v))
              end
  | UPDATE => bindM (read_prev r (path_of w)) (fun prev =>
              match w_record w with
              | None => throw AssertionError
              | Some v => check_record did seq v (do_update r did seq blocks ops (path_of w) v prev)
              end)
  | DELETE => bindM (read_prev r (path_of w)) (fun prev => do_delete r blocks ops (path_of w) prev)
  end.
Proof. clear klen inj. destruct w as [[] c k [v|]]; reflexivity. Qed.

Lemma do_delete_ok st r o recs blocks ops path prev v :
  nth_error (s_objs st) r = Some o -> holds st (r_mst o) recs -> dget path recs = Some v ->
  exists m', do_delete r blocks ops path prev st
      = (upd st r (with_mst m' o), Ok (blocks, ops ++ [CommitOp DELETE path None prev])) /\
    holds st m' (ddel path recs).
Proof.
  clear inj. intros HO HH G. unfold do_delete. rewrite (bindM_ok _ _ _ _ _ (obj_some _ _ _ HO)).
  destruct (rel_delete digest kdigest klen _ _ _ path (rcid v) HH) as (m' & E & HH').
  { rewrite dget_cids, G. auto. }
  exists m'. split.
  - rewrite (bindM_ok (fun st0 => (st0, delete kdigest (rd st0) max_depth (r_mst o) path)) _ st st m')
      by (unfold rd; rewrite E; exact eq_refl).
    rewrite (bindM_ok _ _ _ _ _ (set_attr_some _ _ _ _ HO)). exact eq_refl.
  - unfold holds. rewrite cids_ddel. exact HH'.
Qed.

Lemma do_create_ok st r o recs did seq blocks ops path v :
  nth_error (s_objs st) r = Some o -> holds st (r_mst o) recs ->
  (repo_key path /\ dget path recs = None /\
   exists m', do_create r did seq blocks ops path v st
      = (upd st r (with_mst m' o), Ok (dset (rcid v) (mk_block digest v (Some did) seq None) blocks,
           ops ++ [CommitOp CREATE path (Some (rcid v)) None])) /\
    holds st m' (dset path v recs)) \/
  (~ (repo_key path /\ dget path recs = None) /\ do_create r did seq blocks ops path v st = (st, Err ValueError)).
Proof.
  clear inj. intros HO HH. unfold do_create. rewrite (bindM_ok _ _ _ _ _ (obj_some _ _ _ HO)).
  destruct (rel_add digest kdigest klen _ _ _ path (rcid v) HH) as [(K & G & m' & E & HH')|(NK & E)].
  - left. rewrite dget_cids in G. splits; auto; [destruct (dget path recs); [discriminate|auto]|].
    exists m'. split.
    + rewrite (bindM_ok (fun st0 => (st0, add digest kdigest (rd st0) max_depth (r_mst o) path
          (b_cid (mk_block digest v (Some did) seq None)) None)) _ st st m')
        by (unfold rd; cbn [b_cid mk_block]; unfold StorageSpec.rcid in E; rewrite E; exact eq_refl).
      rewrite (bindM_ok _ _ _ _ _ (set_attr_some _ _ _ _ HO)). exact eq_refl.
    + unfold holds. rewrite cids_dset. exact HH'.
  - right. rewrite dget_cids in NK. split.
    + intros [K G]. apply NK. rewrite G. auto.
    + apply bindM_err. unfold rd; cbn [b_cid mk_block]; unfold StorageSpec.rcid in E; rewrite E; exact eq_refl.
Qed.

Lemma do_update_ok st r o recs did seq blocks ops path v prev x :
  nth_error (s_objs st) r = Some o -> holds st (r_mst o) recs -> dget path recs = Some x ->
  exists m', do_update r did seq blocks ops path v prev st
      = (upd st r (with_mst m' o), Ok (dset (rcid v) (mk_block digest v (Some did) seq None) blocks,
           if str_eqb (rcid x) (rcid v) then ops else ops ++ [CommitOp UPDATE path (Some (rcid v)) prev])) /\
    holds st m' (dset path v recs).
Proof.
  intros HO HH G. unfold do_update. rewrite (bindM_ok _ _ _ _ _ (obj_some _ _ _ HO)).
  destruct (rel_update digest kdigest klen inj _ _ _ path (rcid v) (rcid x) HH) as (m' & p & p' & E & HH' & P & P' & EQ).
  { rewrite dget_cids, G. auto. }
  exists m'. split.
  - rewrite (bindM_ok (lift (get_pointer digest (r_mst o))) _ st st p) by (unfold lift; rewrite P; exact eq_refl).
    rewrite (bindM_ok (fun st0 => (st0, update kdigest (rd st0) max_depth (r_mst o) path
          (b_cid (mk_block digest v (Some did) seq None)))) _ st st m')
      by (unfold rd; cbn [b_cid mk_block]; unfold StorageSpec.rcid in E; rewrite E; exact eq_refl).
    rewrite (bindM_ok _ _ _ _ _ (set_attr_some _ _ _ _ HO)).
    rewrite (bindM_ok (lift (get_pointer digest m')) _ _ (upd st r (with_mst m' o)) p')
      by (unfold lift; rewrite P'; exact eq_refl).
    assert (X : str_eqb p' p = str_eqb (rcid x) (rcid v)).
    { destruct (str_eqb_spec p' p) as [H|H], (str_eqb_spec (rcid x) (rcid v)) as [H'|H']; auto.
      - apply EQ in H. congruence.
      - exfalso. apply H, EQ. auto. }
    rewrite X. exact eq_refl.
  - unfold holds. rewrite cids_dset. exact HH'.
Qed.

Lemma commit_write_ok st r o recs did seq blocks ops w :
  nth_error (s_objs st) r = Some o -> holds st (r_mst o) recs ->
  exists m' out, commit_write r did seq (blocks, ops) w st = (upd st r (with_mst m' o), out) /\
    ((write_allowed recs w /\ holds st m' (apply_write recs w) /\
      out = Ok (write_blocks_of did seq blocks w, ops ++ write_ops recs w)) \/
     (~ write_allowed recs w /\ m' = r_mst o /\ exists e, out = Err e /\ write_fails validate recs w e)).
Proof.
  intros HO HH. rewrite commit_write_eq.
  unfold StorageSpec.write_allowed, apply_write, StorageSpec.write_ops, write_blocks_of, has_record.
  pose proof (path_eq w) as PE.
  rewrite <- path_eq.
  assert (SAME : forall e, exists m' (out : res (list (cid * block) * list commit_op)),
     (st, @Err (list (cid * block) * list commit_op) e) = (upd st r (with_mst m' o), out) /\ m' = r_mst o /\ out = Err e).
  { intros e. exists (r_mst o), (Err e). rewrite upd_mst_same; auto. }
  destruct (w_action w) eqn:WA.
  - destruct (w_record w) as [v|] eqn:WR.
    + unfold bindM at 1. cbn [ret].
      destruct (check_record_ok did seq v (do_create r did seq blocks ops (path_of w) v) st) as [[RO ->]|[NR (e & RF & ->)]].
      * destruct (do_create_ok st r o recs did seq blocks ops (path_of w) v HO HH)
          as [(K & G & m' & -> & HH')|(NK & ->)].
        -- eexists. eexists. split; [reflexivity|]. left. splits; eauto.
        -- destruct (SAME ValueError) as (m' & out & -> & E1 & E2). exists m', out. split; auto. right.
           splits; auto; [intros (K & G & _); auto|]. exists ValueError. split; auto. eapply wf_create; eauto.
      * destruct (SAME e) as (m' & out & -> & E1 & E2). exists m', out. split; auto. right.
        splits; auto; [intros (_ & _ & v' & [= <-] & RO); auto|]. exists e. split; auto.
        eapply wf_record; eauto; congruence.
    + destruct (SAME AssertionError) as (m' & out & E0 & E1 & E2). exists m', out.
      split; [rewrite <- E0; reflexivity|]. right.
      splits; auto; [intros (_ & _ & v' & X & _); discriminate|]. exists AssertionError. split; auto. apply wf_no_record; auto; congruence.
  - pose proof (read_prev_ok st r o recs (path_of w) HO HH) as RP.
    destruct (dget (path_of w) recs) as [x|] eqn:G.
    + rewrite (bindM_ok _ _ _ _ _ RP). destruct (w_record w) as [v|] eqn:WR.
      * destruct (check_record_ok did seq v (do_update r did seq blocks ops (path_of w) v (Some (rcid x))) st)
          as [[RO ->]|[NR (e & RF & ->)]].
        -- destruct (do_update_ok st r o recs did seq blocks ops (path_of w) v (Some (rcid x)) x HO HH G)
             as (m' & -> & HH').
           eexists. eexists. split; [reflexivity|]. left. splits; eauto; [congruence|].
           cbn [option_map]. destruct (str_eqb (rcid x) (rcid v)); rewrite ?app_nil_r; reflexivity.
        -- destruct (SAME e) as (m' & out & -> & E1 & E2). exists m', out. split; auto. right.
           splits; auto; [intros (_ & v' & [= <-] & RO); auto|]. exists e. split; auto.
           eapply wf_record; eauto; [congruence|]. rewrite <- PE. congruence.
      * destruct (SAME AssertionError) as (m' & out & E0 & E1 & E2). exists m', out.
        split; [rewrite <- E0; reflexivity|]. right.
        splits; auto; [intros (_ & v' & X & _); discriminate|]. exists AssertionError. split; auto.
        apply wf_no_record; auto; [congruence|]. rewrite <- PE. congruence.
    + rewrite (bindM_err _ _ _ _ _ RP).
      destruct (SAME ValueError) as (m' & out & -> & E1 & E2). exists m', out. split; auto. right.
      splits; auto; [intros [X _]; congruence|]. exists ValueError. split; auto. apply wf_missing; [congruence|]. rewrite <- PE. auto.
  - pose proof (read_prev_ok st r o recs (path_of w) HO HH) as RP.
    destruct (dget (path_of w) recs) as [x|] eqn:G.
    + rewrite (bindM_ok _ _ _ _ _ RP).
      destruct (do_delete_ok st r o recs blocks ops (path_of w) (Some (rcid x)) x HO HH G) as (m' & -> & HH').
      eexists. eexists. split; [reflexivity|]. left. splits; eauto. congruence.
    + rewrite (bindM_err _ _ _ _ _ RP).
      destruct (SAME ValueError) as (m' & out & -> & E1 & E2). exists m', out. split; auto. right.
      splits; auto. exists ValueError. split; auto. apply wf_missing; [congruence|]. rewrite <- PE. auto.
Qed.

Lemma upd_upd st r o o' : upd (upd st r o) r o' = upd st r o'.
Proof. unfold upd, set_objs. cbn. rewrite replace_nth_twice. auto. Qed.

Definition writes_blocks_of did seq blocks ws := fold_left (write_blocks_of did seq) ws blocks.

Lemma foldM_commit_ok did seq r : forall ws st o recs blocks ops,
  nth_error (s_objs st) r = Some o -> holds st (r_mst o) recs ->
  exists m' out, foldM (commit_write r did seq) (blocks, ops) ws st = (upd st r (with_mst m' o), out) /\
    ((writes_allowed recs ws /\ holds st m' (apply_writes recs ws) /\
      out = Ok (writes_blocks_of did seq blocks ws, ops ++ commit_ops digest recs ws)) \/
     (~ writes_allowed recs ws /\ (exists e, out = Err e /\ batch_fails validate recs ws e) /\
      (length ws <= 1 -> m' = r_mst o))).
Proof.
  induction ws as [|w ws IH]; intros st o recs blocks ops HO HH.
  - exists (r_mst o). eexists. split.
    + rewrite upd_mst_same by auto. reflexivity.
    + left. cbn. rewrite app_nil_r. splits; auto.
  - cbn [foldM]. destruct (commit_write_ok st r o recs did seq blocks ops w HO HH) as (m1 & out1 & E1 & C).
    destruct C as [(AL & HH1 & ->)|(NA & -> & e & -> & WF)].
    + rewrite (bindM_ok _ _ _ _ _ E1).
      assert (HO1 : nth_error (s_objs (upd st r (with_mst m1 o))) r = Some (with_mst m1 o)).
      { cbn. eapply nth_replace_same; eauto. }
      destruct (IH (upd st r (with_mst m1 o)) (with_mst m1 o) (apply_write recs w)
        (write_blocks_of did seq blocks w) (ops ++ write_ops recs w) HO1 HH1) as (m' & out & E & C).
      rewrite upd_upd in E. exists m', out. split; [exact E|].
      destruct C as [(A & B & C)|(A & B & C)].
      * left. cbn [writes_allowed commit_ops apply_writes fold_left writes_blocks_of]. splits; auto.
        rewrite C. cbn [commit_ops]. rewrite app_assoc. reflexivity.
      * right. splits; auto.
        -- intros [_ X]. exact (A X).
        -- destruct B as (e & B1 & pre & w' & post & -> & B2 & B3). exists e. split; auto.
           exists (w :: pre), w', post. splits; auto. split; auto.
        -- clear - A. intros LE. destruct ws as [|w' ws]; [exfalso; apply A; exact I|].
           exfalso. cbn [length] in LE. lia.
    + rewrite (bindM_err _ _ _ _ _ E1). exists (r_mst o), (Err e). split; auto. right. splits; auto.
      * intros [X _]. exact (NA X).
      * exists e. split; auto. exists [], w, ws. splits; auto. exact I.
Qed.
End Loop.
