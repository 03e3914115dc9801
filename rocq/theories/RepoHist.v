(** Histories of operations on repos. *)
From Coq Require Import String List NArith ZArith Bool Lia Sorted.
From Coq Require Import ZifyBool ZifyNat ZifyN.
From Verif Require Import Base Lists Ipld IpldProofs MstModel MstTree MstTreeProofs MstRep MstTrav
  MstClient MstSpec MstHist MstFacts TidModel TidProofs BlockModel BlockSpec
  CarModel StorageModel StorageSpec CommitProofs StoreProofs ExecProofs RepoSpec RepoProofs.
Import ListNotations.

Section Hist.
Variable digest : list N -> list N.
Variable kdigest : str -> list N.
Variable validate : ipld -> res unit.
Variable ecdsa : N -> Z -> list N -> list N.
Variable now : Z -> str.
Variable cb : nat -> option exn.
Variable be : backend.
Hypothesis klen : forall k, length (kdigest k) = 32.
Hypothesis inj : forall a b, digest a = digest b -> a = b.
Hypothesis valid_plain : forall v, validate v = Ok tt -> plain v.
Hypothesis quiet : forall n, cb n = None.
Notation rcid := (rcid digest).
Notation cids_of := (cids_of digest).
Notation inv := (inv digest kdigest validate ecdsa be).
Notation good := (good digest kdigest validate ecdsa).
Notation committed := (committed digest kdigest validate ecdsa be).
Notation created := (created digest kdigest validate ecdsa now be).
Notation stored_repo := (stored_repo be).
Notation loaded := (loaded be).
Notation status_set := (status_set be).
Notation event_block := (event_block digest now).
Notation sstep := (sstep digest kdigest validate ecdsa now cb be).
Notation srun := (srun digest kdigest validate ecdsa now cb be).

(** What one operation does. *)
Inductive effect (st : state) (refs : list nat) (bk : book) : sop -> state -> list nat -> res sout -> Prop :=
| ef_same op out : (forall v, out = Ok v -> v = OutNone /\ exists x, op = SLoad x) ->
    (forall h, op_ref op = Some h -> nth_error refs h = None) -> is_create op = false -> effect st refs bk op st refs out
| ef_load x did key recs o st' r : stored_repo st did = Some o -> dget did bk = Some (key, recs) ->
    (did = x \/ r_handle o = Some x) -> loaded st did o st' r ->
    effect st refs bk (SLoad x) st' (refs ++ [r]) (Ok OutRepo)
| ef_load_at h k r0 o0 did key recs hb root : nth_error refs h = Some r0 -> nth_error (s_objs st) r0 = Some o0 ->
    r_head o0 = Some hb -> chain digest kdigest validate ecdsa (s_blocks st) did key hb root recs -> dget did bk <> None ->
    effect st refs bk (SLoadAt h k) (add_obj (Repo (mst_load root) (Some hb) None None false k) st)
      (refs ++ [length (s_objs st)]) (Ok OutRepo)
| ef_callback h x r0 o0 : nth_error refs h = Some r0 -> nth_error (s_objs st) r0 = Some o0 ->
    effect st refs bk (SCallback h x) (upd st r0 (with_callback x o0)) refs (Ok OutDone)
| ef_inactive h ws r0 o0 x : nth_error refs h = Some r0 -> nth_error (s_objs st) r0 = Some o0 -> r_status o0 = Some x ->
    effect st refs bk (SCommit h ws) (called o0 (CLost (s_next st)) (alloc st)) refs (Err InactiveRepo)
| ef_commit h ws r0 o0 did key0 recs0 key recs st' cd : nth_error refs h = Some r0 -> nth_error (s_objs st) r0 = Some o0 ->
    good (s_blocks st) did key0 recs0 o0 -> dget did bk = Some (key, recs) -> r_status o0 = None ->
    commit_possible validate recs ws (s_next st) -> committed st st' r0 o0 did key recs ws cd ->
    effect st refs bk (SCommit h ws) st' refs (Ok (OutCommit cd))
| ef_failed h ws r0 o0 did key0 recs0 key recs o st1 r m' e : nth_error refs h = Some r0 -> nth_error (s_objs st) r0 = Some o0 ->
    good (s_blocks st) did key0 recs0 o0 -> dget did bk = Some (key, recs) -> r_status o0 = None ->
    ~ commit_possible validate recs ws (s_next st) -> stored_repo st did = Some o -> loaded (alloc st) did o st1 r ->
    commit_fails validate recs ws (s_next st) e ->
    (length ws <= 1 \/ 200 < length ws -> (s_next st < 2 ^ 55)%Z -> m' = r_mst o) ->
    effect st refs bk (SCommit h ws) (called o0 (CLost (s_next st)) (upd st1 r (with_mst m' o))) refs (Err e)
| ef_status op h x type extra r0 o0 did key recs : status_op op = Some (h, x, type, extra) ->
    nth_error refs h = Some r0 -> nth_error (s_objs st) r0 = Some o0 -> good (s_blocks st) did key recs o0 -> dget did bk <> None ->
    dget (b_cid (event_block did type (s_next st) extra)) (s_blocks st) = None ->
    effect st refs bk op (after_event (status_set st r0 o0 did x) (with_status x o0) (event_block did type (s_next st) extra))
      refs (Ok OutDone)
| ef_create did handle has_callback key st' cd : is_did did -> handle_ok handle -> (s_next st < 2 ^ 55)%Z ->
    created st st' (length (s_objs st)) did handle has_callback key cd ->
    inv st' (refs ++ [length (s_objs st)]) (dset did (key, []) bk) ->
    effect st refs bk (SCreate did handle None has_callback key) st' (refs ++ [length (s_objs st)]) (Ok OutRepo)
| ef_create_failed did handle status has_callback key o e : r_callback o = has_callback ->
    (status <> None \/ (2 ^ 55 <= s_next st)%Z) -> (status <> None -> e = InactiveRepo) ->
    effect st refs bk (SCreate did handle status has_callback key) (called o (CLost (s_next st)) (alloc (add_obj o st))) refs (Err e).

Lemma status_event op h x type extra did seq : status_op op = Some (h, x, type, extra) ->
  is_event type seq (event now type seq (Some did) extra).
Proof. clear. destruct op; try discriminate; intros [= <- <- <- <-]; split; reflexivity. Qed.

Lemma step_effect st refs bk op : inv st refs bk -> op_named op ->
  effect st refs bk op (w_state (fst (sstep (World st refs) op))) (w_refs (fst (sstep (World st refs) op)))
    (snd (sstep (World st refs) op)).
Proof.
  intros I ON.
  assert (NR : forall h r, nth_error refs h = Some r -> exists o did key recs, nth_error (s_objs st) r = Some o /\
    good (s_blocks st) did key recs o /\ dget did bk <> None).
  { intros h r H. apply (i_ref _ _ _ _ _ _ _ _ I). eapply nth_error_In; eauto. }
  assert (STAT : forall h x type extra, status_op op = Some (h, x, type, extra) ->
    sstep (World st refs) op = on_ref (World st refs) h (fun r => bindM (bindM (set_repo_status be r x)
       (fun _ => bindM (write_event digest now cb be r type extra) (fun _ => ret tt))) (fun _ => ret OutDone)) ->
    effect st refs bk op (w_state (fst (sstep (World st refs) op))) (w_refs (fst (sstep (World st refs) op)))
      (snd (sstep (World st refs) op))).
  { intros h x type extra SO ->. unfold on_ref. cbn [w_refs w_state]. destruct (nth_error refs h) as [r|] eqn:HR.
    2:{ apply ef_same; [discriminate| |destruct op; try discriminate SO; reflexivity]. destruct op; try discriminate SO; injection SO as -> <- <- <-; intros ? [= <-]; auto. }
    destruct (NR h r HR) as (o & did & key & recs & HO & G & HB).
    destruct (good_head _ _ _ _ _ _ _ _ _ G) as (hd & HH & HD).
    assert (RG : registered be st did).
    { destruct (dget did bk) as [[k2 r2]|] eqn:B; [|congruence]. exact (proj1 (proj2 (i_book _ _ _ _ _ _ _ _ I _ _ _ B))). }
    destruct (status_facts digest kdigest validate ecdsa be st refs bk r o did key recs x I HO G HB)
      as (I1 & N1 & B1 & C1 & M1 & O1 & _).
    destruct (event_ok digest kdigest validate ecdsa now cb be klen inj quiet (status_set st r o did x) refs bk r (with_status x o) hd did type extra
       I1 O1 HH HD (fun seq => status_event _ _ _ _ _ _ _ SO)) as (EV & FR & I2).
    rewrite N1 in EV, FR. rewrite B1 in FR.
    assert (X : bindM (bindM (set_repo_status be r x) (fun _ => bindM (write_event digest now cb be r type extra) (fun _ => ret tt)))
      (fun _ => ret OutDone) st = (after_event (status_set st r o did x) (with_status x o) (event_block did type (s_next st) extra), Ok OutDone)).
    { assert (Y : bindM (set_repo_status be r x) (fun _ => bindM (write_event digest now cb be r type extra) (fun _ => ret tt)) st
        = (after_event (status_set st r o did x) (with_status x o) (event_block did type (s_next st) extra), Ok tt)).
      { rewrite (bindM_ok _ _ _ _ _ (status_exec be _ _ _ _ _ x HO HH HD RG)). rewrite (bindM_ok _ _ _ _ _ EV). reflexivity. }
      rewrite (bindM_ok _ _ _ _ _ Y). reflexivity. }
    rewrite X. cbn [fst snd w_state w_refs]. eapply ef_status; eauto. }
  destruct op as [did handle status hc key|x|h key|h x|h ws|h|h|h].
  - destruct ON as [ID HN]. unfold StorageModel.sstep, on_new. cbn [w_state w_refs].
    destruct (create_ok digest kdigest validate ecdsa now cb be klen inj quiet st refs bk did handle status hc key I ID HN)
      as [(ST & LT & st' & cd & RUN & CR & I')|(ST & o & e & RUN & OC & EI)].
    + rewrite (bindM_ok _ _ _ _ _ RUN). cbn [ret fst snd w_state w_refs]. subst status. eapply ef_create; eauto.
    + rewrite (bindM_err _ _ _ _ _ RUN). cbn [fst snd w_state w_refs]. eapply ef_create_failed; eauto.
  - unfold StorageModel.sstep, on_new. cbn [w_state w_refs].
    destruct (load_spec digest be inj st x (inv_named _ _ _ _ _ _ _ _ I)) as [(-> & E)|[(E & _)|(did & o & st' & r & HS & RG & D & L & E)]];
      rewrite E; cbn [fst snd w_state w_refs].
    + apply ef_same; [discriminate..|reflexivity].
    + apply ef_same; [|discriminate|reflexivity]. intros v [= <-]. split; eauto.
    + destruct (dget did bk) as [[k2 r2]|] eqn:B; [|exfalso; exact (i_none _ _ _ _ _ _ _ _ I _ B RG)].
      eapply ef_load; eauto.
  - unfold StorageModel.sstep. cbn [w_state w_refs]. destruct (nth_error refs h) as [r|] eqn:HR.
    2:{ apply ef_same; [discriminate| |reflexivity]. intros ? [= <-]. auto. }
    destruct (NR h r HR) as (o & did & k & recs & HO & G & HB). pose proof G as (hd & root & HH & CH & SN).
    unfold on_new. cbn [w_state w_refs]. rewrite (bindM_ok _ _ _ _ _ (obj_some _ _ _ HO)). rewrite HH.
    assert (X : repo_load (b_cid hd) None None key st = (add_obj (Repo (mst_load root) (Some hd) None None false key) st, Ok (length (s_objs st)))).
    { unfold repo_load. unfold bindM at 1, reads, read. rewrite (chain_read _ _ _ _ _ _ _ _ _ _ CH).
      rewrite (bindM_ok (lift (item_link (s "data") (b_val hd))) _ st st root)
        by (unfold lift; rewrite (chain_data _ _ _ _ _ _ _ _ _ _ CH); exact eq_refl). reflexivity. }
    rewrite (bindM_ok _ _ _ _ _ X). cbn [ret fst snd w_state w_refs]. eapply ef_load_at; eauto.
  - unfold StorageModel.sstep, on_ref. cbn [w_state w_refs]. destruct (nth_error refs h) as [r|] eqn:HR.
    2:{ apply ef_same; [discriminate| |reflexivity]. intros ? [= <-]. auto. }
    destruct (NR h r HR) as (o & did & k & recs & HO & G & HB).
    rewrite (bindM_ok _ _ _ _ _ (set_attr_some _ _ _ _ HO)). cbn [ret fst snd w_state w_refs]. eapply ef_callback; eauto.
  - unfold StorageModel.sstep, on_ref. cbn [w_state w_refs]. destruct (nth_error refs h) as [r|] eqn:HR.
    2:{ apply ef_same; [discriminate| |reflexivity]. intros ? [= <-]. auto. }
    destruct (NR h r HR) as (o & did & k & recs & HO & G & HB).
    destruct (r_status o) as [x|] eqn:ST.
    + rewrite (bindM_err _ _ _ _ _ (commit_inactive digest kdigest validate ecdsa cb be klen inj quiet st r o x ws HO ST
         (i_next _ _ _ _ _ _ _ _ I) None)). cbn [fst snd w_state w_refs]. eapply ef_inactive; eauto.
    + destruct (dget did bk) as [[key1 recs1]|] eqn:B; [|congruence].
      destruct (commit_ok digest kdigest validate ecdsa now cb be klen inj valid_plain quiet st refs bk r o did k recs key1 recs1 ws I
        (nth_error_In _ _ HR) HO G B ST) as [(CP & st' & cd & E & C)|(NC & oo & st1 & r1 & m' & e & HS & L & E & CF & KEEP)].
      * rewrite (bindM_ok _ _ _ _ _ E). cbn [ret fst snd w_state w_refs]. eapply ef_commit; eauto.
      * rewrite (bindM_err _ _ _ _ _ E). cbn [fst snd w_state w_refs]. eapply ef_failed; eauto.
  - eapply STAT; reflexivity.
  - eapply STAT; reflexivity.
  - eapply STAT; reflexivity.
Qed.

Lemma effect_inv st refs bk op st' refs' out : inv st refs bk -> op_named op ->
  effect st refs bk op st' refs' out -> (be = Memory -> clean_step (World st refs) op out) ->
  inv st' refs' (book_step bk op out).
Proof.
  intros I ON E CL. destruct E.
  - replace (book_step bk op out) with bk; auto.
    destruct op, out as [[]|]; cbn [book_step]; auto; destruct (H _ eq_refl) as [? [? ?]]; discriminate.
  - cbn [book_step]. destruct (i_book _ _ _ _ _ _ _ _ I _ _ _ H0) as (_ & _ & o' & HS & G & _). rewrite H in HS. injection HS as <-.
    destruct (loaded_facts be _ _ _ _ _ H H2) as (F1 & F2 & F3 & F4 & F5 & F6 & F7 & F8 & F9).
    apply (inv_add_ref digest kdigest validate ecdsa be st' refs bk r o did key recs).
    + eapply inv_frame; eauto.
      * lia.
      * rewrite F1, F2. exact (i_store _ _ _ _ _ _ _ _ I).
      * rewrite F2. apply extends_refl.
    + exact F6.
    + rewrite F2. exact G.
    + congruence.
  - cbn [book_step]. eapply inv_add_ref.
    + apply inv_add_obj. exact I.
    + cbn. apply nth_app_last.
    + exists hb, root. splits; [reflexivity|exact H2|]. exact (chain_snapshot _ _ _ _ _ _ _ _ _ _ H2).
    + exact H3.
  - cbn [book_step].
    assert (IO : In r0 refs) by (eapply nth_error_In; eauto).
    assert (ST : forall d o, stored_repo st d = Some o -> exists o', stored_repo (upd st r0 (with_callback x o0)) d = Some o' /\
       r_head o' = r_head o /\ r_mst o' = r_mst o /\ r_key o' = r_key o /\ r_handle o' = r_handle o).
    { clear - H0. intros d o HS. unfold RepoProofs.stored_repo in *. destruct be.
      - cbn [s_mem s_objs upd set_objs]. destruct (dget d (s_mem st)) as [r|]; [|discriminate].
        destruct (Nat.eq_dec r0 r) as [->|NE].
        + exists (with_callback x o0). replace o with o0 by congruence. splits; auto. eapply nth_replace_same; eauto.
        + exists o. rewrite nth_replace_other by auto. auto.
      - exists o. cbn [s_ents s_blocks upd set_objs]. auto. }
    destruct I as [I1 I2 I3 I4 I5 I6 I7]. split; auto.
    + intros r HI. destruct (I5 r HI) as (o & d & k & rc & A & G & D). destruct (Nat.eq_dec r0 r) as [->|NE].
      * exists (with_callback x o0), d, k, rc. splits; auto; [cbn; eapply nth_replace_same; eauto|].
        replace o0 with o by congruence. destruct G as (hd & root & G1 & G2 & G3). exists hd, root. auto.
      * exists o, d, k, rc. splits; auto. cbn. rewrite nth_replace_other by auto. auto.
    + intros d k rc B. destruct (I6 d k rc B) as (A1 & A2 & o & HS & G & K & HN). splits; auto.
      destruct (ST d o HS) as (o' & HS' & E1 & E2 & E3 & E4). exists o'. splits; auto; try congruence.
      destruct G as (hd & root & G1 & G2 & G3). exists hd, root. rewrite E1, E2. auto.
  - cbn [book_step]. apply inv_lost. auto.
  - assert (CD : commit_did cd = did).
    { destruct (c_prev _ _ _ _ _ _ _ _ _ _ _ _ _ _ H5) as (o & hb & _ & _ & _ & root & CO). unfold commit_did.
      rewrite (commit_of_did _ _ _ _ _ _ CO). auto. }
    cbn [book_step]. rewrite CD, H2. eapply committed_inv; eauto. eapply nth_error_In; eauto.
  - cbn [book_step].
    destruct (failed_inv digest kdigest validate ecdsa be st refs bk did o st1 r m' o0 (CLost (s_next st)) I H5 H6) as [X _]; auto.
    intros BE. specialize (CL BE). cbn [clean_step] in CL.
    destruct CL as [(ob & x & HOB & SX)|(A & B)]; [|exact (H8 A B)].
    unfold handle_obj in HOB. cbn [w_refs w_state] in HOB. rewrite H, H0 in HOB. injection HOB as <-. congruence.
  - assert (BS : book_step bk op (Ok OutDone) = bk) by (destruct op; try discriminate H; reflexivity). rewrite BS.
    destruct (status_facts digest kdigest validate ecdsa be st refs bk r0 o0 did key recs x I H1 H2 H3)
      as (I1 & N1 & B1 & C1 & M1 & O1 & _).
    destruct (good_head _ _ _ _ _ _ _ _ _ H2) as (hd & HH & HD).
    destruct (event_ok digest kdigest validate ecdsa now cb be klen inj quiet (status_set st r0 o0 did x) refs bk r0 (with_status x o0) hd did type extra
       I1 O1 HH HD (fun seq => status_event _ _ _ _ _ _ _ H)) as (EV & FR & I2).
    rewrite N1 in I2. exact I2.
  - cbn [book_step]. exact H3.
  - cbn [book_step]. apply (inv_lost digest kdigest validate ecdsa be (add_obj o st)). apply inv_add_obj. exact I.
Qed.

(** ** What a repo object shows *)

Lemma path_inj c r a b : ~ In 47%N a -> ~ In 47%N b -> record_path c r = record_path a b -> c = a /\ r = b.
Proof.
  clear. unfold record_path. revert a. induction c as [|x c IH]; intros [|y a] HA HB E; cbn in E.
  - injection E as ->. auto.
  - injection E as <- E. exfalso. apply HA. left. auto.
  - injection E as -> E. exfalso. apply HB. rewrite <- E. apply in_or_app. right. left. auto.
  - injection E as -> E. destruct (IH a) as [-> ->]; auto. intro H. apply HA. right. auto.
Qed.

Lemma repo_key_split k : repo_key k -> exists a b, k = record_path a b /\ ~ In 47%N a /\ ~ In 47%N b /\ split_on 47%N k = [a; b].
Proof.
  clear. intros (_ & a & b & -> & A & B). apply segment_no_slash in A. apply segment_no_slash in B.
  exists a, b. splits; auto. rewrite split_on_app by auto. rewrite split_on_none by auto. auto.
Qed.

Lemma allowed_keys recs ws : (forall k, dget k recs <> None -> repo_key k) -> writes_allowed validate recs ws ->
  NoDup (keys recs) -> forall k, dget k (apply_writes recs ws) <> None -> repo_key k.
Proof.
  clear. revert recs. induction ws as [|w ws IH]; intros recs H WA ND; [exact H|].
  destruct WA as [A WA]. cbn [apply_writes fold_left]. apply IH; auto.
  - intros k HK. unfold apply_write, write_allowed in *. cbv zeta in *. set (p := record_path _ _) in *.
    destruct (w_action w).
    + destruct A as (A1 & A2 & v & V & _). rewrite V in HK. rewrite dget_dset in HK.
      destruct (str_eqb_spec k p); [subst; auto|auto].
    + destruct A as (A1 & v & V & _). rewrite V in HK. rewrite dget_dset in HK.
      destruct (str_eqb_spec k p); [subst; auto|auto].
    + rewrite dget_ddel in HK by auto. destruct (str_eqb_spec k p); [congruence|auto].
  - unfold apply_write. cbv zeta. destruct (w_action w), (w_record w); auto using dset_NoDup, ddel_NoDup.
Qed.

Lemma apply_writes_nodup ws : forall recs, NoDup (keys recs) -> NoDup (keys (apply_writes recs ws)).
Proof.
  clear. induction ws as [|w ws IH]; intros recs ND; [exact ND|]. cbn [apply_writes fold_left]. apply IH.
  unfold apply_write. cbv zeta. destruct (w_action w), (w_record w); auto using dset_NoDup, ddel_NoDup.
Qed.

Lemma chain_keys bl did key b root recs : chain digest kdigest validate ecdsa bl did key b root recs ->
  NoDup (keys recs) /\ forall k, dget k recs <> None -> repo_key k.
Proof.
  clear. induction 1 as [b root H1 H2 H3 H4|b' root' recs ws b root C [IH1 IH2] H1 H2 H3 H4 H5 H6 H7 H8].
  - split; [constructor|]. intros k H. exfalso. apply H. reflexivity.
  - split; [apply apply_writes_nodup; auto|]. apply allowed_keys; auto.
Qed.

Lemma stored_read st v : dget (rcid v) (vals (s_blocks st)) = Some (norm v) ->
  exists b, read st (rcid v) = Some b /\ b_val b = norm v.
Proof. clear. rewrite dget_vals. unfold read. destruct (dget (rcid v) (s_blocks st)) as [b|]; [|discriminate]. intros [= <-]. eauto. Qed.

Lemma dget_cids_of k recs : dget k (cids_of recs) = option_map rcid (dget k recs).
Proof. clear. unfold StorageSpec.cids_of. induction recs as [|[k' v] r IH]; cbn; auto. destruct (str_eqb k k'); auto. Qed.

Definition look (m : list (str * list (str * ipld))) (coll rkey : str) : option ipld :=
  match dget coll m with Some d => dget rkey d | None => None end.

Lemma contents_loop_ok st es : forall acc, (forall k c, In (k, c) es -> repo_key k /\ exists b, read st c = Some b) ->
  NoDup (keys es) -> (forall coll, dget coll acc <> Some []) ->
  exists m, contents_loop st acc es = Ok m /\
    (forall coll rkey, look m coll rkey = match dget (record_path coll rkey) es with
       | Some c => option_map b_val (read st c) | None => look acc coll rkey end) /\
    (forall coll, dget coll m <> Some []).
Proof.
  clear. induction es as [|[k c] es IH]; intros acc HE ND NE.
  - exists acc. cbn. auto.
  - destruct (HE k c (or_introl eq_refl)) as (RK & b & RB).
    destruct (repo_key_split k RK) as (x & y & -> & HX & HY & SP).
    cbn [contents_loop]. rewrite SP, RB. cbn [keys map fst] in ND. inversion ND as [|? ? NI ND']; subst.
    destruct (IH (dset x (dset y (b_val b) (match dget x acc with Some d => d | None => [] end)) acc)) as (m & E & L & N').
    + intros k c' HI. apply HE. right. auto.
    + exact ND'.
    + intros coll. rewrite dget_dset. destruct (str_eqb_spec coll x); auto.
      intros [= E]. destruct (dget x acc) as [[|[y' v] d]|]; cbn in E; try discriminate. destruct (str_eqb y y'); discriminate.
    + exists m. splits; auto. intros coll rkey. rewrite L. cbn [dget].
      assert (LK : look (dset x (dset y (b_val b) (match dget x acc with Some d => d | None => [] end)) acc) coll rkey
        = if str_eqb (record_path coll rkey) (record_path x y) then Some (b_val b) else look acc coll rkey).
      { unfold look. rewrite dget_dset. destruct (str_eqb_spec (record_path coll rkey) (record_path x y)) as [E1|E1].
        - destruct (path_inj _ _ _ _ HX HY E1) as [-> ->]. destruct (str_eqb_spec x x); [|congruence].
          rewrite dget_dset. destruct (str_eqb_spec y y); congruence.
        - destruct (str_eqb_spec coll x) as [->|]; auto. rewrite dget_dset.
          destruct (str_eqb_spec rkey y) as [->|]; [congruence|]. destruct (dget x acc); auto. }
      rewrite LK. destruct (str_eqb_spec (record_path coll rkey) (record_path x y)) as [->|NE2].
      * replace (dget (record_path x y) es) with (@None cid); [rewrite RB; auto|].
        symmetry. apply dget_None. exact NI.
      * auto.
Qed.

Lemma snapshot_shows st recs o root : snapshot digest kdigest (s_blocks st) (r_mst o) root (cids_of recs) ->
  (forall k, dget k recs <> None -> repo_key k) -> recs_stored digest (s_blocks st) recs -> shows kdigest st o recs.
Proof.
  clear valid_plain quiet inj. intros SN RK RS.
  pose proof (snapshot_rel _ _ _ _ _ _ SN) as RL. split.
  - intros coll rkey. unfold get_record.
    pose proof (rel_get digest kdigest _ _ _ (record_path coll rkey) RL) as G. cbn [cl_tree cl_store] in G.
    unfold rd. unfold record_path in G at 1. rewrite G. cbn [bind].
    rewrite dget_cids_of. destruct (dget (record_path coll rkey) recs) as [v|] eqn:E; cbn [option_map]; auto.
    destruct (stored_read st v (RS _ _ E)) as (b & RB & BV). rewrite RB, BV. reflexivity.
  - destruct (rel_leaves digest kdigest _ _ _ RL) as (l & _ & [SL LI] & _ & R & _). cbn [cl_tree cl_store] in R.
    unfold get_contents, rd. rewrite (R None None). cbn [bind].
    assert (FL : filter (in_range None None) l = l).
    { clear. induction l as [|[k c] l IH]; cbn; auto. f_equal. auto. }
    rewrite FL.
    destruct (contents_loop_ok st l []) as (m & E & L & N').
    + intros k c HI. apply LI in HI. rewrite dget_cids_of in HI.
      destruct (dget k recs) as [v|] eqn:D; [|discriminate]. injection HI as <-. split.
      * apply RK. congruence.
      * destruct (stored_read st v (RS _ _ D)) as (b & RB & _). eauto.
    + apply ssorted_NoDup. auto.
    + intros coll. discriminate.
    + exists m. splits; auto. intros coll rkey. change (look m coll rkey = option_map norm (dget (record_path coll rkey) recs)).
      rewrite L. destruct (dget (record_path coll rkey) l) as [c|] eqn:DL.
      * apply dget_In in DL. apply LI in DL. rewrite dget_cids_of in DL.
        destruct (dget (record_path coll rkey) recs) as [v|] eqn:D; [|discriminate]. injection DL as <-.
        destruct (stored_read st v (RS _ _ D)) as (b & RB & BV). rewrite RB. cbn. congruence.
      * destruct (dget (record_path coll rkey) recs) as [v|] eqn:D; auto. exfalso.
        assert (HI : In (record_path coll rkey, rcid v) l) by (apply LI; rewrite dget_cids_of, D; auto).
        apply dget_None in DL. apply DL. unfold keys. apply (in_map fst) in HI. exact HI.
Qed.

Lemma good_shows st did key recs o : good (s_blocks st) did key recs o -> shows kdigest st o recs.
Proof.
  clear valid_plain quiet inj. intros (hd & root & HH & CH & SN). eapply snapshot_shows; eauto.
  - apply (chain_keys _ _ _ _ _ _ CH).
  - eapply chain_stored; eauto.
Qed.

(** ** Whole histories *)

Lemma init_inv : inv init_state [] [].
Proof.
  split; cbn.
  - lia.
  - split; [intros c b H; discriminate|intros n t W H; exfalso; apply H; reflexivity|constructor].
  - constructor.
  - constructor.
  - intros r [].
  - intros did key recs H. discriminate.
  - intros did _. clear. unfold registered. destruct be; cbn; auto.
Qed.

Lemma hist_inv ops : forall w bk, inv (w_state w) (w_refs w) bk -> Forall op_named ops ->
  (be = Memory -> clean_from digest kdigest validate ecdsa now cb be w ops) ->
  inv (w_state (fst (srun w ops))) (w_refs (fst (srun w ops))) (book_of bk ops (snd (srun w ops))).
Proof.
  induction ops as [|o ops IH]; intros w bk I F CL; [exact I|].
  inversion F as [|? ? F1 F2]; subst. cbn [StorageModel.srun].
  pose proof (step_effect (w_state w) (w_refs w) bk o I F1) as E.
  assert (WE : World (w_state w) (w_refs w) = w) by (destruct w; reflexivity). rewrite WE in E.
  destruct (sstep w o) as [w1 out] eqn:S1. cbn [fst snd] in E.
  assert (I1 : inv (w_state w1) (w_refs w1) (book_step bk o out)).
  { eapply effect_inv; eauto. intros BE. specialize (CL BE). cbn [clean_from] in CL. rewrite WE. rewrite S1 in CL. exact (proj1 CL). }
  specialize (IH w1 _ I1 F2).
  destruct (srun w1 ops) as [w2 outs] eqn:S2. cbn [fst snd book_of] in *. apply IH.
  intros BE. specialize (CL BE). cbn [clean_from] in CL. rewrite S1 in CL. exact (proj2 CL).
Qed.

End Hist.
