(** Facts behind the theorems about heads and descriptions of repos. *)
From Coq Require Import String List NArith ZArith Bool Lia Sorted Permutation.
From Verif Require Import Base Lists Ipld MstModel MstTree MstTreeProofs MstRep MstTrav
  MstClient MstSpec MstHist MstFacts TidModel BlockModel BlockSpec BlockProofs
  CarModel StorageModel StorageSpec CommitProofs StoreProofs ExecProofs RepoSpec RepoProofs RepoHist RepoSteps RepoFacts
  UriModel EventsModel ServerModel ServerSpec ServerProofs ServerFacts ExportSpec ExportProofs LiveStore LiveProofs LiveServe LiveMove LiveSpec LiveFacts.
Import ListNotations.

Lemma contents_nodup st es : forall acc m, NoDup (keys acc) -> contents_loop st acc es = Ok m -> NoDup (keys m).
Proof.
  induction es as [|[k c] es IH]; intros acc m ND; cbn [contents_loop]; [intros [= <-]; auto|].
  destruct (split_on 47%N k) as [|a [|b [|]]]; try discriminate. destruct (read st c); [|discriminate].
  apply IH. apply dset_NoDup. auto.
Qed.

Lemma get_contents_nodup kdigest st o m : get_contents kdigest st o = Ok m -> NoDup (keys m).
Proof.
  unfold get_contents. generalize (mst_list kdigest (rd st) max_depth (r_mst o) None None). intros [es|e] H; [|discriminate H].
  cbn [bind] in H. apply (contents_nodup st es [] m); auto. constructor.
Qed.

Lemma str_insert_perm x l : Permutation (str_insert x l) (x :: l).
Proof.
  induction l as [|y l IH]; cbn; [reflexivity|]. destruct (str_cmp x y); try reflexivity.
  rewrite IH. apply perm_swap.
Qed.

Definition nlt (a b : str) : Prop := ~ slt b a.
Lemma nlt_slt a b : slt a b -> nlt a b.
Proof. intros H H'. apply (slt_irrefl a). eapply slt_trans; eauto. Qed.

Lemma str_sort_ok l : Permutation (str_sort l) l /\ Sorted nlt (str_sort l).
Proof.
  induction l as [|x l [P S]]; cbn [str_sort fold_right]; [split; constructor|]. fold (str_sort l). split.
  - rewrite str_insert_perm. constructor. exact P.
  - clear P. induction S as [|y r S IH H]; cbn [str_insert]; [repeat constructor|].
    destruct (str_cmp x y) eqn:C.
    + constructor; [constructor; auto|]. constructor. apply str_cmp_eq in C. subst. apply slt_irrefl.
    + constructor; [constructor; auto|]. constructor. apply nlt_slt. exact C.
    + constructor; auto. assert (YX : nlt y x) by (apply nlt_slt; unfold slt; rewrite str_cmp_antisym, C; reflexivity).
      inversion H as [|z r' Q]; subst; cbn [str_insert]; [constructor; auto|].
      destruct (str_cmp x z); constructor; auto.
Qed.

Section Facts.
Variable digest : list N -> list N.
Variable kdigest : str -> list N.
Hypothesis D32 : forall a, length (digest a) = 32%nat.
Notation hosts := (hosts digest kdigest).
Notation rdv bl := (fun c => option_map b_val (dget c bl)).

Lemma hosts_found sv w bk x did o : hosts sv w bk -> names (p_be sv) (p_netloc sv) (w_state w) x did o -> r_status o = None ->
  exists st1 r key recs, found digest kdigest (p_be sv) (p_netloc sv) (w_state w) (w_refs w) bk x did o st1 r key recs.
Proof.
  intros H NM R. destruct (hosts_live digest kdigest D32 _ _ _ H) as [[SET _] L].
  destruct (load_cases digest kdigest (p_validate sv) (p_cb sv) (p_be sv) (p_netloc sv) SET _ _ _ x L)
    as [(did' & o' & st1 & r & key & recs & F)|(e & st1 & extra & _ & _ & _ & N)].
  - destruct (names_fun _ _ _ _ _ _ _ _ NM (f_names _ _ _ _ _ _ _ _ _ _ _ _ _ _ F)) as [<- <-]. eauto.
  - exfalso. exact (N _ _ NM R).
Qed.

Lemma head_found sv w bk x did o : hosts sv w bk -> names (p_be sv) (p_netloc sv) (w_state w) x did o -> r_status o = None ->
  exists h rev, r_head o = Some h /\ item_text (s "rev") (b_val h) = Ok rev /\
    snd (get_head (p_be sv) (p_netloc sv) x (w_state w)) = Ok (b_cid h) /\
    snd (get_latest_commit (p_be sv) (p_netloc sv) x (w_state w)) = Ok (b_cid h, IText rev).
Proof.
  intros H NM R. destruct (hosts_found _ _ _ _ _ _ H NM R) as (st1 & r & key & recs & F).
  pose proof (f_load _ _ _ _ _ _ _ _ _ _ _ _ _ _ F) as LD. pose proof (f_obj _ _ _ _ _ _ _ _ _ _ _ _ _ _ F) as OB.
  destruct (f_good _ _ _ _ _ _ _ _ _ _ _ _ _ _ F) as (h & root & HH & (_ & (rev & VT & RV) & _) & _).
  exists h, rev. split; auto. split; auto. split.
  - unfold get_head. rewrite (bindM_ok _ _ _ _ _ LD), (bindM_ok _ _ _ _ _ (obj_some _ _ _ OB)). unfold head_of. rewrite HH. reflexivity.
  - unfold get_latest_commit. rewrite (bindM_ok _ _ _ _ _ LD), (bindM_ok _ _ _ _ _ (obj_some _ _ _ OB)). unfold head_of. rewrite HH.
    unfold item_text in RV. destruct (item (s "rev") (b_val h)) as [v|] eqn:I; [|discriminate]. cbn [bind] in RV.
    destruct v; try discriminate. injection RV as ->. unfold bindM, ret, lift. cbn [fst snd]. rewrite I. reflexivity.
Qed.

Lemma c76_head sv w bk x did o key recs : hosts sv w bk -> names (p_be sv) (p_netloc sv) (w_state w) x did o -> r_status o = None ->
  dget did bk = Some (key, recs) ->
  exists h root rev, snd (get_head (p_be sv) (p_netloc sv) x (w_state w)) = Ok (b_cid h) /\
    snd (get_latest_commit (p_be sv) (p_netloc sv) x (w_state w)) = Ok (b_cid h, IText rev) /\
    item_text (s "rev") (b_val h) = Ok rev /\ item_text (s "did") (b_val h) = Ok did /\ item_link (s "data") (b_val h) = Ok root /\
    b_cid h = cid_of digest (b_val h) /\ readable digest kdigest (rdv (s_blocks (w_state w))) h root recs.
Proof.
  intros H NM R B. destruct (hosts_live digest kdigest D32 _ _ _ H) as [[SET _] L].
  destruct (hosts_found _ _ _ _ _ _ H NM R) as (st1 & r & key' & recs' & F).
  pose proof (f_book _ _ _ _ _ _ _ _ _ _ _ _ _ _ F) as B'. rewrite B in B'. injection B' as <- <-.
  pose proof (f_load _ _ _ _ _ _ _ _ _ _ _ _ _ _ F) as LD. pose proof (f_obj _ _ _ _ _ _ _ _ _ _ _ _ _ _ F) as OB.
  pose proof (f_same _ _ _ _ _ _ _ _ _ _ _ _ _ _ F) as (_ & SB & _).
  destruct (f_good _ _ _ _ _ _ _ _ _ _ _ _ _ _ F) as (h & root & HH & T & _). rewrite SB in T.
  destruct (tip_tree digest kdigest (w_state w) did h root recs T) as (n & t & TA).
  destruct T as ((h' & RH & VH) & (rev & VT & RV) & TD & TR & _).
  pose proof (w_block _ _ _ _ (l_store _ _ _ _ _ _ L) _ _ RH) as CH.
  destruct (head_found _ _ _ _ _ _ H NM R) as (h2 & rev2 & HH2 & RV2 & GH & GL). rewrite HH in HH2. injection HH2 as <-.
  rewrite RV in RV2. injection RV2 as <-. exists h, root, rev. split; [exact GH|]. split; [exact GL|].
  splits; auto.
    + destruct CH as (C1 & C2 & _). rewrite <- VH. congruence.
    + assert (X : readable digest kdigest (rdv (s_blocks (w_state w))) h' root recs).
      { eapply (readable_all digest kdigest (p_netloc sv)); [exact TA|unfold read; destruct CH as (C1 & _); rewrite C1; exact RH|].
        intros c b _ RB. unfold read in RB. rewrite RB. reflexivity. }
      destruct CH as (C1 & _). unfold readable in *. rewrite C1, VH in X. exact X.
Qed.

Lemma committed_head sv w bk i o did key recs ws w' cd : hosts sv w bk -> handle_obj w i = Some o -> repo_did o = Ok (Some did) ->
  dget did bk = Some (key, recs) -> on_storage digest kdigest sv w (SCommit i ws) = (w', Ok (OutCommit cd)) ->
  exists o' h rev, seen (p_be sv) (w_state w') did = Some o' /\ r_head o' = Some h /\ b_cid h = b_cid (cd_commit cd) /\ b_val h = b_val (cd_commit cd) /\
    int_to_tid (s_next (w_state w)) 0 = Ok rev /\ item_text (s "rev") (b_val (cd_commit cd)) = Ok rev.
Proof.
  intros H HO RD B E. destruct (hosts_live digest kdigest D32 _ _ _ H) as [[SET HN] L].
  assert (R0 : r_status o = None) by (apply (c72_commits digest kdigest D32 _ _ _ _ _ _ _ _ _ _ _ H HO RD B E); eauto).
  unfold handle_obj in HO. destruct w as [st refs]. cbn [w_state w_refs] in *.
  destruct (nth_error refs i) as [r|] eqn:HR; [|discriminate].
  destruct (l_ref _ _ _ _ _ _ L r (nth_error_In _ _ HR)) as (o2 & did2 & recs2 & HO2 & G & DB). rewrite HO in HO2. injection HO2 as <-.
  pose proof (sound_repo_did _ _ _ _ _ _ G) as RD2. rewrite RD in RD2. injection RD2 as <-.
  unfold on_storage, sstep, on_ref in E. cbn [w_state w_refs] in E. rewrite HR in E.
  destruct (live_commit digest kdigest (p_validate sv) (p_ecdsa sv) (p_cb sv) (p_be sv) (s_klen _ _ _ _ SET) (s_inj _ _ _ _ SET) (s_plain _ _ _ _ SET) (s_quiet _ _ _ _ SET)
      st refs bk r o did recs2 key recs ws L HO G B R0) as [(CP & st' & cd' & EX & C)|(NC & oo & st1 & r1 & m' & e & HS & LD & EX & KEEP)].
  2:{ rewrite (bindM_err _ _ _ _ _ EX) in E. discriminate E. }
  rewrite (bindM_ok _ _ _ _ _ EX) in E. cbn [ret] in E. assert (w' = World st' refs /\ cd' = cd) as [-> ->].
  { split; [exact (eq_sym (f_equal fst E))|]. apply (f_equal (fun x => match snd x with Ok (OutCommit c) => c | _ => cd' end)) in E. exact E. }
  cbn [w_state].
  destruct (wc_head _ _ _ _ _ _ _ _ _ _ _ C) as (o' & h & HS & HH & HC & HV). destruct (wc_rev _ _ _ _ _ _ _ _ _ _ _ C) as (rev & I1 & I2).
  pose proof (wcommitted_live digest kdigest (p_ecdsa sv) (p_cb sv) (p_be sv) st refs bk st' r o did recs2 key recs ws cd L HO G B C) as L'.
  assert (B' : dget did (dset did (key, apply_writes recs ws) bk) = Some (key, apply_writes recs ws)) by (rewrite dget_dset, str_eqb_refl; reflexivity).
  destruct (live_seen digest kdigest sv (World st' refs) _ did _ _ (conj SET HN) L' B') as (o2 & HS2 & SE & _). cbn [w_state] in *.
  exists o', h, rev. splits; auto. congruence.
Qed.

Lemma c76_committed sv w bk i o did key recs ws w' cd : hosts sv w bk -> handle_obj w i = Some o -> repo_did o = Ok (Some did) ->
  dget did bk = Some (key, recs) -> 
  on_storage digest kdigest sv w (SCommit i ws) = (w', Ok (OutCommit cd)) ->
  exists o', seen (p_be sv) (w_state w') did = Some o' /\ repo_did o' = Ok (Some did) /\ (r_status o' = None ->
    exists rev, int_to_tid (s_next (w_state w)) 0 = Ok rev /\ snd (get_head (p_be sv) (p_netloc sv) did (w_state w')) = Ok (b_cid (cd_commit cd)) /\
      snd (get_latest_commit (p_be sv) (p_netloc sv) did (w_state w')) = Ok (b_cid (cd_commit cd), IText rev)).
Proof.
  intros H HO RD B E. destruct (hosts_live digest kdigest D32 _ _ _ H) as [P L].
  destruct (l_book _ _ _ _ _ _ L _ _ _ B) as (ID & _).
  destruct (committed_head _ _ _ _ _ _ _ _ _ _ _ H HO RD B E) as (o' & h & rev & SN & HH & HC & HV & TI & RV).
  pose proof (h_storage digest kdigest sv w bk (SCommit i ws) w' (Ok (OutCommit cd)) H Logic.I (fun _ => Logic.I) E) as H'.
  destruct (hosts_live digest kdigest D32 _ _ _ H') as [_ L'].
  assert (RD' : repo_did o' = Ok (Some did)).
  { pose proof SN as SN'. unfold seen in SN'. destruct (load_did digest (p_be sv) (s_inj _ _ _ _ (proj1 P)) _ did (live_named _ _ _ _ _ _ L') ID) as [(NL & _)|(o3 & st4 & r4 & S3 & RG & LD & LE)];
      [rewrite NL in SN'; discriminate SN'|].
    rewrite LE in SN'. destruct (loaded_facts (p_be sv) _ _ _ _ _ S3 LD) as (_ & _ & _ & _ & _ & F6 & _). rewrite F6 in SN'. injection SN' as ->.
    destruct (dget did (book_step bk (SCommit i ws) (Ok (OutCommit cd)))) as [[k2 r2]|] eqn:B2; [|exfalso; exact (l_none _ _ _ _ _ _ L' _ B2 RG)].
    destruct (l_book _ _ _ _ _ _ L' _ _ _ B2) as (_ & _ & o4 & S4 & G & _). rewrite S3 in S4. injection S4 as <-. eapply sound_repo_did; eauto. }
  exists o'. split; auto. split; auto. intros R'.
  assert (NM : names (p_be sv) (p_netloc sv) (w_state w') did did o').
  { exists did. split; [|auto]. apply did_name; exact ID. }
  destruct (head_found _ _ _ _ _ _ H' NM R') as (h2 & rev2 & HH2 & RV2 & GH & GL). rewrite HH in HH2. injection HH2 as <-.
  rewrite HV, RV in RV2. injection RV2 as <-. rewrite HC in GH, GL. eauto.
Qed.

Lemma describe_found be netloc_ok cfg resolve (x : str) did o st st1 r : x <> [] -> server_load be netloc_ok x st = (st1, Ok r) -> nth_error (s_objs st1) r = Some o ->
  repo_did o = Ok (Some did) ->
  describe_repo kdigest be netloc_ok cfg resolve (Some x) st
  = bindM (lift (resolve did)) (fun doc => bindM (if nonempty (c_supported cfg) then ret (str_sort (c_supported cfg))
        else bindM (fun st => (st, get_contents kdigest st o)) (fun m => ret (map fst m))) (fun colls => ret (did, r_handle o, doc, colls))) st1.
Proof.
  intros XN LD OB RD. unfold describe_repo.
  assert (V : validate_input cfg (Input (Some x) None None None false) None = Ok tt) by (destruct x; [congruence|reflexivity]).
  rewrite V. generalize (get_contents kdigest). intros gc. cbn [arg]. 
  rewrite (bindM_ok (lift (Ok tt)) _ st st tt eq_refl), (bindM_ok (lift (Ok x)) _ st st x eq_refl).
  rewrite (bindM_ok _ _ _ _ _ LD), (bindM_ok _ _ _ _ _ (obj_some _ _ _ OB)). unfold did_of, need_did. rewrite RD. reflexivity.
Qed.

Lemma seen_named be st x o : seen be st x = Some o -> x <> [].
Proof. intros H ->. unfold seen in H. destruct be; discriminate H. Qed.

Lemma c76_describe sv w bk x did o key recs resolve : hosts sv w bk -> names (p_be sv) (p_netloc sv) (w_state w) x did o -> r_status o = None ->
  dget did bk = Some (key, recs) ->
  match resolve did with
  | Ok doc => exists colls, snd (describe_repo kdigest (p_be sv) (p_netloc sv) (p_cfg sv) resolve (Some x) (w_state w)) = Ok (did, r_handle o, doc, colls) /\
      (c_supported (p_cfg sv) <> [] -> Permutation colls (c_supported (p_cfg sv)) /\ Sorted nlt colls) /\
      (c_supported (p_cfg sv) = [] -> NoDup colls /\ forall coll, In coll colls <-> exists rkey, dget (record_path coll rkey) recs <> None)
  | Err e => snd (describe_repo kdigest (p_be sv) (p_netloc sv) (p_cfg sv) resolve (Some x) (w_state w)) = Err e
  end.
Proof.
  intros H NM R B. destruct (hosts_live digest kdigest D32 _ _ _ H) as [[SET _] L].
  destruct (hosts_found _ _ _ _ _ _ H NM R) as (st1 & r & key' & recs' & F).
  pose proof (f_book _ _ _ _ _ _ _ _ _ _ _ _ _ _ F) as B'. rewrite B in B'. injection B' as <- <-.
  pose proof (f_load _ _ _ _ _ _ _ _ _ _ _ _ _ _ F) as LD. pose proof (f_obj _ _ _ _ _ _ _ _ _ _ _ _ _ _ F) as OB.
  pose proof (f_good _ _ _ _ _ _ _ _ _ _ _ _ _ _ F) as G.
  pose proof (sound_repo_did _ _ _ _ _ _ G) as RD.
  pose proof (sound_shows _ _ st1 _ _ _ G) as (_ & m & GC & GM & GE).
  assert (XN : x <> []).
  { intros ->. destruct NM as (y & RN & SN & _). injection RN as <-. exact (seen_named _ _ _ _ SN eq_refl). }
  pose proof (describe_found (p_be sv) (p_netloc sv) (p_cfg sv) resolve x did o _ _ _ XN LD OB RD) as DD.
  destruct (resolve did) as [doc|e]; [|rewrite DD; reflexivity].
  destruct (c_supported (p_cfg sv)) as [|c0 l] eqn:SC; rewrite ?SC in DD.
  - exists (map fst m). split; [|split].
    + rewrite DD. unfold bindM, lift, ret. cbn [nonempty]. rewrite GC. reflexivity.
    + congruence.
    + intros _. split.
      * exact (get_contents_nodup _ _ _ _ GC).
      * intros coll. specialize (GE coll). fold (keys m). split.
        -- intros HI. destruct (dget coll m) as [d|] eqn:E; [|apply dget_None in E; contradiction].
           destruct d as [|[k v] d]; [congruence|]. exists k. specialize (GM coll k). rewrite E in GM. cbn [dget] in GM. rewrite str_eqb_refl in GM.
           destruct (dget (record_path coll k) recs); [discriminate|]. discriminate GM.
        -- intros (rkey & HR). specialize (GM coll rkey). destruct (dget coll m) as [d|] eqn:E; [apply dget_In in E; apply (in_map fst) in E; exact E|].
           destruct (dget (record_path coll rkey) recs); [discriminate|congruence].
  - exists (str_sort (c0 :: l)). split; [rewrite DD; reflexivity|]. split; [intros _; apply str_sort_ok|discriminate].
Qed.

Lemma c76_repo sv w bk x did o key recs car : hosts sv w bk -> names (p_be sv) (p_netloc sv) (w_state w) x did o -> r_status o = None ->
  dget did bk = Some (key, recs) -> snd (on_get_repo digest sv x None (w_state w)) = Ok car ->
  exists c bl, snd (get_head (p_be sv) (p_netloc sv) x (w_state w)) = Ok c /\ read_car car = Some ([c], bl).
Proof.
  intros H NM R B E. destruct (c72_exports digest kdigest D32 _ _ _ _ _ _ _ _ None H NM R B (or_introl eq_refl)) as (h & root & car' & bl & HH & _ & E' & RC & _).
  pose proof (eq_trans (eq_sym E) E') as EE. injection EE as <-. destruct (head_found _ _ _ _ _ _ H NM R) as (h2 & rev & HH2 & _ & GH & _). rewrite HH in HH2. injection HH2 as <-. eauto.
Qed.
End Facts.
