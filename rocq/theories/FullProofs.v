(** With the datastore every record that a stored tree names is stored. *)
From Coq Require Import String List NArith ZArith Bool Lia Permutation.
From Verif Require Import Base Lists Ipld IpldProofs MstModel MstSpec MstTree MstTreeProofs MstRep MstTrav MstClient MstHist TidModel BlockModel BlockProofs CarModel StorageModel StorageSpec StoreProofs
  RepoSpec EventsModel EventsSpec EventsProofs EventsHist CallbackProofs IsolateSpec IsolateProofs ChainProofs TellProofs LogSpec LogProofs UriModel ServerModel ServerSpec AnySpec AnyProofs ExportProofs MessageModel MessageSpec WholeSpec WholeProofs FullSpec.
Import ListNotations.
Local Open Scope m_scope.

Section Full.
Variable digest : list N -> list N.
Variable kdigest : str -> list N.
Variable validate : ipld -> res unit.
Variable ecdsa : N -> Z -> list N -> list N.
Variable now : Z -> str.
Variable cb : nat -> option exn.
Hypothesis inj : forall a b, digest a = digest b -> a = b.
Hypothesis plains : forall v, validate v = Ok tt -> plain v.
Hypothesis klen : forall k, length (kdigest k) = 32.
Notation twf := (MstTree.wf kdigest).
Notation tcid := (tcid digest).
Notation rdv bl := (fun c : str => dget c (vals bl)).
Notation store := (list (cid * block)).
Notation V := (WholeProofs.V digest kdigest).
Notation healthy := (WholeProofs.healthy digest kdigest).

Definition filled (rd : cid -> option ipld) : Prop := forall n t, twf n t -> rd (tcid t) <> None -> forall k c, In (k, c) (leaves t) -> rd c <> None.
Definition backed (bl extra : store) (m : mst) : Prop :=
  exists n t, rep digest (rdv bl) n m t /\ twf n t /\ sorted_tree t /\ n <= 128 /\
    forall (k : str) c, dget k (leaves t) = Some c -> dget c bl <> None \/ dget c extra <> None.
Lemma sorted_nodup t : sorted_tree t -> NoDup (keys (leaves t)).
Proof. intros H. apply ssorted_NoDup. exact H. Qed.

Lemma backed_op bl extra m o m' : backed bl extra m -> o <> OPersist -> o <> OReload ->
  (forall k v, o = OAdd k v \/ o = OUpdate k v -> dget v bl <> None \/ dget v extra <> None) ->
  fst (cstep digest kdigest (Client (vals bl) m) o) = Client (vals bl) m' -> backed bl extra m'.
Proof.
  intros (n & t & R & W & S & L & B) N1 N2 H E.
  assert (RL : Rel digest kdigest None (Client (vals bl) m) (leaves t)) by (exists n, t; splits; auto; [apply sorted_nodup; exact S|exact I]).
  destruct (cstep_tree digest kdigest klen _ _ _ o RL N1 N2) as (d' & out & DS & _ & _ & (n' & t' & R' & W' & S' & L' & SA & _) & _).
  rewrite E in R'. exists n', t'. splits; auto. intros k c. rewrite SA. clear - B H DS S.
  assert (X : d' = leaves t \/ (exists k v, (o = OAdd k v \/ o = OUpdate k v) /\ d' = dset k v (leaves t)) \/ exists k, d' = ddel k (leaves t)) by (inversion DS; subst; eauto 8).
  destruct X as [->|[(k' & v & O & ->)|(k' & ->)]]; [apply B| |].
  - rewrite dget_dset. destruct (str_eqb k k'); [intros [= <-]; eauto|apply B].
  - rewrite dget_ddel by (apply sorted_nodup; exact S). destruct (str_eqb k k'); [discriminate|apply B].
Qed.
Lemma backed_add bl extra m k v m' : backed bl extra m -> dget v bl <> None \/ dget v extra <> None -> add digest kdigest (rdv bl) max_depth m k v None = Ok m' -> backed bl extra m'.
Proof.
  intros H N0 E. apply (backed_op bl extra m (OAdd k v)); [exact H|discriminate|discriminate| |].
  - intros k' v' [X|X]; [injection X as <- <-; exact N0|discriminate X].
  - unfold cstep. cbv zeta. cbn [cl_store cl_tree]. rewrite E. reflexivity.
Qed.
Lemma backed_update bl extra m k v m' : backed bl extra m -> dget v bl <> None \/ dget v extra <> None -> update kdigest (rdv bl) max_depth m k v = Ok m' -> backed bl extra m'.
Proof.
  intros H N0 E. apply (backed_op bl extra m (OUpdate k v)); [exact H|discriminate|discriminate| |].
  - intros k' v' [X|X]; [discriminate X|injection X as <- <-; exact N0].
  - unfold cstep. cbv zeta. cbn [cl_store cl_tree]. rewrite E. reflexivity.
Qed.
Lemma backed_delete bl extra m k m' : backed bl extra m -> delete kdigest (rdv bl) max_depth m k = Ok m' -> backed bl extra m'.
Proof.
  intros H E. apply (backed_op bl extra m (ODelete k)); [exact H|discriminate|discriminate| |].
  - intros k' v' [X|X]; discriminate X.
  - unfold cstep. cbv zeta. cbn [cl_store cl_tree]. rewrite E. reflexivity.
Qed.
Lemma backed_more bl extra c b m : backed bl extra m -> backed bl (dset c b extra) m.
Proof.
  intros (n & t & R & W & S & L & B). exists n, t. splits; auto. intros k x D. destruct (B k x D) as [X|X]; [auto|right]. rewrite dget_dset. destruct (str_eqb x c); [discriminate|exact X].
Qed.

(** Runs that succeed. *)
Definition succ {A} (m : M A) (P : state -> Prop) (Q : A -> state -> Prop) : Prop :=
  forall st, P st -> match m st with (st', Ok a) => Q a st' | _ => True end.
Lemma succ_bind {A B} (m : M A) (f : A -> M B) P Q R : succ m P Q -> (forall a, succ (f a) (Q a) R) -> succ (bindM m f) P R.
Proof. intros H F st HP. specialize (H st HP). unfold bindM. destruct (m st) as [st1 [a|e]]; [|exact I]. apply F. exact H. Qed.
Lemma succ_skip {A B} (m : M A) (f : A -> M B) P R : pure m -> (forall a, succ (f a) P R) -> succ (bindM m f) P R.
Proof. intros H F. apply (succ_bind m f P (fun _ => P)); [|exact F]. intros st HP. specialize (H st). destruct (m st) as [st1 [a|e]]; [|exact I]. cbn [fst] in H. subst st1. exact HP. Qed.
Lemma succ_throw {A} e P Q : succ (@throw A e) P Q.
Proof. intros st _. exact I. Qed.
Lemma succ_ret {A} (a : A) (P : state -> Prop) (Q : A -> state -> Prop) : (forall st, P st -> Q a st) -> succ (ret a) P Q.
Proof. intros H st HP. apply H. exact HP. Qed.

(** The tree of object [r] is backed. *)
Definition at_obj (bl extra : store) (r : nat) (st : state) : Prop := s_blocks st = bl /\ exists o, nth_error (s_objs st) r = Some o /\ backed bl extra (r_mst o).
Lemma succ_obj {A} bl extra r (f : repo -> M A) Q : (forall o, backed bl extra (r_mst o) -> succ (f o) (at_obj bl extra r) Q) -> succ (bindM (obj r) f) (at_obj bl extra r) Q.
Proof.
  intros F st HP. pose proof HP as (EB & o & E & B). unfold bindM, obj. rewrite E. apply (F o B st HP).
Qed.
Lemma succ_set bl extra extra' r m : backed bl extra' m -> succ (set_attr r (with_mst m)) (at_obj bl extra r) (fun _ => at_obj bl extra' r).
Proof.
  intros B st (EB & o & E & _). rewrite (set_attr_ok r _ st o E). split; [exact EB|]. exists (with_mst m o).
  split; [cbn [set_objs s_objs]; rewrite nth_put, PeanoNat.Nat.eqb_refl by congruence; reflexivity|exact B].
Qed.
Lemma succ_read {A B} bl extra r (g : (cid -> option ipld) -> res A) (f : A -> M B) Q : (forall a, g (rdv bl) = Ok a -> succ (f a) (at_obj bl extra r) Q) ->
  succ (let! a := (fun st => (st, g (rd st))) in f a) (at_obj bl extra r) Q.
Proof.
  intros F st HP. pose proof HP as (EB & _). unfold bindM. assert (ER : rd st = rdv bl) by (unfold rd; rewrite EB; reflexivity). rewrite ER.
  destruct (g (rdv bl)) as [a|e] eqn:E; [|exact I]. exact (F a eq_refl st HP).
Qed.
Lemma succ_weaken {A} (m : M A) (P P' : state -> Prop) Q : (forall st, P' st -> P st) -> succ m P Q -> succ m P' Q.
Proof. intros H S st HP. apply S, H, HP. Qed.
Lemma succ_write bl d r seq acc w : succ (commit_write digest kdigest validate r d seq acc w) (at_obj bl (fst acc) r) (fun acc' => at_obj bl (fst acc') r).
Proof.
  destruct acc as [blocks ops]. unfold commit_write. cbn [fst].
  apply succ_skip.
  { destruct (w_action w); [apply pure_ret|..]; (apply pure_bind; [apply pure_obj|]; intros o; apply pure_bind;
     [exact (pure_rd (fun rd => get kdigest rd max_depth (r_mst o) (path_of w)))|]; intros [v|]; [destruct (nonempty v); [apply pure_ret|apply pure_throw]|apply pure_throw]). }
  intros prev.
  assert (REC : forall a, succ
    (match w_record w with
      | None => throw AssertionError
      | Some v =>
          (match v with IMap _ => ret tt | _ => throw AttributeError end);;
          lift (validate v);;
          assert (truthy v);;
          let b := mk_block digest v (Some d) seq None in
          (if (max_record_size <? len (encode (b_val b)))%N then throw ValueError else ret tt);;
          let blocks := dset (b_cid b) b blocks in
          let op := CommitOp a (path_of w) (Some (b_cid b)) prev in
          let! o := obj r in
          match a with
          | CREATE =>
              let! m := (fun st => (st, add digest kdigest (rd st) max_depth (r_mst o) (path_of w) (b_cid b) None)) in
              set_attr r (with_mst m);;
              ret (blocks, ops ++ [op])
          | _ =>
              let! orig := lift (get_pointer digest (r_mst o)) in
              let! m := (fun st => (st, update kdigest (rd st) max_depth (r_mst o) (path_of w) (b_cid b))) in
              set_attr r (with_mst m);;
              let! pointer := lift (get_pointer digest m) in
              ret (blocks, if str_eqb pointer orig then ops else ops ++ [op])
          end
      end) (at_obj bl blocks r) (fun acc' => at_obj bl (fst acc') r)).
  { intros a. destruct (w_record w) as [v|]; [|apply succ_throw].
    apply succ_skip; [destruct v; first [apply pure_ret|apply pure_throw]|]. intros [].
    apply succ_skip; [apply pure_lift|]. intros []. apply succ_skip; [apply pure_assert|]. intros []. cbv zeta.
    apply succ_skip; [destruct (_ <? _)%N; [apply pure_throw|apply pure_ret]|]. intros [].
    set (b := mk_block digest v (Some d) seq None). set (blocks' := dset (b_cid b) b blocks).
    assert (IN : dget (b_cid b) bl <> None \/ dget (b_cid b) blocks' <> None) by (right; unfold blocks'; rewrite dget_dset, str_eqb_refl; discriminate).
    assert (MORE : forall m, backed bl blocks m -> backed bl blocks' m) by (intros m; apply backed_more).
    apply succ_obj. intros o BO.
    assert (UP : succ (let! orig := lift (get_pointer digest (r_mst o)) in
              let! m := (fun st => (st, update kdigest (rd st) max_depth (r_mst o) (path_of w) (b_cid b))) in
              set_attr r (with_mst m);;
              let! pointer := lift (get_pointer digest m) in
              ret (blocks', if str_eqb pointer orig then ops else ops ++ [CommitOp a (path_of w) (Some (b_cid b)) prev])) (at_obj bl blocks r) (fun acc' => at_obj bl (fst acc') r)).
    { apply succ_skip; [apply pure_lift|]. intros orig.
      apply (succ_read bl blocks r (fun rd => update kdigest rd max_depth (r_mst o) (path_of w) (b_cid b))). intros m E.
      eapply succ_bind; [apply (succ_set bl blocks blocks'); eapply backed_update; [apply MORE, BO|exact IN|exact E]|]. intros []. apply succ_skip; [apply pure_lift|]. intros p. apply succ_ret. auto. }
    destruct a; [|exact UP|exact UP].
    apply (succ_read bl blocks r (fun rd => add digest kdigest rd max_depth (r_mst o) (path_of w) (b_cid b) None)). intros m E.
    eapply succ_bind; [apply (succ_set bl blocks blocks'); eapply backed_add; [apply MORE, BO|exact IN|exact E]|]. intros []. apply succ_ret. auto. }
  destruct (w_action w) eqn:WA; [apply (REC CREATE)|apply (REC UPDATE)|].
  apply succ_obj. intros o BO.
  apply (succ_read bl blocks r (fun rd => delete kdigest rd max_depth (r_mst o) (path_of w))). intros m E.
  eapply succ_bind; [apply (succ_set bl blocks blocks); eapply backed_delete; [exact BO|exact E]|]. intros []. apply succ_ret. auto.
Qed.
Lemma succ_fold bl d r seq : forall ws acc, succ (foldM (commit_write digest kdigest validate r d seq) acc ws) (at_obj bl (fst acc) r) (fun acc' => at_obj bl (fst acc') r).
Proof.
  induction ws as [|w ws IH]; intros acc; cbn [foldM]; [apply succ_ret; auto|]. eapply succ_bind; [apply succ_write|]. intros acc'. apply IH.
Qed.

Notation F st := (filled (rd st)).
Lemma rd_read st c : rd st c <> None <-> read st c <> None.
Proof. unfold rd. rewrite dget_vals. change (dget c (s_blocks st)) with (read st c). destruct (read st c); cbn [option_map]; [split; intros _ X; discriminate X|split; intros X; exfalso; apply X; reflexivity]. Qed.
Lemma rd_blocks st st' : s_blocks st' = s_blocks st -> rd st' = rd st.
Proof. intros E. unfold rd. rewrite E. reflexivity. Qed.

Lemma fill_finish be r0 r d prev seq bo st : V st -> F st -> recs digest seq (fst bo) -> at_obj (s_blocks st) (fst bo) r st ->
  F (fst (commit_finish digest kdigest ecdsa be r0 r d prev seq bo st)).
Proof.
  intros HV HF BA (_ & o & E & n & t & R & W & SO & LE & BK). unfold commit_finish, bindM at 1, obj. rewrite E. pose proof md as MD.
  destruct (get_unstored_ok digest kdigest (rd st) n max_depth (r_mst o) t ltac:(lia) R W (v_closed _ _ _ HV)) as (bs & U & ND & B1 & B2).
  unfold bindM at 1. rewrite U. unfold bindM at 1, lift. destruct (int_to_tid seq 0) as [rev|] eqn:T; [|exact HF]. cbv zeta. cbn [fst snd].
  set (cblock := mk_block digest _ _ _ _). set (blocks := dset (b_cid cblock) cblock _).
  unfold bindM at 1. change (write_blocks (map snd blocks) st) with (fst (write_blocks (map snd blocks) st), @Ok unit tt).
  set (st1 := fst (write_blocks (map snd blocks) st)).
  assert (AB : all_ok digest seq blocks).
  { intros c b J0. unfold blocks in J0. apply In_dset in J0 as [J0|J0]; [injection J0 as -> ->; split; [apply mk_block_wf|split; reflexivity]|].
    revert c b J0. apply (add_nodes_ok digest inj d seq bs (fst bo)).
    - exact (unstored_wf _ _ _ _ _ _ _ U).
    - intros c b J0. destruct (BA c b J0) as (v & d0 & _ & -> & ->). split; [apply mk_block_wf|split; reflexivity]. }
  assert (RD : forall c, read st1 c = match read st c with Some b => Some b | None => dget c blocks end).
  { intros c. unfold st1. rewrite read_write_blocks. destruct (read st c); [reflexivity|]. exact (f_equal (dget c) (keyed _ _ _ AB)). }
  assert (GN : forall c, dget c blocks = if str_eqb c (b_cid cblock) then Some cblock else match dget c bs with Some v => Some (Block c v seq None (Some d)) | None => dget c (fst bo) end).
  { intros c. unfold blocks. rewrite dget_dset, add_nodes_get by exact ND. reflexivity. }
  assert (CV : b_val cblock = IMap (commit_map d rev prev (tcid t) (ecdsa (r_key o) seq (dag_cbor_encode (IMap (unsigned_commit d rev prev (tcid t))))))) by apply commit_norm.
  assert (NT : forall n' t', twf n' t' -> b_cid cblock <> tcid t').
  { apply (other_not_node digest kdigest inj); [|apply mk_block_wf]. intros nd X. rewrite CV in X. symmetry in X. exact (node_not_commit _ _ _ _ _ _ X). }
  assert (F1 : F st1).
  { intros m u WU NU k c HI. rewrite rd_read in *. rewrite RD in NU. destruct (read st (tcid u)) as [y|] eqn:Y.
    - assert (X : rd st c <> None) by (apply (HF m u WU) with (k := k); [rewrite rd_read, Y; discriminate|exact HI]). rewrite rd_read in X. rewrite RD. destruct (read st c); [discriminate|exfalso; apply X; reflexivity].
    - rewrite GN in NU. destruct (str_eqb_spec (tcid u) (b_cid cblock)) as [X|_]; [exfalso; exact (NT m u WU (eq_sym X))|].
      destruct (dget (tcid u) bs) as [v|] eqn:DB.
      + apply dget_In in DB. destruct (B1 _ _ DB) as (s' & SS & EC & _). destruct (wf_subtree kdigest _ _ SS n W) as (n' & _ & W').
        apply (tcid_inj digest kdigest inj m u n' s' WU W') in EC. subst s'. pose proof (subtree_leaves _ _ SS _ _ HI) as HL.
        apply In_dget in HL; [|apply sorted_nodup; exact SO]. rewrite RD. destruct (BK _ _ HL) as [X|X].
        * change (read st c <> None) in X. destruct (read st c); [discriminate|exfalso; apply X; reflexivity].
        * destruct (read st c); [discriminate|]. rewrite GN. destruct (str_eqb c (b_cid cblock)); [discriminate|]. destruct (dget c bs); [discriminate|exact X].
      + exfalso. destruct (dget (tcid u) (fst bo)) as [b|] eqn:EK; [|apply NU; reflexivity]. apply In_dget1 in EK. destruct (BA _ _ EK) as (v' & d0 & P & -> & EC).
        symmetry in EC. revert EC. apply (other_not_node digest kdigest inj) with (n := m); [|apply mk_block_wf|exact WU]. intros nd. apply (plain_data v' nd P). }
  cbv beta iota.
  match goal with |- F (fst (?m st1)) => assert (MF : front m) end.
  { fronts. apply front_store. }
  rewrite (rd_blocks _ _ (proj1 (MF st1))). exact F1.
Qed.

(** What keeps both. *)
Definition fills {A} (m : M A) : Prop := forall st, V st -> F st -> V (fst (m st)) /\ F (fst (m st)).
Notation go := (WholeProofs.go digest kdigest).
Lemma fills_front {A} (m : M A) : go m -> front m -> fills m.
Proof. intros G H st HV HF. split; [apply G, HV|]. rewrite (rd_blocks _ _ (proj1 (H st))). exact HF. Qed.
Lemma fills_pure {A} (m : M A) : pure m -> fills m.
Proof. intros P st HV HF. rewrite P. auto. Qed.
Lemma fills_bind {A B} (m : M A) (f : A -> M B) : fills m -> (forall a, fills (f a)) -> fills (bindM m f).
Proof. intros H G st HV HF. destruct (H st HV HF) as [V1 F1]. unfold bindM. destruct (m st) as [st1 [a|e]]; cbn [fst] in *; [|auto]. apply G; assumption. Qed.
Lemma fills_ret {A} (a : A) : fills (ret a).
Proof. apply fills_pure, pure_ret. Qed.
Lemma fills_throw {A} e : fills (@throw A e).
Proof. apply fills_pure, pure_throw. Qed.
Lemma fills_callback r c : fills (callback cb r c).
Proof. apply fills_front; [apply go_callback|apply front_callback]. Qed.

(** A fresh object has a stored tree. *)
Lemma backed_load bl root : (exists n t, twf n t /\ sorted_tree t /\ n <= 128 /\ MstRep.stored digest (rdv bl) t /\ root = tcid t) -> filled (rdv bl) -> backed bl [] (mst_load root).
Proof.
  intros (n & t & W & S & L & ST & ->) HF. destruct (load_any digest kdigest (rdv bl) n t W ST) as (n' & LE & W' & R & _). exists n', t. splits; auto; [lia|].
  intros k c D. left. apply dget_In in D. assert (X : dget c (vals bl) <> None).
  { apply (HF n t W) with (k := k); [|exact D]. inversion ST as [es H _]; subst. rewrite H. discriminate. }
  intros Y. apply X. rewrite dget_vals, Y. reflexivity.
Qed.
Lemma load_fresh x st : V st -> match load_repo Datastore x st with
  | (st', Ok (Some r)) => s_blocks st' = s_blocks st /\ exists o root, nth_error (s_objs st') r = Some o /\ r_mst o = mst_load root /\ whole digest kdigest (s_blocks st) root
  | _ => True
  end.
Proof.
  intros HV. unfold load_repo. unfold bindM at 1, assert. destruct (nonempty x); [|exact I]. unfold ret at 1. unfold bindM at 1, reads.
  destruct (ent_find x (s_ents st)) as [[k e]|] eqn:EF; [|exact I]. unfold bindM at 1, repo_load, bindM at 1, reads.
  assert (IN : In (k, e) (s_ents st)).
  { unfold ent_find in EF. destruct (dget x (s_ents st)) as [y|] eqn:D; [injection EF as <- <-; apply dget_In; exact D|]. apply find_some in EF. apply EF. }
  destruct (v_ents _ _ _ HV _ _ IN) as (b & D & m & root & EV & DR & WH). change (dget (e_head e) (s_blocks st)) with (read st (e_head e)) in D. rewrite D.
  unfold bindM at 1, lift, item_link, item. rewrite EV, DR. unfold new_obj, ret. split; [reflexivity|]. eexists _, root.
  split; [cbn [set_objs s_objs]; rewrite nth_error_app2, PeanoNat.Nat.sub_diag by apply le_n; reflexivity|]. split; [reflexivity|exact WH].
Qed.
Lemma target_backed r0 first st : V st -> F st -> (forall x d, first = Some (x :: d) -> at_obj (s_blocks st) [] r0 st) -> match commit_target Datastore r0 first st with
  | (st', Ok (d, r, prev)) => s_blocks st' = s_blocks st /\ at_obj (s_blocks st) [] r st'
  | _ => True
  end.
Proof.
  intros HV HF FB. unfold commit_target. unfold bindM at 1, obj at 1. destruct (nth_error (s_objs st) r0) as [o0|] eqn:E0; [|exact I]. unfold bindM at 1. destruct (is_some (r_status o0)); [exact I|].
  unfold ret at 1.
  assert (D0 : match (let! d := need_did o0 in let! x := load_repo Datastore d in match x with None => throw AttributeError | Some r => let! o := obj r in
      match r_head o with None => throw AttributeError | Some h => ret (d, r, Some (b_cid h)) end end) st with
    | (st', Ok (d, r, prev)) => s_blocks st' = s_blocks st /\ at_obj (s_blocks st) [] r st'
    | _ => True
    end).
  { unfold need_did, bindM, lift. destruct (repo_did o0) as [[d|]|]; [|exact I|exact I]. unfold ret at 1.
    pose proof (load_fresh d st HV) as L. destruct (load_repo Datastore d st) as [st1 [[r|]|e]]; [|exact I|exact I].
    destruct L as (EB & o & root & E & EM & WH). unfold obj. rewrite E. destruct (r_head o) as [h|]; [|exact I]. unfold ret. split; [exact EB|]. split; [exact EB|].
    exists o. split; [exact E|]. rewrite EM. apply backed_load; [exact WH|exact HF]. }
  destruct first as [[|x d]|]; [exact D0| |exact D0].
  specialize (FB x d eq_refl). unfold bindM at 1. destruct (r_head o0) as [h|].
  - unfold bindM at 1, lift. destruct (item_text (s "did") (b_val h)) as [hd|]; [|exact I]. unfold bindM at 1, assert. destruct (str_eqb hd (x :: d)); [|exact I]. unfold ret at 1.
    unfold bindM at 1. destruct (item (s "prev") (b_val h)) as [p|]; [|exact I]. unfold bindM at 1. destruct (negb (truthy p)); [|exact I]. unfold ret at 1.
    rewrite (set_attr_ok r0 _ st o0 E0). unfold ret. split; [reflexivity|]. destruct FB as (_ & o & E & B). rewrite E0 in E. injection E as <-. split; [reflexivity|].
    exists (with_head None o0). split; [cbn [set_objs s_objs]; rewrite nth_put, PeanoNat.Nat.eqb_refl by congruence; reflexivity|exact B].
  - unfold ret. split; [reflexivity|exact FB].
Qed.

(** Commits. *)
Lemma fill_rest r0 d r prev seq ws st st1 : s_blocks st1 = s_blocks st -> V st1 -> F st1 -> at_obj (s_blocks st) [] r st1 ->
  F (fst ((let! bo := foldM (commit_write digest kdigest validate r d seq) ([], []) ws in commit_finish digest kdigest ecdsa Datastore r0 r d prev seq bo) st1)).
Proof.
  intros EB V1 F1 AO. unfold bindM.
  pose proof (calm_fold digest kdigest validate inj plains klen (s_blocks st) d r seq ws ([], [])) as C. destruct (C ltac:(intros c b []) st1 V1 EB) as (B1 & B2 & B3).
  pose proof (succ_fold (s_blocks st) d r seq ws ([], []) st1 AO) as S.
  destruct (foldM _ _ ws st1) as [st2 [bo|e]]; cbn [fst snd] in *.
  - apply fill_finish; [exact B2|rewrite (rd_blocks st1 st2) by congruence; exact F1|exact B3|]. rewrite B1. exact S.
  - rewrite (rd_blocks st1 st2) by congruence. exact F1.
Qed.
Definition ready (r0 : nat) (first : option str) (st : state) : Prop := forall x d, first = Some (x :: d) -> at_obj (s_blocks st) [] r0 st.
Lemma fill_commit_ r0 ws seq first st : V st -> F st -> ready r0 first st ->
  V (fst (commit_ digest kdigest validate ecdsa Datastore r0 ws seq first st)) /\ F (fst (commit_ digest kdigest validate ecdsa Datastore r0 ws seq first st)).
Proof.
  intros HV HF RY. split; [apply (go_commit_ digest kdigest validate ecdsa now cb Datastore inj plains klen); exact HV|].
  unfold commit_. unfold bindM at 1, assert. destruct (negb _); [|exact HF]. unfold ret at 1. unfold bindM at 1.
  pose proof (target_backed r0 first st HV HF RY) as T. destruct (calm_target digest kdigest cb Datastore inj (s_blocks st) r0 first st HV eq_refl) as (A1 & A2 & _).
  destruct (commit_target Datastore r0 first st) as [st1 [[[d r] prev]|e]]; cbn [fst] in *; [|rewrite (rd_blocks _ _ A1); exact HF].
  destruct T as [_ AO]. unfold bindM at 1. destruct (_ <? _)%N; [unfold throw; cbn [fst]; rewrite (rd_blocks _ _ A1); exact HF|]. unfold ret at 1.
  apply (fill_rest r0 d r prev seq ws st st1 A1 A2); [rewrite (rd_blocks _ _ A1); exact HF|exact AO].
Qed.
Lemma fills_exc {A} (m : M A) h st : (V (fst (m st)) /\ F (fst (m st))) -> fills h -> V (fst (on_exception m h st)) /\ F (fst (on_exception m h st)).
Proof.
  intros [V1 F1] G. unfold on_exception. destruct (m st) as [st1 [a|e]]; cbn [fst] in *; [auto|].
  destruct (G st1 V1 F1) as [V2 F2]. destruct (h st1) as [st2 [[]|e2]]; auto.
Qed.
Lemma fills_seq : fills allocate_seq.
Proof. intros st HV HF. split; [apply go_seq; exact HV|exact HF]. Qed.
Lemma fill_then {A B} (m : M A) (f : A -> M B) st : (V (fst (m st)) /\ F (fst (m st))) -> (forall a, fills (f a)) -> V (fst (bindM m f st)) /\ F (fst (bindM m f st)).
Proof. intros [V1 F1] G. unfold bindM. destruct (m st) as [st1 [a|e]]; cbn [fst] in *; [|auto]. apply G; assumption. Qed.
Lemma fill_step {A B} (m : M A) (f : A -> M B) st st1 a : m st = (st1, Ok a) -> (V (fst (f a st1)) /\ F (fst (f a st1))) -> V (fst (bindM m f st)) /\ F (fst (bindM m f st)).
Proof. intros E H. unfold bindM. rewrite E. exact H. Qed.
Lemma fill_commit r ws first st : V st -> F st -> ready r first st ->
  V (fst (commit digest kdigest validate ecdsa cb Datastore r ws first st)) /\ F (fst (commit digest kdigest validate ecdsa cb Datastore r ws first st)).
Proof.
  intros HV HF RY. destruct (fills_seq st HV HF) as [V1 F1]. unfold commit. eapply fill_step; [reflexivity|]. apply fills_exc; [|apply fills_callback].
  apply fill_then; [apply fill_commit_; [exact V1|exact F1|exact RY]|]. intros cd. apply fills_bind; [apply fills_callback|]. intros []. apply fills_ret.
Qed.
Lemma fills_commit r ws : fills (commit digest kdigest validate ecdsa cb Datastore r ws None).
Proof. intros st HV HF. apply fill_commit; [exact HV|exact HF|]. intros x d X. discriminate X. Qed.

(** Events are no nodes. *)
Lemma fill_more st st' : F st -> grows st st' -> (forall c b, read st c = None -> read st' c = Some b -> forall n t, twf n t -> c <> tcid t) -> F st'.
Proof.
  intros HF G NN n t W NT k c HI. rewrite rd_read in *. destruct (read st (tcid t)) as [y|] eqn:Y.
  - assert (X : rd st c <> None) by (apply (HF n t W) with (k := k); [rewrite rd_read, Y; discriminate|exact HI]). rewrite rd_read in X. destruct (read st c) as [z|] eqn:Z; [|exfalso; apply X; reflexivity].
    rewrite (G _ _ Z). discriminate.
  - destruct (read st' (tcid t)) as [y|] eqn:Y'; [|exfalso; apply NT; reflexivity]. exfalso. exact (NN _ _ Y Y' n t W eq_refl).
Qed.
Lemma fills_write d type n extra d' : eventful now type extra -> distinct extra -> fills (write_obj digest Datastore d (event now type n d' extra) n).
Proof.
  intros EV DI st HV HF. split; [apply (go_write digest kdigest now Datastore inj d type n extra d' EV DI); exact HV|].
  set (b := mk_block digest (event now type n d' extra) d n None).
  assert (F1 : F (fst (write_blocks [b] st))).
  { assert (RD : forall c, read (fst (write_blocks [b] st)) c = match read st c with Some b => Some b | None => if str_eqb c (b_cid b) then Some b else None end) by (intros c; rewrite read_write_blocks; reflexivity).
    apply (fill_more st); [exact HF|intros c x X; rewrite RD, X; reflexivity|]. intros c x N0 R1. rewrite RD, N0 in R1. destruct (str_eqb_spec c (b_cid b)) as [->|]; [|discriminate].
    apply (other_not_node digest kdigest inj); [|apply mk_block_wf]. intros nd E. pose proof (proj1 (EV d' n)) as VT. change (b_val b) with (norm (event now type n d' extra)) in E. rewrite E, vtype_node in VT. discriminate. }
  unfold write_obj. fold b. unfold bindM at 1, assert at 1. destruct (0 <? n)%Z; [|exact HF]. unfold ret at 1. unfold bindM at 1.
  change (write_blocks [b] st) with (fst (write_blocks [b] st), @Ok unit tt). set (st1 := fst (write_blocks [b] st)) in *. cbv beta iota.
  match goal with |- F (fst (?m st1)) => assert (P : pure m) end.
  { apply pure_bind; [apply pure_reads|]. intros [x|]; [|apply pure_throw]. apply pure_bind; [apply pure_assert|]. intros []. apply pure_ret. }
  rewrite P. exact F1.
Qed.
Lemma fills_event r type extra : eventful now type extra -> distinct extra -> fills (write_event digest now cb Datastore r type extra).
Proof.
  intros EV DI. unfold write_event. apply fills_bind; [apply fills_seq|]. intros n. apply fills_bind; [apply fills_pure, pure_obj|]. intros o. apply fills_bind; [apply fills_pure, pure_lift|]. intros d.
  apply fills_bind; [apply fills_write; [exact EV|exact DI]|]. intros b. apply fills_bind; [apply fills_callback|]. intros []. apply fills_ret.
Qed.
Lemma backed_init bl m : mst_create digest [] None = Ok m -> backed bl [] m.
Proof.
  intros E. pose proof (Rel_init digest kdigest) as (n & t & R & W & S & L & SA & _). unfold cinit in R. rewrite E in R. cbn [cl_tree cl_store] in R.
  exists n, t. splits; auto; [eapply rep_mono; [|exact R]; discriminate|]. intros k c D. rewrite SA in D. discriminate D.
Qed.
Lemma fills_create did handle status x key : fills (repo_create digest kdigest validate ecdsa now cb Datastore did handle status x key).
Proof.
  unfold repo_create. destruct (mst_create digest [] None) as [m|e] eqn:E; [|intros st HV HF; split; assumption].
  assert (X : forall m', m' = m -> fills (let! r := new_obj (Repo m' None handle status x key) in
    let! cd := commit digest kdigest validate ecdsa cb Datastore r [] (Some did) in let! o := obj r in let! _ := need_did o in
    write_event digest now cb Datastore r (s "identity") [(s "handle", opt_text handle)];; write_event digest now cb Datastore r (s "account") [(s "active", IBool true)];;
    let! rev := lift (item (s "rev") (b_val (cd_commit cd))) in
    write_event digest now cb Datastore r (s "sync") [(s "blocks", IBytes (write_car [b_cid (cd_commit cd)] [(b_cid (cd_commit cd), encode (b_val (cd_commit cd)))])); (s "rev", rev)];;
    create_repo Datastore r;; callback cb r (CData (MCommit cd));; ret r)).
  { intros m' -> st HV HF. pose proof (calm_new digest kdigest (s_blocks st) (Repo m None handle status x key) ltac:(split; [apply healthy_init; exact E|discriminate]) st HV eq_refl) as (_ & V1 & _).
    unfold new_obj in V1. cbn [fst] in V1. set (st1 := set_objs _ st) in *. eapply fill_step; [reflexivity|]. fold st1.
    assert (AT : at_obj (s_blocks st1) [] (length (s_objs st)) st1).
    { split; [reflexivity|]. eexists. split; [cbn [st1 set_objs s_objs]; rewrite nth_error_app2, PeanoNat.Nat.sub_diag by apply le_n; reflexivity|]. apply backed_init. exact E. }
    apply fill_then; [apply fill_commit; [exact V1|exact HF|intros y d _; exact AT]|]. intros cd.
    apply fills_bind; [apply fills_pure, pure_obj|]. intros o. apply fills_bind; [apply fills_pure, pure_need_did|]. intros d.
    apply fills_bind; [apply fills_event; [apply eventful_identity|apply distinct_ok; reflexivity]|]. intros _. apply fills_bind; [apply fills_event; [apply eventful_active|apply distinct_ok; reflexivity]|]. intros _. apply fills_bind; [apply fills_pure, pure_lift|]. intros rev. apply fills_bind; [apply fills_event; [intros d0 n; split; reflexivity|apply distinct_ok; reflexivity]|]. intros _.
    apply fills_bind; [apply fills_front; [eapply go_calm; intros bl; apply calm_create_repo|apply front_create_repo]|]. intros []. apply fills_bind; [apply fills_callback|]. intros []. apply fills_ret. }
  intros st. exact (X m eq_refl st).
Qed.
Lemma fills_status r x type extra : eventful now type extra -> distinct extra -> fills (set_repo_status Datastore r x;; write_event digest now cb Datastore r type extra;; ret tt).
Proof.
  intros EV DI. apply fills_bind; [apply fills_front; [eapply go_calm; intros bl; apply calm_status|apply front_status]|]. intros [].
  apply fills_bind; [apply fills_event; [exact EV|exact DI]|]. intros _. apply fills_ret.
Qed.

(** Storage operations. *)
Definition full (w : world) : Prop := V (w_state w) /\ F (w_state w).
Lemma new_full w m : full w -> fills m -> full (fst (on_new w m)).
Proof. intros [HV HF] G. specialize (G _ HV HF). unfold on_new. destruct (m (w_state w)) as [st [[r|]|e]]; exact G. Qed.
Lemma ref_full w h f : full w -> (forall r, fills (f r)) -> full (fst (on_ref w h f)).
Proof. intros H G. unfold on_ref. destruct (nth_error (w_refs w) h) as [r|]; [|exact H]. specialize (G r _ (proj1 H) (proj2 H)). destruct (f r (w_state w)) as [st out]. exact G. Qed.
Lemma front_repo_load c h x k : front (repo_load c h x k).
Proof. unfold repo_load. fronts. Qed.
Lemma sstep_full w op : full w -> full (fst (sstep digest kdigest validate ecdsa now cb Datastore w op)).
Proof.
  intros H. destruct op as [did handle status x key|x|h key|h x|h ws|h|h|h]; cbn [sstep].
  - apply new_full; [exact H|]. apply fills_bind; [apply fills_create|]. intros r. apply fills_ret.
  - apply new_full; [exact H|]. apply fills_front; [eapply go_calm; intros bl; apply (calm_load digest kdigest cb Datastore inj)|apply front_load].
  - destruct (nth_error (w_refs w) h) as [r|] eqn:NR; [|exact H]. pose proof (sstep_V digest kdigest validate ecdsa now cb Datastore inj plains klen w (SLoadAt h key) (proj1 H)) as G. cbn [sstep] in G. rewrite NR in G.
    split; [exact G|]. clear G. unfold on_new.
    match goal with |- context [(?m (w_state w))] => match type of m with M _ => assert (MF : front m) by (fronts; apply front_repo_load); pose proof (rd_blocks _ _ (proj1 (MF (w_state w)))) as RB; destruct (m (w_state w)) as [st [[r'|]|e]] end end; cbn [fst w_state] in *; rewrite RB; apply H.
  - apply ref_full; [exact H|]. intros r. apply fills_bind; [|intros []; apply fills_ret]. apply fills_front; [|apply front_set_attr]. eapply go_calm. intros bl. apply calm_attr. auto.
  - apply ref_full; [exact H|]. intros r. apply fills_bind; [apply fills_commit|]. intros cd. apply fills_ret.
  - apply ref_full; [exact H|]. intros r. apply fills_bind; [apply fills_status; [first [apply eventful_off|apply eventful_active|apply eventful_gone]|apply distinct_ok; reflexivity]|]. intros []. apply fills_ret.
  - apply ref_full; [exact H|]. intros r. apply fills_bind; [apply fills_status; [first [apply eventful_off|apply eventful_active|apply eventful_gone]|apply distinct_ok; reflexivity]|]. intros []. apply fills_ret.
  - apply ref_full; [exact H|]. intros r. apply fills_bind; [apply fills_status; [first [apply eventful_off|apply eventful_active|apply eventful_gone]|apply distinct_ok; reflexivity]|]. intros []. apply fills_ret.
Qed.

(** Requests. *)
Section Request.
Variable netloc_ok : str -> bool.
Variable cfg : config.
Lemma fills_load x : fills (server_load Datastore netloc_ok x).
Proof.
  apply fills_front; [eapply go_load; eassumption|]. unfold server_load. fronts. apply front_load.
Qed.
Ltac skip := apply fills_bind; [apply fills_pure; first [apply pure_lift|apply pure_obj|apply pure_find|apply pure_did_of]|].
Lemma fills_put header i : fills (put_record digest kdigest validate ecdsa cb Datastore netloc_ok cfg header i).
Proof.
  unfold put_record. skip. intros []. skip. intros []. skip. intros x. apply fills_bind; [apply fills_load|]. intros r. skip. intros coll. skip. intros rkey. skip. intros o. skip. intros ex.
  destruct (i_record i) as [v|]; [|apply fills_throw]. apply fills_bind; [apply fills_commit|]. intros cd. skip. intros o2. skip. intros did. skip. intros uri. apply fills_ret.
Qed.
Lemma fills_serve q : fills (serve digest kdigest validate ecdsa cb Datastore netloc_ok cfg q).
Proof.
  destruct q as [header i tid|header i|header i|repo coll rkey c]; cbn [serve].
  - apply fills_bind; [|intros a; apply fills_ret]. unfold create_record. apply fills_bind; [apply fills_pure; destruct (given (i_collection i)); [apply pure_ret|apply pure_lift]|]. intros co.
    skip. intros []. skip. intros []. skip. intros y. apply fills_bind; [apply fills_load|]. intros r. apply fills_put.
  - apply fills_bind; [|intros a; apply fills_ret]. apply fills_put.
  - apply fills_bind; [|intros a; apply fills_ret]. unfold delete_record. skip. intros []. skip. intros []. skip. intros x. apply fills_bind; [apply fills_load|]. intros r. skip. intros coll. skip. intros rkey. skip. intros o. skip. intros ex.
    destruct ex as [ex|]; [apply fills_bind; [apply fills_commit|]; intros cd; apply fills_ret|apply fills_ret].
  - apply fills_bind; [|intros a; apply fills_ret]. unfold xrpc_get_record. skip. intros []. apply fills_bind; [apply fills_pure; destruct (given c); [apply pure_throw|apply pure_ret]|]. intros []. skip. intros x.
    apply fills_bind; [apply fills_load|]. intros r. skip. intros o. skip. intros ex. destruct ex as [v|]; [|apply fills_throw]. destruct (negb _); [apply fills_throw|]. skip. intros d. skip. intros u. apply fills_ret.
Qed.
End Request.

(** Imports. *)
Lemma deser_leaf d layer (c : cid) : (exists k, In (Leaf k c) (deserialize_node_data d layer)) -> exists e, In e (nd_e d) /\ ed_v e = c.
Proof.
  unfold deserialize_node_data. set (ch := match layer with Some l => _ | None => None end). clearbody ch.
  assert (X : forall es last k, In (Leaf k c) (deser_entries ch last es) -> exists e, In e es /\ ed_v e = c).
  { induction es as [|e es IH]; intros last k; cbn [deser_entries]; [intros []|]. intros [Y|Y]; [injection Y as _ <-; exists e; split; [left|]; reflexivity|].
    apply in_app_or in Y as [Y|Y]; [destruct (ed_t e); [destruct Y as [Y|[]]; discriminate Y|destruct Y]|]. destruct (IH _ _ Y) as (e' & I & EV). exists e'. split; [right; exact I|exact EV]. }
  intros (k & HI). apply in_app_or in HI as [HI|HI]; [destruct (nd_l d); [destruct HI as [HI|[]]; discriminate HI|destruct HI]|]. eapply X; exact HI.
Qed.
Lemma data_leaf n es (k : str) c : twf n (Node es) -> In (TLeaf k c) es -> exists e, In e (nd_e (ser (map (pent digest) es))) /\ ed_v e = c.
Proof.
  intros W HI. apply wf_node in W as [NA F]. apply (deser_leaf _ None). rewrite (deser_ser None _ _ (ser_ok digest kdigest n es NA F)). exists k.
  apply in_map_iff. exists (pent digest (TLeaf k c)). split; [reflexivity|]. apply in_map. exact HI.
Qed.
Lemma car_filled car roots bl : honest_car digest car -> read_car car = Some (roots, bl) ->
  (forall p v d c, car_reader bl p = Some v -> ipld_ndata v = Ok d -> links d c -> car_reader bl c <> None) ->
  (forall p v d e, car_reader bl p = Some v -> ipld_ndata v = Ok d -> In e (nd_e d) -> car_reader bl (ed_v e) <> None) ->
  filled (car_reader bl).
Proof.
  intros HC RC LK FL n t W NN k c HI. pose proof (links_closed digest kdigest inj car roots bl HC RC LK n t W NN) as ST.
  destruct (leaf_node t k c HI) as ([es] & SB & IN). pose proof (stored_subtree _ _ _ _ SB ST) as SX. inversion SX as [? R _]; subst.
  destruct (wf_subtree kdigest _ _ SB n W) as (m & _ & WX). destruct (data_leaf m es k c WX IN) as (e & IE & <-). exact (FL _ _ _ _ R (ipld_ndata_ok _) IE).
Qed.
Section Import.
Variable cfg : config.
Variable resolve : str -> res ipld.
Variable signing_key : ipld -> option (list N).
Variable verify : ipld -> list N -> bool.
Variable handle_of : ipld -> option str.
Lemma fills_import header car key : honest_car digest car -> whole_car digest kdigest car -> full_car car -> fills (import_repo Datastore cfg resolve signing_key verify handle_of header car key).
Proof.
  intros HC WC FC st HV HF. split; [apply (go_import digest kdigest cb Datastore inj cfg resolve signing_key verify handle_of header car key HC WC); exact HV|].
  unfold import_repo. unfold bindM at 1, lift at 1. destruct (auth cfg header) as [[]|e0]; [|exact HF].
  destruct (read_car car) as [[[|hc roots] bl]|] eqn:RC; [exact HF| |exact HF].
  destruct (WC _ _ _ RC) as (LK & _). pose proof (car_filled car _ bl HC RC LK (FC _ _ RC)) as CF.
  unfold bindM at 1. pose proof (calm_blocks digest kdigest cb Datastore inj resolve signing_key verify (s_blocks st) hc bl ([], None) st HV eq_refl) as (EB & _ & T).
  destruct (import_blocks Datastore resolve signing_key verify hc bl ([], None) st) as [st1 [bh|e]]; cbn [fst snd] in *; [|rewrite (rd_blocks _ _ EB); exact HF].
  assert (F1 : F st1) by (rewrite (rd_blocks _ _ EB); exact HF). clear HV HF EB st.
  destruct T as (AD & IN & _). destruct (snd bh) as [[[h did] doc]|] eqn:EH; [|exact F1]. cbn [fst] in IN.
  unfold bindM at 1, assert. destruct (nonempty did); [|exact F1]. cbn [ret].
  set (own := fun b : block => Block (b_cid b) (b_val b) (b_seq b) (b_ops b) (Some did)). set (bs := map own (fst bh)). set (st2 := fst (write_blocks bs st1)).
  assert (RD : forall c, read st2 c = match read st1 c with Some b => Some b | None => dget c (map (fun b => (b_cid b, b)) bs) end) by (intros c; apply read_write_blocks).
  assert (F2 : F st2).
  { intros n t W NT k c HI. rewrite rd_read in *. destruct (read st1 (tcid t)) as [y|] eqn:Y.
    - assert (X : rd st1 c <> None) by (apply (F1 n t W) with (k := k); [rewrite rd_read, Y; discriminate|exact HI]). rewrite rd_read in X. rewrite RD.
      destruct (read st1 c) as [z|]; [discriminate|exfalso; apply X; reflexivity].
    - rewrite RD, Y in NT. destruct (dget (tcid t) (map (fun b => (b_cid b, b)) bs)) as [b|] eqn:D; [|exfalso; apply NT; reflexivity].
      apply In_dget1 in D. apply in_map_iff in D as (x & X & D). apply in_map_iff in D as (y & <- & D). apply IN in D as [[]|(c' & data & w & I & DE & ->)]. injection X as EC _. cbn [own b_cid] in EC. subst c'.
      assert (CT : car_reader bl (tcid t) <> None).
      { unfold car_reader. destruct (dget (tcid t) bl) as [data'|] eqn:D'; [|apply dget_None in D'; exfalso; apply D'; apply in_map_iff; exists (tcid t, data); auto].
        apply dget_In in D'. exact (AD _ _ D'). }
      pose proof (CF n t W CT k c HI) as CC. rewrite RD. destruct (read st1 c); [discriminate|]. intros N0. apply dget_None in N0. apply N0.
      unfold car_reader in CC. destruct (dget c bl) as [data2|] eqn:D2; [|exfalso; apply CC; reflexivity]. destruct (decode data2) as [w2|] eqn:DE2; [|exfalso; apply CC; reflexivity]. apply dget_In in D2.
      unfold keys. rewrite map_map. apply in_map_iff. exists (own (Block c w2 0 None None)). split; [reflexivity|]. apply in_map. apply IN. right. exists c, data2, w2. auto. }
  unfold bindM at 1. change (write_blocks bs st1) with (st2, @Ok unit tt). cbv beta iota.
  match goal with |- F (fst (?m st2)) => assert (MF : front m) end.
  { fronts; try apply front_create_repo. }
  rewrite (rd_blocks _ _ (proj1 (MF st2))). exact F2.
Qed.
End Import.

(** Servers. *)
Notation astep := (astep digest kdigest validate ecdsa now cb Datastore).
Notation arun := (arun digest kdigest validate ecdsa now cb Datastore).
Lemma astep_full w a : full w -> act_ok digest a -> whole_import digest kdigest a -> full_import a -> full (fst (astep w a)).
Proof.
  intros HW OK WI FI. destruct a as [op|nl cfg q|cfg resolve sk vf ho header car key]; cbn [AnySpec.astep].
  - pose proof (sstep_full w op HW) as X. destruct (sstep digest kdigest validate ecdsa now cb Datastore w op) as [w' out]. exact X.
  - pose proof (fills_serve nl cfg q _ (proj1 HW) (proj2 HW)) as X. destruct (serve digest kdigest validate ecdsa cb Datastore nl cfg q (w_state w)) as [st out]. exact X.
  - destruct OK as [HC _]. pose proof (fills_import cfg resolve sk vf ho header car key HC WI FI _ (proj1 HW) (proj2 HW)) as X. destruct (import_repo Datastore cfg resolve sk vf ho header car key (w_state w)) as [st out]. exact X.
Qed.
Lemma arun_full l : forall w, full w -> Forall (act_ok digest) l -> Forall (whole_import digest kdigest) l -> Forall full_import l -> full (arun w l).
Proof.
  induction l as [|a l IH]; intros w HW F1 F2 F3; [exact HW|]. inversion F1; inversion F2; inversion F3; subst. change (arun w (a :: l)) with (arun (fst (astep w a)) l). apply IH; auto. apply astep_full; auto.
Qed.
Lemma init_full : full init_world.
Proof. split; [apply init_V|]. intros n t W H. exfalso. apply H. reflexivity. Qed.
End Full.
