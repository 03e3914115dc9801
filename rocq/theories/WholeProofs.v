(** In every history the commits of the log have their trees. *)
From Coq Require Import String List NArith ZArith Bool Lia Permutation.
From Verif Require Import Base Lists Ipld IpldProofs MstModel MstTree MstTreeProofs MstRep MstTrav MstClient MstHist TidModel BlockModel BlockProofs CarModel StorageModel StorageSpec StoreProofs
  RepoSpec EventsModel EventsSpec EventsProofs EventsHist CallbackProofs IsolateSpec IsolateProofs ChainProofs TellProofs LogSpec LogProofs UriModel ServerModel ServerSpec AnySpec AnyProofs ExportProofs MessageModel MessageSpec WholeSpec.
Import ListNotations.
Local Open Scope m_scope.

Section Whole.
Variable digest : list N -> list N.
Variable kdigest : str -> list N.
Variable validate : ipld -> res unit.
Variable ecdsa : N -> Z -> list N -> list N.
Variable now : Z -> str.
Variable cb : nat -> option exn.
Variable be : backend.
Hypothesis inj : forall a b, digest a = digest b -> a = b.
Hypothesis plains : forall v, validate v = Ok tt -> plain v.
Hypothesis klen : forall k, length (kdigest k) = 32.
Notation twf := (MstTree.wf kdigest).
Notation bwf := (IsolateProofs.wf digest).
Notation tcid := (tcid digest).
Notation tstored bl := (MstRep.stored digest (fun c : str => dget c (vals bl))).
Notation rdv bl := (fun c : str => dget c (vals bl)).
Notation store := (list (cid * block)).

Definition healthy (bl : store) (m : mst) : Prop := exists n t, rep digest (rdv bl) n m t /\ twf n t /\ sorted_tree t /\ n <= 128.
Definition whole (bl : store) (root : cid) : Prop := exists n t, twf n t /\ sorted_tree t /\ n <= 128 /\ tstored bl t /\ root = tcid t.
Definition rooted (bl : store) (v : ipld) : Prop := exists m root, v = IMap m /\ dget (s "data") m = Some (ILink root) /\ whole bl root.
Definition headed (bl : store) (h : block) : Prop := rooted bl (b_val h) /\ exists b, dget (b_cid h) bl = Some b /\ b_val b = b_val h.
Definition okobj (bl : store) (o : repo) : Prop := healthy bl (r_mst o) /\ forall h, r_head o = Some h -> headed bl h.
Definition okent (bl : store) (e : entity) : Prop := exists b, dget (e_head e) bl = Some b /\ rooted bl (b_val b).
Definition okprev (bl : store) (p : cid) : Prop := exists b, dget p bl = Some b /\ rooted bl (b_val b).
Definition committed (bl : store) (b : block) : Prop :=
  (exists ops, b_ops b = Some ops) /\ rooted bl (b_val b) /\ forall p, item (s "prev") (b_val b) = Ok (ILink p) -> okprev bl p.

Definition tidy (b : block) : Prop := vtype (b_val b) <> None -> forall m, b_val b = IMap m -> NoDup (keys m).

Record V (st : state) : Prop := {
  v_wf : forall c b, read st c = Some b -> b_cid b = c /\ bwf b;
  v_closed : closed digest kdigest (rd st);
  v_objs : forall r o, nth_error (s_objs st) r = Some o -> okobj (s_blocks st) o;
  v_ents : forall d e, In (d, e) (s_ents st) -> okent (s_blocks st) e;
  v_log : forall c b, read st c = Some b -> b_seq b <> 0%Z -> commit_keys (b_val b) = true -> committed (s_blocks st) b;
  v_tidy : forall c b, read st c = Some b -> b_seq b <> 0%Z -> tidy b
}.

(** ** Growing stores *)
Definition sub (a b : store) : Prop := forall c x, dget c a = Some x -> dget c b = Some x.
Section Mono.
Variables a b : store.
Hypothesis G : sub a b.
Lemma vals_sub c v : dget c (vals a) = Some v -> dget c (vals b) = Some v.
Proof. rewrite !dget_vals. destruct (dget c a) as [x|] eqn:E; [|discriminate]. rewrite (G _ _ E). auto. Qed.
Lemma healthy_sub m : healthy a m -> healthy b m.
Proof. intros (n & t & R & X). exists n, t. split; [|exact X]. eapply rep_mono; [|exact R]. exact vals_sub. Qed.
Lemma whole_sub r : whole a r -> whole b r.
Proof. intros (n & t & A & B & C & D & E). exists n, t. splits; auto. eapply stored_mono; [|exact D]. exact vals_sub. Qed.
Lemma rooted_sub v : rooted a v -> rooted b v.
Proof. intros (m & r & A & B & C). exists m, r. splits; auto. apply whole_sub; auto. Qed.
Lemma headed_sub h : headed a h -> headed b h.
Proof. intros (A & x & B & C). split; [apply rooted_sub; auto|]. exists x. auto. Qed.
Lemma okobj_sub o : okobj a o -> okobj b o.
Proof. intros (A & B). split; [apply healthy_sub; auto|]. intros h H. apply headed_sub; auto. Qed.
Lemma okent_sub e : okent a e -> okent b e.
Proof. intros (x & A & B). exists x. split; auto. apply rooted_sub; auto. Qed.
Lemma okprev_sub e : okprev a e -> okprev b e.
Proof. intros (x & A & B). exists x. split; auto. apply rooted_sub; auto. Qed.
Lemma committed_sub x : committed a x -> committed b x.
Proof. intros (A & B & C). split; [exact A|]. split; [apply rooted_sub; exact B|]. intros p P. apply okprev_sub; auto. Qed.
End Mono.

Lemma healthy_load bl root : whole bl root -> healthy bl (mst_load root).
Proof.
  intros (n & t & W & S & L & ST & ->). destruct (load_any digest kdigest (rdv bl) n t W ST) as (n' & LE & W' & R & _). exists n', t. splits; auto. lia.
Qed.
Lemma healthy_init bl m : mst_create digest [] None = Ok m -> healthy bl m.
Proof.
  intros E. pose proof (Rel_init digest kdigest) as (n & t & R & W & S & L & _). unfold cinit in R. rewrite E in R. cbn [cl_tree cl_store] in R.
  exists n, t. splits; auto. eapply rep_mono; [|exact R]. discriminate.
Qed.
Lemma healthy_op bl m o m' : healthy bl m -> o <> OPersist -> o <> OReload ->
  fst (cstep digest kdigest (Client (vals bl) m) o) = Client (vals bl) m' -> healthy bl m'.
Proof.
  intros (n & t & R & W & S & L) N1 N2 E.
  assert (RL : Rel digest kdigest None (Client (vals bl) m) (leaves t)) by (exists n, t; splits; auto; [apply ssorted_NoDup; exact S|exact I]).
  destruct (cstep_tree digest kdigest klen _ _ _ o RL N1 N2) as (d' & out & _ & _ & _ & (n' & t' & R' & W' & S' & L' & _) & _).
  rewrite E in R'. exists n', t'. auto.
Qed.
Lemma healthy_add bl m k v m' : healthy bl m -> add digest kdigest (rdv bl) max_depth m k v None = Ok m' -> healthy bl m'.
Proof. intros H E. apply (healthy_op bl m (OAdd k v)); [exact H|discriminate|discriminate|]. unfold cstep. cbv zeta. cbn [cl_store cl_tree]. rewrite E. reflexivity. Qed.
Lemma healthy_update bl m k v m' : healthy bl m -> update kdigest (rdv bl) max_depth m k v = Ok m' -> healthy bl m'.
Proof. intros H E. apply (healthy_op bl m (OUpdate k v)); [exact H|discriminate|discriminate|]. unfold cstep. cbv zeta. cbn [cl_store cl_tree]. rewrite E. reflexivity. Qed.
Lemma healthy_delete bl m k m' : healthy bl m -> delete kdigest (rdv bl) max_depth m k = Ok m' -> healthy bl m'.
Proof. intros H E. apply (healthy_op bl m (ODelete k)); [exact H|discriminate|discriminate|]. unfold cstep. cbv zeta. cbn [cl_store cl_tree]. rewrite E. reflexivity. Qed.

Lemma V_grow st st' : V st -> grows st st' -> s_objs st' = s_objs st -> s_ents st' = s_ents st -> closed digest kdigest (rd st') ->
  (forall c b, read st c = None -> read st' c = Some b -> b_cid b = c /\ bwf b /\ (b_seq b = 0%Z \/ tidy b /\ (commit_keys (b_val b) = false \/ committed (s_blocks st') b))) -> V st'.
Proof.
  intros [A1 A2 A3 A4 A5 A6] G EO EE CL NEW. split; auto.
  - intros c b R. destruct (read st c) as [x|] eqn:E; [rewrite (G _ _ E) in R; injection R as <-; auto|]. destruct (NEW c b E R) as (X & Y & _). auto.
  - rewrite EO. intros r o N. eapply okobj_sub; [exact G|eauto].
  - rewrite EE. intros d e N. eapply okent_sub; [exact G|eauto].
  - intros c b R NZ CK. destruct (read st c) as [x|] eqn:E; [rewrite (G _ _ E) in R; injection R as <-; eapply committed_sub; [exact G|eauto]|].
    destruct (NEW c b E R) as (_ & _ & [X|[_ [X|X]]]); [contradiction|congruence|exact X].
  - intros c b R NZ. destruct (read st c) as [x|] eqn:E; [rewrite (G _ _ E) in R; injection R as <-; eauto|].
    destruct (NEW c b E R) as (_ & _ & [X|[X _]]); [contradiction|exact X].
Qed.
Lemma V_same st st' : s_blocks st' = s_blocks st -> (forall r o, nth_error (s_objs st') r = Some o -> okobj (s_blocks st) o) ->
  (forall d e, In (d, e) (s_ents st') -> okent (s_blocks st) e) -> V st -> V st'.
Proof.
  intros E O T [A1 A2 A3 A4 A5 A6]. split; rewrite ?E; auto.
  - intros c b. unfold read. rewrite E. apply A1.
  - unfold rd. rewrite E. exact A2.
  - intros c b. unfold read. rewrite E. apply A5.
  - intros c b. unfold read. rewrite E. apply A6.
Qed.
(** New blocks that are neither nodes nor commits. *)
Lemma closed_more st st' : closed digest kdigest (rd st) -> grows st st' ->
  (forall c b, read st c = None -> read st' c = Some b -> forall n t, twf n t -> c <> tcid t) -> closed digest kdigest (rd st').
Proof.
  intros CL G NEW n t W R. eapply stored_mono with (rd := rd st).
  - intros c v. unfold rd. apply vals_sub. exact G.
  - apply (CL n t W). intros X. apply R. unfold rd in *. rewrite dget_vals in *. change (dget (tcid t) (s_blocks st)) with (read st (tcid t)) in X.
    change (dget (tcid t) (s_blocks st')) with (read st' (tcid t)) in *. destruct (read st (tcid t)) as [x|] eqn:E; [discriminate X|].
    destruct (read st' (tcid t)) as [b|] eqn:E'; [|reflexivity]. exfalso. exact (NEW _ _ E E' n t W eq_refl).
Qed.

(** ** Computations that leave the blocks alone *)
Definition calm {A} (bl : store) (m : M A) (Q : A -> Prop) : Prop := forall st, V st -> s_blocks st = bl ->
  s_blocks (fst (m st)) = bl /\ V (fst (m st)) /\ match snd (m st) with Ok a => Q a | Err _ => True end.
Lemma calm_pure {A} bl (m : M A) : pure m -> calm bl m (fun _ => True).
Proof. intros P st S E. rewrite P. splits; auto. destruct (snd (m st)); auto. Qed.
Lemma calm_bind {A C} bl (m : M A) (f : A -> M C) Q R : calm bl m Q -> (forall a, Q a -> calm bl (f a) R) -> calm bl (bindM m f) R.
Proof.
  intros H F st S E. destruct (H st S E) as (A1 & A2 & A3). unfold bindM. destruct (m st) as [st1 [a|e]]; cbn [fst snd] in *; [|auto].
  destruct (F a A3 st1 A2 A1) as (B1 & B2 & B3). splits; congruence || auto.
Qed.
Lemma calm_skip {A C} bl (m : M A) (f : A -> M C) R : pure m -> (forall a, calm bl (f a) R) -> calm bl (bindM m f) R.
Proof. intros P F. eapply calm_bind; [apply calm_pure; exact P|auto]. Qed.
Lemma calm_ret {A} bl (a : A) (Q : A -> Prop) : Q a -> calm bl (ret a) Q.
Proof. intros H st S E. splits; auto. Qed.
Lemma calm_throw {A} bl e Q : calm bl (@throw A e) Q.
Proof. intros st S E. splits; auto; exact I. Qed.
Lemma calm_weaken {A} bl (m : M A) (Q R : A -> Prop) : calm bl m Q -> (forall a, Q a -> R a) -> calm bl m R.
Proof. intros H W st S E. destruct (H st S E) as (A1 & A2 & A3). splits; auto. destruct (snd (m st)); auto. Qed.
Lemma calm_new bl o : okobj bl o -> calm bl (new_obj o) (fun _ => True).
Proof.
  intros H st S E. unfold new_obj. cbn. splits; auto. apply (V_same st); auto; [|intros d e; rewrite E; cbn; rewrite <- E; apply S]. cbn [set_objs s_objs]. intros r x N.
  destruct (Nat.lt_ge_cases r (length (s_objs st))) as [L|L].
  - rewrite nth_error_app1 in N by exact L. eapply v_objs; eauto.
  - rewrite nth_error_app2 in N by exact L. rewrite E. destruct (r - length (s_objs st)) as [|[|?]]; cbn in N; try discriminate. injection N as <-. exact H.
Qed.
Lemma calm_attr bl r f : (forall o, okobj bl o -> okobj bl (f o)) -> calm bl (set_attr r f) (fun _ => True).
Proof.
  intros H st S E. destruct (nth_error (s_objs st) r) as [o|] eqn:N; [rewrite (set_attr_ok r f st o N)|unfold set_attr, bindM, obj; rewrite N]; cbn [fst snd]; [|splits; auto].
  splits; auto. apply (V_same st); auto; [|intros d e; apply S]. cbn [set_objs s_objs]. intros k x X. rewrite nth_put in X by congruence. destruct (Nat.eqb r k); [injection X as <-; rewrite E; apply H; rewrite <- E|]; eapply v_objs; eauto.
Qed.
Lemma calm_modify bl f : (forall st, s_blocks (f st) = s_blocks st /\ s_objs (f st) = s_objs st /\ forall d e, In (d, e) (s_ents (f st)) -> In (d, e) (s_ents st) \/ okent bl e) -> calm bl (modify f) (fun _ => True).
Proof.
  intros H st S E. destruct (H st) as (A & B & C). unfold modify. cbn [fst snd]. splits; auto; [congruence|]. apply (V_same st); auto; [rewrite B; apply S|]. intros d e I. destruct (C d e I); [eapply v_ents; eauto|rewrite E; auto].
Qed.
Lemma calm_ents bl d e : okent bl e -> calm bl (modify (fun st => set_ents (ent_put d e (s_ents st)) st)) (fun _ => True).
Proof. intros H. apply calm_modify. intros st. splits; auto. intros d' e' I. apply In_ent_put in I as [[= -> ->]|I]; auto. Qed.
Lemma calm_sees {A C} bl (m : M A) (f : A -> M C) (P : A -> Prop) R : pure m -> (forall st a, V st -> s_blocks st = bl -> m st = (st, Ok a) -> P a) -> (forall a, P a -> calm bl (f a) R) -> calm bl (bindM m f) R.
Proof.
  intros PM S F. eapply calm_bind; [|exact F]. intros st SS EB. pose proof (PM st) as E. pose proof (S st) as T. destruct (m st) as [st1 [a|e]]; cbn [fst snd] in *; subst st1; splits; auto.
Qed.
Lemma calm_obj {C} bl r (f : repo -> M C) R : (forall o, okobj bl o -> calm bl (f o) R) -> calm bl (bindM (obj r) f) R.
Proof.
  apply calm_sees; [apply pure_obj|]. intros st o SS EB E. unfold obj in E. destruct (nth_error (s_objs st) r) as [x|] eqn:X; [|discriminate E]. injection E as <-. rewrite <- EB. eapply v_objs; eauto.
Qed.
Lemma calm_ent {C} bl (g : list (str * entity) -> option entity) (f : option entity -> M C) R : (forall l e, g l = Some e -> exists d, In (d, e) l) ->
  (forall x, match x with Some e => okent bl e | None => True end -> calm bl (f x) R) -> calm bl (bindM (reads (fun st => g (s_ents st))) f) R.
Proof.
  intros G. apply calm_sees; [apply pure_reads|]. intros st x SS EB E. unfold reads in E. injection E as <-. destruct (g (s_ents st)) as [e|] eqn:X; [|exact I]. destruct (G _ _ X). rewrite <- EB. eapply v_ents; eauto.
Qed.
Lemma calm_repo_load bl c h x k : okprev bl c -> calm bl (repo_load c h x k) (fun _ => True).
Proof.
  intros (b & D & RO). unfold repo_load. apply calm_sees with (P := fun y => y = Some b); [apply pure_reads| |].
  { intros st y SS EB E. unfold reads in E. injection E as <-. unfold read. rewrite EB. exact D. }
  intros y ->. pose proof RO as (m & root & EV & ED & WH). assert (IL : item_link (s "data") (b_val b) = Ok root) by (unfold item_link, item; rewrite EV, ED; reflexivity).
  intros st SS EB. unfold bindM at 1, lift. rewrite IL. pose proof SS as [A1 _ _ _ _ _]. assert (CB : b_cid b = c) by (apply (A1 c b); unfold read; rewrite EB; exact D).
  apply calm_new; auto. split; [apply healthy_load; exact WH|]. cbn [r_head]. intros hd [= <-]. split; [exact RO|]. exists b. rewrite CB. auto.
Qed.
Lemma calm_load bl x : calm bl (load_repo be x) (fun _ => True).
Proof.
  unfold load_repo. apply calm_skip; [apply pure_assert|]. intros []. destruct be.
  - apply calm_skip; [apply pure_reads|]. intros l. apply calm_pure, pure_mem_find.
  - eapply (calm_sees _ _ _ (fun x => match x with Some (_, e) => okent bl e | None => True end)); [apply pure_reads| |].
    { intros st y SS EB E. unfold reads in E. injection E as <-. destruct (ent_find x (s_ents st)) as [[k e]|] eqn:X; [|exact I]. apply (ent_find_in digest inj) in X as [X _]. rewrite <- EB. eapply v_ents; eauto. }
    intros [[k e]|] KE; [|apply calm_ret; auto]. eapply calm_bind; [|intros r _; apply calm_ret; auto]. apply calm_repo_load. exact KE.
Qed.
Lemma calm_callback bl r c : calm bl (callback cb r c) (fun _ => True).
Proof.
  intros st S E. rewrite callback_eq. destruct (nth_error (s_objs st) r) as [o|]; [destruct (r_callback o)|]; cbn [fst snd]; splits; auto.
  - apply (V_same st); auto; apply S.
  - destruct (cb (length (s_calls st))); auto.
Qed.
Lemma calm_store bl r : calm bl (store_repo be r) (fun _ => True).
Proof.
  unfold store_repo. apply calm_obj. intros o [_ HO]. apply calm_skip; [apply pure_need_did|]. intros d. destruct be.
  - apply calm_modify. auto.
  - apply calm_skip; [apply pure_reads|]. intros [e|]; [|apply calm_throw]. destruct (r_head o) as [h|]; [|apply calm_throw]. apply calm_ents.
    destruct (HO h eq_refl) as (RO & b & D & E). exists b. split; [exact D|]. rewrite E. exact RO.
Qed.
Lemma calm_create_repo bl r : calm bl (create_repo be r) (fun _ => True).
Proof.
  unfold create_repo. apply calm_obj. intros o [_ HO]. apply calm_skip; [apply pure_need_did|]. intros d. destruct be.
  - apply calm_modify. auto.
  - destruct (r_head o) as [h|]; [|apply calm_throw]. apply calm_ents. destruct (HO h eq_refl) as (RO & b & D & E). exists b. split; [exact D|]. rewrite E. exact RO.
Qed.
Lemma calm_status bl r x : calm bl (set_repo_status be r x) (fun _ => True).
Proof.
  unfold set_repo_status. eapply calm_bind; [apply calm_attr; auto|]. intros _ _. destruct be; [apply calm_ret; auto|].
  apply calm_skip; [apply pure_obj|]. intros o. apply calm_skip; [apply pure_lift|]. intros d. 
  apply (calm_ent bl (fun l => match d with Some d => dget d l | None => None end)); [intros l e E; destruct d as [d|]; [exists d; apply In_dget1; exact E|discriminate E]|]. intros e KE.
  destruct d; [|apply calm_throw]. destruct e; [|apply calm_throw]. apply calm_ents. exact KE.
Qed.
Lemma calm_target bl r first : calm bl (commit_target be r first) (fun drp => forall p, snd drp = Some p -> okprev bl p).
Proof.
  unfold commit_target. apply calm_skip; [apply pure_obj|]. intros o. apply calm_skip; [destruct (is_some _); [apply pure_throw|apply pure_ret]|]. intros [].
  assert (X : calm bl (let! d := need_did o in let! x := load_repo be d in
     match x with None => throw AttributeError | Some r => let! o := obj r in match r_head o with None => throw AttributeError | Some h => ret (d, r, Some (b_cid h)) end end) (fun drp => forall p, snd drp = Some p -> okprev bl p)).
  { apply calm_skip; [apply pure_need_did|]. intros d. eapply calm_bind; [apply calm_load|]. intros [r'|] _; [|apply calm_throw].
    apply calm_obj. intros o' [_ HO]. destruct (r_head o') as [h|]; [apply calm_ret|apply calm_throw]. cbn [snd]. intros p [= <-].
    destruct (HO h eq_refl) as (RO & b & D & E). exists b. split; [exact D|]. rewrite E. exact RO. }
  destruct first as [[|c d]|]; [exact X| |exact X].
  apply (calm_bind _ _ _ (fun _ => True)); [|intros _ _; apply calm_ret; discriminate].
  destruct (r_head o) as [h|]; [|apply calm_ret; auto]. apply calm_skip; [apply pure_lift|]. intros hd. apply calm_skip; [apply pure_assert|]. intros []. apply calm_skip; [apply pure_lift|]. intros p.
  apply calm_skip; [apply pure_assert|]. intros []. apply calm_attr. intros o' [HM _]. split; [exact HM|discriminate].
Qed.

(** The records of a batch. *)
Definition recs (seq : Z) (blocks : store) : Prop := forall c b, In (c, b) blocks -> exists v d, plain v /\ b = mk_block digest v d seq None /\ c = b_cid b.
Lemma recs_add seq blocks v d : recs seq blocks -> plain v -> let b := mk_block digest v d seq None in recs seq (dset (b_cid b) b blocks).
Proof. intros H P b c x I. apply In_dset in I as [I|I]; [injection I as -> ->; exists v, d; auto|auto]. Qed.
Lemma calm_write bl d r seq acc w : recs seq (fst acc) -> calm bl (commit_write digest kdigest validate r d seq acc w) (fun acc' => recs seq (fst acc')).
Proof.
  intros W. destruct acc as [blocks ops]. unfold commit_write. cbn [fst] in W.
  assert (S : forall m, healthy bl m -> calm bl (set_attr r (with_mst m)) (fun _ => True)).
  { intros m SM. apply calm_attr. intros o [_ HO]. split; [exact SM|exact HO]. }
  apply calm_skip.
  { destruct (w_action w); [apply pure_ret|..]; (apply pure_bind; [apply pure_obj|]; intros o; apply pure_bind;
     [exact (pure_rd (fun rd => get kdigest rd max_depth (r_mst o) (path_of w)))|]; intros [v|]; [destruct (nonempty v); [apply pure_ret|apply pure_throw]|apply pure_throw]). }
  intros prev.
  assert (RDB : forall A B (g : (cid -> option ipld) -> res A) (f : A -> M B) R, (forall a, g (rdv bl) = Ok a -> calm bl (f a) R) -> calm bl (let! a := (fun st => (st, g (rd st))) in f a) R).
  { intros A B g f R F st SS EB. unfold bindM. assert (ER : rd st = rdv bl) by (unfold rd; rewrite EB; reflexivity). rewrite ER. destruct (g (rdv bl)) as [a|e] eqn:E; cbn [fst snd]; [eapply F; eauto|splits; auto]. }
  assert (REC : forall a, calm bl
    (match w_record w with
      | None => throw AssertionError
      | Some v =>
          (match v with IMap _ => ret tt | _ => throw AttributeError end);;
          lift (validate v);;
          assert (truthy v);;
          let b := mk_block digest v (Some d) seq None in
          (if (max_record_size <? len (encode (b_val b)))%N then throw ValueError else ret tt);;
          let blocks := dset (b_cid b) b blocks in
          let op := CommitOp a (path_of w) (Some (b_cid b)) prev in
          let! o := obj r in
          match a with
          | CREATE =>
              let! m := (fun st => (st, add digest kdigest (rd st) max_depth (r_mst o) (path_of w) (b_cid b) None)) in
              set_attr r (with_mst m);;
              ret (blocks, ops ++ [op])
          | _ =>
              let! orig := lift (get_pointer digest (r_mst o)) in
              let! m := (fun st => (st, update kdigest (rd st) max_depth (r_mst o) (path_of w) (b_cid b))) in
              set_attr r (with_mst m);;
              let! pointer := lift (get_pointer digest m) in
              ret (blocks, if str_eqb pointer orig then ops else ops ++ [op])
          end
      end) (fun acc' => recs seq (fst acc'))).
  { intros a. destruct (w_record w) as [v|]; [|apply calm_throw].
    apply calm_skip; [destruct v; first [apply pure_ret|apply pure_throw]|]. intros [].
    destruct (validate v) as [[]|] eqn:VA; [|intros st SS EB; splits; auto; exact I].
    pose proof (recs_add seq blocks v (Some d) W (plains v VA)) as W1. cbv zeta in W1.
    apply calm_skip; [apply pure_lift|]. intros []. apply calm_skip; [apply pure_assert|]. intros []. cbv zeta.
    apply calm_skip; [destruct (_ <? _)%N; [apply pure_throw|apply pure_ret]|]. intros [].
    apply calm_obj. intros o [SO _].
    assert (UP : calm bl (let! orig := lift (get_pointer digest (r_mst o)) in
              let! m := (fun st => (st, update kdigest (rd st) max_depth (r_mst o) (path_of w) (b_cid (mk_block digest v (Some d) seq None)))) in
              set_attr r (with_mst m);;
              let! pointer := lift (get_pointer digest m) in
              ret (dset (b_cid (mk_block digest v (Some d) seq None)) (mk_block digest v (Some d) seq None) blocks,
                   if str_eqb pointer orig then ops else ops ++ [CommitOp a (path_of w) (Some (b_cid (mk_block digest v (Some d) seq None))) prev])) (fun acc' => recs seq (fst acc'))).
    { apply calm_skip; [apply pure_lift|]. intros orig.
      apply (RDB _ _ (fun rd => update kdigest rd max_depth (r_mst o) (path_of w) (b_cid (mk_block digest v (Some d) seq None)))). intros m E.
      eapply calm_bind; [apply S; eapply healthy_update; eauto|]. intros [] _. apply calm_skip; [apply pure_lift|]. intros p. apply calm_ret. exact W1. }
    destruct a; [|exact UP|exact UP].
    apply (RDB _ _ (fun rd => add digest kdigest rd max_depth (r_mst o) (path_of w) (b_cid (mk_block digest v (Some d) seq None)) None)). intros m E.
    eapply calm_bind; [apply S; eapply healthy_add; eauto|]. intros [] _. apply calm_ret. exact W1. }
  destruct (w_action w) eqn:WA; [apply (REC CREATE)|apply (REC UPDATE)|].
  apply calm_obj. intros o [SO _].
  apply (RDB _ _ (fun rd => delete kdigest rd max_depth (r_mst o) (path_of w))). intros m E.
  eapply calm_bind; [apply S; eapply healthy_delete; eauto|]. intros [] _. apply calm_ret. exact W.
Qed.
Lemma calm_fold bl d r seq : forall ws acc, recs seq (fst acc) -> calm bl (foldM (commit_write digest kdigest validate r d seq) acc ws) (fun acc' => recs seq (fst acc')).
Proof.
  induction ws as [|w ws IH]; intros acc W; cbn [foldM]; [apply calm_ret; exact W|].
  eapply calm_bind; [apply calm_write; exact W|]. intros acc' W'. apply IH. exact W'.
Qed.

(** ** Computations that write *)
Definition go {A} (m : M A) : Prop := forall st, V st -> V (fst (m st)).
Lemma go_calm {A} (m : M A) Q : (forall bl, calm bl m Q) -> go m.
Proof. intros H st S. exact (proj1 (proj2 (H _ st S eq_refl))). Qed.
Lemma go_pure {A} (m : M A) : pure m -> go m.
Proof. intros P st S. rewrite P. exact S. Qed.
Lemma go_bind {A C} (m : M A) (f : A -> M C) : go m -> (forall a, go (f a)) -> go (bindM m f).
Proof. intros H F st S. specialize (H st S). unfold bindM. destruct (m st) as [st1 [a|e]]; cbn [fst] in *; [apply F; exact H|exact H]. Qed.
Lemma go_ret {A} (a : A) : go (ret a).
Proof. intros st S. exact S. Qed.
Lemma go_throw {A} e : go (@throw A e).
Proof. intros st S. exact S. Qed.
Lemma go_exc {A} (m : M A) h : go m -> go h -> go (on_exception m h).
Proof. intros H G st S. specialize (H st S). unfold on_exception. destruct (m st) as [st1 [a|e]]; cbn [fst] in *; [exact H|]. specialize (G st1 H). destruct (h st1) as [st2 [[]|e2]]; exact G. Qed.
Lemma go_seq : go allocate_seq.
Proof. intros st S. apply (V_same st); auto; apply S. Qed.

Lemma other_not_node b : (forall d, b_val b <> ndata_ipld d) -> bwf b -> forall n t, twf n t -> b_cid b <> tcid t.
Proof. intros N W n [es] _ E. rewrite tcid_eq, W in E. apply cid_of_inj in E; auto. destruct (N _ E). Qed.
Lemma plain_data v d : plain v -> norm v <> ndata_ipld d.
Proof. intros P E. destruct (vtype_plain _ P) as (t & T & _). rewrite E, vtype_node in T. discriminate. Qed.

Lemma go_finish bl r0 r d prev seq bo st : V st -> s_blocks st = bl -> (forall p, prev = Some p -> okprev bl p) -> recs seq (fst bo) ->
  V (fst (commit_finish digest kdigest ecdsa be r0 r d prev seq bo st)).
Proof.
  intros HV EB HP BA. unfold commit_finish, bindM at 1, obj. destruct (nth_error (s_objs st) r) as [o|] eqn:E; [|exact HV].
  pose proof (v_objs _ HV _ _ E) as [(n & t & R & W & SO & LE) HO]. pose proof md as MD.
  destruct (get_unstored_ok digest kdigest (rd st) n max_depth (r_mst o) t ltac:(lia) R W (v_closed _ HV)) as (bs & U & ND & B1 & B2).
  unfold bindM at 1. rewrite U. unfold bindM at 1, lift. destruct (int_to_tid seq 0) as [rev|] eqn:T; [|exact HV]. cbv zeta. cbn [fst snd].
  set (cblock := mk_block digest _ _ _ _). set (blocks := dset (b_cid cblock) cblock _).
  unfold bindM at 1. change (write_blocks (map snd blocks) st) with (fst (write_blocks (map snd blocks) st), @Ok unit tt).
  set (st1 := fst (write_blocks (map snd blocks) st)).
  assert (AB : all_ok digest seq blocks).
  { intros c b J0. unfold blocks in J0. apply In_dset in J0 as [J0|J0]; [injection J0 as -> ->; split; [apply mk_block_wf|split; reflexivity]|].
    revert c b J0. apply (add_nodes_ok digest inj d seq bs (fst bo)).
    - exact (unstored_wf _ _ _ _ _ _ _ U).
    - intros c b J0. destruct (BA c b J0) as (v & d0 & _ & -> & ->). split; [apply mk_block_wf|split; reflexivity]. }
  assert (RD : forall c, read st1 c = match read st c with Some b => Some b | None => dget c blocks end).
  { intros c. unfold st1. rewrite read_write_blocks. destruct (read st c); [reflexivity|]. exact (f_equal (dget c) (keyed _ _ _ AB)). }
  assert (GN : forall c, dget c blocks = if str_eqb c (b_cid cblock) then Some cblock else match dget c bs with Some v => Some (Block c v seq None (Some d)) | None => dget c (fst bo) end).
  { intros c. unfold blocks. rewrite dget_dset, add_nodes_get by exact ND. reflexivity. }
  assert (G : grows st st1) by (intros c b X; rewrite RD, X; reflexivity).
  assert (CV : b_val cblock = IMap (commit_map d rev prev (tcid t) (ecdsa (r_key o) seq (dag_cbor_encode (IMap (unsigned_commit d rev prev (tcid t))))))) by apply commit_norm.
  assert (NT : forall n' t', twf n' t' -> b_cid cblock <> tcid t').
  { apply other_not_node; [|apply mk_block_wf]. intros nd X. rewrite CV in X. symmetry in X. exact (node_not_commit _ _ _ _ _ _ X). }
  destruct (closed_extend digest kdigest inj (rd st) (rd st1) bs n t (v_closed _ HV) W B1 B2) as [ST CL].
  { intros c v. unfold rd. apply vals_sub. exact G. }
  { intros c HI. unfold rd. rewrite dget_vals. fold (read st1 c). rewrite RD. destruct (read st c); [discriminate|]. rewrite GN. destruct (str_eqb c (b_cid cblock)); [discriminate|].
    destruct (dget c bs) as [v|] eqn:EV; [discriminate|]. exfalso. apply dget_None in EV. auto. }
  { intros c v. unfold rd. rewrite !dget_vals. fold (read st1 c) (read st c). rewrite RD. destruct (read st c) as [b|] eqn:EC; [auto|].
    rewrite GN. destruct (str_eqb_spec c (b_cid cblock)) as [->|NE].
    - intros _. right. right. exact NT.
    - destruct (dget c bs) as [v'|] eqn:EV.
      + cbn [option_map b_val]. intros [= ->]. right. left. apply dget_In. auto.
      + destruct (dget c (fst bo)) as [b|] eqn:EK; [|discriminate]. intros _. right. right. apply In_dget1 in EK. destruct (BA c b EK) as (v' & d0 & P & -> & ->).
        apply other_not_node; [|apply mk_block_wf]. intros nd. apply (plain_data v' nd P). }
  assert (WR : whole (s_blocks st1) (tcid t)) by (exists n, t; splits; auto).
  assert (RO : rooted (s_blocks st1) (b_val cblock)).
  { rewrite CV. eexists _, (tcid t). split; [reflexivity|]. split; [reflexivity|exact WR]. }
  assert (CM : committed (s_blocks st1) cblock).
  { split; [eexists; reflexivity|]. split; [exact RO|]. intros p IP. apply (okprev_sub (s_blocks st)); [exact G|]. rewrite EB. apply HP. rewrite CV in IP. destruct prev; [|discriminate IP]. injection IP as <-. reflexivity. }
  assert (HC : headed (s_blocks st1) cblock).
  { split; [exact RO|]. fold (read st1 (b_cid cblock)). rewrite RD, GN, str_eqb_refl. destruct (read st (b_cid cblock)) as [b|] eqn:EC; [|eauto]. exists b. split; [reflexivity|].
    destruct (v_wf _ HV _ _ EC) as [C1 C2]. apply (wf_val digest inj); [exact C2|apply mk_block_wf|exact C1]. }
  assert (V1 : V st1).
  { apply (V_grow st st1 HV G eq_refl eq_refl CL). intros c b N0 R1. rewrite RD, N0 in R1. pose proof (AB _ _ (In_dget1 _ _ _ R1)) as (X1 & X2 & X3). split; [exact X2|]. split; [exact X1|]. right.
    rewrite GN in R1. destruct (str_eqb c (b_cid cblock)); [injection R1 as <-; split; [intros VT; rewrite CV in VT; destruct prev; destruct (VT eq_refl)|right; exact CM]|].
    destruct (dget c bs) as [v'|] eqn:EV.
    - injection R1 as <-. apply dget_In in EV. destruct (B1 _ _ EV) as (s' & _ & _ & -> & _). destruct s' as [es]. split; [intros VT; destruct (VT (vtype_node _))|left; reflexivity].
    - apply In_dget1 in R1. destruct (BA c b R1) as (v' & d0 & P & -> & ->). split; [|left; apply (other_record (mk_block digest v' d0 seq None) v' P eq_refl)].
      intros _ m EM. destruct P as [PV _]. apply norm_value in PV. change (norm v' = IMap m) in EM. rewrite EM in PV. apply py_value_map in PV. apply PV. }
  match goal with |- V (fst (?m st1)) => assert (MF : calm (s_blocks st1) m (fun _ => True)) end.
  { eapply calm_bind with (Q := fun _ => True).
    - destruct (is_some (r_head o)); [|apply calm_ret; auto]. eapply calm_bind; [apply calm_attr; intros x [HX _]; split; [exact HX|intros h [= <-]; exact HC]|]. intros _ _. apply calm_store.
    - intros _ _. eapply calm_bind; [apply calm_attr; intros x [_ HX]; split; [apply (healthy_sub (s_blocks st)); [exact G|exists n, t; auto]|exact HX]|]. intros _ _.
      eapply calm_bind; [apply calm_attr; intros x [HX _]; split; [exact HX|intros h [= <-]; exact HC]|]. intros _ _. apply calm_ret. auto. }
  exact (proj1 (proj2 (MF st1 V1 eq_refl))).
Qed.
Lemma go_commit_ r0 ws seq first : go (commit_ digest kdigest validate ecdsa be r0 ws seq first).
Proof.
  unfold commit_. apply go_bind; [apply go_pure, pure_assert|]. intros []. intros st HV. unfold bindM at 1.
  destruct (calm_target (s_blocks st) r0 first st HV eq_refl) as (A1 & A2 & A3). destruct (commit_target be r0 first st) as [st1 [[[d r] prev]|e]]; cbn [fst snd] in *; [|exact A2].
  unfold bindM at 1. destruct (_ <? _)%N; [exact A2|]. cbn [ret]. unfold bindM at 1.
  destruct (calm_fold (s_blocks st) d r seq ws ([], [])) with (st := st1) as (B1 & B2 & B3); [intros c b []|exact A2|exact A1|].
  destruct (foldM _ _ ws st1) as [st2 [bo|e]]; cbn [fst snd] in *; [|exact B2]. apply (go_finish (s_blocks st)); auto.
Qed.
Lemma go_callback r c : go (callback cb r c).
Proof. eapply go_calm. intros bl. apply calm_callback. Qed.
Lemma go_commit r ws first : go (commit digest kdigest validate ecdsa cb be r ws first).
Proof.
  unfold commit. apply go_bind; [apply go_seq|]. intros seq. apply go_exc; [|apply go_callback].
  apply go_bind; [apply go_commit_|]. intros cd. apply go_bind; [apply go_callback|]. intros []. apply go_ret.
Qed.
Lemma norm_nodup m0 m : NoDup (keys m0) -> norm (IMap m0) = IMap m -> NoDup (keys m).
Proof.
  rewrite norm_map. intros ND E. assert (m = sort_keys (map norm_pair m0)) as -> by congruence.
  eapply Permutation_NoDup; [apply Permutation_map, Permutation_sym, sort_keys_perm|]. fold (keys (map norm_pair m0)). rewrite keys_norm. exact ND.
Qed.
Definition distinct (extra : list (str * ipld)) : Prop := NoDup ([s "$type"; s "seq"; s "did"; s "time"] ++ keys extra).
Lemma go_write d type n extra d' : eventful now type extra -> distinct extra -> go (write_obj digest be d (event now type n d' extra) n).
Proof.
  intros EV DI. assert (W : forall v t, vtype (norm v) = Some t -> (forall m, norm v = IMap m -> NoDup (keys m)) -> go (write_blocks [mk_block digest v d n None])).
  { intros v t VT TD st HV. set (b := mk_block digest v d n None).
    assert (RD : forall c, read (fst (write_blocks [b] st)) c = match read st c with Some b => Some b | None => if str_eqb c (b_cid b) then Some b else None end) by (intros c; rewrite read_write_blocks; reflexivity).
    assert (NN : forall n t, twf n t -> b_cid b <> tcid t).
    { apply other_not_node; [|apply mk_block_wf]. intros nd E. change (b_val b) with (norm v) in E. rewrite E, vtype_node in VT. discriminate. }
    assert (G : grows st (fst (write_blocks [b] st))) by (intros c x X; rewrite RD, X; reflexivity).
    apply (V_grow st); auto.
    - apply (closed_more st); [apply HV|exact G|]. intros c x N0 R1. rewrite RD, N0 in R1. destruct (str_eqb_spec c (b_cid b)) as [->|]; [exact NN|discriminate].
    - intros c x N0 R1. rewrite RD, N0 in R1. destruct (str_eqb_spec c (b_cid b)) as [->|]; [|discriminate]. injection R1 as <-. split; [reflexivity|]. split; [apply mk_block_wf|]. right. split; [intros _ m EM; apply TD; exact EM|]. left.
      change (b_val b) with (norm v). destruct (norm v) as [| | | | | |m|]; try discriminate VT. unfold commit_keys. apply andb_false_iff. left.
      destruct (forallb _ (map fst m)) eqn:F; auto. rewrite forallb_forall in F. cbn [vtype] in VT. apply dget_In in VT. apply (in_map fst) in VT. apply F in VT. discriminate VT. }
  assert (W' : go (write_blocks [mk_block digest (event now type n d' extra) d n None])) by (eapply W; [exact (proj1 (EV d' n))|]; intros m; apply norm_nodup; exact DI).
  unfold write_obj. destruct be.
  - apply go_bind; [apply go_pure, pure_assert|]. intros []. apply go_bind; [exact W'|]. intros []. apply go_ret.
  - apply go_bind; [apply go_pure, pure_assert|]. intros []. apply go_bind; [exact W'|]. intros []. apply go_bind; [apply go_pure, pure_reads|]. intros [x|]; [|apply go_throw].
    apply go_bind; [apply go_pure, pure_assert|]. intros []. apply go_ret.
Qed.
Fixpoint uniq (l : list str) : bool := match l with [] => true | x :: r => negb (mem_str x r) && uniq r end.
Lemma uniq_ok l : uniq l = true -> NoDup l.
Proof. induction l as [|x r IH]; cbn [uniq]; intros H; constructor; apply andb_true_iff in H as [A B]; auto. intros I. apply mem_str_In in I. rewrite I in A. discriminate A. Qed.
Lemma distinct_ok extra : uniq ([s "$type"; s "seq"; s "did"; s "time"] ++ keys extra) = true -> distinct extra.
Proof. apply uniq_ok. Qed.
Lemma go_event r type extra : eventful now type extra -> distinct extra -> go (write_event digest now cb be r type extra).
Proof.
  intros EV DI. unfold write_event. apply go_bind; [apply go_seq|]. intros n. apply go_bind; [apply go_pure, pure_obj|]. intros o. apply go_bind; [apply go_pure, pure_lift|]. intros d.
  apply go_bind; [apply go_write; [exact EV|exact DI]|]. intros b. apply go_bind; [apply go_callback|]. intros []. apply go_ret.
Qed.
Lemma go_create did handle status x key : go (repo_create digest kdigest validate ecdsa now cb be did handle status x key).
Proof.
  unfold repo_create. destruct (mst_create digest [] None) as [m|e] eqn:E; [|intros st S; exact S].
  assert (X : forall m', m' = m -> go (let! r := new_obj (Repo m' None handle status x key) in
    let! cd := commit digest kdigest validate ecdsa cb be r [] (Some did) in let! o := obj r in let! _ := need_did o in
    write_event digest now cb be r (s "identity") [(s "handle", opt_text handle)];; write_event digest now cb be r (s "account") [(s "active", IBool true)];;
    let! rev := lift (item (s "rev") (b_val (cd_commit cd))) in
    write_event digest now cb be r (s "sync") [(s "blocks", IBytes (write_car [b_cid (cd_commit cd)] [(b_cid (cd_commit cd), encode (b_val (cd_commit cd)))])); (s "rev", rev)];;
    create_repo be r;; callback cb r (CData (MCommit cd));; ret r)).
  { intros m' ->. apply go_bind; [eapply go_calm; intros bl; apply calm_new; split; [apply healthy_init; exact E|discriminate]|]. intros r.
    apply go_bind; [apply go_commit|]. intros cd. apply go_bind; [apply go_pure, pure_obj|]. intros o. apply go_bind; [apply go_pure, pure_need_did|]. intros d.
    apply go_bind; [apply go_event; [apply eventful_identity|apply distinct_ok; reflexivity]|]. intros _. apply go_bind; [apply go_event; [apply eventful_active|apply distinct_ok; reflexivity]|]. intros _. apply go_bind; [apply go_pure, pure_lift|]. intros rev. apply go_bind; [apply go_event; [intros d0 n; split; reflexivity|apply distinct_ok; reflexivity]|]. intros _.
    apply go_bind; [eapply go_calm; intros bl; apply calm_create_repo|]. intros []. apply go_bind; [apply go_callback|]. intros []. apply go_ret. }
  intros st S. exact (X m eq_refl st S).
Qed.
Lemma go_status r x type extra : eventful now type extra -> distinct extra -> go (set_repo_status be r x;; write_event digest now cb be r type extra;; ret tt).
Proof. intros EV DI. apply go_bind; [eapply go_calm; intros bl; apply calm_status|]. intros []. apply go_bind; [apply go_event; [exact EV|exact DI]|]. intros _. apply go_ret. Qed.

Definition VW (w : world) : Prop := V (w_state w).
Lemma new_V w m : VW w -> go m -> VW (fst (on_new w m)).
Proof. intros H G. specialize (G _ H). unfold on_new. destruct (m (w_state w)) as [st [[r|]|e]]; exact G. Qed.
Lemma ref_V w h f : VW w -> (forall r, go (f r)) -> VW (fst (on_ref w h f)).
Proof. intros H G. unfold on_ref. destruct (nth_error (w_refs w) h) as [r|]; [|exact H]. specialize (G r _ H). destruct (f r (w_state w)) as [st out]. exact G. Qed.
Lemma sstep_V w op : VW w -> VW (fst (sstep digest kdigest validate ecdsa now cb be w op)).
Proof.
  intros H. destruct op as [did handle status x key|x|h key|h x|h ws|h|h|h]; cbn [sstep].
  - apply new_V; [exact H|]. apply go_bind; [apply go_create|]. intros r. apply go_ret.
  - apply new_V; [exact H|]. eapply go_calm. intros bl. apply calm_load.
  - destruct (nth_error (w_refs w) h) as [r|]; [|exact H]. apply new_V; [exact H|]. apply (go_calm _ (fun _ => True)). intros bl. apply calm_obj. intros o [_ HO]. destruct (r_head o) as [b|]; [|apply calm_throw].
    eapply calm_bind; [apply calm_repo_load; destruct (HO b eq_refl) as (RO & b' & D & E); exists b'; split; [exact D|rewrite E; exact RO]|]. intros r' _. apply calm_ret. auto.
  - apply ref_V; [exact H|]. intros r. apply go_bind; [|intros []; apply go_ret]. eapply go_calm. intros bl. apply calm_attr. auto.
  - apply ref_V; [exact H|]. intros r. apply go_bind; [apply go_commit|]. intros cd. apply go_ret.
  - apply ref_V; [exact H|]. intros r. apply go_bind; [apply go_status; [first [apply eventful_off|apply eventful_active|apply eventful_gone]|apply distinct_ok; reflexivity]|]. intros []. apply go_ret.
  - apply ref_V; [exact H|]. intros r. apply go_bind; [apply go_status; [first [apply eventful_off|apply eventful_active|apply eventful_gone]|apply distinct_ok; reflexivity]|]. intros []. apply go_ret.
  - apply ref_V; [exact H|]. intros r. apply go_bind; [apply go_status; [first [apply eventful_off|apply eventful_active|apply eventful_gone]|apply distinct_ok; reflexivity]|]. intros []. apply go_ret.
Qed.

(** ** Requests *)
Section Request.
Variable netloc_ok : str -> bool.
Variable cfg : config.
Lemma go_load x : go (server_load be netloc_ok x).
Proof.
  unfold server_load. apply go_bind; [apply go_pure; destruct (starts_with (s "at://") x); [apply pure_bind; [apply pure_lift|intros; apply pure_ret]|apply pure_ret]|]. intros y.
  apply go_bind; [eapply go_calm; intros bl; apply calm_load|]. intros [r|]; [|apply go_throw]. apply go_bind; [apply go_pure, pure_obj|]. intros o.
  destruct (r_status o) as [[|]|]; first [apply go_throw|apply go_ret].
Qed.
Ltac skip := apply go_bind; [apply go_pure; first [apply pure_lift|apply pure_obj|apply pure_find|apply pure_did_of]|].
Lemma go_put header i : go (put_record digest kdigest validate ecdsa cb be netloc_ok cfg header i).
Proof.
  unfold put_record. skip. intros []. skip. intros []. skip. intros x. apply go_bind; [apply go_load|]. intros r. skip. intros coll. skip. intros rkey. skip. intros o. skip. intros ex.
  destruct (i_record i) as [v|]; [|apply go_throw]. apply go_bind; [apply go_commit|]. intros cd. skip. intros o2. skip. intros did. skip. intros uri. apply go_ret.
Qed.
Lemma go_serve q : go (serve digest kdigest validate ecdsa cb be netloc_ok cfg q).
Proof.
  destruct q as [header i tid|header i|header i|repo coll rkey c]; cbn [serve].
  - apply go_bind; [|intros a; apply go_ret]. unfold create_record. apply go_bind; [apply go_pure; destruct (given (i_collection i)); [apply pure_ret|apply pure_lift]|]. intros co.
    skip. intros []. skip. intros []. skip. intros y. apply go_bind; [apply go_load|]. intros r. apply go_put.
  - apply go_bind; [|intros a; apply go_ret]. apply go_put.
  - apply go_bind; [|intros a; apply go_ret]. unfold delete_record. skip. intros []. skip. intros []. skip. intros x. apply go_bind; [apply go_load|]. intros r. skip. intros coll. skip. intros rkey. skip. intros o. skip. intros ex.
    destruct ex as [ex|]; [apply go_bind; [apply go_commit|]; intros cd; apply go_ret|apply go_ret].
  - apply go_bind; [|intros a; apply go_ret]. unfold xrpc_get_record. skip. intros []. apply go_bind; [apply go_pure; destruct (given c); [apply pure_throw|apply pure_ret]|]. intros []. skip. intros x.
    apply go_bind; [apply go_load|]. intros r. skip. intros o. skip. intros ex. destruct ex as [v|]; [|apply go_throw]. destruct (negb _); [apply go_throw|]. skip. intros d. skip. intros u. apply go_ret.
Qed.
End Request.

(** ** Imports *)
Section Import.
Variable cfg : config.
Variable resolve : str -> res ipld.
Variable signing_key : ipld -> option (list N).
Variable verify : ipld -> list N -> bool.
Variable handle_of : ipld -> option str.
Definition taken (hc : cid) (bl : list (cid * list N)) (acc acc' : list block * import_head) : Prop :=
  (forall c data, In (c, data) bl -> decode data <> None) /\
  (forall b, In b (fst acc') <-> In b (fst acc) \/ exists c data v, In (c, data) bl /\ decode data = Some v /\ b = Block c v 0 None None) /\
  ((forall h d doc, snd acc = Some (h, d, doc) -> In h (fst acc) /\ b_cid h = hc) -> forall h d doc, snd acc' = Some (h, d, doc) -> In h (fst acc') /\ b_cid h = hc).
Lemma taken_cons hc c data v bl acc x acc' : decode data = Some v -> (x = snd acc \/ exists d doc, c = hc /\ x = Some (Block c v 0 None None, d, doc)) ->
  taken hc bl (fst acc ++ [Block c v 0 None None], x) acc' -> taken hc ((c, data) :: bl) acc acc'.
Proof.
  intros D X (A & B & C). split; [intros c' d' [Y|Y]; [injection Y as <- <-; congruence|eauto]|]. cbn [fst snd] in *. split.
  - intros b. rewrite B, in_app_iff. split.
    + intros [[I|[<-|[]]]|(c' & d' & v' & I & Y)]; [auto|right; exists c, data, v; split; [left; reflexivity|auto]|right; exists c', d', v'; split; [right; exact I|exact Y]].
    + intros [I|(c' & d' & v' & [Y|I] & Z)]; [auto| |right; exists c', d', v'; auto]. injection Y as <- <-. destruct Z as [Z ->]. rewrite D in Z. injection Z as <-. left. right. left. reflexivity.
  - intros H. apply C. intros h d doc ->. destruct X as [X|(d0 & doc0 & E & X)].
    + destruct (H h d doc (eq_sym X)) as [I E]. split; [apply in_or_app; auto|exact E].
    + injection X as -> -> ->. split; [apply in_or_app; right; left; reflexivity|exact E].
Qed.
Lemma calm_blocks s0 hc : forall bl acc, calm s0 (import_blocks be resolve signing_key verify hc bl acc) (taken hc bl acc).
Proof.
  induction bl as [|[c data] bl IH]; intros acc; cbn [import_blocks].
  { apply calm_ret. split; [intros c data []|]. split; [|auto]. intros b. split; [auto|]. intros [I|(c & d & v & [] & _)]. exact I. }
  apply calm_skip; [apply pure_assert|]. intros []. destruct (decode data) as [v|] eqn:DE; [|apply calm_throw].
  destruct (str_eqb_spec c hc) as [E|NE].
  - apply calm_skip; [apply pure_lift|]. intros d. eapply calm_bind; [apply calm_load|]. intros ex _.
    apply calm_skip; [destruct (is_some ex); [apply pure_throw|apply pure_ret]|]. intros []. apply calm_skip; [apply pure_lift|]. intros doc.
    destruct (signing_key doc) as [k|]; [|apply calm_throw]. destruct (verify v k); [|apply calm_throw].
    eapply calm_weaken; [apply IH|]. intros acc' T. eapply taken_cons; [exact DE| |exact T]. right. exists d, doc. auto.
  - eapply calm_weaken; [apply IH|]. intros acc' T. eapply taken_cons; [exact DE| |exact T]. left. reflexivity.
Qed.
Lemma links_closed car roots bl : honest_car digest car -> read_car car = Some (roots, bl) ->
  (forall p v d c, car_reader bl p = Some v -> ipld_ndata v = Ok d -> links d c -> car_reader bl c <> None) ->
  forall n t, twf n t -> car_reader bl (tcid t) <> None -> MstRep.stored digest (car_reader bl) t.
Proof.
  intros HC RC LK. induction n as [|n IH]; intros [es] W NN.
  all: destruct (car_reader bl (tcid (Node es))) as [v|] eqn:CR; [|contradiction NN; reflexivity].
  all: assert (v = tnode digest (Node es)) as -> by
    (pose proof CR as CR0; unfold car_reader in CR0; destruct (dget (tcid (Node es)) bl) as [data|] eqn:D; [|discriminate]; apply dget_In in D; pose proof (HC _ _ _ _ _ RC D CR0) as X; rewrite tcid_eq in X;
     apply (cid_of_inj digest) in X; [symmetry; exact X|exact inj]).
  all: constructor; [exact CR|]; intros x HI; pose proof W as W0; apply wf_node in W0 as [_ F]; rewrite Forall_forall in F; pose proof (F _ HI) as FE; cbn [wfE] in FE.
  - destruct FE.
  - destruct FE as [W1 _]. apply IH; [exact W1|]. pose proof (ipld_ndata_ok (ser (map (pent digest) es))) as DD.
    apply (LK _ _ _ _ CR DD). unfold links. apply (node_links digest kdigest (S n) es _ (tcid x) W DD). eauto.
Qed.
Lemma go_import header car key : honest_car digest car -> whole_car digest kdigest car -> go (import_repo be cfg resolve signing_key verify handle_of header car key).
Proof.
  intros HC WC. unfold import_repo. apply go_bind; [apply go_pure, pure_lift|]. intros []. destruct (read_car car) as [[[|hc roots] bl]|] eqn:RC; [apply go_throw| |apply go_throw].
  destruct (WC _ _ _ RC) as (LK & v & n & t & CV & IL & W & SO & LE & TN). pose proof (links_closed car _ bl HC RC LK) as CL. pose proof (CL n t W TN) as TS.
  intros st HV. unfold bindM at 1. pose proof (calm_blocks (s_blocks st) hc bl ([], None) st HV eq_refl) as (EB & HV1 & T).
  destruct (import_blocks be resolve signing_key verify hc bl ([], None) st) as [st1 [bh|e]]; cbn [fst snd] in *; [|exact HV1]. clear HV EB st.
  destruct T as (AD & IN & HD). destruct (snd bh) as [[[h did] doc]|] eqn:EH; [|exact HV1].
  destruct (HD ltac:(discriminate) h did doc eq_refl) as [HI HB]. cbn [fst] in IN.
  unfold bindM at 1. destruct (nonempty did); [|exact HV1]. cbn [ret].
  set (own := fun b : block => Block (b_cid b) (b_val b) (b_seq b) (b_ops b) (Some did)). set (bs := map own (fst bh)). set (st2 := fst (write_blocks bs st1)).
  assert (RD : forall c, read st2 c = match read st1 c with Some b => Some b | None => dget c (map (fun b => (b_cid b, b)) bs) end) by (intros c; apply read_write_blocks).
  assert (FROM : forall c b, dget c (map (fun b => (b_cid b, b)) bs) = Some b -> b_cid b = c /\ b_seq b = 0%Z /\ bwf b /\ exists data, In (c, data) bl /\ decode data = Some (b_val b)).
  { intros c b D. apply In_dget1 in D. apply in_map_iff in D as (x & [= <- <-] & D). apply in_map_iff in D as (y & <- & D). apply IN in D as [[]|(c & data & w & I & DE & ->)].
    split; [reflexivity|]. split; [reflexivity|]. split; [exact (HC _ _ _ _ _ RC I DE)|]. exists data. auto. }
  assert (G : grows st1 st2) by (intros c b R; rewrite RD, R; reflexivity).
  assert (W2 : forall c b, read st2 c = Some b -> b_cid b = c /\ bwf b).
  { intros c b. rewrite RD. destruct (read st1 c) as [y|] eqn:R; [intros [= <-]; apply (v_wf _ HV1); exact R|]. intros D. destruct (FROM c b D) as (X & _ & Y & _). auto. }
  assert (HAS : forall c w, car_reader bl c = Some w -> exists b, read st2 c = Some b /\ b_val b = w).
  { intros c w. unfold car_reader. destruct (dget c bl) as [data|] eqn:D; [|discriminate]. intros DE. apply dget_In in D.
    assert (EC : c = cid_of digest w) by exact (HC _ _ _ _ _ RC D DE).
    assert (EX : exists b, read st2 c = Some b).
    { rewrite RD. destruct (read st1 c) as [y|]; [eauto|]. destruct (dget c (map (fun b => (b_cid b, b)) bs)) as [y|] eqn:N0; [eauto|]. exfalso. apply dget_None in N0. apply N0.
      unfold keys. rewrite map_map. apply in_map_iff. exists (own (Block c w 0 None None)). split; [reflexivity|]. apply in_map. apply IN. right. exists c, data, w. auto. }
    destruct EX as [b R]. exists b. split; [exact R|]. destruct (W2 _ _ R) as [X Y]. apply (cid_of_inj digest); [exact inj|]. rewrite <- EC. unfold IsolateProofs.wf in Y. congruence. }
  assert (SUB : forall c w, car_reader bl c = Some w -> rd st2 c = Some w).
  { intros c w X. destruct (HAS c w X) as (b & R & <-). unfold rd. rewrite dget_vals. unfold read in R. rewrite R. reflexivity. }
  assert (CL2 : closed digest kdigest (rd st2)).
  { intros m u WU NU. destruct (rd st1 (tcid u)) as [x|] eqn:X.
    - eapply stored_mono with (rd := rd st1); [intros c w; unfold rd; apply vals_sub; exact G|]. apply (v_closed _ HV1 m u WU). rewrite X. discriminate.
    - eapply stored_mono; [exact SUB|]. apply (CL m u WU). unfold rd in X, NU. rewrite dget_vals in X, NU.
      change (dget (tcid u) (s_blocks st1)) with (read st1 (tcid u)) in X. change (dget (tcid u) (s_blocks st2)) with (read st2 (tcid u)) in NU. rewrite RD in NU. destruct (read st1 (tcid u)) as [y|]; [discriminate X|].
      destruct (dget (tcid u) (map (fun b => (b_cid b, b)) bs)) as [y|] eqn:D; [|contradiction NU; reflexivity]. destruct (FROM _ _ D) as (_ & _ & _ & data & I & DE).
      unfold car_reader. destruct (dget (tcid u) bl) as [data'|] eqn:D'; [|apply dget_None in D'; exfalso; apply D'; apply in_map_iff; exists (tcid u, data); auto].
      apply dget_In in D'. exact (AD _ _ D'). }
  assert (HV2 : V st2).
  { apply (V_grow st1); auto. intros c b N0 R. destruct (W2 _ _ R) as [X Y]. split; [exact X|]. split; [exact Y|]. left. rewrite RD, N0 in R. apply (FROM c b R). }
  unfold bindM at 1. change (write_blocks bs st1) with (st2, @Ok unit tt). cbn iota beta.
  destruct (HAS _ _ CV) as (hb & HR & HVL).
  assert (VH : b_val h = v).
  { apply IN in HI as [[]|(c & data & w & I & DE & ->)]. cbn [b_cid b_val] in *. subst c. unfold car_reader in CV. destruct (dget hc bl) as [data'|] eqn:D'; [|discriminate]. apply dget_In in D'.
    apply (cid_of_inj digest); [exact inj|]. rewrite <- (HC _ _ _ _ _ RC I DE), <- (HC _ _ _ _ _ RC D' CV). reflexivity. }
  rewrite VH, IL. unfold bindM at 1, lift. cbn iota beta.
  assert (WH : whole (s_blocks st2) (tcid t)).
  { exists n, t. splits; auto. eapply stored_mono; [|exact TS]. intros c w X. exact (SUB c w X). }
  assert (OO : okobj (s_blocks st2) (Repo (mst_load (tcid t)) (Some (Block (b_cid h) v (b_seq h) (b_ops h) (Some did))) (handle_of doc) (Some (s "deactivated")) false key)).
  { split; [apply healthy_load; exact WH|]. cbn [r_head]. intros x [= <-]. split.
    - cbn [b_val]. unfold item_link, item in IL. destruct v as [| | | | | |m|]; try discriminate IL. destruct (dget (s "data") m) as [[| | | | | | |l]|] eqn:DD; try discriminate IL.
      exists m, l. split; [reflexivity|]. split; [exact DD|]. assert (l = tcid t) as -> by (injection IL; auto). exact WH.
    - exists hb. cbn [b_cid b_val]. rewrite HB. split; [exact HR|exact HVL]. }
  refine (proj1 (proj2 (calm_bind _ _ _ _ (fun _ => True) (calm_new _ _ OO) _ st2 HV2 eq_refl))). intros r _. apply calm_create_repo.
Qed.
End Import.

(** ** Servers *)
Notation astep := (astep digest kdigest validate ecdsa now cb be).
Notation arun := (arun digest kdigest validate ecdsa now cb be).
Lemma astep_V w a : VW w -> act_ok digest a -> whole_import digest kdigest a -> VW (fst (astep w a)).
Proof.
  intros HW OK WI. destruct a as [op|nl cfg q|cfg resolve sk vf ho header car key]; cbn [AnySpec.astep].
  - pose proof (sstep_V w op HW) as X. destruct (sstep digest kdigest validate ecdsa now cb be w op) as [w' out]. exact X.
  - pose proof (go_serve nl cfg q _ HW) as X. destruct (serve digest kdigest validate ecdsa cb be nl cfg q (w_state w)) as [st out]. exact X.
  - destruct OK as [HC _]. pose proof (go_import cfg resolve sk vf ho header car key HC WI _ HW) as X. destruct (import_repo be cfg resolve sk vf ho header car key (w_state w)) as [st out]. exact X.
Qed.
Lemma arun_V l : forall w, VW w -> Forall (act_ok digest) l -> Forall (whole_import digest kdigest) l -> VW (arun w l).
Proof.
  induction l as [|a l IH]; intros w HW F1 F2; [exact HW|]. inversion F1; inversion F2; subst. change (arun w (a :: l)) with (arun (fst (astep w a)) l). apply IH; auto. apply astep_V; auto.
Qed.
Lemma init_V : VW init_world.
Proof.
  split; cbn.
  - intros c b H. discriminate H.
  - intros n t W H. exfalso. apply H. reflexivity.
  - intros [|r] o H; discriminate H.
  - intros d e [].
  - intros c b H. discriminate H.
  - intros c b H. discriminate H.
Qed.
End Whole.
