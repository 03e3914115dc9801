(** Listing repos and records. *)
From Coq Require Import String List NArith ZArith Bool Lia Sorted Permutation.
From Coq Require Import ZifyBool ZifyNat ZifyN.
From Verif Require Import Base Lists Ipld IpldProofs MstModel MstTree MstTreeProofs MstRep MstTrav
  MstClient MstSpec MstHist MstFacts TidModel TidProofs BlockModel BlockSpec BlockProofs
  CarModel StorageModel StorageSpec CommitProofs StoreProofs ExecProofs RepoSpec RepoProofs RepoHist RepoSteps RepoFacts
  UriModel EventsModel ServerModel ServerSpec ServerProofs ServerFacts.
Import ListNotations.

(** ** Sorted lists *)

Definition after {A} (c : option str) (l : list (str * A)) : list (str * A) :=
  match c with Some ((_ :: _) as a) => filter (fun x => str_ltb a (fst x)) l | _ => l end.

Lemma sorted_split {A} (a : list (str * A)) x b : ssorted (keys (a ++ x :: b)) ->
  filter (fun y => str_ltb (fst x) (fst y)) (a ++ x :: b) = b.
Proof.
  intros SO. unfold keys in SO. rewrite map_app in SO. cbn [map] in SO. rewrite filter_app. cbn [filter].
  assert (X : str_ltb (fst x) (fst x) = false).
  { destruct (str_ltb (fst x) (fst x)) eqn:E; auto. apply str_ltb_lt in E. exfalso. exact (slt_irrefl _ E). }
  rewrite X. clear X. induction a as [|y a IH]; cbn [map filter app] in *.
  - inversion SO as [|? ? S F]; subst. rewrite Forall_forall in F. clear SO S.
    induction b as [|z b IHb]; [reflexivity|]. cbn [filter map] in *.
    rewrite (proj2 (str_ltb_lt (fst x) (fst z))) by (apply F; left; auto). f_equal. apply IHb. intros k H. apply F. right. auto.
  - inversion SO as [|? ? S F]; subst. rewrite Forall_forall in F.
    destruct (str_ltb (fst x) (fst y)) eqn:E; [|auto]. exfalso. apply str_ltb_lt in E. apply (slt_asym _ _ E). apply F. apply in_or_app. right. left. auto.
Qed.

Lemma sorted_after {A} (c : option str) (l : list (str * A)) : ssorted (keys l) -> exists p, l = p ++ after c l.
Proof.
  intros SO. destruct c as [[|c0 c]|]; [exists []; auto| |exists []; auto]. cbn [after]. set (a := c0 :: c). clearbody a.
  induction l as [|x l IH]; [exists []; auto|]. inversion SO as [|? ? S F]; subst. cbn [filter]. destruct (str_ltb a (fst x)) eqn:E.
  - exists []. cbn. f_equal. clear - F E. apply str_ltb_lt in E. rewrite Forall_forall in F.
    induction l as [|y l IH]; [reflexivity|]. cbn [filter map] in *. rewrite (proj2 (str_ltb_lt a (fst y))).
    + f_equal. apply IH. intros k H. apply F. right. auto.
    + eapply slt_trans; [exact E|]. apply F. left. auto.
  - destruct (IH S) as (p & H). exists (x :: p). cbn. f_equal. exact H.
Qed.

Lemma sorted_drop {A} a (l : list (str * A)) : ssorted (keys l) ->
  drop_while (fun d => negb (str_ltb a (fst d))) l = filter (fun d => str_ltb a (fst d)) l.
Proof.
  intros SO. induction l as [|x l IH]; [reflexivity|]. inversion SO as [|? ? S F]; subst. cbn [drop_while filter].
  destruct (str_ltb a (fst x)) eqn:E; cbn [negb]; [|auto]. f_equal. symmetry. clear - F E. apply str_ltb_lt in E. rewrite Forall_forall in F.
  induction l as [|y l IH]; [reflexivity|]. cbn [filter map] in *. rewrite (proj2 (str_ltb_lt a (fst y))).
  - f_equal. apply IH. intros k H. apply F. right. auto.
  - eapply slt_trans; [exact E|]. apply F. left. auto.
Qed.

Lemma did_insert_perm {A} (x : str * A) l : Permutation (did_insert x l) (x :: l).
Proof.
  induction l as [|y l IH]; cbn [did_insert]; auto. destruct (str_cmp (fst x) (fst y)); auto; rewrite IH; apply perm_swap.
Qed.

Lemma did_insert_sorted {A} (x : str * A) l : ssorted (keys l) -> ~ In (fst x) (keys l) -> ssorted (keys (did_insert x l)).
Proof.
  unfold keys. induction l as [|y l IH]; cbn [did_insert map]; intros SO NI.
  - constructor; constructor.
  - inversion SO as [|? ? S F]; subst. destruct (str_cmp (fst x) (fst y)) eqn:E.
    + apply str_cmp_eq in E. exfalso. apply NI. left. auto.
    + cbn [map]. constructor; auto. constructor; [exact E|]. rewrite Forall_forall in *. intros k H. eapply slt_trans; [exact E|]. auto.
    + cbn [map]. constructor.
      * apply IH; auto. intro H. apply NI. right. auto.
      * rewrite Forall_forall in *. intros k H. apply (Permutation_in _ (Permutation_map fst (did_insert_perm x l))) in H. destruct H as [<-|H]; auto.
        destruct (slt_total (fst x) (fst y)) as [T|[T|T]]; auto.
        -- unfold slt in T. congruence.
        -- apply str_cmp_eq in T. congruence.
Qed.

Lemma did_sort_spec {A} (l : list (str * A)) : NoDup (keys l) -> Permutation (did_sort l) l /\ ssorted (keys (did_sort l)).
Proof.
  unfold did_sort. intros ND.
  assert (G : forall (l acc : list (str * A)), NoDup (keys (l ++ acc)) -> ssorted (keys acc) ->
    let r := fold_left (fun acc x => did_insert x acc) l acc in Permutation r (l ++ acc) /\ ssorted (keys r)).
  { clear. induction l as [|x l IH]; intros acc ND SO; cbn [fold_left app]; [auto|].
    assert (P : Permutation (l ++ did_insert x acc) (x :: l ++ acc)).
    { rewrite did_insert_perm. symmetry. apply Permutation_middle. }
    destruct (IH (did_insert x acc)) as [P1 S1].
    - eapply Permutation_NoDup; [|exact ND]. unfold keys. apply Permutation_map. symmetry. exact P.
    - apply did_insert_sorted; auto. unfold keys in *. cbn [app map] in ND. inversion ND; subst. rewrite map_app in *.
      intro H. apply H1. apply in_or_app. auto.
    - split; auto. rewrite P1. exact P. }
  specialize (G l []). rewrite app_nil_r in G. apply G; auto. constructor.
Qed.

Lemma firstn_last {A} n (l : list A) : length (firstn n l) = n -> (0 < n)%nat -> exists a x b, firstn n l = a ++ [x] /\ l = a ++ x :: b.
Proof.
  intros L P. destruct (firstn n l) as [|y r] eqn:E using rev_ind; [cbn in L; lia|].
  exists r, y, (skipn n l). split; auto. rewrite <- (firstn_skipn n l) at 1. rewrite E. rewrite <- app_assoc. reflexivity.
Qed.

Section Server.
Variable digest : list N -> list N.
Variable kdigest : str -> list N.
Variable validate : ipld -> res unit.
Variable ecdsa : N -> Z -> list N -> list N.
Variable now : Z -> str.
Variable cb : nat -> option exn.
Variable be : backend.
Variable netloc_ok : str -> bool.
Variable cfg : config.
Notation inv := (inv digest kdigest validate ecdsa be).
Notation stored_repo := (stored_repo be).
Notation registered := (registered be).
Notation serves := (serves digest kdigest validate ecdsa now cb be netloc_ok cfg).
Hypothesis SET : setting digest kdigest validate cb.

(** ** Repos *)

Definition row (d : str * repo) : res minimal :=
  match r_head (snd d) with Some h => Ok (fst d, h, r_status (snd d)) | None => Err AttributeError end.

Lemma row_known st refs bk d o : inv st refs bk -> stored_repo st d = Some o -> registered st d ->
  exists key recs, dget d bk = Some (key, recs) /\ good digest kdigest validate ecdsa (s_blocks st) d key recs o.
Proof.
  intros I HS R. destruct (dget d bk) as [[key recs]|] eqn:B; [|exfalso; exact (i_none _ _ _ _ _ _ _ _ I _ B R)].
  destruct (i_book _ _ _ _ _ _ _ _ I _ _ _ B) as (_ & _ & o' & HS' & G & _). rewrite HS in HS'. injection HS' as <-. eauto.
Qed.

Lemma load_rows st refs bk : inv st refs bk -> exists rows : list (str * repo), ssorted (keys rows) /\
  (forall d o, In (d, o) rows <-> registered st d /\ stored_repo st d = Some o) /\
  forall limit c, load_repos be limit c st = (st, mapM row (firstn limit (after c rows))).
Proof.
  intros I. pose proof (row_known st refs bk) as RK. destruct be eqn:BE.
  - pose proof (i_mem _ _ _ _ _ _ _ _ I) as ND.
    assert (X : forall l, incl l (s_mem st) -> exists ds, mem_dids l st = (st, Ok ds) /\ map fst ds = map fst l /\
      forall d o, In (d, o) ds <-> exists r, In (d, r) l /\ nth_error (s_objs st) r = Some o).
    { induction l as [|[d r] l IH]; intros IN; cbn [mem_dids].
      - exists []. splits; auto. intros d o. split; [intros []|]. intros (r & [] & _).
      - assert (ID : dget d (s_mem st) = Some r) by (apply In_dget; auto; apply IN; left; auto).
        assert (RG : RepoProofs.registered Memory st d) by (unfold RepoProofs.registered; congruence).
        destruct (dget d bk) as [[key recs]|] eqn:B; [|exfalso; exact (i_none _ _ _ _ _ _ _ _ I _ B RG)].
        destruct (i_book _ _ _ _ _ _ _ _ I _ _ _ B) as (_ & _ & o & HS & G & _). unfold RepoProofs.stored_repo in HS. rewrite ID in HS.
        destruct (IH ltac:(intros z Hz; apply IN; right; auto)) as (ds & E & KE & IFF).
        exists ((d, o) :: ds). rewrite (bindM_ok _ _ _ _ _ (obj_some _ _ _ HS)).
        assert (DO : need_did o st = (st, Ok d)) by (unfold need_did, lift, bindM; rewrite (good_repo_did _ _ _ _ _ _ _ _ _ G); reflexivity).
        rewrite (bindM_ok _ _ _ _ _ DO), (bindM_ok _ _ _ _ _ E). splits; [reflexivity|cbn; f_equal; auto|].
        intros d' o'. cbn [In]. rewrite IFF. split.
        + intros [[= <- <-]|(r' & A & C)]; eauto.
        + intros (r' & [[= <- <-]|A] & C); [left; congruence|right; eauto]. }
    destruct (X (s_mem st) (incl_refl _)) as (ds & E & KE & IFF).
    assert (NDS : NoDup (keys ds)) by (unfold keys; rewrite KE; exact ND).
    destruct (did_sort_spec ds NDS) as [P SO]. exists (did_sort ds). splits; auto.
    + intros d o. rewrite <- (IFF d o) || idtac. split.
      * intros H. apply (Permutation_in _ P) in H. apply IFF in H as (r & H & N0). apply In_dget in H; auto.
        unfold RepoProofs.registered, RepoProofs.stored_repo. rewrite H. split; congruence.
      * unfold RepoProofs.registered, RepoProofs.stored_repo. intros [_ H]. destruct (dget d (s_mem st)) as [r|] eqn:D; [|discriminate].
        apply (Permutation_in _ (Permutation_sym P)). apply IFF. exists r. split; auto. apply dget_In. auto.
    + intros limit c. unfold load_repos. rewrite bind_reads, (bindM_ok _ _ _ _ _ E). unfold lift, row, after.
      destruct c as [[|c0 c]|]; try reflexivity. rewrite sorted_drop by auto. reflexivity.
  - pose proof (i_ents _ _ _ _ _ _ _ _ I) as SO.
    assert (HE : forall d e, In (d, e) (s_ents st) -> exists o h, stored_repo st d = Some o /\ r_head o = Some h /\ dget (e_head e) (s_blocks st) = Some h /\
      item_text (s "did") (b_val h) = Ok d /\ r_status o = e_status e).
    { intros d e H. apply In_dget in H; [|apply ssorted_NoDup; auto].
      assert (RG : RepoProofs.registered Datastore st d) by (unfold RepoProofs.registered; congruence).
      destruct (dget d bk) as [[key recs]|] eqn:B; [|exfalso; exact (i_none _ _ _ _ _ _ _ _ I _ B RG)].
      destruct (i_book _ _ _ _ _ _ _ _ I _ _ _ B) as (_ & _ & o & HS & G & _). destruct (good_head _ _ _ _ _ _ _ _ _ G) as (h & HH & HD).
      rewrite BE. pose proof HS as HS'. unfold RepoProofs.stored_repo in HS'. rewrite H in HS'.
      destruct (dget (e_head e) (s_blocks st)) as [b|]; [|discriminate]. destruct (item_link (s "data") (b_val b)); [|discriminate].
      injection HS' as HS'. exists o, h. subst o. cbn in HH. injection HH as ->. splits; auto. }
    rewrite BE in HE.
    set (R := fun (de : str * entity) (d : str * repo) => fst de = fst d /\ stored_repo st (fst d) = Some (snd d) /\ In de (s_ents st)).
    assert (X : forall l, incl l (s_ents st) -> exists rows, Forall2 R l rows).
    { induction l as [|[d e] l IH]; intros IN; [exists []; constructor|].
      destruct (IH ltac:(intros z Hz; apply IN; right; auto)) as (rows & F).
      destruct (HE d e (IN _ (or_introl eq_refl))) as (o & h & HS & _). exists ((d, o) :: rows). constructor; auto. unfold R. rewrite BE. splits; auto. apply IN. left. auto. }
    destruct (X (s_ents st) (incl_refl _)) as (rows & F). exists rows.
    assert (KE : keys rows = keys (s_ents st)).
    { unfold keys. clear - F. induction F as [|x y l l' H F IH]; cbn [map]; auto. destruct H as [-> _]. f_equal. auto. }
    assert (FI : forall f l l', Forall2 R l l' -> Forall2 R (filter (fun x => f (fst x)) l) (filter (fun x => f (fst x)) l')).
    { clear. induction 1 as [|x y l l' H F IH]; cbn [filter]; auto. rewrite (proj1 H). destruct (f (fst y)); auto. }
    assert (FF : forall n l l', Forall2 R l l' -> Forall2 R (firstn n l) (firstn n l')).
    { clear. induction n as [|n IH]; intros l l' H; [constructor|]. destruct H; cbn [firstn]; constructor; auto. }
    assert (MR : forall l l', Forall2 R l l' -> minimal_repos st l = mapM row l').
    { induction 1 as [|[d e] [d' o] l l' (A & B & C) F' IH]; [reflexivity|]. cbn [fst snd] in A, B. subst d'. cbn [minimal_repos mapM].
      destruct (HE d e C) as (o' & h & HS & HH & RB & HD & RS). rewrite BE in B. rewrite HS in B. injection B as <-.
      unfold read. rewrite RB, HD. unfold row at 1. cbn [fst snd]. rewrite HH, RS. cbn [bind]. rewrite IH. reflexivity. }
    splits.
    + rewrite KE. exact SO.
    + intros d o. rewrite <- BE. split.
      * intros H. assert (G : In d (keys rows)) by (apply in_map_iff; exists (d, o); auto).
        rewrite KE in G. destruct (dget d (s_ents st)) as [e|] eqn:D; [|apply dget_None in D; contradiction].
        split; [unfold RepoProofs.registered; rewrite BE; congruence|].
        clear - F H. induction F as [|x y l l' HR F IH]; [contradiction|]. destruct H as [->|H]; auto. apply HR.
      * intros [RG HS]. unfold RepoProofs.registered in RG. rewrite BE in RG. destruct (dget d (s_ents st)) as [e|] eqn:D; [|congruence].
        assert (G : In d (keys rows)) by (rewrite KE; apply in_map_iff; exists (d, e); split; auto; apply dget_In; auto).
        apply in_map_iff in G as ([d' o'] & A & B). cbn in A. subst d'.
        assert (HS' : stored_repo st d = Some o').
        { clear - F B. induction F as [|x y l l' HR F IH]; [contradiction|]. destruct B as [->|H]; auto. apply HR. }
        congruence.
    + intros limit c. unfold load_repos. f_equal. apply MR. apply FF. destruct c as [[|c0 c]|]; cbn [after]; auto.
Qed.

Lemma item_rev b did key prev root : commit_of ecdsa b did key prev root ->
  exists rev, int_to_tid (b_seq b) 0 = Ok rev /\ item_text (s "rev") (b_val b) = Ok rev.
Proof. clear. intros (rev & A & _ & ->). exists rev. split; auto. Qed.

Lemma row_item st refs bk d o : inv st refs bk -> statuses be st bk -> registered st d -> stored_repo st d = Some o ->
  exists m x, row (d, o) = Ok m /\ list_item m = Ok x /\ l_did x = d /\ lists be st x.
Proof.
  intros I ST RG HS. destruct (row_known _ _ _ _ _ I HS RG) as (key & recs & B & G).
  destruct (seen_stored digest kdigest validate ecdsa cb be SET _ _ _ _ _ _ I B) as (o' & SN & HS' & _ & _).
  rewrite HS in HS'. injection HS' as <-. pose proof G as (h & root & HH & CH & SNP).
  destruct (chain_commit _ _ _ _ _ _ _ _ _ _ CH) as (prev & CO). destruct (item_rev _ _ _ _ _ CO) as (rev & TI & RE).
  unfold row. cbn [fst snd]. rewrite HH. eexists _, _. split; [reflexivity|]. unfold list_item. rewrite TI. cbn [bind].
  split; [reflexivity|]. split; [reflexivity|]. exists o, h. cbn [l_did l_head l_rev l_active l_status]. splits; auto.
  - eapply good_repo_did; eauto.
  - destruct (ST d o ltac:(congruence) HS) as [R|[R|R]]; rewrite R; [left; auto|right|right]; (split; [discriminate|auto]).
Qed.

Lemma rows_items st refs bk rows : inv st refs bk -> statuses be st bk ->
  (forall d o, In (d, o) rows -> registered st d /\ stored_repo st d = Some o) ->
  exists ms l, mapM row rows = Ok ms /\ mapM list_item ms = Ok l /\ map l_did l = keys rows /\ Forall (lists be st) l.
Proof.
  intros I ST. induction rows as [|[d o] rows IH]; intros IN.
  - exists [], []. auto.
  - destruct IH as (ms & l & E1 & E2 & KE & F). { intros. apply IN. right. auto. }
    destruct (IN d o (or_introl eq_refl)) as [RG HS]. destruct (row_item _ _ _ _ _ I ST RG HS) as (m & x & R & L & D & LS).
    exists (m :: ms), (x :: l). cbn [mapM]. rewrite R, E1. cbn [bind mapM]. rewrite L, E2. cbn. splits; auto. f_equal; auto.
Qed.

Lemma c37_pages w bk limit : serves w bk -> (0 < limit)%nat ->
  exists l, repo_pages be limit None (w_state w) l /\ ssorted (map l_did l) /\
    (forall did, In did (map l_did l) <-> dget did bk <> None) /\ Forall (lists be (w_state w)) l.
Proof.
  intros S L. destruct (serves_inv digest kdigest validate ecdsa now cb be netloc_ok cfg SET _ _ S) as [I ST].
  set (st := w_state w) in *. destruct (load_rows st (w_refs w) bk I) as (rows & SO & IFF & LR).
  assert (K : forall n q p c, (length q <= n)%nat -> rows = p ++ q -> after c rows = q ->
    exists l, repo_pages be limit c st l /\ map l_did l = keys q /\ Forall (lists be st) l).
  { induction n as [|n IH]; intros q p c LE EQ AF.
    - destruct q; [|cbn in LE; lia]. exists []. split; [|cbn; auto]. eapply rp_last. unfold list_repos.
      assert (LO : load_repos be limit c st = (st, Ok [])) by (rewrite LR, AF, firstn_nil; reflexivity).
      rewrite (bindM_ok _ _ _ _ _ LO). cbn. destruct limit; [lia|]. reflexivity.
    - destruct (rows_items st (w_refs w) bk (firstn limit q) I ST) as (ms & l & E1 & E2 & KE & F).
      { intros d o H. apply IFF. rewrite EQ. apply in_or_app. right. rewrite <- (firstn_skipn limit q). apply in_or_app. auto. }
      assert (LO : load_repos be limit c st = (st, Ok ms)) by (rewrite LR, AF, E1; reflexivity).
      assert (LL : length l = length (firstn limit q)).
      { rewrite <- (map_length l_did l), KE. unfold keys. apply map_length. }
      assert (LI : list_repos be limit c st = if Nat.eqb (length l) limit then match rev l with x :: _ => (st, Ok (l, Some (l_did x))) | [] => (st, Err IndexError) end
        else (st, Ok (l, None))).
      { unfold list_repos. rewrite (bindM_ok _ _ _ _ _ LO), bind_lift, E2. destruct (Nat.eqb (length l) limit); [|reflexivity]. destruct (rev l); reflexivity. }
      destruct (Nat.eqb_spec (length l) limit) as [EL|NL].
      + destruct (firstn_last limit q) as (a & x & b & FN & QE); [congruence|exact L|].
        assert (LX : exists l0 y, l = l0 ++ [y] /\ l_did y = fst x).
        { rewrite FN in KE. unfold keys in KE. rewrite map_app in KE. destruct l as [|y l0 _] using rev_ind.
          - apply (f_equal (@length _)) in KE. rewrite app_length in KE. cbn in KE. lia.
          - exists l0, y. split; auto. rewrite map_app in KE. apply app_inj_tail in KE. apply KE. }
        destruct LX as (l0 & y & -> & DY). rewrite rev_app_distr in LI. cbn [rev app] in LI.
        assert (NE : exists k0 k, fst x = k0 :: k).
        { assert (H : In x rows) by (rewrite EQ, QE; apply in_or_app; right; apply in_or_app; right; left; auto).
          destruct x as [d o]. apply IFF in H as [RG HS]. destruct (row_known _ _ _ _ _ I HS RG) as (key & recs & B & _).
          destruct (i_book _ _ _ _ _ _ _ _ I _ _ _ B) as (ID & _). destruct d; [discriminate ID|]. cbn. eauto. }
        assert (AF' : after (Some (l_did y)) rows = b).
        { rewrite DY. destruct NE as (k0 & k & NE). rewrite NE. cbn [after]. rewrite <- NE. rewrite EQ, QE, app_assoc. apply sorted_split.
          rewrite <- app_assoc, <- QE, <- EQ. exact SO. }
        assert (LB : (length b <= n)%nat) by (rewrite QE, app_length in LE; cbn in LE; lia).
        destruct (IH b (p ++ a ++ [x]) (Some (l_did y)) LB) as (l' & RP & KE' & F').
        { rewrite EQ, QE, <- !app_assoc. reflexivity. } { exact AF'. }
        exists ((l0 ++ [y]) ++ l'). split; [|split].
        * eapply rp_more; [exact LI|exact RP].
        * rewrite map_app, KE, KE', FN, QE. unfold keys. rewrite <- map_app, <- app_assoc. reflexivity.
        * apply Forall_app. auto.
      + exists l. split; [|split; auto].
        * eapply rp_last. exact LI.
        * rewrite KE. f_equal. apply firstn_all2. destruct (Nat.le_gt_cases (length q) limit); auto.
          exfalso. apply NL. rewrite LL, firstn_length. lia. }
  destruct (K (length rows) rows [] None) as (l & RP & KE & F); auto.
  exists l. splits; auto.
  - rewrite KE. exact SO.
  - intros did. rewrite KE. split.
    + intros H. apply in_map_iff in H as ([d o] & A & H). cbn in A. subst d. apply IFF in H as [RG HS].
      destruct (row_known _ _ _ _ _ I HS RG) as (key & recs & B & _). congruence.
    + intros H. destruct (dget did bk) as [[key recs]|] eqn:B; [|congruence]. destruct (i_book _ _ _ _ _ _ _ _ I _ _ _ B) as (_ & RG & o & HS & _).
      apply in_map_iff. exists (did, o). split; auto. apply IFF. auto.
Qed.

(** The pages are a function of the state. *)
Lemma repo_pages_fun limit c st l l' : repo_pages be limit c st l -> repo_pages be limit c st l' -> l = l'.
Proof.
  clear. intros H. revert l'. induction H as [c st st' l E|c st st' l c' l1 E H IH]; intros l' H'; inversion H' as [? ? ? ? E'|? ? ? ? ? ? E' R']; subst.
  - congruence.
  - rewrite E in E'. discriminate.
  - rewrite E in E'. discriminate.
  - rewrite E in E'. injection E' as <- <- <-. f_equal. auto.
Qed.

End Server.
