(** Listing records. *)
From Coq Require Import String List NArith ZArith Bool Lia Sorted.
From Coq Require Import ZifyBool ZifyNat ZifyN.
From Verif Require Import Base Lists Ipld IpldProofs MstModel MstTree MstTreeProofs MstRep MstTrav
  MstClient MstSpec MstHist MstFacts TidModel TidProofs BlockModel BlockSpec BlockProofs
  CarModel CarProofs StorageModel StorageSpec CommitProofs StoreProofs ExecProofs RepoSpec RepoProofs RepoHist RepoSteps RepoFacts
  UriModel EventsModel EventsFacts MessageSpec ServerModel ServerSpec ServerProofs ServerFacts ServerSync.
Import ListNotations.

Lemma take_while_filter p start ls : ssorted (keys ls) -> str_leb p start = true ->
  take_while (fun kv : str * cid => starts_with p (fst kv)) (filter (fun kv => str_leb start (fst kv)) ls)
  = filter (fun kv => str_leb start (fst kv)) (filter (fun kv => starts_with p (fst kv)) ls).
Proof.
  intros S L. induction ls as [|[k v] ls IH]; auto. cbn in S. inversion S as [|? ? S1 F1]; subst. specialize (IH S1).
  cbn [filter fst]. destruct (str_leb start k) eqn:EL.
  - cbn [take_while fst]. destruct (starts_with p k) eqn:ES.
    + cbn [filter fst]. rewrite EL. f_equal. exact IH.
    + symmetry. rewrite (filter_none (fun kv => starts_with p (fst kv)) ls); [reflexivity|].
      rewrite Forall_forall in *. intros [k2 v2] H2. cbn [fst].
      destruct (starts_with p k2) eqn:E2; auto. exfalso.
      assert (X : starts_with p k = true); [|congruence]. apply (starts_with_convex (fun x => x) (fun x => x) (fun _ => None) p k k2); auto.
      * apply F1. apply in_map_iff. exists (k2, v2). auto.
      * apply str_leb_le in L, EL. apply str_leb_le. destruct L as [L|<-]; auto. destruct EL as [EL|<-]; auto. left. eapply slt_trans; eauto.
  - destruct (starts_with p k); [cbn [filter fst]; rewrite EL|]; exact IH.
Qed.

Lemma sorted_from (p q : list (str * cid)) k v : ssorted (keys (p ++ (k, v) :: q)) ->
  filter (fun kv => str_leb k (fst kv)) (p ++ (k, v) :: q) = (k, v) :: q.
Proof.
  intros S. unfold ssorted in S. rewrite keys_app in S. apply StronglySorted_app in S as (_ & S2 & FO).
  rewrite filter_app, filter_none, filter_all; auto.
  - cbn in S2. inversion S2 as [|? ? _ F2]; subst. constructor; [cbn; apply str_leb_le; auto|].
    rewrite Forall_forall in *. intros [k2 v2] H2. cbn [fst]. apply str_leb_le. left. apply F2. apply in_map_iff. exists (k2, v2). auto.
  - rewrite Forall_forall in *. intros [k2 v2] H2. cbn [fst]. assert (X : slt k2 k).
    { assert (H3 : In k2 (keys p)) by (apply in_map_iff; exists (k2, v2); auto). specialize (FO _ H3). cbn in FO. inversion FO; auto. }
    rewrite str_leb_ltb. apply str_ltb_lt in X. rewrite X. reflexivity.
Qed.

Lemma overlapping_head {A} (ps : list (list A)) x l : overlapping ps (x :: l) -> exists q ps', ps = (x :: q) :: ps'.
Proof.
  intros H. inversion H as [p|p y q ps' l' H' E1 E2]; subst; eauto. destruct p as [|z p]; cbn in E2; injection E2 as -> _; cbn; eauto.
Qed.

Section Server.
Variable digest : list N -> list N.
Variable kdigest : str -> list N.
Variable validate : ipld -> res unit.
Variable ecdsa : N -> Z -> list N -> list N.
Variable now : Z -> str.
Variable cb : nat -> option exn.
Variable be : backend.
Variable netloc_ok : str -> bool.
Variable cfg : config.
Notation rcid := (rcid digest).
Notation inv := (inv digest kdigest validate ecdsa be).
Notation good := (good digest kdigest validate ecdsa).
Notation statuses := (statuses be).
Notation names := (names be netloc_ok).
Notation serves := (serves digest kdigest validate ecdsa now cb be netloc_ok cfg).
Notation found := (found digest kdigest validate ecdsa now be netloc_ok).
Notation list_records := (list_records digest kdigest be netloc_ok cfg).
Notation record_pages := (record_pages digest kdigest be netloc_ok cfg).
Hypothesis SET : setting digest kdigest validate cb.

(** The entries of a collection. *)
Definition entry_of (coll : str) (kv : str * ipld) : str * cid := (record_path coll (fst kv), rcid (snd kv)).
Definition item_of (did coll : str) (kv : str * ipld) : record_item := (uri_of did coll (fst kv), rcid (snd kv), norm (snd kv)).
Definition suffix_at (coll : str) (l q : list (str * ipld)) (c : option str) : Prop :=
  c = None /\ q = l \/ exists p k v q', c = Some (record_path coll k) /\ q = (k, v) :: q' /\ l = p ++ q.

Lemma path_slt coll a b : slt (record_path coll a) (record_path coll b) <-> slt a b.
Proof. clear. unfold record_path. rewrite slt_app_prefix. apply (slt_app_prefix [47%N]). Qed.

Lemma path_starts coll k : starts_with (coll ++ [47%N]) k = true <-> exists rkey, k = record_path coll rkey.
Proof.
  clear. rewrite starts_with_app. unfold record_path. split; intros (r & ->); exists r; rewrite <- app_assoc; reflexivity.
Qed.

Lemma entries_ok st did key recs o coll : good (s_blocks st) did key recs o -> exists l, ssorted (keys l) /\
  (forall rkey v, In (rkey, v) l <-> dget (record_path coll rkey) recs = Some v) /\
  forall limit c q, suffix_at coll l q c -> list_entries kdigest st o coll limit c = Ok (firstn limit (map (entry_of coll) q)).
Proof.
  clear SET. intros (h & root & HH & CH & (n & t & R & W & SRT & LE & ST & TC & LV & ND)).
  set (E := filter (fun kv : str * cid => starts_with (coll ++ [47%N]) (fst kv)) (leaves t)).
  assert (SE : ssorted (keys E)).
  { unfold E, sorted_tree in *. clear - SRT. induction (leaves t) as [|[k v] l IH]; cbn; [constructor|]. inversion SRT as [|? ? S1 F1]; subst.
    destruct (starts_with _ k); [|apply IH; auto]. cbn. constructor; [apply IH; auto|]. rewrite Forall_forall in *. intros y HY. apply F1.
    apply in_map_iff in HY as ([y' z] & <- & HZ). apply filter_In in HZ as [HZ _]. apply in_map_iff. exists (y', z). auto. }
  assert (IE : forall k c, In (k, c) E <-> (exists rkey, k = record_path coll rkey) /\ dget k (cids_of digest recs) = Some c).
  { intros k c. unfold E. rewrite filter_In. cbn [fst]. rewrite path_starts, <- LV. split.
    - intros [H X]. split; auto. apply In_dget; auto. apply ssorted_NoDup. exact SRT.
    - intros [X H]. split; auto. apply dget_In. auto. }
  assert (X : exists l, E = map (entry_of coll) l /\ forall rkey v, In (rkey, v) l -> dget (record_path coll rkey) recs = Some v).
  { assert (Y : forall l', (forall e, In e l' -> In e E) -> exists l, l' = map (entry_of coll) l /\ forall rkey v, In (rkey, v) l -> dget (record_path coll rkey) recs = Some v).
    { induction l' as [|[k c] l' IH]; intros SUB; [exists []; split; [auto|intros ? ? []]|].
      destruct IH as (l & -> & H); [intros; apply SUB; cbn; auto|].
      destruct (proj1 (IE k c) (SUB _ (or_introl eq_refl))) as ((rkey & ->) & D). rewrite dget_cids_of in D.
      destruct (dget (record_path coll rkey) recs) as [v|] eqn:DV; [|discriminate]. injection D as <-.
      exists ((rkey, v) :: l). split; [reflexivity|]. intros k' v' [[= <- <-]|HI]; auto. }
    exact (Y E (fun _ H => H)). }
  destruct X as (l & EL & IL).
  assert (SL : ssorted (keys l)).
  { rewrite EL in SE. clear - SE. unfold ssorted in *. induction l as [|[k v] l IH]; cbn in *; [constructor|]. inversion SE as [|? ? S1 F1]; subst.
    constructor; [apply IH; exact S1|]. rewrite Forall_forall in *. intros y HY. apply (path_slt coll). apply F1.
    apply in_map_iff in HY as (z & <- & HZ). apply in_map_iff. exists (entry_of coll z). split; auto. apply in_map. auto. }
  exists l. split; [exact SL|]. split.
  { intros rkey v. split; [apply IL|]. intros D.
    assert (HE : In (record_path coll rkey, rcid v) E) by (apply IE; split; [eauto|]; rewrite dget_cids_of, D; reflexivity).
    rewrite EL in HE. apply in_map_iff in HE as ([k' v'] & EQ & HI). unfold entry_of in EQ. cbn [fst snd] in EQ.
    assert (k' = rkey). { assert (Q : record_path coll k' = record_path coll rkey) by congruence. unfold record_path in Q. apply app_inv_head in Q. congruence. }
    subst k'. pose proof (IL _ _ HI). assert (v' = v) by congruence. subst v'. exact HI. }
  intros limit c q SX. unfold list_entries.
  set (start := match c with Some ((_ :: _) as x) => x | _ => coll ++ [47%N] end).
  assert (W0 : walk_leaves_from kdigest (rd st) max_depth (r_mst o) start = Ok (filter (fun kv => str_leb start (fst kv)) (leaves t))).
  { pose proof md as MD. apply (walk_leaves_from_ok digest kdigest (rd st) n); auto. lia. }
  rewrite W0. cbn [bind]. f_equal. f_equal.
  assert (ND1 : str_leb (coll ++ [47%N]) start = true).
  { unfold start. destruct SX as [[-> ->]|(p & k & v & q' & -> & _ & _)]; [apply str_leb_le; auto|].
    unfold record_path. destruct (coll ++ 47%N :: k) as [|a b] eqn:EQ; [destruct coll; discriminate|]. rewrite <- EQ.
    apply starts_with_ge. apply path_starts. exists k. reflexivity. }
  rewrite take_while_filter; auto. fold E.
  destruct SX as [[-> ->]|(p & k & v & q' & -> & -> & EQ)].
  - rewrite <- EL. apply filter_all. rewrite Forall_forall. intros [k v] HI. cbn [fst]. unfold start. apply starts_with_ge. unfold E in HI. apply filter_In in HI as [_ HI]. exact HI.
  - rewrite EL, EQ, map_app. cbn [map entry_of fst snd].
    assert (SK : start = record_path coll k).
    { unfold start, record_path. destruct (coll ++ 47%N :: k) as [|a b] eqn:EQ2; [destruct coll; discriminate|]. reflexivity. }
    rewrite SK. apply sorted_from. rewrite EL, EQ, map_app in SE. exact SE.
Qed.

Lemma items_ok st did recs coll l : is_did did -> recs_stored digest (s_blocks st) recs ->
  (forall k, dget k recs <> None -> repo_key k) -> (forall k v, dget k recs = Some v -> record_ok validate v) ->
  (forall rkey v, In (rkey, v) l -> dget (record_path coll rkey) recs = Some v) ->
  record_items digest did st (map (entry_of coll) l) = Ok (map (item_of did coll) l).
Proof.
  intros D RS RK RO. induction l as [|[rkey v] l IH]; intros IL; [reflexivity|].
  cbn [map record_items entry_of fst snd]. pose proof (IL rkey v (or_introl eq_refl)) as DV.
  pose proof (RS _ _ DV) as RV. rewrite dget_vals in RV. unfold read. destruct (dget (rcid v) (s_blocks st)) as [b|] eqn:EB; [|discriminate].
  cbn in RV. injection RV as RV. rewrite IH by (intros; apply IL; cbn; auto). cbn [bind].
  assert (KO : repo_key (record_path coll rkey)) by (apply RK; congruence).
  destruct KO as (LEN & a & b' & EQ & SA & SB). destruct (path_inj coll rkey a b') as [-> ->]; auto using segment_no_slash.
  assert (SP : split_on 47 (record_path a b') = [a; b']).
  { unfold record_path. rewrite split_on_app, split_on_none by (apply segment_no_slash; auto). reflexivity. }
  rewrite SP. rewrite uri_ok; auto; [|split; eauto]. cbn [bind]. rewrite RV.
  destruct (record_norm digest kdigest validate cb SET _ (RO _ _ DV)) as [NN _].
  unfold item_of at 2. cbn [fst snd]. unfold dag_cbor_cid, StorageSpec.rcid. rewrite NN. reflexivity.
Qed.

(** The server between the requests of a listing. *)
Record ready (st : state) (refs : list nat) (bk : book) (x did : str) (o : repo) (key : N) (recs : records) : Prop := {
  y_inv : inv st refs bk;
  y_statuses : statuses st bk;
  y_names : names st x did o;
  y_active : r_status o = None;
  y_book : dget did bk = Some (key, recs)
}.

Lemma ready_found st refs bk x did o key recs : ready st refs bk x did o key recs ->
  exists st1 r, found st refs bk x did o st1 r key recs /\ ready st1 (refs ++ [r]) bk x did o key recs.
Proof.
  intros [I ST NM R B].
  destruct (load_cases digest kdigest validate ecdsa now cb be netloc_ok SET _ _ _ x I ST) as [(d2 & o2 & st1 & r & k2 & rc2 & F)|(e & st1 & extra & _ & _ & _ & NN)].
  2:{ exfalso. exact (NN _ _ NM R). }
  destruct (names_fun be netloc_ok _ _ _ _ _ _ NM (f_names _ _ _ _ _ _ _ _ _ _ _ _ _ _ _ _ _ F)) as [<- <-].
  pose proof (f_book _ _ _ _ _ _ _ _ _ _ _ _ _ _ _ _ _ F) as B2. rewrite B in B2. injection B2 as <- <-.
  exists st1, r. split; [exact F|]. pose proof (f_steps _ _ _ _ _ _ _ _ _ _ _ _ _ _ _ _ _ F) as SS. split; auto.
  - eapply steps_inv; eauto.
  - eapply steps_statuses; eauto.
  - destruct NM as (y & RN & SN & RD). exists y. splits; auto.
    rewrite (loaded_seen be _ _ _ _ _ y (f_stored _ _ _ _ _ _ _ _ _ _ _ _ _ _ _ _ _ F) (f_loaded _ _ _ _ _ _ _ _ _ _ _ _ _ _ _ _ _ F)). exact SN.
Qed.

(** One page. *)
Lemma page_ok st refs bk x did o key recs coll : ready st refs bk x did o key recs -> x <> [] -> coll <> [] -> supported cfg coll ->
  exists l, ssorted (keys l) /\ (forall rkey v, In (rkey, v) l <-> dget (record_path coll rkey) recs = Some v).
Proof.
  intros Y _ _ _. destruct (ready_found _ _ _ _ _ _ _ _ Y) as (st1 & r & F & _).
  destruct (entries_ok st1 did key recs o coll (f_good _ _ _ _ _ _ _ _ _ _ _ _ _ _ _ _ _ F)) as (l & A & B & _). eauto.
Qed.

Lemma listing_unique recs coll (l l' : list (str * ipld)) : ssorted (keys l) -> ssorted (keys l') ->
  (forall rkey v, In (rkey, v) l <-> dget (record_path coll rkey) recs = Some v) ->
  (forall rkey v, In (rkey, v) l' <-> dget (record_path coll rkey) recs = Some v) -> l = l'.
Proof.
  clear. intros S S' H H'. apply sorted_dget_ext; auto. intros k.
  destruct (dget k l) as [v|] eqn:E; destruct (dget k l') as [v'|] eqn:E'; auto.
  - apply dget_In in E, E'. apply H in E. apply H' in E'. congruence.
  - apply dget_In in E. apply H in E. apply H' in E. apply In_dget in E; [congruence|apply ssorted_NoDup; auto].
  - apply dget_In in E'. apply H' in E'. apply H in E'. apply In_dget in E'; [congruence|apply ssorted_NoDup; auto].
Qed.

Lemma list_page st refs bk x did o key recs coll l limit c q : ready st refs bk x did o key recs -> x <> [] -> coll <> [] -> supported cfg coll ->
  ssorted (keys l) -> (forall rkey v, In (rkey, v) l <-> dget (record_path coll rkey) recs = Some v) -> suffix_at coll l q c -> (0 < limit)%nat ->
  exists st1 r, ready st1 (refs ++ [r]) bk x did o key recs /\
    list_records (Some x) (Some coll) limit c false st = (st1, Ok (map (item_of did coll) (firstn limit q),
       if Nat.eqb (length (firstn limit q)) limit then match rev (firstn limit q) with kv :: _ => Some (record_path coll (fst kv)) | [] => None end else None)).
Proof.
  intros Y NX NC SU SL IL SX LP. destruct (ready_found _ _ _ _ _ _ _ _ Y) as (st1 & r & F & Y1).
  pose proof (f_good _ _ _ _ _ _ _ _ _ _ _ _ _ _ _ _ _ F) as G.
  destruct (entries_ok st1 did key recs o coll G) as (l' & SL' & IL' & LE).
  rewrite (listing_unique recs coll l' l SL' SL IL' IL) in LE.
  destruct (i_book _ _ _ _ _ _ _ _ (y_inv _ _ _ _ _ _ _ _ Y1) _ _ _ (y_book _ _ _ _ _ _ _ _ Y1)) as (ID & _).
  destruct (good_keys _ _ _ _ _ _ _ _ _ G) as (_ & RK & RO).
  assert (RS : recs_stored digest (s_blocks st1) recs) by (destruct G as (h & root & _ & CH & _); eapply chain_stored; eauto).
  assert (RD : need_did o st1 = (st1, Ok did)).
  { destruct (y_names _ _ _ _ _ _ _ _ Y) as (y & _ & _ & RD). unfold need_did. rewrite RD. reflexivity. }
  exists st1, r. split; [exact Y1|].
  unfold ServerModel.list_records. destruct (nonempty (c_supported cfg) && negb (mem_str coll (c_supported cfg))) eqn:S0.
  { exfalso. assert (X : unsupported cfg (Some coll) = false) by (apply (unsupported_ok cfg); intros c' [= <-]; exact SU).
    unfold unsupported in X. destruct coll; congruence. }
  rewrite bind_unit. rewrite (proj2 (validate_ok cfg (Input (Some x) (Some coll) None None false) None)) by (cbn; splits; eauto; [discriminate|intros ? [= <-]; auto]).
  rewrite (bindM_ok (ret tt) _ _ _ tt eq_refl). destruct coll as [|c0 c1] eqn:EC; [congruence|]. rewrite <- EC in *. rewrite bind_lift. cbn [arg].
  rewrite (bindM_ok _ _ _ _ _ (f_load _ _ _ _ _ _ _ _ _ _ _ _ _ _ _ _ _ F)).
  rewrite (bindM_ok _ _ _ _ _ (obj_some _ _ _ (f_obj _ _ _ _ _ _ _ _ _ _ _ _ _ _ _ _ _ F))).
  rewrite (bindM_ok (fun st => (st, list_entries kdigest st o coll limit c)) _ st1 st1 (firstn limit (map (entry_of coll) q)))
    by (rewrite (LE limit c q SX); reflexivity).
  rewrite firstn_map. set (qs := firstn limit q).
  assert (HQ : forall rkey v, In (rkey, v) qs -> dget (record_path coll rkey) recs = Some v).
  { intros rkey v HI. apply IL. assert (HI2 : In (rkey, v) q) by (unfold qs in HI; rewrite <- (firstn_skipn limit q); apply in_or_app; auto).
    destruct SX as [[_ ->]|(p & k & v' & q' & _ & _ & ->)]; auto. apply in_or_app. auto. }
  assert (IT : (match map (entry_of coll) qs with [] => ret [] | _ => bindM (did_of o) (fun did => fun st => (st, record_items digest did st (map (entry_of coll) qs))) end) st1
     = (st1, Ok (map (item_of did coll) qs))).
  { pose proof (items_ok st1 did recs coll qs ID RS RK RO HQ) as IT.
    destruct (map (entry_of coll) qs) eqn:EM; [destruct qs; [reflexivity|discriminate]|].
    unfold did_of. rewrite (bindM_ok _ _ _ _ _ RD). rewrite IT. reflexivity. }
  rewrite (bindM_ok _ _ _ _ _ IT). rewrite map_length.
  destruct (Nat.eqb (length qs) limit) eqn:EL; [|reflexivity].
  rewrite <- map_rev. destruct (rev qs) as [|kv rq] eqn:ER; [|reflexivity].
  exfalso. apply Nat.eqb_eq in EL. rewrite <- (rev_involutive qs), ER in EL. cbn in EL. lia.
Qed.

Lemma pages_from limit coll x did o key recs bk l : (2 <= limit)%nat -> x <> [] -> coll <> [] -> supported cfg coll ->
  ssorted (keys l) -> (forall rkey v, In (rkey, v) l <-> dget (record_path coll rkey) recs = Some v) ->
  forall n q c st refs, (length q <= n)%nat -> suffix_at coll l q c -> ready st refs bk x did o key recs ->
  exists ps, record_pages x coll limit c st ps /\ overlapping ps (map (item_of did coll) q).
Proof.
  intros L2 NX NC SU SL IL. induction n as [|n IH]; intros q c st refs LE SX Y.
  - destruct q as [|y q]; [|cbn in LE; lia].
    destruct (list_page _ _ _ _ _ _ _ _ coll l limit c [] Y NX NC SU SL IL SX ltac:(lia)) as (st1 & r & _ & E).
    rewrite firstn_nil in E. destruct limit as [|lim]; [lia|]. exists [[]]. split; [eapply rc_last; exact E|constructor].
  - destruct (list_page _ _ _ _ _ _ _ _ coll l limit c q Y NX NC SU SL IL SX ltac:(lia)) as (st1 & r & Y1 & E).
    destruct (Nat.eqb_spec (length (firstn limit q)) limit) as [LQ|NL].
    + destruct (rev (firstn limit q)) as [|[k v] rq] eqn:ER.
      { exfalso. rewrite <- (rev_involutive (firstn limit q)), ER in LQ. cbn in LQ. lia. }
      assert (FQ : firstn limit q = rev rq ++ [(k, v)]) by (rewrite <- (rev_involutive (firstn limit q)), ER; reflexivity).
      assert (QE : q = rev rq ++ (k, v) :: skipn limit q).
      { rewrite <- (firstn_skipn limit q) at 1. rewrite FQ, <- app_assoc. reflexivity. }
      assert (RL : (1 <= length (rev rq))%nat) by (rewrite FQ, app_length in LQ; cbn in LQ; lia).
      set (q2 := skipn limit q) in *.
      destruct (IH ((k, v) :: q2) (Some (record_path coll k)) st1 (refs ++ [r])) as (ps & RP & OV); auto.
      * apply (f_equal (@length _)) in QE. rewrite app_length in QE. cbn in *. lia.
      * right. destruct SX as [[_ EQ]|(p & k' & v' & q' & _ & _ & EQ)].
        -- exists (rev rq), k, v, q2. splits; auto. congruence.
        -- exists (p ++ rev rq), k, v, q2. splits; auto. rewrite <- app_assoc. congruence.
      * destruct (overlapping_head _ _ _ OV) as (y & ps' & ->).
        exists (map (item_of did coll) (firstn limit q) :: (item_of did coll (k, v) :: y) :: ps'). split.
        -- eapply rc_more; [exact E|exact RP].
        -- rewrite FQ, map_app. rewrite QE at 1. rewrite map_app. cbn [map]. apply ov_more. exact OV.
    + assert (FQ : firstn limit q = q) by (apply firstn_all2; rewrite firstn_length in NL; lia).
      rewrite FQ in E. exists [map (item_of did coll) q]. split; [eapply rc_last; exact E|constructor].
Qed.

Lemma c36_pages w bk x did o key recs coll limit : serves w bk -> names (w_state w) x did o -> r_status o = None -> dget did bk = Some (key, recs) ->
  x <> [] -> coll <> [] -> supported cfg coll -> (2 <= limit)%nat ->
  exists ps items, record_pages x coll limit None (w_state w) ps /\ overlapping ps items /\ listing digest did coll recs items.
Proof.
  intros S NM R B NX NC SU L2. destruct (serves_inv digest kdigest validate ecdsa now cb be netloc_ok cfg SET _ _ S) as [I ST].
  assert (Y : ready (w_state w) (w_refs w) bk x did o key recs) by (split; auto).
  destruct (page_ok _ _ _ _ _ _ _ _ coll Y NX NC SU) as (l & SL & IL).
  destruct (pages_from limit coll x did o key recs bk l L2 NX NC SU SL IL (length l) l None _ _ (le_n _) (or_introl (conj eq_refl eq_refl)) Y) as (ps & RP & OV).
  exists ps, (map (item_of did coll) l). splits; auto. exists l. splits; auto.
Qed.

Lemma record_pages_fun x coll limit c st ps ps' : record_pages x coll limit c st ps -> record_pages x coll limit c st ps' -> ps = ps'.
Proof.
  clear. intros H. revert ps'. induction H as [c st st' l E|c st st' l c' ls E H IH]; intros ps' H'; inversion H' as [? ? ? ? E'|? ? ? ? ? ? E' R']; subst.
  - congruence.
  - rewrite E in E'. discriminate.
  - rewrite E in E'. discriminate.
  - rewrite E in E'. injection E' as <- <- <-. f_equal. auto.
Qed.

(** With a limit of 1, the listing of a collection that is not empty never ends. *)
Lemma stuck_from coll x did o key recs bk l : x <> [] -> coll <> [] -> supported cfg coll ->
  ssorted (keys l) -> (forall rkey v, In (rkey, v) l <-> dget (record_path coll rkey) recs = Some v) ->
  forall c st ps, record_pages x coll 1 c st ps -> forall refs q, ready st refs bk x did o key recs -> suffix_at coll l q c -> q <> [] -> False.
Proof.
  intros NX NC SU SL IL c st ps H. induction H as [c st st' its E|c st st' its c' ls E H IH]; intros refs q Y SX NE;
    destruct (list_page _ _ _ _ _ _ _ _ coll l 1 c q Y NX NC SU SL IL SX ltac:(lia)) as (st1 & r & Y1 & E');
    (destruct q as [|[k v] q]; [congruence|]); pose proof (eq_trans (eq_sym E) E') as X; cbn [firstn length Nat.eqb rev app fst] in X; [discriminate X|].
  injection X as -> _ ->. eapply IH; [exact Y1| |exact NE]. right.
  destruct SX as [[_ <-]|(p & k' & v' & q' & _ & EQ & ->)]; [exists [], k, v, q; auto|exists p, k, v, q; auto].
Qed.

Lemma c36_stuck w bk x did o key recs coll rkey : serves w bk -> names (w_state w) x did o -> r_status o = None -> dget did bk = Some (key, recs) ->
  x <> [] -> coll <> [] -> supported cfg coll -> dget (record_path coll rkey) recs <> None ->
  ~ exists ps, record_pages x coll 1 None (w_state w) ps.
Proof.
  intros S NM R B NX NC SU D (ps & RP). destruct (serves_inv digest kdigest validate ecdsa now cb be netloc_ok cfg SET _ _ S) as [I ST].
  assert (Y : ready (w_state w) (w_refs w) bk x did o key recs) by (split; auto).
  destruct (page_ok _ _ _ _ _ _ _ _ coll Y NX NC SU) as (l & SL & IL).
  refine (stuck_from coll x did o key recs bk l NX NC SU SL IL None _ ps RP _ l Y (or_introl (conj eq_refl eq_refl)) _).
  intros ->. destruct (dget (record_path coll rkey) recs) as [v|] eqn:E; [|congruence]. apply IL in E. destruct E.
Qed.

End Server.
