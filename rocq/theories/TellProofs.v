(** What callbacks are told, whatever fails. *)
From Coq Require Import String List NArith ZArith Bool Lia.
From Verif Require Import Base Lists Ipld IpldProofs MstModel MstClient TidModel BlockModel CarModel StorageModel RepoSpec CallbackProofs IsolateSpec IsolateProofs ChainProofs.
Import ListNotations.
Local Open Scope m_scope.

(** Writes no block and takes no number. *)
Definition front {A} (m : M A) : Prop := forall st, s_blocks (fst (m st)) = s_blocks st /\ s_next (fst (m st)) = s_next st.
Lemma front_pure {A} (m : M A) : pure m -> front m.
Proof. intros P st. rewrite P. auto. Qed.
Lemma front_bind {A B} (m : M A) (f : A -> M B) : front m -> (forall a, front (f a)) -> front (bindM m f).
Proof.
  intros H F st. destruct (H st) as [A1 A2]. unfold bindM. destruct (m st) as [st1 [a|e]]; cbn [fst] in *; [|auto].
  destruct (F a st1). split; congruence.
Qed.
Lemma front_set_attr r f : front (set_attr r f).
Proof. intros st. unfold set_attr, bindM, obj. destruct (nth_error (s_objs st) r); cbn; auto. Qed.
Ltac fronts := repeat
  match goal with
  | |- front (ret _) => apply front_pure, pure_ret
  | |- front (throw _) => apply front_pure, pure_throw
  | |- front (lift _) => apply front_pure, pure_lift
  | |- front (assert _) => apply front_pure, pure_assert
  | |- front (obj _) => apply front_pure, pure_obj
  | |- front (reads _) => apply front_pure, pure_reads
  | |- front (need_did _) => apply front_pure, pure_need_did
  | |- front (new_obj _) => split; reflexivity
  | |- front (set_attr _ _) => apply front_set_attr
  | |- front (bindM _ _) => apply front_bind; [|intros ?]
  | |- front (match ?x with _ => _ end) => destruct x
  | |- front (let '_ := ?x in _) => destruct x
  end.

Section Tell.
Variable digest : list N -> list N.
Variable kdigest : str -> list N.
Variable validate : ipld -> res unit.
Variable ecdsa : N -> Z -> list N -> list N.
Variable now : Z -> str.
Variable cb : nat -> option exn.
Variable be : backend.
Hypothesis inj : forall a b, digest a = digest b -> a = b.
Notation K := (K digest ecdsa be).
Notation owns := (owns ecdsa be).
Notation target := (target ecdsa be).
Notation acc_ok := (acc_ok digest).

Lemma front_load x : front (load_repo be x).
Proof.
  unfold load_repo. fronts; try (apply front_pure, pure_mem_find). unfold repo_load. fronts.
Qed.
Lemma front_target r : front (commit_target be r None).
Proof. unfold commit_target. fronts. apply front_load. Qed.
Lemma front_write r did seq acc w : front (commit_write digest kdigest validate r did seq acc w).
Proof.
  unfold commit_write. fronts.
  all: match goal with
       | |- front (fun st => (st, ?f kdigest (rd st) ?d ?m ?p)) => exact (front_pure _ (pure_rd (fun r => f kdigest r d m p)))
       | |- front (fun st => (st, ?f kdigest (rd st) ?d ?m ?p ?v)) => exact (front_pure _ (pure_rd (fun r => f kdigest r d m p v)))
       | |- front (fun st => (st, ?f digest kdigest (rd st) ?d ?m ?p ?v ?w)) => exact (front_pure _ (pure_rd (fun r => f digest kdigest r d m p v w)))
       end.
Qed.
Lemma front_fold r did seq : forall ws acc, front (foldM (commit_write digest kdigest validate r did seq) acc ws).
Proof. induction ws as [|w ws IH]; intros acc; cbn [foldM]; fronts; [apply front_write|apply IH]. Qed.

(** The blocks of a commit have their keys. *)
Definition all_ok (seq : Z) (l : list (cid * block)) : Prop := forall c b, In (c, b) l -> wf digest b /\ b_cid b = c /\ b_seq b = seq.
Lemma add_nodes_ok d seq : forall l blocks, wf_nodes digest l -> all_ok seq blocks -> all_ok seq (add_nodes d seq l blocks).
Proof.
  unfold add_nodes. induction l as [|[k v] l IH]; intros blocks W A; cbn [fold_left]; [exact A|]. apply IH.
  - intros c x J. apply W. right. exact J.
  - cbn [fst snd]. intros c x J. apply In_dset in J as [J|J]; [|apply (A c x J)]. injection J as -> ->. split; [|auto].
    unfold wf. cbn [b_cid b_val]. apply W. left. reflexivity.
Qed.
Lemma keyed l seq : all_ok seq l -> map (fun b => (b_cid b, b)) (map snd l) = l.
Proof.
  induction l as [|[c b] l IH]; intros A; [reflexivity|]. cbn [map snd]. destruct (A c b (or_introl eq_refl)) as (_ & -> & _). f_equal. apply IH.
  intros k x J. apply A. right. exact J.
Qed.
Lemma set_attr_ok r f st o : nth_error (s_objs st) r = Some o -> set_attr r f st = (set_objs (replace_nth r (f o) (s_objs st)) st, Ok tt).
Proof. intros E. unfold set_attr, bindM, obj. rewrite E. reflexivity. Qed.
Lemma kept_obj r o st k : nth_error (s_objs st) r <> None -> nth_error (s_objs st) k <> None -> nth_error (replace_nth r o (s_objs st)) k <> None.
Proof. intros H G. rewrite nth_put by exact H. destruct (Nat.eqb r k); [discriminate|exact G]. Qed.

(** A commit that is stored. *)
Definition kept (st st' : state) (seq : Z) (cd : commit_data) : Prop :=
  b_seq (cd_commit cd) = seq /\ (forall c b, read st c = Some b -> read st' c = Some b) /\
  (forall c b, read st' c = Some b -> read st c = Some b \/ b_seq b = seq) /\
  exists b, read st' (b_cid (cd_commit cd)) = Some b /\ (b = cd_commit cd \/ read st (b_cid (cd_commit cd)) = Some b /\ b_val b = b_val (cd_commit cd)).

Lemma finish_cases seq r0 r d prev bo st : K seq st -> target seq r0 (d, r, prev) st -> acc_ok seq bo ->
  match commit_finish digest kdigest ecdsa be r0 r d prev seq bo st with
  | (st', Err _) => s_blocks st' = s_blocks st /\ s_next st' = s_next st
  | (st', Ok cd) => s_next st' = s_next st /\ kept st st' seq cd
  end.
Proof.
  intros HK (ID & (o0 & E0 & _) & (o2 & h2 & E2 & H2 & _ & X) & o & h & E & H & PE) AO. cbn [fst snd] in *.
  assert (o2 = o) by congruence. subst o2. assert (h2 = h) by congruence. subst h2.
  unfold commit_finish, bindM at 1, obj. rewrite E. unfold bindM at 1.
  destruct (get_unstored_blocks digest kdigest (rd st) max_depth (r_mst o)) as [[root l]|] eqn:U; [|auto].
  apply unstored_wf in U. unfold bindM at 1, lift. destruct (int_to_tid seq 0) as [rev|]; [|auto]. cbv zeta. cbn [fst snd].
  set (cblock := mk_block digest _ _ _ _). set (blocks := dset (b_cid cblock) cblock _).
  assert (AB : all_ok seq blocks).
  { intros c b J. unfold blocks in J. apply In_dset in J as [J|J]; [injection J as -> ->; split; [apply mk_block_wf|split; reflexivity]|].
    apply (add_nodes_ok d seq l (fst bo) U); [exact AO|exact J]. }
  unfold bindM at 1. change (write_blocks (map snd blocks) st) with (fst (write_blocks (map snd blocks) st), @Ok unit tt).
  set (st1 := fst (write_blocks (map snd blocks) st)).
  assert (KP : forall st', s_blocks st' = s_blocks st1 -> kept st st' seq (CommitData cblock blocks prev)).
  { intros st' EB. assert (RD : forall c, read st' c = match read st c with Some b => Some b | None => dget c blocks end).
    { intros c. unfold read at 1. rewrite EB. change (dget c (s_blocks st1)) with (read st1 c). unfold st1. rewrite read_write_blocks. destruct (read st c); [reflexivity|]. exact (f_equal (dget c) (keyed _ _ AB)). }
    split; [reflexivity|]. split; [intros c b R; rewrite RD, R; reflexivity|]. split.
    - intros c b. rewrite RD. destruct (read st c) as [y|]; [auto|]. intros R. right. apply In_dget1 in R. apply (AB c b R).
    - cbn [cd_commit]. rewrite RD. destruct (read st (b_cid cblock)) as [y|] eqn:R.
      + exists y. split; [reflexivity|]. right. split; [reflexivity|]. destruct (k_blocks _ _ _ _ _ HK _ _ R) as [C W]. apply (wf_val digest inj); [exact W|apply mk_block_wf|exact C].
      + exists cblock. split; [|left; reflexivity]. unfold blocks. rewrite dget_dset, str_eqb_refl. reflexivity. }
  rewrite H. cbn [is_some]. unfold bindM at 1. unfold bindM at 1.
  change (nth_error (s_objs st) r) with (nth_error (s_objs st1) r) in E. change (nth_error (s_objs st) r0) with (nth_error (s_objs st1) r0) in E0.
  rewrite (set_attr_ok r _ st1 o E). set (st2 := set_objs _ st1). set (o' := with_head (Some cblock) o) in *.
  assert (E' : nth_error (s_objs st2) r = Some o').
  { unfold st2. cbn [set_objs s_objs]. rewrite nth_put, PeanoNat.Nat.eqb_refl by congruence. reflexivity. }
  assert (D' : repo_did o' = Ok (Some d)).
  { unfold repo_did, o'. cbn [with_head r_head]. unfold cblock. cbn [mk_block b_val]. rewrite commit_did_val. reflexivity. }
  assert (S3 : exists st3, store_repo be r st2 = (st3, Ok tt) /\ s_blocks st3 = s_blocks st1 /\ s_next st3 = s_next st /\ s_objs st3 = s_objs st2).
  { unfold store_repo, bindM, obj. rewrite E'. unfold need_did, bindM, lift. rewrite D'. unfold ret. destruct be.
    - eexists. split; [reflexivity|]. auto.
    - unfold reads. change (s_ents st2) with (s_ents st). destruct (dget d (s_ents st)) as [e|]; [|discriminate X].
      unfold o'. cbn [with_head r_head]. eexists. split; [reflexivity|]. auto. }
  destruct S3 as (st3 & -> & B3 & N3 & O3).
  assert (X0 : exists y, nth_error (s_objs st3) r0 = Some y).
  { rewrite O3. unfold st2. cbn [set_objs s_objs]. destruct (nth_error (replace_nth r o' (s_objs st1)) r0) eqn:Y; [eauto|].
    exfalso. revert Y. apply kept_obj; congruence. }
  destruct X0 as (y & Ey). unfold bindM at 1. rewrite (set_attr_ok r0 _ st3 y Ey). set (st4 := set_objs _ st3).
  unfold bindM. rewrite (set_attr_ok r0 _ st4 (with_mst (r_mst o) y)).
  - unfold ret. split; [exact N3|]. apply KP. exact B3.
  - unfold st4. cbn [set_objs s_objs]. rewrite nth_put, PeanoNat.Nat.eqb_refl by congruence. reflexivity.
Qed.
Lemma commit_cases seq r0 ws st : K seq st ->
  match commit_ digest kdigest validate ecdsa be r0 ws seq None st with
  | (st', Err _) => s_blocks st' = s_blocks st /\ s_next st' = s_next st
  | (st', Ok cd) => s_next st' = s_next st /\ kept st st' seq cd
  end.
Proof.
  intros HK. unfold commit_. unfold bindM at 1, assert. destruct (negb (seq =? 0)%Z); [|split; reflexivity]. unfold ret at 1. unfold bindM at 1.
  destruct (spec_target digest kdigest ecdsa now cb be inj seq r0 st HK I) as (K1 & _ & T1). pose proof (front_target r0 st) as [B1 N1].
  destruct (commit_target be r0 None st) as [st1 [[[d r] prev]|e]]; cbn [fst snd] in *; [|auto].
  unfold bindM at 1. destruct (max_operations <? len ws)%N; [split; assumption|]. unfold ret at 1. unfold bindM.
  assert (AO0 : acc_ok seq ([], [])) by (intros c b []).
  destruct (quiet_fold digest kdigest validate ecdsa now cb be inj d r seq ws ([], []) AO0 seq st1 K1) as (K2 & R2 & A2).
  pose proof (front_fold r d seq ws ([], []) st1) as [B2 N2].
  destruct (foldM (commit_write digest kdigest validate r d seq) ([], []) ws st1) as [st2 [bo|e]]; cbn [fst snd] in *; [|split; congruence].
  apply (target_rel digest kdigest ecdsa now be inj _ _ _ _ _ R2) in T1. pose proof (finish_cases seq r0 r d prev bo st2 K2 T1 A2) as F.
  assert (RE : forall c, read st2 c = read st c) by (intros c; unfold read; congruence).
  destruct (commit_finish digest kdigest ecdsa be r0 r d prev seq bo st2) as [st3 [cd|e]].
  - destruct F as (N3 & S1 & S2 & S3 & b & S4 & S5). split; [congruence|]. split; [exact S1|].
    split; [intros c x; rewrite <- RE; apply S2|]. split; [intros c x; rewrite <- RE; apply S3|]. exists b. rewrite <- RE. auto.
  - destruct F. split; congruence.
Qed.

(** All blocks have numbers that have been taken. *)
Definition low (st : state) : Prop := forall c b, read st c = Some b -> (b_seq b < s_next st)%Z.
Definition lows {A} (m : M A) : Prop := forall st, low st -> low (fst (m st)).
Lemma lows_front {A} (m : M A) : front m -> lows m.
Proof. intros F st H. destruct (F st) as [B N]. unfold low, read. rewrite B, N. exact H. Qed.
Lemma lows_bind {A B} (m : M A) (f : A -> M B) : lows m -> (forall a, lows (f a)) -> lows (bindM m f).
Proof. intros H F st L. specialize (H st L). unfold bindM. destruct (m st) as [st1 [a|e]]; cbn [fst] in *; [apply F|]; assumption. Qed.
Lemma front_callback r c : front (callback cb r c).
Proof. intros st. rewrite callback_eq. destruct (nth_error (s_objs st) r) as [o|]; [destruct (r_callback o)|]; auto. Qed.
Lemma front_store r : front (store_repo be r).
Proof. unfold store_repo. destruct be; fronts; split; reflexivity. Qed.
Lemma front_create_repo r : front (create_repo be r).
Proof. unfold create_repo. destruct be; fronts; split; reflexivity. Qed.
Lemma front_status r x : front (set_repo_status be r x).
Proof. unfold set_repo_status. destruct be; fronts; split; reflexivity. Qed.

(** New blocks have the number [seq]. *)
Definition marks {A} (seq : Z) (m : M A) : Prop := forall st, s_next (fst (m st)) = s_next st /\
  forall c b, read (fst (m st)) c = Some b -> read st c = Some b \/ b_seq b = seq.
Lemma marks_front {A} seq (m : M A) : front m -> marks seq m.
Proof. intros F st. destruct (F st) as [B N]. split; [exact N|]. intros c b. unfold read. rewrite B. auto. Qed.
Lemma marks_bind {A B} seq (m : M A) (f : A -> M B) : marks seq m -> (forall a, marks seq (f a)) -> marks seq (bindM m f).
Proof.
  intros H F st. destruct (H st) as [N1 R1]. unfold bindM. destruct (m st) as [st1 [a|e]]; cbn [fst] in *; [|auto].
  destruct (F a st1) as [N2 R2]. split; [congruence|]. intros c b R. destruct (R2 c b R); auto.
Qed.
Lemma marks_write seq bs : (forall b, In b bs -> b_seq b = seq) -> marks seq (write_blocks bs).
Proof.
  intros H st. split; [reflexivity|]. intros c b. rewrite read_write_blocks. destruct (read st c); [auto|]. intros R. right.
  apply In_dget1, in_map_iff in R as (x & E & J). injection E as _ <-. apply H, J.
Qed.
Lemma marks_finish seq r0 r d prev : marks seq (commit_finish digest kdigest ecdsa be r0 r d prev seq ([], [])).
Proof.
  unfold commit_finish. apply marks_bind; [apply marks_front; fronts|]. intros o.
  apply marks_bind; [apply marks_front; exact (front_pure _ (pure_rd (fun r => get_unstored_blocks digest kdigest r max_depth (r_mst o))))|].
  intros ru. apply marks_bind; [apply marks_front; fronts|]. intros rev. cbv zeta. apply marks_bind.
  - apply marks_write. intros b J. apply in_map_iff in J as ([c x] & <- & J). cbn [snd]. apply In_dset in J as [J|J]; [injection J as -> ->; reflexivity|].
    revert J. cbn [fst]. unfold add_nodes. assert (A0 : forall c b, In (c, b) (@nil (cid * block)) -> b_seq b = seq) by (intros ? ? []).
    revert A0. generalize (@nil (cid * block)). induction (snd ru) as [|[k v] l IH]; intros a A0; cbn [fold_left]; [apply A0|].
    apply IH. cbn [fst snd]. intros c' b' J'. apply In_dset in J' as [J'|J']; [injection J' as -> ->; reflexivity|eapply A0; exact J'].
  - intros []. apply marks_front. fronts. apply front_store.
Qed.
Lemma marks_first seq r d : marks seq (commit_ digest kdigest validate ecdsa be r [] seq (Some d)).
Proof.
  unfold commit_. apply marks_bind; [apply marks_front; fronts|]. intros _. apply marks_bind.
  - apply marks_front. unfold commit_target. fronts; apply front_load.
  - intros [[d' r'] prev]. apply marks_bind; [apply marks_front; fronts|]. intros _. cbn [foldM].
    intros st. exact (marks_finish seq r r' d' prev st).
Qed.
Lemma low_next st : low st -> low (set_next (s_next st + 1) st).
Proof. intros L c b R. cbn [set_next s_next]. specialize (L c b R). lia. Qed.
Lemma lows_marks {A} (m : M A) st : low (set_next (s_next st + 1) st) -> marks (s_next st) m ->
  s_next (fst (m (set_next (s_next st + 1) st))) = (s_next st + 1)%Z /\ low (fst (m (set_next (s_next st + 1) st))).
Proof.
  intros L H. destruct (H (set_next (s_next st + 1) st)) as [N R]. change (s_next (set_next (s_next st + 1) st)) with (s_next st + 1)%Z in N. split; [exact N|].
  intros c b X. rewrite N. destruct (R c b X) as [Y|Y]; [apply (L c b Y)|lia].
Qed.
Lemma lows_body {A} (f : Z -> M A) : (forall seq, marks seq (f seq)) -> lows (bindM allocate_seq f).
Proof. intros H st L. exact (proj2 (lows_marks (f (s_next st)) st (low_next st L) (H _))). Qed.
Lemma marks_exc {A} seq (m : M A) h : marks seq m -> marks seq h -> marks seq (on_exception m h).
Proof.
  intros H G st. destruct (H st) as [N1 R1]. unfold on_exception. destruct (m st) as [st1 [a|e]]; cbn [fst] in *; [auto|].
  destruct (G st1) as [N2 R2]. destruct (h st1) as [st2 [[]|e2]]; cbn [fst] in *; (split; [congruence|]; intros c b R; destruct (R2 c b R); auto).
Qed.
Lemma lows_event r type extra : lows (write_event digest now cb be r type extra).
Proof.
  unfold write_event. apply lows_body. intros seq. apply marks_bind; [apply marks_front; fronts|]. intros o.
  apply marks_bind; [apply marks_front; fronts|]. intros d. apply marks_bind.
  - unfold write_obj. assert (W : forall v x, marks seq (write_blocks [mk_block digest v d seq x])) by (intros v x; apply marks_write; intros b [<-|[]]; reflexivity).
    destruct be; (apply marks_bind; [apply marks_front; fronts|]; intros _; apply marks_bind; [apply W|]; intros []; apply marks_front; fronts).
  - intros b. apply marks_front. fronts. apply front_callback.
Qed.
Lemma lows_status r x type extra : lows (set_repo_status be r x;; write_event digest now cb be r type extra;; ret tt).
Proof.
  apply lows_bind; [apply lows_front, front_status|]. intros _. apply lows_bind; [apply lows_event|]. intros _. apply lows_front. fronts.
Qed.
Lemma lows_create d handle status x key : lows (repo_create digest kdigest validate ecdsa now cb be d handle status x key).
Proof.
  unfold repo_create. apply lows_bind; [apply lows_front; fronts|]. intros m. apply lows_bind; [apply lows_front; fronts|]. intros r.
  apply lows_bind.
  { unfold commit. apply lows_body. intros seq. apply marks_exc; [|apply marks_front, front_callback].
    apply marks_bind; [apply marks_first|]. intros cd. apply marks_front. fronts. apply front_callback. }
  intros cd. apply lows_bind; [apply lows_front; fronts|]. intros o. apply lows_bind; [apply lows_front; fronts|]. intros d'.
  apply lows_bind; [apply lows_event|]. intros _. apply lows_bind; [apply lows_event|]. intros _. cbv zeta.
  apply lows_bind; [apply lows_front; fronts|]. intros rev. apply lows_bind; [apply lows_event|]. intros _.
  apply lows_front. fronts; [apply front_create_repo|apply front_callback].
Qed.

(** A commit and what its callback hears. *)
Lemma commit_calls r ws st o : K (s_next st) st -> nth_error (s_objs st) r = Some o ->
  let n := s_next st in let st' := fst (commit digest kdigest validate ecdsa cb be r ws None st) in
  let out := snd (commit digest kdigest validate ecdsa cb be r ws None st) in
  s_next st' = (n + 1)%Z /\
  ((exists cd, kept st st' n cd /\
      (out = Ok cd /\ s_calls st' = (if r_callback o then [CData (MCommit cd)] else []) ++ s_calls st \/
       r_callback o = true /\ (exists k e, cb k = Some e) /\ (exists e, out = Err e) /\ s_calls st' = [CLost n; CData (MCommit cd)] ++ s_calls st)) \/
   (exists e, out = Err e) /\ s_blocks st' = s_blocks st /\ s_calls st' = (if r_callback o then [CLost n] else []) ++ s_calls st).
Proof.
  intros HK E n. cbv zeta. set (st1 := set_next (n + 1) st).
  assert (K1 : K n st1) by apply (quiet_allocate digest kdigest ecdsa now be inj n st HK).
  change (commit digest kdigest validate ecdsa cb be r ws None st) with
    (on_exception (bindM (commit_ digest kdigest validate ecdsa be r ws n None) (fun cd => callback cb r (CData (MCommit cd));; ret cd)) (callback cb r (CLost n)) st1).
  pose proof (commit_cases n r ws st1 K1) as C. pose proof (blind_commit_ digest kdigest validate ecdsa be r ws n None) as (_ & BC & BH).
  specialize (BC st1). specialize (BH st1 r (r_callback o)). unfold on_exception, bindM.
  destruct (commit_ digest kdigest validate ecdsa be r ws n None st1) as [st2 [cd|e]]; cbn [fst snd] in *.
  all: assert (H2 : has_cb st2 r = Some (r_callback o)) by (apply BH; unfold has_cb; change (s_objs st1) with (s_objs st); rewrite E; reflexivity).
  all: unfold has_cb in H2; destruct (nth_error (s_objs st2) r) as [o2|] eqn:E2; [|discriminate H2]; injection H2 as H2.
  - destruct C as [N2 KP]. change (s_next st1) with (n + 1)%Z in N2. change (s_calls st1) with (s_calls st) in BC.
    rewrite callback_eq, E2, H2. destruct (r_callback o).
    + destruct (cb (length (s_calls st2))) as [e|] eqn:CB.
      * rewrite callback_eq. cbn [add_call s_objs]. rewrite E2, H2. destruct (cb (length (s_calls (add_call (CData (MCommit cd)) st2)))); cbn [fst snd]; (split; [exact N2|]; left; exists cd; split; [exact KP|right]);
          (split; [reflexivity|]; split; [eauto|]; split; [eauto|]; cbn [add_call s_calls app]; rewrite BC; reflexivity).
      * unfold ret. cbn [fst snd]. split; [exact N2|]. left. exists cd. split; [exact KP|]. left. split; [reflexivity|]. cbn [add_call s_calls app]. rewrite BC. reflexivity.
    + unfold ret. cbn [fst snd]. split; [exact N2|]. left. exists cd. split; [exact KP|]. left. split; [reflexivity|]. cbn [app]. exact BC.
  - destruct C as [B2 N2]. change (s_next st1) with (n + 1)%Z in N2. change (s_calls st1) with (s_calls st) in BC. change (s_blocks st1) with (s_blocks st) in B2.
    rewrite callback_eq, E2, H2. destruct (r_callback o); [destruct (cb (length (s_calls st2)))|]; cbn [fst snd];
      (split; [exact N2|]; right; split; [eauto|]; split; [exact B2|]; cbn [add_call s_calls app]; rewrite BC; reflexivity).
Qed.
Lemma commit_dangling r ws st : nth_error (s_objs st) r = None -> low st -> low (fst (commit digest kdigest validate ecdsa cb be r ws None st)).
Proof.
  intros E L. set (st1 := set_next (s_next st + 1) st). change (commit digest kdigest validate ecdsa cb be r ws None st) with
    (on_exception (bindM (commit_ digest kdigest validate ecdsa be r ws (s_next st) None) (fun cd => callback cb r (CData (MCommit cd));; ret cd)) (callback cb r (CLost (s_next st))) st1).
  unfold on_exception.
  assert (L1 : low st1) by apply low_next, L. assert (C : commit_ digest kdigest validate ecdsa be r ws (s_next st) None st1 = (st1, snd (commit_ digest kdigest validate ecdsa be r ws (s_next st) None st1))).
  { unfold commit_, bindM at 1 4, assert. destruct (negb (s_next st =? 0)%Z); [|reflexivity]. unfold ret, commit_target, bindM, obj. change (s_objs st1) with (s_objs st). rewrite E. reflexivity. }
  unfold bindM. rewrite C. assert (X : forall c st2, s_objs st2 = s_objs st -> callback cb r c st2 = (st2, Err (OtherError (s "dangling reference")))) by (intros c st2 O; rewrite callback_eq, O, E; reflexivity).
  destruct (snd (commit_ digest kdigest validate ecdsa be r ws (s_next st) None st1)); rewrite !X by reflexivity; exact L1.
Qed.
Lemma low_commit r ws st : K (s_next st) st -> low st -> low (fst (commit digest kdigest validate ecdsa cb be r ws None st)).
Proof.
  intros HK L. destruct (nth_error (s_objs st) r) as [o|] eqn:E; [|apply commit_dangling; assumption].
  pose proof (commit_calls r ws st o HK E) as [N C]. cbv zeta in *. intros c b R. rewrite N. destruct C as [(cd & (_ & _ & W & _) & _)|(_ & B & _)].
  - destruct (W c b R) as [Y|Y]; [specialize (L c b Y); lia|lia].
  - unfold read in R. rewrite B in R. specialize (L c b R). lia.
Qed.

Notation KW := (KW digest ecdsa be).
Definition LW (w : world) : Prop := low (w_state w).
Lemma LW_new w m : LW w -> lows m -> LW (fst (on_new w m)).
Proof. intros H L. specialize (L _ H). unfold on_new. destruct (m (w_state w)) as [st [[r|]|e]]; exact L. Qed.
Lemma LW_ref w h f : LW w -> (forall r, low (fst (f r (w_state w)))) -> LW (fst (on_ref w h f)).
Proof. intros H L. unfold on_ref. destruct (nth_error (w_refs w) h) as [r|]; [|exact H]. specialize (L r). destruct (f r (w_state w)) as [st o]. exact L. Qed.
Lemma LW_step w op : KW w -> LW w -> LW (fst (sstep digest kdigest validate ecdsa now cb be w op)).
Proof.
  intros HK HL. destruct op as [d handle status x key|x|h key|h x|h ws|h|h|h]; cbn [sstep].
  - apply LW_new; [exact HL|]. apply lows_bind; [apply lows_create|]. intros r. apply lows_front. fronts.
  - apply LW_new; [exact HL|]. apply lows_front, front_load.
  - destruct (nth_error (w_refs w) h) as [r|]; [|exact HL]. apply LW_new; [exact HL|]. apply lows_front. unfold repo_load. fronts.
  - apply LW_ref; [exact HL|]. intros r. apply lows_front; [fronts|exact HL].
  - apply LW_ref; [exact HL|]. intros r. pose proof (low_commit r ws _ HK HL) as C. unfold bindM.
    destruct (commit digest kdigest validate ecdsa cb be r ws None (w_state w)) as [st [cd|e]]; exact C.
  - apply LW_ref; [exact HL|]. intros r. eapply lows_bind; [apply lows_status| |exact HL]. intros _. apply lows_front. fronts.
  - apply LW_ref; [exact HL|]. intros r. eapply lows_bind; [apply lows_status| |exact HL]. intros _. apply lows_front. fronts.
  - apply LW_ref; [exact HL|]. intros r. eapply lows_bind; [apply lows_status| |exact HL]. intros _. apply lows_front. fronts.
Qed.
Lemma LW_run ops : forall w w' outs, KW w -> LW w -> Forall op_named ops -> srun digest kdigest validate ecdsa now cb be w ops = (w', outs) -> LW w'.
Proof.
  induction ops as [|op ops IH]; intros w w' outs HK HL ON E; cbn [StorageModel.srun] in E.
  - injection E as <- _. exact HL.
  - inversion ON; subst. pose proof (LW_step w op HK HL) as HS. pose proof (KW_step digest kdigest validate ecdsa now cb be inj w op HK) as HS'.
    destruct (sstep digest kdigest validate ecdsa now cb be w op) as [w1 o1]. cbn [fst] in HS, HS'.
    destruct (srun digest kdigest validate ecdsa now cb be w1 ops) as [w2 os] eqn:E2. injection E as <- _. eapply IH; [apply HS'; assumption|exact HS| |exact E2]. assumption.
Qed.
Lemma low_init : LW init_world.
Proof. intros c b R. discriminate R. Qed.

Lemma c28_below ops w outs c b : srun digest kdigest validate ecdsa now cb be init_world ops = (w, outs) -> Forall op_named ops ->
  read (w_state w) c = Some b -> (b_seq b < s_next (w_state w))%Z.
Proof. intros E ON. apply (LW_run ops _ _ _ (KW_init digest ecdsa be) low_init ON E). Qed.

Lemma c28_any ops w outs h o ws w' out : srun digest kdigest validate ecdsa now cb be init_world ops = (w, outs) -> Forall op_named ops ->
  handle_obj w h = Some o -> sstep digest kdigest validate ecdsa now cb be w (SCommit h ws) = (w', out) ->
  s_next (w_state w') = (s_next (w_state w) + 1)%Z /\
  ((exists cd b, b_seq (cd_commit cd) = s_next (w_state w) /\
      read (w_state w') (b_cid (cd_commit cd)) = Some b /\ b_val b = b_val (cd_commit cd) /\
      (forall c x, read (w_state w) c = Some x -> read (w_state w') c = Some x) /\
      (forall c x, read (w_state w') c = Some x -> read (w_state w) c = Some x \/ b_seq x = s_next (w_state w)) /\
      (out = Ok (OutCommit cd) /\ s_calls (w_state w') = (if r_callback o then [CData (MCommit cd)] else []) ++ s_calls (w_state w) \/
       r_callback o = true /\ (exists k e, cb k = Some e) /\ (exists e, out = Err e) /\
         s_calls (w_state w') = [CLost (s_next (w_state w)); CData (MCommit cd)] ++ s_calls (w_state w))) \/
   (exists e, out = Err e) /\ s_blocks (w_state w') = s_blocks (w_state w) /\
     (forall c x, read (w_state w') c = Some x -> b_seq x <> s_next (w_state w)) /\
     s_calls (w_state w') = (if r_callback o then [CLost (s_next (w_state w))] else []) ++ s_calls (w_state w)).
Proof.
  intros E ON HO ST. pose proof (KW_run digest kdigest validate ecdsa now cb be inj ops _ _ _ (KW_init digest ecdsa be) ON E) as HK.
  pose proof (c28_below ops w outs) as BW. unfold handle_obj in HO. cbn [sstep] in ST. unfold on_ref in ST. destruct (nth_error (w_refs w) h) as [r|]; [|discriminate HO].
  pose proof (commit_calls r ws (w_state w) o HK HO) as [N C]. cbv zeta in *. unfold bindM in ST.
  destruct (commit digest kdigest validate ecdsa cb be r ws None (w_state w)) as [st oc]. cbn [fst snd] in *.
  assert (W : w' = World st (w_refs w) /\ out = match oc with Ok cd => Ok (OutCommit cd) | Err e => Err e end) by (destruct oc; injection ST as <- <-; auto).
  destruct W as [-> ->]. clear ST. cbn [w_state]. split; [exact N|]. destruct C as [(cd & (S1 & S2 & S3 & b & S4 & S5) & C)|((e & ->) & B & C)].
  - left. exists cd, b. split; [exact S1|]. split; [exact S4|]. split; [destruct S5 as [->|[_ V]]; auto|]. split; [exact S2|]. split; [exact S3|].
    destruct C as [[-> C]|(RC & X & (e & ->) & C)]; [left; auto|right]. split; [exact RC|]. split; [exact X|]. split; [eauto|exact C].
  - right. split; [eauto|]. split; [exact B|]. split; [|exact C]. intros c x R. unfold read in R. rewrite B in R. specialize (BW c x E ON R). lia.
Qed.

(** Status events. *)
Lemma event_norm type n d extra : norm (event now type n (Some d) extra) = event_value now type n d extra.
Proof. reflexivity. Qed.
Lemma write_cases d v st : K (s_next st) st -> low st -> truthy v = true ->
  exists st' b, write_obj digest be d v (s_next st) (set_next (s_next st + 1) st) = (st', Ok b) /\ b_val b = norm v /\
    s_next st' = (s_next st + 1)%Z /\ s_objs st' = s_objs st /\ s_calls st' = s_calls st /\
    (forall c x, read st c = Some x -> read st' c = Some x) /\
    (forall c x, read st' c = Some x -> read st c = Some x \/ b_seq x = s_next st) /\
    (exists x, read st' (cid_of digest (norm v)) = Some x /\ b_val x = norm v).
Proof.
  intros HK L TR. set (n := s_next st). set (st1 := set_next (n + 1) st). set (b := mk_block digest v d n None). set (st2 := fst (write_blocks [b] st1)).
  assert (RD : forall c, read st2 c = match read st c with Some x => Some x | None => if str_eqb c (b_cid b) then Some b else None end).
  { intros c. unfold st2. rewrite read_write_blocks. cbn [map dget]. reflexivity. }
  assert (SX : exists x, read st2 (b_cid b) = Some x /\ b_val x = norm v /\ (b_seq x <= n)%Z).
  { rewrite RD, str_eqb_refl. destruct (read st (b_cid b)) as [x|] eqn:R; [|exists b; split; [reflexivity|split; [reflexivity|cbn; lia]]].
    exists x. split; [reflexivity|]. split; [|specialize (L _ _ R); unfold n; lia].
    destruct (k_blocks _ _ _ _ _ HK _ _ R) as [C W]. change (norm v) with (b_val b). apply (wf_val digest inj); [exact W|apply mk_block_wf|exact C]. }
  destruct SX as (x & R & V & LE).
  assert (Y : exists y, write_obj digest be d v n st1 = (st2, Ok y) /\ b_val y = norm v).
  { unfold write_obj. fold b. destruct be.
    - rewrite TR. exists b. split; reflexivity.
    - assert (P : (0 <? n)%Z = true) by (apply Z.ltb_lt; apply (k_next _ _ _ _ _ HK)). unfold bindM, assert. rewrite P. unfold ret at 1.
      change (write_blocks [b] st1) with (st2, @Ok unit tt). unfold reads. rewrite R. apply Z.leb_le in LE. rewrite LE. exists x. split; [reflexivity|exact V]. }
  destruct Y as (y & Y & VY). exists st2, y. split; [exact Y|]. split; [exact VY|]. split; [reflexivity|]. split; [reflexivity|]. split; [reflexivity|].
  split; [intros c z; rewrite RD; intros ->; reflexivity|]. split; [|exists x; auto].
  intros c z. rewrite RD. destruct (read st c); [auto|]. destruct (str_eqb c (b_cid b)); [|discriminate]. intros [= <-]. right. reflexivity.
Qed.

Lemma event_calls r type extra st o d : K (s_next st) st -> low st -> nth_error (s_objs st) r = Some o -> repo_did o = Ok (Some d) ->
  let n := s_next st in let v := event_value now type n d extra in
  let st' := fst (write_event digest now cb be r type extra st) in let out := snd (write_event digest now cb be r type extra st) in
  s_next st' = (n + 1)%Z /\ (forall c x, read st c = Some x -> read st' c = Some x) /\
  (forall c x, read st' c = Some x -> read st c = Some x \/ b_seq x = n) /\
  (exists x, read st' (cid_of digest v) = Some x /\ b_val x = v) /\
  s_calls st' = (if r_callback o then [CData (MEvent v)] else []) ++ s_calls st /\
  ((exists b, out = Ok b) \/ r_callback o = true /\ exists k e, cb k = Some e /\ out = Err e).
Proof.
  intros HK L E D. cbv zeta. destruct (write_cases (Some d) (event now type (s_next st) (Some d) extra) st HK L eq_refl) as (st' & b & W & V & N & O & C & S1 & S2 & S3).
  rewrite event_norm in V, S3. set (v := event_value now type (s_next st) d extra) in *.
  assert (X : write_event digest now cb be r type extra st = bindM (callback cb r (CData (MEvent v))) (fun _ => ret b) st').
  { unfold write_event. unfold bindM at 1. change (allocate_seq st) with (set_next (s_next st + 1) st, Ok (s_next st)). cbv beta iota.
    unfold bindM at 1, obj. change (nth_error (s_objs (set_next (s_next st + 1) st)) r) with (nth_error (s_objs st) r). rewrite E.
    unfold bindM at 1, lift. rewrite D. unfold bindM at 1. rewrite W, V. reflexivity. }
  rewrite X. unfold bindM. rewrite callback_eq, O, E. destruct (r_callback o).
  - destruct (cb (length (s_calls st'))) as [e|] eqn:CB; unfold ret; cbn [fst snd];
      (split; [exact N|]; split; [exact S1|]; split; [exact S2|]; split; [exact S3|]; split; [cbn [add_call s_calls app]; rewrite C; reflexivity|]); eauto 6.
  - unfold ret. cbn [fst snd]. split; [exact N|]. split; [exact S1|]. split; [exact S2|]. split; [exact S3|]. split; [cbn [app]; exact C|]. eauto.
Qed.
Lemma c28_status ops w outs op h x type extra o did w' out : srun digest kdigest validate ecdsa now cb be init_world ops = (w, outs) -> Forall op_named ops ->
  status_op op = Some (h, x, type, extra) -> handle_obj w h = Some o -> handle_did w h = Some did ->
  sstep digest kdigest validate ecdsa now cb be w op = (w', out) ->
  let n := s_next (w_state w) in let v := event_value now type n did extra in
  (exists e, out = Err e) /\ s_next (w_state w') = n /\ s_blocks (w_state w') = s_blocks (w_state w) /\ s_calls (w_state w') = s_calls (w_state w) \/
  s_next (w_state w') = (n + 1)%Z /\ (forall c x, read (w_state w) c = Some x -> read (w_state w') c = Some x) /\
  (forall c x, read (w_state w') c = Some x -> read (w_state w) c = Some x \/ b_seq x = n) /\
  (exists x, read (w_state w') (cid_of digest v) = Some x /\ b_val x = v) /\
  s_calls (w_state w') = (if r_callback o then [CData (MEvent v)] else []) ++ s_calls (w_state w) /\
  (out = Ok OutDone \/ r_callback o = true /\ exists k e, cb k = Some e /\ out = Err e).
Proof.
  intros E ON SO HO HD ST. cbv zeta. pose proof (KW_run digest kdigest validate ecdsa now cb be inj ops _ _ _ (KW_init digest ecdsa be) ON E) as HK.
  pose proof (LW_run ops _ _ _ (KW_init digest ecdsa be) low_init ON E) as HL. unfold ChainProofs.KW in HK. unfold LW in HL.
  unfold handle_did in HD. rewrite HO in HD. destruct (repo_did o) as [dd|] eqn:D; [|discriminate]. subst dd.
  unfold handle_obj in HO. destruct (nth_error (w_refs w) h) as [r|] eqn:HR; [|discriminate HO].
  assert (SS : sstep digest kdigest validate ecdsa now cb be w op =
    on_ref w h (fun r => (set_repo_status be r x;; write_event digest now cb be r type extra;; ret tt);; ret OutDone)).
  { destruct op; try discriminate SO; injection SO as <- <- <- <-; reflexivity. }
  rewrite SS in ST. clear SS SO. unfold on_ref in ST. rewrite HR in ST. set (st := w_state w) in *.
  destruct (quiet_set_repo_status digest kdigest ecdsa now cb be inj r x (s_next st) st HK) as (K1 & R1 & _).
  destruct (front_status r x st) as [B1 N1]. destruct (blind_set_repo_status be r x) as (_ & BC & BH). specialize (BC st). specialize (BH st r (r_callback o)).
  unfold bindM at 1 2 in ST. destruct (set_repo_status be r x st) as [st1 [[]|e]]; cbn [fst snd] in *.
  2: { injection ST as <- <-. cbn [w_state]. left. split; [eauto|auto]. }
  destruct (e_objs _ _ R1 r o HO) as (o1 & E1 & H1 & _). assert (D1 : repo_did o1 = Ok (Some did)) by (unfold repo_did in *; rewrite H1; exact D).
  assert (RC : r_callback o1 = r_callback o). { unfold has_cb in BH. rewrite HO, E1 in BH. specialize (BH eq_refl). injection BH as ->. reflexivity. }
  rewrite <- N1 in K1. assert (L1 : low st1) by (unfold low, read; rewrite B1, N1; exact HL).
  assert (RE : forall c, read st1 c = read st c) by (intros c; unfold read; rewrite B1; reflexivity).
  pose proof (event_calls r type extra st1 o1 did K1 L1 E1 D1) as EC. cbv zeta in EC. rewrite N1, BC, RC in EC. right.
  unfold bindM in ST. destruct (write_event digest now cb be r type extra st1) as [st2 oc]. cbn [fst snd] in EC. destruct EC as (A1 & A2 & A3 & A4 & A5 & A6).
  assert (W : w' = World st2 (w_refs w) /\ out = match oc with Ok _ => Ok OutDone | Err e => Err e end) by (destruct oc; injection ST as <- <-; auto).
  destruct W as [-> ->]. cbn [w_state]. split; [exact A1|]. split; [intros c y; rewrite <- RE; apply A2|]. split; [intros c y; rewrite <- RE; apply A3|].
  split; [exact A4|]. split; [exact A5|]. destruct A6 as [[b ->]|(T & k & e & C & ->)]; [auto|]. right. split; [exact T|]. eauto.
Qed.
End Tell.
