(** Chains and callbacks on servers that take requests. *)
From Coq Require Import String List NArith ZArith Bool Lia.
From Verif Require Import Base Lists Ipld IpldProofs MstModel MstRep MstClient TidModel BlockModel CarModel StorageModel RepoSpec CallbackProofs IsolateSpec IsolateProofs
  ChainSpec ChainProofs TellProofs UriModel ServerModel ServerSpec AnySpec AnyProofs LogProofs FeedProofs SteadySpec.
Import ListNotations.
Local Open Scope m_scope.

Section Steady.
Variable digest : list N -> list N.
Variable kdigest : str -> list N.
Variable validate : ipld -> res unit.
Variable ecdsa : N -> Z -> list N -> list N.
Variable now : Z -> str.
Variable cb : nat -> option exn.
Variable be : backend.
Hypothesis inj : forall a b, digest a = digest b -> a = b.
Notation K := (ChainProofs.K digest ecdsa be).
Notation KW := (ChainProofs.KW digest ecdsa be).
Notation outcome := (SteadySpec.outcome cb).

Section Request.
Variable netloc_ok : str -> bool.
Variable cfg : config.

(** The request changed nothing, or did one commit on the repo that [x] names. *)
Definition ends (st : state) (x : str) (st' : state) (failed : Prop) : Prop :=
  K (s_next st') st' /\ low st' /\
  (untouched st st' \/ exists y o, repo_name netloc_ok x = Ok y /\ seen be st y = Some o /\ outcome (r_callback o) st st' failed).
Notation ends_at st x r := (ends st x (fst r) (exists e, snd r = Err e)).

Lemma outcome_weaken c st st' (F G : Prop) : (F -> G) -> outcome c st st' F -> outcome c st st' G.
Proof.
  intros H [N [(cd & b & A1 & A2 & A3 & A4 & A5 & A6)|(A1 & A2)]]; (split; [exact N|]).
  - left. exists cd, b. splits; auto. destruct A6 as [A6|(B1 & B2 & B3 & B4)]; [left; exact A6|right]. auto 6.
  - right. auto.
Qed.
Lemma ends_weaken st x st' (F G : Prop) : (F -> G) -> ends st x st' F -> ends st x st' G.
Proof.
  intros H (A & B & [C|(y & o & C1 & C2 & C3)]); (split; [exact A|]; split; [exact B|]); [left; exact C|right].
  exists y, o. split; [exact C1|]. split; [exact C2|]. eapply outcome_weaken; eauto.
Qed.

Lemma skip {A B} (m : M A) (f : A -> M B) st x : K (s_next st) st -> low st -> pure m ->
  (forall a, m st = (st, Ok a) -> ends_at st x (f a st)) -> ends_at st x (bindM m f st).
Proof.
  intros HK HL P H. unfold bindM. pose proof (P st) as E. destruct (m st) as [st1 [a|e]]; cbn [fst] in E; subst st1; [apply H; reflexivity|].
  cbn [fst snd]. split; [exact HK|]. split; [exact HL|]. left. split; [reflexivity|]. split; reflexivity.
Qed.
Lemma stop {A} st x (out : res A) : K (s_next st) st -> low st -> ends_at st x (st, out).
Proof. intros HK HL. cbn [fst snd]. split; [exact HK|]. split; [exact HL|]. left. split; [reflexivity|]. split; reflexivity. Qed.
(** What follows a commit only reads. *)
Lemma finally {A B} (m : M A) (f : A -> M B) st x st0 : (forall a, pure (f a)) -> ends st x (fst (m st0)) (exists e, snd (m st0) = Err e) ->
  ends_at st x (bindM m f st0).
Proof.
  intros P H. unfold bindM. destruct (m st0) as [st1 [a|e]]; cbn [fst snd] in *.
  - rewrite (P a st1). eapply ends_weaken; [|exact H]. intros [e E]. discriminate E.
  - eapply ends_weaken; [|exact H]. intros _. eauto.
Qed.

(** A load. *)
Lemma load_calm st x : K (s_next st) st -> low st ->
  let st1 := fst (server_load be netloc_ok x st) in
  K (s_next st1) st1 /\ low st1 /\ untouched st st1 /\ (forall y, seen be st1 y = seen be st y) /\
  forall r, snd (server_load be netloc_ok x st) = Ok r -> exists y o, repo_name netloc_ok x = Ok y /\ seen be st y = Some o /\ nth_error (s_objs st1) r = Some o.
Proof.
  intros HK HL. cbv zeta.
  assert (E : server_load be netloc_ok x st = match repo_name netloc_ok x with
    | Err e => (st, Err e)
    | Ok y => bindM (load_repo be y) (fun r => match r with
        | None => throw (XrpcError (s "RepoNotFound"))
        | Some r => let! o := obj r in match r_status o with Some (_ :: _) => throw (XrpcError (s "RepoDeactivated")) | _ => ret r end
        end) st
    end).
  { unfold server_load, repo_name. destruct (starts_with (s "at://") x); [|reflexivity]. unfold bindM at 1 2, lift. destruct (parse_at_uri netloc_ok x); reflexivity. }
  rewrite E. clear E. destruct (repo_name netloc_ok x) as [y|e] eqn:RN.
  2: { cbn [fst snd]. split; [exact HK|]. split; [exact HL|]. split; [repeat split|]. split; [reflexivity|discriminate]. }
  destruct (K_load_repo digest kdigest ecdsa now cb be inj y _ st HK) as (K1 & _ & _). destruct (front_load be y st) as [B1 N1].
  destruct (blind_load_repo be y) as (_ & C1 & _). specialize (C1 st). unfold bindM.
  destruct (load_repo be y st) as [st1 out] eqn:L. cbn [fst] in *. pose proof (load_same be st y st1 out L) as SS.
  assert (U : untouched st st1) by (repeat split; assumption).
  assert (L1 : low st1) by (unfold low, read; rewrite B1, N1; exact HL). rewrite <- N1 in K1.
  destruct out as [[r|]|e].
  2: { cbn [throw fst snd]. split; [exact K1|]. split; [exact L1|]. split; [exact U|]. split; [exact SS|discriminate]. }
  2: { cbn [throw fst snd]. split; [exact K1|]. split; [exact L1|]. split; [exact U|]. split; [exact SS|discriminate]. }
  unfold obj. pose proof (seen_load be _ _ _ _ L) as SE. destruct (nth_error (s_objs st1) r) as [o|] eqn:EO; cbn [fst snd].
  2: { split; [exact K1|]. split; [exact L1|]. split; [exact U|]. split; [exact SS|discriminate]. }
  destruct (r_status o) as [[|? ?]|]; unfold throw, ret; cbn [fst snd];
    (split; [exact K1|]; split; [exact L1|]; split; [exact U|]; split; [exact SS|]); try discriminate; intros r0 [= <-]; eauto 6.
Qed.
Lemma untouched_trans a b c : untouched a b -> untouched b c -> untouched a c.
Proof. intros (A1 & A2 & A3) (B1 & B2 & B3). repeat split; congruence. Qed.
Lemma outcome_from c st st1 st' F : untouched st st1 -> outcome c st1 st' F -> outcome c st st' F.
Proof.
  intros (A1 & A2 & A3) (N & H). unfold SteadySpec.outcome. rewrite <- A1, <- A2, <- A3.
  assert (R : forall c, read st c = read st1 c) by (intros k; unfold read; rewrite A1; reflexivity).
  split; [exact N|]. destruct H as [(cd & b & H1 & H2 & H3 & H4 & H5 & H6)|H]; [left|right; exact H].
  exists cd, b. splits; auto. { intros k z Z. rewrite R in Z. auto. } intros k z Z. rewrite R. auto.
Qed.
Lemma ends_from st x st1 st' F : untouched st st1 -> (forall y, seen be st1 y = seen be st y) -> ends st1 x st' F -> ends st x st' F.
Proof.
  intros U SS (A & B & [C|(y & o & C1 & C2 & C3)]); (split; [exact A|]; split; [exact B|]); [left; eapply untouched_trans; eauto|right].
  exists y, o. rewrite <- SS. split; [exact C1|]. split; [exact C2|]. eapply outcome_from; eauto.
Qed.

(** A commit through what was loaded. *)
Lemma commit_ends st r ws x y o : K (s_next st) st -> low st -> nth_error (s_objs st) r = Some o -> repo_name netloc_ok x = Ok y -> seen be st y = Some o ->
  ends_at st x (commit digest kdigest validate ecdsa cb be r ws None st).
Proof.
  intros HK HL EO RN SE. split; [|split].
  - apply (step_commit digest kdigest validate ecdsa now cb be inj (fun _ => True) (fun _ _ => True) r ws None); auto. intros seq. apply spec_commit_; auto.
  - apply low_commit; auto.
  - right. exists y, o. split; [exact RN|]. split; [exact SE|].
    pose proof (commit_calls digest kdigest validate ecdsa now cb be inj r ws st o HK EO) as [N C]. cbv zeta in *. split; [exact N|].
    destruct C as [(cd & (S1 & S2 & S3 & b & S4 & S5) & C)|(E & B & C)]; [left|right].
    + exists cd, b. split; [exact S1|]. split; [exact S4|]. split; [destruct S5 as [->|[_ V]]; auto|]. split; [exact S2|]. split; [exact S3|].
      destruct C as [[_ C]|C]; [left; exact C|right; exact C].
    + split; [exact E|]. split; [exact B|]. split; [|exact C]. intros c z R. unfold read in R. rewrite B in R. specialize (HL c z R). lia.
Qed.

Lemma pure_with_obj {A} r (f : repo -> M A) : (forall o, pure (f o)) -> pure (bindM (obj r) f).
Proof. intros H. apply pure_bind; [apply pure_obj|exact H]. Qed.

Lemma loaded {B} st x (f : nat -> M B) : K (s_next st) st -> low st ->
  (forall r st1 y o, K (s_next st1) st1 -> low st1 -> repo_name netloc_ok x = Ok y -> seen be st1 y = Some o -> nth_error (s_objs st1) r = Some o ->
     ends_at st1 x (f r st1)) ->
  ends_at st x (bindM (server_load be netloc_ok x) f st).
Proof.
  intros HK HL H. destruct (load_calm st x HK HL) as (K1 & L1 & U & SS & LD). cbv zeta in *. unfold bindM.
  destruct (server_load be netloc_ok x st) as [st1 [r|e]]; cbn [fst snd] in *.
  - destruct (LD r eq_refl) as (y & o & RN & SE & EO). eapply ends_from; [exact U|exact SS|]. apply (H r st1 y o); auto. rewrite SS. exact SE.
  - eapply ends_from; [exact U|exact SS|]. apply (stop st1 x (@Err B e)); assumption.
Qed.

Ltac pass := apply skip; [assumption|assumption|first [apply pure_lift|apply pure_obj|apply pure_find|apply pure_did_of]|].
Lemma put_ends st header i x : K (s_next st) st -> low st -> (forall y, i_repo i = Some y -> y = x) ->
  ends_at st x (put_record digest kdigest validate ecdsa cb be netloc_ok cfg header i st).
Proof.
  intros HK HL X. unfold put_record. pass. intros [] _. pass. intros [] _. pass. intros x0 E. unfold lift, arg in E.
  destruct (i_repo i) as [x1|]; [|discriminate E]. injection E as ->. rewrite (X x0 eq_refl).
  apply loaded; [assumption|assumption|]. intros r st1 y o K1 L1 RN SE EO. pass. intros coll _. pass. intros rkey _. pass. intros o1 _. pass. intros ex _.
  destruct (i_record i) as [v|]; [|apply stop; assumption].
  apply finally; [|eapply commit_ends; eauto]. intros cd. apply pure_with_obj. intros o2. apply pure_bind; [apply pure_did_of|]. intros d. apply pure_bind; [apply pure_lift|]. intros u. apply pure_ret.
Qed.
Lemma create_ends st header i tid x : K (s_next st) st -> low st -> (forall y, i_repo i = Some y -> y = x) ->
  ends_at st x (create_record digest kdigest validate ecdsa cb be netloc_ok cfg header i tid st).
Proof.
  intros HK HL X. unfold create_record. apply skip; [assumption|assumption|destruct (given (i_collection i)); [apply pure_ret|apply pure_lift]|]. intros co _.
  pass. intros [] _. pass. intros [] _. pass. intros x0 E. unfold lift, arg in E.
  destruct (i_repo i) as [x1|] eqn:IR; [|discriminate E]. injection E as ->. rewrite (X x0 eq_refl).
  apply loaded; [assumption|assumption|]. intros r st1 y o K1 L1 _ _ _. apply put_ends; [assumption|assumption|].
  destruct (i_rkey i); cbn [i_repo with_rkey]; rewrite IR; intros z [= <-]; auto.
Qed.
Lemma delete_ends st header i x : K (s_next st) st -> low st -> (forall y, i_repo i = Some y -> y = x) ->
  ends_at st x (delete_record digest kdigest validate ecdsa cb be netloc_ok cfg header i st).
Proof.
  intros HK HL X. unfold delete_record. pass. intros [] _. pass. intros [] _. pass. intros x0 E. unfold lift, arg in E.
  destruct (i_repo i) as [x1|]; [|discriminate E]. injection E as ->. rewrite (X x0 eq_refl).
  apply loaded; [assumption|assumption|]. intros r st1 y o K1 L1 RN SE EO. pass. intros coll _. pass. intros rkey _. pass. intros o1 _. pass. intros ex _.
  destruct ex as [ex|]; [|apply stop; assumption]. apply finally; [|eapply commit_ends; eauto]. intros cd. apply pure_ret.
Qed.
(** Reading. *)
Definition calm {A} (m : M A) : Prop := forall st, K (s_next st) st -> low st ->
  K (s_next (fst (m st))) (fst (m st)) /\ low (fst (m st)) /\ untouched st (fst (m st)).
Lemma calm_pure {A} (m : M A) : pure m -> calm m.
Proof. intros P st HK HL. rewrite P. split; [exact HK|]. split; [exact HL|]. repeat split. Qed.
Lemma calm_bind {A B} (m : M A) (f : A -> M B) : calm m -> (forall a, calm (f a)) -> calm (bindM m f).
Proof.
  intros H F st HK HL. destruct (H st HK HL) as (A1 & A2 & A3). unfold bindM. destruct (m st) as [st1 [a|e]]; cbn [fst] in *; [|auto].
  destruct (F a st1 A1 A2) as (B1 & B2 & B3). split; [exact B1|]. split; [exact B2|]. eapply untouched_trans; eauto.
Qed.
Lemma calm_get repo coll rkey c : calm (xrpc_get_record digest kdigest be netloc_ok cfg repo coll rkey c).
Proof.
  unfold xrpc_get_record. apply calm_bind; [apply calm_pure, pure_lift|]. intros [].
  apply calm_bind; [apply calm_pure; destruct (given c); [apply pure_throw|apply pure_ret]|]. intros []. apply calm_bind; [apply calm_pure, pure_lift|]. intros x.
  apply calm_bind. { intros st HK HL. destruct (load_calm st x HK HL) as (A1 & A2 & A3 & _). auto. }
  intros r. apply calm_bind; [apply calm_pure, pure_obj|]. intros o. apply calm_bind; [apply calm_pure, pure_find|]. intros ex.
  destruct ex as [v|]; [|apply calm_pure, pure_throw]. destruct (negb _); [apply calm_pure, pure_throw|].
  apply calm_bind; [apply calm_pure, pure_did_of|]. intros d. apply calm_bind; [apply calm_pure, pure_lift|]. intros u. apply calm_pure, pure_ret.
Qed.

Lemma serve_ends st q : K (s_next st) st -> low st -> ends_at st (match request_repo q with Some x => x | None => [] end) (serve digest kdigest validate ecdsa cb be netloc_ok cfg q st).
Proof.
  intros HK HL. destruct q as [header i tid|header i|header i|repo coll rkey c]; cbn [serve request_repo].
  - apply finally; [intros a; apply pure_ret|]. apply create_ends; [assumption|assumption|]. intros y ->. reflexivity.
  - apply finally; [intros a; apply pure_ret|]. apply put_ends; [assumption|assumption|]. intros y ->. reflexivity.
  - apply finally; [intros a; apply pure_ret|]. apply delete_ends; [assumption|assumption|]. intros y ->. reflexivity.
  - apply finally; [intros a; apply pure_ret|]. destruct (calm_get repo coll rkey c st HK HL) as (A1 & A2 & A3). split; [exact A1|]. split; [exact A2|]. left. exact A3.
Qed.
End Request.

(** ** Histories *)

Lemma steady_step w a : KW w -> LW w -> no_import a -> let w' := fst (astep digest kdigest validate ecdsa now cb be w a) in KW w' /\ LW w'.
Proof.
  intros HK HL NI. destruct a as [op|netloc_ok cfg q|]; [| |contradiction]; cbn [astep no_import] in *; cbv zeta.
  - pose proof (KW_step digest kdigest validate ecdsa now cb be inj w op HK NI) as A. pose proof (LW_step digest kdigest validate ecdsa now cb be inj w op HK HL) as B.
    destruct (sstep digest kdigest validate ecdsa now cb be w op) as [w1 o]. auto.
  - destruct (serve_ends netloc_ok cfg (w_state w) q HK HL) as (A & B & _).
    destruct (serve digest kdigest validate ecdsa cb be netloc_ok cfg q (w_state w)) as [st o]. auto.
Qed.
Lemma steady_run l : Forall no_import l -> let w := arun digest kdigest validate ecdsa now cb be init_world l in KW w /\ LW w.
Proof.
  cbv zeta. unfold arun. assert (G : forall l w, Forall no_import l -> KW w -> LW w ->
    let w' := fold_left (fun w a => fst (astep digest kdigest validate ecdsa now cb be w a)) l w in KW w' /\ LW w').
  { clear l. induction l as [|a l IH]; intros w F HK HL; [auto|]. inversion F; subst. cbn [fold_left].
    destruct (steady_step w a HK HL) as [A B]; [assumption|]. apply IH; assumption. }
  intros F. apply G; [exact F|apply KW_init|apply low_init].
Qed.

Lemma chain_steady l d o : Forall no_import l -> is_did d -> let w := arun digest kdigest validate ecdsa now cb be init_world l in
  seen be (w_state w) d = Some o -> exists h rev, r_head o = Some h /\ signed_chain ecdsa (w_state w) d (r_key o) (b_cid h) rev.
Proof.
  intros F ID. cbv zeta. destruct (steady_run l F) as [HK _]. cbv zeta in HK. set (w := arun _ _ _ _ _ _ _ _ l) in *. intros SE.
  destruct (K_load_repo digest kdigest ecdsa now cb be inj d _ _ HK) as (K1 & R1 & V).
  unfold seen in SE. destruct (load_repo be d (w_state w)) as [st1 [[r|]|e]] eqn:L; try discriminate SE. cbn [fst snd] in *.
  destruct (V ID r eq_refl) as (o' & h & E' & H & G & _). assert (o' = o) by congruence. subst o'.
  assert (SB : s_blocks (w_state w) = s_blocks st1).
  { pose proof (load_blocks be d (w_state w)) as X. rewrite L in X. symmetry. exact X. }
  apply (good_same digest kdigest ecdsa now inj _ st1 (w_state w)) in G; [|exact SB]. destruct G as (_ & _ & _ & n & _ & LK). apply (linked_chain digest kdigest ecdsa now inj) in LK. destruct LK as (rev & _ & C). eauto.
Qed.
Lemma below_steady l c b : Forall no_import l -> let w := arun digest kdigest validate ecdsa now cb be init_world l in
  read (w_state w) c = Some b -> (b_seq b < s_next (w_state w))%Z.
Proof. intros F. apply (steady_run l F). Qed.
Lemma request_steady l netloc_ok cfg q : Forall no_import l -> let st := w_state (arun digest kdigest validate ecdsa now cb be init_world l) in
  let r := serve digest kdigest validate ecdsa cb be netloc_ok cfg q st in
  untouched st (fst r) \/
  exists x y o, request_repo q = Some x /\ repo_name netloc_ok x = Ok y /\ seen be st y = Some o /\ outcome (r_callback o) st (fst r) (exists e, snd r = Err e).
Proof.
  intros F. cbv zeta. destruct (steady_run l F) as [HK HL].
  destruct (serve_ends netloc_ok cfg _ q HK HL) as (_ & _ & [U|(y & o & A & B & C)]); [left; exact U|].
  destruct (request_repo q) as [x|] eqn:E; [right; exists x, y, o; auto|].
  exfalso. revert B. clear - A. unfold repo_name in A. cbn in A. injection A as <-. unfold seen. rewrite load_repo_eq. cbn. discriminate.
Qed.
Lemma commit_steady l h o ws : Forall no_import l -> let w := arun digest kdigest validate ecdsa now cb be init_world l in
  handle_obj w h = Some o -> let '(w', out) := sstep digest kdigest validate ecdsa now cb be w (SCommit h ws) in
  outcome (r_callback o) (w_state w) (w_state w') (exists e, out = Err e).
Proof.
  intros F. cbv zeta. destruct (steady_run l F) as [HK HL]. cbv zeta in HK, HL. set (w := arun _ _ _ _ _ _ _ _ l) in *. intros HO.
  unfold handle_obj in HO. cbn [sstep]. unfold on_ref. destruct (nth_error (w_refs w) h) as [r|]; [|discriminate HO].
  pose proof (commit_calls digest kdigest validate ecdsa now cb be inj r ws (w_state w) o HK HO) as [N C]. cbv zeta in *. unfold bindM.
  destruct (commit digest kdigest validate ecdsa cb be r ws None (w_state w)) as [st oc]. cbn [fst snd] in *.
  assert (W : match oc with Ok cd => ret (OutCommit cd) st | Err e => (st, Err e) end = (st, match oc with Ok cd => Ok (OutCommit cd) | Err e => Err e end)) by (destruct oc; reflexivity).
  rewrite W. cbn [w_state]. split; [exact N|]. destruct C as [(cd & (S1 & S2 & S3 & b & S4 & S5) & C)|((e & ->) & B & C)].
  - left. exists cd, b. split; [exact S1|]. split; [exact S4|]. split; [destruct S5 as [->|[_ V]]; auto|]. split; [exact S2|]. split; [exact S3|].
    destruct C as [[-> C]|(RC & X & (e & ->) & C)]; [left; auto|right]. split; [exact RC|]. split; [exact X|]. split; [eauto|exact C].
  - right. split; [eauto|]. split; [exact B|]. split; [|exact C]. intros c x R. unfold read in R. rewrite B in R. specialize (HL c x R). lia.
Qed.
End Steady.
