(** Requests do what loads and commits do. *)
From Coq Require Import String List NArith ZArith Bool Lia.
From Verif Require Import Base Lists Ipld MstModel MstRep StorageModel StorageSpec RepoSpec RepoProofs RepoHist RepoFacts UriModel ServerModel ServerSpec ServerProofs
  ReplicaSpec ReplicaProofs RequestSpec.
Import ListNotations.
Local Open Scope m_scope.

Section Requests.
Variable digest : list N -> list N.
Variable kdigest : str -> list N.
Variable validate : ipld -> res unit.
Variable ecdsa : N -> Z -> list N -> list N.
Variable now : Z -> str.
Variable cb : nat -> option exn.
Variable be : backend.
Variable netloc_ok : str -> bool.
Variable cfg : config.

Notation sstep := (sstep digest kdigest validate ecdsa now cb be).
Notation srun := (srun digest kdigest validate ecdsa now cb be).
Notation serve := (serve digest kdigest validate ecdsa cb be netloc_ok cfg).
Notation clean_from := (clean_from digest kdigest validate ecdsa now cb be).
Notation commit := (commit digest kdigest validate ecdsa cb be).
Notation server_load := (server_load be netloc_ok).

Definition does {A} (m : M A) (st : state) (refs : list nat) : Prop := exists ops outs extra,
  srun (World st refs) ops = (World (fst (m st)) (refs ++ extra), outs) /\ Forall request_op ops /\
  (length (filter is_commit ops) <= 1)%nat /\ (be = Memory -> (s_next st < 2 ^ 55)%Z -> clean_from (World st refs) ops).

Lemma does_pure {A} (m : M A) st refs : fst (m st) = st -> does m st refs.
Proof. intros E. exists [], [], []. rewrite E, app_nil_r. repeat split; auto. Qed.

Lemma does_bind {A B} (m : M A) (f : A -> M B) st refs : fst (m st) = st -> (forall a, snd (m st) = Ok a -> does (f a) st refs) ->
  does (bindM m f) st refs.
Proof.
  intros E F. unfold does, bindM. destruct (m st) as [st1 [a|e]] eqn:X; cbn [fst snd] in *; subst st1.
  - exact (F a eq_refl).
  - apply (does_pure (@throw B e)). reflexivity.
Qed.
Lemma does_lift {A B} (x : res A) (f : A -> M B) st refs : (forall a, x = Ok a -> does (f a) st refs) -> does (bindM (lift x) f) st refs.
Proof. intros F. apply does_bind; [reflexivity|exact F]. Qed.

Lemma mem_find_same x l : forall st, fst (mem_find x l st) = st.
Proof.
  induction l as [|[k r] l IH]; intros st; [reflexivity|]. cbn [mem_find]. unfold bindM at 1, obj.
  destruct (nth_error (s_objs st) r) as [o|]; [|reflexivity]. unfold bindM, lift, ret, throw. destruct (repo_did o) as [d|e]; [|reflexivity].
  destruct (_ || _); [reflexivity|apply IH].
Qed.
Lemma load_next x st : s_next (fst (load_repo be x st)) = s_next st.
Proof.
  unfold load_repo, bindM, assert, reads. destruct (nonempty x); [|reflexivity]. unfold ret. destruct be; [rewrite mem_find_same; reflexivity|].
  destruct (ent_find x (s_ents st)) as [[k e]|]; [|reflexivity]. unfold repo_load, bindM, reads. destruct (read st (e_head e)); [|reflexivity].
  unfold lift. destruct (item_link _ _); reflexivity.
Qed.

Lemma load_step x st refs : exists extra out, sstep (World st refs) (SLoad x) = (World (fst (load_repo be x st)) (refs ++ extra), out) /\
  forall r, snd (load_repo be x st) = Ok (Some r) -> In r (refs ++ extra).
Proof.
  cbn [StorageModel.sstep]. unfold on_new. cbn [w_state w_refs]. destruct (load_repo be x st) as [st1 [[r|]|e]]; cbn [fst snd].
  - exists [r], (Ok OutRepo). split; [reflexivity|]. intros r0 [= <-]. apply in_or_app. right. left. reflexivity.
  - exists [], (Ok OutNone). rewrite app_nil_r. split; [reflexivity|]. intros r0 H. discriminate H.
  - exists [], (Err e). rewrite app_nil_r. split; [reflexivity|]. intros r0 H. discriminate H.
Qed.

Lemma does_load {B} x (f : nat -> M B) st refs :
  (forall r st1 refs1, In r refs1 -> does (f r) st1 refs1) -> does (bindM (server_load x) f) st refs.
Proof.
  intros F. unfold ServerModel.server_load.
  assert (E : forall y, does (bindM (let! r := load_repo be y in match r with None => throw (XrpcError (s "RepoNotFound"))
      | Some r => let! o := obj r in match r_status o with Some (_ :: _) => throw (XrpcError (s "RepoDeactivated")) | _ => ret r end end) f) st refs).
  { intros y. destruct (load_step y st refs) as (extra & out & L & IN). pose proof (load_next y st) as NX.
    assert (H : forall (m : M B) st1, fst (load_repo be y st) = st1 -> does m st1 (refs ++ extra) -> exists ops outs extra',
      srun (World st refs) ops = (World (fst (m st1)) (refs ++ extra'), outs) /\ Forall request_op ops /\
      (length (filter is_commit ops) <= 1)%nat /\ (be = Memory -> (s_next st < 2 ^ 55)%Z -> clean_from (World st refs) ops)).
    { intros m st1 E1 (ops & outs & ex & R & S & N1 & C). exists (SLoad y :: ops), (out :: outs), (extra ++ ex). rewrite app_assoc.
      cbn [StorageModel.srun]. rewrite L, E1, R. split; [reflexivity|]. split; [constructor; [exact I|exact S]|]. split; [exact N1|].
      intros M NS. cbn [RepoSpec.clean_from]. rewrite L. cbn [fst snd]. rewrite E1. split; [exact I|]. apply C; [exact M|]. rewrite <- E1, NX. exact NS. }
    unfold does, bindM. destruct (load_repo be y st) as [st1 [[r|]|e]] eqn:LE; cbn [fst snd] in *.
    - unfold obj at 1, bindM. destruct (nth_error (s_objs st1) r) as [o|]; [|apply (H (@throw B _) st1); [reflexivity|apply does_pure; reflexivity]].
      unfold ret. destruct (r_status o) as [[|z zs]|];
        [apply (H (f r) st1); [reflexivity|apply F; auto]| |apply (H (f r) st1); [reflexivity|apply F; auto]].
      apply (H (@throw B (XrpcError (s "RepoDeactivated"))) st1); [reflexivity|apply does_pure; reflexivity].
    - apply (H (@throw B (XrpcError (s "RepoNotFound"))) st1); [reflexivity|apply does_pure; reflexivity].
    - apply (H (@throw B e) st1); [reflexivity|apply does_pure; reflexivity]. }
  destruct (starts_with (s "at://") x); [|exact (E x)].
  destruct (parse_at_uri netloc_ok x) as [p|e].
  - exact (E (fst (fst p))).
  - apply (does_pure (@throw B e)). reflexivity.
Qed.

Lemma does_commit {B} r w1 (f : commit_data -> M B) st refs : In r refs ->
  (forall cd st', fst (f cd st') = st') -> does (bindM (commit r [w1] None) f) st refs.
Proof.
  intros IN F. apply In_nth_error in IN as (h & H).
  exists [SCommit h [w1]], [match snd (commit r [w1] None st) with Ok cd => Ok (OutCommit cd) | Err e => Err e end], [].
  assert (ST : sstep (World st refs) (SCommit h [w1]) =
    (World (fst (commit r [w1] None st)) refs, match snd (commit r [w1] None st) with Ok cd => Ok (OutCommit cd) | Err e => Err e end)).
  { cbn [StorageModel.sstep]. unfold on_ref. cbn [w_refs w_state]. rewrite H. unfold bindM, ret. destruct (commit r [w1] None st) as [st1 [cd|e]]; reflexivity. }
  cbn [StorageModel.srun]. rewrite ST, app_nil_r. split; [|split; [|split]].
  - unfold bindM. destruct (commit r [w1] None st) as [st1 [cd|e]]; cbn [fst]; [rewrite F|]; reflexivity.
  - constructor; [reflexivity|constructor].
  - cbn. lia.
  - intros M NX. cbn [RepoSpec.clean_from]. rewrite ST. cbn [snd fst]. split; [|exact I]. cbn [clean_step].
    destruct (snd (commit r [w1] None st)); [exact I|]. right. split; [left; cbn; lia|exact NX].
Qed.

Lemma does_put header i st refs : does (put_record digest kdigest validate ecdsa cb be netloc_ok cfg header i) st refs.
Proof.
  unfold put_record. apply does_lift; intros _ _. apply does_lift; intros _ _. apply does_lift; intros x _.
  apply does_load. intros r st1 refs1 IN. apply does_lift; intros coll _. apply does_lift; intros rkey _.
  apply does_bind; [unfold obj; destruct (nth_error (s_objs st1) r); reflexivity|]. intros o _.
  apply does_bind; [reflexivity|]. intros ex _. destruct (i_record i) as [v|]; [|apply does_pure; reflexivity].
  apply does_commit; [exact IN|]. intros cd st2. unfold bindM at 1, obj. destruct (nth_error (s_objs st2) r) as [o2|]; [|reflexivity].
  unfold ret. unfold bindM, did_of, need_did. unfold lift, ret, throw. destruct (repo_did o2) as [[d|]|]; try reflexivity. cbn. destruct (at_uri d coll rkey); reflexivity.
Qed.

Lemma does_serve q st refs : does (serve q) st refs.
Proof.
  assert (P : forall A B (m : M A) (g : A -> B) st refs, does m st refs -> does (bindM m (fun x => ret (g x))) st refs).
  { clear. intros A B m g st refs (ops & outs & ex & R & S & C). exists ops, outs, ex. split; [|auto]. rewrite R. unfold bindM. destruct (m st) as [st1 [a|e]]; reflexivity. }
  destruct q as [header i tid|header i|header i|repo coll rkey c]; cbn [ServerSpec.serve].
  - apply P. unfold create_record. apply does_bind; [destruct (given _); reflexivity|]. intros coll _. apply does_lift; intros _ _. apply does_lift; intros _ _.
    apply does_lift; intros x _. apply does_load. intros r st1 refs1 IN. apply does_put.
  - apply P, does_put.
  - apply P. unfold delete_record. apply does_lift; intros _ _. apply does_lift; intros _ _. apply does_lift; intros x _.
    apply does_load. intros r st1 refs1 IN. apply does_lift; intros coll _. apply does_lift; intros rkey _.
    apply does_bind; [unfold obj; destruct (nth_error (s_objs st1) r); reflexivity|]. intros o _.
    apply does_bind; [reflexivity|]. intros [v|] _; [|apply does_pure; reflexivity].
    apply does_commit; [exact IN|]. reflexivity.
  - apply P. unfold xrpc_get_record. apply does_lift; intros _ _. apply does_bind; [destruct (given c); reflexivity|]. intros _ _.
    apply does_lift; intros x _. apply does_load. intros r st1 refs1 IN.
    apply does_bind; [unfold obj; destruct (nth_error (s_objs st1) r); reflexivity|]. intros o _.
    apply does_bind; [reflexivity|]. intros [v|] _; [|apply does_pure; reflexivity]. destruct (negb _); [apply does_pure; reflexivity|].
    apply does_bind; [unfold did_of, need_did; unfold bindM, lift, throw, ret; destruct (repo_did o) as [[d|]|]; reflexivity|]. intros d _.
    apply does_lift; intros u _. apply does_pure. reflexivity.
Qed.

(** ** Whole histories *)

Definition follows (w w2 : world) : Prop := exists ops outs w2', srun w2 ops = (w2', outs) /\ covers w w2' /\ Forall op_named ops /\ (be = Memory -> clean_from w2 ops).

Lemma covers_new w w2 m w' out : covers w w2 -> on_new w m = (w', out) -> exists w2', on_new w2 m = (w2', out) /\ covers w' w2'.
Proof.
  clear. intros [CS CR]. unfold on_new. rewrite CS. destruct (m (w_state w)) as [st [[r|]|e]]; intros [= <- <-]; eexists; (split; [reflexivity|]); split; cbn [w_state w_refs]; auto.
  intros r' H. apply in_app_or in H as [H|H]; apply in_or_app; auto.
Qed.
Lemma covers_ref w w2 r h h2 f w' out : covers w w2 -> nth_error (w_refs w) h = Some r -> nth_error (w_refs w2) h2 = Some r -> on_ref w h f = (w', out) ->
  exists w2', on_ref w2 h2 f = (w2', out) /\ covers w' w2'.
Proof.
  clear. intros [CS CR] H H2. unfold on_ref. rewrite H, H2, CS. destruct (f r (w_state w)) as [st o]. intros [= <- <-]. eexists. split; [reflexivity|]. split; cbn; auto.
Qed.

Lemma follows_one w2 op w2' out w' : sstep w2 op = (w2', out) -> covers w' w2' -> op_named op -> (be = Memory -> clean_step w2 op out) -> follows w' w2.
Proof.
  intros S C N CL. exists [op], [out], w2'. cbn [StorageModel.srun]. rewrite S. split; [reflexivity|]. split; [exact C|]. split; [constructor; auto|].
  intros M. cbn [RepoSpec.clean_from]. rewrite S. cbn [snd]. auto.
Qed.

Lemma follows_op w w2 op w' out : covers w w2 -> op_named op -> (be = Memory -> clean_step w op out) -> sstep w op = (w', out) -> follows w' w2.
Proof.
  intros C N CL S. pose proof C as [CS CR].
  assert (NONE : forall w'', w'' = w -> follows w'' w2).
  { intros w'' ->. exists [], [], w2. split; [reflexivity|]. split; [exact C|]. split; [constructor|]. intros _. exact I. }
  assert (REF : forall h r, nth_error (w_refs w) h = Some r -> exists h2, nth_error (w_refs w2) h2 = Some r).
  { intros h r H. apply nth_error_In in H. apply CR in H. apply In_nth_error in H. exact H. }
  destruct op as [did handle status hc key|x|h k|h x|h ws|h|h|h]; cbn [StorageModel.sstep] in S.
  - destruct (covers_new _ _ _ _ _ C S) as (w2' & S2 & C2). eapply (follows_one w2 (SCreate did handle status hc key)); eauto; intros _; exact I.
  - destruct (covers_new _ _ _ _ _ C S) as (w2' & S2 & C2). eapply (follows_one w2 (SLoad x)); eauto; intros _; exact I.
  - destruct (nth_error (w_refs w) h) as [r|] eqn:H; [|injection S as <- _; apply NONE; reflexivity].
    destruct (REF _ _ H) as (h2 & H2). destruct (covers_new _ _ _ _ _ C S) as (w2' & S2 & C2).
    eapply (follows_one w2 (SLoadAt h2 k)); eauto. cbn [StorageModel.sstep]; rewrite H2; exact S2.
  - destruct (nth_error (w_refs w) h) as [r|] eqn:H; [|unfold on_ref in S; rewrite H in S; injection S as <- _; apply NONE; reflexivity].
    destruct (REF _ _ H) as (h2 & H2). destruct (covers_ref _ _ _ _ _ _ _ _ C H H2 S) as (w2' & S2 & C2).
    eapply (follows_one w2 (SCallback h2 x)); eauto; intros _; exact I.
  - destruct (nth_error (w_refs w) h) as [r|] eqn:H; [|unfold on_ref in S; rewrite H in S; injection S as <- _; apply NONE; reflexivity].
    destruct (REF _ _ H) as (h2 & H2). destruct (covers_ref _ _ _ _ _ _ _ _ C H H2 S) as (w2' & S2 & C2).
    eapply (follows_one w2 (SCommit h2 ws)); eauto. intros M. specialize (CL M). unfold clean_step, handle_obj in *. rewrite H2, CS. rewrite H in CL. exact CL.
  - destruct (nth_error (w_refs w) h) as [r|] eqn:H; [|unfold on_ref in S; rewrite H in S; injection S as <- _; apply NONE; reflexivity].
    destruct (REF _ _ H) as (h2 & H2). destruct (covers_ref _ _ _ _ _ _ _ _ C H H2 S) as (w2' & S2 & C2).
    eapply (follows_one w2 (SDeactivate h2)); eauto; intros _; exact I.
  - destruct (nth_error (w_refs w) h) as [r|] eqn:H; [|unfold on_ref in S; rewrite H in S; injection S as <- _; apply NONE; reflexivity].
    destruct (REF _ _ H) as (h2 & H2). destruct (covers_ref _ _ _ _ _ _ _ _ C H H2 S) as (w2' & S2 & C2).
    eapply (follows_one w2 (SActivate h2)); eauto; intros _; exact I.
  - destruct (nth_error (w_refs w) h) as [r|] eqn:H; [|unfold on_ref in S; rewrite H in S; injection S as <- _; apply NONE; reflexivity].
    destruct (REF _ _ H) as (h2 & H2). destruct (covers_ref _ _ _ _ _ _ _ _ C H H2 S) as (w2' & S2 & C2).
    eapply (follows_one w2 (STombstone h2)); eauto; intros _; exact I.
Qed.

Lemma follows_request w w2 q st' out : covers w w2 -> (be = Memory -> (s_next (w_state w) < 2 ^ 55)%Z) -> serve q (w_state w) = (st', out) ->
  follows (World st' (w_refs w)) w2.
Proof.
  intros [CS CR] NX E. destruct (does_serve q (w_state w) (w_refs w2)) as (ops & outs & ex & R & S & _ & CL). rewrite E in R. cbn [fst] in R.
  destruct w2 as [st2 refs2]. cbn [w_state w_refs] in *. subst st2. exists ops, outs, (World st' (refs2 ++ ex)). split; [exact R|]. split; [|split].
  - split; [reflexivity|]. cbn. intros r H. apply in_or_app. auto.
  - clear - S. induction S as [|o ops O S IH]; constructor; auto. destruct o; try contradiction; exact I.
  - intros M. exact (CL M (NX M)).
Qed.

Notation goes_on := (goes_on digest kdigest validate ecdsa now cb be netloc_ok cfg).
Notation serves := (serves digest kdigest validate ecdsa now cb be netloc_ok cfg).
Notation history := (history digest kdigest validate ecdsa now cb be).

Lemma history_on ops w2 outs w' : history ops w2 outs -> follows w' w2 -> exists ops' w3 outs', history (ops ++ ops') w3 outs' /\ covers w' w3.
Proof.
  intros (R & N & CL) (ops' & outs' & w3 & R' & C & N' & CL'). exists ops', w3, (outs ++ outs'). split; [|exact C].
  split; [|split].
  - rewrite (srun_app digest kdigest validate ecdsa now cb be _ _ _ _ _ R), R'. reflexivity.
  - apply Forall_app. auto.
  - intros M. apply clean_app. split; [auto|]. rewrite R. cbn [fst]. auto.
Qed.

Lemma goes_history w bk w' bk' ops w2 outs : goes_on w bk w' bk' -> history ops w2 outs -> covers w w2 ->
  exists ops' w3 outs', history (ops ++ ops') w3 outs' /\ covers w' w3.
Proof.
  intros G H C. induction G as [|w1 bk1 op w' out G IH N CL S|w1 bk1 q st' out G IH NX S].
  - exists [], w2, outs. rewrite app_nil_r. auto.
  - destruct IH as (o1 & w3 & outs' & H3 & C3). destruct (history_on _ _ _ w' H3) as (o2 & w4 & outs4 & H4 & C4); [eapply follows_op; eauto|].
    exists (o1 ++ o2), w4, outs4. rewrite app_assoc. auto.
  - destruct IH as (o1 & w3 & outs' & H3 & C3). destruct (history_on _ _ _ (World st' (w_refs w1)) H3) as (o2 & w4 & outs4 & H4 & C4); [eapply follows_request; eauto|].
    exists (o1 ++ o2), w4, outs4. rewrite app_assoc. auto.
Qed.

Lemma serves_goes w bk : serves w bk <-> goes_on init_world [] w bk.
Proof.
  split; intros H; induction H; solve [constructor|econstructor; eauto].
Qed.
Lemma serves_goes_on w bk w' bk' : serves w bk -> goes_on w bk w' bk' -> serves w' bk'.
Proof. intros H G. induction G; [exact H|econstructor; eauto|econstructor; eauto]. Qed.

Lemma serves_history w bk : serves w bk -> exists ops w2 outs, history ops w2 outs /\ covers w w2.
Proof.
  intros H. apply serves_goes in H. destruct (goes_history _ _ _ _ [] init_world [] H) as (ops & w2 & outs & H2 & C); [|split; auto|exists ops, w2, outs; auto].
  split; [reflexivity|]. split; [constructor|]. intros _. exact I.
Qed.

(** The book of the operations says what that of the server says. *)
Lemma same_book w bk ops w2 outs : setting digest kdigest validate cb -> serves w bk -> history ops w2 outs -> covers w w2 -> forall did,
  match dget did bk, dget did (book_of [] ops outs) with
  | Some (key, recs), Some (key', recs') => key = key' /\ forall p, option_map norm (dget p recs) = option_map norm (dget p recs')
  | None, None => True
  | _, _ => False
  end.
Proof.
  intros SET SV H [CS _] did. destruct (serves_inv digest kdigest validate ecdsa now cb be netloc_ok cfg SET w bk SV) as [I1 _].
  destruct (hist_facts digest kdigest validate ecdsa now cb be SET _ _ _ H) as [I2 _]. rewrite CS in I2.
  destruct (dget did bk) as [[key recs]|] eqn:B1, (dget did (book_of [] ops outs)) as [[key' recs']|] eqn:B2.
  - destruct (i_book _ _ _ _ _ _ _ _ I1 _ _ _ B1) as (_ & _ & o & S1 & (h & root & HH & CH & _) & K & _).
    destruct (i_book _ _ _ _ _ _ _ _ I2 _ _ _ B2) as (_ & _ & o' & S2 & (h' & root' & HH' & CH' & _) & K' & _).
    rewrite S1 in S2. injection S2 as <-. rewrite HH in HH'. injection HH' as <-. split; [congruence|].
    eapply same_norm; [eapply chain_stored; exact CH|eapply chain_stored; exact CH'|]. eapply chain_det; eauto.
  - destruct (i_book _ _ _ _ _ _ _ _ I1 _ _ _ B1) as (_ & R & _). exact (i_none _ _ _ _ _ _ _ _ I2 _ B2 R).
  - destruct (i_book _ _ _ _ _ _ _ _ I2 _ _ _ B2) as (_ & R & _). exact (i_none _ _ _ _ _ _ _ _ I1 _ B1 R).
  - exact I.
Qed.

Lemma same_copied w bk ops w2 outs cs : setting digest kdigest validate cb -> serves w bk -> history ops w2 outs -> covers w w2 ->
  copied be (w_state w) bk cs <-> copied be (w_state w2) (book_of [] ops outs) cs.
Proof.
  intros SET SV H C. pose proof (same_book _ _ _ _ _ SET SV H C) as SB. destruct C as [CS _]. rewrite CS. unfold copied. split; intros X did; specialize (X did); specialize (SB did);
    destruct (dget did bk) as [[key recs]|], (dget did (book_of [] ops outs)) as [[key' recs']|]; try contradiction; auto;
    destruct SB as [_ SB]; destruct X as (cp & o & h & A1 & A2 & A3 & A4 & A5 & A6); exists cp, o, h; splits; auto; intros p; rewrite A6, SB; reflexivity.
Qed.

Lemma request_is q st refs : exists ops outs extra, srun (World st refs) ops = (World (fst (serve q st)) (refs ++ extra), outs) /\
  Forall request_op ops /\ (length (filter is_commit ops) <= 1)%nat.
Proof. destruct (does_serve q st refs) as (ops & outs & ex & A & B & C & _). exists ops, outs, ex. auto. Qed.

Lemma server_is w bk : setting digest kdigest validate cb -> serves w bk -> exists ops w2 outs, history ops w2 outs /\ covers w w2 /\
  forall did, match dget did bk, dget did (book_of [] ops outs) with
  | Some (key, recs), Some (key', recs') => key = key' /\ forall p, option_map norm (dget p recs) = option_map norm (dget p recs')
  | None, None => True
  | _, _ => False
  end.
Proof.
  intros SET S. destruct (serves_history _ _ S) as (ops & w2 & outs & H & C). exists ops, w2, outs. split; [exact H|]. split; [exact C|]. eapply same_book; eauto.
Qed.

Lemma goes_trans w bk w1 bk1 w2 bk2 : goes_on w bk w1 bk1 -> goes_on w1 bk1 w2 bk2 -> goes_on w bk w2 bk2.
Proof. intros A B. induction B; [exact A|econstructor; eauto|econstructor; eauto]. Qed.
Lemma run_goes ops : forall w bk w' outs, srun w ops = (w', outs) -> Forall op_named ops -> (be = Memory -> clean_from w ops) -> goes_on w bk w' (book_of bk ops outs).
Proof.
  induction ops as [|o ops IH]; intros w bk w' outs R N CL; cbn [StorageModel.srun] in R.
  - injection R as <- <-. constructor.
  - destruct (sstep w o) as [w1 out] eqn:S. destruct (srun w1 ops) as [w2 outs2] eqn:R2. injection R as <- <-. inversion N as [|? ? N1 N2]; subst.
    eapply goes_trans; [|eapply IH; [exact R2|exact N2|intros M; specialize (CL M); cbn [RepoSpec.clean_from] in CL; rewrite S in CL; exact (proj2 CL)]].
    eapply g_storage; [constructor|exact N1| |exact S]. intros M. specialize (CL M). cbn [RepoSpec.clean_from] in CL. rewrite S in CL. exact (proj1 CL).
Qed.
Lemma history_serves ops w outs : history ops w outs -> serves w (book_of [] ops outs).
Proof. intros (R & N & CL). apply serves_goes. apply run_goes; auto. Qed.
Lemma history_goes ops1 ops2 w1 outs1 w outs : history ops1 w1 outs1 -> history (ops1 ++ ops2) w outs -> goes_on w1 (book_of [] ops1 outs1) w (book_of [] (ops1 ++ ops2) outs).
Proof.
  intros (R1 & N1 & _) (R & N & CL). destruct (srun w1 ops2) as [w2 outs2] eqn:R2.
  pose proof (srun_app digest kdigest validate ecdsa now cb be ops1 ops2 _ _ _ R1) as RA. rewrite R2, R in RA. injection RA as -> ->.
  rewrite (ReplicaProofs.book_app digest kdigest validate ecdsa now cb be _ _ _ _ _ _ _ R1). apply run_goes; [exact R2|apply Forall_app in N; apply N|].
  intros M. specialize (CL M). apply clean_app in CL as [_ CL]. rewrite R1 in CL. exact CL.
Qed.
End Requests.
