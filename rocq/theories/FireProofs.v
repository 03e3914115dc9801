(** Proofs about the collector and about what holds whatever the storage does. *)
From Coq Require Import String List NArith ZArith Bool Sorted Lia Arith.
From Verif Require Import Base Lists FireModel FireSpec.
Import ListNotations.
Local Open Scope Z_scope.

(** ** Lists *)

Lemma last_of_app l e : last_of (l ++ [e]) = Some e.
Proof. destruct l as [|x r]; [reflexivity|]. cbn. now rewrite last_last. Qed.
Lemma last_of_None l : last_of l = None -> l = [].
Proof. now destruct l. Qed.
Lemma last_of_snoc l e : last_of l = Some e -> exists r, l = r ++ [e].
Proof.
  destruct l as [|x r] using rev_ind; [discriminate|]. rewrite last_of_app. intros [= ->]. now eexists.
Qed.
Lemma last_of_app2 l1 l2 : l2 <> [] -> last_of (l1 ++ l2) = last_of l2.
Proof.
  destruct l2 as [|e l2 _] using rev_ind; [easy|]. now rewrite app_assoc, !last_of_app.
Qed.
Lemma last_of_In l e : last_of l = Some e -> In e l.
Proof. intros H. destruct (last_of_snoc _ _ H) as [r ->]. apply in_or_app. cbn. auto. Qed.

Lemma lastn_split {A} n (l : list A) : exists r, l = r ++ lastn n l.
Proof. exists (firstn (length l - n) l). unfold lastn. symmetry. apply firstn_skipn. Qed.
Lemma lastn_length {A} n (l : list A) : length (lastn n l) = Nat.min n (length l).
Proof. unfold lastn. rewrite skipn_length. lia. Qed.
Lemma lastn_all {A} n (l : list A) : (length l <= n)%nat -> lastn n l = l.
Proof. intros H. unfold lastn. replace (length l - n)%nat with O by lia. reflexivity. Qed.
Lemma lastn_app {A} n (l1 l2 : list A) : (length l2 <= n)%nat -> lastn n (l1 ++ l2) = lastn (n - length l2) l1 ++ l2.
Proof.
  intros H. unfold lastn. rewrite app_length, skipn_app.
  replace (length l1 + length l2 - n - length l1)%nat with O by lia.
  replace (length l1 + length l2 - n)%nat with (length l1 - (n - length l2))%nat by lia. reflexivity.
Qed.
Lemma lastn_In {A} n (l : list A) x : In x (lastn n l) -> In x l.
Proof. intros H. destruct (lastn_split n l) as [r E]. rewrite E. apply in_or_app. auto. Qed.
Lemma lastn_longer {A} n (l1 l2 : list A) : (n <= length l2)%nat -> lastn n (l1 ++ l2) = lastn n l2.
Proof.
  intros H. unfold lastn. rewrite app_length, skipn_app, skipn_all2 by lia. cbn. f_equal. lia.
Qed.
Lemma lastn_lastn_app {A} n (l1 l2 : list A) : lastn n (lastn n l1 ++ l2) = lastn n (l1 ++ l2).
Proof.
  destruct (lastn_split n l1) as [r E]. rewrite E at 2. rewrite <- app_assoc.
  destruct (le_lt_dec n (length l1)) as [L|L].
  - rewrite (lastn_longer n r); [reflexivity|]. rewrite app_length, lastn_length. lia.
  - assert (length r = 0)%nat.
    { rewrite E, app_length, lastn_length in L. pose proof (f_equal (@length A) E) as El. rewrite app_length, lastn_length in El. lia. }
    destruct r; [reflexivity|discriminate].
Qed.
Lemma lastn_last n l : (0 < n)%nat -> last_of (lastn n l) = last_of l.
Proof.
  intros H. destruct l as [|e l _] using rev_ind; [unfold lastn; now rewrite skipn_nil|].
  rewrite lastn_app by (cbn; lia). now rewrite !last_of_app.
Qed.

Lemma ssorted_app {A} (R : A -> A -> Prop) l1 l2 :
  StronglySorted R (l1 ++ l2) <-> StronglySorted R l1 /\ StronglySorted R l2 /\ forall x y, In x l1 -> In y l2 -> R x y.
Proof.
  induction l1 as [|a l1 IH]; cbn.
  - split; [intros H; repeat split; try assumption; [constructor|contradiction]|tauto].
  - split.
    + intros H. inversion H as [|? ? Hs Hf]; subst. apply IH in Hs. destruct Hs as (H1 & H2 & H3).
      rewrite Forall_app in Hf. destruct Hf as [F1 F2]. rewrite Forall_forall in F2. repeat split; try assumption.
      * now constructor.
      * intros x y [<-|Hx] Hy; auto.
    + intros (H1 & H2 & H3). inversion H1; subst. constructor.
      * apply IH. repeat split; auto.
      * apply Forall_app. split; [assumption|]. apply Forall_forall. auto.
Qed.
Lemma ssorted_filter {A} (R : A -> A -> Prop) g l : StronglySorted R l -> StronglySorted R (filter g l).
Proof.
  induction 1 as [|a l H IH F]; cbn; [constructor|]. destruct (g a); [|assumption]. constructor; [assumption|].
  apply Forall_forall. intros x Hx. apply filter_In in Hx. rewrite Forall_forall in F. now apply F.
Qed.

Lemma set_nth_same {A} i (x y : A) l : nth_error l i = Some y -> nth_error (set_nth i x l) i = Some x.
Proof. revert i. induction l as [|a l IH]; intros [|i]; cbn; try discriminate; auto. Qed.
Lemma set_nth_other {A} i j (x : A) l : i <> j -> nth_error (set_nth i x l) j = nth_error l j.
Proof.
  revert i j. induction l as [|a l IH]; intros [|i] [|j] H; cbn; try reflexivity; try congruence. apply IH. congruence.
Qed.
Lemma set_nth_length {A} i (x : A) l : length (set_nth i x l) = length l.
Proof. revert i. induction l as [|a l IH]; intros [|i]; cbn; auto. Qed.

(** The queue of one thread in [put_all]. *)
Definition put_one (subs : list nat) (e : event) (i : nat) (t : sub) : sub :=
  if existsb (Nat.eqb i) subs then match s_state t with SLive q => Sub (SLive (q ++ [e])) (s_out t) | _ => t end else t.
Lemma put_all_nth n subs e l i : nth_error (put_all n subs e l) i = option_map (put_one subs e (n + i)) (nth_error l i).
Proof.
  revert n i. induction l as [|t l IH]; intros n [|i]; cbn; try reflexivity.
  - unfold put_one. now rewrite Nat.add_0_r.
  - rewrite IH. now rewrite Nat.add_succ_r.
Qed.

Section Fire.
Variable cf : config.

(** ** Runs *)

Lemma run_app f l1 l2 : run cf f (l1 ++ l2) = match run cf f l1 with Some f' => run cf f' l2 | None => None end.
Proof. revert f. induction l1 as [|a l1 IH]; intros f; cbn; [reflexivity|]. destruct (step cf f a); [apply IH|reflexivity]. Qed.
Lemma along_app (P : fire -> act -> Prop) f l1 l2 f1 : run cf f l1 = Some f1 -> along cf P f (l1 ++ l2) <-> along cf P f l1 /\ along cf P f1 l2.
Proof.
  revert f. induction l1 as [|a l1 IH]; intros f; cbn.
  - intros [= <-]. tauto.
  - destruct (step cf f a) as [f'|]; [|discriminate]. intros H. rewrite (IH f' H). tauto.
Qed.
Lemma along_weaken (P Q : fire -> act -> Prop) f l : (forall g a, P g a -> Q g a) -> along cf P f l -> along cf Q f l.
Proof. intros H. revert f. induction l as [|a l IH]; intros f; cbn; [tauto|]. intros [H1 H2]. split; [auto|]. destruct (step cf f a); auto. Qed.
Lemma along_and (P Q : fire -> act -> Prop) f l : along cf P f l -> along cf Q f l -> along cf (fun g a => P g a /\ Q g a) f l.
Proof. revert f. induction l as [|a l IH]; intros f; cbn; [tauto|]. intros [H1 H2] [H3 H4]. split; [auto|]. destruct (step cf f a); auto. Qed.
Lemma along_anything f l : along cf anything f l.
Proof. revert f. induction l as [|a l IH]; intros f; cbn; [trivial|]. split; [exact Logic.I|]. destruct (step cf f a); auto. Qed.

(** Induction over runs. *)
Lemma run_invariant (P : fire -> act -> Prop) (Q : fire -> Prop) f l f' :
  (forall g a g', Q g -> P g a -> step cf g a = Some g' -> Q g') ->
  Q f -> run cf f l = Some f' -> along cf P f l -> Q f'.
Proof.
  intros H. revert f. induction l as [|a l IH]; intros f; cbn; [congruence|].
  destruct (step cf f a) as [g|] eqn:E; [|discriminate]. intros Qf R [Pa Al]. exact (IH g (H _ _ _ Qf Pa E) R Al).
Qed.
Lemma reached_invariant (P : fire -> act -> Prop) (Q : fire -> Prop) f :
  (forall g a g', Q g -> P g a -> step cf g a = Some g' -> Q g') -> Q fire0 -> reached cf P f -> Q f.
Proof. intros H H0 (l & R & A). exact (run_invariant P Q _ _ _ H H0 R A). Qed.

Lemma later_refl f : later cf f f.
Proof. now exists []. Qed.
Lemma later_step f a f' : step cf f a = Some f' -> later cf f f'.
Proof. intros E. exists [a]. cbn. now rewrite E. Qed.
Lemma later_trans f1 f2 f3 : later cf f1 f2 -> later cf f2 f3 -> later cf f1 f3.
Proof. intros (l1 & R1) (l2 & R2). exists (l1 ++ l2). now rewrite run_app, R1. Qed.

(** ** Steps *)

Definition core (f : fire) := (f_log f, f_last f, f_lost f, f_now f, f_started f, f_coll f, f_last_seq f, f_last_event f, f_pre f, f_sent f).
Definition of_sub (a : act) : bool :=
  match a with SOpen _ | SStep _ | SItem _ _ | SEnd _ | SFail _ | SClose _ => true | _ => false end.

Ltac on_thread H t E :=
  unfold on_thread in H; match type of H with match nth_error ?l ?i with _ => _ end = _ =>
    destruct (nth_error l i) as [t|] eqn:E; [|discriminate H] end.

(** The steps of subscribers, spelled out. *)
Inductive sub_move (f : fire) : act -> fire -> Prop :=
| SvOpen st : opening st = true ->
    sub_move f (SOpen st) (Fire (f_log f) (f_last f) (f_lost f) (f_now f) (f_started f) (f_rollback f) (f_subscribers f) (f_coll f)
      (f_last_seq f) (f_last_event f) (f_threads f ++ [Sub st []]) (f_pre f) (f_sent f))
| SvRequest i c out : thread f i (SRequest c) out -> sub_move f (SStep i) (with_sub f i (request_step cf f c out))
| SvNew i c out : thread f i (SNew c) out -> f_started f = true -> sub_move f (SStep i) (with_sub f i (Sub (new_step f c) out))
| SvNoRollback i c pre q e out : thread f i (SGot c pre q e) out -> f_rollback f = [] ->
    sub_move f (SStep i) (with_sub f i (Sub (SDead (Some IndexError)) out))
| SvReach i c pre q e out first rest : thread f i (SGot c pre q e) out -> f_rollback f = first :: rest -> e_seq first <= e_seq e ->
    sub_move f (SStep i) (with_rollback (with_sub f i (Sub (SServe c (f_rollback f) (f_rollback f)) out)) (merged cf (f_rollback f) pre ++ f_rollback f))
| SvAssert i c pre q e out first rest l : thread f i (SGot c pre q e) out -> f_rollback f = first :: rest ->
    last_of (merged cf (f_rollback f) pre) = Some l ->
    (rollback_window cf < length (f_rollback f) + length (merged cf (f_rollback f) pre))%nat \/ e_seq first <= e_seq l ->
    sub_move f (SStep i) (with_sub f i (Sub (SDead (Some AssertionError)) out))
| SvBefore i c pre q e out first rest : thread f i (SGot c pre q e) out -> f_rollback f = first :: rest -> e_seq e < e_seq first ->
    sub_move f (SStep i) (with_sub f i (Sub (SQuery c (pre ++ [e]) (Some (e_seq e)) q) (out ++ [MEvent e])))
| SvNoCopy i c out : thread f i (SCopy c) out -> f_rollback f = [] -> sub_move f (SStep i) (with_sub f i (Sub (SDead (Some IndexError)) out))
| SvCopy i c out : thread f i (SCopy c) out -> f_rollback f <> [] ->
    sub_move f (SStep i) (with_sub f i (Sub (SServe c (f_rollback f) (f_rollback f)) out))
| SvServed i c h out : thread f i (SServe c h []) out -> sub_move f (SStep i) (with_sub f i (Sub (SEnqueue (Some h)) out))
| SvServe i c h e r out : thread f i (SServe c h (e :: r)) out ->
    sub_move f (SStep i) (with_sub f i (Sub (SServe c h r) (if c <=? e_seq e then out ++ [MEvent e] else out)))
| SvEnter i out : thread f i (SEnqueue None) out ->
    sub_move f (SStep i) (with_subscribers (with_sub f i (Sub (SLive []) out)) (f_subscribers f ++ [i]))
| SvEnqueue i h l first rest out : thread f i (SEnqueue (Some h)) out -> last_of h = Some l -> f_rollback f = first :: rest ->
    e_seq first <= e_seq l ->
    sub_move f (SStep i) (with_subscribers (with_sub f i (Sub (SLive (catch_up (e_seq l) (f_rollback f))) out)) (f_subscribers f ++ [i]))
| SvSlow i h x out : thread f i (SEnqueue (Some h)) out ->
    (last_of h = None \/ f_rollback f = [] \/
     exists l first rest, last_of h = Some l /\ f_rollback f = first :: rest /\ e_seq l < e_seq first /\ x = AssertionError) ->
    sub_move f (SStep i) (with_sub f i (Sub (SDead (Some x)) out))
| SvLive i e r out : thread f i (SLive (e :: r)) out -> sub_move f (SStep i) (with_sub f i (Sub (SLive r) (out ++ [MEvent e])))
| SvItem i c pre lst q e out : thread f i (SQuery c pre lst q) out ->
    sub_move f (SItem i e) (with_sub f i (Sub (query_item c pre lst q e) out))
| SvEnd i c pre lst q out : thread f i (SQuery c pre lst q) out -> sub_move f (SEnd i) (with_sub f i (Sub (SCopy c) out))
| SvFail i c pre lst q out : thread f i (SQuery c pre lst q) out ->
    sub_move f (SFail i) (with_sub f i (Sub (SDead (Some (OtherError (Base.s "read")))) out))
| SvClose i st out : thread f i st out -> (forall x, st <> SDead x) ->
    sub_move f (SClose i) (with_subscribers (with_sub f i (Sub (SDead None) out)) (filter (fun j => negb (Nat.eqb i j)) (f_subscribers f))).

Lemma sub_moves f a f' : of_sub a = true -> step cf f a = Some f' -> sub_move f a f'.
Proof.
  destruct a; cbn; try discriminate; intros _ H.
  - destruct (opening st) eqn:O; [|discriminate]. injection H as <-. now constructor.
  - on_thread H t E. destruct t as [st out]. unfold sub_step in H. cbn in H.
    destruct st; cbn in H; try discriminate.
    + injection H as <-. now apply SvRequest.
    + destruct (f_started f) eqn:S; [|discriminate]. injection H as <-. now apply SvNew.
    + injection H as <-. unfold got_step. destruct (f_rollback f) as [|first rest] eqn:Rb; [eapply SvNoRollback; eassumption|].
      destruct (e_seq first <=? e_seq e) eqn:L; [|eapply SvBefore; [exact E|exact Rb|now apply Z.leb_gt]].
      rewrite <- Rb. match goal with |- sub_move _ _ (if ?b then _ else _) => destruct b eqn:B end.
      2:{ destruct (last_of (merged cf (f_rollback f) pre)) as [l|] eqn:La; [|discriminate B]. eapply SvAssert; [exact E|exact Rb|exact La|].
          apply andb_false_iff in B. destruct B as [B|B]; [left; now apply Nat.leb_gt|right; now apply Z.ltb_ge]. } eapply SvReach; [exact E|exact Rb|now apply Z.leb_le].
    + injection H as <-. destruct (f_rollback f) as [|first rest] eqn:Rb; [eapply SvNoCopy; eassumption|]. rewrite <- Rb.
      apply SvCopy; [assumption|congruence].
    + destruct todo; injection H as <-; [eapply SvServed|apply SvServe]; eassumption.
    + injection H as <-. unfold enqueue_step. destruct handoff as [h|]; [|now apply SvEnter].
      destruct (last_of h) eqn:L; [|eapply SvSlow; eauto]. destruct (f_rollback f) as [|first rest] eqn:Rb; [eapply SvSlow; eauto|].
      destruct (_ <=? _) eqn:L2; [|eapply SvSlow; [eassumption|]; right; right; apply Z.leb_gt in L2; now exists e, first, rest]. rewrite <- Rb. eapply SvEnqueue; try eassumption. now apply Z.leb_le.
    + destruct queue; [discriminate|]. injection H as <-. now apply SvLive.
  - on_thread H t E. destruct t as [st out]. unfold sub_item in H. cbn in H. destruct st; try discriminate. injection H as <-. now apply SvItem.
  - on_thread H t E. destruct t as [st out]. unfold sub_end in H. cbn in H. destruct st; try discriminate. injection H as <-. eapply SvEnd; eassumption.
  - on_thread H t E. destruct t as [st out]. unfold sub_fail in H. cbn in H. destruct st; try discriminate. injection H as <-. eapply SvFail; eassumption.
  - on_thread H t E. destruct t as [st out]. unfold sub_close in H. cbn in H.
    destruct st; try discriminate; injection H as <-; eapply SvClose; try eassumption; discriminate.
Qed.

(** Subscribers do not touch the collector. *)
Lemma sub_core f a f' : sub_move f a f' -> core f' = core f.
Proof. destruct 1; reflexivity. Qed.

(** What they do to the rollback window. *)
Lemma sub_rollback f a f' : sub_move f a f' ->
  f_rollback f' = f_rollback f \/
  exists i c pre q e out first rest, a = SStep i /\ thread f i (SGot c pre q e) out /\ f_rollback f = first :: rest /\ e_seq first <= e_seq e /\
    f_rollback f' = merged cf (f_rollback f) pre ++ f_rollback f /\
    f_threads f' = set_nth i (Sub (SServe c (f_rollback f) (f_rollback f)) out) (f_threads f).
Proof. destruct 1; auto. right. exists i, c, pre, q, e, out, first, rest. repeat split; assumption. Qed.

(** Threads after a change of one of them. *)
Lemma thread_set f i t st out f' j st' out' : thread f i st out -> thread f' j st' out' ->
  f_threads f' = set_nth i t (f_threads f) -> (j = i /\ t = Sub st' out') \/ (j <> i /\ thread f j st' out').
Proof.
  unfold thread. intros T H E. rewrite E in H. destruct (Nat.eq_dec i j) as [->|N].
  - left. rewrite (set_nth_same _ _ _ _ T) in H. injection H as ->. auto.
  - right. rewrite set_nth_other in H by assumption. auto.
Qed.
Lemma thread_set_same f i t st out f' : thread f i st out -> f_threads f' = set_nth i t (f_threads f) -> nth_error (f_threads f') i = Some t.
Proof. unfold thread. intros T ->. now apply (set_nth_same _ _ _ _ T). Qed.
Lemma thread_fun f i st out st' out' : thread f i st out -> thread f i st' out' -> st = st' /\ out = out'.
Proof. unfold thread. intros -> [= -> ->]. auto. Qed.

(** The steps of the collector, spelled out. *)
Inductive coll_move (f : fire) : act -> fire -> Prop :=
| MvDead : f_coll f = CNew -> f_last f = None -> coll_move f CStep (with_coll f CDead)
| MvLoad last : f_coll f = CNew -> f_last f = Some last ->
    coll_move f CStep (with_coll f (CPreload last (query_at (f_log f) (Z.max (last - preload_window cf + 1) 0)) []))
| MvNegative : f_coll f = CIdle -> f_last_seq f + 1 < 0 -> coll_move f CStep (restart f)
| MvRead : f_coll f = CIdle -> 0 <= f_last_seq f + 1 -> coll_move f CStep (with_coll f (CRead (query_at (f_log f) (f_last_seq f + 1))))
| MvGap q e : f_coll f = CGot q e -> next_seq f (e_seq e) < e_seq e -> coll_move f CStep (with_coll f (CGap q e))
| MvNoGap q e : f_coll f = CGot q e -> e_seq e <= next_seq f (e_seq e) -> coll_move f CStep (with_coll f (CEmit q e))
| MvEarly q e : f_coll f = CGap q e -> f_now f - f_last_event f <= skip_delay cf -> coll_move f CStep (with_coll f (CAsk q e))
| MvLate q e : f_coll f = CGap q e -> skip_delay cf < f_now f - f_last_event f -> coll_move f CStep (with_coll f (CEmit q e))
| MvNoLast q e : f_coll f = CAsk q e -> f_last f = None -> coll_move f CStep (with_coll f CIdle)
| MvNear q e last : f_coll f = CAsk q e -> f_last f = Some last -> last - e_seq e <= skip_window cf -> coll_move f CStep (with_coll f CIdle)
| MvFar q e last : f_coll f = CAsk q e -> f_last f = Some last -> skip_window cf < last - e_seq e -> coll_move f CStep (with_coll f (CEmit q e))
| MvEmit q e : f_coll f = CEmit q e ->
    coll_move f CStep (Fire (f_log f) (f_last f) (f_lost f) (f_now f) (f_started f) (f_rollback f) (f_subscribers f) (CSend q e)
      (e_seq e) (f_now f) (f_threads f) (f_pre f) (f_sent f))
| MvSend q e : f_coll f = CSend q e -> coll_move f CStep (send cf f q e)
| MvGet last q got e : f_coll f = CPreload last q got -> coll_move f (CItem e) (with_coll f (CPreload last (query_past e q) (got ++ [e])))
| MvOld q e : f_coll f = CRead q -> e_seq e <= f_last_seq f -> coll_move f (CItem e) (with_coll f (CRead (query_past e q)))
| MvGot q e : f_coll f = CRead q -> f_last_seq f < e_seq e -> coll_move f (CItem e) (with_coll f (CGot (query_past e q) e))
| MvLoaded last q got : f_coll f = CPreload last q got -> coll_move f CEnd (preloaded cf f last got)
| MvDone q : f_coll f = CRead q -> coll_move f CEnd (with_coll f CIdle)
| MvDie last q got : f_coll f = CPreload last q got -> coll_move f CFail (with_coll f CDead)
| MvFail1 q : f_coll f = CRead q -> coll_move f CFail (restart f)
| MvFail2 q e : f_coll f = CEmit q e -> coll_move f CFail (restart f).

(** What happens around the threads. *)
Inductive env_move (f : fire) : act -> fire -> Prop :=
| MvAdd e : env_move f (EAdd e) (Fire (f_log f ++ [e]) (f_last f) (f_lost f) (f_now f) (f_started f) (f_rollback f) (f_subscribers f)
    (f_coll f) (f_last_seq f) (f_last_event f) (f_threads f) (f_pre f) (f_sent f))
| MvLast n : env_move f (ELast n) (Fire (f_log f) n (f_lost f) (f_now f) (f_started f) (f_rollback f) (f_subscribers f)
    (f_coll f) (f_last_seq f) (f_last_event f) (f_threads f) (f_pre f) (f_sent f))
| MvLost n : env_move f (ELost n) (Fire (f_log f) (f_last f) (f_lost f ++ [n]) (f_now f) (f_started f) (f_rollback f) (f_subscribers f)
    (f_coll f) (f_last_seq f) (f_last_event f) (f_threads f) (f_pre f) (f_sent f))
| MvTime t : env_move f (ETime t) (Fire (f_log f) (f_last f) (f_lost f) t (f_started f) (f_rollback f) (f_subscribers f)
    (f_coll f) (f_last_seq f) (f_last_event f) (f_threads f) (f_pre f) (f_sent f)).

Lemma step_cases f a f' : step cf f a = Some f' ->
  env_move f a f' \/ coll_move f a f' \/ sub_move f a f'.
Proof.
  destruct a; cbn [step of_sub]; intros H; try (injection H as <-; left; constructor); right; try (right; apply sub_moves; [reflexivity|exact H]); left.
  - unfold coll_step in H. destruct (f_coll f) eqn:C; try discriminate.
    + injection H as <-. destruct (f_last f) eqn:L; [now apply MvLoad|now apply MvDead].
    + destruct (f_last_seq f + 1 <? 0) eqn:L; injection H as <-; [apply MvNegative|apply MvRead]; auto; [now apply Z.ltb_lt|now apply Z.ltb_ge].
    + injection H as <-. destruct (next_seq f (e_seq e) <? e_seq e) eqn:L; [apply MvGap|apply MvNoGap]; auto; [now apply Z.ltb_lt|now apply Z.ltb_ge].
    + injection H as <-. destruct (_ <=? _) eqn:L; [apply MvEarly|apply MvLate]; auto; [now apply Z.leb_le|now apply Z.leb_gt].
    + injection H as <-. destruct (f_last f) as [last|] eqn:E; [|now apply (MvNoLast f q e)].
      destruct (_ <=? _) eqn:L; [apply (MvNear f q e last)|apply (MvFar f q e last)]; auto; [now apply Z.leb_le|now apply Z.leb_gt].
    + injection H as <-. now apply MvEmit.
    + injection H as <-. now apply MvSend.
  - unfold coll_item in H. destruct (f_coll f) eqn:C; try discriminate; injection H as <-; [now apply MvGet|].
    destruct (_ <=? _) eqn:L; [apply MvOld|apply MvGot]; auto; [now apply Z.leb_le|now apply Z.leb_gt].
  - unfold coll_end in H. destruct (f_coll f) eqn:C; try discriminate; injection H as <-; [now apply (MvLoaded f last q)|now apply (MvDone f q)].
  - unfold coll_fail in H. destruct (f_coll f) eqn:C; try discriminate; injection H as <-;
      [now apply (MvDie f last q got)|now apply (MvFail1 f q)|now apply (MvFail2 f q e)].
Qed.


(** Fields that stay the same in a step of a subscriber. *)
Lemma sub_fields f a f' : sub_move f a f' ->
  f_log f' = f_log f /\ f_last f' = f_last f /\ f_lost f' = f_lost f /\ f_now f' = f_now f /\ f_started f' = f_started f /\
  f_coll f' = f_coll f /\ f_last_seq f' = f_last_seq f /\ f_last_event f' = f_last_event f /\ f_pre f' = f_pre f /\ f_sent f' = f_sent f.
Proof. intros E. pose proof (sub_core _ _ _ E) as C. unfold core in C. now injection C as -> -> -> -> -> -> -> -> -> ->. Qed.

Ltac cases H :=
  let Mv := fresh "Mv" in
  destruct (step_cases _ _ _ H) as [Mv|[Mv|Mv]];
  [inversion Mv; subst; clear Mv|inversion Mv; subst; clear Mv|
   let SF := fresh "SF" in pose proof (sub_fields _ _ _ Mv) as SF;
   destruct SF as (Elog & Elast & Elost & Enow & Est & Ecoll & Eseq & Eev & Epre & Esent)].

(** *** The collector *)

Definition ahead (f : fire) : Prop :=
  match f_coll f with
  | CNew | CPreload _ _ _ => f_started f = false
  | CGot _ e | CGap _ e | CAsk _ e | CEmit _ e => f_last_seq f < e_seq e /\ f_started f = true
  | CSend _ e => f_last_seq f = e_seq e /\ (forall x, In x (f_sent f) -> e_seq x < e_seq e) /\ f_started f = true /\
      (forall p, (0 < rollback_window cf)%nat -> last_of (f_pre f) = Some p -> e_seq p < e_seq e)
  | CIdle | CRead _ => f_started f = true
  | CDead => True
  end.

Record ordered (f : fire) : Prop := {
  o_sent : increasing (f_sent f);
  o_last : forall x, In x (f_sent f) -> e_seq x <= f_last_seq f;
  o_pre : forall p, (0 < rollback_window cf)%nat -> last_of (f_pre f) = Some p -> e_seq p <= f_last_seq f;
  o_first : forall p x, (0 < rollback_window cf)%nat -> last_of (f_pre f) = Some p -> In x (f_sent f) -> e_seq p < e_seq x;
  o_start : f_started f = false -> f_pre f = [] /\ f_sent f = [];
  o_ahead : ahead f }.

Lemma ordered0 : ordered fire0.
Proof. constructor; cbn; try contradiction; try discriminate; [constructor|easy|easy]. Qed.

Lemma sorted_snoc l e : increasing l -> (forall x, In x l -> e_seq x < e_seq e) -> increasing (l ++ [e]).
Proof. intros H1 H2. apply ssorted_app. repeat split; [assumption|repeat constructor|]. intros x y Hx [<-|[]]. auto. Qed.

Lemma ordered_step f a f' : ordered f -> step cf f a = Some f' -> ordered f'.
Proof.
  intros [O1 O2 O3 O4 O5 O6] E. unfold ahead in O6. cases E;
    try match goal with C : f_coll f = _ |- _ => rewrite C in O6 end;
    try (constructor; cbn; unfold ahead; cbn; auto; fail);
    try (constructor; cbn; unfold ahead; cbn; tauto).
  - (* emit *) destruct O6 as (L & S). constructor; cbn; unfold ahead; cbn; auto.
    + intros x Hx. specialize (O2 x Hx). lia.
    + intros p W Hp. specialize (O3 p W Hp). lia.
    + repeat split; auto; [intros x Hx; specialize (O2 x Hx); lia|intros p W Hp; specialize (O3 p W Hp); lia].
  - (* send *) destruct O6 as (L & S & St & Pp). constructor; cbn; unfold ahead; cbn; auto.
    + now apply sorted_snoc.
    + intros x Hx. apply in_app_or in Hx. destruct Hx as [Hx|[<-|[]]]; [now apply O2|lia].
    + intros p x W Hp Hx. apply in_app_or in Hx. destruct Hx as [Hx|[<-|[]]]; eauto.
    + congruence.
  - (* preloaded *) destruct (O5 O6) as (Ep & Es). unfold preloaded. constructor; cbn; unfold ahead; cbn; auto.
    + rewrite Es. contradiction.
    + intros p W Hp. rewrite (lastn_last _ _ W), Hp. lia.
    + rewrite Es. contradiction.
    + discriminate.
  - (* subscribers *) constructor; unfold ahead; rewrite ?Elog, ?Esent, ?Eseq, ?Epre, ?Ecoll, ?Est; auto.
Qed.

Lemma reached_ordered P f : reached cf P f -> ordered f.
Proof. apply (reached_invariant P ordered); [|exact ordered0]. intros g a g' O _. now apply ordered_step. Qed.

(** *** The rollback window *)

Definition window (f : fire) : Prop :=
  (length (f_rollback f) <= rollback_window cf)%nat /\
  exists older, f_rollback f = older ++ lastn (rollback_window cf) (collected f).

Lemma lastn_prefix {A} n (l1 l2 : list A) : exists r, lastn n (l1 ++ l2) = r ++ lastn n l2.
Proof.
  destruct (le_lt_dec n (length l2)) as [L|L].
  - exists []. now rewrite lastn_longer.
  - rewrite lastn_app by lia. exists (lastn (n - length l2) l1). rewrite (lastn_all n l2) by lia. reflexivity.
Qed.

Lemma merged_length rb pre : (length rb <= rollback_window cf)%nat -> (length (merged cf rb pre) + length rb <= rollback_window cf)%nat.
Proof.
  intros H. assert (M : (length (merged cf rb pre) <= rollback_window cf - length rb)%nat); [|lia]. unfold merged.
  destruct rb as [|first rest]; [apply Nat.le_0_l|]. set (room := (rollback_window cf - length (first :: rest))%nat).
  destruct room as [|room']; [apply Nat.le_0_l|]. destruct pre; [apply Nat.le_0_l|]. rewrite lastn_length. lia.
Qed.

Lemma window_step f a f' : ordered f /\ window f -> step cf f a = Some f' -> window f'.
Proof.
  intros (O & L & older & W) E. unfold window in *. cases E; try (split; [exact L|exists older; exact W]); unfold collected; cbn.
  - split; [rewrite lastn_length; lia|]. rewrite W, (app_assoc (f_pre f)), <- (app_assoc older).
    destruct (lastn_prefix (rollback_window cf) older (lastn (rollback_window cf) (collected f) ++ [e])) as [r Hr].
    exists r. rewrite Hr, lastn_lastn_app. reflexivity.
  - split; [rewrite lastn_length; lia|]. pose proof (o_ahead _ O) as A. unfold ahead in A. rewrite H in A.
    destruct (o_start _ O A) as [_ ->]. rewrite app_nil_r. now exists [].
  - rewrite Epre, Esent. destruct (sub_rollback _ _ _ Mv) as [->|(i & c & pre & q & e & out & first & rest & _ & _ & R & _ & -> & _)].
    + split; [exact L|now exists older].
    + split; [rewrite app_length; now apply merged_length|]. exists (merged cf (f_rollback f) pre ++ older).
      rewrite <- app_assoc. f_equal. exact W.
Qed.

Lemma reached_window P f : reached cf P f -> window f.
Proof.
  intros R. apply (reached_invariant P (fun f => ordered f /\ window f)) in R; [apply R| |].
  - intros g a g' [O W] _ E. split; [now apply (ordered_step _ _ _ O E)|now apply (window_step _ _ _ (conj O W) E)].
  - split; [exact ordered0|]. split; [cbn; lia|]. exists []. reflexivity.
Qed.


(** *** Registered subscribers *)

Definition registered (f : fire) : Prop :=
  NoDup (f_subscribers f) /\ forall i, In i (f_subscribers f) <-> exists q out, thread f i (SLive q) out.

Lemma put_one_live subs e i t : match s_state (put_one subs e i t) with SLive _ => exists q, s_state t = SLive q | st => s_state t = st end.
Proof. unfold put_one. destruct (existsb _ _); destruct (s_state t) eqn:E; cbn; rewrite ?E; eauto. Qed.

Lemma put_thread f q e i st out : thread (send cf f q e) i st out ->
  exists t, nth_error (f_threads f) i = Some t /\ put_one (f_subscribers f) e i t = Sub st out.
Proof.
  unfold thread. cbn. rewrite put_all_nth. destruct (nth_error (f_threads f) i) as [t|]; [|discriminate]. cbn. intros [= H]. eauto.
Qed.
Lemma thread_put f q e i st out : thread f i st out ->
  thread (send cf f q e) i (s_state (put_one (f_subscribers f) e i (Sub st out))) out.
Proof.
  unfold thread. cbn. rewrite put_all_nth. intros ->. cbn. f_equal. unfold put_one. cbn. destruct (existsb _ _); [|reflexivity].
  destruct st; reflexivity.
Qed.
Lemma existsb_nat i l : existsb (Nat.eqb i) l = true <-> In i l.
Proof.
  rewrite existsb_exists. split; [intros (x & Hx & E); apply Nat.eqb_eq in E; now subst|].
  intros H. exists i. split; [assumption|apply Nat.eqb_refl].
Qed.

Lemma registered_step f a f' : registered f -> step cf f a = Some f' -> registered f'.
Proof.
  intros [N R] E. unfold registered. cases E; try (split; [exact N|exact R]).
  - (* send *) split; [exact N|]. intros i. change (In i (f_subscribers f) <-> exists q0 out, thread (send cf f q e) i (SLive q0) out). rewrite R. split.
    + intros (q0 & out & T). pose proof (thread_put f q e _ _ _ T) as T'. unfold put_one in T'. cbn in T'.
      destruct (existsb _ _); eauto.
    + intros (q0 & out & T). destruct (put_thread _ _ _ _ _ _ T) as (t & Et & P). destruct t as [st0 out0].
      pose proof (put_one_live (f_subscribers f) e i (Sub st0 out0)) as PL. rewrite P in PL. cbn in PL. destruct PL as (q1 & ->).
      now exists q1, out0.
  - assert (X : forall i t st out, thread f i st out -> f_subscribers f' = f_subscribers f -> f_threads f' = set_nth i t (f_threads f) ->
      (forall q, st <> SLive q) -> (forall q, s_state t <> SLive q) ->
      NoDup (f_subscribers f') /\ forall j, In j (f_subscribers f') <-> exists q out, thread f' j (SLive q) out).
    { intros i t st out T Es Et NL1 NL2. rewrite Es. split; [exact N|]. intros j. rewrite R. split.
      - intros (q & o & Tj). destruct (Nat.eq_dec j i) as [->|NE]; [destruct (thread_fun _ _ _ _ _ _ T Tj) as [-> _]; edestruct NL1; reflexivity|].
        exists q, o. unfold thread. rewrite Et, set_nth_other by auto. exact Tj.
      - intros (q & o & Tj). destruct (thread_set _ _ _ _ _ _ _ _ _ T Tj Et) as [[-> ->]|[_ Tj']]; [edestruct NL2; reflexivity|eauto]. }
    assert (Y : forall i out q h, thread f i (SEnqueue h) out -> f_subscribers f' = f_subscribers f ++ [i] -> f_threads f' = set_nth i (Sub (SLive q) out) (f_threads f) ->
      NoDup (f_subscribers f') /\ forall j, In j (f_subscribers f') <-> exists q out, thread f' j (SLive q) out).
    { intros i out q h T Es Et. rewrite Es. split.
      - apply (Permutation.Permutation_NoDup (Permutation.Permutation_cons_append _ _)). constructor; [|exact N].
        intros Hi. apply R in Hi. destruct Hi as (q1 & o1 & T1). destruct (thread_fun _ _ _ _ _ _ T T1) as [X1 _]. discriminate.
      - intros j. rewrite in_app_iff, R. cbn. split.
        + intros [(q1 & o1 & T1)|[<-|[]]].
          * destruct (Nat.eq_dec j i) as [->|NE]; [destruct (thread_fun _ _ _ _ _ _ T T1) as [X1 _]; discriminate|].
            exists q1, o1. unfold thread. rewrite Et, set_nth_other by auto. exact T1.
          * exists q, out. unfold thread. rewrite Et. now apply (set_nth_same _ _ _ _ T).
        + intros (q1 & o1 & Tj). destruct (thread_set _ _ _ _ _ _ _ _ _ T Tj Et) as [[-> _]|[_ Tj']]; eauto. }
    inversion Mv; subst; clear Mv.
    + cbn. split; [exact N|]. intros i. rewrite R. unfold thread. cbn. split.
      * intros (q & o & T). exists q, o. rewrite nth_error_app1; [exact T|]. apply nth_error_Some. unfold thread in T. now rewrite T.
      * intros (q & o & T). destruct (Nat.lt_ge_cases i (length (f_threads f))) as [L|L]; [rewrite nth_error_app1 in T by assumption; eauto|].
        rewrite nth_error_app2 in T by assumption. destruct (i - length (f_threads f))%nat as [|k]; [|destruct k; discriminate].
        injection T as -> _. discriminate H.
    + eapply X; try eassumption; try reflexivity; [discriminate|]. intros q. unfold request_step. destruct (f_last f); [|discriminate].
      destruct c; [|discriminate]. destruct (_ <? _); [discriminate|]. destruct (_ <? _); discriminate.
    + eapply X; try eassumption; try reflexivity; [discriminate|]. intros q. cbn. unfold new_step. destruct c; [|discriminate].
      destruct (_ <? _); [|discriminate]. destruct (_ <? _); discriminate.
    + eapply X; try eassumption; try reflexivity; discriminate.
    + eapply X; try eassumption; try reflexivity; discriminate.
    + eapply X; try eassumption; try reflexivity; discriminate.
    + eapply X; try eassumption; try reflexivity; discriminate.
    + eapply X; try eassumption; try reflexivity; discriminate.
    + eapply X; try eassumption; try reflexivity; discriminate.
    + eapply X; try eassumption; try reflexivity; discriminate.
    + eapply X; try eassumption; try reflexivity; discriminate.
    + eapply Y; try eassumption; reflexivity.
    + eapply Y; try eassumption; reflexivity.
    + eapply X; try eassumption; try reflexivity; discriminate.
    + cbn. split; [exact N|]. intros j. rewrite R. split.
      * intros (q1 & o1 & T1). destruct (Nat.eq_dec j i) as [->|NE].
        -- eexists _, _. unfold thread. cbn. apply (set_nth_same _ _ _ _ H).
        -- exists q1, o1. unfold thread. cbn. rewrite set_nth_other by auto. exact T1.
      * intros (q1 & o1 & Tj). destruct (thread_set _ _ _ _ _ _ _ _ _ H Tj eq_refl) as [[-> _]|[_ Tj']]; eauto.
    + eapply X; try eassumption; try reflexivity; [discriminate|]. intros q0. cbn. unfold query_item.
      match goal with |- (if ?b then _ else _) <> _ => destruct b end; discriminate.
    + eapply X; try eassumption; try reflexivity; discriminate.
    + eapply X; try eassumption; try reflexivity; discriminate.
    + cbn. split; [now apply NoDup_filter|]. intros j. rewrite filter_In, R. split.
      * intros ((q1 & o1 & T1) & NE). apply negb_true_iff, Nat.eqb_neq in NE. exists q1, o1. unfold thread. cbn.
        rewrite set_nth_other by auto. exact T1.
      * intros (q1 & o1 & Tj). destruct (thread_set _ _ _ _ _ _ _ _ _ H Tj eq_refl) as [[-> X1]|[NE Tj']]; [discriminate|].
        split; [eauto|]. apply negb_true_iff, Nat.eqb_neq. auto.
Qed.

Lemma reached_registered P f : reached cf P f -> registered f.
Proof.
  apply (reached_invariant P registered).
  - intros g a g' R _. now apply registered_step.
  - split; [constructor|]. intros i. split; [contradiction|]. intros (q & out & T). destruct i; discriminate.
Qed.

(** *** Live subscribers *)

Definition fanned (i : nat) (out0 : list msg) (q0 sent0 : list event) (f : fire) : Prop :=
  exists sent' got rest st, f_sent f = sent0 ++ sent' /\ q0 ++ sent' = got ++ rest /\
    thread f i st (out0 ++ map MEvent got) /\ (st = SLive rest \/ exists x, st = SDead x).

Lemma fanned_step i out0 q0 sent0 f a f' : registered f /\ fanned i out0 q0 sent0 f -> step cf f a = Some f' -> fanned i out0 q0 sent0 f'.
Proof.
  intros (R & sent' & got & rest & st & E1 & E2 & T & D) E. unfold fanned.
  assert (X : forall f1, f_sent f1 = f_sent f -> thread f1 i st (out0 ++ map MEvent got) -> exists sent' got rest st, f_sent f1 = sent0 ++ sent' /\ q0 ++ sent' = got ++ rest /\
    thread f1 i st (out0 ++ map MEvent got) /\ (st = SLive rest \/ exists x, st = SDead x)).
  { intros f1 Es T1. exists sent', got, rest, st. rewrite Es. auto. }
  cases E; try (apply X; [reflexivity|exact T]).
  - exists (sent' ++ [e]), got, (rest ++ [e]). eexists. split; [cbn; now rewrite E1, app_assoc|]. split; [rewrite !app_assoc; now rewrite E2|].
    split; [exact (thread_put f q e _ _ _ T)|]. destruct D as [->|[x ->]].
    + left. unfold put_one. cbn. destruct (existsb _ _) eqn:Ex; [reflexivity|]. exfalso.
      assert (In i (f_subscribers f)) as Hi by (apply R; eauto). apply existsb_nat in Hi. congruence.
    + right. exists x. unfold put_one. cbn. now destruct (existsb _ _).
  - assert (Y : forall j t st1 out1, thread f j st1 out1 -> f_threads f' = set_nth j t (f_threads f) -> j <> i ->
      thread f' i st (out0 ++ map MEvent got)).
    { intros j t st1 out1 T1 Et NE. unfold thread. rewrite Et, set_nth_other by assumption. exact T. }
    assert (Z : forall st1 out1, thread f i st1 out1 -> st1 = st /\ out1 = out0 ++ map MEvent got).
    { intros st1 out1 T1. now apply (thread_fun _ _ _ _ _ _ T1 T). }
    inversion Mv; subst; clear Mv;
    [apply X; [reflexivity|]; unfold thread; cbn; rewrite nth_error_app1; [exact T|]; apply nth_error_Some; unfold thread in T; now rewrite T|..];
    try (match goal with H : thread f ?j _ _ |- _ => destruct (Nat.eq_dec j i) as [->|NE];
        [|apply X; [reflexivity|exact (Y _ _ _ _ H eq_refl NE)]] end);
    try (match goal with H : thread f i _ _ |- _ => destruct (Z _ _ H) as [Zs Zo]; subst; destruct D as [D|[? D]]; try discriminate D end).
    + injection D as <-. exists sent', (got ++ [e]), r, (SLive r). split; [cbn; assumption|]. split; [now rewrite <- app_assoc|]. split; [|auto].
      rewrite map_app, app_assoc. unfold thread. cbn. apply (set_nth_same _ _ _ _ T).
    + exists sent', got, rest, (SDead None). split; [cbn; assumption|]. split; [assumption|]. split; [|eauto].
      unfold thread. cbn. apply (set_nth_same _ _ _ _ T).
    + destruct (H0 _ D).
Qed.

Lemma fan_out P f i q out l f' : reached cf P f -> thread f i (SLive q) out -> run cf f l = Some f' ->
  exists sent' got rest st, f_sent f' = f_sent f ++ sent' /\ q ++ sent' = got ++ rest /\
    thread f' i st (out ++ map MEvent got) /\ (st = SLive rest \/ exists x, st = SDead x).
Proof.
  intros R T E. assert (H : registered f' /\ fanned i out q (f_sent f) f').
  { refine (run_invariant anything (fun f' => registered f' /\ fanned i out q (f_sent f) f') _ _ _ _ _ E (along_anything _ _)).
    2:{ split; [exact (reached_registered _ _ R)|]. exists [], [], q, (SLive q). rewrite !app_nil_r. cbn. rewrite ?app_nil_r. auto. }
    intros g a g' [H1 H2] _ Es. split; [now apply (registered_step _ _ _ H1 Es)|now apply (fanned_step _ _ _ _ _ _ _ (conj H1 H2) Es)]. }
  exact (proj2 H).
Qed.

End Fire.

Ltac cases H :=
  let Mv := fresh "Mv" in
  destruct (step_cases _ _ _ _ H) as [Mv|[Mv|Mv]];
  [inversion Mv; subst; clear Mv|inversion Mv; subst; clear Mv|
   let SF := fresh "SF" in pose proof (sub_fields _ _ _ _ Mv) as SF;
   destruct SF as (Elog & Elast & Elost & Enow & Est & Ecoll & Eseq & Eev & Epre & Esent)].
