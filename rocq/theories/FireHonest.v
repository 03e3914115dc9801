(** What holds of the firehose with an honest storage. *)
From Coq Require Import String List NArith ZArith Bool Sorted Lia Arith.
From Verif Require Import Base Lists FireModel FireSpec FireProofs.
Import ListNotations.
Local Open Scope Z_scope.

Lemma inc_app l1 l2 : increasing (l1 ++ l2) <-> increasing l1 /\ increasing l2 /\ forall x y, In x l1 -> In y l2 -> e_seq x < e_seq y.
Proof. apply ssorted_app. Qed.
Lemma inc_cons x l : increasing (x :: l) <-> increasing l /\ forall y, In y l -> e_seq x < e_seq y.
Proof.
  split; [intros H; inversion H as [|? ? H1 H2]; subst; rewrite Forall_forall in H2; auto|].
  intros [H1 H2]. constructor; [assumption|]. now apply Forall_forall.
Qed.
Lemma inc_lastn n l : increasing l -> increasing (lastn n l).
Proof. intros H. destruct (lastn_split n l) as [r E]. rewrite E in H. now apply inc_app in H. Qed.
Lemma inc_last l e x : increasing l -> last_of l = Some e -> In x l -> e_seq x <= e_seq e.
Proof.
  intros H L Hx. destruct (last_of_snoc _ _ L) as [r ->]. apply inc_app in H. destruct H as (_ & _ & H).
  apply in_app_or in Hx. destruct Hx as [Hx|[->|[]]]; [|lia]. specialize (H x e Hx (or_introl eq_refl)). lia.
Qed.

Section Honest.
Variable cf : config.
Hypothesis W : (0 < rollback_window cf)%nat.

Definition thread_ok (log : list event) (st : sstate) : Prop :=
  match st with
  | SQuery c pre last q => increasing pre /\ incl pre log /\ (forall x, In x pre -> e_seq x < q_pos q) /\
      (forall n, last = Some n -> n < q_pos q)
  | SGot c pre q e => increasing (pre ++ [e]) /\ incl (pre ++ [e]) log /\ e_seq e < q_pos q
  | _ => True
  end.

Definition coll_ok (f : fire) : Prop :=
  match f_coll f with
  | CPreload _ q got => increasing got /\ incl got (f_log f) /\ forall x, In x got -> e_seq x < q_pos q
  | CGot _ e | CGap _ e | CAsk _ e | CEmit _ e => In e (f_log f)
  | CSend _ e => In e (f_log f) /\ forall x, In x (collected f) -> e_seq x < e_seq e
  | _ => True
  end.

Record sound (f : fire) : Prop := {
  h_positive : forall e, In e (f_log f) -> 0 < e_seq e;
  h_unique : forall e x, In e (f_log f) -> In x (f_log f) -> e_seq e = e_seq x -> e = x;
  h_inc : increasing (collected f);
  h_log : incl (collected f) (f_log f);
  h_last : forall x, In x (collected f) -> e_seq x <= f_last_seq f;
  h_rb : increasing (f_rollback f);
  h_rbc : forall x, In x (f_rollback f) -> exists y, In y (collected f) /\ e_seq x <= e_seq y;
  h_rblog : incl (f_rollback f) (f_log f);
  h_coll : coll_ok f;
  h_threads : forall i st out, thread f i st out -> thread_ok (f_log f) st }.

Lemma sound0 : sound fire0.
Proof.
  constructor; cbn; try contradiction; try (now intros ? []); try constructor.
  intros [|i] st out; discriminate.
Qed.

Lemma thread_ok_mono log log' st : incl log log' -> thread_ok log st -> thread_ok log' st.
Proof.
  intros I. destruct st; cbn; auto.
  - intros (H1 & H2 & H3 & H4). repeat split; auto. intros x Hx. auto.
  - intros (H1 & H2 & H3). repeat split; auto. intros x Hx. auto.
Qed.

Lemma merged_before rb pre first rest : rb = first :: rest -> forall x, In x (merged cf rb pre) -> In x pre /\ e_seq x < e_seq first.
Proof.
  intros -> x. unfold merged. set (room := (rollback_window cf - length (first :: rest))%nat).
  destruct room; [contradiction|]. destruct pre as [|p pre]; [contradiction|]. intros Hx. apply lastn_In in Hx. apply filter_In in Hx.
  destruct Hx as [Hx L]. split; [exact Hx|]. now apply Z.ltb_lt.
Qed.
Lemma merged_inc rb pre : increasing pre -> increasing (merged cf rb pre).
Proof.
  intros H. unfold merged. destruct rb as [|first rest]; [constructor|].
  set (room := (rollback_window cf - length (first :: rest))%nat). destruct room; [constructor|].
  destruct pre as [|p pre]; [constructor|]. apply inc_lastn. now apply ssorted_filter.
Qed.

Lemma query_item_ok log c pre lst q e : thread_ok log (SQuery c pre lst q) -> In e log -> q_pos q <= e_seq e ->
  query_item c pre lst q e = SGot c pre (query_past e q) e /\ thread_ok log (SGot c pre (query_past e q) e).
Proof.
  intros (H1 & H2 & H3 & H4) L P. unfold query_item. split.
  - destruct lst as [n|]; [|reflexivity]. specialize (H4 n eq_refl). destruct (Z.leb_spec (e_seq e) n); [lia|]. now rewrite andb_false_r.
  - cbn. split; [|split].
    + apply inc_app. repeat split; [assumption|repeat constructor|]. intros x y Hx [<-|[]]. specialize (H3 x Hx). lia.
    + intros x Hx. apply in_app_or in Hx. destruct Hx as [Hx|[<-|[]]]; auto.
    + lia.
Qed.

Lemma sound_step f a f' : ordered cf f -> window cf f -> sound f -> honest f a -> step cf f a = Some f' -> sound f'.
Proof.
  intros O Win S Hon E. pose proof S as [S1 S2 S3 S4 S5 S6 S6' S7 S8 S9]. unfold coll_ok in S8. pose proof (o_ahead _ _ O) as A. unfold ahead in A.
  cases E; try match goal with C : f_coll f = _ |- _ => rewrite C in S8, A end;
    try (constructor; auto; unfold coll_ok; cbn; auto; fail).
  - (* EAdd *) destruct Hon as [Hp Hn]. assert (I : incl (f_log f) (f_log f ++ [e])) by (apply incl_appl, incl_refl).
    constructor; cbn; auto.
    + intros x Hx. apply in_app_or in Hx. destruct Hx as [Hx|[<-|[]]]; auto.
    + intros x y Hx Hy E2. apply in_app_or in Hx. apply in_app_or in Hy.
      destruct Hx as [Hx|[<-|[]]], Hy as [Hy|[<-|[]]]; auto; exfalso; apply Hn; [rewrite <- E2|rewrite E2]; now apply in_map.
    + now apply (incl_tran S4).
    + now apply (incl_tran S7).
    + unfold coll_ok. cbn. destruct (f_coll f); auto.
      * destruct S8 as (G1 & G2 & G3). repeat split; auto. now apply (incl_tran G2).
      * destruct S8. split; auto.
    + intros i st out T. apply (thread_ok_mono (f_log f)); auto. exact (S9 i st out T).
  - (* load *) constructor; auto. unfold coll_ok. cbn. repeat split; [constructor|now intros ? []|contradiction].
  - (* emit *) constructor; cbn; auto.
    + intros x Hx. specialize (S5 x Hx). destruct A as [A _]. lia.
    + unfold coll_ok. cbn. split; [assumption|]. intros x Hx. specialize (S5 x Hx). destruct A as [A _]. lia.
  - (* send *) destruct S8 as [S8 S8']. constructor; cbn; auto.
    + unfold collected. cbn. rewrite app_assoc. now apply sorted_snoc.
    + unfold collected. cbn. rewrite app_assoc. intros x Hx. apply in_app_or in Hx. destruct Hx as [Hx|[<-|[]]]; auto.
    + unfold collected. cbn. rewrite app_assoc. intros x Hx. apply in_app_or in Hx. destruct Hx as [Hx|[<-|[]]]; [auto|lia].
    + apply inc_lastn. apply sorted_snoc; [assumption|]. intros x Hx. destruct (S6' x Hx) as (y & Hy & L). specialize (S8' y Hy). lia.
    + unfold collected. cbn. rewrite app_assoc. intros x Hx. apply lastn_In in Hx. apply in_app_or in Hx. destruct Hx as [Hx|[<-|[]]].
      * destruct (S6' x Hx) as (y & Hy & L). exists y. split; [apply in_or_app; auto|exact L].
      * exists e. split; [apply in_or_app; cbn; auto|lia].
    + intros x Hx. apply lastn_In in Hx. apply in_app_or in Hx. destruct Hx as [Hx|[<-|[]]]; auto.
    + intros i st out T. change (thread (send cf f q e) i st out) in T. destruct (put_thread _ _ _ _ _ _ _ T) as ([st0 out0] & Et & Ep).
      pose proof (put_one_live (f_subscribers f) e i (Sub st0 out0)) as PL. rewrite Ep in PL. cbn in PL.
      specialize (S9 i st0 out0 Et). destruct st; try exact Logic.I; subst st0; exact S9.
  - (* preload *) cbn in Hon. rewrite H in Hon. destruct Hon as (G1 & G2 & G3). destruct S8 as (S8 & S8' & S8'').
    constructor; auto. unfold coll_ok. cbn. repeat split.
    + apply sorted_snoc; [assumption|]. intros x Hx. specialize (S8'' x Hx). lia.
    + intros x Hx. apply in_app_or in Hx. destruct Hx as [Hx|[<-|[]]]; auto.
    + intros x Hx. apply in_app_or in Hx. destruct Hx as [Hx|[<-|[]]]; [specialize (S8'' x Hx)|]; lia.
  - (* item *) cbn in Hon. rewrite H in Hon. destruct Hon as (G1 & G2 & G3). constructor; auto.
  - (* preloaded *) destruct S8 as (S8 & S8' & S8''). destruct (o_start _ _ O A) as [_ Es].
    assert (Ec : collected (preloaded cf f last got) = got) by (unfold collected; cbn; now rewrite Es, app_nil_r).
    constructor; rewrite ?Ec; cbn; auto.
    + intros x Hx. rewrite (lastn_last _ _ W). destruct (last_of got) as [y|] eqn:L; [now apply (inc_last got)|].
      apply last_of_None in L. now subst.
    + now apply inc_lastn.
    + intros x Hx. apply lastn_In in Hx. exists x. split; [assumption|lia].
    + intros x Hx. apply lastn_In in Hx. auto.
  - (* subscribers *)
    assert (RB : increasing (f_rollback f') /\ incl (f_rollback f') (f_log f) /\ forall x, In x (f_rollback f') -> exists y, In y (collected f) /\ e_seq x <= e_seq y).
    { destruct (sub_rollback _ _ _ _ Mv) as [->|(i & c & pre & q & e & out & first & rest & _ & T & R & L & -> & _)]; [auto|].
      specialize (S9 _ _ _ T). destruct S9 as (P1 & P2 & P3). apply inc_app in P1. destruct P1 as (P1 & _).
      assert (F : forall x, In x (merged cf (f_rollback f) pre) -> In x pre /\ e_seq x < e_seq first) by now apply (merged_before _ _ _ rest).
      assert (F2 : forall y, In y (f_rollback f) -> e_seq first <= e_seq y).
      { rewrite R in S6 |- *. apply inc_cons in S6. intros y [<-|Hy]; [lia|]. destruct S6 as [_ S6]. specialize (S6 y Hy). lia. }
      split; [|split].
      - apply inc_app. split; [now apply merged_inc|]. split; [assumption|]. intros x y Hx Hy. specialize (F2 y Hy). destruct (F x Hx). lia.
      - intros x Hx. apply in_app_or in Hx. destruct Hx as [Hx|Hx]; [|auto]. destruct (F x Hx) as [Hx' _]. apply P2. apply in_or_app. auto.
      - intros x Hx. apply in_app_or in Hx. destruct Hx as [Hx|Hx]; [|auto]. destruct (F x Hx) as [_ Lx].
        destruct (S6' first) as (y & Hy & Ly); [rewrite R; cbn; auto|]. exists y. split; [assumption|lia]. }
    destruct RB as (RB1 & RB2 & RB3). assert (Ec : collected f' = collected f) by (unfold collected; congruence).
    constructor; rewrite ?Elog, ?Ec, ?Eseq; auto.
    { unfold coll_ok. rewrite Ecoll, Elog, Ec. exact S8. }
    intros j st' out' T'.
    assert (X : forall i t st out, thread f i st out -> f_threads f' = set_nth i t (f_threads f) -> (forall st1 out1, t = Sub st1 out1 -> thread_ok (f_log f) st1) ->
      thread_ok (f_log f) st').
    { intros i t st out T Et Ok. destruct (thread_set _ _ _ _ _ _ _ _ _ T T' Et) as [[-> ->]|[_ T1]]; [exact (Ok _ _ eq_refl)|exact (S9 _ _ _ T1)]. }
    inversion Mv; subst; clear Mv; try (eapply X; [eassumption|reflexivity|]; intros st1 out1 [= <- <-]; exact Logic.I).
    + unfold thread in T'. cbn in T'. destruct (Nat.lt_ge_cases j (length (f_threads f))) as [L|L].
      * rewrite nth_error_app1 in T' by assumption. exact (S9 _ _ _ T').
      * rewrite nth_error_app2 in T' by assumption. destruct (j - length (f_threads f))%nat as [|k]; [|destruct k; discriminate].
        injection T' as <- <-. destruct st; try discriminate; exact Logic.I.
    + eapply X; [eassumption|reflexivity|]. unfold request_step. intros st1 out1.
      destruct (f_last f); [|intros [= <- <-]; exact Logic.I]. destruct c; [|intros [= <- <-]; exact Logic.I].
      destruct (_ <? _); [intros [= <- <-]; exact Logic.I|]. destruct (_ <? _); intros [= <- <-]; exact Logic.I.
    + eapply X; [eassumption|reflexivity|]. unfold new_step. intros st1 out1. destruct c; [|intros [= <- <-]; exact Logic.I].
      destruct (_ <? _); [|intros [= <- <-]; exact Logic.I]. destruct (_ <? _); intros [= <- <-]; [exact Logic.I|].
      cbn. repeat split; [constructor|now intros ? []|contradiction|discriminate].
    + eapply X; [eassumption|reflexivity|]. intros st1 out1 [= <- <-]. pose proof (S9 _ _ _ H) as (P1 & P2 & P3). cbn. repeat split; auto.
      * intros x Hx. apply inc_app in P1. apply in_app_or in Hx. destruct Hx as [Hx|[<-|[]]]; [|assumption].
        destruct P1 as (_ & _ & P1). specialize (P1 x e Hx (or_introl eq_refl)). lia.
      * now intros n [= <-].
    + eapply X; [eassumption|reflexivity|]. intros st1 out1 [= <- <-].
      destruct (Hon _ _ _ _ _ H) as (G1 & G2 & G3). destruct (query_item_ok (f_log f) c pre lst q e (S9 _ _ _ H) G1 G2) as [-> Ok]. exact Ok.
Qed.

Lemma reached_sound (P : fire -> act -> Prop) f : (forall g a, P g a -> honest g a) -> reached cf P f -> ordered cf f /\ window cf f /\ registered f /\ sound f.
Proof.
  intros HP. apply (reached_invariant cf P (fun f => ordered cf f /\ window cf f /\ registered f /\ sound f)).
  - intros g a g' (H1 & H2 & H3 & H4) Hp E. split; [now apply (ordered_step _ _ _ _ H1 E)|]. split; [now apply (window_step _ _ _ _ (conj H1 H2) E)|].
    split; [now apply (registered_step _ _ _ _ H3 E)|]. now apply (sound_step _ _ _ H1 H2 H4 (HP _ _ Hp) E).
  - split; [apply ordered0|]. split; [split; [cbn; lia|now exists []]|]. split; [|apply sound0].
    split; [constructor|]. intros i. split; [contradiction|]. intros (q & out & T). destruct i; discriminate.
Qed.

End Honest.
