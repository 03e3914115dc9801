From Coq Require Import String List NArith ZArith Bool Lia Sorted.
From Verif Require Import Base Lists FireModel FireSpec FireProofs FireHonest FireServe FireFacts StreamSpec.
Import ListNotations.
Local Open Scope Z_scope.

Lemma kept_from n l x e : increasing l -> In x (lastn n l) -> In e l -> e_seq x <= e_seq e -> In e (lastn n l).
Proof.
  intros I Hx He L. destruct (lastn_split n l) as (r & Er). rewrite Er in He, I. apply in_app_or in He. destruct He as [He|He]; [|exact He].
  apply inc_app in I. destruct I as (_ & _ & I). specialize (I e x He Hx). lia.
Qed.

Lemma gapless_lastn log n l : increasing l -> gapless log l -> gapless log (lastn n l).
Proof.
  intros I G x y e Hx Hy He L. apply (kept_from n l x e I Hx); [|lia]. apply (G x y); auto; now apply (lastn_In n).
Qed.

Lemma gapless_add log l e : incl l log -> (forall x, In x log -> e_seq x < e_seq e) -> gapless log l -> gapless (log ++ [e]) l.
Proof.
  intros I L G x y z Hx Hy Hz B. apply in_app_or in Hz. destruct Hz as [Hz|[<-|[]]]; [now apply (G x y)|].
  specialize (L y (I y Hy)). lia.
Qed.

Lemma gapless_snoc log l e : increasing (l ++ [e]) -> incl (l ++ [e]) log -> (forall a b, In a log -> In b log -> e_seq a = e_seq b -> a = b) ->
  gapless log l -> (l <> [] -> forall x, In x log -> (forall p, In p l -> e_seq p < e_seq x) -> e_seq e <= e_seq x) -> gapless log (l ++ [e]).
Proof.
  intros I Il U G N x y z Hx Hy Hz B. apply in_or_app.
  assert (He : In e log) by (apply Il, in_or_app; cbn; auto).
  destruct (Z.eq_dec (e_seq z) (e_seq e)) as [Eq|Ne]; [right; left; symmetry; now apply U|]. left.
  assert (Lz : e_seq z < e_seq e).
  { apply in_app_or in Hy. destruct Hy as [Hy|[<-|[]]]; [|lia]. apply inc_app in I. destruct I as (_ & _ & I).
    specialize (I y e Hy (or_introl eq_refl)). lia. }
  assert (Hx' : In x l).
  { apply in_app_or in Hx. destruct Hx as [Hx|[<-|[]]]; [exact Hx|lia]. }
  assert (NE : l <> []) by (intros ->; contradiction).
  destruct (last_of l) as [p|] eqn:Lp; [|apply last_of_None in Lp; contradiction].
  destruct (Z.le_gt_cases (e_seq z) (e_seq p)) as [L|L]; [apply (G x p); auto; [now apply last_of_In|lia]|].
  exfalso. apply inc_app in I. destruct I as (I & _). specialize (N NE z Hz).
  assert (forall p0, In p0 l -> e_seq p0 < e_seq z) as Lp' by (intros p0 Hp; pose proof (inc_last l p p0 I Lp Hp); lia).
  specialize (N Lp'). lia.
Qed.

Section Stream.
Variable cf : config.
Hypothesis W : (0 < rollback_window cf)%nat.

Definition coll_turn (f : fire) : Prop :=
  match f_coll f with
  | CPreload _ q got => gapless (f_log f) got /\ forall g, last_of got = Some g -> q_pos q = e_seq g + 1
  | CRead q => q_pos q <= f_last_seq f + 1
  | CGot q e | CGap q e | CAsk q e | CEmit q e =>
      (forall x, In x (f_log f) -> f_last_seq f < e_seq x -> e_seq e <= e_seq x) /\ q_pos q = e_seq e + 1
  | CSend q e => q_pos q = e_seq e + 1 /\ f_last_seq f = e_seq e /\
      (collected f <> [] -> forall x, In x (f_log f) -> (forall p, In p (collected f) -> e_seq p < e_seq x) -> e_seq e <= e_seq x)
  | _ => True
  end.

Definition sub_turn (log : list event) (st : sstate) : Prop :=
  match st with
  | SQuery c pre _ q => c <= q_pos q /\ (forall x, In x pre -> c <= e_seq x) /\
      (q_pos q = c \/ exists x, In x log /\ q_pos q = e_seq x + 1) /\ (forall e, In e log -> c <= e_seq e < q_pos q -> In e pre)
  | SGot c pre q e0 => c <= q_pos q /\ c <= e_seq e0 /\ (forall x, In x pre -> c <= e_seq x) /\ q_pos q = e_seq e0 + 1 /\
      (forall e, In e log -> c <= e_seq e < e_seq e0 -> In e pre)
  | _ => True
  end.

Record turns_ok (f : fire) : Prop := {
  t_coll : gapless (f_log f) (collected f);
  t_rb : gapless (f_log f) (f_rollback f);
  t_last : collected f <> [] -> match f_coll f with CSend _ _ => True | _ => exists p, In p (collected f) /\ f_last_seq f <= e_seq p end;
  t_where : coll_turn f;
  t_subs : forall i st out, thread f i st out -> sub_turn (f_log f) st }.

Lemma turns0 : turns_ok fire0.
Proof.
  constructor; cbn; try easy; try (now intros x y e []). intros [|i] st out; discriminate.
Qed.

Lemma sub_turn_add log e st : (forall x, In x log -> e_seq x < e_seq e) -> thread_ok log st -> sub_turn log st -> sub_turn (log ++ [e]) st.
Proof.
  intros L K. destruct st; cbn; auto.
  - intros (H1 & H2 & H3 & H4). split; [exact H1|]. split; [exact H2|]. split.
    + destruct H3 as [H3|(x & Hx & H3)]; [auto|right; exists x; split; [apply in_or_app; auto|exact H3]].
    + intros z Hz B. apply in_app_or in Hz. destruct Hz as [Hz|[<-|[]]]; [auto|].
      destruct H3 as [H3|(x & Hx & H3)]; [lia|]. specialize (L x Hx). lia.
  - intros (H1 & H2 & H3 & H4 & H5). split; [exact H1|]. split; [exact H2|]. split; [exact H3|]. split; [exact H4|].
    intros z Hz B. apply in_app_or in Hz. destruct Hz as [Hz|[<-|[]]]; [auto|]. destruct K as (_ & K & _).
    assert (In e0 log) as He by (apply K, in_or_app; cbn; auto). specialize (L e0 He). lia.
Qed.

Lemma merged_gapless f pre c q e0 out i : sound f -> turns_ok f -> thread f i (SGot c pre q e0) out ->
  forall first rest, f_rollback f = first :: rest -> e_seq first <= e_seq e0 -> gapless (f_log f) (merged cf (f_rollback f) pre ++ f_rollback f).
Proof.
  intros S [T1 T2 T3 T4 T5] Th first rest R L x y e Hx Hy He B.
  pose proof (T5 _ _ _ Th) as (Q1 & Q2 & Q3 & Q4 & Q5). pose proof (h_threads _ S _ _ _ Th) as (P1 & P2 & P3).
  apply inc_app in P1. destruct P1 as (P1 & _).
  assert (Hf : In first (f_rollback f)) by (rewrite R; cbn; auto).
  assert (Fst : forall z, In z (f_rollback f) -> e_seq first <= e_seq z).
  { intros z Hz. pose proof (h_rb _ S) as I. rewrite R in I, Hz. apply inc_cons in I. destruct Hz as [<-|Hz]; [lia|]. destruct I as [_ I]. specialize (I z Hz). lia. }
  apply in_or_app. destruct (Z.le_gt_cases (e_seq first) (e_seq e)) as [G|G].
  - right. apply in_app_or in Hy. destruct Hy as [Hy|Hy].
    + apply (merged_before cf _ pre first rest R) in Hy. lia.
    + apply (T2 first y); auto. lia.
  - left. apply in_app_or in Hx. destruct Hx as [Hx|Hx]; [|specialize (Fst x Hx); lia].
    pose proof (merged_before cf _ pre first rest R x Hx) as [Hp Lx].
    assert (He' : In e pre) by (apply Q5; [exact He|]; specialize (Q3 x Hp); lia).
    unfold merged in Hx |- *. rewrite R in Hx |- *. destruct (rollback_window cf - length (first :: rest))%nat as [|room]; [contradiction|].
    destruct pre as [|p0 pre]; [contradiction|]. apply (kept_from _ _ x); auto; [now apply inc_filter| |lia].
    apply filter_In. split; [exact He'|]. apply Z.ltb_lt. lia.
Qed.

Lemma turns_step f a f' : okay cf f -> turns_ok f -> steady f a -> step cf f a = Some f' -> turns_ok f'.
Proof.
  intros K T [Hon Tn] E. pose proof (okay_step cf W _ _ _ K Hon E) as K'.
  pose proof K as (Or & Wi & Re & S). pose proof T as [T1 T2 T3 T4 T5]. unfold coll_turn in T4.
  assert (Th0 : forall log st, sub_turn log st -> sub_turn log st) by auto.
  destruct (step_cases _ _ _ _ E) as [Mv|[Mv|Mv]].
  - inversion Mv; subst; clear Mv; try (constructor; cbn; auto; fail).
    constructor; cbn in *; auto.
    + apply gapless_add; auto. apply (h_log _ S).
    + apply gapless_add; auto. apply (h_rblog _ S).
    + unfold coll_turn. cbn. pose proof (h_coll _ S) as Hc. unfold coll_ok in Hc. destruct (f_coll f); auto.
      * destruct T4 as [T4 T6]. split; [|exact T6]. apply gapless_add; auto. apply Hc.
      * destruct T4 as [T4 T6]. split; [|exact T6]. intros x Hx L. apply in_app_or in Hx. destruct Hx as [Hx|[<-|[]]]; [auto|]. specialize (Tn _ Hc). lia.
      * destruct T4 as [T4 T6]. split; [|exact T6]. intros x Hx L. apply in_app_or in Hx. destruct Hx as [Hx|[<-|[]]]; [auto|]. specialize (Tn _ Hc). lia.
      * destruct T4 as [T4 T6]. split; [|exact T6]. intros x Hx L. apply in_app_or in Hx. destruct Hx as [Hx|[<-|[]]]; [auto|]. specialize (Tn _ Hc). lia.
      * destruct T4 as [T4 T6]. split; [|exact T6]. intros x Hx L. apply in_app_or in Hx. destruct Hx as [Hx|[<-|[]]]; [auto|]. specialize (Tn _ Hc). lia.
      * destruct T4 as (T4 & T6 & T7). split; [exact T4|]. split; [exact T6|]. intros NE x Hx L. apply in_app_or in Hx. destruct Hx as [Hx|[<-|[]]]; [now apply T7|].
        specialize (Tn _ (proj1 Hc)). lia.
    + intros i st out Th. apply sub_turn_add; auto. exact (h_threads _ S _ _ _ Th). exact (T5 _ _ _ Th).
  - inversion Mv; subst; clear Mv;
      match goal with C : f_coll f = _ |- _ => rewrite C in T4, T3; cbn in Tn; try rewrite C in Tn end;
      try (constructor; cbn; unfold coll_turn; cbn; auto; fail).
    + (* load *) constructor; cbn; unfold coll_turn; cbn; auto. split; [now intros x y e []|discriminate].
    + constructor; cbn; unfold coll_turn; cbn; auto. lia.
    + (* emit *) destruct T4 as [T4 T6]. constructor; cbn; unfold coll_turn; cbn; auto. split; [exact T6|]. split; [reflexivity|].
      intros NE x Hx L. destruct (T3 NE) as (p & Hp & Lp). apply T4; [exact Hx|]. specialize (L p Hp). lia.
    + (* send *) destruct T4 as (T4 & T6 & T7). pose proof K' as (_ & _ & _ & S').
      pose proof (h_coll _ S) as Hc. unfold coll_ok in Hc. rewrite H in Hc. destruct Hc as [He Le].
      assert (Ec : collected (send cf f q e) = collected f ++ [e]) by (unfold collected; cbn; now rewrite app_assoc).
      constructor.
      * rewrite Ec. cbn. apply gapless_snoc; auto.
        -- rewrite <- Ec. apply (h_inc _ S').
        -- intros x Hx. apply in_app_or in Hx. destruct Hx as [Hx|[<-|[]]]; [now apply (h_log _ S)|exact He].
        -- intros a b Ha Hb. now apply (h_unique _ S).
      * cbn. assert (I : increasing (f_rollback f ++ [e])).
        { apply sorted_snoc; [apply (h_rb _ S)|]. intros x Hx. destruct (h_rbc _ S x Hx) as (y & Hy & L). specialize (Le y Hy). lia. }
        apply gapless_lastn; [exact I|]. apply gapless_snoc; auto.
        -- intros x Hx. apply in_app_or in Hx. destruct Hx as [Hx|[<-|[]]]; [now apply (h_rblog _ S)|exact He].
        -- intros a b Ha Hb. now apply (h_unique _ S).
        -- intros NE x Hx L. assert (NC : collected f <> []).
           { intros X. destruct (f_rollback f) as [|z r] eqn:R; [congruence|]. destruct (h_rbc _ S z) as (y & Hy & _); [rewrite R; cbn; auto|]. now rewrite X in Hy. }
           apply T7; auto. intros p Hp. pose proof (rollback_last cf W f K NC) as RL.
           destruct (last_of (collected f)) as [l|] eqn:Ll; [|apply last_of_None in Ll; contradiction].
           specialize (L l (last_of_In _ _ RL)). pose proof (inc_last _ _ _ (h_inc _ S) Ll Hp). lia.
      * intros _. cbn. exists e. split; [unfold collected; cbn; rewrite app_assoc; apply in_or_app; cbn; auto|lia].
      * unfold coll_turn. cbn. lia.
      * intros i st out Th. destruct (put_thread cf f q e i st out Th) as ([st0 out00] & Th0' & Hst). pose proof (T5 _ _ _ Th0') as X.
        pose proof (put_one_live (f_subscribers f) e i (Sub st0 out00)) as Y. rewrite Hst in Y. cbn in Y.
        cbn [f_log send]. destruct st; try (subst st0; exact X). exact Logic.I.
    + (* get *) pose proof (h_coll _ S) as Hc. unfold coll_ok in Hc. rewrite H in Hc. destruct Hc as (C1 & C2 & C3).
      destruct T4 as [T4 T6]. cbn in Hon. rewrite H in Hon. destruct Hon as (G1 & G2 & G3).
      constructor; cbn; unfold coll_turn; cbn; auto. split.
      * apply gapless_snoc; auto.
        -- apply sorted_snoc; [exact C1|]. intros x Hx. specialize (C3 x Hx). lia.
        -- intros x Hx. apply in_app_or in Hx. destruct Hx as [Hx|[<-|[]]]; auto.
        -- intros a b Ha Hb. now apply (h_unique _ S).
        -- intros NE x Hx L. apply Tn; [exact Hx|]. destruct (last_of got) as [g|] eqn:Lg; [|apply last_of_None in Lg; contradiction].
           rewrite (T6 g eq_refl). specialize (L g (last_of_In _ _ Lg)). lia.
      * intros g. rewrite last_of_app. intros [= <-]. reflexivity.
    + constructor; cbn; unfold coll_turn; cbn; auto. lia.
    + (* got *) constructor; cbn; unfold coll_turn; cbn; auto. split; [|reflexivity]. intros x Hx L. apply Tn; [exact Hx|]. lia.
    + (* loaded *) destruct (o_start _ _ Or) as [Ep Es]; [pose proof (o_ahead _ _ Or) as A; unfold ahead in A; now rewrite H in A|].
      pose proof (h_coll _ S) as Hc. unfold coll_ok in Hc. rewrite H in Hc. destruct Hc as (C1 & C2 & C3). destruct T4 as [T4 T6].
      assert (Ec : collected (preloaded cf f last got) = got) by (unfold collected, preloaded; cbn; now rewrite Es, app_nil_r).
      constructor; rewrite ?Ec; cbn; unfold coll_turn; cbn; auto.
      * now apply gapless_lastn.
      * intros NE. rewrite lastn_last by exact W. destruct (last_of got) as [g|] eqn:Lg; [|apply last_of_None in Lg; contradiction].
        exists g. split; [now apply last_of_In|lia].
  - destruct (sub_fields _ _ _ _ Mv) as (Elog & Elast & Elost & Enow & Est & Ecoll & Eseq & Eev & Epre & Esent).
    assert (Ec : collected f' = collected f) by (unfold collected; congruence).
    constructor; rewrite ?Elog, ?Ec, ?Ecoll, ?Eseq; auto.
    + destruct (sub_rollback _ _ _ _ Mv) as [->|(j & c & pre & q & e & out & first & rest & Ea & Tj & R & L & -> & Et)]; [exact T2|].
      now apply (merged_gapless f pre c q e out j S T Tj first rest).
    + unfold coll_turn. rewrite ?Elog, ?Ec, ?Ecoll, ?Eseq. exact T4.
    + intros j st' out' T'.
      assert (X : forall i t st out, thread f i st out -> f_threads f' = set_nth i t (f_threads f) -> (forall st1 out1, t = Sub st1 out1 -> sub_turn (f_log f) st1) ->
        sub_turn (f_log f) st').
      { intros i t st out Ti Et Ok. destruct (thread_set _ _ _ _ _ _ _ _ _ Ti T' Et) as [[-> ->]|[_ Tx]]; [exact (Ok _ _ eq_refl)|exact (T5 _ _ _ Tx)]. }
      inversion Mv; subst; clear Mv; try (eapply X; [eassumption|reflexivity|]; intros st1 out1 [= <- <-]; exact Logic.I).
      * unfold thread in T'. cbn in T'. destruct (Nat.lt_ge_cases j (length (f_threads f))) as [L|L].
        -- rewrite nth_error_app1 in T' by assumption. exact (T5 _ _ _ T').
        -- rewrite nth_error_app2 in T' by assumption. destruct (j - length (f_threads f))%nat as [|k]; [|destruct k; discriminate].
           injection T' as <- <-. destruct st; try discriminate; exact Logic.I.
      * eapply X; [eassumption|reflexivity|]. unfold request_step. intros st1 out1.
        destruct (f_last f); [|intros [= <- <-]; exact Logic.I]. destruct c; [|intros [= <- <-]; exact Logic.I].
        destruct (_ <? _); [intros [= <- <-]; exact Logic.I|]. destruct (_ <? _); intros [= <- <-]; exact Logic.I.
      * eapply X; [eassumption|reflexivity|]. unfold new_step. intros st1 out1. destruct c as [c|]; [|intros [= <- <-]; exact Logic.I].
        destruct (_ <? _); [|intros [= <- <-]; exact Logic.I]. destruct (_ <? _); intros [= <- <-]; [exact Logic.I|].
        cbn. split; [lia|]. split; [contradiction|]. split; [auto|]. intros e _ B. lia.
      * eapply X; [eassumption|reflexivity|]. intros st1 out1 [= <- <-]. pose proof (T5 _ _ _ H) as (P1 & P2 & P3 & P4 & P5).
        pose proof (h_threads _ S _ _ _ H) as (_ & P6 & _). assert (He : In e (f_log f)) by (apply P6, in_or_app; cbn; auto).
        cbn. split; [exact P1|]. split; [|split].
        -- intros x Hx. apply in_app_or in Hx. destruct Hx as [Hx|[<-|[]]]; auto.
        -- right. exists e. auto.
        -- intros z Hz B. apply in_or_app. destruct (Z.eq_dec (e_seq z) (e_seq e)) as [Q|Q]; [right; left; apply (h_unique _ S); auto|]. left. apply P5; [exact Hz|lia].
      * eapply X; [eassumption|reflexivity|]. intros st1 out1 [= <- <-]. pose proof (T5 _ _ _ H) as (P1 & P2 & P3 & P4).
        destruct (Hon _ _ _ _ _ H) as (G1 & G2 & G3). destruct (query_item_ok cf W (f_log f) c pre lst q e (h_threads _ S _ _ _ H) G1 G2) as [-> _].
        cbn in Tn. specialize (Tn _ _ _ _ _ H).
        cbn. split; [lia|]. split; [lia|]. split; [exact P2|]. split; [reflexivity|]. intros z Hz B. apply P4; [exact Hz|]. split; [lia|].
        destruct (Z.le_gt_cases (q_pos q) (e_seq z)) as [L|L]; [|exact L]. specialize (Tn z Hz L). lia.
Qed.

Lemma reached_turns f : reached cf steady f -> okay cf f /\ turns_ok f.
Proof.
  apply (reached_invariant cf steady (fun f => okay cf f /\ turns_ok f)).
  - intros g a g' [K T] Hs E. split; [exact (okay_step cf W _ _ _ K (proj1 Hs) E)|exact (turns_step _ _ _ K T Hs E)].
  - split; [|exact turns0]. apply (reached_sound cf W honest fire0 (fun _ _ H => H)). exists []. split; [reflexivity|exact Logic.I].
Qed.

(** Later events come after all earlier ones. *)
Lemma run_log f l f' : run cf f l = Some f' -> along cf steady f l ->
  incl (f_log f) (f_log f') /\ forall e, In e (f_log f') -> In e (f_log f) \/ forall x, In x (f_log f) -> e_seq x < e_seq e.
Proof.
  intros R A. refine (run_invariant cf steady (fun g => incl (f_log f) (f_log g) /\ forall e, In e (f_log g) -> In e (f_log f) \/ forall x, In x (f_log f) -> e_seq x < e_seq e) _ _ _ _ _ R A).
  2:{ split; [apply incl_refl|auto]. }
  intros g a g' (I & L) [_ Tn] E. cases E; try (split; [exact I|exact L]); [|rewrite Elog; auto]. cbn in *. split; [apply incl_appl, I|].
  intros z Hz. apply in_app_or in Hz. destruct Hz as [Hz|[<-|[]]]; [auto|]. right. intros x Hx. apply Tn. now apply I.
Qed.

Lemma stream i c out0 f1 l f2 out : reached cf steady f1 -> thread f1 i (SNew (Some c)) out0 -> 0 <= c ->
  (exists x, In x (collected f1) /\ c <= e_seq x) -> run cf f1 (SStep i :: l) = Some f2 ->
  along cf (fun f a => steady f a /\ undisturbed cf i f a /\ calm cf i f a) f1 (SStep i :: l) ->
  throughout cf (timely cf i (length (f_sent f1))) f1 (SStep i :: l) -> up_to_date f2 -> thread f2 i (SLive []) out ->
  exists D, out = out0 ++ map MEvent D /\ increasing D /\ forall e, In e D <-> In e (f_log f2) /\ c <= e_seq e.
Proof.
  intros R T C0 C1 Ru Al Th U T2. destruct (reached_turns f1 R) as [K1 G1].
  assert (Rh : reached cf honest f1).
  { destruct R as (l0 & R0 & A0). exists l0. split; [exact R0|]. eapply along_weaken; [|exact A0]. now intros g a []. }
  assert (Al1 : along cf steady f1 (SStep i :: l)) by (eapply along_weaken; [|exact Al]; cbn; tauto).
  assert (Al2 : along cf (fun f a => honest f a /\ undisturbed cf i f a /\ calm cf i f a) f1 (SStep i :: l)).
  { eapply along_weaken; [|exact Al]. cbn. intros g a (H & H1). split; [apply H|exact H1]. }
  destruct (c32 cf W i c out0 f1 l f2 Rh T C0 C1 Ru Al2 Th) as (st & D & H1 & H2 & H3 & _ & H5 & _).
  destruct (thread_fun _ _ _ _ _ _ T2 H1) as [<- ->]. exists D. split; [reflexivity|]. split; [exact H2|]. intros e. split; [apply H3|].
  intros [He Lc]. apply (H5 eq_refl). split; [exact Lc|].
  assert (K2 : okay cf f2 /\ turns_ok f2).
  { refine (run_invariant cf steady (fun f => okay cf f /\ turns_ok f) _ _ _ _ (conj K1 G1) Ru Al1).
    intros g a g' [K Tk] Hs E. split; [exact (okay_step cf W _ _ _ K (proj1 Hs) E)|exact (turns_step _ _ _ K Tk Hs E)]. }
  destruct K2 as [K2 G2]. destruct (U e He) as (y & Hy & Ly).
  assert (St : f_started f1 = true).
  { cbn [run step] in Ru. unfold on_thread in Ru. unfold thread in T. rewrite T in Ru. cbn in Ru. destruct (f_started f1); [reflexivity|discriminate]. }
  assert (Gr : incl (collected f1) (collected f2)).
  { rewrite (started_collecting cf _ _ R) in St. destruct (keeps_collecting cf _ _ _ St Ru) as [_ Ep]. destruct (sent_grows cf _ _ _ Ru) as (more & Es).
    intros x Hx. unfold collected in *. rewrite Ep, Es, app_assoc. apply in_or_app. auto. }
  destruct C1 as (x0 & Hx0 & Lx0). destruct (Z.le_gt_cases (e_seq x0) (e_seq e)) as [L|L].
  { left. apply (t_coll _ G2 x0 y); auto. }
  right. destruct (run_log _ _ _ Ru Al1) as [_ Lg]. pose proof K1 as (_ & _ & _ & S1).
  assert (He1 : In e (f_log f1)).
  { destruct (Lg e He) as [X|X]; [exact X|]. specialize (X x0 (h_log _ S1 x0 Hx0)). lia. }
  split; [exact He1|]. assert (NC : collected f1 <> []) by (intros X; now rewrite X in Hx0).
  pose proof (rollback_last cf W f1 K1 NC) as RL. unfold before_window. destruct (f_rollback f1) as [|first rest] eqn:Rb.
  { symmetry in RL. apply last_of_None in RL. contradiction. }
  destruct (Z.lt_ge_cases (e_seq e) (e_seq first)) as [Lf|Lf]; [auto|]. right. rewrite <- Rb in *.
  destruct (last_of (collected f1)) as [z|] eqn:Lz; [|apply last_of_None in Lz; contradiction].
  apply (t_rb _ G1 first z); auto; [rewrite Rb; cbn; auto|now apply last_of_In|].
  pose proof (inc_last _ _ _ (h_inc _ S1) Lz Hx0). lia.
Qed.
End Stream.

Lemma gapless_reached : forall cf f, (0 < rollback_window cf)%nat -> reached cf steady f -> gapless (f_log f) (collected f).
Proof. intros cf f W R. apply (t_coll _ (proj2 (reached_turns cf W f R))). Qed.

Lemma stream_all : forall cf i c out0 f1 l f2 out, (0 < rollback_window cf)%nat ->
  reached cf steady f1 -> thread f1 i (SNew (Some c)) out0 -> (0 <= c)%Z -> (exists x, In x (collected f1) /\ (c <= e_seq x)%Z) ->
  run cf f1 (SStep i :: l) = Some f2 ->
  along cf (fun f a => steady f a /\ undisturbed cf i f a /\ calm cf i f a) f1 (SStep i :: l) ->
  throughout cf (timely cf i (length (f_sent f1))) f1 (SStep i :: l) -> up_to_date f2 -> thread f2 i (SLive []) out ->
  exists D, out = out0 ++ map MEvent D /\ increasing D /\ forall e, In e D <-> In e (f_log f2) /\ (c <= e_seq e)%Z.
Proof. intros cf i c out0 f1 l f2 out W. exact (stream cf W i c out0 f1 l f2 out). Qed.
