(** Proofs about handles. *)
From Coq Require Import String List NArith ZArith Bool Lia.
From Verif Require Import Base Lists Ipld UriModel UriProofs DidModel DidSpec DidProofs HandleModel HandleSpec.
Import ListNotations.
Local Open Scope N_scope.

(** *** The matcher matches *)

Lemma nullable_ok r : nullable r = true <-> matches r [].
Proof.
  split.
  - induction r; cbn; intros H; try discriminate; try (constructor; fail).
    + apply andb_prop in H. destruct H. change (@nil N) with (@nil N ++ []). constructor; auto.
    + apply orb_prop in H. destruct H; [apply m_alt1|apply m_alt2]; auto.
  - remember [] as e eqn:E. induction 1; cbn; auto; try discriminate.
    + apply app_eq_nil in E. destruct E as [-> ->]. rewrite IHmatches1, IHmatches2; auto.
    + rewrite IHmatches; auto.
    + rewrite IHmatches, orb_true_r; auto.
Qed.

Lemma no_nothing x : ~ matches Nothing x.
Proof. intros H. inversion H. Qed.
Lemma cat_ok a b x : matches (cat a b) x <-> matches (Cat a b) x.
Proof.
  assert (N1 : forall b, ~ matches (Cat Nothing b) x) by (intros b0 H; inversion H; eapply no_nothing; eassumption).
  assert (N2 : forall a, ~ matches (Cat a Nothing) x) by (intros a0 H; inversion H; eapply no_nothing; eassumption).
  assert (E : forall b, matches (Cat Empty b) x <-> matches b x).
  { intros b0. split; intros H.
    - inversion H; subst. inversion H2; subst. assumption.
    - change x with ([] ++ x). constructor; [constructor|assumption]. }
  unfold cat. pose proof (no_nothing x). destruct a, b; try reflexivity; 
    try (symmetry; apply E);
    (split; intros H'; [destruct (no_nothing _ H')|first [destruct (N1 _ H')|destruct (N2 _ H')]]).
Qed.
Lemma alt_iff a b x : matches (Alt a b) x <-> matches a x \/ matches b x.
Proof. split; [intros H; inversion H; auto|intros [H|H]; [now apply m_alt1|now apply m_alt2]]. Qed.
Lemma alt_ok a b x : matches (alt a b) x <-> matches a x \/ matches b x.
Proof. pose proof (no_nothing x). unfold alt. destruct a, b; try apply alt_iff; tauto. Qed.
Lemma cat_iff a b x : matches (Cat a b) x <-> exists y z, x = y ++ z /\ matches a y /\ matches b z.
Proof. split; [intros H; inversion H; subst; eauto|intros (y & z & -> & A & B); now constructor]. Qed.

Lemma star_cons a c x : matches (Star a) (c :: x) -> exists y z, x = y ++ z /\ matches a (c :: y) /\ matches (Star a) z.
Proof.
  remember (Star a) as r eqn:R. remember (c :: x) as w eqn:W. intros H. revert c x W R. induction H; intros c0 x0 W R; try discriminate.
  injection R as ->. destruct x as [|d x].
  - cbn in W. apply IHmatches2; auto.
  - injection W as <- <-. eauto.
Qed.

Lemma deriv_ok c r : forall x, matches (deriv c r) x <-> matches r (c :: x).
Proof.
  induction r; intros x; cbn [deriv].
  - split; intros H; inversion H.
  - split; intros H; inversion H.
  - destruct (p c) eqn:E; split; intros H; inversion H; subst.
    + now constructor.
    + constructor.
    + congruence.
  - assert (A : matches (cat (deriv c r1) r2) x <-> exists y z, x = y ++ z /\ matches r1 (c :: y) /\ matches r2 z).
    { rewrite cat_ok, cat_iff. split; intros (y & z & -> & P & Q); exists y, z; [rewrite IHr1 in P|rewrite IHr1]; auto. }
    destruct (nullable r1) eqn:N.
    + rewrite alt_ok, A, IHr2, cat_iff. apply nullable_ok in N. split.
      * intros [(y & z & -> & P & Q)|P]; [exists (c :: y), z; auto|exists [], (c :: x); auto].
      * intros (y & z & E & P & Q). destruct y as [|d y]; cbn in E; [subst z; now right|]. injection E as <- ->. left. eauto.
    + rewrite A, cat_iff. split.
      * intros (y & z & -> & P & Q). exists (c :: y), z; auto.
      * intros (y & z & E & P & Q). destruct y as [|d y]; [apply nullable_ok in P; congruence|]. injection E as <- ->. eauto.
  - rewrite alt_ok, alt_iff, IHr1, IHr2. reflexivity.
  - rewrite cat_ok, cat_iff. split.
    + intros (y & z & -> & P & Q). apply IHr in P. change (c :: y ++ z) with ((c :: y) ++ z). now constructor.
    + intros H. apply star_cons in H. destruct H as (y & z & -> & P & Q). exists y, z. rewrite IHr. auto.
Qed.

Lemma fullmatch_ok x : forall r, fullmatch r x = true <-> matches r x.
Proof.
  induction x as [|c x IH]; intros r; cbn; [apply nullable_ok|]. rewrite IH. apply deriv_ok.
Qed.

(** *** The expression for handles *)

Lemma class_iff p x : matches (Class p) x <-> exists c, x = [c] /\ p c = true.
Proof. split; [intros H; inversion H; eauto|intros (c & -> & E); now constructor]. Qed.
Lemma opt_iff a x : matches (Opt a) x <-> x = [] \/ matches a x.
Proof. unfold Opt. rewrite alt_iff. split; (intros [H|H]; [left|now right]); [now inversion H|subst; constructor]. Qed.
Lemma upto_iff p n : forall x, matches (Upto n (Class p)) x <-> (length x <= n)%nat /\ Forall (fun c => p c = true) x.
Proof.
  induction n as [|n IH]; intros x; cbn [Upto].
  - split; [intros H; inversion H; auto|]. intros [H _]. destruct x; [constructor|cbn in H; lia].
  - rewrite opt_iff, cat_iff. split.
    + intros [->|(y & z & -> & P & Q)]; [cbn; split; [lia|constructor]|]. apply class_iff in P. destruct P as (c & -> & P).
      apply IH in Q. destruct Q. cbn. split; [lia|now constructor].
    + intros [L F]. destruct x as [|c x]; [now left|]. right. inversion F; subst. exists [c], x. cbn in L.
      split; [reflexivity|]. split; [apply class_iff; eauto|]. apply IH. split; [lia|assumption].
Qed.
Lemma star_iff a x : matches (Star a) x <-> exists l, x = concat l /\ Forall (matches a) l.
Proof.
  split.
  - remember (Star a) as r eqn:R. intros H. revert R. induction H; intros R; try discriminate.
    + exists []. auto.
    + injection R as ->. destruct (IHmatches2 eq_refl) as (l & -> & F). exists (x :: l). cbn. auto.
  - intros (l & -> & F). induction F; cbn; constructor; auto.
Qed.

Lemma az_ok c : az c = true <-> letter c.
Proof. unfold az, range, letter, ch. cbn. lia. Qed.
Lemma az09_ok c : az09 c = true <-> letter c \/ digit c.
Proof. unfold az09, az, range, letter, digit, ch. cbn. lia. Qed.
Lemma az09__ok c : az09_ c = true <-> letter c \/ digit c \/ c = hyphen.
Proof. unfold az09_, az09, az, range, letter, digit, hyphen, is_ch, ch. cbn. lia. Qed.

Lemma rest_iff x : matches rest_re x <-> x = [] \/ exists m c, x = m ++ [c] /\ (length m <= 61)%nat /\
  Forall (fun c => letter c \/ digit c \/ c = hyphen) m /\ (letter c \/ digit c).
Proof.
  unfold rest_re. rewrite opt_iff, cat_iff. split; (intros [H|H]; [now left|right]).
  - destruct H as (y & z & -> & P & Q). apply upto_iff in P. destruct P as [L F]. apply class_iff in Q. destruct Q as (c & -> & Q).
    exists y, c. split; [reflexivity|]. split; [assumption|]. split; [|now apply az09_ok].
    eapply Forall_impl; [|exact F]. intros a. apply az09__ok.
  - destruct H as (m & c & -> & L & F & Q). exists m, [c]. split; [reflexivity|]. split.
    + apply upto_iff. split; [assumption|]. eapply Forall_impl; [|exact F]. intros a. apply az09__ok.
    + apply class_iff. exists c. split; [reflexivity|now apply az09_ok].
Qed.

Lemma label_iff c r : matches rest_re r /\ (letter c \/ digit c) <-> label (c :: r).
Proof.
  unfold label. rewrite rest_iff. split.
  - intros [[->|(m & d & -> & L & F & D)] C].
    + cbn. repeat split; try lia; [constructor; [tauto|constructor]| |]; unfold letter, digit, hyphen in *; lia.
    + split; [cbn; rewrite app_length; cbn; lia|]. split; [constructor; [tauto|]; apply Forall_app; split; [assumption|]; constructor; [tauto|constructor]|].
      split; [cbn; unfold letter, digit, hyphen in *; lia|]. change (c :: m ++ [d]) with ((c :: m) ++ [d]). rewrite last_last. unfold letter, digit, hyphen in *; lia.
  - intros (L & F & H & La). inversion F; subst. cbn in H. split; [|tauto].
    destruct r as [|a r] using rev_ind; [now left|]. clear IHr. right. exists r, a. apply Forall_app in H3. destruct H3 as [F1 F2]. inversion F2; subst.
    split; [reflexivity|]. cbn in L. rewrite app_length in L. cbn in L. split; [lia|]. split; [assumption|].
    change (c :: r ++ [a]) with ((c :: r) ++ [a]) in La. rewrite last_last in La. tauto.
Qed.

Lemma dotted_iff x : matches (Cat (Class az09) (Cat rest_re (Class (is_ch ".")))) x <-> exists l, label l /\ x = l ++ [dot].
Proof.
  rewrite cat_iff. split.
  - intros (y & z & -> & P & Q). apply class_iff in P. destruct P as (c & -> & P). apply cat_iff in Q. destruct Q as (r & w & -> & Q & R).
    apply class_iff in R. destruct R as (d & -> & R). apply N.eqb_eq in R. subst d. exists (c :: r). split; [|reflexivity].
    apply label_iff. split; [assumption|now apply az09_ok].
  - intros (l & L & ->). destruct l as [|c r]; [destruct L as [L _]; cbn in L; lia|]. apply label_iff in L. destruct L as [Q C].
    exists [c], (r ++ [dot]). split; [reflexivity|]. split; [apply class_iff; exists c; split; [reflexivity|now apply az09_ok]|].
    apply cat_iff. exists r, [dot]. split; [reflexivity|]. split; [assumption|]. apply class_iff. exists dot. auto.
Qed.

Lemma handle_iff h : fullmatch handle_re h = true <-> handle_syntax h.
Proof.
  rewrite fullmatch_ok. unfold handle_re, Plus. rewrite cat_iff. unfold handle_syntax. split.
  - intros (y & z & -> & P & Q). apply cat_iff in P. destruct P as (y1 & y2 & -> & P1 & P2).
    apply dotted_iff in P1. destruct P1 as (l & L & ->). apply star_iff in P2. destruct P2 as (ls & -> & F).
    apply cat_iff in Q. destruct Q as (c & r & -> & Q1 & Q2). apply class_iff in Q1. destruct Q1 as (d & -> & Q1). apply az_ok in Q1.
    assert (E : exists labels, ls = map (fun l => l ++ [dot]) labels /\ Forall label labels).
    { induction F as [|x ls Hx F IH]; [exists []; auto|]. apply dotted_iff in Hx. destruct Hx as (l' & L' & ->).
      destruct IH as (labels & -> & Fl). exists (l' :: labels). auto. }
    destruct E as (labels & -> & Fl). exists (l :: labels), (d :: r).
    split; [discriminate|]. split; [now constructor|]. split; [apply label_iff; auto|]. split; [assumption|].
    cbn [map concat]. now rewrite <- !app_assoc.
  - intros (labels & tld & N & F & T & Lt & ->). destruct labels as [|l labels]; [easy|]. inversion F; subst.
    exists (concat (map (fun l => l ++ [dot]) (l :: labels))), tld. split; [reflexivity|]. split.
    + apply cat_iff. cbn [map concat]. do 2 eexists. split; [reflexivity|]. split; [apply dotted_iff; eauto|].
      apply star_iff. eexists. split; [reflexivity|]. apply Forall_map. eapply Forall_impl; [|exact H2].
      intros x X. apply dotted_iff. eauto.
    + destruct tld as [|c r]; [destruct T as [T _]; cbn in T; lia|]. apply label_iff in T. destruct T as [R _].
      apply cat_iff. exists [c], r. split; [reflexivity|]. split; [|assumption]. apply class_iff. exists c. split; [reflexivity|]. now apply az_ok.
Qed.

Lemma handle_domain h : handle_syntax h -> domain h.
Proof.
  intros (labels & tld & N & F & T & Lt & ->).
  assert (L : forall l, label l -> Forall (fun c => (48 <= c <= 57) \/ (65 <= c <= 90) \/ (97 <= c <= 122) \/ In c (s ".-")) l).
  { intros l (_ & Fl & _). eapply Forall_impl; [|exact Fl]. intros c. unfold letter, digit, hyphen. cbn. intuition. }
  split.
  - destruct T as [T _]. intros E. apply app_eq_nil in E. destruct E as [_ ->]. cbn in T. lia.
  - apply Forall_app. split; [|now apply L]. clear N. induction F as [|l ls Hl F IH]; cbn; [constructor|].
    apply Forall_app. split; [|assumption]. apply Forall_app. split; [now apply L|]. constructor; [|constructor]. cbn. tauto.
Qed.

(** *** Resolution *)

Lemma white_space c : space c = true <-> white c.
Proof.
  unfold space, white. rewrite orb_true_iff, !andb_true_iff, !N.leb_le. tauto.
Qed.
Lemma lstrip_spec p x : exists a, x = a ++ lstrip p x /\ Forall (fun c => p c = true) a.
Proof.
  induction x as [|c x (a & E & F)]; [exists []; auto|]. cbn. destruct (p c) eqn:P; [|exists []; auto].
  exists (c :: a). split; [cbn; now rewrite <- E|now constructor].
Qed.
Lemma strip_spec p x : exists a z, x = a ++ strip p x ++ z /\ Forall (fun c => p c = true) a /\ Forall (fun c => p c = true) z.
Proof.
  destruct (lstrip_spec p x) as (a & E & F). destruct (lstrip_spec p (rev (lstrip p x))) as (z & E' & F').
  exists a, (rev z). unfold strip. split; [|split; [assumption|]].
  - rewrite E at 1. f_equal. rewrite <- rev_app_distr, <- E', rev_involutive. reflexivity.
  - apply Forall_rev. assumption.
Qed.
Lemma lstrip_all p a x : Forall (fun c => p c = true) a -> (match x with c :: _ => p c = false | [] => True end) -> lstrip p (a ++ x) = x.
Proof.
  intros F H. induction F as [|c a P F IH]; cbn [app lstrip]; [destruct x as [|c x]; cbn; [reflexivity|now rewrite H]|]. now rewrite P.
Qed.
Lemma strip_eq p a x z : Forall (fun c => p c = true) a -> Forall (fun c => p c = true) z ->
  (match x with c :: _ => p c = false | [] => True end) -> (match rev x with c :: _ => p c = false | [] => True end) -> strip p (a ++ x ++ z) = x.
Proof.
  intros A Z H H'. destruct x as [|c x].
  - cbn [app]. unfold strip. replace (lstrip p (a ++ z)) with (@nil N); [reflexivity|].
    symmetry. rewrite <- (app_nil_r (a ++ z)). apply lstrip_all; [|exact I]. apply Forall_app. auto.
  - unfold strip. rewrite (lstrip_all p a ((c :: x) ++ z) A H). rewrite rev_app_distr. rewrite lstrip_all; [apply rev_involutive|now apply Forall_rev|exact H'].
Qed.

Section Handle.
Variable dns : str -> option answer.
Variable http : str -> option (bool * str).
Notation resolve_handle := (resolve_handle dns http).

Lemma resolve_invalid h : ~ handle_syntax h -> resolve_handle h = ([], Err ValueError).
Proof.
  intros H. unfold HandleModel.resolve_handle. destruct h as [|c r]; [reflexivity|]. destruct (fullmatch handle_re (c :: r)) eqn:E; [|reflexivity].
  apply handle_iff in E. easy.
Qed.

Lemma resolve_valid h : handle_syntax h -> exists q d, resolve_handle h = (q, Ok d) /\
  (q = [Dns (s "_atproto." ++ h ++ s ".")] /\ d <> None \/
   q = [Dns (s "_atproto." ++ h ++ s "."); Http (s "https://" ++ h ++ s "/.well-known/atproto-did")]).
Proof.
  intros H. pose proof (handle_domain h H) as [N _]. unfold HandleModel.resolve_handle. apply handle_iff in H. rewrite H.
  destruct h as [|c r]; [easy|]. cbn [negb].
  destruct (match dns _ with Some _ => _ | None => _ end) as [d|]; do 2 eexists; split; try reflexivity; [left|now right].
  split; [reflexivity|discriminate].
Qed.

Lemma strip_quote t : exists x, strip (N.eqb quote) (quote :: s "did=did:" ++ t) = s "did=did:" ++ x.
Proof.
  unfold strip. change (lstrip (N.eqb quote) (quote :: s "did=did:" ++ t)) with (s "did=did:" ++ t).
  rewrite rev_app_distr.
  assert (G : forall y z, (exists w, lstrip (N.eqb quote) (y ++ z) = w ++ z) \/ exists w, lstrip (N.eqb quote) (y ++ z) = lstrip (N.eqb quote) z /\ w = z).
  { induction y as [|c y IH]; intros z; [right; cbn; eauto|]. cbn [app lstrip]. destruct (quote =? c); [apply IH|]. left. exists (c :: y). reflexivity. }
  destruct (G (rev t) (rev (s "did=did:"))) as [(w & E)|(w & E & _)].
  - rewrite E, rev_app_distr, rev_involutive. eauto.
  - rewrite E. exists []. reflexivity.
Qed.

Lemma dns_did_did l d : dns_did l = Some d -> exists x, d = s "did:" ++ x.
Proof.
  induction l as [|[b t] l IH]; [discriminate|]. cbn [dns_did]. destruct (b && starts_with (quote :: s "did=did:") t) eqn:E; [|exact IH].
  intros H. injection H as <-. apply andb_prop in E. destruct E as [_ E]. apply Lists.starts_with_app in E. destruct E as [r ->].
  cbn [app]. destruct (strip_quote r) as [x ->]. exists x. change (s "did=did:") with (s "did=" ++ s "did:"). rewrite <- app_assoc.
  apply remove_prefix_app.
Qed.

Lemma resolve_did h q d : resolve_handle h = (q, Ok (Some d)) -> exists x, d = s "did:" ++ x.
Proof.
  unfold HandleModel.resolve_handle. destruct (match h with [] => true | _ => _ end); [discriminate|].
  destruct (match dns _ with Some _ => _ | None => _ end) as [d'|] eqn:D.
  - intros H. injection H as _ <-. destruct (dns _) as [a|]; [|discriminate]. destruct (str_eqb _ _); [|discriminate]. eapply dns_did_did. exact D.
  - destruct (http _) as [[[|] body]|]; try discriminate. cbv zeta.
    destruct (starts_with (s "did:") (strip space body)) eqn:E; [|discriminate]. intros H. assert (strip space body = d) as <- by congruence. now apply Lists.starts_with_app in E.
Qed.

Lemma handle_requests h : handle_syntax h ->
  exists q d url, resolve_handle h = (q, Ok d) /\
    (q = [Dns (s "_atproto." ++ h ++ s ".")] /\ d <> None \/ q = [Dns (s "_atproto." ++ h ++ s "."); Http url]) /\
    forall host, contacts url host <-> host = h.
Proof.
  intros H. destruct (resolve_valid h H) as (q & d & E & Q). exists q, d. eexists. split; [exact E|]. split; [exact Q|].
  destruct (domain_without h (handle_domain h H)) as [W _].
  assert (C : contacts (s "https://" ++ h ++ s "/.well-known/atproto-did") h) by (apply url_contacts; [assumption|right; eexists; reflexivity]).
  intros host. split; [intros X; eapply contacts_unique; eassumption|intros ->; exact C].
Qed.


Lemma dns_skip pre l : (forall x, In x pre -> ~ names_did x) -> dns_did (pre ++ l) = dns_did l.
Proof.
  induction pre as [|[b t] pre IH]; intros H; [reflexivity|]. cbn [app dns_did].
  destruct (b && starts_with (quote :: s "did=did:") t) eqn:E.
  - exfalso. apply andb_prop in E. destruct E as [-> E]. apply Lists.starts_with_app in E. destruct E as [r ->].
    apply (H (true, (quote :: s "did=did:") ++ r)); [now left|]. split; [reflexivity|]. exists r. reflexivity.
  - apply IH. intros x I. apply H. now right.
Qed.

Lemma resolve_dns h a pre post r : handle_syntax h -> dns (s "_atproto." ++ h ++ s ".") = Some a -> canonical a = s "_atproto." ++ h ++ s "." ->
  rdata a = pre ++ (true, s """did=did:" ++ r ++ s """") :: post -> (forall x, In x pre -> ~ names_did x) -> ~ In quote r ->
  resolve_handle h = ([Dns (s "_atproto." ++ h ++ s ".")], Ok (Some (s "did:" ++ r))).
Proof.
  intros H D C R P Q. pose proof (handle_domain h H) as [N _]. unfold HandleModel.resolve_handle. apply handle_iff in H. rewrite H.
  destruct h as [|c h]; [easy|]. cbn [negb]. rewrite D, C, str_eqb_refl, R, (dns_skip pre _ P). cbn [dns_did].
  change (s """did=did:" ++ r ++ s """") with ([quote] ++ (s "did=did:" ++ r) ++ [quote]) at 1.
  assert (E : starts_with (quote :: s "did=did:") ([quote] ++ (s "did=did:" ++ r) ++ [quote]) = true).
  { apply Lists.starts_with_app. exists (r ++ [quote]). cbn. reflexivity. }
  rewrite E. cbn [andb]. change (s """did=did:" ++ r ++ s """") with ([quote] ++ (s "did=did:" ++ r) ++ [quote]).
  rewrite strip_eq.
  - change (s "did=did:" ++ r) with (s "did=" ++ s "did:" ++ r). rewrite remove_prefix_app. reflexivity.
  - repeat constructor.
  - repeat constructor.
  - reflexivity.
  - rewrite rev_app_distr. destruct (rev r) as [|x y] eqn:E'; [reflexivity|]. cbn [app rev]. apply N.eqb_neq. intros <-. apply Q. apply in_rev. rewrite E'. now left.
Qed.

Definition no_dns (h : str) : Prop := forall a, dns (s "_atproto." ++ h ++ s ".") = Some a -> canonical a = s "_atproto." ++ h ++ s "." ->
  forall x, In x (rdata a) -> ~ names_did x.

Lemma by_http h : handle_syntax h -> no_dns h -> 
  snd (resolve_handle h) = Ok (match http (s "https://" ++ h ++ s "/.well-known/atproto-did") with
             | Some (true, body) => let did := strip space body in if starts_with (s "did:") did then Some did else None
             | _ => None
             end).
Proof.
  intros H D. pose proof (handle_domain h H) as [N _]. unfold HandleModel.resolve_handle. apply handle_iff in H. rewrite H.
  destruct h as [|c h]; [easy|]. cbn [negb]. unfold no_dns in D. destruct (dns _) as [a|]; [|reflexivity].
  destruct (str_eqb (canonical a) _) eqn:E; [|reflexivity]. apply str_eqb_eq in E. specialize (D a eq_refl E).
  rewrite <- (app_nil_r (rdata a)), (dns_skip _ [] D). reflexivity.
Qed.

Lemma resolve_http h a r c z : handle_syntax h -> no_dns h ->
  http (s "https://" ++ h ++ s "/.well-known/atproto-did") = Some (true, a ++ (s "did:" ++ r ++ [c]) ++ z) ->
  Forall white a -> Forall white z -> ~ white c -> snd (resolve_handle h) = Ok (Some (s "did:" ++ r ++ [c])).
Proof.
  assert (W : forall x, Forall white x -> Forall (fun c => space c = true) x).
  { intros x F. eapply Forall_impl; [|exact F]. intros y. apply white_space. }
  intros H D E A Z C. rewrite by_http by assumption. rewrite E. cbv zeta. rewrite strip_eq; [|now apply W|now apply W|reflexivity|].
  - rewrite UriProofs.starts_with_app. reflexivity.
  - rewrite app_assoc, rev_app_distr. cbn. destruct (space c) eqn:S; [|reflexivity]. apply white_space in S. easy.
Qed.
Lemma resolve_none h : handle_syntax h -> no_dns h ->
  (forall body, http (s "https://" ++ h ++ s "/.well-known/atproto-did") <> Some (true, body)) -> snd (resolve_handle h) = Ok None.
Proof.
  intros H D E. rewrite by_http by assumption. destruct (http _) as [[[|] body]|]; try reflexivity. now destruct (E body).
Qed.

Lemma resolve_source h q d : resolve_handle h = (q, Ok (Some d)) ->
  (exists a t m n, dns (s "_atproto." ++ h ++ s ".") = Some a /\ canonical a = s "_atproto." ++ h ++ s "." /\ In (true, t) (rdata a) /\
     t = repeat quote m ++ s "did=" ++ d ++ repeat quote n) \/
  (exists a z, http (s "https://" ++ h ++ s "/.well-known/atproto-did") = Some (true, a ++ d ++ z) /\ Forall white a /\ Forall white z).
Proof.
  unfold HandleModel.resolve_handle. destruct (match h with [] => true | _ => _ end); [discriminate|].
  destruct (match dns _ with Some _ => _ | None => _ end) as [d'|] eqn:D.
  - intros H. injection H as _ <-. left. destruct (dns _) as [a|]; [|discriminate]. destruct (str_eqb _ _) eqn:C; [|discriminate].
    apply str_eqb_eq in C.
    assert (G : exists t, In (true, t) (rdata a) /\ starts_with (quote :: s "did=did:") t = true /\ remove_prefix (s "did=") (strip (N.eqb quote) t) = d').
    { clear C. induction (rdata a) as [|[b t] l IH]; [discriminate|]. cbn [dns_did] in D.
      destruct (b && starts_with (quote :: s "did=did:") t) eqn:E.
      - apply andb_prop in E. destruct E as [-> E]. injection D as <-. exists t. split; [now left|auto].
      - destruct (IH D) as (t' & I & Q). exists t'. split; [now right|exact Q]. }
    destruct G as (t & I & S & R). destruct (strip_spec (N.eqb quote) t) as (m & n & T & M & N).
    assert (K : forall x, Forall (fun c => (quote =? c) = true) x -> x = repeat quote (length x)).
    { clear. intros x F. induction F as [|c x E F IH]; [reflexivity|]. apply N.eqb_eq in E. cbn. now rewrite <- IH, <- E. }
    exists a, t, (length m), (length n). split; [reflexivity|]. split; [assumption|]. split; [assumption|].
    rewrite <- (K _ M), <- (K _ N). rewrite T at 1. f_equal. rewrite app_assoc. f_equal.
    apply Lists.starts_with_app in S. destruct S as [r ->]. cbn [app] in R. destruct (strip_quote r) as [x E].
    change ((quote :: s "did=did:") ++ r) with (quote :: s "did=did:" ++ r). rewrite E in *. rewrite <- R.
    change (s "did=did:" ++ x) with (s "did=" ++ s "did:" ++ x). rewrite remove_prefix_app. reflexivity.
  - destruct (http _) as [[[|] body]|]; try discriminate. cbv zeta.
    destruct (starts_with (s "did:") (strip space body)) eqn:E; [|discriminate]. intros H. assert (Q : strip space body = d) by congruence.
    right. destruct (strip_spec space body) as (a & z & T & A & Z). rewrite Q in T. exists a, z. split; [now rewrite T at 1|].
    split; (eapply Forall_impl; [|eassumption]); intros c; apply white_space.
Qed.
End Handle.

Lemma dns_strings : exists dns http h d, handle_syntax h /\ resolve_handle dns http h = ([Dns (s "_atproto." ++ h ++ s ".")], Ok (Some d)) /\
  In (ch """") d /\ In (ch " ") d.
Proof.
  exists (fun n => Some {| canonical := n; rdata := [(true, s """did=did:plc:abc"" ""def""")] |}), (fun _ => None), (s "han.dle"), (s "did:plc:abc"" ""def").
  split; [apply handle_iff; vm_compute; reflexivity|]. split; [vm_compute; reflexivity|]. vm_compute. tauto.
Qed.
