(** Facts about PLC operations and DID documents. *)
From Coq Require Import String List NArith ZArith Bool Lia.
From Verif Require Import Base Lists Ipld CodecModel CodecProofs UriModel UriProofs DidModel DidSpec DidProofs.
Import ListNotations.
Local Open Scope N_scope.

(** *** Documents *)

Definition plain (h : str) : Prop := h <> [] /\ forall c, In c h -> c < 128 /\ ~ In c (s "/?#[]") /\ ~ In c [9; 10; 13].

Lemma parse_handle netloc_ok h : plain h -> parse_at_uri netloc_ok (s "at://" ++ h) = Ok (h, [], []).
Proof.
  intros [_ HD]. unfold parse_at_uri. rewrite UriProofs.starts_with_app. cbn [negb].
  assert (Ch : forall p : N -> bool, (forall c, c < 128 -> ~ In c (s "/?#[]") -> ~ In c [9; 10; 13] -> p c = false) -> forall c, In c h -> p c = false).
  { intros p Hp c I. destruct (HD c I) as (A & B & C). auto. }
  assert (P : urlparse_at netloc_ok (s "at://" ++ h) = Ok (h, [])).
  { unfold urlparse_at. change (skipn 5 (s "at://" ++ h)) with h. rewrite filter_all.
    2: { intros c I. destruct (HD c I) as (A & B & C). unfold removed. cbn in C. lia. }
    rewrite cut_none by (apply Ch; intros c A B C; unfold is_ch, ch; cbn in *; lia).
    cbn [cut]. 
    rewrite (existsb_no (is_ch "[") h) by (apply Ch; intros c A B C; unfold is_ch, ch; cbn in *; lia).
    rewrite (existsb_no (is_ch "]") h) by (apply Ch; intros c A B C; unfold is_ch, ch; cbn in *; lia).
    rewrite (existsb_no _ h) by (apply Ch; intros c A B C; cbn in *; lia). reflexivity. }
  rewrite P. reflexivity.
Qed.

Section Docs.
Variable pub : Type.
Variable curve_of : pub -> curve.
Variable point : pub -> list N.
Variable from_point : curve -> list N -> res pub.
Variable other_base : str -> res (list N).
Variable netloc_ok : str -> bool.
Notation encode_did_key := (encode_did_key pub curve_of point).
Notation get_signing_key := (get_signing_key pub from_point other_base).
Notation get_handle := (get_handle netloc_ok).

Lemma first_handle_at pre h rest : plain h -> Forall (fun v => exists t, v = IText t /\ starts_with (s "at://") t = false) pre ->
  first_handle netloc_ok (pre ++ IText (s "at://" ++ h) :: rest) = Ok (Some h).
Proof.
  intros P F. induction F as [|v l (t & -> & E) F IH]; cbn [app first_handle text bind].
  - rewrite UriProofs.starts_with_app, parse_handle by assumption. cbn [bind]. destruct P as [N _]. destruct h; [easy|reflexivity].
  - now rewrite E.
Qed.

Lemma doc_facts op doc : plc_operation_to_did_doc op = Ok doc ->
  exists did vm sk akas, dget (s "did") op = Some (IText did) /\ dget (s "verificationMethods") op = Some (IMap vm) /\
    dget (s "atproto") vm = Some (IText sk) /\ dget (s "alsoKnownAs") op = Some akas /\
    get_or (s "id") INull doc = Ok (IText did) /\ get_or (s "alsoKnownAs") (IList []) doc = Ok akas /\
    exists type controller, get_or (s "verificationMethod") (IList []) doc = Ok (IList [IMap [
      (s "id", IText (did ++ s "#atproto")); type; controller; (s "publicKeyMultibase", IText (remove_prefix (s "did:key:") sk))]]) /\
      fst type = s "type" /\ fst controller = s "controller".
Proof.
  unfold plc_operation_to_did_doc. destruct op as [|o op']; [discriminate|]. remember (o :: op') as op.
  destruct (item (s "verificationMethods") _) as [vm|] eqn:E1; [|discriminate]. cbn [bind].
  destruct (item (s "atproto") vm) as [sk|] eqn:E2; [|discriminate]. cbn [bind].
  destruct (item (s "did") _) as [d|] eqn:E3; [|discriminate]. cbn [bind].
  destruct (item (s "alsoKnownAs") _) as [akas|] eqn:E4; [|discriminate]. cbn [bind].
  destruct (text d) as [did|] eqn:E5; [|discriminate]. cbn [bind].
  destruct (text sk) as [sg|] eqn:E6; [|discriminate]. cbn [bind].
  destruct (item (s "services") _) as [sv|] eqn:E7; [|discriminate]. cbn [bind].
  destruct (item (s "atproto_pds") sv) as [pds|] eqn:E8; [|discriminate]. cbn [bind].
  destruct (item (s "endpoint") pds) as [ep|] eqn:E9; [|discriminate]. cbn [bind]. intros H.
  apply item_ok in E1, E2, E3, E4. apply text_ok in E5, E6. destruct E1 as (m & Em & E1). injection Em as <-.
  destruct E3 as (m & Em & E3). injection Em as <-. destruct E4 as (m & Em & E4). injection Em as <-. destruct E2 as (m & -> & E2). subst d sk.
  injection H as <-. exists did, m, sg, akas. repeat (split; [assumption|]). split; [reflexivity|]. split; [reflexivity|].
  do 2 eexists. split; [reflexivity|]. split; reflexivity.
Qed.

Lemma doc_key op doc k sk vm did : plc_operation_to_did_doc op = Ok doc ->
  dget (s "did") op = Some (IText did) -> did <> [] ->
  dget (s "verificationMethods") op = Some (IMap vm) -> dget (s "atproto") vm = Some (IText sk) ->
  encode_did_key k = Ok sk -> bytes (point k) -> from_point (curve_of k) (point k) = Ok k ->
  get_signing_key doc = Ok (Some k).
Proof.
  intros D Di Nd V A E B F. destruct (doc_facts _ _ D) as (did' & vm' & sk' & akas & D1 & D2 & D3 & D4 & D5 & D6 & ty & co & D7 & T & C).
  assert (did' = did) by congruence. assert (vm' = vm) by congruence. subst. assert (sk' = sk) by congruence. subst.
  unfold DidModel.get_signing_key. rewrite D5. cbn [bind]. replace (falsy (IText did)) with false by (destruct did; [easy|reflexivity]).
  cbn [text bind]. rewrite D7. cbn [bind items first_key].
  destruct ty as [tk tv], co as [ck cv]. cbn in T, C. subst tk ck.
  cbn [get_or]. change (dget (s "id") ((s "id", ?v) :: ?l)) with (Some v). cbn [bind].
  assert (NE : curve_of k <> OtherCurve) by (intros X; unfold DidModel.encode_did_key in E; rewrite X in E; discriminate).
  destruct (did_key_inv pub curve_of point from_point other_base k NE B F) as (x & Ex & _ & Dx & Rx & Nx).
  rewrite E in Ex. injection Ex as ->.
  rewrite str_eqb_refl. 
  match goal with |- context[dget (s "publicKeyMultibase") ?l] => change (dget (s "publicKeyMultibase") l) with (Some (IText (remove_prefix (s "did:key:") (s "did:key:" ++ x)))) end.
  cbn iota. cbn [bind]. rewrite Rx. replace (falsy (IText x)) with false by (destruct x; [easy|reflexivity]).
  cbn [text bind]. rewrite Dx. reflexivity.
Qed.

Lemma doc_handle op doc pre h rest : plc_operation_to_did_doc op = Ok doc ->
  dget (s "alsoKnownAs") op = Some (IList (pre ++ IText (s "at://" ++ h) :: rest)) -> plain h ->
  Forall (fun v => exists t, v = IText t /\ starts_with (s "at://") t = false) pre ->
  get_handle doc = Ok (Some h).
Proof.
  intros D A P F. destruct (doc_facts _ _ D) as (did' & vm' & sk' & akas & D1 & D2 & D3 & D4 & D5 & D6 & _).
  unfold DidModel.get_handle. rewrite D6. cbn [bind]. rewrite A in D4. injection D4 as <-. cbn [items bind]. now apply first_handle_at.
Qed.
End Docs.

(** *** Operations *)

Section Ops.
Variable pub : Type.
Variable curve_of : pub -> curve.
Variable point : pub -> list N.
Variable priv : Type.
Variable public : priv -> pub.
Variable sign_bytes : priv -> list N -> list N.
Variable digest : list N -> list N.
Variable plc_host pds_host : str.
Notation signed := (signed priv sign_bytes).
Notation encode_did_key := (encode_did_key pub curve_of point).
Notation written fs fr := (written pub curve_of point priv public sign_bytes digest fs fr plc_host pds_host).
Notation the_did := (the_did digest).
Notation write_plc fs fr := (write_plc pub curve_of point priv public sign_bytes digest fs fr plc_host pds_host).
Notation create_plc fs fr := (create_plc pub curve_of point priv public sign_bytes digest fs fr plc_host pds_host).
Notation update_plc fs fr := (update_plc pub curve_of point priv public sign_bytes digest fs fr plc_host pds_host).
Notation rollback_plc := (rollback_plc pub curve_of point priv public sign_bytes digest plc_host).
Notation history := (history pub curve_of point priv public sign_bytes digest plc_host pds_host).
Notation key_pub := (key_pub pub priv public).

Section Doc.
Variable from_point : curve -> list N -> res pub.
Variable other_base : str -> res (list N).
Variable netloc_ok : str -> bool.
Hypothesis points : forall k, bytes (point k) /\ (curve_of k <> OtherCurve -> from_point (curve_of k) (point k) = Ok k).

Lemma the_did_ne did op : the_did did op <> [].
Proof. unfold DidProofs.the_did. destruct did as [[|c r]|]; unfold plc_did; cbn; discriminate. Qed.

Lemma write_doc fs fr post did h a prev r : snd (write_plc fs fr post did h a prev) = Ok r ->
  get_signing_key pub from_point other_base (p_doc r) = Ok (Some (key_pub (match a_signing _ _ a with Some k => k | None => Private fs end))) /\
  exists h', h = Some h' /\ (plain h' -> get_handle netloc_ok (p_doc r) = Ok (Some h')).
Proof.
  intros E. destruct (write_cases pub curve_of point priv public sign_bytes digest fs fr plc_host pds_host post did h a prev)
    as [[_ [e X]]|(h' & d & url & body & Hh & T & W & D)]; [congruence|].
  destruct (D _ E) as [Pd Doc]. destruct W as [Hne R (rk & sk & K1 & K2 & ->) U]. split.
  - eapply doc_key; [exact Doc|rewrite dget_dset; reflexivity|rewrite Pd; apply the_did_ne| | |exact K2|apply points|].
    + rewrite dget_dset. reflexivity.
    + reflexivity.
    + apply points. intros X. unfold DidModel.encode_did_key in K2. rewrite X in K2. discriminate.
  - exists h'. split; [assumption|]. intros P. eapply (doc_handle _ _ _ []); [exact Doc| |exact P|constructor].
    rewrite dget_dset. reflexivity.
Qed.

Lemma update_result fs fr get post did handle signing rotation a r : snd (update_plc fs fr get post did handle signing rotation a) = Ok r ->
  exists h a' cid, snd (write_plc fs fr post (Some did) (Some h) a' cid) = Ok r /\ a_signing _ _ a' = Some signing /\
    (forall c x, handle = Some (c :: x) -> h = c :: x).
Proof.
  unfold DidModel.update_plc. intros I.
  apply bind_io_ok in I. destruct I as ([ok js] & G & I).
  do 5 (apply bind_io_ok in I; destruct I as (? & ? & I)).
  match type of I with context[match ?l with [] => _ | _ => _ end] => destruct l as [|old rest]; [discriminate|] end.
  apply bind_io_ok in I. destruct I as (h & H' & I). apply bind_io_ok in I. destruct I as (cid & C & I).
  do 3 eexists. split; [exact I|]. split; [reflexivity|]. intros c y ->. cbn in H'. congruence.
Qed.
End Doc.

(** *** Histories *)

Lemma op_NoDup did h a prev d url body fs fr : written fs fr did h a prev d url body -> NoDup (keys body).
Proof.
  intros [_ _ (rk & sk & _ & _ & ->) _]. unfold DidModel.signed. apply dset_NoDup.
  cbn [plc_op keys map fst]. repeat (constructor; [cbn; intuition discriminate|]). constructor.
Qed.

Lemma url_inj d d' : s "https://" ++ plc_host ++ s "/" ++ d = s "https://" ++ plc_host ++ s "/" ++ d' -> d = d'.
Proof. intros E. apply app_inv_head in E. apply app_inv_head in E. now apply app_inv_head in E. Qed.

(** What holds of each entry. *)
Definition proper (did : str) (e : entry) : Prop :=
  e_did e = did /\ e_cid e = op_cid digest (e_op e) /\ NoDup (keys (e_op e)) /\ exists d, signature_of sign_bytes d (e_op e).

Lemma chained_app p l e c : chained p l -> l <> [] -> dget (s "prev") (e_op e) = Some c ->
  (forall l' x, l = l' ++ [x] -> c = IText (e_cid x)) -> chained p (l ++ [e]).
Proof.
  induction 1 as [q|q x r P C IH]; intros N E L; [easy|]. cbn. constructor; [assumption|].
  destruct r as [|y r].
  - constructor; [|constructor]. rewrite (L [] x eq_refl) in E. assumption.
  - apply IH; [discriminate|assumption|]. intros l' z Q. apply (L (x :: l')). cbn. now rewrite Q.
Qed.

Lemma render_last log l m : map render log = l ++ [IMap m] -> exists log' e, log = log' ++ [e] /\ l = map render log' /\
  dget (s "did") m = Some (IText (e_did e)) /\ dget (s "operation") m = Some (IMap (e_op e)) /\ dget (s "cid") m = Some (IText (e_cid e)).
Proof.
  intros E. destruct (exists_last (l := log)) as (log' & e & ->).
  { intros ->. destruct l; discriminate. }
  rewrite map_app in E. cbn [map] in E. apply app_inj_tail in E. destruct E as [E R]. exists log', e. unfold render in R. injection R as <-.
  repeat (split; [auto; reflexivity|]). reflexivity.
Qed.

Lemma dget_signed k op d : k <> s "sig" -> dget k (signed op d) = dget k op.
Proof. intros N. unfold DidModel.signed. rewrite dget_dset. apply str_eqb_neq in N. now rewrite N. Qed.

Lemma rollback_body op d cid : NoDup (keys op) ->
  let body := signed (ddel (s "sig") (dset (s "prev") cid op)) d in
  NoDup (keys body) /\ signature_of sign_bytes d body /\ dget (s "prev") body = Some cid /\
  (forall k, k <> s "sig" -> k <> s "prev" -> dget k body = dget k op).
Proof.
  intros ND body. assert (ND' : NoDup (keys (dset (s "prev") cid op))) by now apply dset_NoDup.
  assert (NS : dget (s "sig") (ddel (s "sig") (dset (s "prev") cid op)) = None) by (rewrite dget_ddel by assumption; now rewrite str_eqb_refl).
  split; [unfold body, DidModel.signed; apply dset_NoDup; now apply ddel_NoDup|]. split; [now apply signed_sig|]. split.
  - unfold body. rewrite dget_signed by discriminate. rewrite dget_ddel, dget_dset by assumption. reflexivity.
  - intros k K1 K2. unfold body. rewrite dget_signed by assumption. rewrite dget_ddel, dget_dset by assumption.
    apply str_eqb_neq in K1, K2. now rewrite K1, K2.
Qed.

Lemma py_index_In {A} (l : list A) i x : py_index l i = Ok x -> In x l.
Proof.
  unfold py_index. destruct (_ || _)%bool; [discriminate|]. destruct (nth_error _ _) eqn:N; [|discriminate].
  intros E. injection E as <-. eapply nth_error_In. exact N.
Qed.

Lemma history_facts did log : history did log ->
  log <> [] /\ did <> [] /\ chained INull log /\ Forall (proper did) log /\
  (exists e r, log = e :: r /\ did = plc_did digest (e_op e)).
Proof.
  induction 1 as [fs fr post handle a body more P|log get ok fs fr post handle signing rotation a url body more H IH G P
                 |log get ok post rotation num url body more H IH G P].
  - apply create_posts in P. destruct P as (h & d & -> & W). pose proof (written_fields _ _ _ _ _ _ _ _ _ _ _ _ _ _ _ _ _ _ W) as (_ & Pr & _ & Sg).
    assert (E : did = plc_did digest body) by (destruct W as [_ _ _ U]; now apply url_inj in U).
    split; [discriminate|]. split; [rewrite E; discriminate|]. split; [constructor; [assumption|constructor]|]. split.
    + constructor; [|constructor]. repeat split; cbn; [|eauto]. eapply op_NoDup. exact W.
    + exists (recorded digest did body more), []. split; [reflexivity|]. exact E.
  - destruct IH as (N & Nd & C & F & (e0 & r0 & E0 & D0)). apply update_posts in P.
    destruct P as (ok' & l & m & op & cid & old & rest & h & d & G' & O & Ci & K & _ & W).
    rewrite G in G'. injection G' as <- E. apply render_last in E. destruct E as (log' & e & -> & _ & _ & _ & Ec).
    pose proof (written_fields _ _ _ _ _ _ _ _ _ _ _ _ _ _ _ _ _ _ W) as (_ & Pr & _ & Sg).
    split; [destruct log'; discriminate|]. split; [assumption|]. split; [|split].
    + eapply chained_app; [exact C|assumption|exact Pr|]. intros l' x Q. apply app_inj_tail in Q. destruct Q as [_ <-]. congruence.
    + apply Forall_app. split; [assumption|]. constructor; [|constructor]. repeat split; cbn; [|eauto]. eapply op_NoDup. exact W.
    + rewrite E0. exists e0, (r0 ++ [recorded digest did body more]). auto.
  - destruct IH as (N & Nd & C & F & (e0 & r0 & E0 & D0)). apply rollback_posts in P.
    destruct P as (l & lm & lop & rks & rk & tm & op & cid & G' & _ & _ & _ & _ & _ & _ & Ix & _ & Op & Ci & Eb & _).
    rewrite G in G'. injection G' as -> E. rewrite <- E in Ix. apply render_last in E. destruct E as (log' & e & -> & _ & _ & _ & Ec).
    apply py_index_In in Ix. apply in_map_iff in Ix. destruct Ix as (t & Rt & It). unfold render in Rt. injection Rt as <-.
    change (Some (IMap (e_op t)) = Some (IMap op)) in Op. injection Op as <-.
    rewrite Forall_forall in F. destruct (F _ It) as (_ & _ & ND & _).
    destruct (rollback_body (e_op t) rotation cid ND) as (B1 & B2 & B3 & _). rewrite <- Eb in B1, B2, B3.
    split; [destruct log'; discriminate|]. split; [assumption|]. split; [|split].
    + eapply chained_app; [exact C|assumption|exact B3|]. intros l' x Q. apply app_inj_tail in Q. destruct Q as [_ <-]. congruence.
    + apply Forall_app. split; [now apply Forall_forall|]. constructor; [|constructor]. repeat split; cbn; eauto.
    + rewrite E0. exists e0, (r0 ++ [recorded digest did body more]). auto.
Qed.

(** What one call does. *)
Lemma created fs fr post handle a url body : In (Post url body) (fst (create_plc fs fr post handle a)) ->
  url = s "https://" ++ plc_host ++ s "/" ++ s "did:plc:" ++ map lower (firstn 24 (b32_encode (digest (dag_cbor_encode (IMap body))))) /\
  dget (s "prev") body = Some INull /\
  exists h d, handle = Some h /\ h <> [] /\ match a_rotation _ _ a with Some k => k | None => Private fr end = Private d /\
    dget (s "alsoKnownAs") body = Some (IList (IText (s "at://" ++ h) :: match a_aka _ _ a with Some x => aka_list x | None => [] end)) /\
    signature_of sign_bytes d body.
Proof.
  intros P. apply create_posts in P. destruct P as (h & d & -> & W).
  pose proof (written_fields _ _ _ _ _ _ _ _ _ _ _ _ _ _ _ _ _ _ W) as (_ & Pr & Ak & Sg). destruct W as [Hne R _ U].
  split; [exact U|]. split; [exact Pr|]. exists h, d. auto.
Qed.

Lemma updates fs fr get post did handle signing rotation a url body : did <> [] ->
  In (Post url body) (fst (update_plc fs fr get post did handle signing rotation a)) ->
  url = s "https://" ++ plc_host ++ s "/" ++ did /\
  exists ok log e op cid old rest h d rk sk,
    get (log_url plc_host did) = Ok (ok, IList (log ++ [IMap e])) /\
    dget (s "operation") e = Some (IMap op) /\ dget (s "cid") e = Some cid /\ dget (s "alsoKnownAs") op = Some (IList (old :: rest)) /\
    (handle = Some h \/ (handle = None \/ handle = Some []) /\ old = IText (s "at://" ++ h)) /\ h <> [] /\
    rotation = Private d /\ signature_of sign_bytes d body /\
    encode_did_key (key_pub (match a_new_rotation _ _ a with Some k => k | None => rotation end)) = Ok rk /\
    encode_did_key (key_pub signing) = Ok sk /\
    dget (s "prev") body = Some cid /\
    dget (s "alsoKnownAs") body = Some (IList (IText (s "at://" ++ h) :: match a_aka _ _ a with Some x => aka_list x | None => rest end)) /\
    dget (s "type") body = Some (IText (s "plc_operation")) /\
    dget (s "rotationKeys") body = Some (IList [IText rk]) /\
    dget (s "verificationMethods") body = Some (IMap [(s "atproto", IText sk)]) /\
    dget (s "services") body = Some (IMap [(s "atproto_pds", IMap [(s "type", IText (s "AtprotoPersonalDataServer"));
      (s "endpoint", IText (match a_pds _ _ a with Some (c :: r) => c :: r | _ => s "https://" ++ pds_host end))])]) /\
    (forall k, dget k body <> None -> In k [s "type"; s "rotationKeys"; s "verificationMethods"; s "alsoKnownAs"; s "services"; s "prev"; s "sig"]).
Proof.
  intros Nd P. apply update_posts in P. destruct P as (ok & log & e & op & cid & old & rest & h & d & G & O & C & K & Hh & W).
  pose proof (written_fields _ _ _ _ _ _ _ _ _ _ _ _ _ _ _ _ _ _ W) as (Ty & Pr & Ak & Sg). destruct W as [Hne R (rk & sk & K1 & K2 & Eb) U].
  cbn in R. split; [rewrite U; destruct did; [easy|reflexivity]|]. exists ok, log, e, op, cid, old, rest, h, d, rk, sk.
  subst rotation. cbn [updated a_new_rotation a_signing a_aka a_pds] in K1, K2, Eb, Ak. cbn iota in K2.
  repeat (split; [first [assumption|reflexivity]|]).
  split; [rewrite Ak; destruct (a_aka _ _ a); reflexivity|]. split; [assumption|]. rewrite Eb.
  split; [reflexivity|]. split; [reflexivity|]. split; [reflexivity|].
  intros k. unfold DidModel.signed. rewrite dget_dset. destruct (str_eqb k (s "sig")) eqn:E; [apply str_eqb_eq in E; subst; cbn [In]; tauto|].
  clear. unfold plc_op. intros H. cbn [dget] in H.
  repeat match type of H with context[str_eqb k ?x] => let Q := fresh in destruct (str_eqb k x) eqn:Q; [apply str_eqb_eq in Q; subst; cbn [In]; tauto|clear Q] end. easy.
Qed.

(** An update keeps what is not given, if the last operation looks like one of ours. *)
Lemma keeps fs fr get post did handle signing rotation a url body ok log e op rk sk :
  did <> [] -> In (Post url body) (fst (update_plc fs fr get post did handle signing rotation a)) ->
  get (log_url plc_host did) = Ok (ok, IList (log ++ [IMap e])) -> dget (s "operation") e = Some (IMap op) ->
  encode_did_key (key_pub (match a_new_rotation _ _ a with Some k => k | None => rotation end)) = Ok rk ->
  encode_did_key (key_pub signing) = Ok sk ->
  dget (s "type") op = Some (IText (s "plc_operation")) ->
  dget (s "rotationKeys") op = Some (IList [IText rk]) ->
  dget (s "verificationMethods") op = Some (IMap [(s "atproto", IText sk)]) ->
  dget (s "services") op = Some (IMap [(s "atproto_pds", IMap [(s "type", IText (s "AtprotoPersonalDataServer"));
      (s "endpoint", IText (match a_pds _ _ a with Some (c :: r) => c :: r | _ => s "https://" ++ pds_host end))])]) ->
  (forall k, dget k op <> None -> In k [s "type"; s "rotationKeys"; s "verificationMethods"; s "alsoKnownAs"; s "services"; s "prev"; s "sig"]) ->
  (forall k, k <> s "alsoKnownAs" -> k <> s "prev" -> k <> s "sig" -> dget k body = dget k op) /\
  (exists old h rest rest', dget (s "alsoKnownAs") op = Some (IList (old :: rest)) /\
    dget (s "alsoKnownAs") body = Some (IList (IText (s "at://" ++ h) :: rest')) /\
    (handle = Some h \/ IText (s "at://" ++ h) = old) /\ (a_aka _ _ a = None -> rest' = rest)).
Proof.
  intros Nd P G O K1 K2 Ty Ro Ve Se Fi. destruct (updates _ _ _ _ _ _ _ _ _ _ _ Nd P)
    as (_ & ok' & log' & e' & op' & cid & old & rest & h & d & rk' & sk' & G' & O' & C & A & Hh & Hn & Ro' & Sg & K1' & K2' & Pr & Ak & Ty' & Rk' & Ve' & Se' & Fi').
  rewrite G in G'. injection G' as <- G'. apply app_inj_tail in G'. destruct G' as [_ G']. injection G' as <-.
  rewrite O in O'. injection O' as <-. assert (rk' = rk) by congruence. assert (sk' = sk) by congruence. subst rk' sk'. split.
  - intros k N1 N2 N3. destruct (dget k body) as [v|] eqn:B.
    + assert (I : In k [s "type"; s "rotationKeys"; s "verificationMethods"; s "alsoKnownAs"; s "services"; s "prev"; s "sig"]) by (apply Fi'; congruence).
      cbn [In] in I. intuition (subst; congruence).
    + destruct (dget k op) as [v|] eqn:B'; [|reflexivity].
      assert (I : In k [s "type"; s "rotationKeys"; s "verificationMethods"; s "alsoKnownAs"; s "services"; s "prev"; s "sig"]) by (apply Fi; congruence).
      cbn [In] in I. intuition (subst; congruence).
  - exists old, h, rest. eexists. split; [exact A|]. split; [exact Ak|]. split; [destruct Hh as [->|[_ ->]]; auto|]. intros ->. reflexivity.
Qed.

Lemma py_back {A} (l : list A) n x : py_index l (- (Z.of_nat n + 1)) = Ok x -> exists r b, l = r ++ x :: b /\ length b = n.
Proof.
  unfold py_index. replace (- (Z.of_nat n + 1) <? 0)%Z with true by (symmetry; apply Z.ltb_lt; lia).
  destruct (_ || _)%bool eqn:E; [discriminate|]. apply orb_false_iff in E. destruct E as [E1 E2]. apply Z.ltb_ge in E1. apply Z.leb_gt in E2.
  destruct (nth_error _ _) as [y|] eqn:N; [|discriminate]. intros H. injection H as <-. apply nth_error_split in N. destruct N as (r & b & -> & L).
  exists r, b. split; [reflexivity|]. rewrite app_length in L, E1, E2. cbn [length] in L, E1, E2. lia.
Qed.

Lemma rolls_back get post did rot n url body : (forall ok js, get (log_url plc_host did) = Ok (ok, js) -> exists log, js = IList (map render log) /\ Forall (fun e => NoDup (keys (e_op e))) log) ->
  In (Post url body) (fst (rollback_plc get post did rot (Z.of_nat n))) ->
  url = s "https://" ++ plc_host ++ s "/" ++ did /\
  exists log target later newest, get (log_url plc_host did) = Ok (true, IList (map render log)) /\
    (exists before, log = before ++ target :: later) /\ length later = n /\ (exists before, log = before ++ [newest]) /\
    e_did target = did /\
    (exists rk rks, encode_did_key (public rot) = Ok rk /\ dget (s "rotationKeys") (e_op newest) = Some (IList rks) /\ In (IText rk) rks) /\
    dget (s "prev") body = Some (IText (e_cid newest)) /\ signature_of sign_bytes rot body /\
    (forall k, k <> s "prev" -> k <> s "sig" -> dget k body = dget k (e_op target)).
Proof.
  intros Hl P. apply rollback_posts in P.
  destruct P as (l & lm & lop & rks & rk & tm & op & cid & G & Nd & _ & Lo & Rk & En & Ir & Ix & Td & Op & Ci & Eb & U).
  split; [assumption|]. destruct (Hl _ _ G) as (log & E & ND). injection E as E. rewrite E in G, Ix. symmetry in E. apply render_last in E.
  destruct E as (log' & newest & -> & _ & _ & Eo & Ec).
  apply py_back in Ix. destruct Ix as (r & b & Er & Lb).
  apply map_eq_app in Er. destruct Er as (before & tl & El & Er & Et). apply map_eq_cons in Et. destruct Et as (target & later & -> & Rt & Eb').
  unfold render in Rt. injection Rt as <-. change (Some (IText (e_did target)) = Some (IText did)) in Td. injection Td as Td.
  change (Some (IMap (e_op target)) = Some (IMap op)) in Op. injection Op as <-.
  assert (NT : NoDup (keys (e_op target))).
  { rewrite El in ND. apply Forall_app in ND. destruct ND as [_ ND]. now inversion ND. }
  destruct (rollback_body (e_op target) rot cid NT) as (_ & B2 & B3 & B4). rewrite <- Eb in B2, B3, B4.
  exists (log' ++ [newest]), target, later, newest. split; [assumption|]. split; [eauto|].
  split; [rewrite <- Lb, <- Eb'; now rewrite map_length|]. split; [eauto|]. split; [assumption|].
  split; [exists rk, rks; split; [assumption|]; split; [congruence|assumption]|].
  split; [congruence|]. split; [assumption|]. intros k K1 K2. now apply B4.
Qed.

(** The text of a signature can be read back. *)
Lemma signature_text d op sg : (forall d m, bytes (sign_bytes d m)) -> bytes sg -> signature_of sign_bytes d op ->
  dget (s "sig") op = Some (IText (b64_encode sg)) -> sg = sign_bytes d (dag_cbor_encode (IMap (ddel (s "sig") op))).
Proof.
  unfold signature_of. intros B Bs S E. rewrite E in S. injection S as S. apply b64_inj in S; auto. apply B.
Qed.

Lemma chain did log : history did log ->
  chained INull log /\
  Forall (fun e => e_did e = did /\ e_cid e = op_cid digest (e_op e) /\ exists d, signature_of sign_bytes d (e_op e)) log /\
  exists e r, log = e :: r /\
    did = s "did:plc:" ++ map lower (firstn 24 (b32_encode (digest (dag_cbor_encode (IMap (e_op e)))))).
Proof.
  intros H. destruct (history_facts _ _ H) as (_ & _ & C & F & E). split; [assumption|]. split; [|assumption].
  eapply Forall_impl; [|exact F]. intros e (A & B & _ & D). auto.
Qed.
End Ops.

Lemma updated_doc pub curve_of point priv public sign_bytes digest plc_host pds_host from_point other_base netloc_ok :
  (forall k : pub, bytes (point k) /\ (curve_of k <> OtherCurve -> from_point (curve_of k) (point k) = Ok k)) ->
  forall (fs fr : priv) get post did handle signing rotation a r,
  snd (update_plc pub curve_of point priv public sign_bytes digest fs fr plc_host pds_host get post did handle signing rotation a) = Ok r ->
  get_signing_key pub from_point other_base (p_doc r) = Ok (Some (key_pub pub priv public signing)) /\
  forall h, handle = Some h -> plain h -> get_handle netloc_ok (p_doc r) = Ok (Some h).
Proof.
  intros H fs fr get post did handle signing rotation a r E. apply update_result in E. destruct E as (h & a' & cid & W & A & Hh).
  apply (write_doc _ _ _ _ _ _ _ _ _ from_point other_base netloc_ok H) in W. destruct W as (K & h' & Eh & G). rewrite A in K.
  split; [assumption|]. intros h0 -> P. injection Eh as <-. destruct h0 as [|c x]; [now destruct P|]. rewrite (Hh c x eq_refl) in G. auto.
Qed.

(** *** Resolution *)

Section Resolved.
Variables (plc_host : str) (get : str -> res (bool * ipld)) (repair : str -> str).

Lemma resolve_did_plc d : domain plc_host -> exists url, fst (resolve plc_host get repair (s "did:plc:" ++ d)) = [Get url] /\
  url = s "https://" ++ plc_host ++ s "/did:plc:" ++ d /\ forall h, contacts url h <-> h = plc_host.
Proof.
  intros D. destruct (domain_without _ D) as [W _]. unfold resolve, resolve_plc. rewrite !UriProofs.starts_with_app.
  eexists. split; [reflexivity|]. split; [reflexivity|]. 
  assert (C : contacts (s "https://" ++ plc_host ++ s "/" ++ s "did:plc:" ++ d) plc_host) by (apply url_contacts; [assumption|right; eauto]).
  intros h. split; [intros H; eapply contacts_unique; eassumption|intros ->; exact C].
Qed.
Lemma resolve_did_web d : resolve plc_host get repair (s "did:web:" ++ d) = resolve_web get repair (s "did:web:" ++ d).
Proof. reflexivity. Qed.
Lemma resolve_did_other did : (forall r, did <> s "did:plc:" ++ r) -> (forall r, did <> s "did:web:" ++ r) ->
  resolve plc_host get repair did = ([], Err ValueError).
Proof. intros A B. unfold resolve. rewrite !starts_false by assumption. reflexivity. Qed.
Lemma resolved_doc did url r : resolve plc_host get repair did = ([Get url], r) ->
  forall doc, r = Ok doc <-> get url = Ok (true, doc).
Proof.
  assert (F : forall u, fetch get u = ([Get url], r) -> forall doc, r = Ok doc <-> get url = Ok (true, doc)).
  { intros u H doc. unfold fetch in H. injection H as <- <-. destruct (get u) as [[[|] j]|e]; cbn.
    - split; intros H; injection H as <-; reflexivity.
    - split; discriminate.
    - split; discriminate. }
  unfold resolve, resolve_plc, resolve_web. destruct (starts_with (s "did:plc:") did); [apply F|].
  destruct (starts_with (s "did:web:") did); [apply F|discriminate].
Qed.
End Resolved.
