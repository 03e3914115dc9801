(** Cases for the theorems about DIDs. *)
From Coq Require Import String List NArith ZArith Bool Lia.
From Verif Require Import Base Lists Ipld Sha256 CodecModel CodecProofs UriModel DidModel DidSpec DidProofs DidFacts.
Import ListNotations.
Local Open Scope N_scope.

(** Keys for examples: a curve and a bit. *)
Definition xpub : Type := (curve * bool)%type.
Definition xcurve (k : xpub) : curve := fst k.
Definition xpoint (k : xpub) : list N := [if snd k then 3 else 2; 7].
Definition xfrom (c : curve) (b : list N) : res xpub :=
  match b with
  | [x; 7] => if x =? 3 then Ok (c, true) else if x =? 2 then Ok (c, false) else Err ValueError
  | _ => Err ValueError
  end.
Definition xsign (d : xpub) (m : list N) : list N := xpoint d ++ firstn 62 (sha256 m ++ sha256 m).
Definition xother (x : str) : res (list N) := Err ValueError.
Definition xok (x : str) : bool := false.

Lemma xpoints k : bytes (xpoint k) /\ (xcurve k <> OtherCurve -> xfrom (xcurve k) (xpoint k) = Ok k).
Proof.
  destruct k as [c b]. split; [destruct b; repeat constructor|]. intros _. destruct b; reflexivity.
Qed.

Definition plc : str := s "plc.example".
Definition pds : str := s "pds.example".
Definition k1 : xpub := (K256, true).
Definition k2 : xpub := (K256, false).
Definition no_args : args xpub xpub := Build_args None None None None None.
Definition xcreate := create_plc xpub xcurve xpoint xpub (fun d => d) xsign sha256 k1 k2 plc pds.
Definition xupdate := update_plc xpub xcurve xpoint xpub (fun d => d) xsign sha256 k1 k2 plc pds.
Definition xrollback := rollback_plc xpub xcurve xpoint xpub (fun d => d) xsign sha256 plc.
Definition xhistory := history xpub xcurve xpoint xpub (fun d => d) xsign sha256 plc pds.
Definition accept (url : str) (body : obj) : res unit := Ok tt.
Definition serve (log : list entry) (url : str) : res (bool * ipld) := Ok (true, IList (map render log)).

(** The request in a run. *)
Definition posted {A} (m : io A) : option (str * obj) :=
  match rev (fst m) with Post url body :: _ => Some (url, body) | _ => None end.
Lemma posted_In {A} (m : io A) url body : posted m = Some (url, body) -> In (Post url body) (fst m).
Proof.
  unfold posted. destruct (rev (fst m)) as [|[u|u b] r] eqn:E; try discriminate. intros H. injection H as <- <-.
  apply in_rev. rewrite E. now left.
Qed.
Definition body_of {A} (m : io A) : obj := match posted m with Some (_, b) => b | None => [] end.

(** A DID is created, gets another handle, and then the first one again. *)
Definition run1 := xcreate accept (Some (s "han.dle")) no_args.
Definition the_did : str := match snd run1 with Ok r => p_did r | Err _ => [] end.
Definition log1 : list entry := [recorded sha256 the_did (body_of run1) [(s "nullified", IBool false)]].
Definition run2 := xupdate (serve log1) accept the_did (Some (s "new.handle")) (Private k1) (Private k2) no_args.
Definition log2 : list entry := log1 ++ [recorded sha256 the_did (body_of run2) []].
Definition run3 := xrollback (serve log2) accept the_did k2 1.
Definition log3 : list entry := log2 ++ [recorded sha256 the_did (body_of run3) []].

Lemma run1_posts : posted run1 = Some (s "https://" ++ plc ++ s "/" ++ the_did, body_of run1).
Proof. vm_compute. reflexivity. Qed.
Lemma run2_posts : posted run2 = Some (s "https://" ++ plc ++ s "/" ++ the_did, body_of run2).
Proof. vm_compute. reflexivity. Qed.
Lemma run3_posts : posted run3 = Some (s "https://" ++ plc ++ s "/" ++ the_did, body_of run3).
Proof. vm_compute. reflexivity. Qed.

Lemma log3_history : xhistory the_did log3.
Proof.
  assert (H1 : xhistory the_did log1).
  { unfold log1. eapply h_create with (fs := k1) (fr := k2) (post := accept) (handle := Some (s "han.dle")) (a := no_args). exact (posted_In run1 _ _ run1_posts). }
  assert (H2 : xhistory the_did log2).
  { unfold log2. eapply h_update with (get := serve log1) (ok := true) (fs := k1) (fr := k2) (post := accept) (handle := Some (s "new.handle"))
      (signing := Private k1) (rotation := Private k2) (a := no_args); [exact H1|reflexivity|]. exact (posted_In run2 _ _ run2_posts). }
  unfold log3. eapply h_rollback with (get := serve log2) (ok := true) (post := accept) (rotation := k2) (num := 1%Z); [exact H2|reflexivity|]. exact (posted_In run3 _ _ run3_posts).
Qed.

Lemma the_did_is : the_did <> [].
Proof. vm_compute. discriminate. Qed.

(** An account that came from elsewhere: it has a second rotation key, its own PDS and a website. *)
Definition foreign_op : obj :=
  [(s "type", IText (s "plc_operation"));
   (s "rotationKeys", IList [IText (s "did:key:zRecovery"); IText (s "did:key:zOther")]);
   (s "verificationMethods", IMap [(s "atproto", IText (s "did:key:zSigning")); (s "labeler", IText (s "did:key:zLabels"))]);
   (s "alsoKnownAs", IList [IText (s "https://web.site"); IText (s "at://han.dle")]);
   (s "services", IMap [(s "atproto_pds", IMap [(s "type", IText (s "AtprotoPersonalDataServer")); (s "endpoint", IText (s "https://elsewhere.example"))])]);
   (s "prev", INull); (s "sig", IText (s "sig"))].
Definition foreign_log : list entry := [recorded sha256 (s "did:plc:xyz") foreign_op []].
Definition run4 := xupdate (serve foreign_log) accept (s "did:plc:xyz") (Some (s "new.handle")) (Private k1) (Private k2) no_args.

Lemma run4_posts : posted run4 = Some (s "https://" ++ plc ++ s "/" ++ s "did:plc:xyz", body_of run4).
Proof. vm_compute. reflexivity. Qed.
Definition own_services : ipld :=
  IMap [(s "atproto_pds", IMap [(s "type", IText (s "AtprotoPersonalDataServer")); (s "endpoint", IText (s "https://pds.example"))])].
Lemma run4_body :
  dget (s "services") (body_of run4) = Some own_services /\
  (exists rk, dget (s "rotationKeys") (body_of run4) = Some (IList [IText rk])) /\
  (exists sk, dget (s "verificationMethods") (body_of run4) = Some (IMap [(s "atproto", IText sk)])) /\
  dget (s "alsoKnownAs") (body_of run4) = Some (IList [IText (s "at://new.handle"); IText (s "at://han.dle")]).
Proof.
  split; [vm_compute; reflexivity|]. split; [eexists; vm_compute; reflexivity|]. split; [eexists; vm_compute; reflexivity|]. vm_compute. reflexivity.
Qed.

(** A handle that is not one. *)
Definition run5 := xcreate accept (Some (s "evil.example/han.dle")) no_args.
Lemma run5_handle : exists r, snd run5 = Ok r /\ get_handle xok (p_doc r) = Ok (Some (s "evil.example")).
Proof. eexists. split; vm_compute; reflexivity. Qed.

Lemma run5_other : exists r, snd run5 = Ok r /\ get_handle xok (p_doc r) = Ok (Some (s "evil.example")) /\
  run5 = xcreate accept (Some (s "evil.example/han.dle")) no_args.
Proof. destruct run5_handle as (r & A & B). exists r. auto. Qed.

Lemma log2_served : forall ok js, serve log2 (log_url plc the_did) = Ok (ok, js) ->
  exists log, js = IList (map render log) /\ Forall (fun e => NoDup (keys (e_op e))) log.
Proof.
  intros ok js E. assert (js = IList (map render log2)) by (unfold serve in E; congruence). exists log2. split; [assumption|].
  destruct (history_facts _ _ _ _ _ _ _ _ _ _ _ log3_history) as (_ & _ & _ & F & _). unfold log3 in F. apply Forall_app in F.
  destruct F as [F _]. eapply Forall_impl; [|exact F]. intros e (_ & _ & N & _). exact N.
Qed.

Lemma run2_keeps :
  serve log1 (log_url plc the_did) = Ok (true, IList ([] ++ map render log1)) /\
  dget (s "services") (body_of run1) = Some own_services /\ dget (s "services") (body_of run2) = Some own_services /\
  dget (s "rotationKeys") (body_of run1) = dget (s "rotationKeys") (body_of run2) /\
  dget (s "verificationMethods") (body_of run1) = dget (s "verificationMethods") (body_of run2).
Proof.
  split; [reflexivity|]. split; [vm_compute; reflexivity|]. split; [vm_compute; reflexivity|]. split; vm_compute; reflexivity.
Qed.

Lemma foreign_changes : exists url body,
  In (Post url body) (fst (xupdate (serve foreign_log) accept (s "did:plc:xyz") (Some (s "new.handle")) (Private k1) (Private k2) no_args)) /\
  foreign_log = [recorded sha256 (s "did:plc:xyz") foreign_op []] /\
  dget (s "services") body = Some own_services /\ dget (s "services") foreign_op <> Some own_services /\
  (exists rk, dget (s "rotationKeys") body = Some (IList [IText rk])) /\
  (exists a b, dget (s "rotationKeys") foreign_op = Some (IList [a; b])) /\
  (exists sk, dget (s "verificationMethods") body = Some (IMap [(s "atproto", IText sk)])) /\
  (exists a b, dget (s "verificationMethods") foreign_op = Some (IMap [a; b])) /\
  dget (s "alsoKnownAs") foreign_op = Some (IList [IText (s "https://web.site"); IText (s "at://han.dle")]) /\
  dget (s "alsoKnownAs") body = Some (IList [IText (s "at://new.handle"); IText (s "at://han.dle")]).
Proof.
  destruct run4_body as (A & B & C & D). exists (s "https://" ++ plc ++ s "/" ++ s "did:plc:xyz"), (body_of run4).
  split; [exact (posted_In run4 _ _ run4_posts)|]. split; [reflexivity|]. split; [exact A|]. split; [vm_compute; discriminate|].
  split; [exact B|]. split; [vm_compute; eauto|]. split; [exact C|]. split; [vm_compute; eauto|]. split; [reflexivity|exact D].
Qed.

(** *** did:web *)

Lemma web_domain get repair d : domain d ->
  exists url, fst (resolve_web get repair (s "did:web:" ++ d)) = [Get url] /\
    url = s "https://" ++ d ++ s "/.well-known/did.json" /\ forall h, contacts url h <-> h = d.
Proof.
  intros D. destruct (domain_without d D) as [W A]. eexists.
  pose proof (resolve_web_url get repair d [] W (Forall_nil _)) as E. cbn [join concat] in E. rewrite !app_nil_r in E.
  split; [apply E, A|]. split; [reflexivity|].
  assert (C : contacts (s "https://" ++ d ++ s "/.well-known" ++ s "/did.json") d) by (apply url_contacts; [assumption|right; eexists; reflexivity]).
  intros h. split; [intros H; eapply contacts_unique; eassumption|intros ->; exact C].
Qed.
Lemma web_path get repair d p l :
  without (s "/?#\@%:") d -> Forall (without (s "/?#\@%:")) (p :: l) -> (forall c, In c (d ++ concat (p :: l)) -> c < 128) ->
  exists url, fst (resolve_web get repair (s "did:web:" ++ d ++ join (s ":") (p :: l))) = [Get url] /\
    url = s "https://" ++ d ++ join (s "/") (p :: l) ++ s "/did.json" /\ forall h, contacts url h <-> h = d.
Proof.
  intros W F A. eexists. split; [apply (resolve_web_url get repair d (p :: l) W F A)|]. split; [reflexivity|].
  assert (C : contacts (s "https://" ++ d ++ join (s "/") (p :: l) ++ s "/did.json") d) by (apply url_contacts; [assumption|right; eexists; reflexivity]).
  intros h. split; [intros H; eapply contacts_unique; eassumption|intros ->; exact C].
Qed.

Ltac not_in := let c := fresh in let I := fresh in let B := fresh in intros c I B; cbn in I, B; intuition (subst; discriminate).
Lemma web_refuted get repair :
  (exists url, fst (resolve_web get repair (s "did:web:good.example%40evil.example")) = [Get url] /\ contacts url (s "evil.example")) /\
  (exists url, fst (resolve_web get repair (s "did:web:evil.example%2Fx%3F.good.example")) = [Get url] /\ contacts url (s "evil.example")) /\
  fst (resolve_web get repair (s "did:web:a.example:b")) = [Get (s "https://a.example/b/did.json")].
Proof.
  split; [|split; [|reflexivity]].
  - eexists. split; [reflexivity|]. exists (s "good.example@"), [], (s "/.well-known/did.json"). split; [reflexivity|].
    split; [right; exists (s "good.example"); split; [reflexivity|not_in]|]. split; [not_in|]. split; [now left|]. right. cbn. eauto 6.
  - eexists. split; [reflexivity|]. exists [], [], (s "/x?.good.example/.well-known/did.json"). split; [reflexivity|].
    split; [now left|]. split; [not_in|]. split; [now left|]. right. cbn. eauto 6.
Qed.
