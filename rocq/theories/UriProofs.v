(** Parsing AT URIs. *)
From Coq Require Import String List NArith ZArith Bool Lia.
From Coq Require Import ZifyBool ZifyNat ZifyN.
From Verif Require Import Base Lists Ipld UriModel UriSpec.
Import ListNotations.
Local Open Scope N_scope.
Local Ltac splits := repeat match goal with |- _ /\ _ => split end.

Lemma cut_none p x : (forall c, In c x -> p c = false) -> cut p x = (x, []).
Proof.
  induction x as [|c x IH]; intros H; cbn [cut]; [reflexivity|]. rewrite (H c) by (left; reflexivity).
  rewrite IH; [reflexivity|]. intros d HD. apply H. right. exact HD.
Qed.

Lemma cut_at p x c y : (forall c, In c x -> p c = false) -> p c = true -> cut p (x ++ c :: y) = (x, c :: y).
Proof.
  intros H PC. induction x as [|d x IH]; cbn [app cut]; [rewrite PC; reflexivity|]. rewrite (H d) by (left; reflexivity).
  rewrite IH; [reflexivity|]. intros e HE. apply H. right. exact HE.
Qed.

Lemma filter_all {A} (p : A -> bool) x : (forall c, In c x -> p c = true) -> filter p x = x.
Proof.
  induction x as [|c x IH]; intros H; cbn [filter]; [reflexivity|]. rewrite (H c) by (left; reflexivity).
  rewrite IH; [reflexivity|]. intros d HD. apply H. right. exact HD.
Qed.

Lemma lstrip_id c x : is_ch "/" c = false -> lstrip_slash (c :: x) = c :: x.
Proof. intros H. cbn [lstrip_slash]. rewrite H. reflexivity. Qed.

Lemma strip_ok c m d : is_ch "/" c = false -> is_ch "/" d = false -> strip_slash (ch "/" :: c :: m ++ [d]) = c :: m ++ [d].
Proof.
  intros HC HD. unfold strip_slash. cbn [lstrip_slash]. change (is_ch "/" (ch "/")) with true. cbn iota. rewrite HC.
  change (c :: m ++ [d]) with ((c :: m) ++ [d]). rewrite rev_app_distr. cbn [rev app]. rewrite lstrip_id by exact HD.
  cbn [rev]. rewrite rev_app_distr, rev_involutive. reflexivity.
Qed.

Lemma existsb_no {A} (p : A -> bool) x : (forall c, In c x -> p c = false) -> existsb p x = false.
Proof.
  intros H. destruct (existsb p x) eqn:E; [|reflexivity]. apply existsb_exists in E as (c & HC & P). rewrite H in P; auto.
Qed.

Lemma starts_with_app p x : starts_with p (p ++ x) = true.
Proof. induction p as [|a p IH]; cbn [app starts_with]; [reflexivity|]. rewrite N.eqb_refl. exact IH. Qed.

Ltac chars H := let x := fresh in let y := fresh in intros x y; specialize (H x y); cbn [s map list_ascii_of_string In] in H; unfold is_ch, ch, removed; cbn in *; lia.

Lemma round_trip netloc_ok did collection rkey :
  did <> [] -> collection <> [] -> rkey <> [] ->
  (forall c, In c did -> c < 128 /\ ~ In c (s "/?#[]") /\ ~ In c [9; 10; 13]) ->
  (forall c, In c collection -> ~ In c (s "/?#") /\ ~ In c [9; 10; 13]) ->
  (forall c, In c rkey -> ~ In c (s "?#") /\ ~ In c [9; 10; 13]) -> last rkey 0 <> ch "/" ->
  exists uri, at_uri did collection rkey = Ok uri /\ parse_at_uri netloc_ok uri = Ok (did, collection, rkey).
Proof.
  intros ND NC NR HD HC HR LR. exists (s "at://" ++ did ++ s "/" ++ collection ++ s "/" ++ rkey). split.
  { unfold at_uri. destruct did, collection, rkey; try congruence; reflexivity. }
  unfold parse_at_uri. rewrite starts_with_app. cbn [negb].
  assert (F1 : forall c, In c did -> negb (removed c) = true) by chars HD.
  assert (F2 : forall c, In c collection -> negb (removed c) = true) by chars HC.
  assert (F3 : forall c, In c rkey -> negb (removed c) = true) by chars HR.
  assert (P : urlparse_at netloc_ok (s "at://" ++ did ++ s "/" ++ collection ++ s "/" ++ rkey)
    = Ok (did, ch "/" :: collection ++ ch "/" :: rkey)).
  { unfold urlparse_at. change (skipn 5 (s "at://" ++ did ++ s "/" ++ collection ++ s "/" ++ rkey)) with (did ++ s "/" ++ collection ++ s "/" ++ rkey).
    rewrite !filter_app, (filter_all _ did F1), (filter_all _ collection F2), (filter_all _ rkey F3).
    change (filter (fun c => negb (removed c)) (s "/")) with [ch "/"]. cbn [app].
    rewrite cut_at; [|chars HD|reflexivity].
    assert (NP : forall p, p (ch "/") = false -> (forall c, In c collection -> p c = false) -> (forall c, In c rkey -> p c = false) ->
       forall c, In c (ch "/" :: collection ++ ch "/" :: rkey) -> p c = false).
    { intros p A B C c [<-|X]; auto. apply in_app_or in X as [X|[<-|X]]; auto. }
    rewrite (cut_none (is_ch "#")); [|apply NP; [reflexivity|chars HC|chars HR]].
    rewrite (cut_none (is_ch "?")); [|apply NP; [reflexivity|chars HC|chars HR]].
    rewrite (existsb_no (is_ch "[") did) by chars HD. rewrite (existsb_no (is_ch "]") did) by chars HD.
    rewrite (existsb_no _ did) by chars HD. reflexivity. }
  rewrite P. cbn [bind].
  assert (ST : strip_slash (ch "/" :: collection ++ ch "/" :: rkey) = collection ++ ch "/" :: rkey).
  { destruct collection as [|c m]; [congruence|]. destruct (exists_last NR) as (r & d & ->). rewrite last_last in LR.
    change ((c :: m) ++ ch "/" :: r ++ [d]) with (c :: m ++ (ch "/" :: r) ++ [d]). rewrite app_assoc. apply strip_ok.
    - specialize (HC c (or_introl eq_refl)). unfold is_ch, ch in *. cbn in *. lia.
    - unfold is_ch. apply N.eqb_neq. exact LR. }
  rewrite ST, cut_at; [reflexivity|chars HC|reflexivity].
Qed.

Lemma alnum_range c : alnum c = true -> 48 <= c <= 57 \/ 65 <= c <= 90 \/ 97 <= c <= 122.
Proof. unfold alnum, between. cbn. lia. Qed.

Lemma valid_round_trip netloc_ok did collection rkey : valid_did did -> valid_nsid collection -> valid_rkey rkey ->
  exists uri, at_uri did collection rkey = Ok uri /\ parse_at_uri netloc_ok uri = Ok (did, collection, rkey).
Proof.
  intros [SD VD] [NC VC] [NR VR]. rewrite forallb_forall in VD, VC, VR.
  assert (D : forall c, In c did -> c < 128 /\ ~ In c (s "/?#[]") /\ ~ In c [9; 10; 13]).
  { intros c HI. specialize (VD c HI). apply orb_true_iff in VD as [A|A]; [apply alnum_range in A|unfold one_of in A]; cbn in *; lia. }
  assert (C : forall c, In c collection -> ~ In c (s "/?#") /\ ~ In c [9; 10; 13]).
  { intros c HI. specialize (VC c HI). apply orb_true_iff in VC as [A|A]; [apply alnum_range in A|unfold one_of in A]; cbn in *; lia. }
  assert (R : forall c, In c rkey -> c <> ch "/" /\ ~ In c (s "?#") /\ ~ In c [9; 10; 13]).
  { intros c HI. specialize (VR c HI). apply orb_true_iff in VR as [A|A]; [apply alnum_range in A|unfold one_of in A]; cbn in *; unfold ch; cbn; lia. }
  apply round_trip; auto.
  - intros ->. discriminate SD.
  - intros c HI. apply R in HI. tauto.
  - destruct (exists_last NR) as (r & d & ->). rewrite last_last. apply R. apply in_or_app. cbn. auto.
Qed.

Lemma injective did collection rkey did' collection' rkey' uri :
  valid_did did -> valid_nsid collection -> valid_rkey rkey -> valid_did did' -> valid_nsid collection' -> valid_rkey rkey' ->
  at_uri did collection rkey = Ok uri -> at_uri did' collection' rkey' = Ok uri -> did = did' /\ collection = collection' /\ rkey = rkey'.
Proof.
  intros A B C A' B' C' E E'. destruct (valid_round_trip (fun _ => true) _ _ _ A B C) as (u & U & P).
  destruct (valid_round_trip (fun _ => true) _ _ _ A' B' C') as (u' & U' & P'). rewrite E in U. rewrite E' in U'. injection U as <-. injection U' as <-.
  rewrite P in P'. injection P' as -> -> ->. auto.
Qed.

Lemma rejects netloc_ok uri : (forall r, uri <> s "at://" ++ r) -> parse_at_uri netloc_ok uri = Err ValueError.
Proof.
  intros H. unfold parse_at_uri. assert (X : forall p x, starts_with p x = true -> exists r, x = p ++ r).
  { induction p as [|a p IH]; intros [|b x] E; cbn [starts_with] in E; try discriminate; [exists []; reflexivity|eexists; reflexivity|].
    apply andb_prop in E as [E1 E2]. apply N.eqb_eq in E1. subst b. destruct (IH x E2) as (r & ->). exists r. reflexivity. }
  destruct (starts_with (s "at://") uri) eqn:E; [|reflexivity]. destruct (X _ _ E) as (r & ->). exfalso. exact (H r eq_refl).
Qed.

(** ** What comes out of [parse_at_uri] *)

Definition netloc_fine (netloc_ok : str -> bool) (n : str) : bool :=
  let lb := existsb (is_ch "[") n in
  if xorb lb (existsb (is_ch "]") n) then false else if lb || existsb (fun c => 128 <=? c) n then netloc_ok n else true.

Lemma gen_trip netloc_ok did collection rkey :
  did <> [] -> collection <> [] -> rkey <> [] -> netloc_fine netloc_ok did = true ->
  (forall c, In c did -> ~ In c (s "/?#") /\ ~ In c [9; 10; 13]) ->
  (forall c, In c collection -> ~ In c (s "/?#") /\ ~ In c [9; 10; 13]) ->
  (forall c, In c rkey -> ~ In c (s "?#") /\ ~ In c [9; 10; 13]) -> last rkey 0 <> ch "/" ->
  exists uri, at_uri did collection rkey = Ok uri /\ parse_at_uri netloc_ok uri = Ok (did, collection, rkey).
Proof.
  intros ND NC NR NF HD HC HR LR. exists (s "at://" ++ did ++ s "/" ++ collection ++ s "/" ++ rkey). split.
  { unfold at_uri. destruct did, collection, rkey; try congruence; reflexivity. }
  unfold parse_at_uri. rewrite starts_with_app. cbn [negb].
  assert (F1 : forall c, In c did -> negb (removed c) = true) by chars HD.
  assert (F2 : forall c, In c collection -> negb (removed c) = true) by chars HC.
  assert (F3 : forall c, In c rkey -> negb (removed c) = true) by chars HR.
  assert (P : urlparse_at netloc_ok (s "at://" ++ did ++ s "/" ++ collection ++ s "/" ++ rkey)
    = Ok (did, ch "/" :: collection ++ ch "/" :: rkey)).
  { unfold urlparse_at. change (skipn 5 (s "at://" ++ did ++ s "/" ++ collection ++ s "/" ++ rkey)) with (did ++ s "/" ++ collection ++ s "/" ++ rkey).
    rewrite !filter_app, (filter_all _ did F1), (filter_all _ collection F2), (filter_all _ rkey F3).
    change (filter (fun c => negb (removed c)) (s "/")) with [ch "/"]. cbn [app].
    rewrite cut_at; [|chars HD|reflexivity].
    assert (NP : forall p, p (ch "/") = false -> (forall c, In c collection -> p c = false) -> (forall c, In c rkey -> p c = false) ->
       forall c, In c (ch "/" :: collection ++ ch "/" :: rkey) -> p c = false).
    { intros p A B C c [<-|X]; auto. apply in_app_or in X as [X|[<-|X]]; auto. }
    rewrite (cut_none (is_ch "#")); [|apply NP; [reflexivity|chars HC|chars HR]].
    rewrite (cut_none (is_ch "?")); [|apply NP; [reflexivity|chars HC|chars HR]].
    unfold netloc_fine in NF. destruct (xorb _ _); [discriminate NF|]. destruct (_ || _); [|reflexivity]. rewrite NF. reflexivity. }
  rewrite P. cbn [bind].
  assert (ST : strip_slash (ch "/" :: collection ++ ch "/" :: rkey) = collection ++ ch "/" :: rkey).
  { destruct collection as [|c m]; [congruence|]. destruct (exists_last NR) as (r & d & ->). rewrite last_last in LR.
    change ((c :: m) ++ ch "/" :: r ++ [d]) with (c :: m ++ (ch "/" :: r) ++ [d]). rewrite app_assoc. apply strip_ok.
    - specialize (HC c (or_introl eq_refl)). unfold is_ch, ch in *. cbn in *. lia.
    - unfold is_ch. apply N.eqb_neq. exact LR. }
  rewrite ST, cut_at; [reflexivity|chars HC|reflexivity].
Qed.

Lemma cut_spec p x : let '(a, b) := cut p x in x = a ++ b /\ (forall c, In c a -> p c = false) /\ match b with c :: _ => p c = true | [] => True end.
Proof.
  induction x as [|c x IH]; cbn [cut]; [splits; auto; intros c []|]. destruct (p c) eqn:E; [splits; auto; intros d []|]. destruct (cut p x) as [a b]. destruct IH as (-> & A & B).
  splits; auto. intros d [<-|I]; auto.
Qed.
Lemma lstrip_in c x : In c (lstrip_slash x) -> In c x.
Proof. induction x as [|d x IH]; cbn [lstrip_slash]; [auto|]. destruct (is_ch "/" d); cbn; auto. Qed.
Lemma lstrip_head x : match lstrip_slash x with c :: _ => is_ch "/" c = false | [] => True end.
Proof. induction x as [|d x IH]; cbn [lstrip_slash]; [auto|]. destruct (is_ch "/" d) eqn:E; auto. Qed.
Lemma strip_in c x : In c (strip_slash x) -> In c x.
Proof. unfold strip_slash. intros I. apply in_rev in I. apply lstrip_in in I. apply in_rev in I. apply lstrip_in in I. exact I. Qed.
Lemma strip_last x : strip_slash x <> [] -> is_ch "/" (last (strip_slash x) 0) = false.
Proof.
  unfold strip_slash. pose proof (lstrip_head (rev (lstrip_slash x))) as H. destruct (lstrip_slash (rev (lstrip_slash x))) as [|c r]; [intros X; destruct (X eq_refl)|].
  intros _. cbn [rev]. rewrite last_last. exact H.
Qed.

Lemma parsed netloc_ok uri did collection rkey : parse_at_uri netloc_ok uri = Ok (did, collection, rkey) ->
  netloc_fine netloc_ok did = true /\
  (forall c, In c did -> ~ In c (s "/?#") /\ ~ In c [9; 10; 13]) /\
  (forall c, In c collection -> ~ In c (s "/?#") /\ ~ In c [9; 10; 13]) /\
  (forall c, In c rkey -> ~ In c (s "?#") /\ ~ In c [9; 10; 13]) /\ (rkey <> [] -> last rkey 0 <> ch "/").
Proof.
  unfold parse_at_uri. destruct (starts_with (s "at://") uri); cbn [negb]; [|discriminate]. unfold urlparse_at.
  set (url := filter (fun c => negb (removed c)) (skipn 5 uri)).
  assert (RM : forall c, In c url -> removed c = false) by (intros c I; apply filter_In in I as [_ I]; destruct (removed c); [discriminate I|reflexivity]). clearbody url.
  pose proof (cut_spec (fun c => is_ch "/" c || is_ch "?" c || is_ch "#" c) url) as C1. destruct (cut _ url) as [netloc r1]. destruct C1 as (E1 & N1 & _).
  pose proof (cut_spec (is_ch "#") r1) as C2. destruct (cut (is_ch "#") r1) as [r2 x2]. destruct C2 as (E2 & N2 & _).
  pose proof (cut_spec (is_ch "?") r2) as C3. destruct (cut (is_ch "?") r2) as [path x3]. destruct C3 as (E3 & N3 & _).
  pose proof (cut_spec (is_ch "/") (strip_slash path)) as C4.
  intros H. assert (NF : netloc_fine netloc_ok netloc = true /\ (let '(a, b) := cut (is_ch "/") (strip_slash path) in (netloc, a, match b with _ :: k => k | [] => [] end)) = (did, collection, rkey)).
  { unfold netloc_fine. destruct (xorb _ _); [discriminate H|]. destruct (_ || _) in *; [destruct (netloc_ok netloc); [|discriminate H]|]; cbn [bind] in H;
      (split; [reflexivity|]); destruct (cut (is_ch "/") (strip_slash path)); congruence. }
  clear H. destruct NF as [NF H]. destruct (cut (is_ch "/") (strip_slash path)) as [a b]. destruct C4 as (E4 & N4 & _). injection H as <- <- <-.
  assert (PA : forall c, In c path -> is_ch "?" c = false /\ is_ch "#" c = false /\ removed c = false).
  { intros c I. split; [apply N3; exact I|]. split; [apply N2; rewrite E3; apply in_or_app; auto|]. apply RM. rewrite E1, E2, E3. apply in_or_app. right. apply in_or_app. left. apply in_or_app. auto. }
  assert (SP : forall c, In c (a ++ b) -> is_ch "?" c = false /\ is_ch "#" c = false /\ removed c = false) by (intros c I; rewrite <- E4 in I; apply PA, strip_in, I).
  split; [exact NF|]. split.
  { intros c I. specialize (N1 c I). assert (R : removed c = false) by (apply RM; rewrite E1; apply in_or_app; auto). unfold is_ch, ch, removed in *. cbn in *. lia. }
  split.
  { intros c I. specialize (N4 c I). assert (R := SP c (in_or_app _ _ _ (or_introl I))). unfold is_ch, ch, removed in *. cbn in *. lia. }
  destruct b as [|x k]; [split; [intros c []|congruence]|]. split.
  { intros c I. assert (R := SP c (in_or_app a (x :: k) c (or_intror (or_intror I)))). unfold is_ch, ch, removed in *. cbn in *. lia. }
  intros NK EL. assert (L := strip_last path). rewrite E4 in L. assert (NE : a ++ x :: k <> []) by (destruct a; discriminate). specialize (L NE).
  destruct (exists_last NK) as (k' & d & ->). rewrite last_last in EL. subst d. replace (a ++ x :: k' ++ [ch "/"]) with ((a ++ x :: k') ++ [ch "/"]) in L by (rewrite <- app_assoc; reflexivity).
  rewrite last_last in L. discriminate L.
Qed.
Lemma canonical netloc_ok uri did collection rkey : parse_at_uri netloc_ok uri = Ok (did, collection, rkey) -> did <> [] -> collection <> [] -> rkey <> [] ->
  exists uri', at_uri did collection rkey = Ok uri' /\ parse_at_uri netloc_ok uri' = Ok (did, collection, rkey).
Proof. intros P A B C. destruct (parsed _ _ _ _ _ P) as (F & X & Y & Z & L). apply gen_trip; auto. Qed.
Lemma made did collection rkey : match at_uri did collection rkey with
  | Ok uri => did <> [] /\ collection <> [] /\ rkey <> [] /\ uri = s "at://" ++ did ++ s "/" ++ collection ++ s "/" ++ rkey
  | Err e => e = AssertionError /\ (did = [] \/ collection = [] \/ rkey = [])
  end.
Proof. destruct did; [cbn; auto|]. destruct collection; [cbn; auto|]. destruct rkey; [cbn; auto|]. cbn [at_uri]. repeat split; discriminate. Qed.
