(** Proofs about remote blobs. *)
From Coq Require Import String List NArith ZArith Bool Lia Sorted.
From Verif Require Import Base Lists Ipld CodecModel UriModel BlobModel.
Import ListNotations.
Local Open Scope Z_scope.

(** *** The store *)

Lemma insert_get k b k' : forall st, ssorted (keys st) -> dget k' (insert_at k b st) = if str_eqb k' k then Some b else dget k' st.
Proof.
  induction st as [|[k0 b0] st IH]; intros O; cbn [insert_at dget]; auto.
  unfold keys in O; cbn [map fst] in O. inversion O as [|? ? O' F]; subst.
  destruct (str_cmp k k0) eqn:C; cbn [dget].
  - apply str_cmp_eq in C. subst k0. destruct (str_eqb k' k); auto.
  - auto.
  - rewrite IH by auto. destruct (str_eqb_spec k' k0) as [->|NE]; auto.
    destruct (str_eqb_spec k0 k) as [->|NE]; auto. rewrite str_cmp_refl in C. discriminate.
Qed.
Lemma insert_In k b x : forall st, In x (insert_at k b st) -> x = (k, b) \/ In x st.
Proof.
  induction st as [|[k0 b0] st IH]; cbn [insert_at]; [intros [<-|[]]; auto|].
  destruct (str_cmp k k0); cbn [In]; intros [H|H]; auto. destruct (IH H); auto.
Qed.
Lemma insert_sorted k b : forall st, ssorted (keys st) -> ssorted (keys (insert_at k b st)).
Proof.
  induction st as [|[k0 b0] st IH]; intros O; cbn [insert_at].
  - repeat constructor.
  - unfold keys in O; cbn [map fst] in O. inversion O as [|? ? O' F]; subst.
    destruct (str_cmp k k0) eqn:C.
    + apply str_cmp_eq in C. subst k0. exact O.
    + unfold keys. cbn [map fst]. constructor; [exact O|]. constructor; [exact C|].
      eapply Forall_impl; [|exact F]. intros a Ha. eapply slt_trans; eauto.
    + unfold keys. cbn [map fst]. constructor; [apply IH; auto|]. apply Forall_forall. intros x Hx.
      unfold keys in Hx. apply in_map_iff in Hx. destruct Hx as ([y b'] & <- & Hx). apply insert_In in Hx. destruct Hx as [E|Hx].
      * injection E as -> ->. cbn. unfold slt. rewrite str_cmp_antisym, C. reflexivity.
      * rewrite Forall_forall in F. apply F. apply in_map_iff. exists (y, b'). auto.
Qed.

Lemma Forall_insert (P : str * blob -> Prop) k b st : P (k, b) -> Forall P st -> Forall P (insert_at k b st).
Proof. intros H F. rewrite Forall_forall in *. intros x I. apply insert_In in I. destruct I as [->|I]; auto. Qed.

Lemma Forall_set {A} (P : A -> Prop) n a l : P a -> Forall P l -> Forall P (set_nth n a l).
Proof. intros H F. revert n. induction F as [|x l Hx F IH]; intros [|n]; cbn; constructor; auto. Qed.

Section Blob.
Variable cf : blob_config.
Notation key_of := (key_of cf).
Notation type_of := (type_of cf).
Notation too_big := (too_big cf).

Lemma key_key u : key_of (key_of u) = key_of u.
Proof. unfold BlobModel.key_of. rewrite firstn_firstn, Nat.min_id. reflexivity. Qed.
Lemma key_short u k : key_of u = k -> (length k < max_key cf)%nat -> u = k.
Proof.
  unfold BlobModel.key_of. intros <- H. rewrite firstn_length in H. symmetry. apply firstn_all2. lia.
Qed.
Lemma key_nonempty u : u <> [] -> (0 < max_key cf)%nat -> key_of u <> [].
Proof. unfold BlobModel.key_of. destruct u, (max_key cf); try easy; lia. Qed.

(** *** What every entity satisfies, given the responses so far *)

Definition comes_from (log : list (str * response)) (k : str) (b : blob) (id : str) : Prop :=
  exists u r content, In (u, r) log /\ key_of u = k /\ ok r = true /\ r_body r = Ok content /\ id = raw_cid cf content /\
    (b_size b = Some (Z.of_nat (length content)) /\ b_mime b = type_of u r \/ too_big b = true).
Definition good (log : list (str * response)) (k : str) (b : blob) : Prop :=
  key_of (url_of k b) = k /\ forall id, b_cid b = Some id -> comes_from log k b id.

Lemma comes_more log log' k b id : incl log log' -> comes_from log k b id -> comes_from log' k b id.
Proof. intros I (u & r & x & A & B). exists u, r, x. split; [now apply I|exact B]. Qed.
Lemma good_more log log' k b : incl log log' -> good log k b -> good log' k b.
Proof. intros I [A B]. split; auto. intros id E. eapply comes_more; eauto. Qed.
(** It depends on these fields only. *)
Lemma good_same log k b b' : b_url b' = b_url b -> b_cid b' = b_cid b -> b_size b' = b_size b -> b_mime b' = b_mime b -> good log k b -> good log k b'.
Proof.
  unfold good, comes_from, url_of, BlobModel.too_big. intros -> -> -> ->. auto.
Qed.

Lemma load_good now url repo st log :
  url <> [] -> Forall (fun x => good log (fst x) (snd x)) st ->
  let '(st', b) := load cf now url repo st in
  Forall (fun x => good log (fst x) (snd x)) st' /\ good log (key_of url) b /\ b_url b = Some url.
Proof.
  intros U F. unfold load. set (k := key_of url).
  set (p := ndb_get_or_insert now _ _ st).
  assert (P : Forall (fun x => good log (fst x) (snd x)) (fst p) /\ forall id, b_cid (snd p) = Some id -> comes_from log k (snd p) id).
  { unfold p, ndb_get_or_insert. destruct (dget k st) as [b|] eqn:D; cbn [fst snd].
    - split; [assumption|]. apply dget_In in D. rewrite Forall_forall in F. apply (F _ D).
    - split; [|discriminate]. unfold put. apply Forall_insert; [|assumption]. cbn. split; [cbn; apply key_key|discriminate]. }
  destruct p as [st1 b]. cbn [fst snd] in P. destruct P as [P1 P2].
  assert (G : good log k (with_url url b)).
  { split; [unfold url_of; cbn; destruct url; [easy|reflexivity]|exact P2]. }
  destruct repo as [r|]; [|auto]. destruct (existsb _ _); [auto|].
  split; [|split; [|reflexivity]].
  - unfold put. apply Forall_insert; [|assumption]. cbn [fst snd]. revert G. now apply good_same.
  - revert G. now apply good_same.
Qed.

Lemma begin_fields now b o : let b' := fst (begin_fetch now b o) in
  b_url b' = b_url b /\ b_cid b' = b_cid b /\ b_size b' = b_size b /\ b_mime b' = b_mime b /\ b_repos b' = b_repos b /\
  b_duration b' = b_duration b /\ b_last b' = Some now.
Proof.
  unfold begin_fetch. destruct o as [e [|]|r].
  - cbn [fst b_cid with_last]. destruct (is_some (b_cid b)); cbn; auto 10.
  - cbn. auto 10.
  - cbn [b_cid with_last].
    match goal with |- context [if ?x then with_inactive true ?y else _] => destruct x eqn:X end; destruct (ok r); cbn [fst]; try (cbn; now auto 10);
      cbn [b_cid with_last with_inactive]; destruct (is_some (b_cid b)); cbn; auto 10.
Qed.
Lemma begin_ok now b o r : snd (begin_fetch now b o) = Ok r -> o = Answer r /\ ok r = true /\ b_inactive (fst (begin_fetch now b o)) = b_inactive b.
Proof.
  unfold begin_fetch. destruct o as [e [|]|r']; try discriminate. cbn [b_cid with_last].
  destruct (ok r') eqn:O; [|discriminate]. cbn [snd fst]. intros E. injection E as ->. split; [reflexivity|]. split; [assumption|].
  assert (C : (r_code r / 100 =? 4)%N = false).
  { unfold ok in O. apply N.eqb_neq. intros C. apply orb_prop in O. destruct O as [O|O].
    - apply N.ltb_lt in O. assert (r_code r / 100 < 4)%N by (apply N.div_lt_upper_bound; lia). lia.
    - apply N.leb_le in O. assert (6 <= r_code r / 100)%N by (apply N.div_le_lower_bound; lia). lia. }
  rewrite C. cbn. reflexivity.
Qed.
Lemma begin_url now b o k : url_of k (fst (begin_fetch now b o)) = url_of k b.
Proof. unfold url_of. destruct (begin_fields now b o) as (-> & _). reflexivity. Qed.
Lemma begin_good log now b o k : good log k b -> good log k (fst (begin_fetch now b o)).
Proof. destruct (begin_fields now b o) as (A & B & C & D & _). now apply good_same. Qed.

(** After a response. *)
Lemma finish_good log k b r : good log k b -> In (url_of k b, r) log -> ok r = true ->
  let '(p, out) := finish_fetch cf (url_of k b) b r in
  (forall b', p = Some b' -> good log k b') /\
  (forall b', out = Ok b' -> p = Some b' /\ b_inactive b' = false /\ b_repos b' = b_repos b /\ b_last b' = b_last b /\
     exists content, r_body r = Ok content /\ b_cid b' = Some (raw_cid cf content) /\ b_size b' = Some (Z.of_nat (length content)) /\
       b_mime b' = type_of (url_of k b) r).
Proof.
  intros G I O. unfold finish_fetch. set (u := url_of k b) in *.
  set (b1 := match r_length r with Some x => _ | None => _ end).
  assert (B1 : b_url b1 = b_url b /\ b_cid b1 = b_cid b /\ b_mime b1 = type_of u r /\ b_repos b1 = b_repos b /\ b_last b1 = b_last b).
  { unfold b1. destruct (r_length r) as [x|]; [destruct (int_of cf x)|]; cbn; auto. }
  clearbody b1. destruct B1 as (B1 & B2 & B3 & B4 & B5). destruct G as [G1 G2].
  destruct (too_big b1) eqn:T.
  - split; [|discriminate]. intros b' E. injection E as <-. split.
    + unfold url_of. rewrite B1. exact G1.
    + intros id E. rewrite B2 in E. destruct (G2 id E) as (u' & r' & x & Q). exists u', r', x. tauto.
  - destruct (r_body r) as [content|e] eqn:Y; [|split; discriminate].
    set (b2 := with_inactive false _).
    assert (B : b_url b2 = b_url b /\ b_cid b2 = Some (raw_cid cf content) /\ b_size b2 = Some (Z.of_nat (length content)) /\
                b_mime b2 = type_of u r /\ b_inactive b2 = false /\ b_repos b2 = b_repos b /\ b_last b2 = b_last b).
    { unfold b2. destruct (duration_of cf content); cbn; auto 10. }
    clearbody b2. destruct B as (C1 & C2 & C3 & C4 & C5 & C6 & C7). split.
    + intros b' E. injection E as <-. split; [unfold url_of; rewrite C1; exact G1|].
      intros id E. rewrite C2 in E. injection E as <-. exists u, r, content. auto 10.
    + intros b' E. injection E as <-. eauto 10.
Qed.

Lemma validate_ok b max accept : 0 <= max_bytes cf -> validate cf b max accept = Ok tt ->
  accepts cf (b_mime b) accept = true /\ too_big b = false /\
  (forall n, b_size b = Some n -> n <= max_bytes cf /\ forall m, max = Some m -> 0 < m -> n <= m) /\
  (forall d, b_duration b = Some d -> d <= max_duration cf \/ d = 0).
Proof.
  intros Z. unfold validate. destruct (accepts cf (b_mime b) accept); [|discriminate]. cbn [negb].
  destruct (too_big b) eqn:T; [discriminate|].
  match goal with |- (if ?x then _ else _) = _ -> _ => destruct x eqn:X end; [discriminate|].
  match goal with |- (if ?x then _ else _) = _ -> _ => destruct x eqn:Y end; [discriminate|]. intros _.
  split; [reflexivity|]. split; [reflexivity|]. split.
  - intros n E. unfold BlobModel.too_big in T. rewrite E in T, X. split.
    + apply andb_false_iff in T. destruct T as [T|T]; [apply negb_false_iff in T; apply Z.eqb_eq in T; lia|apply Z.ltb_ge in T; lia].
    + intros m -> M. apply andb_false_iff in X. destruct X as [X|X]; [|apply Z.ltb_ge in X; lia].
      apply andb_false_iff in X. destruct X as [X|X]; apply negb_false_iff in X; apply Z.eqb_eq in X; lia.
  - intros d E. rewrite E in Y. apply andb_false_iff in Y. destruct Y as [Y|Y]; [apply negb_false_iff in Y; apply Z.eqb_eq in Y; lia|apply Z.ltb_ge in Y; lia].
Qed.

(** *** All interleavings *)

Definition result (log : list (str * response)) (c : call) (b : blob) : Prop :=
  good log (key_of (c_url c)) b /\ b_inactive b = false /\ validate cf b (c_max c) (c_accept c) = Ok tt.
Definition thread_ok (log : list (str * response)) (t : thread) : Prop :=
  match t with
  | TFetch k c b => good log k b /\ b_inactive b = false /\ (forall c', c = Some c' -> k = key_of (c_url c'))
  | TRead k c b r => good log k b /\ b_inactive b = false /\ (forall c', c = Some c' -> k = key_of (c_url c')) /\ In (url_of k b, r) log /\ ok r = true
  | TDone (Some c) (Ok b) => result log c b
  | TDone _ _ => True
  end.
Definition inv (w : world) : Prop :=
  ssorted (keys (w_store w)) /\ Forall (fun x => good (w_fetched w) (fst x) (snd x)) (w_store w) /\ Forall (thread_ok (w_fetched w)) (w_threads w).

Lemma thread_more log log' t : incl log log' -> thread_ok log t -> thread_ok log' t.
Proof.
  intros I. destruct t as [k c b|k c b r|[c|] [b|e]]; cbn; try tauto.
  - intros (A & B). split; [eapply good_more; eauto|auto].
  - intros (A & B & C & D & E). split; [eapply good_more; eauto|]. auto.
  - intros (A & B). split; [eapply good_more; eauto|auto].
Qed.
Lemma finished_ok log k c r : (forall b, r = Ok b -> good log k b /\ b_inactive b = false) -> (forall c', c = Some c' -> k = key_of (c_url c')) ->
  thread_ok log (finished cf c r).
Proof.
  intros H K. unfold finished. destruct c as [c|]; [|destruct r; cbn; auto]. destruct r as [b|e]; cbn; auto.
  destruct (validate cf b (c_max c) (c_accept c)) as [[]|] eqn:V; cbn; auto. destruct (H b eq_refl) as [G A].
  rewrite (K c eq_refl) in G. now split.
Qed.

Lemma load_sorted now url repo st : ssorted (keys st) -> ssorted (keys (fst (load cf now url repo st))).
Proof.
  intros O. unfold load. set (p := ndb_get_or_insert now _ _ st).
  assert (P : ssorted (keys (fst p))) by (unfold p, ndb_get_or_insert; destruct (dget _ st); cbn; [assumption|now apply insert_sorted]).
  destruct p as [st1 b]. cbn [fst] in P. destruct repo as [r|]; cbn; [|assumption]. destruct (existsb _ _); cbn; [assumption|]. now apply insert_sorted.
Qed.

Lemma inv_step w a w' : inv w -> step cf w a = Some w' -> inv w'.
Proof.
  intros (O & S & T) E. destruct a as [now c|k|i now o|i now]; cbn [step] in E.
  - destruct (c_url c) as [|x u] eqn:U; [discriminate|]. rewrite <- U in E.
    pose proof (load_good now (c_url c) (c_repo c) (w_store w) (w_fetched w)) as L. pose proof (load_sorted now (c_url c) (c_repo c) (w_store w) O) as O'.
    destruct (load cf now (c_url c) (c_repo c) (w_store w)) as [st b]. destruct L as (L1 & L2 & _); [congruence|assumption|].
    injection E as <-. split; [exact O'|]. split; [exact L1|]. cbn. apply Forall_app. split; [assumption|]. constructor; [|constructor].
    destruct (b_inactive b) eqn:A; cbn; auto. split; [assumption|]. split; [assumption|]. intros c' E. congruence.
  - destruct (dget k (w_store w)) as [b|] eqn:D; [|discriminate].
    destruct (b_inactive b) eqn:A; [discriminate|]. cbn in E. destruct (is_some (b_cid b)); [|discriminate]. injection E as <-.
    split; [exact O|]. split; [exact S|]. cbn. apply Forall_app. split; [assumption|]. constructor; [|constructor]. cbn.
    apply dget_In in D. rewrite Forall_forall in S. split; [apply (S _ D)|]. split; [assumption|discriminate].
  - destruct (nth_error (w_threads w) i) as [[k c b| |]|] eqn:N; try discriminate.
    assert (B : thread_ok (w_fetched w) (TFetch k c b)) by (apply nth_error_In in N; rewrite Forall_forall in T; auto).
    destruct B as (G & A & K). destruct (must_fetch cf now b).
    + pose proof (begin_good (w_fetched w) now b o k G) as G'. pose proof (begin_ok now b o) as BO. pose proof (begin_url now b o k) as BU.
      destruct (begin_fetch now b o) as [b' r]. cbn [fst snd] in *. injection E as <-. destruct r as [r|e]; cbn.
      * assert (I : incl (w_fetched w) (w_fetched w ++ [(url_of k b', r)])) by (intros x Q; apply in_or_app; now left).
        destruct (BO r eq_refl) as (_ & Or & Ai).
        split; [now apply insert_sorted|]. split.
        -- unfold put. apply Forall_insert.
           ++ cbn [fst snd]. apply (good_more _ _ _ _ I). revert G'. now apply good_same.
           ++ eapply Forall_impl; [|exact S]. intros x. now apply good_more.
        -- apply Forall_set.
           ++ cbn. split; [now apply (good_more _ _ _ _ I)|]. split; [congruence|]. split; [assumption|]. split; [|assumption].
              apply in_or_app. right. now left.
           ++ eapply Forall_impl; [|exact T]. intros x. now apply thread_more.
      * split; [now apply insert_sorted|]. split.
        -- apply Forall_insert; [|assumption]. cbn. revert G'. now apply good_same.
        -- apply Forall_set; [|assumption]. destruct c; exact Logic.I.
    + injection E as <-. split; [assumption|]. split; [assumption|]. cbn. apply Forall_set; [|assumption].
      apply finished_ok with (k := k); [|assumption]. intros b' E. injection E as <-. auto.
  - destruct (nth_error (w_threads w) i) as [[|k c b r|]|] eqn:N; try discriminate.
    assert (B : thread_ok (w_fetched w) (TRead k c b r)) by (apply nth_error_In in N; rewrite Forall_forall in T; auto).
    destruct B as (G & A & K & I & Or). pose proof (finish_good (w_fetched w) k b r G I Or) as F.
    destruct (finish_fetch cf (url_of k b) b r) as [p out]. destruct F as [F1 F2]. injection E as <-. cbn.
    split; [|split].
    + destruct p; [now apply insert_sorted|assumption].
    + destruct p as [b'|]; [|assumption]. apply Forall_insert; [|assumption]. cbn. specialize (F1 b' eq_refl). revert F1. now apply good_same.
    + apply Forall_set; [|assumption]. apply finished_ok with (k := k); [|assumption]. intros b' E. subst out. destruct (F2 b' eq_refl) as (P & Q & _). auto.
Qed.

Lemma inv_run : forall l w w', inv w -> run cf w l = Some w' -> inv w'.
Proof.
  induction l as [|a l IH]; cbn [run]; intros w w' I E; [congruence|]. destruct (step cf w a) as [w1|] eqn:Q; [|discriminate].
  eapply IH; [eapply inv_step; eassumption|exact E].
Qed.
Lemma inv_start : inv (World [] [] []).
Proof. split; [constructor|]. split; constructor. Qed.

Lemma returned acts w i c b : 0 <= max_bytes cf -> run cf (World [] [] []) acts = Some w -> nth_error (w_threads w) i = Some (TDone (Some c) (Ok b)) ->
  (length (c_url c) < max_key cf)%nat ->
  accepts cf (b_mime b) (c_accept c) = true /\ b_inactive b = false /\
  (forall n, b_size b = Some n -> n <= max_bytes cf /\ forall m, c_max c = Some m -> 0 < m -> n <= m) /\
  (forall d, b_duration b = Some d -> d <= max_duration cf \/ d = 0) /\
  (forall id, b_cid b = Some id -> exists r content, In (c_url c, r) (w_fetched w) /\ ok r = true /\ r_body r = Ok content /\
     id = s "b" ++ map lower (b32_encode ([1; 85; 18; 32]%N ++ digest cf content)) /\
     b_size b = Some (Z.of_nat (length content)) /\ b_mime b = type_of (c_url c) r).
Proof.
  intros Z R N L. pose proof (inv_run _ _ _ inv_start R) as (_ & _ & T). apply nth_error_In in N. rewrite Forall_forall in T.
  destruct (T _ N) as ((G1 & G2) & A & V). apply validate_ok in V; [|assumption]. destruct V as (V1 & V2 & V3 & V4).
  split; [assumption|]. split; [assumption|]. split; [assumption|]. split; [assumption|].
  intros id E. destruct (G2 id E) as (u & r & x & I & K & O & Y & Id & [[Q1 Q2]|Q]); [|congruence].
  assert (K' : key_of (c_url c) = c_url c) by (unfold BlobModel.key_of; apply firstn_all2; lia).
  rewrite K' in K. apply key_short in K; [|assumption]. subst u. exists r, x. auto 10.
Qed.

(** *** One request after the other *)


Lemma insert_insert k b b' : forall st, insert_at k b' (insert_at k b st) = insert_at k b' st.
Proof.
  induction st as [|[k0 b0] st IH]; cbn [insert_at].
  - rewrite str_cmp_refl. reflexivity.
  - destruct (str_cmp k k0) eqn:C; cbn [insert_at]; rewrite ?str_cmp_refl, ?C, ?IH; auto.
Qed.

Lemma begin_err now b o e : snd (begin_fetch now b o) = Err e -> match o with NoAnswer _ os => os = true | Answer _ => True end ->
  b_cid b = None -> b_inactive (fst (begin_fetch now b o)) = true.
Proof.
  unfold begin_fetch. destruct o as [e' [|]|r]; cbn [b_cid with_last].
  - intros _ _ ->. reflexivity.
  - discriminate.
  - intros E _ C. destruct (ok r); [discriminate|]. rewrite C. cbn. rewrite orb_true_r. cbn. rewrite C. reflexivity.
Qed.

Lemma finish_cases u b r : let '(p, out) := finish_fetch cf u b r in
  match p with
  | Some p => b_repos p = b_repos b /\ b_url p = b_url b /\ b_last p = b_last b
  | None => exists e, r_body r = Err e
  end /\
  match out with
  | Ok b' => p = Some b' /\ b_inactive b' = false /\ exists content, r_body r = Ok content /\ b_cid b' = Some (raw_cid cf content) /\
      b_size b' = Some (Z.of_nat (length content)) /\ b_mime b' = type_of u r
  | Err e => match p with Some p => too_big p = true /\ e = ValueError | None => r_body r = Err e end
  end.
Proof.
  unfold finish_fetch.
  set (b1 := match r_length r with Some x => _ | None => _ end).
  assert (B1 : b_url b1 = b_url b /\ b_mime b1 = type_of u r /\ b_repos b1 = b_repos b /\ b_last b1 = b_last b).
  { unfold b1. destruct (r_length r) as [x|]; [destruct (int_of cf x)|]; cbn; auto. }
  clearbody b1. destruct B1 as (B1 & B2 & B3 & B4). destruct (too_big b1) eqn:T; [auto|].
  destruct (r_body r) as [content|e] eqn:Y; [|eauto].
  set (b2 := with_inactive false _).
  assert (B : b_url b2 = b_url b1 /\ b_cid b2 = Some (raw_cid cf content) /\ b_size b2 = Some (Z.of_nat (length content)) /\
              b_mime b2 = b_mime b1 /\ b_inactive b2 = false /\ b_repos b2 = b_repos b1 /\ b_last b2 = b_last b1).
  { unfold b2. destruct (duration_of cf content); cbn; auto 10. }
  clearbody b2. destruct B as (C1 & C2 & C3 & C4 & C5 & C6 & C7). split; [split; [|split]; congruence|].
  split; [reflexivity|]. split; [assumption|]. exists content. rewrite C4. auto.
Qed.

(** A request that brings an answer that can be read, or an error that tells that there is none. *)
Definition decent (o : outcome) : Prop := match o with NoAnswer _ os => os = true | Answer r => exists content, r_body r = Ok content end.

Lemma maybe_cases now k b get st st' out : maybe_fetch cf now k b get st = (st', out) ->
  (must_fetch cf now b = false /\ st' = st /\ out = Ok b) \/
  (must_fetch cf now b = true /\ exists p, st' = put now k p st /\ b_repos p = b_repos b /\ b_last p = Some now /\ b_url p = b_url b /\
    match out with
    | Ok b' => b' = p /\ b_inactive p = false /\ exists r content, get (url_of k b) = Answer r /\ ok r = true /\ r_body r = Ok content /\
        b_cid p = Some (raw_cid cf content) /\ b_size p = Some (Z.of_nat (length content)) /\ b_mime p = type_of (url_of k b) r
    | Err e => decent (get (url_of k b)) -> b_cid p = None -> b_inactive p = true \/ too_big p = true
    end).
Proof.
  unfold maybe_fetch. destruct (must_fetch cf now b) eqn:F; [|intros E; injection E as <- <-; auto].
  intros E. right. split; [reflexivity|]. set (o := get (url_of k b)) in *.
  destruct (begin_fields now b o) as (A1 & A2 & A3 & A4 & A5 & A6 & A7). pose proof (begin_ok now b o) as BO. pose proof (begin_url now b o k) as BU.
  pose proof (begin_err now b o) as BE.
  destruct (begin_fetch now b o) as [b1 [r|e]]; cbn [fst snd] in *.
  - destruct (BO r eq_refl) as (Eo & Or & Ai). rewrite BU in E. pose proof (finish_cases (url_of k b) b1 r) as C.
    destruct (finish_fetch cf (url_of k b) b1 r) as [[p|] out'] eqn:FF; injection E as <- <-; destruct C as [C1 C2].
    + exists p. split; [unfold put; apply insert_insert|]. destruct C1 as (C1 & C3 & C4).
      split; [congruence|]. split; [congruence|]. split; [congruence|]. destruct out' as [b'|e].
      * destruct C2 as (C2 & C5 & x & C6 & C7 & C8 & C9). injection C2 as <-. split; [reflexivity|]. split; [assumption|].
        exists r, x. auto 10.
      * intros _ _. right. tauto.
    + exists b1. split; [reflexivity|]. split; [assumption|]. split; [assumption|]. split; [assumption|]. destruct out' as [b'|e].
      * destruct C2 as (C2 & _). discriminate.
      * intros D _. unfold decent in D. rewrite Eo in D. destruct D as [x D]. congruence.
  - injection E as <- <-. exists b1. split; [reflexivity|]. split; [assumption|]. split; [assumption|]. split; [assumption|].
    intros D N. left. apply (BE e eq_refl); [|congruence]. unfold decent in D. destruct o; auto.
Qed.

(** An entity without a CID has not been asked for, or failed. *)
Definition settled (b : blob) : Prop := b_cid b = None -> b_last b = None \/ b_inactive b = true \/ too_big b = true.

Definition all_settled (st : store) : Prop := ssorted (keys st) /\ Forall (fun x => settled (snd x)) st.

Lemma load_settled now url repo st : all_settled st -> all_settled (fst (load cf now url repo st)) /\ settled (snd (load cf now url repo st)).
Proof.
  intros [O F]. split; [split; [now apply load_sorted|]|].
  - unfold load. set (p := ndb_get_or_insert now _ _ st).
    assert (P : Forall (fun x => settled (snd x)) (fst p) /\ settled (snd p)).
    { unfold p, ndb_get_or_insert. destruct (dget (key_of url) st) as [b|] eqn:D; cbn [fst snd].
      - split; [assumption|]. apply dget_In in D. rewrite Forall_forall in F. apply (F _ D).
      - split; [|intros _; now left]. apply Forall_insert; [|assumption]. intros _. now left. }
    destruct p as [st1 b]. cbn [fst snd] in P. destruct P as [P1 P2]. destruct repo as [r|]; cbn [fst]; [|assumption].
    destruct (existsb _ _); cbn [fst]; [assumption|]. apply Forall_insert; [|assumption]. exact P2.
  - unfold load. set (p := ndb_get_or_insert now _ _ st).
    assert (P2 : settled (snd p)).
    { unfold p, ndb_get_or_insert. destruct (dget (key_of url) st) as [b|] eqn:D; cbn [fst snd]; [|intros _; now left].
      apply dget_In in D. rewrite Forall_forall in F. apply (F _ D). }
    destruct p as [st1 b]. cbn [snd] in P2. destruct repo as [r|]; cbn [snd]; [|exact P2]. destruct (existsb _ _); exact P2.
Qed.

Lemma maybe_settled now k b get st st' out : (forall u, decent (get u)) -> all_settled st -> maybe_fetch cf now k b get st = (st', out) -> all_settled st'.
Proof.
  intros D [O F] E. apply maybe_cases in E. destruct E as [(_ & -> & _)|(_ & p & -> & _ & L & _ & P)]; [now split|].
  split; [now apply insert_sorted|]. apply Forall_insert; [|assumption]. intros N. cbn in N |- *. right. destruct out as [b'|e].
  - destruct P as (-> & _ & r & x & _ & _ & _ & C & _). congruence.
  - apply P; auto.
Qed.

Lemma create_settled now url repo get max accept st st' out : (forall u, decent (get u)) -> all_settled st ->
  get_or_create cf now url repo get max accept st = (st', out) -> all_settled st' /\ forall b, 0 <= max_bytes cf -> out = Ok b -> b_cid b <> None.
Proof.
  intros D A E. unfold get_or_create in E. destruct url as [|x u]; [injection E as <- <-; split; [assumption|discriminate]|].
  set (url := x :: u) in *. destruct (load_settled now url repo st A) as [A1 A2]. destruct (load cf now url repo st) as [st1 b]. cbn [fst snd] in *.
  destruct (b_inactive b) eqn:I; [injection E as <- <-; split; [assumption|discriminate]|].
  destruct (maybe_fetch cf now (key_of url) b get st1) as [st2 r] eqn:M. injection E as <- <-.
  split; [eapply maybe_settled; eassumption|]. intros b' Z E N. destruct r as [b0|e]; [|discriminate]. cbn [bind] in E.
  destruct (validate cf b0 max accept) as [[]|] eqn:V; [|discriminate]. injection E as ->. apply validate_ok in V; [|assumption]. destruct V as (_ & V & _).
  apply maybe_cases in M. destruct M as [(Mf & -> & Q)|(_ & p & _ & _ & _ & _ & -> & _ & r & y & _ & _ & _ & C & _)]; [|congruence].
  injection Q as ->. destruct (A2 N) as [L|[L|L]]; [|congruence|congruence]. unfold must_fetch in Mf. rewrite N, L in Mf. discriminate.
Qed.

Lemma try_settled now get : (forall u, decent (get u)) -> forall l st st' out, all_settled st -> try_blobs cf now get l st = (st', out) -> all_settled st'.
Proof.
  intros D. induction l as [|[k b] l IH]; cbn [try_blobs]; intros st st' out A E; [congruence|].
  destruct (b_inactive b); [eauto|]. destruct (maybe_fetch cf now k b get st) as [st1 [b'|e]] eqn:M;
    pose proof (maybe_settled _ _ _ _ _ _ _ D A M) as A1.
  - destruct (b_inactive b'); [eauto|congruence].
  - destruct (request_error e); [eauto|congruence].
Qed.

(** Repos are not forgotten. *)
Definition lists_repo (k did : str) (st : store) : Prop := exists b, dget k st = Some b /\ In did (b_repos b).

Lemma put_lists now k k' did b st : ssorted (keys st) -> (k' = k -> lists_repo k did st -> In did (b_repos b)) -> lists_repo k did st -> lists_repo k did (put now k' b st).
Proof.
  intros O H L. unfold lists_repo, put. rewrite insert_get by assumption. destruct (str_eqb_spec k k') as [<-|N]; [|exact L].
  eexists. split; [reflexivity|]. cbn. auto.
Qed.

Lemma load_repos now url repo st : ssorted (keys st) ->
  let '(st', b) := load cf now url repo st in
  ssorted (keys st') /\ (forall k did, lists_repo k did st -> lists_repo k did st') /\
  (forall did, repo = Some did -> lists_repo (key_of url) did st') /\
  (forall did, lists_repo (key_of url) did st' -> In did (b_repos b)).
Proof.
  intros O. pose proof (load_sorted now url repo st O) as O'. unfold load, ndb_get_or_insert in *. set (k := key_of url) in *.
  destruct (dget k st) as [b|] eqn:D.
  - destruct repo as [r|]; [destruct (existsb (str_eqb r) (b_repos (with_url url b))) eqn:X|]; cbn [b_repos with_url fst] in *.
    + split; [assumption|]. split; [auto|]. split.
      * intros did E. injection E as <-. exists b. split; [assumption|]. apply existsb_exists in X. destruct X as (y & I & Q). apply str_eqb_eq in Q. congruence.
      * intros did (b' & Q & I). rewrite D in Q. injection Q as <-. exact I.
    + split; [assumption|]. split; [|split].
      * intros k0 did L. apply put_lists; auto. intros <- (b' & Q & I). rewrite D in Q. injection Q as <-. cbn. apply in_or_app. now left.
      * intros did E. injection E as <-. eexists. unfold put. rewrite insert_get, str_eqb_refl by assumption. split; [reflexivity|]. cbn.
        apply in_or_app. right. now left.
      * intros did (b' & Q & I). unfold put in Q. rewrite insert_get, str_eqb_refl in Q by assumption. injection Q as <-. exact I.
    + split; [assumption|]. split; [auto|]. split; [discriminate|]. intros did (b' & Q & I). rewrite D in Q. injection Q as <-. exact I.
  - cbn [b_repos with_url new_blob with_updated] in *. destruct repo as [r|].
    + cbn [existsb] in *. rewrite str_eqb_refl in *. cbn [orb fst] in *. split; [assumption|]. split; [|split].
      * intros k0 did L. apply put_lists; auto. intros <- (b' & Q & I). congruence.
      * intros did E. injection E as <-. eexists. unfold put. rewrite insert_get, str_eqb_refl by assumption. split; [reflexivity|]. now left.
      * intros did (b' & Q & I). unfold put in Q. rewrite insert_get, str_eqb_refl in Q by assumption. injection Q as <-. exact I.
    + cbn [fst] in *. split; [assumption|]. split; [|split; [discriminate|]].
      * intros k0 did L. apply put_lists; auto. intros <- (b' & Q & I). congruence.
      * intros did (b' & Q & I). unfold put in Q. rewrite insert_get, str_eqb_refl in Q by assumption. injection Q as <-. exact I.
Qed.

Lemma maybe_repos now k b get st st' out : ssorted (keys st) -> (forall did, lists_repo k did st -> In did (b_repos b)) ->
  maybe_fetch cf now k b get st = (st', out) -> ssorted (keys st') /\ forall k did, lists_repo k did st -> lists_repo k did st'.
Proof.
  intros O H E. apply maybe_cases in E. destruct E as [(_ & -> & _)|(_ & p & -> & R & _)]; [auto|].
  split; [now apply insert_sorted|]. intros k' did L. apply put_lists; auto. intros <- L'. rewrite R. auto.
Qed.
End Blob.
