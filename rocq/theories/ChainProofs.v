(** Chains of commits, whatever fails. *)
From Coq Require Import String List NArith ZArith Bool Lia.
From Verif Require Import Base Lists Ipld IpldProofs MstModel MstClient TidModel TidProofs BlockModel CarModel StorageModel RepoSpec CallbackProofs IsolateSpec IsolateProofs ChainSpec.
Import ListNotations.
Local Open Scope m_scope.

Section Chain.
Variable digest : list N -> list N.
Variable kdigest : str -> list N.
Variable validate : ipld -> res unit.
Variable ecdsa : N -> Z -> list N -> list N.
Variable now : Z -> str.
Variable cb : nat -> option exn.
Variable be : backend.
Hypothesis inj : forall a b, digest a = digest b -> a = b.
Notation wf := (wf digest).

(** The same with sequence numbers. *)
Inductive linked (st : state) (d : str) (key : N) : cid -> Z -> Prop :=
| ln_first c n b rev root : read st c = Some b -> (0 < n)%Z -> int_to_tid n 0 = Ok rev ->
    b_val b = norm (commit_value ecdsa key n d rev None root) -> linked st d key c n
| ln_next c n b rev root p m : read st c = Some b -> int_to_tid n 0 = Ok rev ->
    b_val b = norm (commit_value ecdsa key n d rev (Some p) root) -> linked st d key p m -> (m < n)%Z -> linked st d key c n.
Lemma linked_pos st d key c n : linked st d key c n -> (0 < n)%Z.
Proof. induction 1; lia. Qed.
Lemma linked_grows a b d key c n : grows a b -> linked a d key c n -> linked b d key c n.
Proof. intros G. induction 1; [eapply ln_first|eapply ln_next]; eauto. Qed.
Lemma tid_below n t : (0 < n)%Z -> int_to_tid n 0 = Ok t -> (0 <= n < p55)%Z.
Proof. intros P T. destruct (Z_lt_le_dec n p55); [lia|]. rewrite tid_too_large in T by assumption. discriminate. Qed.
Lemma linked_chain st d key c n : linked st d key c n -> exists rev, int_to_tid n 0 = Ok rev /\ signed_chain ecdsa st d key c rev.
Proof.
  induction 1 as [c n b rev root R P T V|c n b rev root p m R T V L IH LT].
  - exists rev. split; [exact T|]. eapply sc_first; [exact R|]. exists root, n. auto.
  - destruct IH as (rev' & T' & C). exists rev. split; [exact T|]. eapply sc_next; [exact R| |exact C|].
    + exists root, n. auto.
    + pose proof (linked_pos _ _ _ _ _ L). apply (proj2 (tid_order m n 0 rev' rev (tid_below m rev' H T') (tid_below n rev ltac:(lia) T) ltac:(lia) T' T)). exact LT.
Qed.

(** [h] is a head of the repo [d]. *)
Definition good (B : Z) (st : state) (d : str) (key : N) (h : block) : Prop :=
  is_did d /\ item_text (s "did") (b_val h) = Ok d /\ (exists b, read st (b_cid h) = Some b /\ b_val b = b_val h) /\
  exists n, (n < B)%Z /\ linked st d key (b_cid h) n.
Lemma good_mono B B' a b d key h : (B <= B')%Z -> grows a b -> good B a d key h -> good B' b d key h.
Proof.
  intros LE G (I & D & (x & R & V) & n & LT & L). split; [exact I|]. split; [exact D|]. split; [exists x; auto|].
  exists n. split; [lia|]. eapply linked_grows; eauto.
Qed.
Lemma good_did B st d key h o : good B st d key h -> r_head o = Some h -> repo_did o = Ok (Some d).
Proof. intros (_ & D & _) H. unfold repo_did. rewrite H, D. reflexivity. Qed.

Record K (B : Z) (st : state) : Prop := {
  k_next : (0 < B)%Z;
  k_objs : forall r o, nth_error (s_objs st) r = Some o -> handle_ok (r_handle o) /\
    forall h, r_head o = Some h -> exists d key, good B st d key h;
  k_mem : forall k r, In (k, r) (s_mem st) -> exists o h, nth_error (s_objs st) r = Some o /\ r_head o = Some h /\ good B st k (r_key o) h;
  k_none : be = Datastore -> s_mem st = [];
  k_nodup : NoDup (keys (s_mem st));
  k_ents : forall k e, In (k, e) (s_ents st) -> handle_ok (e_handle e) /\
    exists b, read st (e_head e) = Some b /\ good B st k (e_key e) b;
  k_blocks : forall c b, read st c = Some b -> b_cid b = c /\ wf b
}.
Lemma K_more B B' st : (B <= B')%Z -> K B st -> K B' st.
Proof.
  intros LE [N O M E D T W]. assert (G : forall d key h, good B st d key h -> good B' st d key h) by (intros d key h; apply good_mono; [lia|intros c x X; exact X]).
  split; auto; try lia.
  - intros r o H. destruct (O r o H) as [A X]. split; [exact A|]. intros h R. destruct (X h R) as (d & key & Y). eauto.
  - intros k r I. destruct (M k r I) as (o & h & A & X & Y). eauto 6.
  - intros k e I. destruct (T k e I) as (A & b & X & Y). eauto 6.
Qed.

(** What most steps keep. *)
Record rel (a b : state) : Prop := {
  e_objs : forall r o, nth_error (s_objs a) r = Some o ->
    exists o', nth_error (s_objs b) r = Some o' /\ r_head o' = r_head o /\ r_key o' = r_key o;
  e_mem : s_mem b = s_mem a;
  e_ents : forall k, option_map e_key (dget k (s_ents b)) = option_map e_key (dget k (s_ents a));
  e_blocks : grows a b;
  e_seq : (s_next a <= s_next b)%Z
}.
Lemma rel_refl st : rel st st.
Proof. split; auto; try lia. - intros r o H. eauto. - intros c x H. exact H. Qed.
Lemma rel_trans a b c : rel a b -> rel b c -> rel a c.
Proof.
  intros F G. split.
  - intros r o H. destruct (e_objs _ _ F r o H) as (o' & H' & A & X). destruct (e_objs _ _ G r o' H') as (o2 & H2 & A2 & X2).
    exists o2. split; [exact H2|]. split; congruence.
  - rewrite (e_mem _ _ G). apply F.
  - intros k. rewrite (e_ents _ _ G). apply F.
  - intros x y H. apply (e_blocks _ _ G), (e_blocks _ _ F). exact H.
  - etransitivity; [apply F|apply G].
Qed.

Definition quiet {A} (m : M A) (R : A -> Prop) : Prop := forall B st, K B st ->
  K B (fst (m st)) /\ rel st (fst (m st)) /\ match snd (m st) with Ok a => R a | Err _ => True end.
Lemma quiet_pure {A} (m : M A) : pure m -> quiet m (fun _ => True).
Proof. intros P B st HK. rewrite P. split; [exact HK|]. split; [apply rel_refl|]. destruct (snd (m st)); exact I. Qed.
Lemma quiet_bind {A B} (m : M A) (f : A -> M B) Q R : quiet m Q -> (forall a, Q a -> quiet (f a) R) -> quiet (bindM m f) R.
Proof.
  intros H F b st HK. destruct (H b st HK) as (K1 & R1 & Q1). unfold bindM. destruct (m st) as [st1 [a|e]]; cbn [fst snd] in *; [|auto].
  destruct (F a Q1 b st1 K1) as (K2 & R2 & Q2). split; [exact K2|]. split; [eapply rel_trans; eauto|exact Q2].
Qed.
Lemma quiet_skip {A B} (m : M A) (f : A -> M B) R : pure m -> (forall a, quiet (f a) R) -> quiet (bindM m f) R.
Proof. intros P H. eapply quiet_bind; [apply quiet_pure, P|]. intros a _. apply H. Qed.
Lemma quiet_ret {A} (a : A) (R : A -> Prop) : R a -> quiet (ret a) R.
Proof. intros H B st HK. cbn. auto using rel_refl. Qed.
Lemma quiet_throw {A} e R : quiet (@throw A e) R.
Proof. intros B st HK. cbn. auto using rel_refl. Qed.
Lemma quiet_weaken {A} (m : M A) (Q R : A -> Prop) : quiet m Q -> (forall a, Q a -> R a) -> quiet m R.
Proof. intros H F B st HK. destruct (H B st HK) as (A1 & A2 & A3). split; [exact A1|]. split; [exact A2|]. destruct (snd (m st)); auto. Qed.

(** States that differ in nothing that matters here. *)
Lemma K_rel B a b : K B a -> (forall c, read b c = read a c) -> s_objs b = s_objs a -> s_mem b = s_mem a -> s_ents b = s_ents a -> (s_next a <= s_next b)%Z ->
  K B b /\ rel a b.
Proof.
  intros HK EB EO EM EE EN. assert (G : grows a b) by (intros c x H; rewrite EB; exact H).
  assert (GG : forall d key h, good B a d key h -> good B b d key h) by (intros d key h; apply good_mono; [lia|exact G]).
  destruct HK as [N O M E D T W]. split; split; rewrite ?EO, ?EM, ?EE; auto; try lia.
  - intros r o H. destruct (O r o H) as [A X]. split; [exact A|]. intros h R. destruct (X h R) as (d & key & Y). eauto.
  - intros k r I. destruct (M k r I) as (o & h & A & X & Y). eauto 6.
  - intros k e I. destruct (T k e I) as (A & x & X & Y). rewrite EB. eauto 6.
  - intros c x H. rewrite EB in H. auto.
  - intros r o H. eauto.
Qed.
Lemma quiet_here B a b (X : Prop) : X -> K B b /\ rel a b -> K B b /\ rel a b /\ X.
Proof. tauto. Qed.
Lemma quiet_allocate : quiet allocate_seq (fun _ => True).
Proof. intros B st HK. unfold allocate_seq. cbn [fst snd]. apply quiet_here; [exact I|]. apply K_rel; auto. cbn [set_next s_next]. lia. Qed.
Lemma quiet_callback r c : quiet (callback cb r c) (fun _ => True).
Proof.
  unfold callback. apply quiet_skip; [apply pure_obj|]. intros o. destruct (r_callback o); [|apply quiet_ret; exact I].
  intros B st HK. apply quiet_here; [destruct (snd _); exact I|]. apply K_rel; auto. cbn [fst add_call s_next]. lia.
Qed.
Lemma quiet_write_blocks bs : Forall wf bs -> quiet (write_blocks bs) (fun _ => True).
Proof.
  intros W B st HK.
  assert (G : grows st (fst (write_blocks bs st))) by (intros c x H; rewrite read_write_blocks, H; reflexivity).
  assert (GG : forall d key h, good B st d key h -> good B (fst (write_blocks bs st)) d key h) by (intros d key h; apply good_mono; [lia|exact G]).
  apply quiet_here; [exact I|]. destruct HK as [N O M E D T X]. split; split; auto; try (cbn [write_blocks modify fst set_blocks s_next]; lia).
  - intros r o H. destruct (O r o H) as [A Y]. split; [exact A|]. intros h R. destruct (Y h R) as (d & key & Z). eauto.
  - intros k r I. destruct (M k r I) as (o & h & A & Y & Z). eauto 6.
  - intros k e I. destruct (T k e I) as (A & x & Y & Z). eauto 6.
  - intros c b. rewrite read_write_blocks. destruct (read st c) eqn:R.
    + intros H. injection H as <-. apply X. exact R.
    + intros H. eapply dget_blocks; eauto.
  - intros r o H. eauto.
Qed.
(** The same blocks. *)
Lemma good_same B a b d key h : s_blocks b = s_blocks a -> good B a d key h -> good B b d key h.
Proof. intros E. apply good_mono; [lia|]. intros c x H. unfold read in *. rewrite E. exact H. Qed.
Lemma K_make B a b : s_blocks b = s_blocks a -> K B a ->
  (forall r o, nth_error (s_objs b) r = Some o -> nth_error (s_objs a) r = Some o \/
     handle_ok (r_handle o) /\ forall h, r_head o = Some h -> exists d key, good B a d key h) ->
  (forall k r, In (k, r) (s_mem b) -> exists o h, nth_error (s_objs b) r = Some o /\ r_head o = Some h /\ good B a k (r_key o) h) ->
  (be = Datastore -> s_mem b = []) -> NoDup (keys (s_mem b)) ->
  (forall k e, In (k, e) (s_ents b) -> In (k, e) (s_ents a) \/ handle_ok (e_handle e) /\ exists x, read a (e_head e) = Some x /\ good B a k (e_key e) x) -> K B b.
Proof.
  intros EB HK HO HM HN HD HE. pose proof (fun d key h => good_same B a b d key h EB) as GG.
  assert (ER : forall c, read b c = read a c) by (intros c; unfold read; rewrite EB; reflexivity).
  destruct HK as [N O M E D T W]. split; auto.
  - intros r o H. assert (X : handle_ok (r_handle o) /\ forall h, r_head o = Some h -> exists d key, good B a d key h).
    { destruct (HO r o H) as [H'|H']; [apply (O r o H')|exact H']. }
    destruct X as [X Y]. split; [exact X|]. intros h R. destruct (Y h R) as (d & key & Z). eauto.
  - intros k r I. destruct (HM k r I) as (o & h & A & Y & Z). eauto 6.
  - intros k e I. assert (X : handle_ok (e_handle e) /\ exists x, read a (e_head e) = Some x /\ good B a k (e_key e) x).
    { destruct (HE k e I) as [H|H]; [apply (T k e H)|exact H]. }
    destruct X as (X & x & Y & Z). split; [exact X|]. exists x. rewrite ER. auto.
  - intros c x. rewrite ER. apply W.
Qed.
Lemma grows_same a b : s_blocks b = s_blocks a -> grows a b.
Proof. intros E c x H. unfold read in *. rewrite E. exact H. Qed.
Lemma nth_put r o l k : nth_error l r <> None -> nth_error (replace_nth r o l) k = if Nat.eqb r k then Some o else @nth_error repo l k.
Proof.
  intros H. rewrite nth_replace. destruct (Nat.eqb r k) eqn:Q; [|reflexivity].
  apply PeanoNat.Nat.eqb_eq in Q. subst k. destruct (nth_error l r); [reflexivity|congruence].
Qed.
(** A new version of an object. *)
Lemma K_put B st r o o' : K B st -> nth_error (s_objs st) r = Some o -> handle_ok (r_handle o') ->
  (forall h, r_head o' = Some h -> exists d key, good B st d key h) ->
  (forall k, In (k, r) (s_mem st) -> exists h, r_head o' = Some h /\ good B st k (r_key o') h) ->
  K B (set_objs (replace_nth r o' (s_objs st)) st).
Proof.
  intros HK E HH HG HM. apply (K_make B st); [reflexivity|exact HK|..]; cbn [set_objs s_objs s_mem s_ents]; auto.
  - intros k x. rewrite nth_put by congruence. destruct (Nat.eqb r k); [|auto]. intros H. injection H as <-. auto.
  - intros k r2 I. rewrite nth_put by congruence. destruct (Nat.eqb r r2) eqn:Q; [|apply (k_mem _ _ HK k r2 I)].
    apply PeanoNat.Nat.eqb_eq in Q. subst r2. destruct (HM k I) as (h & A & X). eauto.
  - apply HK.
  - apply HK.
Qed.
Lemma quiet_set_attr r f : (forall o, r_handle (f o) = r_handle o) -> (forall o, r_head (f o) = r_head o) -> (forall o, r_key (f o) = r_key o) ->
  quiet (set_attr r f) (fun _ => True).
Proof.
  intros FH FD FK B st HK. unfold set_attr, bindM, obj. destruct (nth_error (s_objs st) r) as [o|] eqn:E; [|cbn; auto using rel_refl].
  unfold put_obj, modify. cbn [fst snd]. apply quiet_here; [exact I|]. split.
  - destruct (k_objs _ _ HK r o E) as [A Y]. apply (K_put B st r o (f o) HK E); rewrite ?FH, ?FD, ?FK; auto.
    intros k J. destruct (k_mem _ _ HK k r J) as (o2 & h & X & Z). rewrite E in X. injection X as <-. eauto.
  - split; auto; try (cbn; lia).
    + intros k o2 H. cbn [set_objs s_objs]. rewrite nth_put by congruence. destruct (Nat.eqb r k) eqn:Q; [|eauto].
      apply PeanoNat.Nat.eqb_eq in Q. subst k. rewrite E in H. injection H as <-. eauto.
    + apply grows_same. reflexivity.
Qed.
Lemma K_new B st o : K B st -> handle_ok (r_handle o) -> (forall h, r_head o = Some h -> exists d key, good B st d key h) ->
  K B (set_objs (s_objs st ++ [o]) st) /\ rel st (set_objs (s_objs st ++ [o]) st).
Proof.
  intros HK HH HG.
  assert (Q : forall r x, nth_error (s_objs st) r = Some x -> nth_error (s_objs st ++ [o]) r = Some x).
  { intros r x E. rewrite nth_error_app1; [exact E|]. apply nth_error_Some. congruence. }
  split.
  - apply (K_make B st); [reflexivity|exact HK|..]; cbn [set_objs s_objs s_mem s_ents]; auto; try apply HK.
    + intros r x E. destruct (Compare_dec.lt_dec r (length (s_objs st))) as [L|L].
      * rewrite nth_error_app1 in E by exact L. auto.
      * rewrite nth_error_app2 in E by lia. destruct (r - length (s_objs st)) as [|n]; cbn in E; [|destruct n; discriminate].
        injection E as <-. auto.
    + intros k r J. destruct (k_mem _ _ HK k r J) as (x & h & A & Y). exists x, h. auto.
  - split; auto; try (cbn; lia).
    + intros r x E. exists x. auto.
    + apply grows_same. reflexivity.
Qed.
Lemma ent_dget_put k e x : forall l, dget x (ent_put k e l) = if str_eqb x k then Some e else dget x l.
Proof.
  induction l as [|[k' e'] l IH]; cbn [ent_put dget]; [destruct (str_eqb x k); reflexivity|].
  destruct (str_cmp k k') eqn:C; cbn [dget].
  - apply str_cmp_eq in C. subst k'. destruct (str_eqb x k); reflexivity.
  - destruct (str_eqb x k); reflexivity.
  - rewrite IH. destruct (str_eqb_spec x k') as [->|]; [|reflexivity]. destruct (str_eqb_spec k' k) as [->|]; [|reflexivity].
    rewrite str_cmp_refl in C. discriminate.
Qed.
Lemma K_ent B st d e : K B st -> handle_ok (e_handle e) -> (exists b, read st (e_head e) = Some b /\ good B st d (e_key e) b) ->
  K B (set_ents (ent_put d e (s_ents st)) st).
Proof.
  intros HK HH HG. apply (K_make B st); [reflexivity|exact HK|..]; cbn [set_ents s_objs s_mem s_ents]; auto; try apply HK.
  intros k e' I. apply In_ent_put in I as [I|I]; [injection I as -> ->; auto|auto].
Qed.
Lemma keys_dset_nodup {V} k (v : V) : forall l, NoDup (keys l) -> NoDup (keys (dset k v l)).
Proof.
  induction l as [|[k' v'] l IH]; cbn [dset keys map fst]; intros H.
  - constructor; [intros []|constructor].
  - inversion H as [|? ? A Y]; subst. destruct (str_eqb_spec k k') as [->|N]; cbn [keys map fst]; [constructor; auto|].
    constructor; [|apply IH, Y]. intros J. apply A. apply in_map_iff in J as ([k2 v2] & E & J). cbn [fst] in E. subst k2.
    apply In_dset in J as [J|J]; [congruence|]. apply in_map_iff. exists (k', v2). auto.
Qed.
Lemma K_mem B st d r o h : be = Memory -> K B st -> nth_error (s_objs st) r = Some o -> r_head o = Some h -> good B st d (r_key o) h ->
  K B (set_mem (dset d r (s_mem st)) st).
Proof.
  intros BM HK E H G. apply (K_make B st); [reflexivity|exact HK|..]; cbn [set_mem s_objs s_mem s_ents]; auto.
  - intros k r2 I. apply In_dset in I as [I|I]; [injection I as -> ->; exists o, h; auto|apply (k_mem _ _ HK k r2 I)].
  - congruence.
  - apply keys_dset_nodup, HK.
Qed.

Lemma quiet_set_repo_status r x : quiet (set_repo_status be r x) (fun _ => True).
Proof.
  unfold set_repo_status. eapply quiet_bind; [apply quiet_set_attr; reflexivity|]. intros [] _. destruct be eqn:EB; [apply quiet_ret; exact I|].
  apply quiet_skip; [apply pure_obj|]. intros o. apply quiet_skip; [apply pure_lift|]. intros [d|].
  2: { apply quiet_skip; [apply pure_reads|]. intros e. apply quiet_throw. }
  intros B st HK. unfold bindM, reads. cbn [fst snd]. destruct (dget d (s_ents st)) as [e|] eqn:E; [|cbn; auto using rel_refl].
  unfold modify. cbn [fst snd]. apply quiet_here; [exact I|]. split.
  - apply K_ent; auto; cbn [e_handle e_head e_key]; apply (k_ents _ _ HK d e), In_dget1, E.
  - split; auto; try (cbn; lia).
    + intros k o2 H. eauto.
    + intros k. cbn [set_ents s_ents]. rewrite ent_dget_put. destruct (str_eqb_spec k d) as [->|]; [rewrite E; reflexivity|reflexivity].
    + apply grows_same. reflexivity.
Qed.
Lemma quiet_write_obj dd v seq : quiet (write_obj digest be dd v seq) (fun _ => True).
Proof.
  unfold write_obj. destruct be.
  - apply quiet_skip; [apply pure_assert|]. intros []. eapply quiet_bind; [apply quiet_write_blocks; constructor; [apply mk_block_wf|constructor]|].
    intros [] _. apply quiet_ret. exact I.
  - apply quiet_skip; [apply pure_assert|]. intros []. eapply quiet_bind; [apply quiet_write_blocks; constructor; [apply mk_block_wf|constructor]|].
    intros [] _. apply quiet_skip; [apply pure_reads|]. intros [x|]; [|apply quiet_throw].
    apply quiet_skip; [apply pure_assert|]. intros []. apply quiet_ret. exact I.
Qed.
Lemma quiet_write_event r type extra : quiet (write_event digest now cb be r type extra) (fun _ => True).
Proof.
  unfold write_event. eapply quiet_bind; [apply quiet_allocate|]. intros seq _.
  apply quiet_skip; [apply pure_obj|]. intros o. apply quiet_skip; [apply pure_lift|]. intros dd.
  eapply quiet_bind; [apply quiet_write_obj|]. intros b _. eapply quiet_bind; [apply quiet_callback|]. intros [] _. apply quiet_ret. exact I.
Qed.
(** The blocks of a commit. *)
Definition acc_ok (seq : Z) (acc : list (cid * block) * list commit_op) : Prop :=
  forall c b, In (c, b) (fst acc) -> wf b /\ b_cid b = c /\ b_seq b = seq.
Lemma acc_wf seq acc : acc_ok seq acc -> wf_acc digest acc.
Proof. intros H c b J. apply (H c b J). Qed.
Lemma quiet_commit_write d r seq acc w : acc_ok seq acc -> quiet (commit_write digest kdigest validate r d seq acc w) (acc_ok seq).
Proof.
  intros W. destruct acc as [blocks ops]. unfold commit_write.
  assert (S : forall m, quiet (set_attr r (with_mst m)) (fun _ => True)).
  { intros m. apply quiet_set_attr; auto. }
  apply quiet_skip.
  { destruct (w_action w); [apply pure_ret|..]; (apply pure_bind; [apply pure_obj|]; intros o; apply pure_bind;
     [exact (pure_rd (fun rd => get kdigest rd max_depth (r_mst o) (path_of w)))|]; intros [v|]; [destruct (nonempty v); [apply pure_ret|apply pure_throw]|apply pure_throw]). }
  intros prev.
  assert (REC : forall a, quiet
    (match w_record w with
      | None => throw AssertionError
      | Some v =>
          (match v with IMap _ => ret tt | _ => throw AttributeError end);;
          lift (validate v);;
          assert (truthy v);;
          let b := mk_block digest v (Some d) seq None in
          (if (max_record_size <? len (encode (b_val b)))%N then throw ValueError else ret tt);;
          let blocks := dset (b_cid b) b blocks in
          let op := CommitOp a (path_of w) (Some (b_cid b)) prev in
          let! o := obj r in
          match a with
          | CREATE =>
              let! m := (fun st => (st, add digest kdigest (rd st) max_depth (r_mst o) (path_of w) (b_cid b) None)) in
              set_attr r (with_mst m);;
              ret (blocks, ops ++ [op])
          | _ =>
              let! orig := lift (get_pointer digest (r_mst o)) in
              let! m := (fun st => (st, update kdigest (rd st) max_depth (r_mst o) (path_of w) (b_cid b))) in
              set_attr r (with_mst m);;
              let! pointer := lift (get_pointer digest m) in
              ret (blocks, if str_eqb pointer orig then ops else ops ++ [op])
          end
      end) (acc_ok seq)).
  { intros a. destruct (w_record w) as [v|]; [|apply quiet_throw].
    apply quiet_skip; [destruct v; first [apply pure_ret|apply pure_throw]|]. intros [].
    apply quiet_skip; [apply pure_lift|]. intros []. apply quiet_skip; [apply pure_assert|]. intros []. cbv zeta.
    apply quiet_skip; [destruct (_ <? _)%N; [apply pure_throw|apply pure_ret]|]. intros [].
    apply quiet_skip; [apply pure_obj|]. intros o.
    assert (W' : forall ops', acc_ok seq (dset (b_cid (mk_block digest v (Some d) seq None)) (mk_block digest v (Some d) seq None) blocks, ops')).
    { intros ops' c b J. cbn [fst] in J. apply In_dset in J as [J|J]; [injection J as -> ->; split; [apply mk_block_wf|auto]|]. apply (W c b J). }
    destruct a.
    - eapply quiet_skip; [exact (pure_rd (fun rd => add digest kdigest rd max_depth (r_mst o) (path_of w) (b_cid (mk_block digest v (Some d) seq None)) None))|].
      intros m. eapply quiet_bind; [apply S|]. intros [] _. apply quiet_ret. auto.
    - apply quiet_skip; [apply pure_lift|]. intros orig.
      eapply quiet_skip; [exact (pure_rd (fun rd => update kdigest rd max_depth (r_mst o) (path_of w) (b_cid (mk_block digest v (Some d) seq None))))|].
      intros m. eapply quiet_bind; [apply S|]. intros [] _. apply quiet_skip; [apply pure_lift|]. intros p. apply quiet_ret. auto.
    - apply quiet_skip; [apply pure_lift|]. intros orig.
      eapply quiet_skip; [exact (pure_rd (fun rd => update kdigest rd max_depth (r_mst o) (path_of w) (b_cid (mk_block digest v (Some d) seq None))))|].
      intros m. eapply quiet_bind; [apply S|]. intros [] _. apply quiet_skip; [apply pure_lift|]. intros p. apply quiet_ret. auto. }
  destruct (w_action w); [apply (REC CREATE)|apply (REC UPDATE)|].
  apply quiet_skip; [apply pure_obj|]. intros o.
  eapply quiet_skip; [exact (pure_rd (fun rd => delete kdigest rd max_depth (r_mst o) (path_of w)))|].
  intros m. eapply quiet_bind; [apply S|]. intros [] _. apply quiet_ret. exact W.
Qed.
Lemma quiet_fold d r seq : forall ws acc, acc_ok seq acc -> quiet (foldM (commit_write digest kdigest validate r d seq) acc ws) (acc_ok seq).
Proof.
  induction ws as [|w ws IH]; intros acc W; cbn [foldM]; [apply quiet_ret; exact W|].
  eapply quiet_bind; [apply quiet_commit_write; exact W|]. intros acc' W'. apply IH. exact W'.
Qed.

(** The repo of [d], and a reference to it. *)
Definition owns (B : Z) (d : str) (r : nat) (st : state) : Prop :=
  exists o h, nth_error (s_objs st) r = Some o /\ r_head o = Some h /\ good B st d (r_key o) h /\
    match be with Memory => In (d, r) (s_mem st) | Datastore => option_map e_key (dget d (s_ents st)) = Some (r_key o) end.
Lemma owns_rel B d r a b : rel a b -> owns B d r a -> owns B d r b.
Proof.
  intros R (o & h & E & H & G & X). destruct (e_objs _ _ R r o E) as (o' & E' & H' & K'). exists o', h. split; [exact E'|].
  split; [congruence|]. split; [rewrite K'; eapply good_mono; [apply Z.le_refl|apply R|exact G]|].
  destruct be; [rewrite (e_mem _ _ R); exact X|]. rewrite (e_ents _ _ R), K'. exact X.
Qed.
Lemma owns_head B d r st o : owns B d r st -> nth_error (s_objs st) r = Some o -> exists h, r_head o = Some h /\ good B st d (r_key o) h.
Proof. intros (o' & h & E & H & G & _) E'. rewrite E in E'. injection E' as <-. eauto. Qed.
Definition of_did (d : str) (r : nat) (st : state) : Prop := exists o, nth_error (s_objs st) r = Some o /\ repo_did o = Ok (Some d).
Lemma of_did_rel d r a b : rel a b -> of_did d r a -> of_did d r b.
Proof.
  intros R (o & E & D). destruct (e_objs _ _ R r o E) as (o' & E' & H' & _). exists o'. split; [exact E'|].
  unfold repo_did in *. rewrite H'. exact D.
Qed.

Lemma K_load B st c b handle status key d : K B st -> read st c = Some b -> handle_ok handle -> (exists k, good B st d k b) ->
  K B (fst (repo_load c handle status key st)) /\ rel st (fst (repo_load c handle status key st)) /\
  forall r, snd (repo_load c handle status key st) = Ok r -> exists o, nth_error (s_objs (fst (repo_load c handle status key st))) r = Some o /\ r_head o = Some b /\ r_key o = key.
Proof.
  intros HK R HH [k G]. unfold repo_load, bindM, reads, lift. rewrite R.
  destruct (item_link (s "data") (b_val b)) as [data|e]; cbn [fst snd].
  2: { split; [exact HK|]. split; [apply rel_refl|]. discriminate. }
  unfold new_obj. cbn [fst snd]. set (o := Repo (mst_load data) (Some b) handle status false key).
  destruct (K_new B st o HK HH) as [K1 R1]. { intros h X. injection X as <-. eauto. }
  split; [exact K1|]. split; [exact R1|]. intros r X. injection X as <-. exists o. split; [|auto].
  cbn [set_objs s_objs]. rewrite nth_error_app2, PeanoNat.Nat.sub_diag by apply le_n. reflexivity.
Qed.
Lemma mem_find_in x st r : forall l, mem_find x l st = (st, Ok (Some r)) ->
  exists k o, In (k, r) l /\ nth_error (s_objs st) r = Some o /\ (repo_did o = Ok (Some x) \/ r_handle o = Some x).
Proof.
  induction l as [|[k r'] l IH]; cbn [mem_find]; unfold ret; [discriminate|].
  unfold bindM, obj. destruct (nth_error (s_objs st) r') as [o|] eqn:E; [|discriminate]. unfold lift.
  destruct (repo_did o) as [d|] eqn:D; [|discriminate].
  destruct (opt_str_eqb x d || opt_str_eqb x (r_handle o)) eqn:Q.
  - intros H. injection H as <-. exists k, o. split; [left; reflexivity|]. split; [exact E|]. apply orb_true_iff in Q as [Q|Q].
    + left. destruct d as [y|]; [|discriminate]. cbn in Q. apply str_eqb_eq in Q. subst. exact D.
    + right. destruct (r_handle o) as [y|]; [|discriminate]. cbn in Q. apply str_eqb_eq in Q. subst. reflexivity.
  - intros H. destruct (IH H) as (k' & o' & J & X). exists k', o'. split; [right; exact J|exact X].
Qed.
Lemma ent_find_in x l k e : ent_find x l = Some (k, e) -> In (k, e) l /\ (dget x l = Some e /\ k = x \/ e_handle e = Some x).
Proof.
  unfold ent_find. destruct (dget x l) as [e'|] eqn:E.
  - intros H. injection H as <- <-. split; [apply In_dget1, E|auto].
  - intros H. apply find_some in H as [H Y]. split; [exact H|]. right. cbn [snd] in Y.
    destruct (e_handle e) as [y|]; [|discriminate]. cbn in Y. apply str_eqb_eq in Y. subst y. reflexivity.
Qed.
Lemma load_repo_eq x st : load_repo be x st =
  if nonempty x then
    match be with
    | Memory => mem_find x (s_mem st) st
    | Datastore => match ent_find x (s_ents st) with
                   | None => (st, Ok None)
                   | Some (_, e) => let '(st', r) := repo_load (e_head e) (e_handle e) (e_status e) (e_key e) st in
                                    (st', match r with Ok r => Ok (Some r) | Err e => Err e end)
                   end
    end
  else (st, Err AssertionError).
Proof.
  unfold load_repo, bindM, assert, reads. destruct (nonempty x); [|reflexivity]. unfold ret. destruct be; [reflexivity|].
  destruct (ent_find x (s_ents st)) as [[k e]|]; [|reflexivity]. destruct (repo_load _ _ _ _ st) as [st1 [r|]]; reflexivity.
Qed.
Lemma K_load_repo x B st : K B st -> K B (fst (load_repo be x st)) /\ rel st (fst (load_repo be x st)) /\
  (is_did x -> forall r, snd (load_repo be x st) = Ok (Some r) -> owns B x r (fst (load_repo be x st))).
Proof.
  intros HK. rewrite load_repo_eq. destruct (nonempty x).
  2: { cbn. split; [exact HK|]. split; [apply rel_refl|]. discriminate. }
  unfold owns. destruct be eqn:EB.
  - pose proof (pure_mem_find x (s_mem st) st) as P. destruct (mem_find x (s_mem st) st) as [st' out] eqn:F.
    cbn [fst snd] in *. subst st'. split; [exact HK|]. split; [apply rel_refl|]. intros ID r ->.
    destruct (mem_find_in _ _ _ _ F) as (k & o & J & E & D). destruct (k_mem _ _ HK k r J) as (o' & h & E' & H & G).
    rewrite E in E'. injection E' as <-. exists o, h. split; [exact E|]. split; [exact H|].
    assert (k = x). { destruct D as [D|D]; [rewrite (good_did _ _ _ _ _ _ G H) in D; congruence|].
      destruct (k_objs _ _ HK r o E) as [HH _]. rewrite D in HH. exfalso. exact (HH ID). }
    subst k. auto.
  - destruct (ent_find x (s_ents st)) as [[k e]|] eqn:F.
    2: { cbn. split; [exact HK|]. split; [apply rel_refl|]. discriminate. }
    destruct (ent_find_in _ _ _ _ F) as [J D]. destruct (k_ents _ _ HK _ _ J) as (HH & b & R & G).
    destruct (K_load B st (e_head e) b (e_handle e) (e_status e) (e_key e) k HK R HH (ex_intro (fun k1 => good B st k k1 b) _ G)) as (K1 & R1 & V).
    destruct (repo_load (e_head e) (e_handle e) (e_status e) (e_key e) st) as [st1 [r1|e1]]; cbn [fst snd] in *.
    2: { split; [exact K1|]. split; [exact R1|]. discriminate. }
    split; [exact K1|]. split; [exact R1|]. intros ID r X. injection X as <-. destruct (V r1 eq_refl) as (o & E & H & KE).
    exists o, b. split; [exact E|]. split; [exact H|].
    destruct D as [[D ->]|D]. 2: { rewrite D in HH. exfalso. exact (HH ID). }
    rewrite KE. split; [eapply good_mono; [apply Z.le_refl|apply R1|exact G]|]. rewrite (e_ents _ _ R1), D. reflexivity.
Qed.

(** What steps do that may add a commit. *)
Definition spec {A} (B B' : Z) (P : state -> Prop) (m : M A) (Q : A -> state -> Prop) : Prop := forall st, K B st -> P st ->
  K B' (fst (m st)) /\ (s_next st <= s_next (fst (m st)))%Z /\ match snd (m st) with Ok a => Q a (fst (m st)) | Err _ => True end.
Lemma spec_bind {A C} B B1 B' P (m : M A) (f : A -> M C) Q R : (B1 <= B')%Z -> spec B B1 P m Q -> (forall a, spec B1 B' (Q a) (f a) R) ->
  spec B B' P (bindM m f) R.
Proof.
  intros LE H F st HK HP. destruct (H st HK HP) as (K1 & N1 & Q1). unfold bindM. destruct (m st) as [st1 [a|e]]; cbn [fst snd] in *.
  - destruct (F a st1 K1 Q1) as (K2 & N2 & Q2). split; [exact K2|]. split; [lia|exact Q2].
  - split; [eapply K_more; eauto|]. auto.
Qed.
Lemma spec_quiet {A} B (P : state -> Prop) (m : M A) R : quiet m R -> (forall a b, rel a b -> P a -> P b) -> spec B B P m (fun a st => P st /\ R a).
Proof.
  intros H S st HK HP. destruct (H B st HK) as (K1 & R1 & V). split; [exact K1|]. split; [apply R1|].
  destruct (snd (m st)); [|exact I]. split; [eapply S; eauto|exact V].
Qed.
Lemma spec_pure {A} B (P : state -> Prop) (m : M A) (Q : A -> state -> Prop) : pure m -> (forall st a, K B st -> P st -> m st = (st, Ok a) -> Q a st) -> spec B B P m Q.
Proof.
  intros HP H st HK HS. pose proof (HP st) as E. destruct (m st) as [st1 [a|e]] eqn:X; cbn [fst snd] in *; subst st1.
  - split; [exact HK|]. split; [lia|]. apply (H st a HK HS X).
  - split; [exact HK|]. split; [lia|exact I].
Qed.
Lemma spec_skip {A C} B B' (P : state -> Prop) (m : M A) (f : A -> M C) R : (B <= B')%Z -> pure m -> (forall a, spec B B' P (f a) R) -> spec B B' P (bindM m f) R.
Proof. intros LE HP H. eapply (spec_bind B B B'); [exact LE| |exact H]. apply spec_pure; [exact HP|auto]. Qed.
Lemma spec_ret {A} B (P : state -> Prop) (a : A) (Q : A -> state -> Prop) : (forall st, K B st -> P st -> Q a st) -> spec B B P (ret a) Q.
Proof. intros H st HK HP. cbn. split; [exact HK|]. split; [lia|auto]. Qed.
Lemma spec_throw {A} B B' P e (Q : A -> state -> Prop) : (B <= B')%Z -> spec B B' P (throw e) Q.
Proof. intros LE st HK HP. cbn. split; [eapply K_more; eauto|]. split; [lia|exact I]. Qed.
Lemma spec_weaken {A} B B' (P P' : state -> Prop) (m : M A) (Q Q' : A -> state -> Prop) :
  spec B B' P m Q -> (forall st, K B st -> P' st -> P st) -> (forall a st, K B' st -> Q a st -> Q' a st) -> spec B B' P' m Q'.
Proof.
  intros H F G st HK HP. destruct (H st HK (F st HK HP)) as (A1 & A2 & A3). split; [exact A1|]. split; [exact A2|].
  destruct (snd (m st)); auto.
Qed.
Lemma spec_obj {A} B B' (P : state -> Prop) r (f : repo -> M A) R : (B <= B')%Z -> (forall o, spec B B' (fun st => P st /\ nth_error (s_objs st) r = Some o) (f o) R) -> spec B B' P (bindM (obj r) f) R.
Proof.
  intros LE H. eapply (spec_bind B B B'); [exact LE| |exact H]. apply spec_pure; [apply pure_obj|]. intros st o _ HP E. split; [exact HP|].
  unfold obj in E. destruct (nth_error (s_objs st) r); [|discriminate]. injection E as <-. reflexivity.
Qed.
Lemma spec_pre {A} B B' (P : state -> Prop) (X : Prop) (m : M A) Q : (forall st, K B st -> P st -> X) -> (X -> spec B B' P m Q) -> spec B B' P m Q.
Proof. intros H F st HK HP. exact (F (H st HK HP) st HK HP). Qed.

(** The repo a commit is for. *)
Definition target (B : Z) (r0 : nat) (drp : str * nat * option cid) (st : state) : Prop :=
  is_did (fst (fst drp)) /\ of_did (fst (fst drp)) r0 st /\ owns B (fst (fst drp)) (snd (fst drp)) st /\
  exists o h, nth_error (s_objs st) (snd (fst drp)) = Some o /\ r_head o = Some h /\ snd drp = Some (b_cid h).
Lemma target_rel B r0 drp a b : rel a b -> target B r0 drp a -> target B r0 drp b.
Proof.
  intros R (ID & O & W & o & h & E & H & P). split; [exact ID|]. split; [eapply of_did_rel; eauto|]. split; [eapply owns_rel; eauto|].
  destruct (e_objs _ _ R _ o E) as (o' & E' & H' & _). exists o', h. rewrite H'. auto.
Qed.
Lemma spec_target B r0 : spec B B (fun _ => True) (commit_target be r0 None) (target B r0).
Proof.
  unfold commit_target. apply spec_obj; [lia|]. intros o0. apply spec_skip; [lia|destruct (is_some _); [apply pure_throw|apply pure_ret]|].
  intros []. eapply (spec_bind B B B); [lia| |].
  { apply (spec_pure B _ _ (fun d st => is_did d /\ of_did d r0 st)); [apply pure_need_did|]. intros st d HK [_ E] H.
    apply need_did_ok in H. split; [|exists o0; auto]. unfold repo_did in H. destruct (r_head o0) as [h|] eqn:EH; [|discriminate].
    destruct (k_objs _ _ HK r0 o0 E) as [_ X]. destruct (X h EH) as (d' & key & G). pose proof (good_did _ _ _ _ _ o0 G EH) as D.
    unfold repo_did in D. rewrite EH in D. assert (d' = d) by congruence. subst d'. apply G. }
  intros d. eapply (spec_bind B B B _ _ _ (fun x st => (is_did d /\ of_did d r0 st) /\ forall r, x = Some r -> owns B d r st)); [lia| |].
  { intros st HK [ID O]. destruct (K_load_repo d B st HK) as (K1 & R1 & V). split; [exact K1|]. split; [apply R1|].
    destruct (snd (load_repo be d st)) as [x|] eqn:X; [|exact I]. split; [split; [exact ID|eapply of_did_rel; eauto]|]. intros r ->. auto. }
  intros [r|]; [|apply spec_throw; lia]. apply spec_obj; [lia|]. intros o. destruct (r_head o) as [h|] eqn:EH; [|apply spec_throw; lia].
  apply spec_ret. intros st HK [[[ID O] W] E]. unfold target. cbn [fst snd]. split; [exact ID|]. split; [exact O|]. split; [apply W; reflexivity|]. eauto.
Qed.

(** Finishing a commit. *)
Definition follows (st : state) (d : str) (key : N) (seq : Z) (prev : option cid) : Prop :=
  match prev with None => True | Some p => exists m, (m < seq)%Z /\ linked st d key p m end.
Lemma good_written seq st bs d key rev prev root cblock : K seq st -> Forall wf bs -> In cblock bs -> is_did d -> int_to_tid seq 0 = Ok rev ->
  b_val cblock = norm (commit_value ecdsa key seq d rev prev root) -> follows st d key seq prev ->
  good (seq + 1) (fst (write_blocks bs st)) d key cblock.
Proof.
  intros HK W IB ID T V FO.
  assert (G : grows st (fst (write_blocks bs st))) by (intros c x H; rewrite read_write_blocks, H; reflexivity).
  assert (R : exists b, read (fst (write_blocks bs st)) (b_cid cblock) = Some b /\ b_val b = b_val cblock).
  { rewrite read_write_blocks. pose proof (proj1 (Forall_forall _ _) W cblock IB) as WC. destruct (read st (b_cid cblock)) as [b|] eqn:E.
    - exists b. split; [reflexivity|]. destruct (k_blocks _ _ HK _ _ E) as [X WB]. apply (wf_val digest inj); auto.
    - destruct (dget_blocks_in bs cblock IB) as [b E']. exists b. split; [exact E'|].
      destruct (dget_blocks digest inj bs (b_cid cblock) b W E') as [X WB]. apply (wf_val digest inj); auto. }
  split; [exact ID|]. split; [rewrite V; apply commit_did_val|]. split; [exact R|]. exists seq. split; [lia|]. destruct R as (b & R & VB).
  rewrite V in VB. destruct prev as [p|].
  - destruct FO as (m & LT & L). eapply ln_next; [exact R|exact T|exact VB| |exact LT]. eapply linked_grows; eauto.
  - eapply ln_first; [exact R|apply HK|exact T|exact VB].
Qed.
Lemma good_stored B st d key h : K B st -> good B st d key h -> exists b, read st (b_cid h) = Some b /\ good B st d key b.
Proof.
  intros HK (ID & T & (b & R & V) & L). exists b. split; [exact R|]. destruct (k_blocks _ _ HK _ _ R) as [X _].
  split; [exact ID|]. rewrite V. split; [exact T|]. rewrite X. split; [exists b; auto|exact L].
Qed.
Lemma in_mem_did B st d k r o : K B st -> nth_error (s_objs st) r = Some o -> repo_did o = Ok (Some d) -> In (k, r) (s_mem st) -> k = d.
Proof.
  intros HK E D J. destruct (k_mem _ _ HK k r J) as (o' & h & E' & H & G). rewrite E in E'. injection E' as <-.
  rewrite (good_did _ _ _ _ _ _ G H) in D. congruence.
Qed.
Lemma nodup_keys {V} (l : list (str * V)) k a b : NoDup (keys l) -> In (k, a) l -> In (k, b) l -> a = b.
Proof.
  induction l as [|[k' v] l IH]; [intros _ []|]. cbn [keys map fst]. intros N. inversion N as [|? ? A Y]; subst.
  intros [HA|HA] [HB|HB]; [congruence|..].
  - injection HA as -> ->. exfalso. apply A. apply in_map_iff. exists (k, b). auto.
  - injection HB as -> ->. exfalso. apply A. apply in_map_iff. exists (k, a). auto.
  - apply IH; auto.
Qed.

(** Giving an object a new head. *)
Lemma spec_head B r d key c (P : state -> Prop) : (forall st, P st -> good B st d key c) ->
  (forall st o, K B st -> P st -> nth_error (s_objs st) r = Some o -> r_head o = None \/ repo_did o = Ok (Some d) /\ (In (d, r) (s_mem st) -> r_key o = key)) ->
  spec B B P (set_attr r (with_head (Some c))) (fun _ st => exists st0 o, P st0 /\ nth_error (s_objs st0) r = Some o /\
    st = set_objs (replace_nth r (with_head (Some c) o) (s_objs st0)) st0).
Proof.
  intros G H st HK HP. unfold set_attr, bindM, obj. destruct (nth_error (s_objs st) r) as [o|] eqn:E.
  2: { cbn. split; [exact HK|]. split; [lia|exact I]. }
  unfold put_obj, modify. cbn [fst snd]. split; [|split; [cbn; lia|eauto 6]].
  apply (K_put B st r o _ HK E).
  - apply (k_objs _ _ HK r o E).
  - intros h X. cbn in X. injection X as <-. exists d, key. auto.
  - intros k J. exists c. split; [reflexivity|]. cbn [with_head r_key]. destruct (H st o HK HP E) as [X|[X Y]].
    + destruct (k_mem _ _ HK k r J) as (o' & h & E' & X' & _). congruence.
    + pose proof (in_mem_did _ _ _ _ _ _ HK E X J). subst k. rewrite (Y J). auto.
Qed.

Definition done (B : Z) (d : str) (r0 r : nat) (key : N) (c : block) (st : state) : Prop :=
  good B st d key c /\ of_did d r0 st /\ exists o, nth_error (s_objs st) r = Some o /\ r_head o = Some c /\ r_key o = key /\
    match be with Memory => In (d, r) (s_mem st) | Datastore => option_map e_key (dget d (s_ents st)) = Some key end.
Lemma done_rel B d r0 r key c a b : rel a b -> done B d r0 r key c a -> done B d r0 r key c b.
Proof.
  intros R (G & O & o & E & H & KE & X). split; [eapply good_mono; [apply Z.le_refl|apply R|exact G]|]. split; [eapply of_did_rel; eauto|].
  destruct (e_objs _ _ R r o E) as (o' & E' & H' & K'). exists o'. split; [exact E'|]. split; [congruence|]. split; [congruence|].
  destruct be; [rewrite (e_mem _ _ R); exact X|rewrite (e_ents _ _ R); exact X].
Qed.
Lemma In_dset_same {V} k (v : V) : forall l, In (k, v) (dset k v l).
Proof.
  induction l as [|[k' v'] l IH]; cbn [dset]; [left; reflexivity|]. destruct (str_eqb_spec k k') as [->|]; [left; reflexivity|right; exact IH].
Qed.
Lemma spec_store_repo B d r0 r key c : spec B B (done B d r0 r key c) (store_repo be r) (fun _ => done B d r0 r key c).
Proof.
  intros st HK (G & O & o & E & H & KE & X). unfold store_repo, bindM, obj. rewrite E. unfold need_did, bindM, lift.
  rewrite (good_did _ _ _ _ _ o G H). unfold ret. unfold done. destruct be eqn:EB.
  - unfold modify. cbn [fst snd]. split; [apply (K_mem B st d r o c); auto; rewrite KE; exact G|]. split; [cbn; lia|].
    split; [eapply good_same; [|exact G]; reflexivity|]. split; [exact O|]. exists o. cbn [set_mem s_objs s_mem].
    split; [exact E|]. split; [exact H|]. split; [exact KE|]. apply In_dset_same.
  - unfold reads. destruct (dget d (s_ents st)) as [e|] eqn:D; [|discriminate]. cbn [option_map] in X. injection X as X.
    rewrite H. unfold modify. cbn [fst snd]. split; [|split; [cbn; lia|]].
    + apply K_ent; cbn [e_handle e_head e_key]; [exact HK|apply (k_objs _ _ HK r o E)|]. rewrite X. apply good_stored; auto.
    + split; [eapply good_same; [|exact G]; reflexivity|]. split; [exact O|]. exists o. cbn [set_ents s_objs s_ents].
      split; [exact E|]. split; [exact H|]. split; [exact KE|]. rewrite ent_dget_put, str_eqb_refl. cbn. congruence.
Qed.

Definition headed (B : Z) (d : str) (r : nat) (st : state) : Prop :=
  exists o h, nth_error (s_objs st) r = Some o /\ r_head o = Some h /\ good B st d (r_key o) h.
Lemma headed_rel B d r a b : rel a b -> headed B d r a -> headed B d r b.
Proof.
  intros R (o & h & E & H & G). destruct (e_objs _ _ R r o E) as (o' & E' & H' & K'). exists o', h. split; [exact E'|].
  split; [congruence|]. rewrite K'. eapply good_mono; [apply Z.le_refl|apply R|exact G].
Qed.

Lemma unstored_ok (P : state -> Prop) B m : spec B B P (fun st => (st, get_unstored_blocks digest kdigest (rd st) max_depth m))
  (fun ru st => P st /\ wf_nodes digest (snd ru)).
Proof.
  apply spec_pure; [exact (pure_rd (fun rd => get_unstored_blocks digest kdigest rd max_depth m))|].
  intros st [p l] _ C H. split; [exact C|]. cbn [snd]. eapply (unstored_wf digest kdigest (rd st) max_depth m p l).
  assert (X : snd (st, get_unstored_blocks digest kdigest (rd st) max_depth m) = snd (st, Ok (p, l))) by (rewrite H; reflexivity).
  exact X.
Qed.

Section Finish.
Variables (seq : Z) (r0 r : nat) (d : str) (prev : option cid) (bo : list (cid * block) * list commit_op) (P : state -> Prop).
Hypothesis WA : wf_acc digest bo.
Hypothesis ID : is_did d.
Hypothesis PR : forall a b, rel a b -> P a -> P b.
Hypothesis PF : forall st o, K seq st -> P st -> nth_error (s_objs st) r = Some o -> follows st d (r_key o) seq prev.

(** Until the blocks are stored. *)
Lemma spec_finish Q :
  (forall o ru rev, let cblock := mk_block digest (commit_value ecdsa (r_key o) seq d rev prev (fst ru)) (Some d) seq (Some (snd bo)) in
    let blocks := dset (b_cid cblock) cblock (add_nodes d seq (snd ru) (fst bo)) in
    spec (seq + 1) (seq + 1) (fun st => good (seq + 1) st d (r_key o) cblock /\ P st /\
        exists o1, nth_error (s_objs st) r = Some o1 /\ r_key o1 = r_key o /\ r_head o1 = r_head o)
      ((if is_some (r_head o) then set_attr r (with_head (Some cblock));; store_repo be r else ret tt);;
       set_attr r0 (with_mst (r_mst o));;
       set_attr r0 (with_head (Some cblock));;
       ret (CommitData cblock blocks prev)) Q) ->
  spec seq (seq + 1) P (commit_finish digest kdigest ecdsa be r0 r d prev seq bo) Q.
Proof.
  intros REST. unfold commit_finish. apply spec_obj; [lia|]. intros o. eapply (spec_bind seq seq); [lia|apply unstored_ok|].
  intros ru. eapply (spec_bind seq seq _ _ _ _ (fun rev st => ((P st /\ nth_error (s_objs st) r = Some o) /\ wf_nodes digest (snd ru)) /\ int_to_tid seq 0 = Ok rev)); [lia| |].
  { apply spec_pure; [apply pure_lift|]. intros st rev _ HP H. unfold lift in H. split; [exact HP|]. congruence. }
  intros rev. cbv zeta. specialize (REST o ru rev). cbv zeta in REST.
  set (cblock := mk_block digest _ _ _ _) in *. set (blocks := dset (b_cid cblock) cblock _) in *.
  apply (spec_pre _ _ _ (wf_nodes digest (snd ru) /\ int_to_tid seq 0 = Ok rev)); [tauto|]. intros [WN T].
  assert (WB : Forall wf (map snd blocks)).
  { apply Forall_forall. intros b J. apply in_map_iff in J as ([c x] & <- & J). cbn [snd]. unfold blocks in J.
    apply In_dset in J as [J|J]; [injection J as -> ->; apply mk_block_wf|]. eapply wf_add_nodes; [exact WN| |exact J]. exact WA. }
  assert (IB : In cblock (map snd blocks)).
  { apply in_map_iff. exists (b_cid cblock, cblock). split; [reflexivity|]. apply In_dget1. unfold blocks. rewrite dget_dset, str_eqb_refl. reflexivity. }
  eapply (spec_bind seq (seq + 1) _ _ _ _ (fun _ st => good (seq + 1) st d (r_key o) cblock /\ P st /\
        exists o1, nth_error (s_objs st) r = Some o1 /\ r_key o1 = r_key o /\ r_head o1 = r_head o)); [lia| |intros []; exact REST].
  intros st HK [[[HP E] _] _]. destruct (quiet_write_blocks _ WB seq st HK) as (K1 & R1 & _).
  split; [eapply K_more; [|exact K1]; lia|]. split; [apply R1|]. destruct (snd (write_blocks (map snd blocks) st)); [|exact I].
  split; [eapply good_written; eauto; reflexivity|]. split; [eapply PR; eauto|].
  destruct (e_objs _ _ R1 r o E) as (o1 & E1 & H1 & K1'). eauto.
Qed.
End Finish.

Lemma spec_finish_target seq r0 r d prev bo : wf_acc digest bo ->
  spec seq (seq + 1) (target seq r0 (d, r, prev)) (commit_finish digest kdigest ecdsa be r0 r d prev seq bo) (fun _ _ => True).
Proof.
  intros WA. apply (spec_pre _ _ _ (is_did d)); [intros st _ (X & _); exact X|]. intros ID.
  apply spec_finish; auto.
  - intros a b R. apply target_rel. exact R.
  - intros st o HK (_ & _ & W & o' & h & E & H & PE) E'. cbn [fst snd] in *. rewrite E in E'. injection E' as <-.
    destruct (owns_head _ _ _ _ _ W E) as (h' & H' & G). assert (h' = h) by congruence. subst h'. subst prev.
    destruct G as (_ & _ & _ & n & LT & L). exists n. auto.
  - intros o ru rev. cbv zeta. set (cblock := mk_block digest _ _ _ _). set (blocks := dset (b_cid cblock) cblock _).
    apply (spec_pre _ _ _ (is_some (r_head o) = true)).
    { intros st _ (_ & (_ & _ & _ & o' & h & E & H & _) & o1 & E1 & _ & H1). cbn [fst snd] in *. rewrite <- H1.
      assert (o' = o1) by congruence. subst o'. rewrite H. reflexivity. }
    intros ->. eapply (spec_bind (seq + 1) (seq + 1) _ _ _ _ (fun _ => done (seq + 1) d r0 r (r_key o) cblock)); [lia| |].
    + eapply (spec_bind (seq + 1) (seq + 1) _ _ _ _ (fun _ => done (seq + 1) d r0 r (r_key o) cblock)); [lia| |intros []; apply spec_store_repo].
      eapply spec_weaken; [apply (spec_head (seq + 1) r d (r_key o) cblock (fun st => good (seq + 1) st d (r_key o) cblock /\ target seq r0 (d, r, prev) st /\
          exists o1, nth_error (s_objs st) r = Some o1 /\ r_key o1 = r_key o /\ r_head o1 = r_head o))|intros st _ X; exact X|].
      * tauto.
      * intros st o' HK (_ & (_ & _ & W & _) & o1 & E1 & K1 & _) E. cbn [fst snd] in *. right.
        destruct (owns_head _ _ _ _ _ W E) as (h & H & G). split; [eapply good_did; eauto|]. intros _. congruence.
      * intros _ st _ (st0 & o' & (G & (_ & O & W & _) & o1 & E1 & K1 & _) & E & ->). cbn [fst snd] in *.
        assert (o1 = o') by congruence. subst o1. assert (NE : nth_error (s_objs st0) r <> None) by congruence.
        split; [eapply good_same; [|exact G]; reflexivity|]. split.
        -- destruct O as (oo & EO & DO). unfold of_did. cbn [set_objs s_objs]. rewrite nth_put by exact NE.
           destruct (Nat.eqb r r0) eqn:Q; [|eauto]. eexists. split; [reflexivity|]. eapply good_did; [exact G|]. reflexivity.
        -- exists (with_head (Some cblock) o'). cbn [set_objs s_objs s_mem s_ents]. rewrite nth_put, PeanoNat.Nat.eqb_refl by exact NE.
           split; [reflexivity|]. split; [reflexivity|]. split; [exact K1|]. destruct W as (o2 & h2 & E2 & _ & _ & X).
           assert (o2 = o') by congruence. subst o2. destruct be; [exact X|]. rewrite <- K1. exact X.
    + intros []. eapply (spec_bind (seq + 1) (seq + 1)); [lia|apply (spec_quiet _ _ _ (fun _ => True)); [apply quiet_set_attr; reflexivity|intros a b; apply done_rel]|].
      intros []. eapply (spec_bind (seq + 1) (seq + 1) _ _ _ _ (fun _ _ => True)); [lia| |intros []; apply spec_ret; auto].
      eapply spec_weaken; [apply (spec_head (seq + 1) r0 d (r_key o) cblock (done (seq + 1) d r0 r (r_key o) cblock))|tauto|intros; exact I].
      * intros st X. apply X.
      * intros st o' HK (G & (oo & EO & DO) & o1 & E1 & H1 & K1 & X) E. right. assert (oo = o') by congruence. subst oo.
        split; [exact DO|]. intros J. destruct be eqn:EB.
        -- pose proof (nodup_keys _ _ _ _ (k_nodup _ _ HK) J X). subst r0. congruence.
        -- rewrite (k_none _ _ HK EB) in J. destruct J.
Qed.
Lemma spec_finish_first seq r0 d bo : wf_acc digest bo -> is_did d ->
  spec seq (seq + 1) (fun st => exists o, nth_error (s_objs st) r0 = Some o /\ r_head o = None)
    (commit_finish digest kdigest ecdsa be r0 r0 d None seq bo) (fun _ => headed (seq + 1) d r0).
Proof.
  intros WA ID. apply spec_finish; auto.
  - intros a b R (o & E & H). destruct (e_objs _ _ R r0 o E) as (o' & E' & H' & _). exists o'. split; [exact E'|congruence].
  - intros st o _ _ _. exact I.
  - intros o ru rev. cbv zeta. set (cblock := mk_block digest _ _ _ _). set (blocks := dset (b_cid cblock) cblock _).
    apply (spec_pre _ _ _ (r_head o = None)).
    { intros st _ (_ & (o' & E' & H') & o1 & E1 & _ & H1). congruence. }
    intros EH. rewrite EH. cbn [is_some]. apply spec_skip; [lia|apply pure_ret|]. intros [].
    eapply (spec_bind (seq + 1) (seq + 1)); [lia| |].
    { eapply spec_weaken; [apply (spec_quiet (seq + 1) (fun st => good (seq + 1) st d (r_key o) cblock /\ exists o1, nth_error (s_objs st) r0 = Some o1 /\ r_key o1 = r_key o /\ r_head o1 = None) _ (fun _ => True))| |intros a st _ X; exact X].
      3: { intros st _ (G & _ & X). split; [exact G|exact X]. }
      - apply quiet_set_attr; reflexivity.
      - intros a b R (G & o1 & E1 & K1 & H1). split; [eapply good_mono; [apply Z.le_refl|apply R|exact G]|].
        destruct (e_objs _ _ R r0 o1 E1) as (o2 & E2 & H2 & K2). exists o2. split; [exact E2|]. split; congruence. }
    intros []. eapply (spec_bind (seq + 1) (seq + 1)); [lia| |].
    + eapply spec_weaken; [apply (spec_head (seq + 1) r0 d (r_key o) cblock (fun st => good (seq + 1) st d (r_key o) cblock /\ exists o1, nth_error (s_objs st) r0 = Some o1 /\ r_key o1 = r_key o /\ r_head o1 = None))|tauto|intros a st _ X; exact X].
      * tauto.
      * intros st o' _ (_ & o1 & E1 & _ & H1) E. left. congruence.
    + intros []. apply spec_ret. intros st _ (st0 & o' & (G & o1 & E1 & K1 & _) & E & ->). assert (o1 = o') by congruence. subst o1.
      exists (with_head (Some cblock) o'), cblock. cbn [set_objs s_objs]. rewrite nth_put, PeanoNat.Nat.eqb_refl by congruence.
      split; [reflexivity|]. split; [reflexivity|]. cbn [with_head r_key]. rewrite K1. eapply good_same; [|exact G]. reflexivity.
Qed.

Lemma spec_commit_ seq r0 ws : spec seq (seq + 1) (fun _ => True) (commit_ digest kdigest validate ecdsa be r0 ws seq None) (fun _ _ => True).
Proof.
  unfold commit_. apply spec_skip; [lia|apply pure_assert|]. intros []. eapply (spec_bind seq seq); [lia|apply spec_target|].
  intros [[d r] prev]. apply spec_skip; [lia|destruct (_ <? _)%N; [apply pure_throw|apply pure_ret]|]. intros [].
  eapply (spec_bind seq seq); [lia|apply spec_quiet; [apply quiet_fold; intros c b []|intros a b; apply target_rel]|].
  intros bo. apply (spec_pre _ _ _ (acc_ok seq bo)); [tauto|]. intros W.
  eapply spec_weaken; [apply spec_finish_target; eapply acc_wf, W|tauto|auto].
Qed.
Definition blank (r : nat) (st : state) : Prop := exists o, nth_error (s_objs st) r = Some o /\ r_head o = None.
Lemma blank_rel r a b : rel a b -> blank r a -> blank r b.
Proof. intros R (o & E & H). destruct (e_objs _ _ R r o E) as (o' & E' & H' & _). exists o'. split; [exact E'|congruence]. Qed.
Lemma spec_commit_first seq r0 d : is_did d ->
  spec seq (seq + 1) (blank r0) (commit_ digest kdigest validate ecdsa be r0 [] seq (Some d)) (fun _ => headed (seq + 1) d r0).
Proof.
  intros ID. unfold commit_. apply spec_skip; [lia|apply pure_assert|]. intros [].
  eapply (spec_bind seq seq _ _ _ _ (fun drp st => blank r0 st /\ drp = (d, r0, None))); [lia| |].
  - unfold commit_target. apply spec_obj; [lia|]. intros o0. apply spec_skip; [lia|destruct (is_some _); [apply pure_throw|apply pure_ret]|].
    intros []. destruct d as [|x d]; [discriminate ID|].
    apply (spec_pre _ _ _ (r_head o0 = None)); [intros st _ [(o & E & H) E']; congruence|]. intros ->.
    apply spec_skip; [lia|apply pure_ret|]. intros []. apply spec_ret. tauto.
  - intros [[d' r] prev]. apply (spec_pre _ _ _ ((d', r, prev) = (d, r0, None))); [tauto|]. intros X. injection X as -> -> ->.
    apply spec_skip; [lia|destruct (_ <? _)%N; [apply pure_throw|apply pure_ret]|]. intros []. cbn [foldM].
    eapply (spec_bind seq seq _ _ _ _ (fun bo st => blank r0 st /\ bo = ([], []))); [lia|apply spec_ret; tauto|].
    intros bo. apply (spec_pre _ _ _ (bo = ([], []))); [tauto|]. intros ->.
    eapply spec_weaken; [apply spec_finish_first; [intros c b []|exact ID]|intros st _ [X _]; exact X|auto].
Qed.

(** Whole steps. *)
Definition step {A} (P : state -> Prop) (m : M A) (Q : A -> state -> Prop) : Prop := forall st, K (s_next st) st -> P st ->
  K (s_next (fst (m st))) (fst (m st)) /\ match snd (m st) with Ok a => Q a (fst (m st)) | Err _ => True end.
Lemma step_bind {A B} P (m : M A) (f : A -> M B) Q R : step P m Q -> (forall a, step (Q a) (f a) R) -> step P (bindM m f) R.
Proof.
  intros H F st HK HP. destruct (H st HK HP) as (K1 & Q1). unfold bindM. destruct (m st) as [st1 [a|e]]; cbn [fst snd] in *; [|auto].
  apply (F a st1 K1 Q1).
Qed.
Lemma step_quiet {A} (P : state -> Prop) (m : M A) R : quiet m R -> (forall a b, rel a b -> P a -> P b) -> step P m (fun _ => P).
Proof.
  intros H S st HK HP. destruct (H _ st HK) as (K1 & R1 & _). split; [eapply K_more; [apply R1|exact K1]|].
  destruct (snd (m st)); [eapply S; eauto|exact I].
Qed.
Lemma step_skip {A B} (P : state -> Prop) (m : M A) (f : A -> M B) R : pure m -> (forall a, step P (f a) R) -> step P (bindM m f) R.
Proof.
  intros HP H. apply (step_bind P m f (fun _ => P)); [|exact H]. intros st HK X. pose proof (HP st) as E. destruct (m st) as [st1 [a|e]]; cbn [fst snd] in *; subst st1; auto.
Qed.
Lemma step_ret {A} (P : state -> Prop) (a : A) (Q : A -> state -> Prop) : (forall st, P st -> Q a st) -> step P (ret a) Q.
Proof. intros H st HK HP. cbn. auto. Qed.
Definition begun (d : str) (r : nat) (st : state) : Prop := headed (s_next st) d r st.
Lemma headed_more B B' d r st : (B <= B')%Z -> headed B d r st -> headed B' d r st.
Proof. intros LE (o & h & E & H & G). exists o, h. split; [exact E|]. split; [exact H|]. eapply good_mono; [exact LE| |exact G]. intros c x X. exact X. Qed.
Lemma begun_rel d r a b : rel a b -> begun d r a -> begun d r b.
Proof. intros R H. eapply headed_more; [apply R|]. eapply headed_rel; eauto. Qed.

Lemma step_commit (P : state -> Prop) (Q : Z -> state -> Prop) r ws first : (forall a b, rel a b -> P a -> P b) ->
  (forall B a b, rel a b -> Q B a -> Q B b) -> (forall B B' st, (B <= B')%Z -> Q B st -> Q B' st) ->
  (forall seq, spec seq (seq + 1) P (commit_ digest kdigest validate ecdsa be r ws seq first) (fun _ => Q (seq + 1)%Z)) ->
  step P (commit digest kdigest validate ecdsa cb be r ws first) (fun _ st => Q (s_next st) st).
Proof.
  intros PR QR QM H st HK HP. set (n := s_next st). set (st1 := set_next (n + 1) st).
  set (body := bindM (commit_ digest kdigest validate ecdsa be r ws n first) (fun cd => callback cb r (CData (MCommit cd));; ret cd)).
  change (commit digest kdigest validate ecdsa cb be r ws first st) with (on_exception body (callback cb r (CLost n)) st1).
  destruct (quiet_allocate n st HK) as (K1 & R1 & _). change (fst (allocate_seq st)) with st1 in K1, R1.
  assert (SB : spec n (n + 1) P body (fun _ => Q (n + 1)%Z)).
  { unfold body. eapply (spec_bind n (n + 1)); [lia|apply H|]. intros cd.
    eapply (spec_bind (n + 1) (n + 1)); [lia|apply (spec_quiet _ _ _ (fun _ => True)); [apply quiet_callback|intros a b; apply QR]|].
    intros []. apply spec_ret. tauto. }
  destruct (SB st1 K1 (PR _ _ R1 HP)) as (K2 & N2 & Q2). change (s_next st1) with (n + 1)%Z in N2. clear SB. unfold on_exception.
  destruct (body st1) as [st2 [cd|e]]; cbn [fst snd] in *.
  - split; [eapply K_more; [|exact K2]; lia|]. eapply QM; [|exact Q2]. lia.
  - destruct (quiet_callback r (CLost n) _ st2 K2) as (K4 & R4 & _). pose proof (e_seq _ _ R4) as N4.
    destruct (callback cb r (CLost n) st2) as [st4 [[]|e4]]; cbn [fst snd] in *; (split; [eapply K_more; [|exact K4]; lia|exact I]).
Qed.

Lemma step_create_repo d r : step (begun d r) (create_repo be r) (fun _ => begun d r).
Proof.
  intros st HK (o & h & E & H & G). unfold create_repo, bindM, obj. rewrite E. unfold need_did, bindM, lift.
  rewrite (good_did _ _ _ _ _ o G H). unfold ret. unfold begun, headed. destruct be eqn:EB.
  - unfold modify. cbn [fst snd]. split; [apply (K_mem _ st d r o h); auto|]. exists o, h.
    split; [exact E|]. split; [exact H|]. eapply good_same; [|exact G]. reflexivity.
  - rewrite H. unfold modify. cbn [fst snd]. split.
    + apply K_ent; cbn [e_handle e_head e_key]; [exact HK|apply (k_objs _ _ HK r o E)|]. apply good_stored; auto.
    + exists o, h. split; [exact E|]. split; [exact H|]. eapply good_same; [|exact G]. reflexivity.
Qed.
Lemma step_create d handle status x key : is_did d -> handle_ok handle ->
  step (fun _ => True) (repo_create digest kdigest validate ecdsa now cb be d handle status x key) (fun _ _ => True).
Proof.
  intros ID HH. unfold repo_create. apply step_skip; [apply pure_lift|]. intros m. set (o := Repo m None handle status x key).
  apply (step_bind _ _ _ blank).
  { intros st HK _. unfold new_obj. cbn [fst snd]. destruct (K_new (s_next st) st o HK HH) as [K1 _]; [discriminate|].
    split; [exact K1|]. exists o. split; [|reflexivity]. cbn [set_objs s_objs]. rewrite nth_error_app2, PeanoNat.Nat.sub_diag by apply le_n. reflexivity. }
  intros r. apply (step_bind _ _ _ (fun _ => begun d r)).
  { apply (step_commit (blank r) (fun B => headed B d r)).
    - intros a b. apply blank_rel.
    - intros B a b. apply headed_rel.
    - intros B B' st. apply headed_more.
    - intros seq. apply spec_commit_first. exact ID. }
  intros cd. apply step_skip; [apply pure_obj|]. intros o1. apply step_skip; [apply pure_need_did|]. intros _d.
  eapply step_bind; [eapply step_quiet; [apply quiet_write_event|intros a b; apply begun_rel]|]. intros b1.
  eapply step_bind; [eapply step_quiet; [apply quiet_write_event|intros a b; apply begun_rel]|]. intros b2. cbv zeta.
  apply step_skip; [apply pure_lift|]. intros rev.
  eapply step_bind; [eapply step_quiet; [apply quiet_write_event|intros a b; apply begun_rel]|]. intros b3.
  eapply step_bind; [apply step_create_repo|]. intros [].
  eapply step_bind; [eapply step_quiet; [apply quiet_callback|intros a b; apply begun_rel]|]. intros []. apply step_ret. auto.
Qed.

Lemma load_blocks x st : s_blocks (fst (load_repo be x st)) = s_blocks st.
Proof.
  rewrite load_repo_eq. destruct (nonempty x); [|reflexivity]. destruct be; [rewrite pure_mem_find; reflexivity|].
  destruct (ent_find x (s_ents st)) as [[k e]|]; [|reflexivity]. unfold repo_load, bindM, reads, lift.
  destruct (read st (e_head e)) as [b|]; [|reflexivity]. destruct (item_link (s "data") (b_val b)); reflexivity.
Qed.

(** Histories. *)
Definition KW (w : world) : Prop := K (s_next (w_state w)) (w_state w).
Lemma KW_new w m Q : KW w -> step (fun _ => True) m Q -> KW (fst (on_new w m)).
Proof.
  intros HK S. destruct (S (w_state w) HK I) as [K1 _]. unfold on_new.
  destruct (m (w_state w)) as [st [[r|]|e]]; cbn [fst snd] in *; exact K1.
Qed.
Lemma KW_ref w h f (Q : sout -> state -> Prop) : KW w -> (forall r, step (fun _ => True) (f r) Q) -> KW (fst (on_ref w h f)).
Proof.
  intros HK S. unfold on_ref. destruct (nth_error (w_refs w) h) as [r|]; [|exact HK].
  destruct (S r (w_state w) HK I) as [K1 _]. destruct (f r (w_state w)) as [st o1]. exact K1.
Qed.
Lemma step_status r x type extra : step (fun _ => True) (set_repo_status be r x;; write_event digest now cb be r type extra;; ret tt) (fun _ _ => True).
Proof.
  eapply step_bind; [eapply step_quiet; [apply quiet_set_repo_status|auto]|]. intros [].
  eapply step_bind; [eapply step_quiet; [apply quiet_write_event|auto]|]. intros b. apply step_ret. auto.
Qed.
Lemma KW_step w op : KW w -> op_named op -> KW (fst (sstep digest kdigest validate ecdsa now cb be w op)).
Proof.
  intros HW ON. destruct op as [d handle status x key|x|h key|h x|h ws|h|h|h]; cbn [sstep op_named] in *.
  - destruct ON as [ID HH]. eapply (KW_new _ _ (fun _ _ => True)); [exact HW|]. eapply step_bind; [apply step_create; auto|]. intros r. apply step_ret. auto.
  - eapply (KW_new _ _ (fun _ _ => True)); [exact HW|]. intros st HK _. destruct (K_load_repo x _ st HK) as (K1 & R1 & _).
    split; [eapply K_more; [apply R1|exact K1]|]. destruct (snd _); exact I.
  - destruct (nth_error (w_refs w) h) as [r|]; [|exact HW].
    eapply (KW_new _ _ (fun _ _ => True)); [exact HW|]. intros st HK _. unfold bindM at 1 3 5, obj.
    destruct (nth_error (s_objs st) r) as [o|] eqn:E; [|cbn; auto]. destruct (r_head o) as [b|] eqn:H; [|cbn; auto].
    destruct (k_objs _ _ HK r o E) as [_ X]. destruct (X b H) as (d & k & G). destruct (good_stored _ _ _ _ _ HK G) as (b' & R & G').
    destruct (K_load _ st (b_cid b) b' None None key d HK R I (ex_intro (fun k1 => good _ st d k1 b') k G')) as (K1 & R1 & _).
    unfold bindM. destruct (repo_load (b_cid b) None None key st) as [st1 [r1|e1]]; cbn [fst snd ret] in *;
      (split; [eapply K_more; [apply R1|exact K1]|exact I]).
  - eapply (KW_ref _ _ _ (fun _ _ => True)); [exact HW|]. intros r. eapply step_bind; [eapply step_quiet; [apply quiet_set_attr; reflexivity|auto]|]. intros []. apply step_ret. auto.
  - eapply (KW_ref _ _ _ (fun _ _ => True)); [exact HW|]. intros r. eapply step_bind.
    + apply (step_commit (fun _ => True) (fun _ _ => True)); auto. intros seq. apply spec_commit_.
    + intros cd. apply step_ret. auto.
  - eapply (KW_ref _ _ _ (fun _ _ => True)); [exact HW|]. intros r. eapply step_bind; [apply step_status|]. intros []. apply step_ret. auto.
  - eapply (KW_ref _ _ _ (fun _ _ => True)); [exact HW|]. intros r. eapply step_bind; [apply step_status|]. intros []. apply step_ret. auto.
  - eapply (KW_ref _ _ _ (fun _ _ => True)); [exact HW|]. intros r. eapply step_bind; [apply step_status|]. intros []. apply step_ret. auto.
Qed.
Lemma KW_init : KW init_world.
Proof.
  split; try (intros; contradiction); try (cbn; lia).
  - intros [|r] o H; discriminate H.
  - reflexivity.
  - constructor.
  - intros c b H. discriminate H.
Qed.
Lemma KW_run ops : forall w w' outs, KW w -> Forall op_named ops -> srun digest kdigest validate ecdsa now cb be w ops = (w', outs) -> KW w'.
Proof.
  induction ops as [|op ops IH]; intros w w' outs HW ON E; cbn [StorageModel.srun] in E.
  - injection E as <- _. exact HW.
  - inversion ON; subst. pose proof (KW_step w op HW) as HS. destruct (sstep digest kdigest validate ecdsa now cb be w op) as [w1 o1]. cbn [fst] in HS.
    destruct (srun digest kdigest validate ecdsa now cb be w1 ops) as [w2 os] eqn:E2. injection E as <- _. eapply IH; [apply HS; assumption| |exact E2]. assumption.
Qed.

Lemma c22_any ops w outs d o : srun digest kdigest validate ecdsa now cb be init_world ops = (w, outs) -> Forall op_named ops -> is_did d ->
  seen be (w_state w) d = Some o -> exists h rev, r_head o = Some h /\ signed_chain ecdsa (w_state w) d (r_key o) (b_cid h) rev.
Proof.
  intros E ON ID SE. pose proof (KW_run ops _ _ _ KW_init ON E) as HK. destruct (K_load_repo d _ _ HK) as (K1 & R1 & V).
  unfold seen in SE. destruct (load_repo be d (w_state w)) as [st1 [[r|]|e]] eqn:L; try discriminate SE. cbn [fst snd] in *.
  destruct (V ID r eq_refl) as (o' & h & E' & H & G & _). assert (o' = o) by congruence. subst o'.
  assert (SB : s_blocks (w_state w) = s_blocks st1).
  { pose proof (load_blocks d (w_state w)) as X. rewrite L in X. symmetry. exact X. }
  apply (good_same _ _ (w_state w)) in G; [|exact SB]. destruct G as (_ & _ & _ & n & _ & LK). destruct (linked_chain _ _ _ _ _ LK) as (rev & _ & C). eauto.
Qed.
Lemma c22_held ops w outs h o b : srun digest kdigest validate ecdsa now cb be init_world ops = (w, outs) -> Forall op_named ops ->
  handle_obj w h = Some o -> r_head o = Some b -> exists d key rev, repo_did o = Ok (Some d) /\ signed_chain ecdsa (w_state w) d key (b_cid b) rev.
Proof.
  intros E ON HO H. pose proof (KW_run ops _ _ _ KW_init ON E) as HK. unfold handle_obj in HO.
  destruct (nth_error (w_refs w) h) as [r|]; [|discriminate]. destruct (k_objs _ _ HK r o HO) as [_ X]. destruct (X b H) as (d & key & G).
  pose proof (good_did _ _ _ _ _ o G H) as D. destruct G as (_ & _ & _ & n & _ & LK). destruct (linked_chain _ _ _ _ _ LK) as (rev & _ & C). eauto 6.
Qed.
End Chain.
