(** Proofs for C58: operations on a repo leave the others alone, in every history. *)
From Coq Require Import String List NArith ZArith Bool Lia.
From Verif Require Import Base Lists Ipld IpldProofs MstModel MstClient BlockModel CarModel StorageModel RepoSpec IsolateSpec CallbackProofs.
Import ListNotations.
Local Open Scope m_scope.

Definition grows (a b : state) : Prop := forall c x, read a c = Some x -> read b c = Some x.

Lemma dget_ent_put k e x : x <> k -> forall l, dget x (ent_put k e l) = dget x l.
Proof.
  intros NE. induction l as [|[k' e'] l IH]; cbn [ent_put dget].
  - destruct (str_eqb_spec x k); congruence.
  - destruct (str_cmp k k') eqn:C; cbn [dget].
    + apply str_cmp_eq in C. subst k'. destruct (str_eqb_spec x k); congruence.
    + destruct (str_eqb_spec x k); congruence.
    + rewrite IH. reflexivity.
Qed.
Lemma In_ent_put k e x : forall l, In x (ent_put k e l) -> x = (k, e) \/ In x l.
Proof.
  induction l as [|[k' e'] l IH]; cbn [ent_put].
  - intros [<-|[]]; auto.
  - destruct (str_cmp k k'); cbn [In]; intros [<-|H]; auto. destruct (IH H); auto.
Qed.
Lemma In_dset {V} k (v : V) x : forall l, In x (dset k v l) -> x = (k, v) \/ In x l.
Proof.
  induction l as [|[k' v'] l IH]; cbn [dset].
  - intros [<-|[]]; auto.
  - destruct (str_eqb_spec k k') as [->|]; cbn [In]; intros [<-|H]; auto. destruct (IH H); auto.
Qed.
Lemma In_dget1 {V} k (v : V) l : dget k l = Some v -> In (k, v) l.
Proof. apply dget_In. Qed.

Section I.
Variable digest : list N -> list N.
Variable kdigest : str -> list N.
Variable validate : ipld -> res unit.
Variable ecdsa : N -> Z -> list N -> list N.
Variable now : Z -> str.
Variable cb : nat -> option exn.
Variable be : backend.
Hypothesis inj : forall a b, digest a = digest b -> a = b.
(** The repo that is to stay as it is. *)
Variable did : str.
Hypothesis isdid : is_did did.

Definition wf (b : block) : Prop := b_cid b = cid_of digest (b_val b).
Definition head_ok (st : state) (h : block) (k : str) : Prop :=
  (exists b, read st (b_cid h) = Some b /\ b_val b = b_val h) /\ item_text (s "did") (b_val h) = Ok k /\ is_did k.
Definition obj_ok (st : state) (o : repo) : Prop :=
  handle_ok (r_handle o) /\ forall h, r_head o = Some h -> exists k, head_ok st h k.

Record J (st : state) : Prop := {
  j_objs : forall r o, nth_error (s_objs st) r = Some o -> obj_ok st o;
  j_mem : forall k r, In (k, r) (s_mem st) -> exists o, nth_error (s_objs st) r = Some o /\ repo_did o = Ok (Some k);
  j_nodup : NoDup (keys (s_mem st));
  j_ents : forall k e, In (k, e) (s_ents st) -> handle_ok (e_handle e) /\ is_did k /\
    exists b, read st (e_head e) = Some b /\ item_text (s "did") (b_val b) = Ok k;
  j_blocks : forall c b, read st c = Some b -> b_cid b = c /\ wf b
}.

Record frame (a b : state) : Prop := {
  f_objs : forall r o, nth_error (s_objs a) r = Some o -> repo_did o = Ok (Some did) ->
    exists o', nth_error (s_objs b) r = Some o' /\ same_repo o o';
  f_mem : dget did (s_mem b) = dget did (s_mem a);
  f_ents : dget did (s_ents b) = dget did (s_ents a);
  f_blocks : grows a b;
  f_len : length (s_objs a) <= length (s_objs b)
}.

Lemma same_repo_refl o : same_repo o o.
Proof. unfold same_repo. auto. Qed.
Lemma same_repo_did o o' : same_repo o o' -> repo_did o' = repo_did o.
Proof. intros (H & _). unfold repo_did. rewrite H. reflexivity. Qed.
Lemma same_repo_trans a b c : same_repo a b -> same_repo b c -> same_repo a c.
Proof. unfold same_repo. intuition congruence. Qed.
Lemma frame_refl st : frame st st.
Proof. split; auto. - intros r o H _. exists o. auto using same_repo_refl. - intros c x H. exact H. Qed.
Lemma frame_trans a b c : frame a b -> frame b c -> frame a c.
Proof.
  intros F G. split.
  - intros r o H D. destruct (f_objs _ _ F r o H D) as (o' & H' & S). rewrite <- (same_repo_did _ _ S) in D.
    destruct (f_objs _ _ G r o' H' D) as (o2 & H2 & S2). exists o2. split; [exact H2|]. eapply same_repo_trans; eauto.
  - rewrite (f_mem _ _ G). apply F.
  - rewrite (f_ents _ _ G). apply F.
  - intros x y H. apply (f_blocks _ _ G), (f_blocks _ _ F). exact H.
  - etransitivity; [apply F|apply G].
Qed.

(** The object is of the repo [d] or of none yet. *)
Definition own (d : str) (st : state) (r : nat) : Prop :=
  exists o, nth_error (s_objs st) r = Some o /\ (r_head o = None \/ repo_did o = Ok (Some d)).

Definition tri {A} (P : state -> Prop) (m : M A) (Q : A -> state -> Prop) : Prop := forall st, J st -> P st ->
  J (fst (m st)) /\ frame st (fst (m st)) /\ match snd (m st) with Ok a => Q a (fst (m st)) | Err _ => True end.

Lemma tri_bind {A B} P (m : M A) (f : A -> M B) Q R : tri P m Q -> (forall a, tri (Q a) (f a) R) -> tri P (bindM m f) R.
Proof.
  intros H F st HJ HP. destruct (H st HJ HP) as (J1 & F1 & Q1). unfold bindM.
  destruct (m st) as [st1 [a|e]]; cbn [fst snd] in *; [|auto].
  destruct (F a st1 J1 Q1) as (J2 & F2 & Q2). split; [exact J2|]. split; [eapply frame_trans; eauto|exact Q2].
Qed.
(** Steps that change no state. *)
Definition pure {A} (m : M A) : Prop := forall st, fst (m st) = st.
Lemma tri_pure {A} P (m : M A) : pure m -> tri P m (fun _ => P).
Proof.
  intros H st HJ HP. specialize (H st). destruct (m st) as [st1 o]. cbn [fst snd] in *. subst st1.
  split; [exact HJ|]. split; [apply frame_refl|]. destruct o; auto.
Qed.
Lemma tri_pure_val {A} (P : state -> Prop) (m : M A) (Q : A -> state -> Prop) : pure m ->
  (forall st a, J st -> P st -> m st = (st, Ok a) -> Q a st) -> tri P m Q.
Proof.
  intros H K st HJ HP. specialize (H st). specialize (K st). destruct (m st) as [st1 o]. cbn [fst snd] in *. subst st1.
  split; [exact HJ|]. split; [apply frame_refl|]. destruct o; auto.
Qed.
Lemma tri_weaken {A} (P P' : state -> Prop) (m : M A) (Q Q' : A -> state -> Prop) :
  tri P m Q -> (forall st, J st -> P' st -> P st) -> (forall a st, J st -> Q a st -> Q' a st) -> tri P' m Q'.
Proof.
  intros H A1 A2 st HJ HP. destruct (H st HJ (A1 st HJ HP)) as (J1 & F1 & Q1). split; [exact J1|]. split; [exact F1|].
  destruct (snd (m st)); auto.
Qed.
Lemma pure_ret {A} (a : A) : pure (ret a).
Proof. intros st. reflexivity. Qed.
Lemma pure_throw {A} e : pure (@throw A e).
Proof. intros st. reflexivity. Qed.
Lemma pure_lift {A} (r : res A) : pure (lift r).
Proof. intros st. reflexivity. Qed.
Lemma pure_assert b : pure (assert b).
Proof. destruct b; intros st; reflexivity. Qed.
Lemma pure_obj r : pure (obj r).
Proof. intros st. unfold obj. destruct (nth_error (s_objs st) r); reflexivity. Qed.
Lemma pure_reads {A} (f : state -> A) : pure (reads f).
Proof. intros st. reflexivity. Qed.
Lemma pure_bind {A B} (m : M A) (f : A -> M B) : pure m -> (forall a, pure (f a)) -> pure (bindM m f).
Proof. intros H F st. unfold bindM. specialize (H st). destruct (m st) as [st1 [a|e]]; cbn [fst] in *; subst; [apply F|reflexivity]. Qed.
Lemma pure_need_did o : pure (need_did o).
Proof. apply pure_bind; [apply pure_lift|]. intros [d|]; [apply pure_ret|apply pure_throw]. Qed.
Lemma pure_rd {A} (f : (cid -> option ipld) -> res A) : pure (fun st => (st, f (rd st))).
Proof. intros st. reflexivity. Qed.
Lemma pure_mem_find x l : pure (mem_find x l).
Proof.
  induction l as [|[k r] l IH]; cbn [mem_find]; [apply pure_ret|].
  apply pure_bind; [apply pure_obj|]. intros o. apply pure_bind; [apply pure_lift|]. intros d.
  destruct (_ || _); [apply pure_ret|exact IH].
Qed.

(** Small changes. *)
Lemma obj_ok_mono a b o : grows a b -> obj_ok a o -> obj_ok b o.
Proof.
  intros G [H K]. split; [exact H|]. intros h E. destruct (K h E) as (k & (x & R & V) & D). exists k. split; [|exact D]. exists x. auto.
Qed.

(** Only the counter and the calls change. *)
Lemma J_same a b : s_blocks b = s_blocks a -> s_objs b = s_objs a -> s_mem b = s_mem a -> s_ents b = s_ents a -> J a -> J b /\ frame a b.
Proof.
  intros B O M1 E Ja.
  assert (R : forall c, read b c = read a c) by (intros c; unfold read; rewrite B; reflexivity).
  assert (G : grows a b) by (intros c x H; rewrite R; exact H).
  split; split.
  - intros r o. rewrite O. intros H. eapply obj_ok_mono; [exact G|]. eapply j_objs; eauto.
  - rewrite M1, O. apply (j_mem _ Ja).
  - rewrite M1. apply (j_nodup _ Ja).
  - rewrite E. intros k e H. destruct (j_ents _ Ja k e H) as (X & Y & x & Z & W). split; [exact X|]. split; [exact Y|]. exists x. rewrite R. auto.
  - intros c x. rewrite R. apply (j_blocks _ Ja).
  - intros r o H _. exists o. rewrite O. auto using same_repo_refl.
  - rewrite M1. reflexivity.
  - rewrite E. reflexivity.
  - exact G.
  - rewrite O. apply le_n.
Qed.

(** Properties that only depend on the objects. *)
Definition stable (P : state -> Prop) : Prop := forall a b, s_objs b = s_objs a -> grows a b -> P a -> P b.

Lemma tri_allocate P : stable P -> tri P allocate_seq (fun _ => P).
Proof.
  intros S st HJ HP. unfold allocate_seq. cbn [fst snd].
  destruct (J_same st (set_next (s_next st + 1) st)) as [J1 F1]; auto. split; [exact J1|]. split; [exact F1|].
  apply (S st); [reflexivity|apply F1|exact HP].
Qed.
Lemma tri_callback P r c : stable P -> tri P (callback cb r c) (fun _ => P).
Proof.
  intros S st HJ HP. rewrite callback_eq. destruct (nth_error (s_objs st) r) as [o|]; cbn [fst snd].
  2: { auto using frame_refl. }
  destruct (r_callback o); cbn [fst snd]; [|auto using frame_refl].
  destruct (J_same st (add_call c st)) as [J1 F1]; auto. split; [exact J1|]. split; [exact F1|].
  destruct (cb _); [exact Logic.I|]. apply (S st); [reflexivity|apply F1|exact HP].
Qed.

(** Blocks. *)
Lemma read_write_blocks bs st c : read (fst (write_blocks bs st)) c =
  match read st c with Some b => Some b | None => dget c (map (fun b => (b_cid b, b)) bs) end.
Proof.
  unfold write_blocks, modify. cbn [fst]. unfold read. cbn [set_blocks s_blocks]. revert st.
  generalize (map (fun b => (b_cid b, b)) bs). intros l st. generalize (s_blocks st). clear st bs.
  induction l as [|[k v] l IH]; intros d; cbn [fold_left dget].
  - destruct (dget c d); reflexivity.
  - rewrite IH. unfold dsetdefault. cbn [fst snd]. destruct (dget k d) eqn:E.
    + destruct (dget c d) eqn:F; [reflexivity|]. destruct (str_eqb_spec c k) as [->|]; [congruence|reflexivity].
    + rewrite dget_app. destruct (dget c d) eqn:F; [reflexivity|]. cbn [dget]. destruct (str_eqb_spec c k); reflexivity.
Qed.
Lemma dget_blocks bs c b : Forall wf bs -> dget c (map (fun b => (b_cid b, b)) bs) = Some b -> b_cid b = c /\ wf b.
Proof.
  induction 1 as [|x bs W _ IH]; cbn [map dget]; [discriminate|].
  destruct (str_eqb_spec c (b_cid x)) as [->|]; [|exact IH]. intros H. injection H as <-. auto.
Qed.
Lemma wf_val a b : wf a -> wf b -> b_cid a = b_cid b -> b_val a = b_val b.
Proof. unfold wf. intros A B E. rewrite A, B in E. apply (cid_of_inj digest) in E; [exact E|exact inj]. Qed.
Lemma dget_blocks_in bs b : In b bs -> exists x, dget (b_cid b) (map (fun b => (b_cid b, b)) bs) = Some x.
Proof.
  induction bs as [|y bs IH]; [intros []|]. cbn [map dget In]. intros [->|H].
  - rewrite str_eqb_refl. eauto.
  - destruct (str_eqb_spec (b_cid b) (b_cid y)); eauto.
Qed.

Lemma tri_write_blocks P bs : stable P -> Forall wf bs ->
  tri P (write_blocks bs) (fun _ st => P st /\ forall b, In b bs -> exists x, read st (b_cid b) = Some x /\ b_val x = b_val b).
Proof.
  intros S W st HJ HP.
  assert (G : grows st (fst (write_blocks bs st))) by (intros c x H; rewrite read_write_blocks, H; reflexivity).
  assert (J1 : J (fst (write_blocks bs st))).
  { split.
    - intros r o H. eapply obj_ok_mono; [exact G|]. eapply j_objs; eauto.
    - apply (j_mem _ HJ).
    - apply (j_nodup _ HJ).
    - intros k e H. destruct (j_ents _ HJ k e H) as (X & Y & x & Z & V). split; [exact X|]. split; [exact Y|]. exists x. auto.
    - intros c b. rewrite read_write_blocks. destruct (read st c) eqn:E.
      + intros H. injection H as <-. apply (j_blocks _ HJ). exact E.
      + apply dget_blocks. exact W. }
  split; [exact J1|]. split.
  - split; auto. intros r o H _. exists o. auto using same_repo_refl.
  - cbn [write_blocks modify snd]. split; [apply (S st); [reflexivity|exact G|exact HP]|]. intros b H.
    destruct (dget_blocks_in bs b H) as [x E].
    assert (R : exists y, read (fst (write_blocks bs st)) (b_cid b) = Some y).
    { rewrite read_write_blocks, E. destruct (read st (b_cid b)); eauto. }
    destruct R as [y R]. exists y. split; [exact R|]. destruct (j_blocks _ J1 _ _ R) as [C Wy].
    apply wf_val; auto. rewrite Forall_forall in W. auto.
Qed.

(** What is known during an operation on the repo [d]: objects that are its own, heads of it. *)
Definition ctx (d : str) (rs : list nat) (hs : list block) (st : state) : Prop :=
  d <> did /\ (forall r, In r rs -> own d st r) /\ (forall h, In h hs -> head_ok st h d).
Lemma head_ok_mono a b h k : grows a b -> head_ok a h k -> head_ok b h k.
Proof. intros G ((x & R & V) & D). split; [|exact D]. exists x. auto. Qed.
Lemma ctx_stable d rs hs : stable (ctx d rs hs).
Proof.
  intros a b E G (N & O & H). split; [exact N|]. split.
  - intros r I. destruct (O r I) as (o & X). exists o. rewrite E. exact X.
  - intros h I. eapply head_ok_mono; eauto.
Qed.
Lemma true_stable : stable (fun _ => True).
Proof. intros a b _ _ _. exact Logic.I. Qed.

Lemma own_did d st r o k : own d st r -> nth_error (s_objs st) r = Some o -> repo_did o = Ok (Some k) -> k = d.
Proof.
  intros (o' & E & H) E' D. rewrite E in E'. injection E' as <-. destruct H as [H|H].
  - unfold repo_did in D. rewrite H in D. discriminate.
  - rewrite H in D. injection D. auto.
Qed.

Lemma tri_obj P r : tri P (obj r) (fun o st => P st /\ nth_error (s_objs st) r = Some o).
Proof.
  apply tri_pure_val; [apply pure_obj|]. intros st o _ HP. unfold obj. destruct (nth_error (s_objs st) r) eqn:E; [|discriminate].
  intros H. injection H as ->. auto.
Qed.

Lemma tri_set_attr d rs hs r f : In r rs -> (forall o, r_handle (f o) = r_handle o) ->
  (forall o, r_head (f o) = r_head o \/ exists h, r_head (f o) = Some h /\ In h hs) ->
  tri (ctx d rs hs) (set_attr r f) (fun _ => ctx d rs hs).
Proof.
  intros IR FH FD st HJ (N & O & H). destruct (O r IR) as (o & E & OD).
  unfold set_attr, bindM, obj. rewrite E. unfold put_obj, modify. cbn [fst snd].
  set (st' := set_objs (replace_nth r (f o) (s_objs st)) st).
  assert (G : grows st st') by (intros c x X; exact X).
  assert (NT : forall k, nth_error (s_objs st') k = if Nat.eqb r k then Some (f o) else nth_error (s_objs st) k).
  { intros k. unfold st'. cbn [set_objs s_objs]. rewrite nth_replace. destruct (Nat.eqb r k) eqn:K; [|reflexivity].
    apply PeanoNat.Nat.eqb_eq in K. subst k. rewrite E. reflexivity. }
  assert (FO : r_head (f o) = None \/ repo_did (f o) = Ok (Some d)).
  { destruct (FD o) as [D|(h & D & I)].
    - unfold repo_did. rewrite D. destruct OD as [OD|OD]; [left; exact OD|right; exact OD].
    - right. unfold repo_did. rewrite D. destruct (H h I) as (_ & X & _). rewrite X. reflexivity. }
  assert (KO : forall k, own d st k -> own d st' k).
  { intros k (o2 & E2 & X). unfold own. rewrite NT. destruct (Nat.eqb r k); eauto. }
  split; [|split].
  - split.
    + intros k o2. rewrite NT. destruct (Nat.eqb r k).
      * intros X. injection X as <-. destruct (j_objs _ HJ r o E) as [HO HD]. split; [rewrite FH; exact HO|].
        intros h X. destruct (FD o) as [D|(h2 & D & I)].
        -- rewrite D in X. apply (HD h X).
        -- rewrite D in X. injection X as <-. exists d. apply (H h2 I).
      * intros X. apply (j_objs _ HJ k o2 X).
    + intros k r2 I. destruct (j_mem _ HJ k r2 I) as (o2 & E2 & D2). rewrite NT. destruct (Nat.eqb r r2) eqn:K; [|eauto].
      apply PeanoNat.Nat.eqb_eq in K. subst r2. rewrite E in E2. injection E2 as <-. exists (f o). split; [reflexivity|].
      destruct OD as [OD|OD]; [unfold repo_did in D2; rewrite OD in D2; discriminate|].
      rewrite OD in D2. injection D2 as <-. destruct (FD o) as [D|(h & D & I2)].
      * unfold repo_did in *. rewrite D. exact OD.
      * unfold repo_did. rewrite D. destruct (H h I2) as (_ & X & _). rewrite X. reflexivity.
    + apply (j_nodup _ HJ).
    + apply (j_ents _ HJ).
    + apply (j_blocks _ HJ).
  - split; [|reflexivity|reflexivity|exact G|].
    + intros k o2 X D. rewrite NT. destruct (Nat.eqb r k) eqn:K; [|exists o2; auto using same_repo_refl].
      apply PeanoNat.Nat.eqb_eq in K. subst k. rewrite E in X. injection X as <-.
      destruct OD as [OD|OD]; [unfold repo_did in D; rewrite OD in D; discriminate|]. congruence.
    + unfold st'. cbn [set_objs s_objs]. clear. generalize r (f o). induction (s_objs st) as [|x l IH]; intros [|n] y; cbn; auto with arith.
  - split; [exact N|]. split; [intros k I; apply KO, O, I|]. exact H.
Qed.

(** New objects. *)
Lemma J_new st o : J st -> obj_ok st o -> J (set_objs (s_objs st ++ [o]) st) /\ frame st (set_objs (s_objs st ++ [o]) st).
Proof.
  intros HJ OK. set (st' := set_objs (s_objs st ++ [o]) st).
  assert (K : forall r x, nth_error (s_objs st) r = Some x -> nth_error (s_objs st') r = Some x).
  { intros r x E. unfold st'. cbn [set_objs s_objs]. rewrite nth_error_app1; [exact E|]. apply nth_error_Some. congruence. }
  split; split.
  - intros r x E. unfold st' in E. cbn [set_objs s_objs] in E.
    destruct (Compare_dec.lt_dec r (length (s_objs st))) as [L|L].
    + rewrite nth_error_app1 in E by exact L. apply (j_objs _ HJ r x E).
    + rewrite nth_error_app2 in E by lia. destruct (r - length (s_objs st)) as [|n]; cbn in E; [|destruct n; discriminate].
      injection E as <-. exact OK.
  - intros k r I. destruct (j_mem _ HJ k r I) as (x & E & D). exists x. auto.
  - apply (j_nodup _ HJ).
  - apply (j_ents _ HJ).
  - apply (j_blocks _ HJ).
  - intros r x E _. exists x. auto using same_repo_refl.
  - reflexivity.
  - reflexivity.
  - intros c x X. exact X.
  - unfold st'. cbn [set_objs s_objs]. rewrite app_length. lia.
Qed.
Lemma ctx_new d rs hs st o : ctx d rs hs st -> (r_head o = None \/ repo_did o = Ok (Some d)) ->
  ctx d (length (s_objs st) :: rs) hs (set_objs (s_objs st ++ [o]) st).
Proof.
  intros (N & O & H) D. split; [exact N|]. split; [|exact H]. intros r [<-|I].
  - exists o. cbn [set_objs s_objs]. rewrite nth_error_app2, PeanoNat.Nat.sub_diag by apply le_n. auto.
  - destruct (O r I) as (x & E & X). exists x. cbn [set_objs s_objs]. rewrite nth_error_app1; [auto|]. apply nth_error_Some. congruence.
Qed.

(** Repos of the storage. *)
Lemma J_ents st d e : J st -> d <> did -> handle_ok (e_handle e) -> is_did d ->
  (exists b, read st (e_head e) = Some b /\ item_text (s "did") (b_val b) = Ok d) ->
  J (set_ents (ent_put d e (s_ents st)) st) /\ frame st (set_ents (ent_put d e (s_ents st)) st).
Proof.
  intros HJ N HH ID HB. split; split.
  - apply (j_objs _ HJ).
  - apply (j_mem _ HJ).
  - apply (j_nodup _ HJ).
  - intros k x I. cbn [set_ents s_ents] in I. apply In_ent_put in I as [I|I]; [|apply (j_ents _ HJ k x I)].
    injection I as -> ->. auto.
  - apply (j_blocks _ HJ).
  - intros r x E _. exists x. auto using same_repo_refl.
  - reflexivity.
  - cbn [set_ents s_ents]. apply dget_ent_put. congruence.
  - intros c x X. exact X.
  - apply le_n.
Qed.
Lemma J_mem st d r o : J st -> d <> did -> nth_error (s_objs st) r = Some o -> repo_did o = Ok (Some d) ->
  J (set_mem (dset d r (s_mem st)) st) /\ frame st (set_mem (dset d r (s_mem st)) st).
Proof.
  intros HJ N E D. split; split.
  - apply (j_objs _ HJ).
  - intros k x I. cbn [set_mem s_mem] in I. apply In_dset in I as [I|I]; [|apply (j_mem _ HJ k x I)].
    injection I as -> ->. eauto.
  - cbn [set_mem s_mem]. apply dset_NoDup. apply (j_nodup _ HJ).
  - apply (j_ents _ HJ).
  - apply (j_blocks _ HJ).
  - intros k x X _. exists x. auto using same_repo_refl.
  - cbn [set_mem s_mem]. rewrite dget_dset. destruct (str_eqb_spec did d); congruence.
  - reflexivity.
  - intros c x X. exact X.
  - apply le_n.
Qed.

Lemma tri_modify (P : state -> Prop) f : (forall st, J st -> P st -> J (f st) /\ frame st (f st) /\ P (f st)) -> tri P (modify f) (fun _ => P).
Proof. intros H st HJ HP. destruct (H st HJ HP) as (A & B & C). unfold modify. cbn [fst snd]. auto. Qed.
Lemma tri_throw {A} P e (Q : A -> state -> Prop) : tri P (throw e) Q.
Proof. intros st HJ HP. cbn. auto using frame_refl. Qed.
Lemma tri_ret {A} (P : state -> Prop) (a : A) (Q : A -> state -> Prop) : (forall st, J st -> P st -> Q a st) -> tri P (ret a) Q.
Proof. intros H st HJ HP. cbn. auto using frame_refl. Qed.
Lemma tri_skip {A B} P (m : M A) (f : A -> M B) Q : pure m -> (forall a, tri P (f a) Q) -> tri P (bindM m f) Q.
Proof. intros H F. eapply tri_bind; [apply tri_pure, H|exact F]. Qed.
Lemma tri_with_obj {B} P r (f : repo -> M B) Q :
  (forall o, tri (fun st => P st /\ nth_error (s_objs st) r = Some o) (f o) Q) -> tri P (bindM (obj r) f) Q.
Proof. intros F. eapply tri_bind; [apply tri_obj|exact F]. Qed.

Lemma need_did_ok o st k : need_did o st = (st, Ok k) -> repo_did o = Ok (Some k).
Proof.
  unfold need_did, bindM, lift. destruct (repo_did o) as [[x|]|]; cbn; intros H; try discriminate. injection H as ->. reflexivity.
Qed.
Lemma tri_need_did P o : tri P (need_did o) (fun k st => P st /\ repo_did o = Ok (Some k)).
Proof. apply tri_pure_val; [apply pure_need_did|]. intros st k _ HP H. split; [exact HP|]. eapply need_did_ok; eauto. Qed.

Lemma obj_did st o k : obj_ok st o -> repo_did o = Ok (Some k) -> exists h, r_head o = Some h /\ head_ok st h k.
Proof.
  intros [_ H] D. unfold repo_did in D. destruct (r_head o) as [h|]; [|discriminate]. exists h. split; [reflexivity|].
  destruct (H h eq_refl) as (k' & X & Y & Z). rewrite Y in D. injection D as ->. split; auto.
Qed.

Lemma tri_put_mem d rs hs r o k : In r rs ->
  tri (fun st => ctx d rs hs st /\ nth_error (s_objs st) r = Some o /\ repo_did o = Ok (Some k))
      (modify (fun st => set_mem (dset k r (s_mem st)) st)) (fun _ => ctx d rs hs).
Proof.
  intros IR. eapply tri_weaken; [apply tri_modify|intros st _ X; exact X|intros a st _ X; exact (proj1 X)].
  intros st HJ (C & E & D). cbn beta.
  pose proof C as (N & O & _). pose proof (own_did _ _ _ _ _ (O r IR) E D). subst k.
  destruct (J_mem st d r o HJ N E D) as [J1 F1]. split; [exact J1|]. split; [exact F1|]. split; [|auto].
  apply (ctx_stable d rs hs st); [reflexivity|apply F1|exact C].
Qed.
Lemma tri_put_ent d rs hs e : handle_ok (e_handle e) -> is_did d ->
  tri (fun st => ctx d rs hs st /\ exists b, read st (e_head e) = Some b /\ item_text (s "did") (b_val b) = Ok d)
      (modify (fun st => set_ents (ent_put d e (s_ents st)) st)) (fun _ => ctx d rs hs).
Proof.
  intros HH ID. eapply tri_weaken; [apply tri_modify|intros st _ X; exact X|intros a st _ X; exact (proj1 X)].
  intros st HJ (C & B). cbn beta. pose proof C as (N & _).
  destruct (J_ents st d e HJ N HH ID B) as [J1 F1]. split; [exact J1|]. split; [exact F1|]. split; [|exact B].
  apply (ctx_stable d rs hs st); [reflexivity|apply F1|exact C].
Qed.
Lemma tri_pre {A} (P : state -> Prop) (X : Prop) (m : M A) Q : (forall st, J st -> P st -> X) -> (X -> tri P m Q) -> tri P m Q.
Proof. intros H K st HJ HP. exact (K (H st HJ HP) st HJ HP). Qed.
Lemma tri_and {A} (P : state -> Prop) (X : Prop) (m : M A) Q : (X -> tri P m Q) -> tri (fun st => P st /\ X) m Q.
Proof. intros K st HJ [HP HX]. exact (K HX st HJ HP). Qed.

(** The entity of an object. *)
Lemma obj_entity d rs hs st r o k h : J st -> In r rs -> ctx d rs hs st -> nth_error (s_objs st) r = Some o ->
  repo_did o = Ok (Some k) -> r_head o = Some h ->
  k = d /\ handle_ok (r_handle o) /\ is_did d /\ exists b, read st (b_cid h) = Some b /\ item_text (s "did") (b_val b) = Ok d.
Proof.
  intros HJ IR C E D EH. pose proof C as (N & O & _). pose proof (own_did _ _ _ _ _ (O r IR) E D). subst k.
  destruct (obj_did st o d (j_objs _ HJ r o E) D) as (h' & EH' & ((b & R & V) & T & ID)). rewrite EH in EH'. injection EH' as <-.
  split; [reflexivity|]. split; [apply (j_objs _ HJ r o E)|]. split; [exact ID|]. exists b. rewrite V. auto.
Qed.
Lemma tri_put_obj_ent d rs hs r o k h st0 ek : In r rs -> r_head o = Some h ->
  tri (fun st => (ctx d rs hs st /\ nth_error (s_objs st) r = Some o) /\ repo_did o = Ok (Some k))
    (modify (fun st => set_ents (ent_put k (Entity (r_handle o) (b_cid h) st0 ek) (s_ents st)) st)) (fun _ => ctx d rs hs).
Proof.
  intros IR EH.
  apply (tri_pre _ (k = d /\ handle_ok (r_handle o) /\ is_did d)).
  - intros st HJ [[C E] D]. destruct (obj_entity d rs hs st r o k h HJ IR C E D EH) as (A1 & A2 & A3 & _). auto.
  - intros (-> & HH & ID). eapply (tri_weaken _ _ _ (fun _ => ctx d rs hs)); [apply (tri_put_ent d rs hs _)|..].
    + exact HH.
    + exact ID.
    + cbn beta. intros st HJ [[C E] D]. split; [exact C|]. cbn [e_head].
      destruct (obj_entity d rs hs st r o d h HJ IR C E D EH) as (_ & _ & _ & B). exact B.
    + auto.
Qed.

Lemma tri_create_repo d rs hs r : In r rs -> tri (ctx d rs hs) (create_repo be r) (fun _ => ctx d rs hs).
Proof.
  intros IR. unfold create_repo. apply tri_with_obj. intros o. eapply tri_bind; [apply tri_need_did|]. intros k. cbn beta.
  destruct be.
  - eapply tri_weaken; [apply (tri_put_mem d rs hs r o k IR)|cbn beta; tauto|auto].
  - destruct (r_head o) as [h|] eqn:EH; [|apply tri_throw]. apply tri_put_obj_ent; auto.
Qed.
Lemma tri_store_repo d rs hs r : In r rs -> tri (ctx d rs hs) (store_repo be r) (fun _ => ctx d rs hs).
Proof.
  intros IR. unfold store_repo. apply tri_with_obj. intros o. eapply tri_bind; [apply tri_need_did|]. intros k. cbn beta.
  destruct be.
  - eapply tri_weaken; [apply (tri_put_mem d rs hs r o k IR)|cbn beta; tauto|auto].
  - apply tri_skip; [apply pure_reads|]. intros e. destruct e as [e|]; [|apply tri_throw].
    destruct (r_head o) as [h|] eqn:EH; [|apply tri_throw]. apply tri_put_obj_ent; auto.
Qed.
Lemma tri_lift {A} P (v : res A) : tri P (lift v) (fun a st => P st /\ v = Ok a).
Proof. apply tri_pure_val; [apply pure_lift|]. intros st a _ HP H. unfold lift in H. injection H as H. auto. Qed.
Lemma tri_reads {A} P (f : state -> A) : tri P (reads f) (fun a st => P st /\ a = f st).
Proof. apply tri_pure_val; [apply pure_reads|]. intros st a _ HP H. unfold reads in H. injection H as H. auto. Qed.

Lemma tri_set_repo_status d rs hs r x : In r rs -> tri (ctx d rs hs) (set_repo_status be r x) (fun _ => ctx d rs hs).
Proof.
  intros IR. unfold set_repo_status. eapply tri_bind; [apply (tri_set_attr d rs hs r); auto|]. intros []. cbn beta.
  destruct be; [apply tri_ret; auto|].
  apply tri_with_obj. intros o. eapply tri_bind; [apply tri_lift|]. intros k. eapply tri_bind; [apply tri_reads|]. intros e. cbn beta.
  destruct k as [k|]; [|apply tri_throw]. destruct e as [e|]; [|apply tri_throw].
  apply (tri_pre _ (k = d /\ handle_ok (e_handle e) /\ is_did d)).
  { intros st HJ [[[C E] D] X]. pose proof C as (N & O & _). split; [eapply own_did; eauto|].
    symmetry in X. apply In_dget1 in X. pose proof (own_did _ _ _ _ _ (O r IR) E D). subst k.
    destruct (j_ents _ HJ _ _ X) as (A1 & A2 & _). auto. }
  intros (-> & HH & ID). eapply tri_weaken; [apply (tri_put_ent d rs hs (Entity (e_handle e) (e_head e) x (e_key e)) HH ID)| |auto].
  cbn beta. intros st HJ [[[C E] D] X]. split; [exact C|]. cbn [e_head]. symmetry in X. apply In_dget1 in X.
  apply (j_ents _ HJ _ _ X).
Qed.

(** Loading. *)
Lemma tri_repo_load d rs hs c handle status key (want : Prop) : handle_ok handle ->
  tri (fun st => ctx d rs hs st /\ exists b k, read st c = Some b /\ item_text (s "did") (b_val b) = Ok k /\ is_did k /\ (want -> k = d))
      (repo_load c handle status key)
      (fun r st => ctx d rs hs st /\ (want -> own d st r) /\ exists o, nth_error (s_objs st) r = Some o).
Proof.
  intros HH st HJ (C & b & k & R & T & ID & W). unfold repo_load, bindM, reads, lift. rewrite R.
  destruct (item_link (s "data") (b_val b)) as [data|e]; cbn [fst snd].
  2: { cbn. auto using frame_refl. }
  unfold new_obj. cbn [fst snd]. set (o := Repo (mst_load data) (Some b) handle status false key).
  assert (OK : obj_ok st o).
  { split; [exact HH|]. intros h X. injection X as <-. exists k. split; [|auto]. exists b.
    destruct (j_blocks _ HJ _ _ R) as [-> _]. auto. }
  destruct (J_new st o HJ OK) as [J1 F1]. split; [exact J1|]. split; [exact F1|].
  assert (NL : nth_error (s_objs st ++ [o]) (length (s_objs st)) = Some o).
  { rewrite nth_error_app2, PeanoNat.Nat.sub_diag by apply le_n. reflexivity. }
  split; [|split].
  - destruct C as (N & O & H). split; [exact N|]. split; [|exact H].
    intros r I. destruct (O r I) as (x & E & X). exists x. cbn [set_objs s_objs]. rewrite nth_error_app1; [auto|]. apply nth_error_Some. congruence.
  - intros Y. exists o. split; [exact NL|]. right. unfold repo_did. cbn [o r_head]. rewrite T, (W Y). reflexivity.
  - exists o. exact NL.
Qed.

Lemma mem_find_ok x st r : forall l, mem_find x l st = (st, Ok (Some r)) ->
  exists o, nth_error (s_objs st) r = Some o /\ (repo_did o = Ok (Some x) \/ r_handle o = Some x).
Proof.
  induction l as [|[k r'] l IH]; cbn [mem_find]; unfold ret; [discriminate|].
  unfold bindM, obj. destruct (nth_error (s_objs st) r') as [o|] eqn:E; [|discriminate]. unfold lift.
  destruct (repo_did o) as [d|] eqn:D; [|discriminate].
  destruct (opt_str_eqb x d || opt_str_eqb x (r_handle o)) eqn:Q; [|exact IH].
  intros H. injection H as <-. exists o. split; [exact E|]. apply orb_true_iff in Q as [Q|Q].
  - left. destruct d as [y|]; [|discriminate]. cbn in Q. apply str_eqb_eq in Q. subst. exact D.
  - right. destruct (r_handle o) as [y|]; [|discriminate]. cbn in Q. apply str_eqb_eq in Q. subst. reflexivity.
Qed.

Lemma tri_load_repo d rs hs x : tri (ctx d rs hs) (load_repo be x)
  (fun out st => ctx d rs hs st /\ forall r, out = Some r -> (is_did d -> x = d -> own d st r) /\ exists o, nth_error (s_objs st) r = Some o).
Proof.
  unfold load_repo. apply tri_skip; [apply pure_assert|]. intros []. destruct be.
  - eapply tri_bind; [apply tri_reads|]. intros l. cbn beta. apply tri_pure_val; [apply pure_mem_find|].
    intros st out HJ [C _] H. split; [exact C|]. intros r ->. destruct (mem_find_ok _ _ _ _ H) as (o & E & D).
    split; [|eauto]. intros ID ->. exists o. split; [exact E|]. right. destruct D as [D|D]; [exact D|].
    destruct (j_objs _ HJ r o E) as [HH _]. rewrite D in HH. exfalso. exact (HH ID).
  - eapply tri_bind; [apply tri_reads|]. intros [[k e]|]; cbn beta.
    2: { apply tri_ret. intros st _ [C _]. split; [exact C|]. discriminate. }
    apply (tri_pre _ (handle_ok (e_handle e))).
    { intros st HJ [C X]. symmetry in X. unfold ent_find in X. destruct (dget x (s_ents st)) as [e'|] eqn:E.
      - injection X as <- <-. apply In_dget1 in E. apply (j_ents _ HJ _ _ E).
      - apply find_some in X as [X _]. apply (j_ents _ HJ _ _ X). }
    intros HH. eapply tri_bind.
    + eapply tri_weaken; [apply (tri_repo_load d rs hs (e_head e) (e_handle e) (e_status e) (e_key e) (is_did d /\ x = d) HH)| |intros a st _ X; exact X].
      cbn beta. intros st HJ [C X]. split; [exact C|]. symmetry in X. unfold ent_find in X. destruct (dget x (s_ents st)) as [e'|] eqn:E.
      * injection X as <- <-. apply In_dget1 in E. destruct (j_ents _ HJ _ _ E) as (_ & ID & b & R & T). exists b, x.
        split; [exact R|]. split; [exact T|]. split; [exact ID|]. tauto.
      * apply find_some in X as [X Y]. destruct (j_ents _ HJ _ _ X) as (_ & ID & b & R & T). exists b, k.
        split; [exact R|]. split; [exact T|]. split; [exact ID|]. intros [IDd ->].
        cbn [snd] in Y. destruct (e_handle e) as [y|]; [|discriminate]. cbn in Y. apply str_eqb_eq in Y. subst y. exfalso. exact (HH IDd).
    + intros r. cbn beta. apply tri_ret. intros st _ (C & W & V). split; [exact C|]. intros r' H. injection H as <-. split; [|exact V]. auto.
Qed.

(** Commits. *)
Lemma tri_commit_target d r0 : tri (ctx d [r0] []) (commit_target be r0 None)
  (fun drp st => (fst (fst drp) = d /\ is_did d) /\ ctx d [r0; snd (fst drp)] [] st).
Proof.
  unfold commit_target. apply tri_with_obj. intros o0. apply tri_skip; [destruct (is_some _); [apply pure_throw|apply pure_ret]|].
  intros []. eapply tri_bind; [apply tri_need_did|]. intros k. cbn beta.
  apply (tri_pre _ (k = d /\ is_did d)).
  { intros st HJ [[C E] D]. pose proof C as (N & O & _). pose proof (own_did _ _ _ _ _ (O r0 (or_introl eq_refl)) E D). subst k.
    split; [reflexivity|]. destruct (obj_did st o0 d (j_objs _ HJ r0 o0 E) D) as (h & _ & _ & _ & ID). exact ID. }
  intros [-> ID]. eapply tri_bind.
  - eapply tri_weaken; [apply (tri_load_repo d [r0] [] d)|cbn beta; tauto|intros a st _ X; exact X].
  - intros [r|]; cbn beta; [|apply tri_throw]. apply tri_with_obj. intros o.
    destruct (r_head o) as [h|]; [|apply tri_throw]. apply tri_ret. intros st _ [[C W] _]. cbn [fst snd]. split; [auto|].
    destruct C as (N & O & H). split; [exact N|]. split; [|exact H]. intros x [<-|[<-|[]]]; [apply O; left; reflexivity|].
    apply (W r eq_refl); auto.
Qed.
Lemma tri_commit_target_first d r0 : is_did d ->
  tri (fun st => ctx d [r0] [] st /\ exists o, nth_error (s_objs st) r0 = Some o /\ r_head o = None) (commit_target be r0 (Some d))
  (fun drp st => (fst (fst drp) = d /\ is_did d) /\ ctx d [r0; snd (fst drp)] [] st).
Proof.
  intros ID. unfold commit_target. apply tri_with_obj. intros o0. apply tri_skip; [destruct (is_some _); [apply pure_throw|apply pure_ret]|].
  intros []. destruct d as [|x d]; [discriminate ID|].
  apply (tri_pre _ (r_head o0 = None)).
  { intros st _ [[_ (o & E & H)] E']. congruence. }
  intros ->. apply tri_skip; [apply pure_ret|]. intros []. apply tri_ret. intros st _ [[C _] _]. cbn [fst snd]. split; [auto|].
  destruct C as (N & O & H). split; [exact N|]. split; [|exact H]. intros y [<-|[<-|[]]]; apply O; left; reflexivity.
Qed.

Definition wf_acc (acc : list (cid * block) * list commit_op) : Prop := forall c b, In (c, b) (fst acc) -> wf b.
Lemma mk_block_wf v d seq ops : wf (mk_block digest v d seq ops).
Proof. reflexivity. Qed.
Lemma tri_commit_write d rs hs r seq acc w : In r rs -> wf_acc acc ->
  tri (ctx d rs hs) (commit_write digest kdigest validate r d seq acc w) (fun acc' st => ctx d rs hs st /\ wf_acc acc').
Proof.
  intros IR W. destruct acc as [blocks ops]. unfold commit_write.
  assert (S : forall m, tri (ctx d rs hs) (set_attr r (with_mst m)) (fun _ => ctx d rs hs)).
  { intros m. apply tri_set_attr; auto. }
  apply tri_skip.
  { destruct (w_action w); [apply pure_ret|..]; (apply pure_bind; [apply pure_obj|]; intros o; apply pure_bind;
     [exact (pure_rd (fun rd => get kdigest rd max_depth (r_mst o) (path_of w)))|]; intros [v|]; [destruct (nonempty v); [apply pure_ret|apply pure_throw]|apply pure_throw]). }
  intros prev.
  assert (REC : forall a, tri (ctx d rs hs)
    (match w_record w with
      | None => throw AssertionError
      | Some v =>
          (match v with IMap _ => ret tt | _ => throw AttributeError end);;
          lift (validate v);;
          assert (truthy v);;
          let b := mk_block digest v (Some d) seq None in
          (if (max_record_size <? len (encode (b_val b)))%N then throw ValueError else ret tt);;
          let blocks := dset (b_cid b) b blocks in
          let op := CommitOp a (path_of w) (Some (b_cid b)) prev in
          let! o := obj r in
          match a with
          | CREATE =>
              let! m := (fun st => (st, add digest kdigest (rd st) max_depth (r_mst o) (path_of w) (b_cid b) None)) in
              set_attr r (with_mst m);;
              ret (blocks, ops ++ [op])
          | _ =>
              let! orig := lift (get_pointer digest (r_mst o)) in
              let! m := (fun st => (st, update kdigest (rd st) max_depth (r_mst o) (path_of w) (b_cid b))) in
              set_attr r (with_mst m);;
              let! pointer := lift (get_pointer digest m) in
              ret (blocks, if str_eqb pointer orig then ops else ops ++ [op])
          end
      end) (fun acc' st => ctx d rs hs st /\ wf_acc acc')).
  { intros a. destruct (w_record w) as [v|]; [|apply tri_throw].
    apply tri_skip; [destruct v; first [apply pure_ret|apply pure_throw]|]. intros [].
    apply tri_skip; [apply pure_lift|]. intros []. apply tri_skip; [apply pure_assert|]. intros []. cbv zeta.
    apply tri_skip; [destruct (_ <? _)%N; [apply pure_throw|apply pure_ret]|]. intros [].
    apply tri_skip; [apply pure_obj|]. intros o.
    assert (W' : forall ops', wf_acc (dset (b_cid (mk_block digest v (Some d) seq None)) (mk_block digest v (Some d) seq None) blocks, ops')).
    { intros ops' c b I. cbn [fst] in I. apply In_dset in I as [I|I]; [injection I as -> ->; apply mk_block_wf|]. apply (W c b I). }
    destruct a.
    - eapply tri_skip; [exact (pure_rd (fun rd => add digest kdigest rd max_depth (r_mst o) (path_of w) (b_cid (mk_block digest v (Some d) seq None)) None))|].
      intros m. eapply tri_bind; [apply S|]. intros []. apply tri_ret. auto.
    - apply tri_skip; [apply pure_lift|]. intros orig.
      eapply tri_skip; [exact (pure_rd (fun rd => update kdigest rd max_depth (r_mst o) (path_of w) (b_cid (mk_block digest v (Some d) seq None))))|].
      intros m. eapply tri_bind; [apply S|]. intros []. apply tri_skip; [apply pure_lift|]. intros p. apply tri_ret. auto.
    - apply tri_skip; [apply pure_lift|]. intros orig.
      eapply tri_skip; [exact (pure_rd (fun rd => update kdigest rd max_depth (r_mst o) (path_of w) (b_cid (mk_block digest v (Some d) seq None))))|].
      intros m. eapply tri_bind; [apply S|]. intros []. apply tri_skip; [apply pure_lift|]. intros p. apply tri_ret. auto. }
  destruct (w_action w); [apply (REC CREATE)|apply (REC UPDATE)|].
  apply tri_skip; [apply pure_obj|]. intros o.
  eapply tri_skip; [exact (pure_rd (fun rd => delete kdigest rd max_depth (r_mst o) (path_of w)))|].
  intros m. eapply tri_bind; [apply S|]. intros []. apply tri_ret. intros st _ C. split; [exact C|]. exact W.
Qed.
Lemma tri_fold d rs hs r seq : In r rs -> forall ws acc, wf_acc acc ->
  tri (ctx d rs hs) (foldM (commit_write digest kdigest validate r d seq) acc ws) (fun acc' st => ctx d rs hs st /\ wf_acc acc').
Proof.
  intros IR. induction ws as [|w ws IH]; intros acc W; cbn [foldM]; [apply tri_ret; auto|].
  eapply tri_bind; [apply tri_commit_write; eauto|]. intros acc'. cbn beta. apply tri_and. intros W'. apply IH. exact W'.
Qed.

(** The nodes to store have their CIDs. *)
Definition wf_nodes (l : list (cid * ipld)) : Prop := forall c v, In (c, v) l -> c = cid_of digest v.
Lemma wf_nodes_fold l : forall acc, wf_nodes l -> wf_nodes acc -> wf_nodes (fold_left (fun d kv => dset (fst kv) (snd kv) d) l acc).
Proof.
  induction l as [|[k v] l IH]; intros acc A B; cbn [fold_left]; [exact B|]. apply IH.
  - intros c x I. apply A. right. exact I.
  - cbn [fst snd]. intros c x I. apply In_dset in I as [I|I]; [|apply B, I]. injection I as -> ->. apply A. left. reflexivity.
Qed.
Lemma unstored_wf rd : forall fuel m p l, get_unstored_blocks digest kdigest rd fuel m = Ok (p, l) -> wf_nodes l.
Proof.
  induction fuel as [|f IH]; intros m p l; cbn [get_unstored_blocks]; [discriminate|].
  destruct (get_pointer digest m) as [q|]; cbn; [|discriminate].
  destruct (rd q); [intros H; injection H as _ <-; intros c v []|].
  destruct (get_entries kdigest rd m) as [es|]; cbn; [|discriminate].
  destruct (pentries digest es) as [pes|]; cbn; [|discriminate].
  destruct (serialize_node_data pes) as [d|]; cbn; [|discriminate].
  match goal with |- context [bind (?g es ?a) _] => set (go := g); set (acc := a) end.
  assert (G : forall es acc l, wf_nodes acc -> go es acc = Ok l -> wf_nodes l).
  { clear - IH. induction es as [|[k v|m'] es IHe]; intros acc l W H.
    - cbn in H. injection H as <-. exact W.
    - apply (IHe acc l W). exact H.
    - cbn in H. destruct (get_unstored_blocks digest kdigest rd f m') as [[p' l']|] eqn:E; cbn in H; [|discriminate].
      apply (IHe _ l) in H; [exact H|]. apply wf_nodes_fold; [|exact W]. eapply IH; eauto. }
  destruct (go es acc) as [bs|] eqn:E; cbn; [|discriminate]. intros H. injection H as _ <-. apply (G es acc bs); [|exact E].
  intros c v [I|[]]. injection I as <- <-. reflexivity.
Qed.
Lemma wf_add_nodes d seq l : forall blocks, wf_nodes l -> (forall c b, In (c, b) blocks -> wf b) ->
  forall c b, In (c, b) (add_nodes d seq l blocks) -> wf b.
Proof.
  unfold add_nodes. induction l as [|[k v] l IH]; intros blocks A B; cbn [fold_left]; [exact B|]. apply IH.
  - intros c x I. apply A. right. exact I.
  - cbn [fst snd]. intros c x I. apply In_dset in I as [I|I]; [|apply (B c x I)]. injection I as -> ->. unfold wf. cbn [b_cid b_val].
    apply A. left. reflexivity.
Qed.

Lemma commit_did_val key seq d rev prev root : item_text (s "did") (norm (commit_value ecdsa key seq d rev prev root)) = Ok d.
Proof. destruct prev; reflexivity. Qed.

Lemma tri_commit_finish d r0 r prev seq bo : is_did d -> wf_acc bo ->
  tri (ctx d [r0; r] []) (commit_finish digest kdigest ecdsa be r0 r d prev seq bo) (fun _ => ctx d [r0; r] []).
Proof.
  intros ID W. unfold commit_finish. apply tri_skip; [apply pure_obj|]. intros o.
  apply (tri_bind _ _ _ (fun ru st => ctx d [r0; r] [] st /\ wf_nodes (snd ru))).
  { apply tri_pure_val; [exact (pure_rd (fun rd => get_unstored_blocks digest kdigest rd max_depth (r_mst o)))|].
    intros st [p l] _ C H. split; [exact C|]. cbn [snd]. eapply (unstored_wf (rd st) max_depth (r_mst o) p l).
    assert (X : snd (st, get_unstored_blocks digest kdigest (rd st) max_depth (r_mst o)) = snd (st, Ok (p, l))) by (rewrite H; reflexivity).
    exact X. }
  intros ru. apply tri_and. intros WN. apply tri_skip; [apply pure_lift|]. intros rev. cbv zeta.
  set (cblock := mk_block digest _ _ _ _). set (blocks := dset (b_cid cblock) cblock _).
  assert (WB : Forall wf (map snd blocks)).
  { apply Forall_forall. intros b I. apply in_map_iff in I as ([c x] & <- & I). cbn [snd]. unfold blocks in I.
    apply In_dset in I as [I|I]; [injection I as -> ->; apply mk_block_wf|]. eapply wf_add_nodes; [exact WN| |exact I]. exact W. }
  assert (IB : In cblock (map snd blocks)).
  { apply in_map_iff. exists (b_cid cblock, cblock). split; [reflexivity|]. apply In_dget1. unfold blocks. rewrite dget_dset, str_eqb_refl. reflexivity. }
  eapply tri_bind; [apply (tri_write_blocks _ _ (ctx_stable d [r0; r] []) WB)|]. intros [].
  apply (tri_weaken (ctx d [r0; r] [cblock]) _ _ (fun _ => ctx d [r0; r] [cblock])).
  2: { intros st _ [C H]. destruct C as (N & O & _). split; [exact N|]. split; [exact O|]. intros h [<-|[]].
       destruct (H cblock IB) as (x & R & V). split; [exists x; auto|]. split; [|exact ID]. apply commit_did_val. }
  2: { intros _ st _ (N & O & _). split; [exact N|]. split; [exact O|]. intros h []. }
  assert (SH : forall k, In k [r0; r] -> tri (ctx d [r0; r] [cblock]) (set_attr k (with_head (Some cblock))) (fun _ => ctx d [r0; r] [cblock])).
  { intros k IK. apply tri_set_attr; auto. intros x. right. exists cblock. split; [reflexivity|left; reflexivity]. }
  eapply tri_bind.
  - destruct (is_some (r_head o)).
    + eapply tri_bind; [apply SH; right; left; reflexivity|]. intros []. apply tri_store_repo. right. left. reflexivity.
    + apply tri_ret. auto.
  - intros []. cbn beta. eapply tri_bind; [apply tri_set_attr; auto; left; reflexivity|]. intros []. cbn beta.
    eapply tri_bind; [apply SH; left; reflexivity|]. intros []. apply tri_ret. auto.
Qed.

Lemma ctx_one d r0 r st : ctx d [r0; r] [] st -> ctx d [r0] [] st.
Proof. intros (N & O & H). split; [exact N|]. split; [|exact H]. intros x [<-|[]]. apply O. left. reflexivity. Qed.

Lemma tri_commit_ (P : state -> Prop) d r0 ws seq first :
  tri P (commit_target be r0 first) (fun drp st => (fst (fst drp) = d /\ is_did d) /\ ctx d [r0; snd (fst drp)] [] st) ->
  tri P (commit_ digest kdigest validate ecdsa be r0 ws seq first) (fun _ => ctx d [r0] []).
Proof.
  intros T. unfold commit_. apply tri_skip; [apply pure_assert|]. intros []. eapply tri_bind; [exact T|].
  intros [[d' r] prev]. cbn [fst snd].
  apply (tri_pre _ (d' = d /\ is_did d)); [tauto|].
  intros [-> ID]. apply (tri_weaken (ctx d [r0; r] []) _ _ (fun _ => ctx d [r0; r] [])); [|tauto|intros _ st _; apply ctx_one].
  apply tri_skip; [destruct (_ <? _)%N; [apply pure_throw|apply pure_ret]|]. intros [].
  eapply tri_bind; [apply tri_fold; [right; left; reflexivity|intros c b []]|].
  intros bo. cbn beta. apply tri_and. intros W. apply tri_commit_finish; auto.
Qed.

Lemma tri_on_exception {A} P (m : M A) h Q : tri P m Q -> tri (fun _ => True) h (fun _ _ => True) -> tri P (on_exception m h) Q.
Proof.
  intros H K st HJ HP. destruct (H st HJ HP) as (J1 & F1 & Q1). unfold on_exception.
  destruct (m st) as [st1 [a|e]]; cbn [fst snd] in *; [auto|].
  destruct (K st1 J1 Logic.I) as (J2 & F2 & _). destruct (h st1) as [st2 [[]|e']]; cbn [fst snd] in *; (split; [exact J2|]; split; [eapply frame_trans; eauto|exact Logic.I]).
Qed.

Lemma tri_commit (P : state -> Prop) d r0 ws first : stable P ->
  tri P (commit_target be r0 first) (fun drp st => (fst (fst drp) = d /\ is_did d) /\ ctx d [r0; snd (fst drp)] [] st) ->
  tri P (commit digest kdigest validate ecdsa cb be r0 ws first) (fun _ => ctx d [r0] []).
Proof.
  intros S T. unfold commit. eapply tri_bind; [apply (tri_allocate P S)|]. intros seq. cbn beta. apply tri_on_exception.
  - eapply tri_bind; [apply (tri_commit_ P d); exact T|]. intros cd. cbn beta.
    eapply tri_bind; [apply (tri_callback _ r0 _ (ctx_stable d [r0] []))|]. intros []. apply tri_ret. auto.
  - apply (tri_callback (fun _ => True) r0 _ true_stable).
Qed.

Lemma tri_write_obj P dd v seq : stable P -> tri P (write_obj digest be dd v seq) (fun _ => P).
Proof.
  intros S. unfold write_obj. destruct be.
  - apply tri_skip; [apply pure_assert|]. intros [].
    eapply tri_bind; [apply (tri_write_blocks P _ S); constructor; [apply mk_block_wf|constructor]|]. intros []. apply tri_ret. tauto.
  - apply tri_skip; [apply pure_assert|]. intros [].
    eapply tri_bind; [apply (tri_write_blocks P _ S); constructor; [apply mk_block_wf|constructor]|]. intros [].
    apply (tri_weaken P _ _ (fun _ => P)); [|tauto|auto]. apply tri_skip; [apply pure_reads|]. intros [x|]; [|apply tri_throw].
    apply tri_skip; [apply pure_assert|]. intros []. apply tri_ret. auto.
Qed.
Lemma tri_write_event P r type extra : stable P -> tri P (write_event digest now cb be r type extra) (fun _ => P).
Proof.
  intros S. unfold write_event. eapply tri_bind; [apply (tri_allocate P S)|]. intros seq. cbn beta.
  apply tri_skip; [apply pure_obj|]. intros o. apply tri_skip; [apply pure_lift|]. intros dd.
  eapply tri_bind; [apply (tri_write_obj P _ _ _ S)|]. intros b. cbn beta.
  eapply tri_bind; [apply (tri_callback P r _ S)|]. intros []. apply tri_ret. auto.
Qed.

Lemma tri_create d handle status x key : d <> did -> is_did d -> handle_ok handle ->
  tri (fun _ => True) (repo_create digest kdigest validate ecdsa now cb be d handle status x key)
    (fun r st => exists o, nth_error (s_objs st) r = Some o).
Proof.
  intros N ID HH. unfold repo_create. apply tri_skip; [apply pure_lift|]. intros m.
  set (o := Repo m None handle status x key).
  apply (tri_bind _ _ _ (fun r st => ctx d [r] [] st /\ exists o, nth_error (s_objs st) r = Some o /\ r_head o = None)).
  { intros st HJ _. unfold new_obj. cbn [fst snd].
    destruct (J_new st o HJ) as [J1 F1]. { split; [exact HH|]. intros h D. discriminate D. }
    split; [exact J1|]. split; [exact F1|]. split.
    - apply (ctx_new d [] [] st o); [|left; reflexivity]. split; [exact N|]. split; intros y [].
    - exists o. split; [|reflexivity]. cbn [set_objs s_objs]. rewrite nth_error_app2, PeanoNat.Nat.sub_diag by apply le_n. reflexivity. }
  intros r. pose proof (ctx_stable d [r] []) as S. eapply tri_bind.
  { apply (tri_commit _ d r [] (Some d)); [|apply tri_commit_target_first; exact ID].
    intros a b E G [C (o' & E' & H)]. split; [apply (S a b E G C)|]. exists o'. rewrite E. auto. }
  intros cd. cbn beta. apply tri_skip; [apply pure_obj|]. intros o1. apply tri_skip; [apply pure_need_did|]. intros _d.
  eapply tri_bind; [apply (tri_write_event _ _ _ _ S)|]. intros b1. cbn beta.
  eapply tri_bind; [apply (tri_write_event _ _ _ _ S)|]. intros b2. cbn beta zeta.
  apply tri_skip; [apply pure_lift|]. intros rev.
  eapply tri_bind; [apply (tri_write_event _ _ _ _ S)|]. intros b3. cbn beta.
  eapply tri_bind; [apply (tri_create_repo d [r] [] r); left; reflexivity|]. intros []. cbn beta.
  eapply tri_bind; [apply (tri_callback _ r _ S)|]. intros []. cbn beta. apply tri_ret.
  intros st _ (_ & O & _). destruct (O r (or_introl eq_refl)) as (y & E & _). eauto.
Qed.

(** Histories. *)
Definition JW (w : world) : Prop := J (w_state w) /\ forall r, In r (w_refs w) -> r < length (s_objs (w_state w)).

Lemma some_lt {A} (l : list A) n x : nth_error l n = Some x -> n < length l.
Proof. intros H. apply nth_error_Some. congruence. Qed.
Lemma lt_some {A} (l : list A) n : n < length l -> exists x, nth_error l n = Some x.
Proof. intros H. destruct (nth_error l n) eqn:E; [eauto|]. apply nth_error_None in E. lia. Qed.

Definition others (a b : world) : Prop := frame (w_state a) (w_state b) /\ exists l, w_refs b = w_refs a ++ l.

Lemma on_new_others w m Q : JW w -> tri Q m (fun out st => forall r, out = Some r -> exists o, nth_error (s_objs st) r = Some o) -> Q (w_state w) ->
  JW (fst (on_new w m)) /\ others w (fst (on_new w m)).
Proof.
  intros [HJ R] T HQ. destruct (T (w_state w) HJ HQ) as (J1 & F1 & Q1). unfold on_new.
  assert (R1 : forall r, In r (w_refs w) -> r < length (s_objs (fst (m (w_state w))))).
  { intros r I. specialize (R r I). pose proof (f_len _ _ F1). lia. }
  destruct (m (w_state w)) as [st [[r|]|e]]; cbn [fst snd] in *.
  - split; [split; [exact J1|]|split; [exact F1|exists [r]; reflexivity]]. cbn [w_refs w_state]. intros k I.
    apply in_app_or in I as [I|[<-|[]]]; [auto|]. destruct (Q1 r eq_refl) as (o & E). eapply some_lt; eauto.
  - split; [split; [exact J1|exact R1]|split; [exact F1|exists []; rewrite app_nil_r; reflexivity]].
  - split; [split; [exact J1|exact R1]|split; [exact F1|exists []; rewrite app_nil_r; reflexivity]].
Qed.
Lemma on_ref_others w h f : JW w ->
  (forall r o, nth_error (w_refs w) h = Some r -> nth_error (s_objs (w_state w)) r = Some o ->
     exists P (Q : sout -> state -> Prop), P (w_state w) /\ tri P (f r) Q) ->
  JW (fst (on_ref w h f)) /\ others w (fst (on_ref w h f)).
Proof.
  intros [HJ R] H. unfold on_ref. destruct (nth_error (w_refs w) h) as [r|] eqn:E.
  - destruct (lt_some (s_objs (w_state w)) r) as [o EO]; [apply R; eapply nth_error_In; eauto|].
    destruct (H r o eq_refl EO) as (P & Q & HP & T). destruct (T (w_state w) HJ HP) as (J1 & F1 & _).
    destruct (f r (w_state w)) as [st o1]. cbn [fst snd] in *. split; [split; [exact J1|]|split; [exact F1|exists []; rewrite app_nil_r; reflexivity]].
    cbn [w_refs w_state]. intros k I. specialize (R k I). pose proof (f_len _ _ F1). lia.
  - cbn [fst]. split; [split; assumption|]. split; [apply frame_refl|exists []; rewrite app_nil_r; reflexivity].
Qed.

Lemma not_nil : [] <> did.
Proof. intros H. unfold is_did in isdid. rewrite <- H in isdid. discriminate isdid. Qed.

(** An object that is not of [did]. *)
Lemma other_ctx w h r o : JW w -> handle_did w h <> Some did -> nth_error (w_refs w) h = Some r ->
  nth_error (s_objs (w_state w)) r = Some o -> exists d, ctx d [r] [] (w_state w).
Proof.
  intros [HJ _] ND E EO. destruct (j_objs _ HJ r o EO) as [_ HD].
  unfold handle_did, handle_obj in ND. rewrite E, EO in ND. destruct (r_head o) as [b|] eqn:EH.
  - destruct (HD b eq_refl) as (k & _ & T & _).
    assert (D : repo_did o = Ok (Some k)) by (unfold repo_did; rewrite EH, T; reflexivity). rewrite D in ND.
    exists k. split; [congruence|]. split; [|intros x []]. intros x [<-|[]]. exists o. auto.
  - exists []. split; [apply not_nil|]. split; [|intros x []]. intros x [<-|[]]. exists o. auto.
Qed.

Lemma tri_status d r x type extra :
  tri (ctx d [r] []) (bindM (bindM (set_repo_status be r x) (fun _ => bindM (write_event digest now cb be r type extra) (fun _ => ret tt))) (fun _ => ret OutDone))
    (fun _ => ctx d [r] []).
Proof.
  apply (tri_bind _ _ _ (fun _ => ctx d [r] [])); [|intros []; apply tri_ret; auto].
  eapply tri_bind; [apply tri_set_repo_status; left; reflexivity|]. intros []. cbn beta.
  eapply tri_bind; [apply tri_write_event, ctx_stable|]. intros b. apply tri_ret. auto.
Qed.
Lemma tri_set_callback r x : tri (fun _ => True) (set_attr r (with_callback x)) (fun _ _ => True).
Proof.
  intros st HJ _. unfold set_attr, bindM, obj. destruct (nth_error (s_objs st) r) as [o|] eqn:E; [|cbn; auto using frame_refl].
  unfold put_obj, modify. cbn [fst snd]. set (st' := set_objs (replace_nth r (with_callback x o) (s_objs st)) st).
  assert (NT : forall k, nth_error (s_objs st') k = if Nat.eqb r k then Some (with_callback x o) else nth_error (s_objs st) k).
  { intros k. unfold st'. cbn [set_objs s_objs]. rewrite nth_replace. destruct (Nat.eqb r k) eqn:K; [|reflexivity].
    apply PeanoNat.Nat.eqb_eq in K. subst k. rewrite E. reflexivity. }
  assert (K : forall k o2, nth_error (s_objs st) k = Some o2 -> exists o', nth_error (s_objs st') k = Some o' /\ same_repo o2 o').
  { intros k o2 X. rewrite NT. destruct (Nat.eqb r k) eqn:K; [|exists o2; auto using same_repo_refl].
    apply PeanoNat.Nat.eqb_eq in K. subst k. rewrite E in X. injection X as <-. exists (with_callback x o). split; [reflexivity|]. repeat split. }
  split; [|split; [|exact Logic.I]].
  - split.
    + intros k o2. rewrite NT. destruct (Nat.eqb r k); [intros X; injection X as <-; apply (j_objs _ HJ r o E)|]. intros X. apply (j_objs _ HJ k o2 X).
    + intros k r2 I. destruct (j_mem _ HJ k r2 I) as (o2 & E2 & D2). destruct (K r2 o2 E2) as (o' & E' & S).
      exists o'. split; [exact E'|]. rewrite (same_repo_did _ _ S). exact D2.
    + apply (j_nodup _ HJ).
    + apply (j_ents _ HJ).
    + apply (j_blocks _ HJ).
  - split; [|reflexivity|reflexivity|intros c y X; exact X|].
    + intros k o2 X _. apply K. exact X.
    + unfold st'. cbn [set_objs s_objs]. clear. generalize r (with_callback x o). induction (s_objs st) as [|y l IH]; intros [|n] z; cbn; auto with arith.
Qed.

Lemma step_others w op : JW w -> op_named op -> op_did w op <> Some did ->
  JW (fst (sstep digest kdigest validate ecdsa now cb be w op)) /\ others w (fst (sstep digest kdigest validate ecdsa now cb be w op)).
Proof.
  intros HW ON ND. destruct op as [d handle status x key|x|h key|h x|h ws|h|h|h]; cbn [sstep op_did op_named] in *.
  - apply (on_new_others w _ (fun _ => True)); [exact HW| |exact Logic.I]. destruct ON as [ID HH].
    eapply tri_bind; [apply tri_create; auto; congruence|]. intros r. apply tri_ret. intros st _ H r' X. injection X as <-. exact H.
  - apply (on_new_others w _ (ctx [] [] [])); [exact HW| |].
    + eapply tri_weaken; [apply (tri_load_repo [] [] [] x)|intros st _ X; exact X|]. cbn beta. intros out st _ [_ H] r E. apply (H r E).
    + split; [apply not_nil|]. split; intros y [].
  - destruct (nth_error (w_refs w) h) as [r|] eqn:E.
    2: { cbn [fst]. split; [exact HW|]. split; [apply frame_refl|exists []; rewrite app_nil_r; reflexivity]. }
    apply (on_new_others w _ (ctx [] [] [])); [exact HW| |split; [apply not_nil|split; intros y []]].
    apply tri_with_obj. intros o. destruct (r_head o) as [b|] eqn:EH; [|apply tri_throw].
    eapply tri_bind.
    + eapply tri_weaken; [apply (tri_repo_load [] [] [] (b_cid b) None None key False Logic.I)| |intros a st _ X; exact X].
      cbn beta. intros st HJ [C EO]. split; [exact C|]. destruct (j_objs _ HJ r o EO) as [_ HD]. destruct (HD b EH) as (k & (x & R & V) & T & ID).
      exists x, k. rewrite V. tauto.
    + intros r'. cbn beta. apply tri_ret. intros st _ (_ & _ & V) r2 X. injection X as <-. exact V.
  - apply on_ref_others; [exact HW|]. intros r o E EO. exists (fun _ => True), (fun _ _ => True). split; [exact Logic.I|].
    eapply tri_bind; [apply tri_set_callback|]. intros []. apply tri_ret. auto.
  - apply on_ref_others; [exact HW|]. intros r o E EO. destruct (other_ctx w h r o HW ND E EO) as (d & C).
    exists (ctx d [r] []), (fun _ => ctx d [r] []). split; [exact C|]. eapply tri_bind; [apply tri_commit; [apply ctx_stable|apply tri_commit_target]|].
    intros cd. apply tri_ret. auto.
  - apply on_ref_others; [exact HW|]. intros r o E EO. destruct (other_ctx w h r o HW ND E EO) as (d & C).
    exists (ctx d [r] []), (fun _ => ctx d [r] []). split; [exact C|]. apply tri_status.
  - apply on_ref_others; [exact HW|]. intros r o E EO. destruct (other_ctx w h r o HW ND E EO) as (d & C).
    exists (ctx d [r] []), (fun _ => ctx d [r] []). split; [exact C|]. apply tri_status.
  - apply on_ref_others; [exact HW|]. intros r o E EO. destruct (other_ctx w h r o HW ND E EO) as (d & C).
    exists (ctx d [r] []), (fun _ => ctx d [r] []). split; [exact C|]. apply tri_status.
Qed.

(** ** Reading *)

Lemma JW_init : JW init_world.
Proof.
  split; [|intros r []]. split; try (intros; contradiction).
  - intros [|r] o H; discriminate H.
  - constructor.
  - intros c b H. discriminate H.
Qed.

Lemma mem_find_dget st : J st -> forall l, (forall k r, In (k, r) l -> exists o, nth_error (s_objs st) r = Some o /\ repo_did o = Ok (Some k)) ->
  mem_find did l st = (st, Ok (dget did l)).
Proof.
  intros HJ. induction l as [|[k r] l IH]; intros H; cbn [mem_find dget]; [reflexivity|].
  destruct (H k r (or_introl eq_refl)) as (o & E & D). unfold bindM, obj, lift. rewrite E, D.
  destruct (j_objs _ HJ r o E) as [HH _].
  assert (X : opt_str_eqb did (r_handle o) = false).
  { destruct (r_handle o) as [y|]; [|reflexivity]. cbn. destruct (str_eqb_spec did y) as [<-|]; [|reflexivity]. exfalso. exact (HH isdid). }
  rewrite X, orb_false_r. cbn [opt_str_eqb]. destruct (str_eqb did k); [reflexivity|]. apply IH. intros k' r' I. apply H. right. exact I.
Qed.

(** What a caller gets for [did]. *)
Definition stored (st : state) : option repo :=
  match be with
  | Memory => match dget did (s_mem st) with Some r => nth_error (s_objs st) r | None => None end
  | Datastore =>
      match dget did (s_ents st) with
      | Some e =>
          match read st (e_head e) with
          | Some b => match item_link (s "data") (b_val b) with
                      | Ok data => Some (Repo (mst_load data) (Some b) (e_handle e) (e_status e) false (e_key e))
                      | Err _ => None
                      end
          | None => None
          end
      | None => None
      end
  end.
Lemma seen_eq st : J st -> seen be st did = stored st.
Proof.
  intros HJ. unfold seen, stored, load_repo. assert (NE : nonempty did = true) by (pose proof not_nil as X; destruct did; [congruence|reflexivity]).
  unfold bindM at 1, assert. rewrite NE. cbn [ret]. destruct be.
  - unfold bindM, reads. rewrite (mem_find_dget st HJ _ (j_mem _ HJ)). destruct (dget did (s_mem st)); reflexivity.
  - unfold bindM at 1, reads. unfold ent_find. destruct (dget did (s_ents st)) as [e|] eqn:E.
    + unfold repo_load, bindM, reads, lift. destruct (read st (e_head e)) as [b|]; [|reflexivity].
      destruct (item_link (s "data") (b_val b)) as [data|]; [|reflexivity]. unfold new_obj, ret. cbn [set_objs s_objs].
      rewrite nth_error_app2, PeanoNat.Nat.sub_diag by apply le_n. reflexivity.
    + destruct (find _ (s_ents st)) as [[k e]|] eqn:F; [|reflexivity]. exfalso.
      apply find_some in F as [I Y]. destruct (j_ents _ HJ _ _ I) as (HH & _). cbn [snd] in Y.
      destruct (e_handle e) as [y|]; [|discriminate]. cbn in Y. apply str_eqb_eq in Y. subst y. exact (HH isdid).
Qed.
Lemma seen_others a b o : J a -> J b -> frame a b -> seen be a did = Some o -> exists o', seen be b did = Some o' /\ same_repo o o'.
Proof.
  intros Ja Jb F. rewrite (seen_eq a Ja), (seen_eq b Jb). unfold stored. rewrite (f_mem _ _ F), (f_ents _ _ F). destruct be.
  - destruct (dget did (s_mem a)) as [r|] eqn:E; [|discriminate]. intros H. apply (f_objs _ _ F r o H).
    apply In_dget1 in E. destruct (j_mem _ Ja _ _ E) as (o' & E' & D). congruence.
  - destruct (dget did (s_ents a)) as [e|]; [|discriminate]. destruct (read a (e_head e)) as [x|] eqn:R; [|discriminate].
    rewrite (f_blocks _ _ F _ _ R). destruct (item_link (s "data") (b_val x)); [|discriminate].
    intros H. injection H as <-. eexists. split; [reflexivity|]. apply same_repo_refl.
Qed.
End I.

(** Reading more blocks. *)
Section Mono.
Variable kdigest : str -> list N.
Variables r1 r2 : cid -> option ipld.
Hypothesis more : forall c v, r1 c = Some v -> r2 c = Some v.

Lemma get_entries_mono m es : get_entries kdigest r1 m = Ok es -> get_entries kdigest r2 m = Ok es.
Proof.
  unfold get_entries. destruct m as [[l|] [p|] ly od]; auto. destruct (r1 p) as [v|] eqn:E; [|discriminate].
  rewrite (more _ _ E). auto.
Qed.
Lemma get_mono : forall fuel m k v, get kdigest r1 fuel m k = Ok v -> get kdigest r2 fuel m k = Ok v.
Proof.
  induction fuel as [|f IH]; intros m k v; cbn [get]; [discriminate|].
  destruct (get_entries kdigest r1 m) as [es|] eqn:E; [|discriminate]. rewrite (get_entries_mono _ _ E). cbn [bind].
  set (i := find_index k es).
  assert (D : forall v, match at_prev es i with Some (Sub prev) => get kdigest r1 f prev k | _ => Ok None end = Ok v ->
                   match at_prev es i with Some (Sub prev) => get kdigest r2 f prev k | _ => Ok None end = Ok v).
  { destruct (at_prev es i) as [[|prev]|]; auto. }
  destruct (at_index es i) as [[k' v'|]|]; auto. destruct (str_eqb k' k); auto.
Qed.
Lemma walk_mono : forall fuel m k l, walk_leaves_from kdigest r1 fuel m k = Ok l -> walk_leaves_from kdigest r2 fuel m k = Ok l.
Proof.
  induction fuel as [|f IH]; intros m k l; cbn [walk_leaves_from]; [discriminate|].
  destruct (get_entries kdigest r1 m) as [es|] eqn:E; [|discriminate]. rewrite (get_entries_mono _ _ E). cbn [bind].
  set (i := find_index k es).
  assert (D : forall v, match at_prev es i with Some (Sub prev) => walk_leaves_from kdigest r1 f prev k | _ => Ok [] end = Ok v ->
                   match at_prev es i with Some (Sub prev) => walk_leaves_from kdigest r2 f prev k | _ => Ok [] end = Ok v).
  { destruct (at_prev es i) as [[|prev]|]; auto. }
  destruct (match at_prev es i with Some (Sub prev) => walk_leaves_from kdigest r1 f prev k | _ => Ok [] end) as [bf|] eqn:EB; [|discriminate].
  rewrite (D _ eq_refl). cbn [bind].
  match goal with |- bind (?g _) _ = _ -> bind (?g' _) _ = _ => set (go1 := g); set (go2 := g') end.
  assert (G : forall es l, go1 es = Ok l -> go2 es = Ok l).
  { clear - IH. induction es as [|[k' v|m'] es IHe]; intros l H; [exact H|..]; cbn in H |- *.
    - fold go1 in H. fold go2. destruct (go1 es) as [x|]; [|discriminate]. rewrite (IHe x eq_refl). exact H.
    - fold go1 in H. fold go2. destruct (walk_leaves_from kdigest r1 f m' k) as [x|] eqn:W; [|discriminate]. rewrite (IH _ _ _ W). cbn in *.
      destruct (go1 es) as [y|]; [|discriminate]. rewrite (IHe y eq_refl). exact H. }
  destruct (go1 (skipn i es)) as [x|] eqn:X; [|discriminate]. rewrite (G _ _ X). auto.
Qed.
End Mono.

Lemma rd_grows a b : grows a b -> forall c v, rd a c = Some v -> rd b c = Some v.
Proof.
  intros G c v. unfold rd. assert (X : forall st, dget c (vals (s_blocks st)) = option_map b_val (read st c)).
  { intros st. unfold read, vals. induction (s_blocks st) as [|[k x] l IH]; cbn [map dget fst snd]; [reflexivity|]. destruct (str_eqb c k); auto. }
  rewrite !X. destruct (read a c) as [x|] eqn:R; [|discriminate]. rewrite (G _ _ R). auto.
Qed.
Lemma get_record_grows kdigest a b o o' coll rkey v : grows a b -> same_repo o o' ->
  get_record kdigest a o coll rkey = Ok v -> get_record kdigest b o' coll rkey = Ok v.
Proof.
  intros G (_ & E & _). unfold get_record. rewrite E.
  destruct (get kdigest (rd a) max_depth (r_mst o) (coll ++ 47%N :: rkey)) as [c|] eqn:X; [|discriminate].
  rewrite (get_mono kdigest _ _ (rd_grows a b G) _ _ _ _ X). cbn [bind]. destruct c as [c|]; auto. destruct (nonempty c); auto.
  destruct (read a c) as [x|] eqn:R; [|discriminate]. rewrite (G _ _ R). auto.
Qed.
Lemma contents_grows a b : grows a b -> forall es acc v, contents_loop a acc es = Ok v -> contents_loop b acc es = Ok v.
Proof.
  intros G. induction es as [|[k c] es IH]; intros acc v; cbn [contents_loop]; auto.
  destruct (split_on 47%N k) as [|x [|y [|]]]; auto. destruct (read a c) as [z|] eqn:R; [|discriminate]. rewrite (G _ _ R). auto.
Qed.
Lemma get_contents_grows kdigest a b o o' v : grows a b -> same_repo o o' ->
  get_contents kdigest a o = Ok v -> get_contents kdigest b o' = Ok v.
Proof.
  intros G (_ & E & _). unfold get_contents, mst_list. rewrite E.
  destruct (walk_leaves_from kdigest (rd a) max_depth (r_mst o) []) as [l|] eqn:X; [|discriminate].
  rewrite (walk_mono kdigest _ _ (rd_grows a b G) _ _ _ _ X). cbn [bind]. apply contents_grows. exact G.
Qed.

Section Top.
Variable digest : list N -> list N.
Variable kdigest : str -> list N.
Variable validate : ipld -> res unit.
Variable ecdsa : N -> Z -> list N -> list N.
Variable now : Z -> str.
Variable cb : nat -> option exn.
Variable be : backend.
Hypothesis inj : forall a b, digest a = digest b -> a = b.
Notation sstep := (sstep digest kdigest validate ecdsa now cb be).
Notation srun := (srun digest kdigest validate ecdsa now cb be).

(** A DID other than the given one. *)
Definition some_did (x : option str) : str := s "did:" ++ repeat 120%N (length (match x with Some d => d | None => [] end)).
Lemma some_did_ok x : is_did (some_did x) /\ x <> Some (some_did x).
Proof.
  split; [reflexivity|]. unfold some_did. destruct x as [d|]; [|discriminate]. intros H.
  assert (L : length d = length (s "did:" ++ repeat 120%N (length d))) by congruence.
  rewrite app_length, repeat_length in L. cbn in L. lia.
Qed.
Lemma step_JW w op : JW digest w -> op_named op -> JW digest (fst (sstep w op)).
Proof.
  intros HW ON. destruct (some_did_ok (op_did w op)) as [A B].
  exact (proj1 (step_others digest kdigest validate ecdsa now cb be inj (some_did (op_did w op)) A w op HW ON B)).
Qed.
Lemma run_JW ops : forall w w' outs, JW digest w -> Forall op_named ops -> srun w ops = (w', outs) -> JW digest w'.
Proof.
  induction ops as [|op ops IH]; intros w w' outs HW ON E; cbn [StorageModel.srun] in E.
  - injection E as <- _. exact HW.
  - inversion ON; subst. pose proof (step_JW w op HW) as K. destruct (sstep w op) as [w1 o1]. cbn [fst] in K.
    destruct (srun w1 ops) as [w2 os] eqn:E2. injection E as <- _. eapply IH; [apply K; assumption| |exact E2]. assumption.
Qed.

Notation reads_same := (reads_same kdigest).

Lemma c58_any ops w outs op w' out did : srun init_world ops = (w, outs) -> Forall op_named (ops ++ [op]) ->
  sstep w op = (w', out) -> is_did did -> op_did w op <> Some did ->
  match seen be (w_state w) did with
  | Some o => exists o', seen be (w_state w') did = Some o' /\ reads_same (w_state w) (w_state w') o o'
  | None => seen be (w_state w') did = None
  end /\
  (forall h o, handle_obj w h = Some o -> handle_did w h = Some did ->
     exists o', handle_obj w' h = Some o' /\ handle_did w' h = Some did /\ reads_same (w_state w) (w_state w') o o').
Proof.
  intros E ON ES ID ND. apply Forall_app in ON as [ON1 ON2]. inversion ON2; subst.
  pose proof (run_JW ops init_world w outs (JW_init digest) ON1 E) as HW.
  destruct (step_others digest kdigest validate ecdsa now cb be inj did ID w op HW) as [HW' [F [l R]]]; [assumption|exact ND|].
  rewrite ES in *. cbn [fst] in *. destruct HW as [Ja _]. destruct HW' as [Jb _].
  assert (RS : forall o o', same_repo o o' -> reads_same (w_state w) (w_state w') o o').
  { intros o o' S. split; [exact S|]. split.
    - intros coll rkey v. apply get_record_grows; [apply F|exact S].
    - intros v. apply get_contents_grows; [apply F|exact S]. }
  split.
  - destruct (seen be (w_state w) did) as [o|] eqn:SE.
    + destruct (seen_others digest be did ID _ _ o Ja Jb F SE) as (o' & A & B). exists o'. auto.
    + destruct (seen be (w_state w') did) as [o|] eqn:SE'; [|reflexivity]. exfalso.
      rewrite (seen_eq digest be did ID) in SE by exact Ja. rewrite (seen_eq digest be did ID) in SE' by exact Jb.
      unfold stored in *. rewrite (f_mem _ _ _ F), (f_ents _ _ _ F) in SE'. destruct be.
      * destruct (dget did (s_mem (w_state w))) as [r|] eqn:X; [|discriminate]. apply dget_In in X.
        destruct (j_mem _ _ Ja _ _ X) as (o' & Y & _). congruence.
      * destruct (dget did (s_ents (w_state w))) as [e|] eqn:X; [|discriminate]. apply dget_In in X.
        destruct (j_ents _ _ Ja _ _ X) as (_ & _ & b & Y & _). rewrite Y in SE. rewrite (f_blocks _ _ _ F _ _ Y) in SE'.
        destruct (item_link (s "data") (b_val b)); discriminate.
  - intros h o HO HD. unfold handle_obj in HO. destruct (nth_error (w_refs w) h) as [r|] eqn:HR; [|discriminate].
    assert (D : repo_did o = Ok (Some did)).
    { unfold handle_did, handle_obj in HD. rewrite HR, HO in HD. destruct (repo_did o); congruence. }
    destruct (f_objs _ _ _ F r o HO D) as (o' & A & S).
    assert (HR' : nth_error (w_refs w') h = Some r).
    { rewrite R, nth_error_app1; [exact HR|]. apply nth_error_Some. congruence. }
    exists o'. unfold handle_did, handle_obj. rewrite HR', A. split; [reflexivity|]. split; [|auto].
    rewrite (same_repo_did _ _ S), D. reflexivity.
Qed.
End Top.
