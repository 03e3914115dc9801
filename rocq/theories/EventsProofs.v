(** Reading events by sequence number: the loop, the log of a history, the scans. *)
From Coq Require Import String List NArith ZArith Bool Lia Sorted Permutation.
From Coq Require Import ZifyBool ZifyNat ZifyN.
From Verif Require Import Base Lists Ipld IpldProofs MstModel MstTree MstRep MstHist TidModel
  CarModel StorageModel StorageSpec CommitProofs StoreProofs ExecProofs RepoSpec RepoProofs RepoHist RepoSteps RepoFacts
  EventsModel EventsSpec.
Import ListNotations.

(** ** Lists *)

Lemma mem_str_In x l : mem_str x l = true <-> In x l.
Proof.
  induction l as [|y l IH]; cbn; [split; [discriminate|tauto]|].
  rewrite orb_true_iff, IH, str_eqb_eq. firstorder.
Qed.

Lemma StronglySorted_filter {A} (R : A -> A -> Prop) f l : StronglySorted R l -> StronglySorted R (filter f l).
Proof.
  induction 1 as [|a l S IH F]; cbn; [constructor|]. destruct (f a); auto. constructor; auto.
  apply Forall_forall. intros x HX. apply filter_In in HX as [HX _]. rewrite Forall_forall in F. auto.
Qed.

Lemma NoDup_map_filter {A B} (g : A -> B) f l : NoDup (map g l) -> NoDup (map g (filter f l)).
Proof.
  induction l as [|a l IH]; cbn; auto. intros H. inversion H as [|? ? N ND]; subst. destruct (f a); auto. cbn. constructor; auto.
  intros HI. apply N. apply in_map_iff in HI as (x & E & HX). apply filter_In in HX as [HX _]. rewrite <- E. apply in_map. auto.
Qed.

Lemma in_order_split l n : in_order l -> (forall b, In b l -> (n <= b_seq b)%Z) ->
  l = filter (fun b => b_seq b =? n)%Z l ++ filter (fun b => negb (b_seq b =? n)%Z) l.
Proof.
  induction 1 as [|a l S IH F]; intros GE; cbn; auto.
  assert (GE' : forall b, In b l -> (n <= b_seq b)%Z) by (intros; apply GE; right; auto).
  destruct (Z.eqb_spec (b_seq a) n) as [E|NE]; cbn [negb].
  - cbn. f_equal. auto.
  - assert (X : forall b, In b l -> (b_seq b =? n)%Z = false).
    { intros b HB. rewrite Forall_forall in F. specialize (F b HB). specialize (GE a (or_introl eq_refl)). lia. }
    assert (Y : forall l', (forall b, In b l' -> (b_seq b =? n)%Z = false) ->
      filter (fun b => b_seq b =? n)%Z l' = [] /\ filter (fun b => negb (b_seq b =? n)%Z) l' = l').
    { clear. induction l' as [|b l' IH]; intros H; cbn; auto. rewrite (H b (or_introl eq_refl)). cbn.
      destruct IH as [-> ->]; auto. intros. apply H. right. auto. }
    destruct (Y l X) as [-> ->]. reflexivity.
Qed.

(** ** The loop *)

Definition other (b : block) : Prop := event_block_value (b_val b) = Ok false /\ commit_keys (b_val b) = false.

Definition is_item_event (b : block) : Prop := event_block_value (b_val b) = Ok true.

Definition op_blocks (c : block) (k : cid) : Prop :=
  exists ops op, b_ops c = Some ops /\ In op ops /\ op_action op <> DELETE /\ op_cid op = Some k.

Record is_item_commit (st : state) (b : block) : Prop := {
  ic_event : event_block_value (b_val b) = Ok false;
  ic_keys : commit_keys (b_val b) = true;
  ic_ops : exists ops, b_ops b = Some ops /\ forall op, In op ops -> op_action op <> DELETE ->
    exists c x, op_cid op = Some c /\ read st c = Some x;
  ic_root : exists root x, item_link (s "data") (b_val b) = Ok root /\ read st root = Some x
}.

Definition prev_of (v : ipld) : option cid := match item_link (s "prev") v with Ok c => Some c | Err _ => None end.

Definition group (l : list block) : list (cid * block) := fold_left (fun bl b => dset (b_cid b) b bl) l [].

Lemma group_gen l : forall bl, NoDup (keys bl) ->
  (forall b, In b l -> dget (b_cid b) bl = None) -> NoDup (map b_cid l) ->
  let bl' := fold_left (fun bl b => dset (b_cid b) b bl) l bl in
  NoDup (keys bl') /\ forall k b, dget k bl' = Some b <-> dget k bl = Some b \/ (In b l /\ b_cid b = k).
Proof.
  induction l as [|a l IH]; intros bl ND FR NC; cbn [fold_left].
  - split; auto. intros k b. cbn. tauto.
  - cbn [map] in NC. inversion NC as [|? ? NI NC']; subst.
    destruct (IH (dset (b_cid a) a bl)) as [A B]; auto.
    + apply dset_NoDup. auto.
    + intros b HB. rewrite dget_dset. destruct (str_eqb_spec (b_cid b) (b_cid a)) as [E|NE].
      * exfalso. apply NI. rewrite <- E. apply in_map. auto.
      * apply FR. right. auto.
    + split; auto. intros k b. rewrite B, dget_dset. destruct (str_eqb_spec k (b_cid a)) as [->|NE].
      * rewrite (FR a (or_introl eq_refl)). split.
        -- intros [[= <-]|[X Y]]; right; cbn; auto.
        -- intros [X|[[<-|X] Y]]; [discriminate|left; auto|right; auto].
      * split; [intros [X|[X Y]]; [left|right; split; [right|]]; auto|].
        intros [X|[[<-|X] Y]]; [left; auto|congruence|right; auto].
Qed.

Lemma group_get l : NoDup (map b_cid l) -> NoDup (keys (group l)) /\
  forall k b, dget k (group l) = Some b <-> In b l /\ b_cid b = k.
Proof.
  intros NC. destruct (group_gen l [] ltac:(constructor) ltac:(reflexivity) NC) as [A B]. split; auto.
  intros k b. unfold group. rewrite B. cbn. intuition discriminate.
Qed.

Lemma add_op_blocks_ok st ops : forall bl, NoDup (keys bl) ->
  (forall k b, dget k bl = Some b -> read st k = Some b) ->
  (forall op, In op ops -> op_action op <> DELETE -> exists c x, op_cid op = Some c /\ read st c = Some x) ->
  exists bl', add_op_blocks st bl ops = Ok bl' /\ NoDup (keys bl') /\
    forall k b, dget k bl' = Some b <-> dget k bl = Some b \/
      (read st k = Some b /\ exists op, In op ops /\ op_action op <> DELETE /\ op_cid op = Some k).
Proof.
  induction ops as [|op ops IH]; intros bl ND RD OPS.
  - exists bl. splits; auto. intros k b. split; auto. intros [H|(_ & op & [] & _)]. auto.
  - assert (OPS' : forall o, In o ops -> op_action o <> DELETE -> exists c x, op_cid o = Some c /\ read st c = Some x).
    { intros o HO. apply OPS. right. auto. }
    assert (W : forall bl' bl0, (forall k b, dget k bl' = Some b <-> dget k bl0 = Some b \/
        (read st k = Some b /\ exists o, In o ops /\ op_action o <> DELETE /\ op_cid o = Some k)) ->
      (forall k b, dget k bl0 = Some b <-> dget k bl = Some b \/ (read st k = Some b /\ op_action op <> DELETE /\ op_cid op = Some k)) ->
      forall k b, dget k bl' = Some b <-> dget k bl = Some b \/
        (read st k = Some b /\ exists o, In o (op :: ops) /\ op_action o <> DELETE /\ op_cid o = Some k)).
    { intros bl' bl0 H1 H2 k b. rewrite H1, H2. split.
      - intros [[X|(X & Y)]|(X & o & Y & Z)]; auto; right; split; auto; [exists op|exists o]; cbn; tauto.
      - intros [X|(X & o & [<-|Y] & Z)]; auto. right. split; auto. exists o. tauto. }
    cbn [add_op_blocks].
    assert (DEL : op_action op = DELETE -> exists bl', add_op_blocks st bl ops = Ok bl' /\ NoDup (keys bl') /\
      forall k b, dget k bl' = Some b <-> dget k bl = Some b \/
        (read st k = Some b /\ exists o, In o (op :: ops) /\ op_action o <> DELETE /\ op_cid o = Some k)).
    { intros E. destruct (IH bl ND RD OPS') as (bl' & A & B & C). exists bl'. splits; auto.
      apply (W bl' bl C). intros k b. rewrite E. tauto. }
    assert (DD : op_action op = DELETE \/ op_action op <> DELETE) by (destruct (op_action op); auto; right; discriminate).
    destruct DD as [E|E].
    { rewrite E. auto. }
    destruct (OPS op (or_introl eq_refl) E) as (c & x & OC & RC).
    assert (NXT : exists bl', (match dget c bl with Some _ => add_op_blocks st bl ops | None =>
        match read st c with Some b => add_op_blocks st (dset c b bl) ops | None => Err AssertionError end end) = Ok bl' /\ NoDup (keys bl') /\
      forall k b, dget k bl' = Some b <-> dget k bl = Some b \/
        (read st k = Some b /\ exists o, In o (op :: ops) /\ op_action o <> DELETE /\ op_cid o = Some k)).
    { destruct (dget c bl) as [y|] eqn:DC.
      - destruct (IH bl ND RD OPS') as (bl' & A & B & C). exists bl'. splits; auto.
        apply (W bl' bl C). intros k b. split; auto. intros [X|(X & _ & Y)]; auto.
        rewrite OC in Y. injection Y as <-. rewrite (RD _ _ DC) in X. congruence.
      - rewrite RC. destruct (IH (dset c x bl)) as (bl' & A & B & C); auto.
        + apply dset_NoDup. auto.
        + intros k b. rewrite dget_dset. destruct (str_eqb_spec k c) as [->|]; auto. congruence.
        + exists bl'. splits; auto. apply (W bl' _ C). intros k b. rewrite dget_dset.
          destruct (str_eqb_spec k c) as [->|NE].
          * rewrite RC, DC. split; [intros [= <-]; auto|]. intros [X|(X & _)]; congruence.
          * split; auto. intros [X|(_ & _ & X)]; auto. congruence. }
    destruct (op_action op); [| |congruence]; rewrite OC; exact NXT.
Qed.

Lemma make_commit_ok st c g : is_item_commit st c -> NoDup (map b_cid g) ->
  (forall b, In b g <-> read st (b_cid b) = Some b /\ b_seq b = b_seq c) ->
  (forall k b, read st k = Some b -> b_cid b = k) ->
  exists cd, make_commit st c (group g) = Ok cd /\ cd_commit cd = c /\ cd_prev cd = prev_of (b_val c) /\
    commit_blocks st c (cd_blocks cd).
Proof.
  intros IC NC HG CK. destruct (group_get g NC) as [GN GG].
  destruct (ic_ops _ _ IC) as (ops & OPS & OK). destruct (ic_root _ _ IC) as (root & x & RT & RX).
  unfold make_commit. rewrite OPS.
  destruct (add_op_blocks_ok st ops (group g) GN) as (bl & A & B & C); auto.
  { intros k b H. apply GG in H as [H <-]. apply HG in H. tauto. }
  rewrite A. cbn [bind]. rewrite RT. cbn [bind].
  assert (S1 : forall bl', NoDup (keys bl') ->
    (forall k b, dget k bl' = Some b <-> dget k bl = Some b \/ (k = root /\ b = x)) -> commit_blocks st c bl').
  { intros bl' N' H. split; auto. intros k b. rewrite H, C, GG. split.
    - intros [[(X & <-)|(X & op & Y)]|(-> & ->)].
      + apply HG in X. tauto.
      + split; auto. right. left. exists ops, op. tauto.
      + split; auto.
    - intros (R & [X|[(ops' & op & X & Y)|X]]).
      + left. left. split; [apply HG|auto]; rewrite (CK _ _ R); auto.
      + rewrite OPS in X. injection X as <-. left. right. split; auto. exists op. tauto.
      + rewrite RT in X. injection X as <-. right. split; congruence. }
  assert (RB : forall k b, dget k bl = Some b -> read st k = Some b).
  { intros k b H. apply C in H as [H|[H _]]; auto. apply GG in H as [H <-]. apply HG in H. tauto. }
  destruct (dget root bl) as [y|] eqn:DR; cbn [bind].
  - eexists. splits; eauto; [reflexivity..|]. cbn [cd_blocks]. apply S1; auto.
    intros k b. split; auto. intros [H|[-> ->]]; auto. rewrite DR. apply RB in DR. congruence.
  - rewrite RX. cbn [bind]. eexists. splits; eauto; [reflexivity..|]. cbn [cd_blocks]. apply S1; auto using dset_NoDup.
    intros k b. rewrite dget_dset. destruct (str_eqb_spec k root) as [->|NE].
    + rewrite DR. split; [intros [= <-]; auto|intros [H|[_ ->]]; congruence].
    + split; auto. intros [H|[H _]]; congruence.
Qed.

(** What the loop still has to yield for the blocks collected so far. *)
Inductive pending (st : state) : option block -> list (cid * block) -> list eitem -> Prop :=
| p_none : pending st None [] []
| p_commit c bl cd : bl <> [] -> make_commit st c bl = Ok cd -> pending st (Some c) bl [ECommit cd].

Lemma loop_end st seq cb bl pre : pending st cb bl pre -> events_loop st seq cb bl [] = (pre, None).
Proof. destruct 1 as [|c bl cd NE M]; cbn; auto. destruct bl; [congruence|]. rewrite M. reflexivity. Qed.

Lemma loop_switch st seq cb bl pre b r : pending st cb bl pre -> b_seq b <> 0%Z -> seq <> Some (b_seq b) ->
  events_loop st seq cb bl (b :: r) =
  (pre ++ fst (events_loop st (Some (b_seq b)) None [] (b :: r)), snd (events_loop st (Some (b_seq b)) None [] (b :: r))).
Proof.
  intros P Z0 NS. cbn [events_loop]. destruct (Z.eqb_spec (b_seq b) 0); [contradiction|].
  rewrite Z.eqb_refl. cbn [negb].
  assert (X : match seq with Some n0 => negb (b_seq b =? n0)%Z | None => true end = true).
  { destruct seq as [m|]; auto. destruct (Z.eqb_spec (b_seq b) m); auto. congruence. }
  rewrite X. destruct P as [|c bl cd NE M].
  - cbn [app]. apply surjective_pairing.
  - rewrite M. cbn [as_commit bind yield app]. reflexivity.
Qed.

Lemma loop_group st n g : forall cb bl r, n <> 0%Z -> (forall b, In b g -> b_seq b = n /\ event_block_value (b_val b) = Ok false) ->
  events_loop st (Some n) cb bl (g ++ r)
  = events_loop st (Some n) (fold_left (fun cb b => if commit_keys (b_val b) then Some b else cb) g cb)
      (fold_left (fun bl b => dset (b_cid b) b bl) g bl) r.
Proof.
  induction g as [|b g IH]; intros cb bl r Z0 H; auto.
  destruct (H b (or_introl eq_refl)) as [SB EB]. cbn [app events_loop fold_left].
  rewrite SB. destruct (Z.eqb_spec n 0); [contradiction|]. rewrite Z.eqb_refl. cbn [negb]. rewrite EB.
  apply IH; auto. intros x HX. apply H. right. auto.
Qed.

Lemma fold_commit c g : forall cb, (forall b, In b g -> b = c \/ commit_keys (b_val b) = false) -> commit_keys (b_val c) = true ->
  (cb = Some c \/ In c g) -> fold_left (fun cb b => if commit_keys (b_val b) then Some b else cb) g cb = Some c.
Proof.
  induction g as [|b g IH]; intros cb H CK D; cbn [fold_left].
  - destruct D as [->|[]]. auto.
  - apply IH; auto.
    + intros x HX. apply H. right. auto.
    + destruct (H b (or_introl eq_refl)) as [->|E].
      * rewrite CK. auto.
      * rewrite E. destruct D as [D|[->|D]]; auto. congruence.
Qed.

(** The item for an entry block. *)
Definition block_item (st : state) (i : eitem) (e : block) : Prop :=
  (is_item_event e /\ i = EEvent (b_val e)) \/
  (is_item_commit st e /\ exists cd, i = ECommit cd /\ cd_commit cd = e /\ cd_prev cd = prev_of (b_val e) /\
     commit_blocks st e (cd_blocks cd)).

(** [lg] are the commit and event blocks behind the blocks [bs]. *)
Record heads (st : state) (lg bs : list block) : Prop := {
  h_sorted : StronglySorted (fun a b => (b_seq a < b_seq b)%Z) lg;
  h_in : forall e, In e lg -> In e bs;
  h_item : forall e, In e lg -> is_item_event e \/ is_item_commit st e;
  h_part : forall b, In b bs -> exists e, In e lg /\ b_seq e = b_seq b /\ (b = e \/ is_item_commit st e /\ other b);
  h_all : forall e c b, In e lg -> read st c = Some b -> b_seq b = b_seq e -> In b bs
}.

Lemma heads_loop st : (forall k b, read st k = Some b -> b_cid b = k) ->
  forall lg bs seq cb bl pre, heads st lg bs -> in_order bs -> NoDup (map b_cid bs) ->
  (forall b, In b bs -> read st (b_cid b) = Some b /\ b_seq b <> 0%Z) -> pending st cb bl pre ->
  (forall b, In b bs -> seq <> Some (b_seq b)) ->
  exists items, events_loop st seq cb bl bs = (pre ++ items, None) /\ Forall2 (block_item st) items lg.
Proof.
  intros CK. induction lg as [|e lg IH]; intros bs seq cb bl pre H SO ND RD P SQ.
  - destruct bs as [|b bs].
    + exists []. rewrite app_nil_r. split; [apply loop_end; auto|constructor].
    + destruct (h_part _ _ _ H b (or_introl eq_refl)) as (e & [] & _).
  - pose proof (h_sorted _ _ _ H) as SL. inversion SL as [|? ? SL' FL]; subst. rewrite Forall_forall in FL.
    set (n := b_seq e) in *.
    assert (GE : forall b, In b bs -> (n <= b_seq b)%Z).
    { intros b HB. destruct (h_part _ _ _ H b HB) as (x & [<-|HX] & SE & _); [unfold n; lia|]. specialize (FL x HX). lia. }
    pose proof (in_order_split bs n SO GE) as SP.
    set (g := filter (fun b => b_seq b =? n)%Z bs) in *. set (r := filter (fun b => negb (b_seq b =? n)%Z) bs) in *.
    assert (IG : forall b, In b g <-> In b bs /\ b_seq b = n).
    { intros b. unfold g. rewrite filter_In, Z.eqb_eq. tauto. }
    assert (IR : forall b, In b r <-> In b bs /\ b_seq b <> n).
    { intros b. unfold r. rewrite filter_In, negb_true_iff, Z.eqb_neq. tauto. }
    assert (EG : In e g) by (apply IG; split; auto; apply (h_in _ _ _ H); left; auto).
    assert (N0 : n <> 0%Z) by (apply RD; apply (proj1 (IG e) EG)).
    assert (NG : NoDup (map b_cid g)) by (apply NoDup_map_filter; auto).
    assert (GP : forall b, In b g -> b = e \/ is_item_commit st e /\ other b).
    { intros b HB. apply IG in HB as [HB SB]. destruct (h_part _ _ _ H b HB) as (x & [<-|HX] & SE & D); auto.
      specialize (FL x HX). lia. }
    assert (HR : heads st lg r).
    { split; auto.
      - intros x HX. apply IR. split; [apply (h_in _ _ _ H); right; auto|]. specialize (FL x HX). lia.
      - intros x HX. apply (h_item _ _ _ H). right. auto.
      - intros b HB. apply IR in HB as [HB NB]. destruct (h_part _ _ _ H b HB) as (x & [<-|HX] & SE & D); [exfalso; apply NB; symmetry; exact SE|].
        exists x. auto.
      - intros x c b HX RB SB. apply IR. split; [eapply (h_all _ _ _ H); eauto; right; auto|]. specialize (FL x HX). lia. }
    assert (SOR : in_order r) by (apply StronglySorted_filter; auto).
    assert (NDR : NoDup (map b_cid r)) by (apply NoDup_map_filter; auto).
    assert (RDR : forall b, In b r -> read st (b_cid b) = Some b /\ b_seq b <> 0%Z) by (intros b HB; apply RD, IR; auto).
    assert (SQR : forall b, In b r -> Some n <> Some (b_seq b)).
    { intros b HB [= E]. apply IR in HB as [_ HB]. apply HB. auto. }
    assert (SW : events_loop st seq cb bl bs
      = (pre ++ fst (events_loop st (Some n) None [] (g ++ r)), snd (events_loop st (Some n) None [] (g ++ r)))).
    { rewrite SP. destruct g as [|b0 g0] eqn:EQ; [destruct EG|].
      assert (B0 : In b0 (b0 :: g0)) by (left; auto). apply IG in B0 as [B0 S0]. cbn [app].
      rewrite (loop_switch st seq cb bl pre b0 (g0 ++ r) P); [rewrite S0; reflexivity|congruence|]. apply SQ; auto. }
    rewrite SW. clear SW.
    destruct (h_item _ _ _ H e (or_introl eq_refl)) as [EV|IC].
    + assert (GEQ : g = [e]).
      { assert (X : forall b, In b g -> b = e).
        { intros b HB. destruct (GP b HB) as [->|[IC _]]; auto. pose proof (ic_event _ _ IC) as Y. unfold is_item_event in EV. congruence. }
        clear - X EG NG. destruct g as [|a [|b g]]; [destruct EG|rewrite (X a (or_introl eq_refl)); auto|].
        exfalso. cbn in NG. inversion NG as [|? ? NI _]; subst. apply NI. left.
        rewrite (X a), (X b); cbn; auto. }
      rewrite GEQ. cbn [app events_loop]. fold n. destruct (Z.eqb_spec n 0); [contradiction|].
      rewrite Z.eqb_refl. cbn [negb]. unfold is_item_event in EV. rewrite EV.
      destruct (IH r (Some n) None [] [] HR SOR NDR RDR (p_none st) SQR) as (items & E & F).
      rewrite E. cbn [yield fst snd app]. exists (EEvent (b_val e) :: items). split; auto.
      constructor; auto. left. split; auto.
    + rewrite loop_group; auto.
      2:{ intros b HB. split; [apply IG; auto|]. destruct (GP b HB) as [->|[_ [X _]]]; auto. apply (ic_event _ _ IC). }
      rewrite (fold_commit e g None); auto.
      2:{ intros b HB. destruct (GP b HB) as [->|[_ [_ X]]]; auto. }
      2:{ apply (ic_keys _ _ IC). }
      change (fold_left (fun bl0 b => dset (b_cid b) b bl0) g []) with (group g).
      destruct (make_commit_ok st e g IC NG) as (cd & MC & C1 & C2 & C3).
      { intros b. rewrite IG. split.
        - intros [HB SB]. split; [apply RD; auto|auto].
        - intros [RB SB]. split; auto. eapply (h_all _ _ _ H); eauto. left. auto. }
      { intros k b HK. apply (CK k b HK). }
      assert (PN : pending st (Some e) (group g) [ECommit cd]).
      { apply p_commit; auto. intros EQ. destruct (group_get g NG) as [_ GG].
        assert (X : dget (b_cid e) (group g) = Some e) by (apply GG; auto). rewrite EQ in X. discriminate X. }
      destruct (IH r (Some n) (Some e) (group g) _ HR SOR NDR RDR PN SQR) as (items & E & F).
      rewrite E. cbn [fst snd app]. exists (ECommit cd :: items). split; auto.
      constructor; auto. right. split; auto. exists cd. auto.
Qed.
