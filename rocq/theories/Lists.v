(** Lemmas about strings, sorted lists and association lists. *)
From Coq Require Import List NArith ZArith Bool Lia Sorted Permutation.
From Coq Require Import ZifyBool ZifyNat ZifyN.
From Verif Require Import Base.
Import ListNotations.

Lemma str_cmp_refl a : str_cmp a a = Eq.
Proof. induction a as [|x a IH]; simpl; auto. rewrite N.compare_refl. auto. Qed.

Lemma str_cmp_eq a b : str_cmp a b = Eq <-> a = b.
Proof.
  split; [|intros ->; apply str_cmp_refl].
  revert b; induction a as [|x a IH]; destruct b as [|y b]; simpl; try discriminate; auto.
  destruct (N.compare_spec x y); try discriminate.
  intros E. subst. f_equal. auto.
Qed.

Lemma str_cmp_antisym a b : str_cmp a b = CompOpp (str_cmp b a).
Proof.
  revert b; induction a as [|x a IH]; destruct b as [|y b]; simpl; auto.
  rewrite (N.compare_antisym x y).
  destruct (N.compare x y); simpl; auto.
Qed.

Lemma slt_trans a b c : slt a b -> slt b c -> slt a c.
Proof.
  unfold slt. revert b c; induction a as [|x a IH]; destruct b as [|y b]; destruct c as [|z c];
    simpl; try discriminate; auto.
  destruct (N.compare_spec x y); destruct (N.compare_spec y z); intros E1 E2; try discriminate; subst.
  - rewrite N.compare_refl; eauto.
  - rewrite (proj2 (N.compare_lt_iff _ _)); auto.
  - rewrite (proj2 (N.compare_lt_iff _ _)); auto.
  - rewrite (proj2 (N.compare_lt_iff _ _)); auto. lia.
Qed.

Lemma slt_irrefl a : ~ slt a a.
Proof. unfold slt. rewrite str_cmp_refl. discriminate. Qed.

Lemma slt_asym a b : slt a b -> ~ slt b a.
Proof. intros H1 H2. exact (slt_irrefl a (slt_trans _ _ _ H1 H2)). Qed.

Lemma slt_neq a b : slt a b -> a <> b.
Proof. intros H ->. exact (slt_irrefl _ H). Qed.

Lemma slt_total a b : slt a b \/ a = b \/ slt b a.
Proof.
  unfold slt. destruct (str_cmp a b) eqn:E; auto.
  - right; left. apply str_cmp_eq; auto.
  - right; right. rewrite str_cmp_antisym, E; auto.
Qed.

Lemma str_eqb_eq a b : str_eqb a b = true <-> a = b.
Proof. unfold str_eqb. rewrite <- str_cmp_eq. destruct (str_cmp a b); split; intros; try discriminate; auto. Qed.

Lemma str_eqb_refl a : str_eqb a a = true.
Proof. apply str_eqb_eq; auto. Qed.

Lemma str_eqb_neq a b : str_eqb a b = false <-> a <> b.
Proof.
  rewrite <- str_eqb_eq. destruct (str_eqb a b); split; intros; try discriminate; auto; try congruence.
Qed.

Lemma str_ltb_lt a b : str_ltb a b = true <-> slt a b.
Proof. unfold str_ltb, slt. destruct (str_cmp a b); split; intros; try discriminate; auto. Qed.

Lemma str_leb_ltb a b : str_leb a b = negb (str_ltb b a).
Proof. unfold str_leb, str_ltb. rewrite (str_cmp_antisym a b). destruct (str_cmp b a); auto. Qed.

Lemma str_ltb_leb a b : str_ltb a b = negb (str_leb b a).
Proof. rewrite str_leb_ltb, negb_involutive. auto. Qed.

Lemma str_leb_le a b : str_leb a b = true <-> slt a b \/ a = b.
Proof.
  unfold str_leb, slt. rewrite <- str_cmp_eq.
  destruct (str_cmp a b); split; intros; try discriminate; auto; intuition discriminate.
Qed.

Lemma str_leb_nlt a b : str_leb a b = true <-> ~ slt b a.
Proof.
  rewrite str_leb_ltb, <- str_ltb_lt. destruct (str_ltb b a); simpl; split; intros; auto; try congruence.
Qed.

Lemma str_eqb_sym a b : str_eqb a b = str_eqb b a.
Proof.
  destruct (str_eqb b a) eqn:E.
  - apply str_eqb_eq in E. subst. apply str_eqb_refl.
  - apply str_eqb_neq in E. apply str_eqb_neq. congruence.
Qed.

Definition str_dec (a b : str) : {a = b} + {a <> b}.
Proof. destruct (str_eqb a b) eqn:E; [left; apply str_eqb_eq|right; apply str_eqb_neq]; auto. Defined.

Lemma str_eqb_spec a b : Bool.reflect (a = b) (str_eqb a b).
Proof. destruct (str_eqb a b) eqn:E; constructor; [apply str_eqb_eq|apply str_eqb_neq]; auto. Qed.

Lemma slt_nil_cons x a : slt [] (x :: a).
Proof. reflexivity. Qed.

Lemma slt_app_prefix p a b : slt (p ++ a) (p ++ b) <-> slt a b.
Proof. unfold slt. induction p as [|x p IH]; simpl; auto; [tauto|]. rewrite N.compare_refl. auto. Qed.

Lemma starts_with_app p x : starts_with p x = true <-> exists r, x = p ++ r.
Proof.
  revert x; induction p as [|a p IH]; intros x; simpl.
  - split; eauto.
  - destruct x as [|b x].
    + split; [discriminate|intros [r H]; discriminate].
    + rewrite andb_true_iff, IH, N.eqb_eq. split.
      * intros [-> [r ->]]. eauto.
      * intros [r H]. inversion H; subst. eauto.
Qed.

(** ** Strictly sorted lists of strings *)

Definition ssorted : list str -> Prop := StronglySorted slt.

Lemma StronglySorted_app {A} (R : A -> A -> Prop) l1 l2 :
  StronglySorted R (l1 ++ l2) <->
  StronglySorted R l1 /\ StronglySorted R l2 /\ Forall (fun x => Forall (R x) l2) l1.
Proof.
  induction l1 as [|a l1 IH]; simpl.
  - split; [intros H; repeat split; auto; constructor|tauto].
  - split.
    + intros H. inversion H as [|? ? H1 H2]; subst.
      apply IH in H1 as (S1 & S2 & F). apply Forall_app in H2 as [F1 F2].
      repeat split; auto; constructor; auto.
    + intros (S1 & S2 & F). inversion S1; inversion F; subst.
      constructor; [apply IH; auto|]. apply Forall_app; auto.
Qed.

Lemma ssorted_NoDup l : ssorted l -> NoDup l.
Proof.
  induction 1 as [|a l H IH F]; constructor; auto.
  intros HI. rewrite Forall_forall in F. exact (slt_irrefl _ (F _ HI)).
Qed.

(** Two strictly sorted lists with the same elements are equal. *)
Lemma ssorted_unique {A} (R : A -> A -> Prop) (l1 l2 : list A) :
  (forall x, ~ R x x) -> (forall x y z, R x y -> R y z -> R x z) ->
  StronglySorted R l1 -> StronglySorted R l2 ->
  (forall x, In x l1 <-> In x l2) -> l1 = l2.
Proof.
  intros IR TR. revert l2; induction l1 as [|a l1 IH]; intros l2 S1 S2 E.
  - destruct l2 as [|b l2]; auto. destruct (proj2 (E b)); simpl; auto.
  - destruct l2 as [|b l2]. { destruct (proj1 (E a)); simpl; auto. }
    inversion S1 as [|? ? S1' F1]; inversion S2 as [|? ? S2' F2]; subst.
    rewrite Forall_forall in F1, F2.
    assert (a = b).
    { destruct (proj1 (E a)) as [H|H]; simpl; auto.
      destruct (proj2 (E b)) as [H'|H']; simpl; auto.
      exfalso. apply (IR a). eauto. }
    subst b. f_equal. apply IH; auto.
    intros x; split; intros H.
    + destruct (proj1 (E x)) as [H'|H']; simpl; auto. subst x. exfalso. eapply IR; eauto.
    + destruct (proj2 (E x)) as [H'|H']; simpl; auto. subst x. exfalso. eapply IR; eauto.
Qed.

(** ** Association lists with sorted keys *)

Definition keys {V} (l : list (str * V)) : list str := map fst l.

Lemma keys_app {V} (a b : list (str * V)) : keys (a ++ b) = keys a ++ keys b.
Proof. apply map_app. Qed.

Lemma dget_In {V} k (v : V) l : dget k l = Some v -> In (k, v) l.
Proof.
  induction l as [|[k' v'] l IH]; simpl; [discriminate|].
  destruct (str_eqb_spec k k'); [intros E; inversion E; subst; auto|auto].
Qed.

Lemma dget_None {V} k (l : list (str * V)) : dget k l = None <-> ~ In k (keys l).
Proof.
  induction l as [|[k' v'] l IH]; simpl; [tauto|].
  destruct (str_eqb_spec k k'); subst; split; intros H; try discriminate.
  - exfalso; auto.
  - intros [E|E]; [congruence|]. apply IH in H; auto.
  - apply IH. auto.
Qed.

Lemma In_dget {V} k (v : V) l : NoDup (keys l) -> In (k, v) l -> dget k l = Some v.
Proof.
  induction l as [|[k' v'] l IH]; simpl; [tauto|].
  intros ND [E|E].
  - inversion E; subst. rewrite str_eqb_refl; auto.
  - inversion ND; subst. destruct (str_eqb_spec k k'); auto.
    subst. exfalso. apply H1. apply (in_map fst) in E. auto.
Qed.

Lemma dget_app {V} k (a b : list (str * V)) :
  dget k (a ++ b) = match dget k a with Some v => Some v | None => dget k b end.
Proof. induction a as [|[k' v'] a IH]; simpl; auto. destruct (str_eqb k k'); auto. Qed.

(** Sorted association lists are determined by their lookup function. *)
Lemma sorted_dget_ext {V} (l1 l2 : list (str * V)) :
  ssorted (keys l1) -> ssorted (keys l2) ->
  (forall k, dget k l1 = dget k l2) -> l1 = l2.
Proof.
  intros S1 S2 E.
  assert (HS : forall l : list (str * V), ssorted (keys l) ->
     StronglySorted (fun a b => slt (fst a) (fst b)) l).
  { induction l as [|a l IH]; simpl; intros S; [constructor|].
    inversion S as [|? ? S' F]; subst. constructor; auto.
    unfold keys in F. rewrite Forall_map in F. auto. }
  apply (ssorted_unique (fun a b => slt (fst a) (fst b))); auto.
  - intros x. apply slt_irrefl.
  - intros x y z. apply slt_trans.
  - intros [k v]; split; intros H;
      (apply In_dget in H; [|apply ssorted_NoDup; auto]); apply dget_In; congruence.
Qed.

(** ** dset / ddel *)

Lemma dget_dset {V} k k' (v : V) d :
  dget k (dset k' v d) = if str_eqb k k' then Some v else dget k d.
Proof.
  induction d as [|[k2 v2] d IH]; simpl.
  - auto.
  - destruct (str_eqb_spec k' k2); subst; simpl.
    + destruct (str_eqb k k2); auto.
    + rewrite IH. destruct (str_eqb_spec k k2); auto. subst.
      destruct (str_eqb_spec k2 k'); congruence.
Qed.

Lemma dset_keys_in {V} k k' (v : V) d : In k (keys (dset k' v d)) <-> k = k' \/ In k (keys d).
Proof.
  induction d as [|[k2 v2] d IH]; simpl.
  - intuition.
  - destruct (str_eqb_spec k' k2); subst; simpl; [intuition|]. rewrite IH. intuition.
Qed.

Lemma dset_NoDup {V} k (v : V) d : NoDup (keys d) -> NoDup (keys (dset k v d)).
Proof.
  induction d as [|[k2 v2] d IH]; simpl; intros ND.
  - repeat constructor; auto.
  - inversion ND; subst. destruct (str_eqb_spec k k2); subst; simpl; constructor; auto.
    intros HI. apply dset_keys_in in HI as [HI|HI]; congruence.
Qed.

Lemma dget_ddel {V} k k' (d : list (str * V)) : NoDup (keys d) ->
  dget k (ddel k' d) = if str_eqb k k' then None else dget k d.
Proof.
  induction d as [|[k2 v2] d IH]; simpl; intros ND.
  - destruct (str_eqb k k'); auto.
  - inversion ND; subst. destruct (str_eqb_spec k' k2); subst; simpl.
    + destruct (str_eqb_spec k k2); subst; auto. apply dget_None; auto.
    + rewrite IH by auto. destruct (str_eqb_spec k k2); subst; auto.
      destruct (str_eqb_spec k2 k'); congruence.
Qed.

Lemma ddel_keys_in {V} k k' (d : list (str * V)) : In k (keys (ddel k' d)) -> In k (keys d).
Proof.
  induction d as [|[k2 v2] d IH]; simpl; auto.
  destruct (str_eqb_spec k' k2); subst; simpl; intuition.
Qed.

Lemma ddel_NoDup {V} k (d : list (str * V)) : NoDup (keys d) -> NoDup (keys (ddel k d)).
Proof.
  induction d as [|[k2 v2] d IH]; simpl; intros ND; auto.
  inversion ND; subst. destruct (str_eqb_spec k k2); subst; simpl; auto.
  constructor; auto. intros HI. apply ddel_keys_in in HI. auto.
Qed.

(** ** Misc *)

Lemma Forall2_length_eq {A B} (R : A -> B -> Prop) l1 l2 : Forall2 R l1 l2 -> length l1 = length l2.
Proof. induction 1; simpl; auto. Qed.

Lemma Forall2_firstn {A B} (R : A -> B -> Prop) n l1 l2 :
  Forall2 R l1 l2 -> Forall2 R (firstn n l1) (firstn n l2).
Proof. intros H; revert n; induction H; intros [|n]; simpl; constructor; auto. Qed.

Lemma Forall2_skipn {A B} (R : A -> B -> Prop) n l1 l2 :
  Forall2 R l1 l2 -> Forall2 R (skipn n l1) (skipn n l2).
Proof. intros H; revert n; induction H; intros [|n]; simpl; auto. Qed.
