(** Proofs about DAG-CBOR values and blocks. *)
From Coq Require Import List NArith ZArith Bool Lia Permutation Sorted.
From Verif Require Import Base Lists Ipld IpldProofs BlockModel BlockSpec.
Import ListNotations.

Lemma py_value_list l : py_value (IList l) <-> Forall py_value l.
Proof.
  induction l as [|x l IH]; simpl; [split; auto|]. simpl in IH. rewrite IH. split.
  - intros [A B]. constructor; auto.
  - intros H. inversion H; auto.
Qed.

Lemma py_value_map m : py_value (IMap m) <-> NoDup (keys m) /\ Forall (fun kv => py_value (snd kv)) m.
Proof.
  simpl. unfold keys. enough (E : (fix all (m : list (str * ipld)) : Prop :=
    match m with [] => True | (_, x) :: r => py_value x /\ all r end) m
    <-> Forall (fun kv => py_value (snd kv)) m) by tauto.
  induction m as [|[k x] m IH]; [split; auto|]. rewrite IH. split.
  - intros [A B]. constructor; auto.
  - intros H. inversion H; auto.
Qed.

Lemma py_eq_list l l' : py_eq (IList l) (IList l') <-> Forall2 py_eq l l'.
Proof.
  revert l'; induction l as [|x l IH]; intros [|y l']; simpl; split; intros H; auto; try tauto.
  - inversion H.
  - inversion H.
  - destruct H. constructor; auto. apply IH; auto.
  - inversion H; subst. split; auto. apply IH; auto.
Qed.

Lemma py_eq_map m m' : py_eq (IMap m) (IMap m') <->
  length m = length m' /\
  Forall (fun kv => exists y, dget (fst kv) m' = Some y /\ py_eq (snd kv) y) m.
Proof.
  simpl. enough (E : (fix all (m : list (str * ipld)) : Prop :=
    match m with [] => True
    | (k, x) :: r => match dget k m' with Some y => py_eq x y | None => False end /\ all r end) m
    <-> Forall (fun kv => exists y, dget (fst kv) m' = Some y /\ py_eq (snd kv) y) m) by tauto.
  induction m as [|[k x] m IH]; [split; auto|]. rewrite IH. split.
  - intros [A B]. constructor; auto. simpl. destruct (dget k m') as [y|]; [|tauto]. eauto.
  - intros H. inversion H as [|? ? [y [E P]] F]; subst. simpl in E, P. rewrite E. auto.
Qed.

Definition norm_pair (kv : str * ipld) : str * ipld := (fst kv, norm (snd kv)).

Lemma norm_map m : norm (IMap m) = IMap (sort_keys (map norm_pair m)).
Proof.
  simpl. f_equal. f_equal. apply map_ext. intros [k v]. reflexivity.
Qed.

Lemma keys_norm m : keys (map norm_pair m) = keys m.
Proof. unfold keys. rewrite map_map. apply map_ext. auto. Qed.

Lemma dget_norm k m : dget k (map norm_pair m) = option_map norm (dget k m).
Proof.
  induction m as [|[k' v] m IH]; simpl; auto. destruct (str_eqb k k'); auto.
Qed.

Lemma dget_perm {V} k (m m' : list (str * V)) : NoDup (keys m) -> Permutation m m' ->
  dget k m = dget k m'.
Proof.
  intros ND P.
  assert (ND' : NoDup (keys m')) by (eapply Permutation_NoDup; [apply Permutation_map, P|exact ND]).
  destruct (dget k m) as [v|] eqn:E.
  - symmetry. apply In_dget; auto. eapply Permutation_in; [exact P|]. apply dget_In; auto.
  - symmetry. apply dget_None. apply dget_None in E. intros HI. apply E.
    eapply Permutation_in; [symmetry; apply Permutation_map, P|exact HI].
Qed.

Lemma norm_value v : py_value v -> py_value (norm v).
Proof.
  induction v as [| | | | |l IH|m IH|] using ipld_ind'; auto.
  - intros H. simpl norm. rewrite py_value_list in *. rewrite Forall_forall in *.
    intros x Hx. apply in_map_iff in Hx. destruct Hx as (y & <- & Hy). auto.
  - intros H. rewrite norm_map. rewrite py_value_map in *. destruct H as [ND F]. split.
    + eapply Permutation_NoDup; [symmetry; apply Permutation_map, sort_keys_perm|].
      fold (keys (map norm_pair m)). rewrite keys_norm. auto.
    + eapply Permutation_Forall; [symmetry; apply sort_keys_perm|].
      rewrite Forall_forall in *. intros x Hx. apply in_map_iff in Hx.
      destruct Hx as (y & <- & Hy). simpl. auto.
Qed.

Lemma norm_eq v : py_value v -> py_eq v (norm v).
Proof.
  induction v as [| | | | |l IH|m IH|] using ipld_ind'; intros H;
    try (simpl; auto; fail).
  - simpl norm. rewrite py_value_list in H. rewrite py_eq_list.
    induction l as [|x l IHl]; simpl; constructor; inversion IH; inversion H; subst; auto.
  - rewrite norm_map. apply py_value_map in H. destruct H as [ND F]. apply py_eq_map. split.
    + rewrite (Permutation_length (sort_keys_perm _)), map_length. auto.
    + rewrite Forall_forall in *. intros [k v] Hx. simpl. exists (norm v). split.
      * rewrite (dget_perm k _ (map norm_pair m)).
        -- rewrite dget_norm, (In_dget k v); auto.
        -- eapply Permutation_NoDup; [symmetry; apply Permutation_map, sort_keys_perm|].
           fold (keys (map norm_pair m)). rewrite keys_norm. auto.
        -- apply sort_keys_perm.
      * apply (IH (k, v)); auto.
Qed.

Lemma py_eq_norm v : forall w, py_value v -> py_value w -> py_eq v w -> norm v = norm w.
Proof.
  induction v as [| | | | |l IH|m IH|] using ipld_ind'; intros w HV HW E; destruct w;
    try (simpl in E; tauto); try (simpl in E; subst; auto; fail).
  - apply py_eq_list in E. apply py_value_list in HV, HW. simpl. f_equal.
    revert HV HW. induction E as [|x y l l' P E IHE]; intros HV HW; simpl; auto.
    inversion IH; inversion HV; inversion HW; subst. f_equal; auto.
  - apply py_eq_map in E. destruct E as [L E].
    apply py_value_map in HV, HW. destruct HV as [N1 F1], HW as [N2 F2].
    rewrite !norm_map. f_equal.
    apply sort_keys_ext; [rewrite keys_norm; auto|].
    apply NoDup_Permutation_bis.
    + apply (NoDup_map_inv fst). fold (keys (map norm_pair m)). rewrite keys_norm. auto.
    + rewrite !map_length. lia.
    + intros [k x] HI. apply in_map_iff in HI. destruct HI as ([k' v] & EQ & HI).
      inversion EQ; subst. rewrite Forall_forall in E, IH, F1, F2.
      destruct (E _ HI) as (y & D & P). simpl in D, P.
      apply in_map_iff. exists (k, y). apply dget_In in D. split; auto.
      unfold norm_pair. simpl. f_equal. symmetry.
      exact (IH (k, v) HI y (F1 (k, v) HI) (F2 (k, y) D) P).
Qed.

Lemma norm_idem v : py_value v -> norm (norm v) = norm v.
Proof.
  intros H. symmetry. apply py_eq_norm; auto using norm_value, norm_eq.
Qed.

Lemma py_eq_sym v : forall w, py_value v -> py_value w -> py_eq v w -> py_eq w v.
Proof.
  induction v as [| | | | |l IH|m IH|] using ipld_ind'; intros w HV HW E; destruct w;
    try (simpl in E; tauto); try (simpl in *; subst; auto; fail).
  - apply py_eq_list in E. apply py_value_list in HV, HW. apply py_eq_list.
    induction E as [|x y l l' P E IHE]; constructor; inversion IH; inversion HV; inversion HW; subst; auto.
  - pose proof (py_eq_norm _ _ HV HW E) as EN.
    apply py_eq_map in E. destruct E as [L E].
    apply py_value_map in HV, HW. destruct HV as [N1 F1], HW as [N2 F2].
    apply py_eq_map. split; [lia|]. rewrite Forall_forall in *. intros [k y] HI. simpl.
    assert (K : incl (keys m) (keys m0)).
    { intros k' HK. apply in_map_iff in HK. destruct HK as ([k2 x] & <- & HI'). simpl.
      destruct (E _ HI') as (z & D & _). simpl in D. apply dget_In in D.
      apply in_map_iff. exists (k2, z). auto. }
    assert (K' : incl (keys m0) (keys m)).
    { apply NoDup_length_incl; auto. unfold keys. rewrite !map_length. lia. }
    destruct (dget k m) as [x|] eqn:D.
    + exists x. split; auto. apply dget_In in D. destruct (E _ D) as (z & D' & P). simpl in D', P.
      rewrite (In_dget k y) in D'; auto. inversion D'; subst.
      exact (IH (k, x) D z (F1 (k, x) D) (F2 (k, z) HI) P).
    + exfalso. apply dget_None in D. apply D, K', in_map_iff. exists (k, y). auto.
Qed.

Lemma py_eq_trans a : forall b c, py_value a -> py_value b -> py_value c ->
  py_eq a b -> py_eq b c -> py_eq a c.
Proof.
  induction a as [| | | | |l IH|m IH|] using ipld_ind'; intros b0 c0 HA HB HC E1 E2;
    destruct b0; try (simpl in E1; tauto); destruct c0; try (simpl in E2; tauto);
    try (simpl in *; congruence).
  - apply py_eq_list in E1, E2. apply py_value_list in HA, HB, HC. apply py_eq_list.
    revert l1 HC E2. induction E1 as [|x y l l' P E IHE]; intros l2 HC E2; inversion E2; subst; constructor.
    + inversion IH; inversion HA; inversion HB; inversion HC; subst. eauto.
    + inversion IH; inversion HA; inversion HB; inversion HC; subst. eauto.
  - apply py_eq_map in E1, E2. destruct E1 as [L1 E1], E2 as [L2 E2].
    apply py_value_map in HA, HB, HC. destruct HA as [N1 F1], HB as [N2 F2], HC as [N3 F3].
    apply py_eq_map. split; [lia|]. rewrite Forall_forall in *. intros [k x] HI. simpl.
    destruct (E1 _ HI) as (y & D1 & P1). simpl in D1, P1.
    pose proof (dget_In _ _ _ D1) as I1.
    destruct (E2 _ I1) as (z & D2 & P2). simpl in D2, P2. exists z. split; auto.
    pose proof (dget_In _ _ _ D2) as I2.
    exact (IH (k, x) HI y z (F1 (k, x) HI) (F2 (k, y) I1) (F3 (k, z) I2) P1 P2).
Qed.

Lemma norm_inj v w : py_value v -> py_value w -> norm v = norm w -> py_eq v w.
Proof.
  intros HV HW E.
  apply (py_eq_trans v (norm v) w); auto using norm_value, norm_eq.
  rewrite E. apply py_eq_sym; auto using norm_value, norm_eq.
Qed.

Lemma encode_round_trip v : py_value v ->
  exists w, decode (dag_cbor_encode v) = Some w /\ py_eq v w /\ py_value w.
Proof.
  intros H. exists (norm v). split; [apply decode_encode_lemma|]. split; auto using norm_value, norm_eq.
Qed.

Lemma encode_canonical v w : py_value v -> py_value w ->
  (dag_cbor_encode v = dag_cbor_encode w <-> py_eq v w).
Proof.
  intros HV HW. split; intros H.
  - apply norm_inj; auto. apply encode_inj. auto.
  - unfold dag_cbor_encode. f_equal. apply py_eq_norm; auto.
Qed.

Lemma cid_determines digest v w :
  (forall a b, digest a = digest b -> a = b) -> py_value v -> py_value w ->
  (dag_cbor_cid digest v = dag_cbor_cid digest w <-> py_eq v w).
Proof.
  intros CF HV HW. rewrite <- encode_canonical; auto. unfold dag_cbor_cid, cid_of, dag_cbor_encode.
  split; intros H.
  - apply app_inv_head in H. auto.
  - rewrite H. auto.
Qed.

(** ** Blocks *)

Section Block.
Variable digest : list N -> list N.

(** Everything a block can hold about [v]: each cached field is right. *)
Definition consistent (v : ipld) (b : lblock) : Prop :=
  (lb_cid b = None \/ lb_cid b = Some (dag_cbor_cid digest v)) /\
  (lb_encoded b = None \/ lb_encoded b = Some (dag_cbor_encode v)) /\
  (lb_decoded b = None \/ exists w, lb_decoded b = Some w /\ py_value w /\ py_eq v w) /\
  (lb_encoded b = None -> lb_decoded b <> None).

Lemma get_encoded_ok v b : py_value v -> consistent v b ->
  exists b', get_encoded b = Ok (dag_cbor_encode v, b') /\ consistent v b'.
Proof.
  intros PV (C1 & C2 & C3 & C4). unfold get_encoded.
  destruct C2 as [E|E]; rewrite E.
  - destruct C3 as [D|(w & D & PW & EW)]; [exfalso; apply C4; auto|]. rewrite D.
    replace (dag_cbor_encode w) with (dag_cbor_encode v) by (apply encode_canonical; auto).
    eexists. split; [reflexivity|]. unfold consistent; simpl.
    split; [auto|]. split; [auto|]. split; [right; eauto|discriminate].
  - exists b. split; auto. unfold consistent. rewrite E. split; auto. split; auto. split; auto. discriminate.
Qed.

Lemma get_decoded_ok v b : py_value v -> consistent v b ->
  exists w b', get_decoded b = Ok (w, b') /\ py_eq v w /\ consistent v b'.
Proof.
  intros PV (C1 & C2 & C3 & C4). unfold get_decoded.
  destruct C3 as [D|(w & D & PW & EW)]; rewrite D.
  - destruct C2 as [E|E]; [exfalso; exact (C4 E D)|]. rewrite E.
    unfold dag_cbor_encode. rewrite decode_encode_lemma.
    eexists. eexists. split; [reflexivity|]. split; [apply norm_eq; auto|].
    unfold consistent; simpl. split; auto. split; [auto|].
    split; [right; eexists; split; [reflexivity|]; auto using norm_value, norm_eq|discriminate].
  - exists w, b. split; auto. split; auto. unfold consistent. split; auto. split; auto. split; auto.
    right; eauto.
Qed.

Lemma get_cid_ok v b : py_value v -> consistent v b ->
  exists b', get_cid digest b = Ok (dag_cbor_cid digest v, b') /\ consistent v b'.
Proof.
  intros PV C. pose proof C as (C1 & C2 & C3 & C4). unfold get_cid.
  destruct C1 as [E|E]; rewrite E.
  - destruct (get_encoded_ok v b PV C) as (b' & G & D1 & D2 & D3 & D4). rewrite G. simpl.
    eexists. split; [reflexivity|]. unfold consistent; simpl. split; [right; auto|].
    split; auto.
  - eauto.
Qed.

Lemma read_props_ok v rs : forall b, py_value v -> consistent v b ->
  exists xs, read_props digest b rs = Ok xs /\ Forall (sees digest v) xs /\ length xs = length rs.
Proof.
  induction rs as [|r rs IH]; intros b PV C; simpl; [eauto|].
  destruct r; simpl.
  - destruct (get_cid_ok v b PV C) as (b' & -> & C'). simpl.
    destruct (IH b' PV C') as (xs & -> & F & L). simpl. eexists. split; [reflexivity|].
    split; [constructor; simpl; auto|simpl; auto].
  - destruct (get_encoded_ok v b PV C) as (b' & -> & C'). simpl.
    destruct (IH b' PV C') as (xs & -> & F & L). simpl. eexists. split; [reflexivity|].
    split; [constructor; simpl; auto|simpl; auto].
  - destruct (get_decoded_ok v b PV C) as (w & b' & -> & E & C'). simpl.
    destruct (IH b' PV C') as (xs & -> & F & L). simpl. eexists. split; [reflexivity|].
    split; [constructor; simpl; auto|simpl; auto].
Qed.

Lemma encoded_cons v : exists b l, dag_cbor_encode v = b :: l.
Proof.
  unfold dag_cbor_encode. pose proof (encode_length (norm v)).
  destruct (encode (norm v)); simpl in *; [lia|eauto].
Qed.

Lemma block_views v rs b : py_value v ->
  new_block None None (Some v) = Ok b \/
  new_block None (Some (dag_cbor_encode v)) None = Ok b \/
  new_block (Some (dag_cbor_cid digest v)) (Some (dag_cbor_encode v)) None = Ok b ->
  exists xs, read_props digest b rs = Ok xs /\ Forall (sees digest v) xs /\ length xs = length rs.
Proof.
  intros PV H. apply read_props_ok; auto. unfold new_block in H.
  destruct (encoded_cons v) as (x & l & EC). rewrite EC in H. simpl in H. rewrite <- EC in H.
  destruct H as [H|[H|H]].
  - destruct (truthy v); [|discriminate]. inversion H; subst. unfold consistent; simpl.
    split; auto. split; auto. split; [|discriminate]. right. exists v. split; auto. split; auto.
    clear -PV. apply (py_eq_trans v (norm v) v); auto using norm_value, norm_eq.
    apply py_eq_sym; auto using norm_value, norm_eq.
  - inversion H; subst. unfold consistent; simpl. split; auto. split; auto. split; auto. discriminate.
  - inversion H; subst. unfold consistent; simpl. split; auto. split; auto. split; auto. discriminate.
Qed.

Lemma block_equality v w a b :
  (forall a b, digest a = digest b -> a = b) -> py_value v -> py_value w ->
  new_block None None (Some v) = Ok a -> new_block None (Some (dag_cbor_encode w)) None = Ok b ->
  exists r, block_eq digest a b = Ok r /\ (r = true <-> py_eq v w).
Proof.
  intros CF PV PW HA HB.
  destruct (block_views v [RCid] a PV (or_introl HA)) as (xa & RA & FA & _).
  destruct (block_views w [RCid] b PW (or_intror (or_introl HB))) as (xb & RB & FB & _).
  simpl in RA, RB. unfold block_eq.
  destruct (get_cid digest a) as [[ca a']|]; [|discriminate]. simpl in RA. inversion RA; subst.
  destruct (get_cid digest b) as [[cb b']|]; [|discriminate]. simpl in RB. inversion RB; subst.
  inversion FA as [|? ? E1]; inversion FB as [|? ? E2]; subst. simpl in E1, E2. subst.
  simpl. eexists. split; [reflexivity|]. rewrite str_eqb_eq. apply cid_determines; auto.
Qed.

Lemma block_accepts v : (exists b, new_block None None (Some v) = Ok b) <-> truthy v = true.
Proof.
  unfold new_block. simpl. destruct (truthy v); split; intros H; eauto; try discriminate.
  destruct H; discriminate.
Qed.
End Block.
