(** DAG-CBOR: decoding inverts encoding; map order does not matter. *)
From Coq Require Import List NArith ZArith Bool Lia Permutation Sorted.
From Coq Require Import ZifyBool ZifyNat ZifyN.
From Verif Require Import Base Lists Ipld.
Import ListNotations.
Local Open Scope N_scope.

Ltac Zify.zify_post_hook ::= Z.div_mod_to_equations.

#[local] Arguments len {A} _ : simpl never.
#[local] Arguments head : simpl never.

(** Induction principle for nested values. *)
Lemma ipld_ind' (P : ipld -> Prop) :
  P INull -> (forall b, P (IBool b)) -> (forall z, P (IInt z)) ->
  (forall b, P (IBytes b)) -> (forall t, P (IText t)) ->
  (forall l, Forall P l -> P (IList l)) ->
  (forall m, Forall (fun kv => P (snd kv)) m -> P (IMap m)) ->
  (forall c, P (ILink c)) -> forall v, P v.
Proof.
  intros H1 H2 H3 H4 H5 H6 H7 H8. fix IH 1. intros v. destruct v as [|b|z|b|t|l|m|c].
  - exact H1.
  - apply H2.
  - apply H3.
  - apply H4.
  - apply H5.
  - apply H6. induction l as [|e l IHl]; constructor; [apply IH|exact IHl].
  - apply H7. induction m as [|[k w] m IHm]; constructor; [apply IH|exact IHm].
  - apply H8.
Qed.

Lemma take_app l r : take (length l) (l ++ r) = Some (l, r).
Proof. induction l as [|b l IH]; simpl; auto. rewrite IH; auto. Qed.

Lemma takeN_app l r : takeN (len l) (l ++ r) = Some (l, r).
Proof.
  unfold takeN, len. rewrite app_length.
  destruct (N.ltb_spec (N.of_nat (length l + length r)) (N.of_nat (length l))); [lia|].
  rewrite Nat2N.id. apply take_app.
Qed.

Lemma be_length k n : length (be k n) = k.
Proof. revert n; induction k as [|k IH]; simpl; intros; auto. rewrite app_length, IH. simpl. lia. Qed.

Lemma of_be_app acc l1 l2 : of_be acc (l1 ++ l2) = of_be (of_be acc l1) l2.
Proof. revert acc; induction l1; simpl; auto. Qed.

Lemma of_be_be k n : n < 256 ^ N.of_nat k -> of_be 0 (be k n) = n.
Proof.
  revert n; induction k as [|k IH]; intros n H; simpl be.
  - simpl in *. lia.
  - rewrite of_be_app. simpl. rewrite IH.
    + pose proof (N.div_mod' n 256). lia.
    + replace (N.of_nat (S k)) with (N.succ (N.of_nat k)) in H by lia.
      rewrite N.pow_succ_r' in H. apply N.div_lt_upper_bound; lia.
Qed.

Lemma read_bits_pos p r : read_bits (pos_bits p ++ r) = Some (p, r).
Proof. induction p as [p IH|p IH|]; simpl; try rewrite IH; auto. Qed.

Lemma dec_head_head m n r : m < 8 -> dec_head (head m n ++ r) = Some (m, n, r).
Proof.
  intros Hm. unfold head.
  assert (D : forall i, i < 32 -> (32 * m + i) / 32 = m /\ (32 * m + i) mod 32 = i).
  { intros i Hi. split.
    - symmetry. apply N.div_unique with i; auto.
    - symmetry. apply N.mod_unique with m; auto. }
  assert (X : forall k, n < 256 ^ N.of_nat k ->
     match take k (be k n ++ r) with Some (x, r) => Some (m, of_be 0 x, r) | None => None end
      = Some (m, n, r)).
  { intros k Hn. rewrite <- (be_length k n) at 1. rewrite take_app.
    rewrite of_be_be by auto. auto. }
  destruct (N.ltb_spec n 24).
  { rewrite <- app_comm_cons. unfold dec_head. destruct (D n) as [-> ->]; [lia|].
    destruct (N.ltb_spec n 24); [auto|lia]. }
  destruct (N.ltb_spec n 256).
  { rewrite <- app_comm_cons. unfold dec_head. destruct (D 24) as [-> ->]; [lia|].
    change (24 <? 24) with false. change (24 =? 24) with true. cbv iota zeta. apply X. auto. }
  destruct (N.ltb_spec n 65536).
  { rewrite <- app_comm_cons. unfold dec_head. destruct (D 25) as [-> ->]; [lia|].
    change (25 <? 24) with false. change (25 =? 24) with false. change (25 =? 25) with true.
    cbv iota zeta. apply X. auto. }
  destruct (N.ltb_spec n 4294967296).
  { rewrite <- app_comm_cons. unfold dec_head. destruct (D 26) as [-> ->]; [lia|].
    change (26 <? 24) with false. change (26 =? 24) with false. change (26 =? 25) with false.
    change (26 =? 26) with true. cbv iota zeta. apply X. auto. }
  destruct (N.ltb_spec n 18446744073709551616).
  { rewrite <- app_comm_cons. unfold dec_head. destruct (D 27) as [-> ->]; [lia|].
    change (27 <? 24) with false. change (27 =? 24) with false. change (27 =? 25) with false.
    change (27 =? 26) with false. change (27 =? 27) with true. cbv iota zeta. apply X. auto. }
  rewrite <- app_comm_cons. unfold dec_head. destruct (D 28) as [-> ->]; [lia|].
  change (28 <? 24) with false. change (28 =? 24) with false. change (28 =? 25) with false.
  change (28 =? 26) with false. change (28 =? 27) with false. change (28 =? 28) with true.
  cbv iota zeta. destruct n; [lia|]. rewrite read_bits_pos. auto.
Qed.

Lemma head_length m n : (1 <= length (head m n))%nat.
Proof. unfold head. repeat destruct (N.ltb _ _); simpl; lia. Qed.

(** Fuel sufficient to decode a value. *)
Fixpoint need (v : ipld) : nat :=
  match v with
  | IList l => S (fold_right (fun e n => S (Nat.max (need e) n)) 1%nat l)
  | IMap m => S (fold_right (fun kv n => match kv with (_, w) => S (Nat.max (need w) n) end) 1%nat m)
  | _ => 1
  end.

Lemma len_cons {A} (a : A) l : len (a :: l) = 1 + len l.
Proof. unfold len. cbn [length]. lia. Qed.

Lemma dec_encode v : forall f r, (need v <= f)%nat -> dec f (encode v ++ r) = Some (v, r).
Proof.
  induction v as [|b|z|b|t|l IH|m IH|c] using ipld_ind'; intros f r Hf.
  - destruct f; [simpl in Hf; lia|]. reflexivity.
  - destruct f; [simpl in Hf; lia|]. destruct b; reflexivity.
  - destruct f; [simpl in Hf; lia|]. cbn [encode].
    destruct (Z.leb_spec 0 z); cbn [dec]; rewrite dec_head_head by lia; cbv iota beta.
    + change (0 =? 0) with true. rewrite Z2N.id by lia. auto.
    + change (1 =? 0) with false. change (1 =? 1) with true. cbv iota.
      rewrite Z2N.id by lia. replace (-1 - (-1 - z))%Z with z by lia. auto.
  - destruct f; [simpl in Hf; lia|]. simpl encode. rewrite <- app_assoc. simpl.
    rewrite dec_head_head by lia. simpl. rewrite takeN_app. auto.
  - destruct f; [simpl in Hf; lia|]. simpl encode. rewrite <- app_assoc. simpl.
    rewrite dec_head_head by lia. simpl. rewrite takeN_app. auto.
  - destruct f; [simpl in Hf; lia|]. simpl encode. rewrite <- app_assoc. simpl.
    rewrite dec_head_head by lia. simpl.
    assert (HI : dec_items f (len l) (flat_map encode l ++ r) = Some (l, r)).
    { simpl in Hf. apply le_S_n in Hf. revert f Hf r.
      induction l as [|e l IHl]; intros f Hf r.
      - destruct f; [simpl in Hf; lia|]. reflexivity.
      - inversion IH as [|? ? He Hl]; subst. destruct f; [simpl in Hf; lia|].
        simpl in Hf. cbn [dec_items flat_map]. rewrite len_cons.
        destruct (N.eqb_spec (1 + len l) 0); [lia|].
        rewrite <- app_assoc. rewrite He by lia.
        replace (1 + len l - 1) with (len l) by lia.
        rewrite IHl; auto. lia. }
    rewrite HI. auto.
  - destruct f; [simpl in Hf; lia|]. simpl encode. rewrite <- app_assoc. simpl.
    rewrite dec_head_head by lia. simpl.
    match goal with |- context [flat_map ?g m] => set (g0 := g) end.
    assert (HI : dec_pairs f (len m) (flat_map g0 m ++ r) = Some (m, r)).
    { simpl in Hf. apply le_S_n in Hf. revert f Hf r.
      induction m as [|[k e] m IHm]; intros f Hf r.
      - destruct f; [simpl in Hf; lia|]. reflexivity.
      - inversion IH as [|? ? He Hl]; subst. destruct f; [simpl in Hf; lia|].
        simpl in Hf, He. cbn [dec_pairs flat_map]. rewrite len_cons.
        destruct (N.eqb_spec (1 + len m) 0); [lia|].
        unfold g0 at 1. rewrite <- !app_assoc. rewrite dec_head_head by lia.
        cbv iota beta. rewrite takeN_app. rewrite He by lia.
        replace (1 + len m - 1) with (len m) by lia.
        rewrite IHm; auto. lia. }
    rewrite HI. auto.
  - destruct f; [simpl in Hf; lia|]. cbn [encode dec]. rewrite <- !app_assoc.
    rewrite dec_head_head by lia.
    change (6 =? 0) with false. change (6 =? 1) with false. change (6 =? 2) with false.
    change (6 =? 3) with false. change (6 =? 4) with false. change (6 =? 5) with false.
    change (6 =? 6) with true. cbv iota.
    rewrite dec_head_head by lia. rewrite <- app_comm_cons.
    replace (1 + len c) with (len (0 :: c)) by (rewrite len_cons; auto).
    change (0 :: c ++ r) with ((0 :: c) ++ r).
    rewrite takeN_app. auto.
Qed.

Lemma encode_length v : (1 <= length (encode v))%nat.
Proof.
  destruct v; simpl; try (destruct b; simpl; lia); try lia.
  - destruct (0 <=? z)%Z; apply head_length.
  - rewrite app_length. pose proof (head_length 2 (len b)). lia.
  - rewrite app_length. pose proof (head_length 3 (len t)). lia.
  - rewrite app_length. pose proof (head_length 4 (len l)). lia.
  - rewrite app_length. pose proof (head_length 5 (len m)). lia.
Qed.

Lemma need_length v : (need v <= 2 * length (encode v))%nat.
Proof.
  induction v as [|b|z|b|t|l IH|m IH|c] using ipld_ind';
    try (match goal with |- (need ?x <= _)%nat => pose proof (encode_length x) end; simpl need; lia).
  - simpl. rewrite app_length. pose proof (head_length 4 (len l)).
    assert (fold_right (fun e n => S (Nat.max (need e) n)) 1%nat l
              <= 1 + 2 * length (flat_map encode l))%nat.
    { clear H. induction l as [|e l IHl]; simpl; [lia|].
      inversion IH as [|? ? He Hl]; subst. specialize (IHl Hl). rewrite app_length.
      pose proof (encode_length e). lia. }
    lia.
  - simpl. rewrite app_length. pose proof (head_length 5 (len m)).
    match goal with |- (S ?a <= _ + (length ?b + _))%nat => idtac | _ => idtac end.
    assert (fold_right (fun (kv : str * ipld) n => match kv with (_, w) => S (Nat.max (need w) n) end) 1%nat m
              <= 1 + 2 * length (flat_map (fun kv => match kv with (k, w) => head 3 (len k) ++ k ++ encode w end) m))%nat.
    { clear H. induction m as [|[k e] m IHm]; simpl; [lia|].
      inversion IH as [|? ? He Hl]; subst. specialize (IHm Hl). rewrite !app_length.
      simpl in He. pose proof (encode_length e). lia. }
    lia.
Qed.

Lemma decode_encode_lemma v : decode (encode v) = Some v.
Proof.
  unfold decode. pose proof (dec_encode v (2 * length (encode v)) [] (need_length v)) as H.
  rewrite app_nil_r in H. rewrite H. auto.
Qed.

Lemma encode_inj v w : encode v = encode w -> v = w.
Proof.
  intros H. pose proof (decode_encode_lemma v) as A. rewrite H, decode_encode_lemma in A. congruence.
Qed.

Lemma cid_of_inj digest v w : (forall a b, digest a = digest b -> a = b) ->
  cid_of digest v = cid_of digest w -> v = w.
Proof. unfold cid_of. intros HD H. apply app_inv_head in H. apply encode_inj, HD; auto. Qed.

(** ** Canonical order *)

Lemma key_leb_total a b : key_leb a b = true \/ key_leb b a = true.
Proof.
  unfold key_leb. rewrite (N.compare_antisym (len a) (len b)).
  destruct (N.compare (len a) (len b)); simpl; auto.
  rewrite !str_leb_nlt. destruct (slt_total a b) as [H|[H|H]].
  - left. apply slt_asym; auto.
  - subst; left; apply slt_irrefl.
  - right. apply slt_asym; auto.
Qed.

Lemma key_leb_antisym a b : key_leb a b = true -> key_leb b a = true -> a = b.
Proof.
  unfold key_leb. rewrite (N.compare_antisym (len a) (len b)).
  destruct (N.compare (len a) (len b)); simpl; try discriminate.
  rewrite !str_leb_nlt. intros H1 H2. destruct (slt_total a b) as [H|[H|H]]; tauto.
Qed.

Lemma key_leb_trans a b c : key_leb a b = true -> key_leb b c = true -> key_leb a c = true.
Proof.
  unfold key_leb.
  destruct (N.compare_spec (len a) (len b)); destruct (N.compare_spec (len b) (len c));
    destruct (N.compare_spec (len a) (len c)); try discriminate; try lia; auto.
  rewrite !str_leb_le. intros [H2|H2] [H3|H3]; subst; auto.
  left. eapply slt_trans; eauto.
Qed.

Lemma insert_key_perm {V} (kv : str * V) m : Permutation (insert_key kv m) (kv :: m).
Proof.
  induction m as [|kv' m IH]; simpl; auto.
  destruct (key_leb (fst kv) (fst kv')); auto.
  rewrite IH. apply perm_swap.
Qed.

Lemma sort_keys_perm {V} (m : list (str * V)) : Permutation (sort_keys m) m.
Proof. induction m; simpl; auto. rewrite insert_key_perm. auto. Qed.

Definition klt {V} (a b : str * V) : Prop := key_leb (fst b) (fst a) = false.

Lemma insert_key_sorted {V} (kv : str * V) m :
  ~ In (fst kv) (keys m) -> StronglySorted klt m -> StronglySorted klt (insert_key kv m).
Proof.
  induction m as [|kv' m IH]; simpl; intros NI S.
  - constructor; auto.
  - inversion S as [|? ? S' F]; subst.
    destruct (key_leb (fst kv) (fst kv')) eqn:E.
    + assert (L : klt kv kv').
      { unfold klt. destruct (key_leb (fst kv') (fst kv)) eqn:E2; auto.
        exfalso. apply NI. left. apply key_leb_antisym; auto. }
      constructor; [constructor; auto|]. constructor; auto.
      eapply Forall_impl; [|exact F]. unfold klt. intros b Hb.
      destruct (key_leb (fst b) (fst kv)) eqn:E2; auto.
      rewrite (key_leb_trans _ _ _ E2 E) in Hb. discriminate.
    + constructor; [apply IH; auto|].
      apply (Permutation_Forall (Permutation_sym (insert_key_perm kv m))).
      constructor; auto.
Qed.

Lemma sort_keys_sorted {V} (m : list (str * V)) :
  NoDup (keys m) -> StronglySorted klt (sort_keys m).
Proof.
  induction m as [|kv m IH]; simpl; intros ND; [constructor|].
  inversion ND; subst. apply insert_key_sorted; auto.
  intros HI. apply H1.
  eapply Permutation_in; [|exact HI]. apply Permutation_map, sort_keys_perm.
Qed.

(** Sorting is insensitive to insertion order. *)
Lemma sort_keys_ext {V} (m1 m2 : list (str * V)) :
  NoDup (keys m1) -> Permutation m1 m2 -> sort_keys m1 = sort_keys m2.
Proof.
  intros ND P. apply (ssorted_unique klt).
  - intros x. unfold klt. destruct (key_leb_total (fst x) (fst x)) as [H|H]; rewrite H; discriminate.
  - intros x y z. unfold klt. intros H1 H2.
    destruct (key_leb (fst z) (fst x)) eqn:E; auto.
    destruct (key_leb_total (fst x) (fst y)) as [H|H]; [|congruence].
    rewrite (key_leb_trans _ _ _ E H) in H2. discriminate.
  - apply sort_keys_sorted; auto.
  - apply sort_keys_sorted. eapply Permutation_NoDup; [|exact ND]. apply Permutation_map; auto.
  - intros x. split; apply Permutation_in.
    + rewrite !sort_keys_perm. auto.
    + rewrite !sort_keys_perm. symmetry. auto.
Qed.

Lemma sort_keys_id {V} (m : list (str * V)) : StronglySorted klt m -> sort_keys m = m.
Proof.
  induction 1 as [|kv m S IH F]; simpl; auto. rewrite IH.
  destruct m as [|kv' m]; simpl; auto.
  inversion F as [|? ? L]; subst. unfold klt in L.
  destruct (key_leb_total (fst kv) (fst kv')) as [HK|HK]; [rewrite HK; auto|congruence].
Qed.
