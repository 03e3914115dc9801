(** The encodings can be undone. *)
From Coq Require Import String List NArith ZArith Bool Lia.
From Verif Require Import Base Lists Ipld CodecModel.
Import ListNotations.
Local Open Scope N_scope.

(** *** Digits *)

Lemma number_app b l x : number b (l ++ [x]) = number b l * b + x.
Proof. unfold number. now rewrite fold_left_app. Qed.

Lemma size_lt x k : x < 2 ^ N.of_nat k -> (N.size_nat x <= k)%nat.
Proof.
  destruct x as [|p]; [cbn; lia|]. cbn [N.size_nat]. revert p. induction k as [|k IH]; intros p H.
  - cbn in H. lia.
  - rewrite Nat2N.inj_succ, N.pow_succ_r' in H. destruct p as [p|p|]; cbn [Pos.size_nat].
    + apply le_n_S, IH. lia.
    + apply le_n_S, IH. lia.
    + lia.
Qed.
Lemma lt_size x : x < 2 ^ N.of_nat (N.size_nat x).
Proof.
  destruct x as [|p]; [reflexivity|]. cbn [N.size_nat]. induction p as [p IH|p IH|]; cbn [Pos.size_nat].
  - rewrite Nat2N.inj_succ, N.pow_succ_r'. lia.
  - rewrite Nat2N.inj_succ, N.pow_succ_r'. lia.
  - reflexivity.
Qed.

Lemma digits_aux_app b fuel : forall x acc, digits_aux b fuel x acc = digits_aux b fuel x [] ++ acc.
Proof.
  induction fuel as [|f IH]; intros x acc; cbn; [reflexivity|]. destruct (x =? 0); [reflexivity|].
  rewrite (IH _ (_ :: acc)), (IH _ [_]), <- app_assoc. reflexivity.
Qed.

Lemma digits_aux_snoc b x y fuel : 2 <= b -> y < b -> x <> 0 \/ y <> 0 ->
  digits_aux b (S fuel) (x * b + y) [] = digits_aux b fuel x [] ++ [y].
Proof.
  intros B Y NZ. cbn [digits_aux].
  replace (x * b + y =? 0) with false by (symmetry; apply N.eqb_neq; nia).
  rewrite digits_aux_app. f_equal; [f_equal|f_equal].
  - symmetry. apply (N.div_unique _ _ _ y); lia.
  - symmetry. apply (N.mod_unique _ _ x y); lia.
Qed.

Lemma digits_aux_enough b : 2 <= b -> forall f x g, x < 2 ^ N.of_nat f -> (f <= g)%nat -> digits_aux b g x [] = digits_aux b f x [].
Proof.
  intros B. induction f as [|f IH]; intros x g H G.
  - cbn in H. replace x with 0 by lia. destruct g; reflexivity.
  - destruct g as [|g]; [lia|]. cbn [digits_aux]. destruct (N.eqb_spec x 0) as [->|X]; [reflexivity|].
    rewrite digits_aux_app, (digits_aux_app b f). f_equal. apply IH; [|lia].
    rewrite Nat2N.inj_succ, N.pow_succ_r' in H. apply N.div_lt_upper_bound; [lia|]. nia.
Qed.

Lemma digits_snoc b x y : 2 <= b -> y < b -> x <> 0 \/ y <> 0 -> digits b (x * b + y) = digits b x ++ [y].
Proof.
  intros B Y NZ. unfold digits.
  set (g := Nat.max (N.size_nat (x * b + y)) (S (N.size_nat x))).
  rewrite <- (digits_aux_enough b B _ (x * b + y) g) by (auto using lt_size; lia).
  destruct g as [|g'] eqn:E; [lia|]. rewrite digits_aux_snoc by assumption. f_equal.
  apply digits_aux_enough; [assumption|apply lt_size|lia].
Qed.

Lemma number_zeros b z l : number b (repeat 0 z ++ l) = number b l.
Proof. unfold number. rewrite fold_left_app. f_equal. induction z; cbn; auto. Qed.

Lemma number_nonzero b l : 2 <= b -> forall x, x <> 0 -> fold_left (fun a d => a * b + d) l x <> 0.
Proof. intros B. induction l as [|y l IH]; intros x X; cbn; [assumption|]. apply IH. nia. Qed.

Lemma digits_number_nz b l : 2 <= b -> Forall (fun d => d < b) l -> hd 1 l <> 0 -> digits b (number b l) = l.
Proof.
  intros B. induction l as [|y l IH] using rev_ind; intros F H; [reflexivity|].
  apply Forall_app in F. destruct F as [F Fy]. inversion Fy; subst. rewrite number_app.
  destruct l as [|x l].
  - cbn in H. cbn [number fold_left]. rewrite digits_snoc; auto.
  - cbn in H. rewrite digits_snoc; auto.
    + f_equal. apply IH; auto.
    + left. unfold number. cbn [fold_left]. apply number_nonzero; [assumption|]. lia.
Qed.

Lemma leading_app z l : hd 1 l <> 0 -> leading 0 (repeat 0 z ++ l) = z.
Proof.
  intros H. induction z as [|z IH]; cbn; [|now rewrite IH].
  destruct l as [|x l]; [reflexivity|]. cbn in *. apply N.eqb_neq in H. now rewrite H.
Qed.
Lemma leading_split l : exists r, l = repeat 0 (leading 0 l) ++ r /\ hd 1 r <> 0.
Proof.
  induction l as [|x l (r & E & H)]; [exists []; cbn; split; [reflexivity|discriminate]|].
  cbn. destruct (N.eqb_spec x 0) as [->|X].
  - exists r. cbn. rewrite <- E. auto.
  - exists (x :: l). auto.
Qed.

Lemma digits_nz b x : 2 <= b -> hd 1 (digits b x) <> 0 /\ Forall (fun d => d < b) (digits b x) /\ number b (digits b x) = x.
Proof.
  intros B. unfold digits.
  assert (G : forall f x, x < 2 ^ N.of_nat f -> hd 1 (digits_aux b f x []) <> 0 /\
              Forall (fun d => d < b) (digits_aux b f x []) /\ number b (digits_aux b f x []) = x).
  { induction f as [|f IH]; intros y H.
    - cbn in *. repeat split; [discriminate|constructor|unfold number; cbn; lia].
    - cbn [digits_aux]. destruct (N.eqb_spec y 0) as [->|X]; [cbn; repeat split; [discriminate|constructor]|].
      rewrite digits_aux_app. rewrite Nat2N.inj_succ, N.pow_succ_r' in H.
      destruct (IH (y / b)) as (A & F & E); [apply N.div_lt_upper_bound; nia|].
      assert (M : y mod b < b) by (apply N.mod_lt; lia).
      repeat split.
      + destruct (digits_aux b f (y / b) []) as [|c l] eqn:D; [|exact A]. cbn.
        unfold number in E. cbn in E. rewrite (N.div_mod y b) in X by lia. rewrite <- E in X. lia.
      + apply Forall_app. auto.
      + rewrite number_app, E, N.mul_comm, <- N.div_mod; lia. }
  apply G, lt_size.
Qed.

(** Writing a number to another base, with its leading zeros, can be undone. *)
Definition rebase (b c : N) (l : list N) : list N := repeat 0 (leading 0 l) ++ digits c (number b l).
Lemma rebase_inv b c l : 2 <= b -> 2 <= c -> Forall (fun d => d < b) l -> rebase c b (rebase b c l) = l.
Proof.
  intros B C F. unfold rebase. destruct (leading_split l) as (r & E & H). remember (leading 0 l) as z.
  destruct (digits_nz c (number b l) C) as (A & Fd & Nd).
  rewrite leading_app by assumption. rewrite number_zeros, Nd, E, number_zeros. f_equal.
  apply digits_number_nz; auto. rewrite E in F. now apply Forall_app in F.
Qed.
Lemma rebase_lt b c l : 2 <= c -> Forall (fun d => d < c) (rebase b c l).
Proof.
  intros C. apply Forall_app. split; [|now apply digits_nz].
  apply Forall_forall. intros x H. apply repeat_spec in H. lia.
Qed.

(** *** Alphabets *)

Lemma index_nth l : NoDup l -> forall i, (i < length l)%nat -> index_of (nth i l 0) l = Some (N.of_nat i).
Proof.
  induction l as [|x l IH]; intros D i L; cbn in L; [lia|]. inversion D; subst. destruct i as [|i]; cbn.
  - now rewrite N.eqb_refl.
  - assert (x <> nth i l 0) by (intros ->; apply H1; apply nth_In; lia).
    apply N.eqb_neq in H. rewrite H, IH by (auto; lia). f_equal. lia.
Qed.
Lemma values_chars al l : NoDup al -> Forall (fun d => d < N.of_nat (length al)) l -> values al (map (char_at al) l) = Some l.
Proof.
  intros D. induction l as [|x l IH]; intros F; [reflexivity|]. inversion F; subst. cbn. unfold char_at at 1.
  rewrite index_nth by (auto; lia). rewrite IH by assumption. now rewrite N2Nat.id.
Qed.

Lemma alphabet58_NoDup : NoDup alphabet58.
Proof.
  assert (H : (fix go l := match l with [] => true | x :: r => negb (existsb (N.eqb x) r) && go r end) alphabet58 = true)
    by (vm_compute; reflexivity).
  revert H. generalize alphabet58 as l. intros l. induction l as [|x l IH]; intros H; constructor.
  - intros I. apply andb_prop in H. destruct H as [H _]. apply negb_true_iff in H.
    assert (existsb (N.eqb x) l = true) by (apply existsb_exists; exists x; split; [assumption|apply N.eqb_refl]). congruence.
  - apply IH. apply andb_prop in H. tauto.
Qed.

Lemma b58_inv b : Forall (fun c => c < 256) b -> b58_decode (b58_encode b) = Ok b.
Proof.
  intros F. unfold b58_decode, b58_encode. fold (rebase 256 58 b).
  rewrite values_chars; [|apply alphabet58_NoDup|change (N.of_nat (length alphabet58)) with 58; apply rebase_lt; lia].
  fold (rebase 58 256 (rebase 256 58 b)). rewrite rebase_inv; auto; lia.
Qed.

(** *** Variable length numbers *)

Lemma unvarint_aux fuel : forall x g shift acc rest, x < 2 ^ N.of_nat fuel -> x < 2 ^ (7 * N.of_nat g) -> g <> O -> (x <> 0 \/ shift = 0) ->
  unvarint g shift acc (varint_aux (S fuel) x ++ rest) = Ok (acc + x * 2 ^ shift, rest).
Proof.
  induction fuel as [|f IH]; intros x g shift acc rest H G G0 Z.
  - cbn in H. assert (x = 0) by lia. subst. destruct g as [|g]; [easy|].
    cbn. replace (shift =? 0) with true by (symmetry; apply N.eqb_eq; lia). reflexivity.
  - destruct g as [|g]; [easy|]. remember (S f) as sf. cbn [varint_aux]. subst sf.
    destruct (N.ltb_spec x 128).
    + cbn. replace (x <? 128) with true by (symmetry; apply N.ltb_lt; lia).
      destruct (N.eqb_spec x 0); [|reflexivity]. destruct Z as [Z|Z]; [lia|subst shift]. reflexivity.
    + cbn [app unvarint]. replace (x mod 128 + 128 <? 128) with false by (symmetry; apply N.ltb_ge; lia).
      rewrite Nat2N.inj_succ in *. rewrite N.pow_succ_r' in H.
      replace (7 * N.succ (N.of_nat g)) with (7 + 7 * N.of_nat g) in G by lia. rewrite N.pow_add_r in G. change (2 ^ 7) with 128 in G.
      assert (x / 128 <> 0) by (intros Q; apply N.div_small_iff in Q; lia).
      rewrite IH.
      * do 2 f_equal. rewrite N.pow_add_r. change (2 ^ 7) with 128.
        pose proof (N.div_mod x 128 ltac:(lia)). replace (x mod 128 + 128 - 128) with (x mod 128) by lia. nia.
      * apply N.div_lt_upper_bound; [lia|]. nia.
      * apply N.div_lt_upper_bound; lia.
      * intros ->. cbn in G. lia.
      * now left.
Qed.
Lemma unvarint_varint x rest : x < 2 ^ 63 -> unvarint 9 0 0 (varint x ++ rest) = Ok (x, rest).
Proof.
  intros H. unfold varint. rewrite unvarint_aux; [do 2 f_equal; lia|apply lt_size|assumption|easy|now right].
Qed.

(** *** Groups of bits *)

Lemma of_bits_value l : forall acc, of_bits acc l = acc * 2 ^ N.of_nat (length l) + of_bits 0 l.
Proof.
  induction l as [|x l IH]; intros acc; cbn [of_bits length]; [cbn; lia|].
  rewrite IH, (IH (2 * 0 + _)). rewrite Nat2N.inj_succ, N.pow_succ_r'. destruct x; lia.
Qed.
Lemma of_bits_lt l : of_bits 0 l < 2 ^ N.of_nat (length l).
Proof.
  induction l as [|x l IH]; cbn [of_bits length]; [reflexivity|]. rewrite of_bits_value, Nat2N.inj_succ, N.pow_succ_r'. destruct x; lia.
Qed.
Lemma bits_high k : forall x y, bits k (x * 2 ^ N.of_nat k + y) = bits k y.
Proof.
  assert (G : forall j x y, (j <= k)%nat -> bits j (x * 2 ^ N.of_nat k + y) = bits j y).
  { induction j as [|j IH]; intros x y L; [reflexivity|]. cbn [bits]. rewrite IH by lia. f_equal.
    apply N.b2n_inj. rewrite !N.testbit_spec'.
    replace (2 ^ N.of_nat k) with (2 * 2 ^ N.of_nat (k - S j) * 2 ^ N.of_nat j).
    2: { rewrite <- N.pow_succ_r', <- N.pow_add_r. f_equal. lia. }
    replace (x * (2 * 2 ^ N.of_nat (k - S j) * 2 ^ N.of_nat j)) with (x * 2 * 2 ^ N.of_nat (k - S j) * 2 ^ N.of_nat j) by lia.
    rewrite N.div_add_l by (apply N.pow_nonzero; lia).
    replace (x * 2 * 2 ^ N.of_nat (k - S j) + y / 2 ^ N.of_nat j) with (y / 2 ^ N.of_nat j + x * 2 ^ N.of_nat (k - S j) * 2) by lia.
    now rewrite N.mod_add by lia. }
  intros x y. now apply G.
Qed.
Lemma bits_of_bits l : bits (length l) (of_bits 0 l) = l.
Proof.
  induction l as [|x l IH]; [reflexivity|]. cbn [length bits of_bits]. rewrite of_bits_value. f_equal.
  - apply N.b2n_inj. rewrite N.testbit_spec', N.div_add_l by (apply N.pow_nonzero; lia).
    rewrite N.div_small by apply of_bits_lt. destruct x; reflexivity.
  - rewrite bits_high. exact IH.
Qed.
Lemma of_bits_bits k x : x < 2 ^ N.of_nat k -> of_bits 0 (bits k x) = x.
Proof.
  assert (G : forall k acc, of_bits acc (bits k x) = acc * 2 ^ N.of_nat k + x mod 2 ^ N.of_nat k).
  { induction k0 as [|j IH]; intros acc; cbn [bits of_bits].
    - cbn. rewrite N.mod_1_r. lia.
    - rewrite IH, Nat2N.inj_succ, N.pow_succ_r'. rewrite (N.mul_comm 2 (2 ^ N.of_nat j)), N.mod_mul_r by (try apply N.pow_nonzero; lia).
      rewrite <- N.testbit_spec'. destruct (N.testbit x (N.of_nat j)); cbn [N.b2n]; lia. }
  intros L. rewrite G, N.mod_small by assumption. lia.
Qed.
Lemma bits_length k x : length (bits k x) = k.
Proof. induction k; cbn; auto. Qed.

Lemma groups_inv k : (0 < k)%nat -> forall fuel l, (length l <= fuel)%nat ->
  exists pad, (pad < k)%nat /\ flat_map (bits k) (groups k fuel l) = l ++ repeat false pad /\ Forall (fun d => d < 2 ^ N.of_nat k) (groups k fuel l).
Proof.
  intros K. induction fuel as [|f IH]; intros l L.
  - destruct l; [|cbn in L; lia]. exists O. cbn. auto.
  - destruct l as [|x l]; [exists O; cbn; auto|]. cbn [groups flat_map]. set (xl := x :: l) in *.
    assert (Len : length (firstn k xl ++ repeat false (k - length xl)) = k).
    { rewrite app_length, firstn_length, repeat_length. lia. }
    assert (Lt : of_bits 0 (firstn k xl ++ repeat false (k - length xl)) < 2 ^ N.of_nat k) by (pose proof (of_bits_lt (firstn k xl ++ repeat false (k - length xl))) as O; rewrite Len in O; exact O).
    destruct (IH (skipn k xl)) as (pad & P & E & F).
    { rewrite skipn_length. subst xl. cbn [length] in *. lia. }
    assert (Bk : bits k (of_bits 0 (firstn k xl ++ repeat false (k - length xl))) = firstn k xl ++ repeat false (k - length xl)).
    { pose proof (bits_of_bits (firstn k xl ++ repeat false (k - length xl))) as O. rewrite Len in O. exact O. }
    rewrite E, Bk.
    destruct (Nat.le_gt_cases k (length xl)) as [G|G].
    + exists pad. split; [assumption|]. split; [|constructor; assumption].
      replace (k - length xl)%nat with O by lia. cbn [repeat]. rewrite app_nil_r, app_assoc, firstn_skipn. reflexivity.
    + exists (k - length xl)%nat. split; [subst xl; cbn [length] in *; lia|]. split.
      * rewrite firstn_all2, skipn_all2 in * by lia. cbn [app].
        assert (length (@nil bool ++ repeat false pad) = 0%nat) as Z.
        { rewrite <- E. replace (groups k f []) with (@nil N) by (destruct f; reflexivity). reflexivity. }
        destruct pad; [|cbn in Z; discriminate]. cbn [repeat]. now rewrite app_nil_r.
      * constructor; [assumption|]. exact F.
Qed.

Lemma flat_bits_inj a b : Forall (fun c => c < 256) a -> Forall (fun c => c < 256) b -> flat_map (bits 8) a = flat_map (bits 8) b -> a = b.
Proof.
  intros Fa. revert b. induction Fa as [|x a X Fa IH]; intros b Fb E.
  - destruct b; [reflexivity|discriminate].
  - destruct Fb as [|y b Y Fb]; [discriminate|]. remember 8%nat as k. cbn [flat_map] in E.
    assert (bits k x = bits k y /\ flat_map (bits k) a = flat_map (bits k) b) as [E1 E2].
    { apply (f_equal (firstn k)) in E as E'. apply (f_equal (skipn k)) in E as E''.
      rewrite !firstn_app, !bits_length, Nat.sub_diag, (firstn_all2 (bits k x)), (firstn_all2 (bits k y)) in E' by (rewrite bits_length; lia).
      rewrite !skipn_app, !bits_length, Nat.sub_diag, (skipn_all2 (bits k x)), (skipn_all2 (bits k y)) in E'' by (rewrite bits_length; lia).
      cbn [firstn skipn app] in *. rewrite !app_nil_r in E'. auto. }
    f_equal; [|auto]. rewrite <- (of_bits_bits k x), <- (of_bits_bits k y), E1 by (subst k; assumption). reflexivity.
Qed.

Lemma alphabet64_NoDup : NoDup alphabet64.
Proof.
  assert (H : (fix go l := match l with [] => true | x :: r => negb (existsb (N.eqb x) r) && go r end) alphabet64 = true)
    by (vm_compute; reflexivity).
  revert H. generalize alphabet64 as l. intros l. induction l as [|x l IH]; intros H; constructor.
  - intros I. apply andb_prop in H. destruct H as [H _]. apply negb_true_iff in H.
    assert (existsb (N.eqb x) l = true) by (apply existsb_exists; exists x; split; [assumption|apply N.eqb_refl]). congruence.
  - apply IH. apply andb_prop in H. tauto.
Qed.

Lemma b64_inj a b : Forall (fun c => c < 256) a -> Forall (fun c => c < 256) b -> b64_encode a = b64_encode b -> a = b.
Proof.
  intros Fa Fb E. unfold b64_encode, regroup in E.
  assert (L8 : forall a, length (flat_map (bits 8) a) = (8 * length a)%nat).
  { induction a0 as [|x r IH]; [reflexivity|]. cbn [flat_map length]. rewrite app_length, bits_length, IH. lia. }
  destruct (groups_inv 6 ltac:(lia) (length (flat_map (bits 8) a)) (flat_map (bits 8) a) ltac:(lia)) as (p & P & G & F).
  destruct (groups_inv 6 ltac:(lia) (length (flat_map (bits 8) b)) (flat_map (bits 8) b) ltac:(lia)) as (p' & P' & G' & F').
  apply (f_equal (values alphabet64)) in E. rewrite !values_chars in E by (try apply alphabet64_NoDup; assumption).
  assert (SI : forall (x y : list N), Some x = Some y -> x = y) by congruence. apply SI in E. rewrite E, G' in G. apply flat_bits_inj; auto.
  assert (length a = length b).
  { apply (f_equal (@length bool)) in G. rewrite !app_length, !repeat_length, !L8 in G. lia. }
  apply (f_equal (firstn (8 * length a))) in G. rewrite !firstn_app in G.
  rewrite !L8, H, Nat.sub_diag in G. cbn [firstn] in G. rewrite !app_nil_r in G.
  rewrite !firstn_all2 in G by (rewrite L8; lia). symmetry. exact G.
Qed.
