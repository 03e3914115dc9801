(** Proofs about TIDs. *)
From Coq Require Import String List NArith ZArith Bool Lia Sorted.
From Verif Require Import Base Lists TidModel.
Import ListNotations.
Local Open Scope Z_scope.

Definition chr (d : Z) : N := nth (Z.to_nat d) s32_chars 0%N.

Lemma digit_cases (P : Z -> Prop) : Forall P (map Z.of_nat (seq 0 32)) -> forall d, 0 <= d < 32 -> P d.
Proof.
  intros F d H. rewrite Forall_forall in F. apply F. apply in_map_iff. exists (Z.to_nat d).
  split; [lia|]. apply in_seq. lia.
Qed.

Lemma index_chr d : 0 <= d < 32 -> index_of (chr d) s32_chars 0 = Ok d.
Proof. apply (digit_cases (fun d => index_of (chr d) s32_chars 0 = Ok d)). cbn. repeat constructor. Qed.

Lemma chr_not_dash d : 0 <= d < 32 -> N.eqb (chr d) 45 = false.
Proof. apply (digit_cases (fun d => N.eqb (chr d) 45 = false)). cbn. repeat constructor. Qed.

Lemma chr_mono a b : 0 <= a -> a < b -> b < 32 -> (chr a < chr b)%N.
Proof.
  intros Ha Hab Hb.
  assert (X : forallb (fun a => forallb (fun b => negb (a <? b) || (chr a <? chr b)%N) (map Z.of_nat (seq 0 32)))
                (map Z.of_nat (seq 0 32)) = true) by (vm_compute; reflexivity).
  rewrite forallb_forall in X.
  assert (IN : forall d, 0 <= d < 32 -> In d (map Z.of_nat (seq 0 32))).
  { intros d H. apply in_map_iff. exists (Z.to_nat d). split; [lia|]. apply in_seq. lia. }
  specialize (X a (IN a ltac:(lia))). rewrite forallb_forall in X. specialize (X b (IN b ltac:(lia))).
  apply orb_prop in X as [X|X]; [rewrite negb_true_iff, Z.ltb_ge in X; lia|apply N.ltb_lt; auto].
Qed.

Lemma index_of_spec c l : forall i d, index_of c l i = Ok d ->
  i <= d /\ nth_error l (Z.to_nat (d - i)) = Some c.
Proof.
  induction l as [|x l IH]; intros i d H; simpl in H; [discriminate|].
  destruct (N.eqb_spec x c).
  - inversion H; subst. split; [lia|]. rewrite Z.sub_diag. auto.
  - apply IH in H as [H1 H2]. split; [lia|].
    replace (Z.to_nat (d - i)) with (S (Z.to_nat (d - (i + 1)))) by lia. auto.
Qed.

Lemma index_chr_inv c d : index_of c s32_chars 0 = Ok d -> 0 <= d < 32 /\ c = chr d.
Proof.
  intros H. apply index_of_spec in H as [H1 H2]. rewrite Z.sub_0_r in H2.
  assert (Z.to_nat d < length s32_chars)%nat by (apply nth_error_Some; congruence).
  change (length s32_chars) with 32%nat in H. split; [lia|].
  unfold chr. erewrite nth_error_nth; eauto.
Qed.

(** Fixed width digits, most significant first. *)
Fixpoint digs (k : nat) (n : Z) : list Z :=
  match k with O => [] | S k' => digs k' (n / 32) ++ [n mod 32] end.

Lemma digs_length k : forall n, length (digs k n) = k.
Proof. induction k; intros n; simpl; auto. rewrite app_length, IHk. simpl. lia. Qed.

Lemma digs_range k : forall n, Forall (fun d => 0 <= d < 32) (digs k n).
Proof.
  induction k; intros n; simpl; auto. apply Forall_app. split; auto. constructor; auto.
  apply Z.mod_pos_bound. lia.
Qed.

Lemma pow_S k : 32 ^ Z.of_nat (S k) = 32 * 32 ^ Z.of_nat k.
Proof. rewrite Nat2Z.inj_succ, Z.pow_succ_r; lia. Qed.

Lemma digs_zero k : map chr (digs k 0) = repeat 50%N k.
Proof.
  induction k; auto. cbn [digs]. change (0 / 32) with 0. change (0 mod 32) with 0.
  rewrite map_app, IHk. cbn [map]. change (chr 0) with 50%N. rewrite <- repeat_cons. auto.
Qed.

Lemma loop_ok k : forall num enc, 0 <= num < 32 ^ Z.of_nat k ->
  exists y, s32loop (S k) num enc = Ok (y ++ enc) /\ (length y <= k)%nat /\
    repeat 50%N (k - length y) ++ y = map chr (digs k num).
Proof.
  induction k as [|k IH]; intros num enc H.
  - simpl in H. assert (num = 0) by lia. subst. exists []. simpl. auto.
  - remember (S k) as k1. cbn [s32loop]. subst k1. destruct (Z.ltb_spec 0 num).
    + rewrite pow_S in H.
      destruct (IH (num / 32) (nth (Z.to_nat (num mod 32)) s32_chars 0%N :: enc)) as (y & E & Hl & D).
      { split; [apply Z.div_pos; lia|apply Z.div_lt_upper_bound; lia]. }
      exists (y ++ [chr (num mod 32)]). rewrite E, <- app_assoc. split; [auto|].
      rewrite app_length. simpl length. split; [lia|].
      replace (S k - (length y + 1))%nat with (k - length y)%nat by lia.
      rewrite app_assoc, D. cbn [digs]. rewrite map_app. auto.
    + assert (num = 0) by lia. subst. exists []. cbn [app length]. split; auto. split; [lia|].
      rewrite app_nil_r, Nat.sub_0_r, digs_zero. auto.
Qed.

Lemma loop_mono f : forall f' num enc x, (f <= f')%nat -> s32loop f num enc = Ok x -> s32loop f' num enc = Ok x.
Proof.
  induction f as [|f IH]; intros f' num enc x H E; [discriminate|]. destruct f' as [|f']; [lia|].
  simpl in *. destruct (0 <? num); auto. apply IH; auto. lia.
Qed.

Lemma loop_long f : forall w num enc x, s32loop f num enc = Ok x -> 32 ^ Z.of_nat w <= num ->
  (w + length enc < length x)%nat.
Proof.
  induction f as [|f IH]; intros w num enc x E H; [discriminate|]. simpl in E.
  assert (0 < 32 ^ Z.of_nat w) by (apply Z.pow_pos_nonneg; lia).
  destruct (Z.ltb_spec 0 num); [|lia].
  assert (LE : forall f num enc x, s32loop f num enc = Ok x -> (length enc <= length x)%nat).
  { clear. induction f as [|f IH]; intros num enc x E; [discriminate|]. simpl in E.
    destruct (0 <? num); [|inversion E; auto]. apply IH in E. simpl in E. lia. }
  destruct w as [|w].
  - apply LE in E. simpl in E. lia.
  - rewrite pow_S in H. apply (IH w) in E; [simpl in E; lia|]. apply Z.div_le_lower_bound; lia.
Qed.

Lemma encode_total n : exists x, s32encode n = Ok x.
Proof.
  unfold s32encode. destruct (Z_lt_le_dec n 0).
  - set (f := Z.to_nat _). cbn [s32loop]. destruct (Z.ltb_spec 0 n); [lia|]. eauto.
  - destruct (loop_ok (Z.to_nat (Z.log2_up (n + 2))) n []) as (y & E & _); [|eauto].
    split; auto. rewrite Z2Nat.id by apply Z.log2_up_nonneg.
    assert (n + 2 <= 2 ^ Z.log2_up (n + 2)) by (apply Z.log2_log2_up_spec; lia).
    assert (2 ^ Z.log2_up (n + 2) <= 32 ^ Z.log2_up (n + 2)).
    { apply Z.pow_le_mono_l. pose proof (Z.log2_up_nonneg (n + 2)). lia. }
    lia.
Qed.

Lemma encode_width k n : 0 <= n < 32 ^ Z.of_nat k ->
  exists y, s32encode n = Ok y /\ (length y <= k)%nat /\ rjust k 50%N y = map chr (digs k n).
Proof.
  intros H. destruct (encode_total n) as [x Hx]. destruct (loop_ok k n [] H) as (y & E & Hl & D).
  rewrite app_nil_r in E. exists y. unfold s32encode in *.
  set (f := S (Z.to_nat (Z.log2_up (n + 2)))) in *.
  apply (loop_mono _ (Nat.max f (S k))) in Hx; [|lia].
  pose proof E as E'. apply (loop_mono _ (Nat.max f (S k))) in E'; [|lia].
  assert (x = y) by congruence. subst x. split; auto.
  destruct (encode_total n) as [x' Hx']. unfold s32encode in Hx'. fold f in Hx'.
  pose proof Hx' as Hx2. apply (loop_mono _ (Nat.max f (S k))) in Hx'; [|lia]. congruence.
Qed.

Lemma encode_long k n x : s32encode n = Ok x -> 32 ^ Z.of_nat k <= n -> (k < length x)%nat.
Proof. intros E H. apply (loop_long _ k) in E; auto. simpl in E. lia. Qed.

Lemma decode_digs ds : Forall (fun d => 0 <= d < 32) ds -> forall i,
  s32decode_from i (map chr ds) = Ok (fold_left (fun i d => i * 32 + d) ds i).
Proof.
  induction 1 as [|d ds H F IH]; intros i; auto. cbn [map s32decode_from]. rewrite index_chr by auto.
  cbn [bind fold_left]. apply IH.
Qed.

Lemma digs_value k : forall n i, 0 <= n < 32 ^ Z.of_nat k ->
  fold_left (fun i d => i * 32 + d) (digs k n) i = i * 32 ^ Z.of_nat k + n.
Proof.
  induction k as [|k IH]; intros n i H.
  - simpl in *. lia.
  - rewrite pow_S in *. cbn [digs]. rewrite fold_left_app. cbn [fold_left]. rewrite IH.
    + pose proof (Z.div_mod n 32 ltac:(lia)). lia.
    + split; [apply Z.div_pos; lia|apply Z.div_lt_upper_bound; lia].
Qed.

Lemma filter_dash ds : Forall (fun d => 0 <= d < 32) ds ->
  filter (fun c => negb (N.eqb c 45)) (map chr ds) = map chr ds.
Proof. induction 1 as [|d ds H F IH]; auto. cbn [map filter]. rewrite chr_not_dash, IH; auto. Qed.

(** ** Order *)

Lemma str_cmp_app a : forall b c d, length a = length b ->
  str_cmp (a ++ c) (b ++ d) = match str_cmp a b with Eq => str_cmp c d | r => r end.
Proof.
  induction a as [|x a IH]; intros [|y b] c d H; simpl in *; try discriminate; auto.
  destruct (N.compare x y); auto.
Qed.

Lemma digs_cmp k : forall n m, 0 <= n < 32 ^ Z.of_nat k -> 0 <= m < 32 ^ Z.of_nat k ->
  str_cmp (map chr (digs k n)) (map chr (digs k m)) = Z.compare n m.
Proof.
  induction k as [|k IH]; intros n m Hn Hm.
  - simpl in *. replace n with m by lia. rewrite Z.compare_refl. auto.
  - rewrite pow_S in *. cbn [digs]. rewrite !map_app, str_cmp_app by (rewrite !map_length, !digs_length; auto).
    rewrite IH; try (split; [apply Z.div_pos; lia|apply Z.div_lt_upper_bound; lia]).
    pose proof (Z.div_mod n 32 ltac:(lia)). pose proof (Z.div_mod m 32 ltac:(lia)).
    pose proof (Z.mod_pos_bound n 32 ltac:(lia)). pose proof (Z.mod_pos_bound m 32 ltac:(lia)).
    cbn [map str_cmp].
    destruct (Z.compare_spec (n / 32) (m / 32)); symmetry.
    + destruct (Z.lt_trichotomy (n mod 32) (m mod 32)) as [L|[L|L]].
      * pose proof (chr_mono (n mod 32) (m mod 32) ltac:(lia) L ltac:(lia)) as X. apply N.compare_lt_iff in X. rewrite X.
        apply Z.compare_lt_iff. lia.
      * rewrite L, N.compare_refl. apply Z.compare_eq_iff. lia.
      * pose proof (chr_mono (m mod 32) (n mod 32) ltac:(lia) L ltac:(lia)) as X. apply N.compare_gt_iff in X. rewrite X.
        apply Z.compare_gt_iff. lia.
    + apply Z.compare_lt_iff. lia.
    + apply Z.compare_gt_iff. lia.
Qed.

(** ** TIDs *)

Definition p55 : Z := 36028797018963968.
Lemma p55_pow : p55 = 32 ^ Z.of_nat 11. Proof. reflexivity. Qed.

Lemma clock_part c : 0 <= c < 1024 -> exists y, s32encode c = Ok y /\ (length y <= 2)%nat /\
  exists ds, Forall (fun d => 0 <= d < 32) ds /\ ljust 2 50%N y = map chr ds /\ length ds = 2%nat.
Proof.
  intros H. destruct (encode_width 2 c) as (y & E & Hl & D); [exact H|]. exists y. split; auto. split; auto.
  unfold rjust in D. pose proof (digs_range 2 c) as R.
  remember (digs 2 c) as dd. assert (LD : length dd = 2%nat) by (subst; apply digs_length).
  destruct dd as [|d1 [|d2 [|]]]; try discriminate. inversion R as [|? ? R1 R']; inversion R' as [|? ? R2 _]; subst.
  destruct y as [|y1 [|y2 [|]]]; simpl in Hl; try lia; cbn in D.
  - exists [0; 0]. split; [repeat constructor; lia|split; reflexivity].
  - inversion D; subst. exists [d2; 0]. split; [repeat constructor; lia|split; reflexivity].
  - inversion D; subst. exists [d1; d2]. split; [repeat constructor; lia|split; reflexivity].
Qed.

Lemma rjust_app k m x y : (length x <= k)%nat -> length y = m ->
  rjust (k + m) 50%N (x ++ y) = rjust k 50%N x ++ y.
Proof.
  intros H E. unfold rjust. rewrite app_length, app_assoc. do 3 f_equal. lia.
Qed.

Lemma tid_form n c : 0 <= n < p55 -> 0 <= c < 1024 -> exists ds, int_to_tid n c = Ok (map chr (digs 11 n ++ ds)) /\
  length ds = 2%nat /\ Forall (fun d => 0 <= d < 32) ds /\
  exists y, s32encode c = Ok y /\ map chr ds = ljust 2 50%N y.
Proof.
  intros Hn Hc. destruct (encode_width 11 n) as (a & Ea & La & Da); [rewrite <- p55_pow; auto|].
  destruct (clock_part c Hc) as (b & Eb & Lb & ds & R & D & L2).
  exists ds. unfold int_to_tid. rewrite Ea, Eb. cbn [bind]. rewrite D.
  rewrite app_length, map_length, L2.
  destruct (Nat.leb_spec (length a + 2) 13); [|lia].
  rewrite (rjust_app 11 2) by (auto; rewrite map_length; auto). rewrite Da, map_app. split; auto. split; auto.
  split; auto. exists b. auto.
Qed.

Lemma tid_round_trip n c : 0 <= n < p55 -> 0 <= c < 1024 ->
  exists t, int_to_tid n c = Ok t /\ length t = 13%nat /\ tid_to_int t = Ok n.
Proof.
  intros Hn Hc. destruct (tid_form n c Hn Hc) as (ds & E & L2 & R & _). exists (map chr (digs 11 n ++ ds)).
  split; auto. rewrite map_length, app_length, digs_length, L2. split; auto.
  unfold tid_to_int. rewrite map_length, app_length, digs_length, L2. cbn [Nat.add Nat.eqb].
  rewrite filter_dash by (apply Forall_app; split; [apply digs_range|auto]).
  rewrite map_length, app_length, digs_length, L2. change (11 + 2 - 2)%nat with 11%nat.
  rewrite map_app, firstn_app, map_length, digs_length. rewrite firstn_all2 by (rewrite map_length, digs_length; lia).
  rewrite Nat.sub_diag. cbn [firstn]. rewrite app_nil_r. unfold s32decode.
  rewrite decode_digs by apply digs_range. rewrite digs_value by (rewrite <- p55_pow; auto). f_equal; lia.
Qed.

Lemma tid_too_large n c : p55 <= n -> int_to_tid n c = Err AssertionError.
Proof.
  intros H. unfold int_to_tid. destruct (encode_total n) as [a Ea]. destruct (encode_total c) as [b Eb].
  rewrite Ea, Eb. cbn [bind]. apply (encode_long 11) in Ea; [|rewrite <- p55_pow; auto].
  unfold ljust. rewrite !app_length, repeat_length.
  destruct (Nat.leb_spec (length a + (length b + (2 - length b))) 13); auto. lia.
Qed.

Lemma tid_order n m c t u : 0 <= n < p55 -> 0 <= m < p55 -> 0 <= c < 1024 ->
  int_to_tid n c = Ok t -> int_to_tid m c = Ok u -> (slt t u <-> n < m).
Proof.
  intros Hn Hm Hc Et Eu.
  destruct (tid_form n c Hn Hc) as (d1 & E1 & L1 & R1 & y1 & C1 & D1).
  destruct (tid_form m c Hm Hc) as (d2 & E2 & L2 & R2 & y2 & C2 & D2).
  assert (t = map chr (digs 11 n ++ d1)) by congruence. assert (u = map chr (digs 11 m ++ d2)) by congruence.
  subst t u. unfold slt.
  rewrite !map_app. assert (y1 = y2) by congruence. subst y2. rewrite D1, D2.
  rewrite str_cmp_app by (rewrite !map_length, !digs_length; auto).
  rewrite digs_cmp by (rewrite <- p55_pow; auto).
  assert (X : forall x, str_cmp x x = Eq).
  { induction x; simpl; auto. rewrite N.compare_refl. auto. }
  rewrite X. destruct (Z.compare_spec n m); split; intros; try lia; congruence.
Qed.

(** Every 13 character string over the alphabet decodes, and its first 11 characters
    are those of the TID of the decoded number. *)
Lemma tid_decode_encode t c : length t = 13%nat -> Forall (fun x => In x s32_chars) t -> 0 <= c < 1024 ->
  exists n u, tid_to_int t = Ok n /\ 0 <= n < p55 /\ int_to_tid n c = Ok u /\ firstn 11 u = firstn 11 t.
Proof.
  intros HL F Hc.
  assert (X : exists ds, t = map chr ds /\ Forall (fun d => 0 <= d < 32) ds).
  { clear - F. induction F as [|x t H F IH]; [exists []; auto|]. destruct IH as (ds & -> & R).
    apply In_nth_error in H as [i Hi]. assert (i < 32)%nat.
    { change 32%nat with (length s32_chars). apply nth_error_Some. congruence. }
    exists (Z.of_nat i :: ds). split; [|constructor; auto; lia]. cbn [map]. f_equal.
    unfold chr. rewrite Nat2Z.id. erewrite nth_error_nth; eauto. }
  destruct X as (ds & -> & R). rewrite map_length in HL.
  assert (S : exists d1 d2, ds = d1 ++ d2 /\ length d1 = 11%nat /\ length d2 = 2%nat).
  { exists (firstn 11 ds), (skipn 11 ds). rewrite firstn_skipn, firstn_length, skipn_length. repeat split; lia. }
  destruct S as (d1 & d2 & -> & L1 & L2). apply Forall_app in R as [R1 R2].
  assert (INV : forall k d, length d = k -> Forall (fun d => 0 <= d < 32) d ->
    exists n, 0 <= n < 32 ^ Z.of_nat k /\ d = digs k n).
  { clear. induction k as [|k IH]; intros d L R.
    - destruct d; [|discriminate]. exists 0. simpl. split; auto. lia.
    - destruct (exists_last (l := d)) as (d' & x & ->); [intros ->; discriminate|].
      rewrite app_length in L. simpl in L. apply Forall_app in R as [R1 R2].
      destruct (IH d' ltac:(lia) R1) as (n & Hn & ->). inversion R2 as [|? ? Hx _]; subst.
      exists (n * 32 + x). rewrite pow_S. split; [lia|]. cbn [digs].
      rewrite (Z.add_comm _ x), Z.div_add, (Z.div_small x), Z.mod_add, Z.mod_small by lia. auto. }
  destruct (INV 11%nat d1 L1 R1) as (n & Hn & ->). rewrite <- p55_pow in Hn.
  destruct (tid_form n c Hn Hc) as (ds' & E & L2' & R' & _).
  exists n, (map chr (digs 11 n ++ ds')). split; [|split; [auto|split; [auto|]]].
  - unfold tid_to_int. rewrite map_length, app_length, digs_length, L2. cbn [Nat.add Nat.eqb].
    rewrite filter_dash by (apply Forall_app; split; auto).
    rewrite map_length, app_length, digs_length, L2. change (11 + 2 - 2)%nat with 11%nat.
    rewrite map_app, firstn_app, map_length, digs_length. rewrite firstn_all2 by (rewrite map_length, digs_length; lia).
    rewrite Nat.sub_diag. cbn [firstn]. rewrite app_nil_r. unfold s32decode.
    rewrite decode_digs by apply digs_range. rewrite digs_value by (rewrite <- p55_pow; auto). f_equal; lia.
  - rewrite !map_app, !firstn_app, !map_length, !digs_length, Nat.sub_diag. cbn [firstn].
    rewrite !app_nil_r. auto.
Qed.

Lemma datetime_round_trip dt c : 0 <= dt < p55 -> 0 <= c < 1024 ->
  exists t, datetime_to_tid dt c = Ok t /\ tid_to_datetime t = Ok dt.
Proof.
  intros H Hc. destruct (tid_round_trip dt c H Hc) as (t & E & _ & D). exists t. split; auto.
  unfold tid_to_datetime. rewrite D. cbn [bind]. destruct (Z.leb_spec dt max_datetime); auto.
  unfold max_datetime, p55 in *. lia.
Qed.

(** ** next_tid *)

Lemma next_tids_nth clockid : forall clock last j u, nth_error (next_tids clockid last clock) j = Some (Ok u) ->
  exists n, last < n /\ int_to_tid n clockid = Ok u.
Proof.
  induction clock as [|ns clock IH]; intros last j u H; [destruct j; discriminate|].
  cbn [next_tids next_tid] in H. destruct j as [|j]; simpl in H.
  - inversion H. eexists. split; [|eauto]. lia.
  - apply IH in H as (n & H1 & H2). exists n. split; auto. lia.
Qed.

Lemma next_tid_increasing clockid : 0 <= clockid < 1024 -> forall clock last i j t u, 0 <= last -> (i < j)%nat ->
  nth_error (next_tids clockid last clock) i = Some (Ok t) ->
  nth_error (next_tids clockid last clock) j = Some (Ok u) -> slt t u.
Proof.
  intros Hc. induction clock as [|ns clock IH]; intros last i j t u Hl Hij Hi Hj; [destruct i; discriminate|].
  cbn [next_tids next_tid] in *. destruct j as [|j]; [lia|]. simpl in Hj. destruct i as [|i]; simpl in Hi.
  - inversion Hi as [E1]. apply next_tids_nth in Hj as (m & Hm & E2).
    set (n := Z.max (ns / 1000) (last + 1)) in *.
    assert (n < p55) by (destruct (Z_lt_le_dec n p55); auto; rewrite tid_too_large in E1 by auto; discriminate).
    assert (m < p55) by (destruct (Z_lt_le_dec m p55); auto; rewrite tid_too_large in E2 by auto; discriminate).
    apply (tid_order n m clockid t u); auto; lia.
  - apply (IH (Z.max (ns / 1000) (last + 1)) i j t u); auto; lia.
Qed.

Lemma next_tid_ok clockid last ns : 0 <= clockid < 1024 -> 0 <= last + 1 < p55 -> ns / 1000 < p55 ->
  exists t, snd (next_tid clockid last ns) = Ok t.
Proof.
  intros Hc Hl Hn. cbn [next_tid snd].
  destruct (tid_round_trip (Z.max (ns / 1000) (last + 1)) clockid) as (t & E & _); auto; [lia|]. eauto.
Qed.

Lemma tid_outside : (exists n t, n < 0 /\ int_to_tid n 17 = Ok t /\ tid_to_int t <> Ok n) /\
  (exists n c t, 0 <= n < 2 ^ 50 /\ 1024 <= c /\ int_to_tid n c = Ok t /\ tid_to_int t <> Ok n).
Proof.
  split.
  - exists (-5). eexists. split; [lia|]. split; [vm_compute; reflexivity|]. vm_compute. discriminate.
  - exists 5, 1024. eexists. split; [lia|]. split; [lia|]. split; [vm_compute; reflexivity|]. vm_compute. discriminate.
Qed.

(** Thread 0 loads; thread 1 completes three calls; thread 0 stores its stale value;
    thread 1 calls again. *)
Definition stale_schedule : list (nat * Z) :=
  [(0%nat, 0)] ++ repeat (1%nat, 0) 9 ++ [(0%nat, 0)] ++ repeat (1%nat, 0) 3.

Lemma next_tid_threads : exists clockid evs i t u pre mid post, 0 <= clockid < 32 /\
  t_out (trun clockid evs) = pre ++ (i, Ok t) :: mid ++ (i, Ok u) :: post /\ slt u t /\
  In (i, Ok u) pre.
Proof.
  exists 17, stale_schedule, 1%nat, (s "22222222225l2"), (s "22222222224l2"),
    [(1%nat, Ok (s "22222222223l2")); (1%nat, Ok (s "22222222224l2"))], [], [].
  split; [lia|]. vm_compute. split; [reflexivity|]. split; [reflexivity|]. right. left. reflexivity.
Qed.
