(** Signing and verifying. *)
From Coq Require Import String List NArith ZArith Znumtheory Zdiv Bool Lia.
From Verif Require Import Base Lists Ipld IpldProofs BlockSpec BlockProofs SignModel SignSpec.
Import ListNotations.
Local Open Scope Z_scope.

Section Sign.
Variable n : Z.
Variable xc inv : Z -> Z.
Variable hash : list N -> Z.
Hypothesis C : curve n xc inv.

Let npos : 0 < n. Proof. pose proof (c_odd _ _ _ C). lia. Qed.

Lemma zero_divide a : a mod n = 0 <-> (n | a).
Proof. split; [apply Zmod_divide; lia|apply Zdivide_mod]. Qed.

Lemma eq_divide a b : a mod n = b mod n <-> (n | a - b).
Proof.
  rewrite <- zero_divide. split; intros H.
  - now rewrite Zminus_mod, H, Z.sub_diag.
  - replace a with (a - b + b) by ring. rewrite Zplus_mod, H, Z.add_0_l. now rewrite Zmod_mod.
Qed.

Lemma nonzero_mult a b : a mod n <> 0 -> b mod n <> 0 -> (a * b) mod n <> 0.
Proof.
  rewrite !zero_divide. intros Ha Hb H. destruct (prime_mult _ (c_prime _ _ _ C) _ _ H); auto.
Qed.

Lemma one_mod : 1 mod n = 1.
Proof. apply Z.mod_small. pose proof (c_odd _ _ _ C). lia. Qed.

Lemma inv_divide a : a mod n <> 0 -> (n | a * inv a - 1).
Proof. intros H. apply eq_divide. rewrite one_mod. now apply (c_inv _ _ _ C). Qed.

Lemma inv_nonzero a : a mod n <> 0 -> inv a mod n <> 0.
Proof.
  intros H. rewrite zero_divide. intros [q Hq]. destruct (inv_divide a H) as [p Hp]. rewrite Hq in Hp.
  assert (n | 1). { exists (a * q - p). lia. } apply Z.divide_1_r in H0. pose proof (c_odd _ _ _ C). lia.
Qed.

(** What a signature satisfies: [s k = z + r d]. *)
Lemma sign_spec d k z r s : ecdsa_sign n xc inv d k z = Some (r, s) ->
  k mod n <> 0 /\ r = xc k mod n /\ 0 < r < n /\ 0 < s < n /\ (n | s * k - (z + r * d)).
Proof.
  unfold ecdsa_sign. destruct (_ || _) eqn:E; [discriminate|]. intros [= <- <-].
  apply orb_false_iff in E. destruct E as [E E3]. apply orb_false_iff in E. destruct E as [E1 E2].
  apply Z.eqb_neq in E1, E2, E3. split; [assumption|]. split; [reflexivity|].
  pose proof (Z.mod_pos_bound (xc k) n npos). pose proof (Z.mod_pos_bound (inv k * (z + xc k mod n * d)) n npos).
  split; [lia|]. split; [lia|]. destruct (inv_divide k E1) as [p Hp].
  apply eq_divide. rewrite Zmult_mod_idemp_l. apply eq_divide.
  exists ((z + xc k mod n * d) * p). replace (inv k * (z + xc k mod n * d) * k - (z + xc k mod n * d)) with ((z + xc k mod n * d) * (k * inv k - 1)) by ring.
  rewrite Hp. ring.
Qed.

Lemma low_s_cases s : 0 < s < n -> 0 < low_s n s < n /\ 2 * low_s n s <= n /\ (low_s n s = s \/ low_s n s = n - s).
Proof.
  intros H. unfold low_s. pose proof (Z.div_mod n 2 ltac:(lia)). pose proof (Z.mod_pos_bound n 2 ltac:(lia)).
  destruct (Z.ltb_spec (n / 2) s); lia.
Qed.

(** The point computed when verifying, times [s]. *)
Lemma point_spec q z r s : s mod n <> 0 -> (n | s * ((inv s * z + inv s * r * q) mod n) - (z + r * q)).
Proof.
  intros H. apply eq_divide. rewrite Zmult_mod_idemp_r. apply eq_divide. destruct (inv_divide s H) as [p Hp].
  exists ((z + r * q) * p). replace (s * (inv s * z + inv s * r * q) - (z + r * q)) with ((z + r * q) * (s * inv s - 1)) by ring.
  rewrite Hp. ring.
Qed.

Lemma cancel s a b : s mod n <> 0 -> (n | s * a - s * b) -> a mod n = b mod n.
Proof.
  intros H D. apply eq_divide. replace (s * a - s * b) with (s * (a - b)) in D by ring.
  destruct (prime_mult _ (c_prime _ _ _ C) _ _ D) as [X|X]; [|exact X]. apply zero_divide in X. contradiction.
Qed.

Lemma small_nonzero s : 0 < s < n -> s mod n <> 0.
Proof. intros H. rewrite Z.mod_small by lia. lia. Qed.

(** When a point with the right x coordinate comes out. *)
Lemma verify_iff q z r s k : 0 < r < n -> 0 < s < n -> k mod n <> 0 -> r = xc k mod n ->
  (ecdsa_verify n xc inv q z r s = true <-> (n | z + r * q - s * k) \/ (n | z + r * q + s * k)).
Proof.
  intros Hr Hs Hk Er. pose proof (small_nonzero s Hs) as Hs0. unfold ecdsa_verify.
  set (p := (inv s * z + inv s * r * q) mod n). assert (Dp : (n | s * p - (z + r * q))) by exact (point_spec q z r s Hs0).
  assert (Pp : p mod n = p) by apply Zmod_mod.
  replace (1 <=? r) with true by (symmetry; apply Z.leb_le; lia). replace (r <? n) with true by (symmetry; apply Z.ltb_lt; lia).
  replace (1 <=? s) with true by (symmetry; apply Z.leb_le; lia). replace (s <? n) with true by (symmetry; apply Z.ltb_lt; lia).
  cbn [andb]. rewrite andb_true_iff, negb_true_iff, Z.eqb_neq, Z.eqb_eq. destruct Dp as [u Hu]. split.
  - intros [P0 X]. rewrite Er in X. apply (c_x _ _ _ C) in X; [|now rewrite Pp|assumption]. destruct X as [X|X].
    + left. apply eq_divide in X. destruct X as [v Hv]. exists (s * v - u). assert (p = k + v * n) by lia. subst p. rewrite H in Hu. lia.
    + right. apply zero_divide in X. destruct X as [v Hv]. exists (s * v - u). assert (E : p = v * n - k) by lia. rewrite E in Hu. lia.
  - intros X. assert (Y : p mod n = k mod n \/ (p + k) mod n = 0).
    { destruct X as [[v Hv]|[v Hv]].
      - left. apply (cancel s); [assumption|]. exists (u + v). lia.
      - right. assert (p mod n = (- k) mod n). { apply (cancel s); [assumption|]. exists (u + v). lia. }
        apply zero_divide. apply eq_divide in H. now replace (p + k) with (p - - k) by ring. }
    assert (P0 : p <> 0).
    { intros P0. rewrite P0 in Y. destruct Y as [Y|Y]; [rewrite Z.mod_0_l in Y by lia; auto|]. now rewrite Z.add_0_l in Y. }
    split; [assumption|]. rewrite Er. apply (c_x _ _ _ C); [now rewrite Pp|assumption|exact Y].
Qed.

(** *** Bytes *)

Lemma be_length k x : length (be k x) = k.
Proof. revert x. induction k as [|k IH]; intros x; cbn; [reflexivity|]. rewrite app_length, IH. cbn. lia. Qed.

Lemma to_bytes32_ok x : 0 <= x < 2 ^ 256 -> exists b, to_bytes32 x = Ok b /\ length b = 32%nat /\ from_bytes b = x.
Proof.
  intros H. exists (be 32 (Z.to_N x)). unfold to_bytes32.
  replace ((0 <=? x) && (x <? 2 ^ 256)) with true by (symmetry; apply andb_true_iff; split; [apply Z.leb_le|apply Z.ltb_lt]; lia).
  split; [reflexivity|]. split; [apply be_length|]. unfold from_bytes. rewrite of_be_be, Z2N.id; [reflexivity|lia|].
  change (256 ^ N.of_nat 32)%N with (Z.to_N (2 ^ 256)). apply Z2N.inj_lt; lia.
Qed.

Lemma ddel_absent {V} k (d : list (str * V)) : dget k d = None -> ddel k d = d.
Proof.
  induction d as [|[k' v] d IH]; [reflexivity|]. cbn. destruct (str_eqb k k'); [discriminate|]. intros H. now rewrite IH.
Qed.
Lemma ddel_dset {V} k (v : V) d : dget k d = None -> ddel k (dset k v d) = d.
Proof.
  induction d as [|[k' v'] d IH]; cbn; [now rewrite str_eqb_refl|]. destruct (str_eqb k k') eqn:E; [discriminate|]. intros H. cbn. rewrite E. now rewrite IH.
Qed.

Definition message (obj : list (str * ipld)) : Z := hash (dag_cbor_encode (IMap (ddel sig_key obj))).

(** What [sign] makes. *)
Lemma sign_obj d k obj obj' : sign n xc inv hash d k obj = Some obj' ->
  exists r s rb sb, ecdsa_sign n xc inv d k (hash (dag_cbor_encode (IMap obj))) = Some (r, s) /\
    length rb = 32%nat /\ length sb = 32%nat /\ from_bytes rb = r /\ from_bytes sb = low_s n s /\
    obj' = Ok (dset sig_key (IBytes (rb ++ sb)) obj).
Proof.
  unfold sign. destruct (ecdsa_sign _ _ _ _ _ _) as [[r s]|] eqn:E; [|discriminate]. intros [= <-].
  destruct (sign_spec _ _ _ _ _ E) as (_ & _ & Hr & Hs & _). destruct (low_s_cases s Hs) as (Hl & _). pose proof (c_size _ _ _ C).
  destruct (to_bytes32_ok r ltac:(lia)) as (rb & Er & Lr & Fr). destruct (to_bytes32_ok (low_s n s) ltac:(lia)) as (sb & Es & Ls & Fs).
  exists r, s, rb, sb. rewrite Er. cbn [bind]. rewrite Es. cbn [bind]. auto 8.
Qed.

Lemma verify_obj q obj rb sb : dget sig_key obj = Some (IBytes (rb ++ sb)) -> length rb = 32%nat -> length sb = 32%nat ->
  verify_sig n xc inv hash q obj = Ok (ecdsa_verify n xc inv q (message obj) (from_bytes rb) (from_bytes sb)).
Proof.
  intros E L1 L2. unfold verify_sig. rewrite E. cbn [py_len]. rewrite app_length, L1, L2. cbn [Nat.add Nat.eqb negb].
  rewrite firstn_app, skipn_app, L1, Nat.sub_diag, firstn_O, skipn_O, app_nil_r, firstn_all2, skipn_all2 by lia. reflexivity.
Qed.

Definition low_sig (v : ipld) : Prop :=
  exists rb sb, v = IBytes (rb ++ sb) /\ length rb = 32%nat /\ length sb = 32%nat /\ 0 < from_bytes rb < n /\ 0 < from_bytes sb /\ 2 * from_bytes sb <= n.

Lemma sign_verifies d k obj r : dget sig_key obj = None -> sign n xc inv hash d k obj = Some r ->
  exists obj' v, r = Ok obj' /\ verify_sig n xc inv hash d obj' = Ok true /\ dget sig_key obj' = Some v /\ low_sig v /\
    forall key, key <> sig_key -> dget key obj' = dget key obj.
Proof.
  intros N E. destruct (sign_obj _ _ _ _ E) as (r0 & s0 & rb & sb & Es & L1 & L2 & F1 & F2 & ->).
  eexists _, _. split; [reflexivity|]. destruct (sign_spec _ _ _ _ _ Es) as (Hk & Er & Hr & Hs & D).
  destruct (low_s_cases s0 Hs) as (Hl & Hl2 & Hc).
  assert (G : dget sig_key (dset sig_key (IBytes (rb ++ sb)) obj) = Some (IBytes (rb ++ sb))) by (rewrite dget_dset, str_eqb_refl; reflexivity).
  split; [|split; [exact G|split]].
  - rewrite (verify_obj _ _ rb sb G L1 L2), F1, F2. f_equal. unfold message. rewrite ddel_dset by assumption.
    apply (verify_iff d _ r0 (low_s n s0) k); try assumption. destruct D as [u Hu]. destruct Hc as [-> | ->].
    + left. exists (- u). lia.
    + right. exists (k - u). lia.
  - exists rb, sb. rewrite F1, F2. repeat split; try assumption; lia.
  - intros key NE. rewrite dget_dset. destruct (str_eqb key sig_key) eqn:X; [|reflexivity]. apply str_eqb_eq in X. contradiction.
Qed.

(** Another object with the same signature. *)
Lemma sign_rejects d k obj obj' obj2 : sign n xc inv hash d k obj = Some (Ok obj') ->
  dget sig_key obj2 = dget sig_key obj' -> verify_sig n xc inv hash d obj2 = Ok true ->
  let z := hash (dag_cbor_encode (IMap obj)) in
  message obj2 mod n = z mod n \/ (message obj2 + z + 2 * (xc k mod n) * d) mod n = 0.
Proof.
  intros E G V. destruct (sign_obj _ _ _ _ E) as (r0 & s0 & rb & sb & Es & L1 & L2 & F1 & F2 & X). injection X as ->.
  destruct (sign_spec _ _ _ _ _ Es) as (Hk & Er & Hr & Hs & D). destruct (low_s_cases s0 Hs) as (Hl & Hl2 & Hc).
  rewrite dget_dset, str_eqb_refl in G. rewrite (verify_obj _ _ rb sb G L1 L2), F1, F2 in V. injection V as V.
  apply (verify_iff d _ r0 (low_s n s0) k) in V; try assumption. cbn zeta. rewrite <- Er. set (z := hash _) in *.
  destruct D as [u Hu]. rewrite eq_divide, zero_divide.
  assert (Y : (n | message obj2 + r0 * d - s0 * k) \/ (n | message obj2 + r0 * d + s0 * k)).
  { destruct Hc as [Hc|Hc]; rewrite Hc in V; [exact V|]. destruct V as [[v Hv]|[v Hv]]; [right; exists (v + k)|left; exists (v - k)]; lia. }
  destruct Y as [[v Hv]|[v Hv]]; [left; exists (v + u)|right; exists (v - u)]; lia.
Qed.

(** Another key. *)
Lemma sign_other_key d k obj obj' q : dget sig_key obj = None -> sign n xc inv hash d k obj = Some (Ok obj') ->
  verify_sig n xc inv hash q obj' = Ok true ->
  q mod n = d mod n \/ (2 * hash (dag_cbor_encode (IMap obj)) + (xc k mod n) * (q + d)) mod n = 0.
Proof.
  intros N E V. destruct (sign_obj _ _ _ _ E) as (r0 & s0 & rb & sb & Es & L1 & L2 & F1 & F2 & X). injection X as ->.
  destruct (sign_spec _ _ _ _ _ Es) as (Hk & Er & Hr & Hs & D). destruct (low_s_cases s0 Hs) as (Hl & Hl2 & Hc).
  rewrite (verify_obj _ _ rb sb) in V by (rewrite ?dget_dset, ?str_eqb_refl; auto). unfold message in V. rewrite ddel_dset in V by assumption.
  rewrite F1, F2 in V. injection V as V. apply (verify_iff q _ r0 (low_s n s0) k) in V; try assumption. rewrite <- Er. set (z := hash _) in *.
  destruct D as [u Hu].
  assert (Y : (n | z + r0 * q - s0 * k) \/ (n | z + r0 * q + s0 * k)).
  { destruct Hc as [Hc|Hc]; rewrite Hc in V; [exact V|]. destruct V as [[v Hv]|[v Hv]]; [right; exists (v + k)|left; exists (v - k)]; lia. }
  destruct Y as [[v Hv]|[v Hv]].
  - left. apply (cancel r0); [now apply small_nonzero|]. exists (v + u). lia.
  - right. apply zero_divide. exists (v - u). lia.
Qed.

(** The high variant of a signature passes too. *)
Lemma verify_negated q z r s : 0 < r < n -> 0 < s < n -> ecdsa_verify n xc inv q z r s = true -> ecdsa_verify n xc inv q z r (n - s) = true.
Proof.
  intros Hr Hs V.
  set (p := (inv s * z + inv s * r * q) mod n).
  assert (P : p <> 0 /\ xc p mod n = r).
  { revert V. unfold ecdsa_verify. fold p. rewrite !andb_true_iff, negb_true_iff, Z.eqb_neq, Z.eqb_eq. tauto. }
  destruct P as [P0 Px]. assert (Pm : p mod n = p) by apply Zmod_mod.
  apply (verify_iff q z r (n - s) p); try assumption; try lia.
  apply (verify_iff q z r s p) in V; try assumption; try lia.
  destruct V as [[v Hv]|[v Hv]]; [right; exists (v + p)|left; exists (v - p)]; lia.
Qed.
End Sign.

Lemma sign_same n xc inv hash d k obj obj' obj2 : curve n xc inv -> py_value (IMap obj) -> py_value (IMap (ddel sig_key obj2)) ->
  sign n xc inv hash d k obj = Some (Ok obj') ->
  (let x := dag_cbor_encode (IMap obj) in let y := dag_cbor_encode (IMap (ddel sig_key obj2)) in hash x mod n = hash y mod n -> x = y) ->
  dget sig_key obj2 = dget sig_key obj' -> verify_sig n xc inv hash d obj2 = Ok true ->
  py_eq (IMap obj) (IMap (ddel sig_key obj2)) \/
  (hash (dag_cbor_encode (IMap (ddel sig_key obj2))) + hash (dag_cbor_encode (IMap obj)) + 2 * (xc k mod n) * d) mod n = 0.
Proof.
  intros C P1 P2 E Inj G V. destruct (sign_rejects n xc inv hash C d k obj obj' obj2 E G V) as [H|H]; [left|right; exact H].
  apply encode_canonical; [assumption|assumption|]. apply Inj. symmetry. exact H.
Qed.

(** *** The signatures of service tokens *)
Lemma jwt_low n xc inv q z rb sb : curve n xc inv -> length rb = 32%nat -> length sb = 32%nat ->
  ecdsa_verify n xc inv q z (from_bytes rb) (from_bytes sb) = true ->
  exists rb' sb', jwt_low_s n (rb ++ sb) = Ok (rb' ++ sb') /\ length rb' = 32%nat /\ length sb' = 32%nat /\
    ecdsa_verify n xc inv q z (from_bytes rb') (from_bytes sb') = true /\ from_bytes rb' = from_bytes rb /\ 2 * from_bytes sb' <= n.
Proof.
  intros C L1 L2 V. assert (B : 0 < from_bytes rb < n /\ 0 < from_bytes sb < n).
  { revert V. unfold ecdsa_verify. rewrite !andb_true_iff, !Z.leb_le, !Z.ltb_lt. lia. } destruct B as [B1 B2].
  destruct (low_s_cases n _ B2) as (Hl & Hl2 & Hc). pose proof (c_size _ _ _ C).
  destruct (to_bytes32_ok (from_bytes rb) ltac:(lia)) as (rb' & Er & Lr & Fr). destruct (to_bytes32_ok (low_s n (from_bytes sb)) ltac:(lia)) as (sb' & Es & Ls & Fs).
  exists rb', sb'. unfold jwt_low_s. rewrite firstn_app, skipn_app, L1, Nat.sub_diag, firstn_O, skipn_O, app_nil_r, firstn_all2, skipn_all2 by lia.
  cbn [app]. rewrite Er. cbn [bind]. rewrite Es. cbn [bind]. split; [reflexivity|]. split; [assumption|]. split; [assumption|]. rewrite Fr, Fs. split; [|auto].
  destruct Hc as [-> | ->]; [assumption|]. now apply verify_negated.
Qed.

(** *** A small curve *)
Definition xc7 (a : Z) : Z := Z.min (a mod 7) (7 - a mod 7).
Definition inv7 (a : Z) : Z := (a mod 7) ^ 5 mod 7.

Lemma mod7 a : a mod 7 = 0 \/ a mod 7 = 1 \/ a mod 7 = 2 \/ a mod 7 = 3 \/ a mod 7 = 4 \/ a mod 7 = 5 \/ a mod 7 = 6.
Proof. pose proof (Z.mod_pos_bound a 7 ltac:(lia)). lia. Qed.

Lemma curve7 : curve 7 xc7 inv7.
Proof.
  constructor; try lia.
  - constructor; [lia|]. intros x Hx. apply Zgcd_1_rel_prime. assert (x = 1 \/ x = 2 \/ x = 3 \/ x = 4 \/ x = 5 \/ x = 6) as X by lia.
    destruct X as [->|[->|[->|[->|[->| ->]]]]]; reflexivity.
  - intros a H. rewrite Zmult_mod. unfold inv7. destruct (mod7 a) as [X|[X|[X|[X|[X|[X|X]]]]]]; rewrite X in *; try reflexivity. now destruct H.
  - intros a b Ha Hb. rewrite (Zplus_mod a b). unfold xc7.
    destruct (mod7 a) as [X|[X|[X|[X|[X|[X|X]]]]]]; rewrite X in *; try (now destruct Ha);
    destruct (mod7 b) as [Y|[Y|[Y|[Y|[Y|[Y|Y]]]]]]; rewrite Y in *; try (now destruct Hb); cbn; split; try (intros H; discriminate H); auto;
    intros [H|H]; try discriminate H; reflexivity.
Qed.

(** *** For SignProps *)
Lemma c47_signed : forall n xc inv hash d k obj r, curve n xc inv -> dget sig_key obj = None ->
  sign n xc inv hash d k obj = Some r ->
  exists obj' rb sb, r = Ok obj' /\ verify_sig n xc inv hash d obj' = Ok true /\
    dget sig_key obj' = Some (IBytes (rb ++ sb)) /\ length rb = 32%nat /\ length sb = 32%nat /\
    0 < from_bytes sb /\ 2 * from_bytes sb <= n /\
    forall key, key <> sig_key -> dget key obj' = dget key obj.
Proof.
  intros n xc inv hash d k obj r C N E. destruct (sign_verifies n xc inv hash C d k obj r N E) as (obj' & v & -> & V & G & (rb & sb & -> & L1 & L2 & B1 & B2 & B3) & K).
  exists obj', rb, sb. auto 9.
Qed.

Lemma c47_case : curve 7 xc7 inv7 /\ dget sig_key [(Base.s "a", IInt 1)] = None /\
  exists obj', sign 7 xc7 inv7 from_bytes 3 4 [(Base.s "a", IInt 1)] = Some (Ok obj') /\ obj' <> [(Base.s "a", IInt 1)].
Proof. split; [exact curve7|]. split; [reflexivity|]. eexists. split; [vm_compute; reflexivity|]. discriminate. Qed.

Lemma c47_changed_case : exists obj' obj2, sign 7 xc7 inv7 from_bytes 3 4 [(Base.s "a", IInt 1)] = Some (Ok obj') /\
  dget sig_key obj2 = dget sig_key obj' /\ dget (Base.s "a") obj2 = Some (IInt 2) /\ verify_sig 7 xc7 inv7 from_bytes 3 obj2 = Ok false /\
  from_bytes (dag_cbor_encode (IMap [(Base.s "a", IInt 1)])) mod 7 <> from_bytes (dag_cbor_encode (IMap (ddel sig_key obj2))) mod 7.
Proof.
  eexists. exists [(Base.s "a", IInt 2); (sig_key, IBytes (be 32 3 ++ be 32 1))]. split; [vm_compute; reflexivity|].
  split; [vm_compute; reflexivity|]. split; [vm_compute; reflexivity|]. split; [vm_compute; reflexivity|]. vm_compute. discriminate.
Qed.

Lemma c47_total : forall n xc inv hash q obj b, dget sig_key obj = Some (IBytes b) ->
  exists v, verify_sig n xc inv hash q obj = Ok v /\ (length b <> 64%nat -> v = false).
Proof.
  intros n xc inv hash q obj b E. unfold verify_sig. rewrite E. cbn [py_len]. destruct (Nat.eqb_spec (length b) 64) as [X|X]; cbn [negb]; eauto.
  eexists. split; [reflexivity|]. contradiction.
Qed.

Lemma c47_accepts n xc inv hash q obj : verify_sig n xc inv hash q obj = Ok true ->
  exists rb sb, dget sig_key obj = Some (IBytes (rb ++ sb)) /\ length rb = 32%nat /\ length sb = 32%nat /\
    ecdsa_verify n xc inv q (hash (dag_cbor_encode (IMap (ddel sig_key obj)))) (from_bytes rb) (from_bytes sb) = true.
Proof.
  unfold verify_sig. destruct (dget sig_key obj) as [v|]; [|discriminate]. destruct (py_len v) as [l|] eqn:L; [|discriminate].
  destruct (Nat.eqb_spec l 64) as [->|X]; cbn [negb]; [|discriminate]. destruct v as [| | |b| | | |]; try discriminate. cbn [py_len] in L. injection L as L. intros [= H].
  exists (firstn 32 b), (skipn 32 b). rewrite firstn_skipn, firstn_length, skipn_length, L. repeat split; auto.
Qed.
Lemma c47_unsigned n xc inv hash q obj : dget sig_key obj = None -> verify_sig n xc inv hash q obj = Err KeyError.
Proof. intros E. unfold verify_sig. rewrite E. reflexivity. Qed.

Lemma c47_refuted : exists n xc inv hash d k obj obj', curve n xc inv /\
  sign n xc inv hash d k obj = Some (Ok obj') /\ verify_sig n xc inv hash d obj' = Ok false.
Proof.
  exists 7, xc7, inv7, from_bytes, 3, 1, [(Base.s "a", IInt 1); (sig_key, IBytes (be 32 3 ++ be 32 1))]. eexists.
  split; [exact curve7|]. split; [vm_compute; reflexivity|]. vm_compute. reflexivity.
Qed.

Lemma c47_jwt_case : ecdsa_verify 7 xc7 inv7 3 5 (from_bytes (be 32 2)) (from_bytes (be 32 5)) = true /\ jwt_low_s 7 (be 32 2 ++ be 32 5) = Ok (be 32 2 ++ be 32 2).
Proof. vm_compute. auto. Qed.
