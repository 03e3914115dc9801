(** Service tokens. *)
From Coq Require Import String List NArith ZArith Znumtheory Bool Lia.
From Verif Require Import Base Lists Ipld MstModel MstRep MstHist CodecModel CodecProofs SignModel SignSpec SignProofs JwtModel JwtSpec.
Import ListNotations.
Local Open Scope Z_scope.

(** *** Base64 *)
Lemma whole_bytes b : Forall (fun c => (c < 256)%N) b -> forall fuel rest, (length rest < 8)%nat -> (8 * length b + length rest <= fuel)%nat ->
  whole fuel (flat_map (bits 8) b ++ rest) = b.
Proof.
  induction 1 as [|x b X F IH]; intros fuel rest L Fu.
  - cbn [flat_map app]. destruct fuel; [reflexivity|]. cbn [whole]. destruct (Nat.ltb_spec (length rest) 8); [reflexivity|lia].
  - cbn [length] in Fu. destruct fuel as [|f]; [lia|]. cbn [flat_map]. rewrite <- app_assoc. cbn [whole].
    destruct (Nat.ltb_spec (length (bits 8 x ++ flat_map (bits 8) b ++ rest)) 8) as [Lt|_]; [rewrite app_length, bits_length in Lt; lia|].
    rewrite firstn_app, skipn_app, bits_length, Nat.sub_diag, firstn_O, skipn_O, app_nil_r, firstn_all2, skipn_all2 by (rewrite bits_length; lia).
    rewrite of_bits_bits by exact X. f_equal. cbn [app]. apply IH; [assumption|lia].
Qed.

Lemma b64_roundtrip b : Forall (fun c => (c < 256)%N) b -> b64_decode (b64_encode b) = Ok b.
Proof.
  intros F. unfold b64_decode, b64_encode, regroup.
  destruct (groups_inv 6 ltac:(lia) (length (flat_map (bits 8) b)) (flat_map (bits 8) b) ltac:(lia)) as (p & P & G & Fd).
  rewrite values_chars by (try apply alphabet64_NoDup; exact Fd). rewrite G. f_equal. apply whole_bytes; [assumption|rewrite repeat_length; lia|].
  rewrite app_length, repeat_length. clear. induction b as [|x b IH]; cbn [flat_map length]; [lia|]. rewrite app_length, bits_length. lia.
Qed.

Lemma b64_no_dot b : ~ In 46%N (b64_encode b).
Proof.
  unfold b64_encode. intros I. apply in_map_iff in I. destruct I as (d & E & _).
  assert (A : forall d, char_at alphabet64 d <> 46%N).
  { intros d'. unfold char_at. destruct (Nat.lt_ge_cases (N.to_nat d') (length alphabet64)) as [L|L].
    - intros Y. assert (In 46%N alphabet64) by (rewrite <- Y; apply nth_In; assumption). revert H. vm_compute. intuition discriminate.
    - rewrite nth_overflow by assumption. vm_compute. discriminate. }
  exact (A d E).
Qed.

Lemma rsplit_app c a b : ~ In c b -> rsplit c (a ++ c :: b) = Some (a, b).
Proof.
  intros N. assert (Z : forall b, ~ In c b -> rsplit c b = None).
  { induction b0 as [|x r IH]; intros H; [reflexivity|]. cbn. rewrite IH by (intros I; apply H; now right).
    destruct (N.eqb_spec x c); [destruct H; now left|reflexivity]. }
  induction a as [|x a IH]; cbn [app rsplit].
  - rewrite (Z b N), N.eqb_refl. reflexivity.
  - rewrite IH. reflexivity.
Qed.

(** *** Dictionaries *)
Definition with_all (claims d : list (str * ipld)) := fold_left (fun d kv => dset (fst kv) (snd kv) d) claims d.
Lemma with_all_get claims : NoDup (keys claims) -> forall d k, dget k (with_all claims d) = match dget k claims with Some v => Some v | None => dget k d end.
Proof.
  induction claims as [|[k' v'] claims IH]; intros ND d k; [reflexivity|]. inversion ND as [|? ? NI ND']; subst. cbn [with_all fold_left fst snd].
  change (dget k (with_all claims (dset k' v' d)) = match dget k ((k', v') :: claims) with Some v => Some v | None => dget k d end).
  rewrite IH by assumption. rewrite dget_dset. cbn [dget]. destruct (str_eqb k k') eqn:E; [|reflexivity].
  apply str_eqb_eq in E. subst k'. destruct (dget k claims) as [v|] eqn:G; [|reflexivity].
  apply dget_In in G. destruct NI. apply in_map_iff. now exists (k, v).
Qed.

(** *** Tokens *)
Lemma be_bytes k x : Forall (fun c => (c < 256)%N) (be k x).
Proof.
  revert x. induction k as [|k IH]; intros x; cbn [be]; [constructor|]. apply Forall_app. split; [apply IH|]. constructor; [|constructor].
  apply N.mod_lt. discriminate.
Qed.
Lemma to_bytes32_bytes x b : to_bytes32 x = Ok b -> Forall (fun c => (c < 256)%N) b.
Proof. unfold to_bytes32. destruct (_ && _); [|discriminate]. intros E. assert (b = be 32 (Z.to_N x)) as -> by congruence. apply be_bytes. Qed.

Section Jwt.
Variable n : Z.
Variable xc inv : Z -> Z.
Variable hash : list N -> Z.
Hypothesis C : curve n xc inv.
Variable header : list N.
Variable dumps : list (str * ipld) -> list N.
Hypothesis Hh : Forall (fun c => (c < 256)%N) header.
Hypothesis Hd : forall d, Forall (fun c => (c < 256)%N) (dumps d).

Definition input (data : list (str * ipld)) : str := b64_encode header ++ s "." ++ b64_encode (dumps data).

Lemma token_made d k host did aud now expiration claims : host <> [] -> did <> [] -> expiration <> 0 ->
  let data := jwt_data host did aud now expiration claims in
  forall r t, ecdsa_sign n xc inv d k (hash (input data)) = Some (r, t) ->
  exists rb sb, service_jwt n xc inv hash header dumps d k host did aud now expiration claims = Some (Ok (input data ++ s "." ++ b64_encode (rb ++ sb))) /\
    length rb = 32%nat /\ length sb = 32%nat /\ Forall (fun c => (c < 256)%N) (rb ++ sb) /\ from_bytes rb = r /\ from_bytes sb = low_s n t.
Proof.
  clear Hh Hd. intros H1 H2 H3 data r t E. unfold service_jwt. destruct host as [|hc host]; [contradiction|]. destruct did as [|dc did]; [contradiction|]. cbn [nonempty negb].
  destruct (Z.eqb_spec expiration 0); [contradiction|]. fold data. unfold jwt_encode. cbn zeta. fold (input data). rewrite E.
  destruct (sign_spec n xc inv C _ _ _ _ _ E) as (_ & _ & Hr & Ht & _). destruct (low_s_cases n t Ht) as (Hl & _). pose proof (c_size _ _ _ C).
  destruct (to_bytes32_ok r ltac:(lia)) as (rb & Er & Lr & Fr). destruct (to_bytes32_ok t ltac:(lia)) as (tb & Et & Lt & Ft).
  rewrite Er. cbn [bind]. rewrite Et. cbn [bind]. change (s ".") with [46%N]. cbn [app].
  unfold rpartition. rewrite rsplit_app by apply b64_no_dot.
  assert (B : Forall (fun c => (c < 256)%N) (rb ++ tb)) by (apply Forall_app; split; eapply to_bytes32_bytes; eassumption).
  rewrite b64_roundtrip by assumption. cbn [bind]. unfold jwt_low_s.
  rewrite firstn_app, skipn_app, Lr, Nat.sub_diag, firstn_O, skipn_O, app_nil_r, firstn_all2, skipn_all2 by lia. cbn [app].
  rewrite Fr, Ft, Er. cbn [bind]. destruct (to_bytes32_ok (low_s n t) ltac:(lia)) as (sb & Es & Ls & Fs). rewrite Es. cbn [bind].
  exists rb, sb. splits. all: try assumption; try reflexivity. apply Forall_app; split; eapply to_bytes32_bytes; eassumption.
Qed.

Lemma input_parts data g : ~ In 46%N g -> split_on 46 (input data ++ s "." ++ g) = [b64_encode header; b64_encode (dumps data); g].
Proof.
  intros N. unfold input. change (s ".") with [46%N]. rewrite <- !app_assoc. cbn [app].
  rewrite split_on_app by apply b64_no_dot. rewrite split_on_app by apply b64_no_dot. now rewrite split_on_none.
Qed.

(** A token that is made can be received. *)
Lemma token_received d k host did aud now expiration claims tok :
  service_jwt n xc inv hash header dumps d k host did aud now expiration claims = Some (Ok tok) ->
  let data := jwt_data host did aud now expiration claims in
  exists r t, received n xc inv hash d tok header (dumps data) (input data) r t /\ 0 < r < n /\ 0 < t /\ 2 * t <= n /\ host <> [] /\ did <> [] /\ expiration <> 0 /\
    exists t0, ecdsa_sign n xc inv d k (hash (input data)) = Some (r, t0) /\ t = low_s n t0.
Proof.
  intros E data.
  assert (A : host <> [] /\ did <> [] /\ expiration <> 0 /\ exists r t, ecdsa_sign n xc inv d k (hash (input data)) = Some (r, t)).
  { revert E. unfold service_jwt. destruct host; [discriminate|]. destruct did; [discriminate|]. cbn [nonempty negb].
    destruct (Z.eqb_spec expiration 0); [discriminate|]. unfold jwt_encode. cbn zeta. fold data. fold (input data).
    destruct (ecdsa_sign _ _ _ _ _ _) as [[r t]|]; [|discriminate]. intros _. splits; try discriminate; try assumption. now exists r, t. }
  destruct A as (H1 & H2 & H3 & r & t & Es).
  destruct (token_made d k host did aud now expiration claims H1 H2 H3 r t Es) as (rb & sb & E' & L1 & L2 & B & F1 & F2).
  cbn zeta in E'. fold data in E'. rewrite E' in E. assert (tok = input data ++ s "." ++ b64_encode (rb ++ sb)) as -> by congruence. clear E E'.
  destruct (sign_spec n xc inv C _ _ _ _ _ Es) as (Hk & Er & Hr & Ht & [u Hu]). destruct (low_s_cases n t Ht) as (Hl & Hl2 & Hc).
  exists r, (low_s n t). split.
  - exists (b64_encode header), (b64_encode (dumps data)), (b64_encode (rb ++ sb)), rb, sb.
    splits. all: try assumption; try (apply b64_roundtrip; auto).
    + apply input_parts, b64_no_dot.
    + reflexivity.
    + apply (verify_iff n xc inv C d _ r (low_s n t) k); try assumption.
      destruct Hc as [-> | ->]; [left; exists (- u)|right; exists (k - u)]; lia.
  - splits. all: try assumption; try lia. exists t. auto.
Qed.

(** The same signature for another text. *)
Lemma other_text d k z r t z2 : ecdsa_sign n xc inv d k z = Some (r, t) -> ecdsa_verify n xc inv d z2 r (low_s n t) = true ->
  z2 mod n = z mod n \/ (z2 + z + 2 * r * d) mod n = 0.
Proof.
  clear Hh Hd dumps header hash. intros Es V. destruct (sign_spec n xc inv C _ _ _ _ _ Es) as (Hk & Er & Hr & Hs & [u Hu]). destruct (low_s_cases n t Hs) as (Hl & Hl2 & Hc).
  apply (verify_iff n xc inv C d _ r (low_s n t) k) in V; try assumption. rewrite (eq_divide n xc inv C), (zero_divide n xc inv C).
  assert (Y : (n | z2 + r * d - t * k) \/ (n | z2 + r * d + t * k)).
  { destruct Hc as [Hc|Hc]; rewrite Hc in V; [exact V|]. destruct V as [[v Hv]|[v Hv]]; [right; exists (v + k)|left; exists (v - k)]; lia. }
  destruct Y as [[v Hv]|[v Hv]]; [left; exists (v + u)|right; exists (v - u)]; lia.
Qed.
End Jwt.

Definition defaults (host did : str) (aud : option str) (exp : Z) : list (str * ipld) :=
  [(s "iss", IText did);
   (s "aud", IText (match aud with Some ((_ :: _) as a) => a | _ => s "did:web:" ++ host end));
   (s "alg", IText (s "ES256K")); (s "exp", IInt exp)].

Lemma c64_received : forall n xc inv hash header dumps d k host did aud now expiration claims tok,
  curve n xc inv -> Forall (fun c => (c < 256)%N) header -> (forall data, Forall (fun c => (c < 256)%N) (dumps data)) ->
  NoDup (keys claims) ->
  service_jwt n xc inv hash header dumps d k host did aud now expiration claims = Some (Ok tok) ->
  exists data x r t, received n xc inv hash d tok header (dumps data) x r t /\ 0 < t /\ 2 * t <= n /\
    (forall key v, dget key claims = Some v -> dget key data = Some v) /\
    (forall key, dget key claims = None ->
       (key = s "iss" -> dget key data = Some (IText did)) /\
       (key = s "aud" -> forall a, aud = Some a -> a <> [] -> dget key data = Some (IText a)) /\
       (key = s "aud" -> aud = None \/ aud = Some [] -> dget key data = Some (IText (s "did:web:" ++ host))) /\
       (key = s "alg" -> dget key data = Some (IText (s "ES256K"))) /\
       (key = s "exp" -> 0 <= now + expiration ->
          exists e, dget key data = Some (IInt e) /\ 1000000 * e <= now + expiration < 1000000 * (e + 1)) /\
       (~ In key [s "iss"; s "aud"; s "alg"; s "exp"] -> dget key data = None)).
Proof.
  intros n xc inv hash header dumps d k host did aud now expiration claims tok C Hh Hd ND E.
  destruct (token_received n xc inv hash C header dumps Hh Hd _ _ _ _ _ _ _ _ _ E) as (r & t & R & _ & T0 & T1 & _).
  exists (jwt_data host did aud now expiration claims). eexists _, r, t. split; [exact R|]. split; [assumption|]. split; [assumption|].
  assert (G : forall key, dget key (jwt_data host did aud now expiration claims) =
    match dget key claims with Some v => Some v | None => dget key (defaults host did aud (Z.quot (now + expiration) 1000000)) end)
    by (intros key; apply with_all_get; assumption).
  split; [intros key v K; now rewrite G, K|]. intros key K. rewrite G, K. clear - G. splits.
  - intros ->. reflexivity.
  - intros -> a -> Ha. destruct a; [contradiction|]. reflexivity.
  - intros -> [-> | ->]; reflexivity.
  - intros ->. reflexivity.
  - intros -> P. exists (Z.quot (now + expiration) 1000000). split; [reflexivity|]. rewrite Z.quot_div_nonneg by lia.
    pose proof (Z.div_mod (now + expiration) 1000000 ltac:(lia)). pose proof (Z.mod_pos_bound (now + expiration) 1000000 ltac:(lia)). lia.
  - intros NI. apply dget_None. intros I. apply NI. exact I.
Qed.

Lemma c64_made : forall n xc inv hash header dumps d k host did aud now expiration claims r, curve n xc inv ->
  service_jwt n xc inv hash header dumps d k host did aud now expiration claims = Some r ->
  (host <> [] /\ did <> [] /\ expiration <> 0 /\ exists tok, r = Ok tok) \/
  ((host = [] \/ did = [] \/ expiration = 0) /\ r = Err AssertionError).
Proof.
  intros n xc inv hash header dumps d k host did aud now expiration claims r C E.
  destruct host as [|hc host]; [right; unfold service_jwt in E; cbn in E; split; [auto|congruence]|].
  destruct did as [|dc did]; [right; unfold service_jwt in E; cbn in E; split; [auto|congruence]|].
  destruct (Z.eq_dec expiration 0) as [->|X]; [right; unfold service_jwt in E; cbn [nonempty negb Z.eqb] in E; split; [auto|congruence]|].
  left. splits; try discriminate; try assumption.
  destruct (ecdsa_sign n xc inv d k (hash (input header dumps (jwt_data (hc :: host) (dc :: did) aud now expiration claims)))) as [[a b]|] eqn:S.
  - destruct (token_made n xc inv hash C header dumps d k (hc :: host) (dc :: did) aud now expiration claims ltac:(discriminate) ltac:(discriminate) X a b S) as (rb & sb & E' & _).
    rewrite E' in E. eexists. symmetry. assert (Z : forall (x y : res str), Some x = Some y -> x = y) by congruence. apply Z. exact E.
  - exfalso. revert E. unfold service_jwt. cbn [nonempty negb]. destruct (Z.eqb_spec expiration 0); [contradiction|]. unfold jwt_encode. cbn zeta.
    unfold input in S. rewrite S. discriminate.
Qed.

Lemma split_parts x h p g : split_on 46 x = [h; p; g] -> ~ In 46%N h /\ ~ In 46%N p.
Proof. intros E. destruct (split_on_inv 46 x _ E) as (A & y & _ & E2). destruct (split_on_inv 46 y _ E2) as (B & _). auto. Qed.

Lemma c64_tampered : forall n xc inv hash header dumps d k host did aud now expiration claims tok hd pl x r t tok' hd' pl' x',
  curve n xc inv -> Forall (fun c => (c < 256)%N) header -> (forall data, Forall (fun c => (c < 256)%N) (dumps data)) ->
  service_jwt n xc inv hash header dumps d k host did aud now expiration claims = Some (Ok tok) ->
  received n xc inv hash d tok hd pl x r t -> received n xc inv hash d tok' hd' pl' x' r t ->
  (hd' = hd /\ pl' = pl) \/ (x' <> x /\ hash x' mod n = hash x mod n) \/ (hash x' + hash x + 2 * r * d) mod n = 0.
Proof.
  intros n xc inv hash header dumps d k host did aud now expiration claims tok hd pl x r t tok' hd' pl' x' C Hh Hd E R R'.
  destruct (token_received n xc inv hash C header dumps Hh Hd _ _ _ _ _ _ _ _ _ E) as (r0 & t0 & R0 & _ & _ & _ & _ & _ & _ & t1 & S & ->).
  destruct R as (h & p & g & rb & sb & P & X & Dh & Dp & Dg & L1 & L2 & F1 & F2 & V).
  destruct R0 as (h0 & p0 & g0 & rb0 & sb0 & P0 & X0 & Dh0 & Dp0 & Dg0 & L10 & L20 & F10 & F20 & V0).
  rewrite P in P0. assert (h0 = h /\ p0 = p /\ g0 = g) as (-> & -> & ->) by (repeat split; congruence).
  rewrite Dg in Dg0. assert (rb ++ sb = rb0 ++ sb0) as J by congruence.
  assert (rb = rb0 /\ sb = sb0) as [-> ->].
  { pose proof (f_equal (firstn 32) J) as J1. pose proof (f_equal (skipn 32) J) as J2.
    rewrite !firstn_app, L1, L10, Nat.sub_diag, !firstn_O, !app_nil_r, !firstn_all2 in J1 by lia.
    rewrite !skipn_app, L1, L10, Nat.sub_diag, !skipn_O, !skipn_all2 in J2 by lia. auto. }
  rewrite <- X in X0.
  assert (r0 = r) as -> by congruence. assert (low_s n t1 = t) as Q by congruence.
  destruct R' as (h' & p' & g' & rb' & sb' & P' & X' & Dh' & Dp' & Dg' & L1' & L2' & F1' & F2' & V').
  rewrite <- Q in V'. destruct (other_text n xc inv C _ _ _ _ _ _ S V') as [Y|Y].
  - rewrite X0 in Y. destruct (list_eq_dec N.eq_dec x' x) as [Z|Z]; [left|right; left; auto].
    rewrite X, X' in Z. destruct (split_parts _ _ _ _ P) as [A B]. destruct (split_parts _ _ _ _ P') as [A' B'].
    apply (f_equal (split_on 46)) in Z. change (s ".") with [46%N] in Z. cbn [app] in Z.
    rewrite !split_on_app, !split_on_none in Z by assumption. assert (h' = h /\ p' = p) as [-> ->] by (split; congruence). split; congruence.
  - right. right. rewrite X0 in Y. exact Y.
Qed.

(** *** A token *)
Definition small_hash (l : list N) : Z := Z.of_N (fold_left N.add l 0%N) mod 7.
Definition small_dumps (d : list (str * ipld)) : list N := flat_map (fun kv => fst kv ++ match snd kv with IText t => t | _ => [] end) d.
Lemma c64_case : curve 7 xc7 inv7 /\
  service_jwt 7 xc7 inv7 small_hash (s "{}") small_dumps 3 2 (s "h") (s "did:x") None 5000000 600000000 [(s "lxm", IText (s "m"))]
  = Some (Ok (s "e30.aXNzZGlkOnhhdWRkaWQ6d2ViOmhhbGdFUzI1NktleHBseG1t.AAAAAAAAAAAAAAAAAAAAAAAAAAAAAAAAAAAAAAAAAAIAAAAAAAAAAAAAAAAAAAAAAAAAAAAAAAAAAAAAAAAAAg")) /\
  received 7 xc7 inv7 small_hash 3
    (s "e30.aXNzZGlkOnhhdWRkaWQ6d2ViOmhhbGdFUzI1NktleHBseG1t.AAAAAAAAAAAAAAAAAAAAAAAAAAAAAAAAAAAAAAAAAAIAAAAAAAAAAAAAAAAAAAAAAAAAAAAAAAAAAAAAAAAAAg")
    (s "{}") (s "issdid:xauddid:web:halgES256Kexplxmm") (s "e30.aXNzZGlkOnhhdWRkaWQ6d2ViOmhhbGdFUzI1NktleHBseG1t") 2 2.
Proof.
  split; [exact curve7|]. split; [vm_compute; reflexivity|]. eexists _, _, _, (be 32 2), (be 32 2).
  split; [vm_compute; reflexivity|]. splits; vm_compute; reflexivity.
Qed.
