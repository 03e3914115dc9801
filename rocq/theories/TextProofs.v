(** The encodings are those of the standards. *)
From Coq Require Import String List NArith ZArith Bool Lia.
From Coq Require Import ZifyBool ZifyNat ZifyN.
From Verif Require Import Base Lists Ipld CodecModel CodecProofs Sha256 DidModel DidSpec DidProofs DidFacts BlobModel RowModel SignModel SignSpec SignProofs JwtModel JwtSpec JwtProofs TextSpec.
Import ListNotations.
Local Open Scope N_scope.

Lemma number_poly b l : number b l = poly b l.
Proof.
  unfold number. assert (H : forall a, fold_left (fun a d => a * b + d) l a = a * b ^ N.of_nat (length l) + poly b l).
  { induction l as [|x l IH]; intros a; cbn [fold_left poly length]; [rewrite N.pow_0_r; lia|]. rewrite IH, Nat2N.inj_succ, N.pow_succ_r'. ring. }
  rewrite H. lia.
Qed.
Lemma of_bits_app a l1 l2 : of_bits a (l1 ++ l2) = of_bits (of_bits a l1) l2.
Proof. revert a. induction l1; intros; cbn [of_bits app]; auto. Qed.
Lemma flat_length k (l : list N) : length (flat_map (bits k) l) = (k * length l)%nat.
Proof. induction l as [|x l IH]; cbn [flat_map length]; [lia|]. rewrite app_length, bits_length, IH. lia. Qed.
Lemma bits_poly k (l : list N) : Forall (fun d => d < 2 ^ N.of_nat k) l -> of_bits 0 (flat_map (bits k) l) = poly (2 ^ N.of_nat k) l.
Proof.
  intros F. induction F as [|x l Hx F IH]; [reflexivity|]. cbn [flat_map poly]. rewrite of_bits_app, (of_bits_bits k x Hx), of_bits_value, IH, flat_length.
  f_equal. f_equal. rewrite <- N.pow_mul_r. f_equal. lia.
Qed.
Lemma zeros_bits n : of_bits 0 (repeat false n) = 0.
Proof. induction n; [reflexivity|]. exact IHn. Qed.

Lemma regroup_spells (k : nat) value alphabet b : (0 < k)%nat -> Forall (fun c => c < 256) b ->
  (forall d, d < 2 ^ N.of_nat k -> value (char_at alphabet d) = Some d) -> spells (N.of_nat k) value (map (char_at alphabet) (regroup k b)) b.
Proof.
  intros K F V. unfold regroup. cbv zeta. destruct (groups_inv k K (length (flat_map (bits 8) b)) (flat_map (bits 8) b) (le_n _)) as (pad & P & E & G).
  set (ds := groups k (length (flat_map (bits 8) b)) (flat_map (bits 8) b)) in *. exists ds, (N.of_nat pad). split; [|split; [lia|split]].
  - rewrite map_map. apply map_ext_in. intros d I. apply V. rewrite Forall_forall in G. auto.
  - apply (f_equal (@length bool)) in E. rewrite app_length, !flat_length, repeat_length in E. unfold len. lia.
  - apply (f_equal (of_bits 0)) in E. rewrite bits_poly in E by exact G. rewrite E, of_bits_app, of_bits_value, zeros_bits, repeat_length.
    rewrite (bits_poly 8 b F). change (2 ^ N.of_nat 8) with 256. lia.
Qed.

Lemma all_below (n : nat) (f : N -> bool) : forallb f (map N.of_nat (seq 0 n)) = true -> forall d, d < N.of_nat n -> f d = true.
Proof.
  intros H d L. rewrite forallb_forall in H. apply H. rewrite <- (N2Nat.id d). apply in_map, in_seq. lia.
Qed.
Definition is_value (o : option N) (d : N) : bool := match o with Some x => x =? d | None => false end.
Lemma is_value_ok o d : is_value o d = true -> o = Some d.
Proof. destruct o; cbn; [|discriminate]. intros H. f_equal. apply N.eqb_eq. exact H. Qed.
Lemma value58 d : d < 58 -> base58_value (char_at alphabet58 d) = Some d.
Proof. intros L. apply is_value_ok. apply (all_below 58 (fun d => is_value (base58_value (char_at alphabet58 d)) d)); [vm_compute; reflexivity|exact L]. Qed.
Lemma value64 d : d < 64 -> base64url_value (char_at alphabet64 d) = Some d.
Proof. intros L. apply is_value_ok. apply (all_below 64 (fun d => is_value (base64url_value (char_at alphabet64 d)) d)); [vm_compute; reflexivity|exact L]. Qed.
Lemma value32 d : d < 32 -> base32_value (lower (char_at alphabet32 d)) = Some d.
Proof. intros L. apply is_value_ok. apply (all_below 32 (fun d => is_value (base32_value (lower (char_at alphabet32 d))) d)); [vm_compute; reflexivity|exact L]. Qed.
Lemma lower_char d : lower (char_at alphabet32 d) = char_at (map lower alphabet32) d.
Proof. unfold char_at. rewrite <- (map_nth lower). reflexivity. Qed.

Lemma b64_spells b : Forall (fun c => c < 256) b -> spells 6 base64url_value (b64_encode b) b.
Proof. intros F. apply (regroup_spells 6); [lia|exact F|exact value64]. Qed.
Lemma b32_spells b : Forall (fun c => c < 256) b -> spells 5 base32_value (map lower (b32_encode b)) b.
Proof.
  intros F. unfold b32_encode. rewrite map_map. rewrite (map_ext _ (char_at (map lower alphabet32)) lower_char). apply (regroup_spells 5); [lia|exact F|].
  intros d L. rewrite <- lower_char. apply value32. exact L.
Qed.

(** did:key *)
Lemma b58_text x b : x <> 0 -> Forall (fun c => c < 256) (x :: b) -> exists ds, map base58_value (b58_encode (x :: b)) = map Some ds /\ hd 1 ds <> 0 /\ poly 58 ds = poly 256 (x :: b).
Proof.
  intros NZ F. unfold b58_encode. cbn [leading]. destruct (N.eqb_spec x 0); [contradiction|]. cbn [repeat app].
  destruct (digits_nz 58 (number 256 (x :: b)) ltac:(lia)) as (H1 & H2 & H3). exists (digits 58 (number 256 (x :: b))). split; [|split; [exact H1|]].
  - rewrite map_map. apply map_ext_in. intros d I. apply value58. rewrite Forall_forall in H2. auto.
  - rewrite <- number_poly, H3. apply number_poly.
Qed.
Lemma key_text pub curve_of point (k : pub) x : encode_did_key pub curve_of point k = Ok x -> Forall (fun c => c < 256) (point k) ->
  exists text ds code, x = s "did:key:z" ++ text /\ map base58_value text = map Some ds /\ hd 1 ds <> 0 /\ poly 58 ds = poly 256 (code ++ point k) /\
    (curve_of k = K256 /\ code = [0xe7; 1] \/ curve_of k = P256 /\ code = [0x80; 0x24]).
Proof.
  unfold encode_did_key, codec. intros E F. destruct (curve_of k) eqn:C; cbn [bind] in E; [| |discriminate E]; injection E as <-.
  - change (varint 0xe7) with [0xe7; 1]. destruct (b58_text 0xe7 ([1] ++ point k)) as (ds & D1 & D2 & D3); [discriminate|repeat (constructor; [reflexivity|]); exact F|].
    exists (b58_encode ([0xe7; 1] ++ point k)), ds, [0xe7; 1]. split; [reflexivity|]. split; [exact D1|]. split; [exact D2|]. split; [exact D3|]. auto.
  - change (varint 0x1200) with [0x80; 0x24]. destruct (b58_text 0x80 ([0x24] ++ point k)) as (ds & D1 & D2 & D3); [discriminate|repeat (constructor; [reflexivity|]); exact F|].
    exists (b58_encode ([0x80; 0x24] ++ point k)), ds, [0x80; 0x24]. split; [reflexivity|]. split; [exact D1|]. split; [exact D2|]. split; [exact D3|]. auto.
Qed.

(** did:plc *)
Lemma flat_firstn k n : forall l : list N, flat_map (bits k) (firstn n l) = firstn (k * n) (flat_map (bits k) l).
Proof.
  induction n as [|n IH]; intros l; [rewrite Nat.mul_0_r; reflexivity|]. destruct l as [|x l]; [cbn [firstn flat_map]; rewrite firstn_nil; reflexivity|].
  cbn [firstn flat_map]. rewrite IH, firstn_app, bits_length. rewrite (firstn_all2 (bits k x)) by (rewrite bits_length; lia). f_equal. f_equal. lia.
Qed.
Lemma plc_text d : (15 <= length d)%nat -> Forall (fun c => c < 256) d ->
  exists ds, map base32_value (map lower (firstn 24 (b32_encode d))) = map Some ds /\ length ds = 24%nat /\ poly 32 ds = poly 256 (firstn 15 d).
Proof.
  intros L F. unfold b32_encode, regroup. cbv zeta. destruct (groups_inv 5 ltac:(lia) (length (flat_map (bits 8) d)) (flat_map (bits 8) d) (le_n _)) as (pad & P & E & G).
  set (ds := groups 5 (length (flat_map (bits 8) d)) (flat_map (bits 8) d)) in *.
  assert (LD : (24 <= length ds)%nat). { apply (f_equal (@length bool)) in E. rewrite app_length, !flat_length, repeat_length in E. lia. }
  assert (G' : Forall (fun x => x < 2 ^ N.of_nat 5) (firstn 24 ds)).
  { apply Forall_forall. intros x I. rewrite Forall_forall in G. apply G. rewrite <- (firstn_skipn 24 ds). apply in_or_app. auto. }
  exists (firstn 24 ds). split; [|split; [rewrite firstn_length; lia|]].
  - rewrite firstn_map, !map_map. apply map_ext_in. intros x I. apply value32. rewrite Forall_forall in G'. apply G'. exact I.
  - change 32 with (2 ^ N.of_nat 5). rewrite <- bits_poly by exact G'. rewrite flat_firstn, E, firstn_app, flat_length.
    replace (5 * 24 - 8 * length d)%nat with 0%nat by lia. rewrite firstn_O, app_nil_r. change (5 * 24)%nat with (8 * 15)%nat. rewrite <- flat_firstn.
    change 256 with (2 ^ N.of_nat 8). apply bits_poly. apply Forall_forall. intros x I. rewrite Forall_forall in F. apply F. rewrite <- (firstn_skipn 15 d). apply in_or_app. auto.
Qed.

(** Tokens *)
Lemma token_text n xc inv hash header dumps d k host did aud now expiration claims tok : SignSpec.curve n xc inv -> Forall (fun c => c < 256) header ->
  (forall data, Forall (fun c => c < 256) (dumps data)) ->
  service_jwt n xc inv hash header dumps d k host did aud now expiration claims = Some (Ok tok) ->
  exists h p g data sig, tok = h ++ s "." ++ p ++ s "." ++ g /\ spells 6 base64url_value h header /\ spells 6 base64url_value p (dumps data) /\
    spells 6 base64url_value g sig /\ length sig = 64%nat.
Proof.
  intros C Hh Hd E. destruct (token_received n xc inv hash C header dumps Hh Hd d k host did aud now expiration claims tok E) as (r & t & _ & _ & _ & _ & H1 & H2 & H3 & t0 & S & _).
  destruct (token_made n xc inv hash C header dumps d k host did aud now expiration claims H1 H2 H3 r t0 S) as (rb & sb & E2 & L1 & L2 & F & _).
  rewrite E2 in E. injection E as <-. exists (b64_encode header), (b64_encode (dumps (jwt_data host did aud now expiration claims))), (b64_encode (rb ++ sb)),
    (jwt_data host did aud now expiration claims), (rb ++ sb). split; [unfold input; rewrite <- !app_assoc; reflexivity|].
  split; [apply b64_spells, Hh|]. split; [apply b64_spells, Hd|]. split; [apply b64_spells, F|]. rewrite app_length. lia.
Qed.

Lemma cid_spells c : Forall (fun x => x < 256) c -> exists text, cid_text c = s "b" ++ text /\ spells 5 base32_value text c.
Proof. intros F. exists (map lower (b32_encode c)). split; [reflexivity|]. apply b32_spells. exact F. Qed.
Lemma raw_text cf content : Forall (fun c => c < 256) (BlobModel.digest cf content) ->
  exists text, BlobModel.raw_cid cf content = s "b" ++ text /\ spells 5 base32_value text ([1; 0x55; 0x12; 0x20] ++ BlobModel.digest cf content).
Proof. intros F. exists (map lower (b32_encode ([1; 0x55; 0x12; 0x20] ++ BlobModel.digest cf content))). split; [reflexivity|]. apply b32_spells. repeat (constructor; [reflexivity|]). exact F. Qed.
Lemma plc_url pub curve_of point priv public sign_bytes digest plc_host pds_host (fs fr : priv) post handle a url body :
  (forall x, length (digest x) = 32%nat) -> (forall x, Forall (fun c => c < 256) (digest x)) ->
  In (Post url body) (fst (create_plc pub curve_of point priv public sign_bytes digest fs fr plc_host pds_host post handle a)) ->
  exists text ds, url = s "https://" ++ plc_host ++ s "/" ++ s "did:plc:" ++ text /\ map base32_value text = map Some ds /\ length ds = 24%nat /\
    poly 32 ds = poly 256 (firstn 15 (digest (dag_cbor_encode (IMap body)))).
Proof.
  intros L F I. destruct (created pub curve_of point priv public sign_bytes digest plc_host pds_host fs fr post handle a url body I) as (-> & _).
  destruct (plc_text (digest (dag_cbor_encode (IMap body)))) as (ds & D1 & D2 & D3); [rewrite L; lia|apply F|]. eexists _, ds. split; [reflexivity|]. auto.
Qed.

(** SHA-256 gives 32 bytes. *)
Lemma rounds_eight kw : forall a b c d e f g h, length (Sha256.rounds kw a b c d e f g h) = 8%nat.
Proof. induction kw as [|[k w] kw IH]; intros; cbn [Sha256.rounds]; [reflexivity|apply IH]. Qed.
Lemma block_eight h w : length h = 8%nat -> length (Sha256.block h w) = 8%nat.
Proof.
  intros L. do 8 (destruct h as [|? h]; [discriminate L|]). destruct h; [|discriminate L]. unfold Sha256.block. rewrite map_length, combine_length, rounds_eight. reflexivity.
Qed.
Lemma blocks_eight fuel : forall h ws, length h = 8%nat -> length (Sha256.blocks fuel h ws) = 8%nat.
Proof. induction fuel as [|f IH]; intros h ws L; [exact L|]. cbn [Sha256.blocks]. destruct ws; [exact L|]. apply IH, block_eight, L. Qed.
Lemma be_four x : exists a b c d, be 4 x = [a; b; c; d] /\ Forall (fun c => c < 256) [a; b; c; d].
Proof.
  pose proof (be_bytes 4 x) as F. assert (L : forall k y, length (be k y) = k) by (induction k as [|k IH]; intros y; cbn [be]; [reflexivity|rewrite ?app_length, ?IH; cbn [length]; rewrite ?IH; lia]).
  specialize (L 4%nat x). revert L F. generalize (be 4 x) as l. intros l L F. do 4 (destruct l as [|? l]; [discriminate L|]). destruct l; [|discriminate L]. eauto 6.
Qed.
Lemma sha_length m : length (Sha256.sha256 m) = 32%nat.
Proof.
  unfold Sha256.sha256. cbv zeta. set (ws := Sha256.words _ _). pose proof (blocks_eight (length ws) Sha256.h256 ws eq_refl) as L. revert L. generalize (Sha256.blocks (length ws) Sha256.h256 ws) as l.
  intros l L. do 8 (destruct l as [|? l]; [discriminate L|]). destruct l; [|discriminate L]. cbn [flat_map]. rewrite !app_length.
  repeat match goal with |- context [length (be 4 ?x)] => let H := fresh in destruct (be_four x) as (? & ? & ? & ? & H & _); rewrite H; clear H end. reflexivity.
Qed.
Lemma sha_bytes m : Forall (fun c => c < 256) (Sha256.sha256 m).
Proof.
  unfold Sha256.sha256. cbv zeta. set (ws := Sha256.words _ _). generalize (Sha256.blocks (length ws) Sha256.h256 ws) as l.
  intros l. induction l as [|x l IH]; [constructor|]. cbn [flat_map]. apply Forall_app. split; [|exact IH]. destruct (be_four x) as (? & ? & ? & ? & -> & F). exact F.
Qed.
