(** Proofs about DIDs. *)
From Coq Require Import String List NArith ZArith Bool Lia.
From Verif Require Import Base Lists Ipld CodecModel CodecProofs UriModel UriProofs DidModel DidSpec.
Import ListNotations.
Local Open Scope N_scope.

(** *** did:key *)

Lemma remove_prefix_app p x : remove_prefix p (p ++ x) = x.
Proof. unfold remove_prefix. rewrite UriProofs.starts_with_app, skipn_app, skipn_all, Nat.sub_diag. reflexivity. Qed.
Lemma remove_z x : remove_prefix (s "did:key:") (s "z" ++ x) = s "z" ++ x.
Proof. reflexivity. Qed.

Section Keys.
Variable pub : Type.
Variable curve_of : pub -> curve.
Variable point : pub -> list N.
Variable from_point : curve -> list N -> res pub.
Variable other_base : str -> res (list N).
Notation encode_did_key := (encode_did_key pub curve_of point).
Notation decode_did_key := (decode_did_key pub from_point other_base).

Lemma varint_bytes fuel : forall x, bytes (varint_aux fuel x).
Proof.
  induction fuel as [|f IH]; intros x; cbn [varint_aux]; [constructor|]. destruct (N.ltb_spec x 128).
  - constructor; [lia|constructor].
  - constructor; [|apply IH]. pose proof (N.mod_lt x 128). lia.
Qed.

Lemma decode_code code data : code < 2 ^ 63 -> bytes data ->
  decode_did_key (s "z" ++ b58_encode (varint code ++ data)) =
  if code =? 0xe7 then from_point K256 data else if code =? 0x1200 then from_point P256 data else Err ValueError.
Proof.
  intros C B. unfold decode_did_key, DidModel.decode_did_key. rewrite remove_z. cbn [s list_ascii_of_string map app multibase_decode].
  change (is_ch "z" _) with true. cbn iota. rewrite b58_inv by (apply Forall_app; split; [apply varint_bytes|exact B]).
  cbn [bind]. rewrite unvarint_varint by assumption. reflexivity.
Qed.

Lemma decode_prefixed x : decode_did_key (s "did:key:" ++ s "z" ++ x) = decode_did_key (s "z" ++ x).
Proof. unfold DidModel.decode_did_key. rewrite remove_prefix_app, remove_z. reflexivity. Qed.

Lemma did_key_inv k : curve_of k <> OtherCurve -> bytes (point k) -> from_point (curve_of k) (point k) = Ok k ->
  exists x, encode_did_key k = Ok (s "did:key:" ++ x) /\ decode_did_key (s "did:key:" ++ x) = Ok k /\ decode_did_key x = Ok k /\
    remove_prefix (s "did:key:") (s "did:key:" ++ x) = x /\ x <> [].
Proof.
  intros C B F. unfold DidModel.encode_did_key. destruct (curve_of k) eqn:E; cbn [codec bind]; [| |easy];
    (eexists; split; [reflexivity|]; rewrite decode_prefixed, decode_code by (auto; reflexivity); cbn; rewrite F;
     repeat split; discriminate).
Qed.

Lemma did_key_inj k k' x : bytes (point k) -> from_point (curve_of k) (point k) = Ok k ->
  bytes (point k') -> from_point (curve_of k') (point k') = Ok k' ->
  encode_did_key k = Ok x -> encode_did_key k' = Ok x -> k = k'.
Proof.
  intros B F B' F' E E'.
  assert (C : forall k, encode_did_key k = Ok x -> curve_of k <> OtherCurve) by
    (intros k0; unfold DidModel.encode_did_key; destruct (curve_of k0); cbn; discriminate).
  destruct (did_key_inv k) as (y & Y & D & _); eauto. destruct (did_key_inv k') as (y' & Y' & D' & _); eauto.
  rewrite Y in E. rewrite Y' in E'. injection E as <-. injection E' as E'. subst y'. congruence.
Qed.

Lemma did_key_reject code data : code < 2 ^ 63 -> bytes data -> code <> 0xe7 -> code <> 0x1200 ->
  decode_did_key (s "did:key:" ++ s "z" ++ b58_encode (varint code ++ data)) = Err ValueError.
Proof.
  intros C B N1 N2. rewrite decode_prefixed, decode_code by assumption. apply N.eqb_neq in N1, N2. now rewrite N1, N2.
Qed.

(** What is decoded is a point on one of the two curves, behind the code of that curve. *)
Lemma unvarint_canonical fuel : forall shift acc l x rest, bytes l -> unvarint fuel shift acc l = Ok (x, rest) ->
  exists y g, x = acc + y * 2 ^ shift /\ (y <> 0 \/ shift = 0) /\ l = varint_aux (S g) y ++ rest /\ (forall h, (g <= h)%nat -> varint_aux (S h) y = varint_aux (S g) y).
Proof.
  induction fuel as [|f IH]; intros shift acc l x rest B H; cbn in H; [discriminate|].
  destruct l as [|c l]; [discriminate|]. inversion B; subst. destruct (N.ltb_spec c 128) as [L|L].
  - destruct (N.eqb_spec c 0) as [->|C]; cbn in H.
    + destruct (N.eqb_spec shift 0); cbn in H; [|discriminate]. injection H as <- <-. exists 0, O. split; [lia|]. split; [auto|]. split; reflexivity.
    + injection H as <- <-. exists c, O. split; [lia|]. split; [auto|]. cbn. apply N.ltb_lt in L. rewrite L. auto.
  - apply IH in H; [|assumption]. destruct H as (y & g & -> & Z & -> & Mono). exists (y * 128 + (c - 128)), (S g).
    assert (y <> 0 \/ y = 0) as [Y|Y] by lia.
    2: { destruct Z as [?|Z]; [easy|]. lia. }
    split; [rewrite N.pow_add_r; change (2 ^ 7) with 128; nia|]. split; [left; nia|].
    assert (Sn : forall h, varint_aux (S h) (y * 128 + (c - 128)) = c :: varint_aux h y).
    { intros h. cbn [varint_aux]. replace (y * 128 + (c - 128) <? 128) with false by (symmetry; apply N.ltb_ge; nia).
      f_equal.
      - replace ((y * 128 + (c - 128)) mod 128) with (c - 128) by (apply (N.mod_unique _ _ y); lia). lia.
      - f_equal. symmetry. apply (N.div_unique _ _ _ (c - 128)); lia. }
    split; [rewrite Sn; reflexivity|]. intros h Hh. rewrite !Sn. f_equal. destruct h; [lia|]. apply Mono. lia.
Qed.

Lemma varint_enough x : exists g, forall h, (g <= h)%nat -> varint_aux (S h) x = varint x.
Proof.
  exists (N.size_nat x). unfold varint.
  assert (G : forall f y h, y < 2 ^ N.of_nat f -> (f <= h)%nat -> varint_aux (S h) y = varint_aux (S f) y).
  { induction f as [|f IH]; intros y h Y Hh.
    - cbn in Y. replace y with 0 by lia. reflexivity.
    - destruct h as [|h]; [lia|]. remember (S f) as a. remember (S h) as b. cbn [varint_aux]. subst. destruct (N.ltb_spec y 128); [reflexivity|].
      f_equal. apply IH; [|lia]. rewrite Nat2N.inj_succ, N.pow_succ_r' in Y. apply N.div_lt_upper_bound; nia. }
  intros h Hh. apply G; [apply lt_size|assumption].
Qed.

Lemma unvarint_inv l x rest : bytes l -> unvarint 9 0 0 l = Ok (x, rest) -> l = varint x ++ rest.
Proof.
  intros B H. apply unvarint_canonical in H; [|assumption]. destruct H as (y & g & -> & _ & -> & Mono).
  replace (0 + y * 2 ^ 0) with y by (cbn; lia). f_equal. destruct (varint_enough y) as (g' & E).
  rewrite <- (E (Nat.max g g')) by lia. symmetry. apply Mono. lia.
Qed.

Lemma did_key_sound x k : (forall y b, other_base y = Ok b -> bytes b) -> decode_did_key x = Ok k ->
  exists wrapped c code data, multibase_decode other_base (remove_prefix (s "did:key:") x) = Ok wrapped /\
    codec c = Ok code /\ wrapped = varint code ++ data /\ from_point c data = Ok k.
Proof.
  intros O H. unfold DidModel.decode_did_key in H. destruct (multibase_decode _ _) as [w|] eqn:M; [|discriminate]. cbn [bind] in H.
  destruct (unvarint 9 0 0 w) as [[code data]|] eqn:U; [|discriminate]. cbn [bind] in H.
  assert (B : bytes w).
  { unfold multibase_decode in M. destruct (remove_prefix _ x) as [|c r]; [eauto|]. destruct (is_ch "z" c); [|eauto].
    unfold b58_decode in M. destruct (values _ r); [|discriminate]. injection M as <-. apply (rebase_lt 58 256). lia. }
  apply unvarint_inv in U; [|assumption].
  destruct (N.eqb_spec code 0xe7) as [->|]; [exists w, K256, 0xe7, data; auto|].
  destruct (N.eqb_spec code 0x1200) as [->|]; [exists w, P256, 0x1200, data; auto|]. discriminate.
Qed.
End Keys.

(** *** did:web *)

Lemma first_split (p : N -> Prop) : forall x1 y1 x2 y2, x1 ++ y1 = x2 ++ y2 ->
  (forall c, In c x1 -> ~ p c) -> (forall c, In c x2 -> ~ p c) ->
  (y1 = [] \/ exists c r, y1 = c :: r /\ p c) -> (y2 = [] \/ exists c r, y2 = c :: r /\ p c) -> x1 = x2 /\ y1 = y2.
Proof.
  induction x1 as [|a x1 IH]; intros y1 x2 y2 E N1 N2 S1 S2.
  - destruct x2 as [|b x2]; [auto|]. cbn in E. exfalso. destruct S1 as [->|(c & r & -> & P)]; [discriminate|].
    injection E as -> _. apply (N2 b); [now left|assumption].
  - destruct x2 as [|b x2].
    + cbn in E. exfalso. destruct S2 as [->|(c & r & -> & P)]; [discriminate|]. injection E as -> _. apply (N1 c); [now left|assumption].
    + injection E as -> E. destruct (IH _ _ _ E) as [-> ->]; auto; intros c I; [apply N1|apply N2]; now right.
Qed.

Lemma contacts_unique url h h' : contacts url h -> contacts url h' -> h = h'.
Proof.
  intros (u & p & r & E & U & H & P & R) (u' & p' & r' & E' & U' & H' & P' & R').
  rewrite E in E'. apply app_inv_head in E'. clear E.
  assert (A : forall u h p, (u = [] \/ exists x, u = x ++ s "@" /\ without (s "/?#\") x) -> without (s "/?#\@:") h ->
              (p = [] \/ exists x, p = s ":" ++ x /\ without (s "/?#\@") x) -> without (s "/?#\") (u ++ h ++ p)).
  { clear. intros u h p U H P c I B. apply in_app_or in I. destruct I as [I|I].
    - destruct U as [->|(x & -> & W)]; [easy|]. apply in_app_or in I. destruct I as [I|[<-|[]]]; [now apply (W c)|].
      cbn in B. intuition discriminate.
    - apply in_app_or in I. destruct I as [I|I].
      + apply (H c I). cbn in *. tauto.
      + destruct P as [->|(x & -> & W)]; [easy|]. destruct I as [<-|I]; [cbn in B; intuition discriminate|].
        apply (W c I). cbn in *. tauto. }
  replace (u ++ h ++ p ++ r) with ((u ++ h ++ p) ++ r) in E' by now rewrite <- !app_assoc.
  replace (u' ++ h' ++ p' ++ r') with ((u' ++ h' ++ p') ++ r') in E' by now rewrite <- !app_assoc.
  apply (first_split (fun c => In c (s "/?#\"))) in E'; auto; try (now apply A).
  destruct E' as [E' _].
  assert (At : forall h p, without (s "/?#\@:") h -> (p = [] \/ exists x, p = s ":" ++ x /\ without (s "/?#\@") x) ->
               forall c, In c (rev (h ++ p)) -> c <> ch "@").
  { clear. intros h p H P c I ->. apply in_rev in I. apply in_app_or in I. destruct I as [I|I].
    - apply (H _ I). cbn. tauto.
    - destruct P as [->|(x & -> & W)]; [easy|]. destruct I as [I|I]; [discriminate|]. apply (W _ I). cbn. tauto. }
  assert (Us : forall u, (u = [] \/ exists x, u = x ++ s "@" /\ without (s "/?#\") x) -> rev u = [] \/ exists c r, rev u = c :: r /\ c = ch "@").
  { clear. intros u [->|(x & -> & _)]; [now left|]. right. rewrite rev_app_distr. cbn. eauto. }
  apply (f_equal (@rev N)) in E'. rewrite !(rev_app_distr u), !(rev_app_distr u') in E'.
  apply (first_split (fun c => c = ch "@")) in E'; auto; try (intros c I; now apply At in I).
  destruct E' as [E' _]. apply (f_equal (@rev N)) in E'. rewrite !rev_involutive in E'.
  apply (first_split (fun c => c = ch ":")) in E'.
  - tauto.
  - intros c I ->. apply (H _ I). cbn. tauto.
  - intros c I ->. apply (H' _ I). cbn. tauto.
  - destruct P as [->|(x & -> & _)]; [now left|right; cbn; eauto].
  - destruct P' as [->|(x & -> & _)]; [now left|right; cbn; eauto].
Qed.

Section Web.
Variable get : str -> res (bool * ipld).
Variable repair : str -> str.

Lemma unescape_id x : (forall c, In c x -> c <> ch "%") -> unescape x = x.
Proof.
  induction x as [|c x IH]; intros H; [reflexivity|]. cbn [unescape]. unfold is_ch.
  destruct (N.eqb_spec c (ch "%")) as [->|]; [exfalso; apply (H (ch "%")); [now left|reflexivity]|].
  f_equal. apply IH. intros d I. apply H. now right.
Qed.
Lemma unquote_id x : (forall c, In c x -> c < 128 /\ c <> ch "%") -> unquote repair x = x.
Proof.
  intros H. unfold unquote. rewrite unescape_id by (intros c I; apply H; exact I).
  replace (forallb _ x) with true; [reflexivity|]. symmetry. apply forallb_forall. intros c I. apply N.ltb_lt, H, I.
Qed.

Lemma starts_false p x : (forall r, x <> p ++ r) -> starts_with p x = false.
Proof. intros H. destruct (starts_with p x) eqn:E; [|reflexivity]. apply Lists.starts_with_app in E. destruct E as [r ->]. now destruct (H r). Qed.

Lemma resolve_web_other did : (forall r, did <> s "did:web:" ++ r) -> resolve_web get repair did = ([], Err ValueError).
Proof. intros H. unfold resolve_web. now rewrite starts_false. Qed.

(** The URL for a host and path segments without special characters. *)
Definition special : str := s "/?#\@%:".
Lemma no_colon x : without special x -> existsb (is_ch ":") x = false.
Proof. intros W. apply existsb_no. intros c I. apply N.eqb_neq. intros ->. apply (W _ I). cbn. tauto. Qed.

Fixpoint join (sep : str) (l : list str) : str :=
  match l with [] => [] | x :: r => sep ++ x ++ join sep r end.

Lemma slashes x : map (fun c => if is_ch ":" c then ch "/" else c) x = x \/ existsb (is_ch ":") x = true.
Proof.
  destruct (existsb (is_ch ":") x) eqn:E; [now right|]. left. induction x as [|c x IH]; [reflexivity|].
  cbn in E. apply orb_false_iff in E. destruct E as [E1 E2]. cbn. rewrite E1. f_equal. auto.
Qed.

Lemma resolve_web_url d l : without special d -> Forall (without special) l -> (forall c, In c (d ++ concat l) -> c < 128) ->
  fst (resolve_web get repair (s "did:web:" ++ d ++ join (s ":") l)) =
  [Get (s "https://" ++ d ++ (match l with [] => s "/.well-known" | _ => join (s "/") l end) ++ s "/did.json")].
Proof.
  intros D L A. unfold resolve_web. rewrite UriProofs.starts_with_app.
  change (skipn 8 (s "did:web:" ++ ?x)) with x.
  change (skipn 8 (s "did:web:" ++ d ++ join (s ":") l)) with (d ++ join (s ":") l).
  assert (J : l <> [] -> existsb (is_ch ":") (d ++ join (s ":") l) = true).
  { destruct l as [|x l]; [easy|]. intros _. rewrite existsb_app. cbn. now rewrite orb_true_r. }
  assert (N0 : forall x, without special x -> map (fun c => if is_ch ":" c then ch "/" else c) x = x).
  { intros x W. destruct (slashes x) as [E|E]; [assumption|]. rewrite no_colon in E by assumption. discriminate. }
  destruct l as [|x l].
  - cbn [join]. rewrite app_nil_r, no_colon by assumption. unfold fetch. cbn [fst]. rewrite unquote_id; [now rewrite <- app_assoc|].
    intros c I. apply in_app_or in I. destruct I as [I|I].
    + split; [apply A, in_or_app; now left|]. intros ->. apply (D _ I). cbn. tauto.
    + cbn in I. intuition (subst; try reflexivity; discriminate).
  - rewrite J by discriminate. unfold fetch. cbn [fst].
    assert (E : map (fun c => if is_ch ":" c then ch "/" else c) (d ++ join (s ":") (x :: l)) = d ++ join (s "/") (x :: l)).
    { rewrite map_app, N0 by assumption. f_equal. clear - L N0. induction L as [|y r W F IH]; [reflexivity|].
      cbn [join]. rewrite !map_app, (N0 y), IH by assumption. reflexivity. }
    rewrite E. rewrite unquote_id; [now rewrite <- app_assoc|].
    intros c I. apply in_app_or in I. destruct I as [I|I].
    + split; [apply A, in_or_app; now left|]. intros ->. apply (D _ I). cbn. tauto.
    + assert (G : forall l, Forall (without special) l -> In c (join (s "/") l) -> c = ch "/" \/ In c (concat l) /\ c <> ch "%").
      { clear. induction 1 as [|y r W F IH]; cbn; [easy|]. intros [I|I]; [now left|]. apply in_app_or in I. destruct I as [I|I].
        - right. split; [apply in_or_app; now left|]. intros ->. apply (W _ I). cbn. tauto.
        - destruct (IH I) as [?|[? ?]]; [now left|]. right. split; [apply in_or_app; now right|assumption]. }
      destruct (G _ L I) as [->|[I' N']]; [split; [reflexivity|discriminate]|].
      split; [apply A, in_or_app; now right|assumption].
Qed.

End Web.

Lemma url_contacts d path : without special d -> (path = [] \/ exists r, path = s "/" ++ r) -> contacts (s "https://" ++ d ++ path) d.
Proof.
  intros W P. exists [], [], path. split; [reflexivity|]. split; [now left|]. split; [|split; [now left|]].
  - intros c I B. apply (W c I). cbn in *. tauto.
  - destruct P as [->|(r & ->)]; [now left|]. right. cbn. eauto 6.
Qed.

Lemma domain_without d : domain d -> without special d /\ (forall c, In c d -> c < 128).
Proof.
  intros [_ F]. rewrite Forall_forall in F. split; intros c I; specialize (F c I); cbn in *; intuition (subst; try lia; try discriminate).
Qed.

(** *** PLC operations *)

Lemma bind_io_In {A B} (m : io A) (f : A -> io B) q : In q (fst (bind_io m f)) ->
  In q (fst m) \/ exists a, snd m = Ok a /\ In q (fst (f a)).
Proof.
  destruct m as [t [a|e]]; cbn; [|auto]. destruct (f a) as [t' r] eqn:E. cbn. intros I. apply in_app_or in I.
  destruct I as [I|I]; [auto|]. right. exists a. rewrite E. auto.
Qed.
Lemma bind_io_ok {A B} (m : io A) (f : A -> io B) b : snd (bind_io m f) = Ok b -> exists a, snd m = Ok a /\ snd (f a) = Ok b.
Proof. destruct m as [t [a|e]]; cbn; [|discriminate]. destruct (f a) as [t' r] eqn:E. cbn. intros ->. exists a. now rewrite E. Qed.

Lemma py_last {A} (l : list A) x : py_index l (-1) = Ok x -> exists r, l = r ++ [x].
Proof.
  unfold py_index. cbn [Z.ltb]. change (-1 <? 0)%Z with true. cbn iota. destruct (_ || _)%bool eqn:E; [discriminate|].
  apply orb_false_iff in E. destruct E as [E1 E2]. apply Z.ltb_ge in E1. apply Z.leb_gt in E2.
  destruct (nth_error _ _) as [y|] eqn:N; [|discriminate]. intros H. injection H as <-.
  destruct (exists_last (l := l)) as (r & z & ->); [intros ->; cbn in E1; lia|].
  rewrite app_length in N. cbn in N. replace (Z.to_nat _) with (length r) in N by lia.
  rewrite nth_error_app2, Nat.sub_diag in N by lia. injection N as <-. eauto.
Qed.

Lemma item_ok k v x : item k v = Ok x -> exists m, v = IMap m /\ dget k m = Some x.
Proof. destruct v; cbn; try discriminate. destruct (dget k m) eqn:E; [|discriminate]. intros H. injection H as <-. eauto. Qed.
Lemma items_ok v l : items v = Ok l -> v = IList l.
Proof. destruct v; cbn; try discriminate. congruence. Qed.
Lemma text_ok v t : text v = Ok t -> v = IText t.
Proof. destruct v; cbn; try discriminate. congruence. Qed.

Section Plc.
Variable pub : Type.
Variable curve_of : pub -> curve.
Variable point : pub -> list N.
Variable priv : Type.
Variable public : priv -> pub.
Variable sign_bytes : priv -> list N -> list N.
Variable digest : list N -> list N.
Variable fresh_signing fresh_rotation : priv.
Variable plc_host pds_host : str.

Section Net.
Variable get : str -> res (bool * ipld).
Variable post : str -> obj -> res unit.
Notation signed := (signed priv sign_bytes).
Notation encode_did_key := (encode_did_key pub curve_of point).
Notation write_plc_operation := (write_plc_operation pub priv sign_bytes digest plc_host post).
Notation write_plc := (write_plc pub curve_of point priv public sign_bytes digest fresh_signing fresh_rotation plc_host pds_host post).
Notation create_plc := (create_plc pub curve_of point priv public sign_bytes digest fresh_signing fresh_rotation plc_host pds_host post).
Notation update_plc := (update_plc pub curve_of point priv public sign_bytes digest fresh_signing fresh_rotation plc_host pds_host get post).
Notation rollback_plc := (rollback_plc pub curve_of point priv public sign_bytes digest plc_host get post).
Notation key := (key pub priv).

Definition the_did (did : option str) (op : obj) : str := match did with Some (c :: r) => c :: r | _ => plc_did digest op end.

Lemma operation_post op d did : exists q r, write_plc_operation op d did = ([q], r) /\
  q = Post (s "https://" ++ plc_host ++ s "/" ++ the_did did (signed op d)) (signed op d) /\
  (forall x, r = Ok x -> p_did x = the_did did (signed op d) /\
     plc_operation_to_did_doc (dset (s "did") (IText (the_did did (signed op d))) (signed op d)) = Ok (p_doc x)).
Proof.
  unfold DidModel.write_plc_operation, http_post. fold (the_did did (signed op d)).
  destruct (post _ _); cbn [bind_io lift].
  2: { do 2 eexists. split; [reflexivity|]. split; [reflexivity|]. discriminate. }
  destruct (plc_operation_to_did_doc _) as [doc|] eqn:D; cbn; (do 2 eexists; split; [reflexivity|]; split; [reflexivity|]).
  - intros x E. injection E as <-. cbn. auto.
  - discriminate.
Qed.

Lemma signed_sig op d : dget (s "sig") op = None -> signature_of sign_bytes d (signed op d) /\ ddel (s "sig") (signed op d) = op.
Proof.
  intros H. assert (E : ddel (s "sig") (signed op d) = op).
  { unfold signed, DidModel.signed. clear -H. generalize (IText (b64_encode (sign_bytes d (dag_cbor_encode (IMap op))))) as v. intros v.
    induction op as [|[k' v'] o IH]; cbn [dset]; [reflexivity|].
    cbn [dget] in H. destruct (str_eqb (s "sig") k') eqn:E; [discriminate|]. cbn [ddel]. rewrite E. now rewrite IH. }
  split; [|assumption]. unfold signature_of. rewrite E. unfold DidModel.signed. rewrite dget_dset. reflexivity.
Qed.

(** What [write_plc] posts. *)
Record written (did : option str) (handle : str) (a : args pub priv) (prev : ipld) (d : priv) (url : str) (body : obj) : Prop := {
  w_handle : handle <> [];
  w_rotation : match a_rotation _ _ a with Some k => k | None => Private fresh_rotation end = Private d;
  w_body : exists rk sk,
    encode_did_key (key_pub pub priv public (match a_new_rotation _ _ a with Some k => k | None => Private d end)) = Ok rk /\
    encode_did_key (key_pub pub priv public (match a_signing _ _ a with Some k => k | None => Private fresh_signing end)) = Ok sk /\
    body = signed (plc_op rk sk handle (match a_aka _ _ a with Some x => aka_list x | None => [] end)
      (match a_pds _ _ a with Some (c :: r) => c :: r | _ => s "https://" ++ pds_host end) prev) d;
  w_url : url = s "https://" ++ plc_host ++ s "/" ++ the_did did body
}.

Lemma write_cases did handle a prev :
  (fst (write_plc did handle a prev) = [] /\ exists e, snd (write_plc did handle a prev) = Err e) \/
  exists h d url body, handle = Some h /\ fst (write_plc did handle a prev) = [Post url body] /\ written did h a prev d url body /\
    forall r, snd (write_plc did handle a prev) = Ok r -> p_did r = the_did did body /\
      plc_operation_to_did_doc (dset (s "did") (IText (p_did r)) body) = Ok (p_doc r).
Proof.
  unfold DidModel.write_plc. destruct handle as [[|c r]|]; try (left; split; [reflexivity|]; cbn; eauto).
  remember (c :: r) as h eqn:Hh. assert (Hne : h <> []) by (subst; discriminate). clear Hh.
  set (pds := match a_pds _ _ a with Some (c :: r) => c :: r | _ => s "https://" ++ pds_host end).
  destruct (is_ch "/" (last pds 0)); [left; split; [reflexivity|]; cbn; eauto|].
  destruct (_ || _); [left; split; [reflexivity|]; cbn; eauto|].
  destruct (match a_rotation _ _ a with Some k => k | None => _ end) as [d|p] eqn:R; [|left; split; [reflexivity|]; cbn; eauto].
  destruct (encode_did_key (key_pub pub priv public (match a_signing _ _ a with Some k => k | None => Private fresh_signing end))) as [sk|e] eqn:S; cbn [lift bind_io]; [|left; split; [reflexivity|]; cbn; eauto].
  destruct (encode_did_key (key_pub pub priv public (match a_new_rotation _ _ a with Some k => k | None => Private d end))) as [rk|e] eqn:K; cbn [lift bind_io]; [|left; split; [reflexivity|]; cbn; eauto].
  right. destruct (operation_post (plc_op rk sk h (match a_aka _ _ a with Some x => aka_list x | None => [] end) pds prev) d did) as (q & x & W & Q & D).
  rewrite W. exists h, d. eexists. eexists. split; [reflexivity|]. split; [destruct x; cbn; rewrite Q; reflexivity|]. split.
  - constructor; auto. exists rk, sk. auto.
  - destruct x as [x|]; cbn; [|discriminate]. intros y E. injection E as <-. cbn. destruct (D x eq_refl) as [E1 E2]. rewrite E1. auto.
Qed.

Lemma written_fields did h a prev d url body : written did h a prev d url body ->
  dget (s "type") body = Some (IText (s "plc_operation")) /\
  dget (s "prev") body = Some prev /\
  dget (s "alsoKnownAs") body = Some (IList (IText (s "at://" ++ h) :: match a_aka _ _ a with Some x => aka_list x | None => [] end)) /\
  signature_of sign_bytes d body.
Proof.
  intros [_ _ (rk & sk & _ & _ & ->) _]. split; [|split; [|split]]; try reflexivity.
Qed.

Lemma create_posts handle a url body : In (Post url body) (fst (create_plc handle a)) ->
  exists h d, handle = Some h /\ written None h a INull d url body.
Proof.
  unfold DidModel.create_plc. intros I. destruct (write_cases None handle a INull) as [[E _]|(h & d & u & b & Hh & E & W & _)]; rewrite E in I; [easy|].
  destruct I as [I|[]]. injection I as -> ->. eauto.
Qed.

(** The arguments that [update_plc] passes on. *)
Definition updated (signing rotation : key) (a : args pub priv) (rest : list ipld) : args pub priv :=
  {| a_signing := Some signing; a_rotation := Some rotation; a_new_rotation := a_new_rotation _ _ a; a_pds := a_pds _ _ a;
     a_aka := Some (match a_aka _ _ a with Some x => x | None => AList rest end) |}.

Lemma update_posts did handle signing rotation a url body : In (Post url body) (fst (update_plc did handle signing rotation a)) ->
  exists ok log e op cid old rest h d,
    get (log_url plc_host did) = Ok (ok, IList (log ++ [IMap e])) /\
    dget (s "operation") e = Some (IMap op) /\ dget (s "cid") e = Some cid /\
    dget (s "alsoKnownAs") op = Some (IList (old :: rest)) /\
    (handle = Some h \/ (handle = None \/ handle = Some []) /\ old = IText (s "at://" ++ h)) /\
    written (Some did) h (updated signing rotation a rest) cid d url body.
Proof.
  unfold DidModel.update_plc. intros I.
  apply bind_io_In in I. destruct I as [[I|[]]|([ok js] & G & I)]; [discriminate|]. cbn [http_get snd] in G, I.
  apply bind_io_In in I. destruct I as [[]|(log & L & I)]. cbn [lift snd] in L. apply items_ok in L. subst js.
  apply bind_io_In in I. destruct I as [[]|(e & L & I)]. cbn [lift snd] in L. apply py_last in L. destruct L as [log' ->].
  apply bind_io_In in I. destruct I as [[]|(op & O & I)]. cbn [lift snd] in O. apply item_ok in O. destruct O as (em & -> & O).
  apply bind_io_In in I. destruct I as [[]|(v & V & I)]. cbn [lift snd] in V. apply item_ok in V. destruct V as (opm & -> & V).
  apply bind_io_In in I. destruct I as [[]|(akas & K & I)]. cbn [lift snd] in K. apply items_ok in K. subst v.
  destruct akas as [|old rest]; [easy|].
  apply bind_io_In in I. destruct I as [[]|(h & H & I)]. cbn [lift snd] in H.
  apply bind_io_In in I. destruct I as [[]|(cid & C & I)]. cbn [lift snd] in C. apply item_ok in C. destruct C as (em' & Ee & C). injection Ee as <-.
  fold (updated signing rotation a rest) in I.
  destruct (write_cases (Some did) (Some h) (updated signing rotation a rest) cid) as [[E _]|(h' & d & u & b & Hh & E & W & _)]; rewrite E in I; [easy|].
  destruct I as [I|[]]. injection I as -> ->. injection Hh as <-.
  exists ok, log', em, opm, cid, old, rest, h, d.
  split; [exact G|]. split; [exact O|]. split; [exact C|]. split; [exact V|]. split; [|exact W].
  assert (D : (do t <- text old; (if starts_with (s "at://") t then Ok (remove_prefix (s "at://") t) else Err AssertionError)) = Ok h -> old = IText (s "at://" ++ h)).
  { intros X. destruct (text old) as [t|] eqn:T; [|discriminate]. apply text_ok in T. cbn [bind] in X.
    destruct (starts_with (s "at://") t) eqn:S; [|discriminate]. apply Lists.starts_with_app in S. destruct S as [r ->].
    rewrite remove_prefix_app in X. injection X as ->. exact T. }
  destruct handle as [[|c r]|].
  - right. split; [now right|auto].
  - left. congruence.
  - right. split; [now left|auto].
Qed.

Lemma rollback_posts did rot num url body : In (Post url body) (fst (rollback_plc did rot num)) ->
  exists log lastm lop rks rk tm op cid,
    get (log_url plc_host did) = Ok (true, IList (log ++ [IMap lastm])) /\ did <> [] /\
    (num + 1 <= Z.of_nat (length log + 1))%Z /\
    dget (s "operation") lastm = Some (IMap lop) /\ dget (s "rotationKeys") lop = Some (IList rks) /\
    encode_did_key (public rot) = Ok rk /\ In (IText rk) rks /\
    py_index (log ++ [IMap lastm]) (- (num + 1)) = Ok (IMap tm) /\
    dget (s "did") tm = Some (IText did) /\ dget (s "operation") tm = Some (IMap op) /\ dget (s "cid") lastm = Some cid /\
    body = signed (ddel (s "sig") (dset (s "prev") cid op)) rot /\ url = s "https://" ++ plc_host ++ s "/" ++ did.
Proof.
  clear fresh_signing fresh_rotation pds_host.
  unfold DidModel.rollback_plc. destruct did as [|c0 r0]; [easy|]. remember (c0 :: r0) as did eqn:Ed. intros I.
  apply bind_io_In in I. destruct I as [[I|[]]|([ok js] & G & I)]; [discriminate|]. cbn [http_get snd] in G, I.
  apply bind_io_In in I. destruct I as [[]|(log & L & I)]. cbn [lift snd fst] in L. destruct ok; [|discriminate]. apply items_ok in L. subst js.
  destruct (Z.ltb_spec (Z.of_nat (length log)) (num + 1)) as [|Len]; [easy|].
  apply bind_io_In in I. destruct I as [[]|(rk & K & I)]. cbn [lift snd] in K.
  apply bind_io_In in I. destruct I as [[]|(e & L & I)]. cbn [lift snd] in L. apply py_last in L. destruct L as [log' ->].
  apply bind_io_In in I. destruct I as [[]|(lop & O & I)]. cbn [lift snd] in O. apply item_ok in O. destruct O as (em & -> & O).
  apply bind_io_In in I. destruct I as [[]|(v & V & I)]. cbn [lift snd] in V. apply item_ok in V. destruct V as (opm & -> & V).
  apply bind_io_In in I. destruct I as [[]|(rks & Rk & I)]. cbn [lift snd] in Rk. apply items_ok in Rk. subst v.
  destruct (existsb _ rks) eqn:Ex; cbn [negb] in I; [|easy].
  apply bind_io_In in I. destruct I as [[]|(t & T & I)]. cbn [lift snd] in T.
  apply bind_io_In in I. destruct I as [[]|(td & D & I)]. cbn [lift snd] in D. apply item_ok in D. destruct D as (tm & -> & D).
  destruct (match td with IText t => str_eqb t did | _ => false end) eqn:Td; cbn [negb] in I; [|easy].
  apply bind_io_In in I. destruct I as [[]|(op & Op & I)]. cbn [lift snd] in Op. apply item_ok in Op. destruct Op as (tm' & Et & Op). injection Et as <-.
  apply bind_io_In in I. destruct I as [[]|(cid & C & I)]. cbn [lift snd] in C. apply item_ok in C. destruct C as (em' & Ee & C). injection Ee as <-.
  destruct op as [| | | | | |op|]; try easy.
  apply bind_io_In in I. destruct I as [I|(x & _ & I)]; [|easy].
  destruct (operation_post (ddel (s "sig") (dset (s "prev") cid op)) rot (@Some str did)) as (q & x & W & Q & _).
  rewrite W in I. destruct I as [I|[]]. rewrite Q in I. injection I as <- <-. clear Q W q x.
  destruct td; try discriminate. apply str_eqb_eq in Td. subst.
  apply existsb_exists in Ex. destruct Ex as (y & Iy & Ey). destruct y; try discriminate. apply str_eqb_eq in Ey. subst.
  exists log', em, opm, rks, rk, tm, op, cid. rewrite app_length in Len. cbn in Len.
  repeat (split; [first [assumption|discriminate|lia|reflexivity]|]). reflexivity.
Qed.
End Net.
End Plc.
