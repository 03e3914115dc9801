(** Reading back a written CAR. *)
From Coq Require Import String List NArith ZArith Bool Lia.
From Coq Require Import ZifyBool ZifyNat ZifyN.
From Verif Require Import Base Lists Ipld IpldProofs CarModel.
Import ListNotations.
Local Open Scope N_scope.

Lemma read_varint_loop fuel : forall n r, n < 2 ^ N.of_nat fuel -> read_varint (varint_loop fuel n ++ r) = Some (n, r).
Proof.
  induction fuel as [|f IH]; intros n r H; cbn [varint_loop app].
  - change (2 ^ N.of_nat 0) with 1 in H. cbn [read_varint]. destruct (N.ltb_spec n 128); [reflexivity|lia].
  - destruct (N.ltb_spec n 128) as [L|L]; cbn [app read_varint].
    + destruct (N.ltb_spec n 128); [reflexivity|lia].
    + destruct (N.ltb_spec (128 + n mod 128) 128); [lia|]. rewrite IH.
      * f_equal. f_equal. pose proof (N.div_mod n 128 ltac:(lia)). lia.
      * apply N.div_lt_upper_bound; [lia|]. replace (N.of_nat (S f)) with (N.succ (N.of_nat f)) in H by lia.
        rewrite N.pow_succ_r' in H. lia.
Qed.

Lemma read_varint_ok n r : read_varint (varint n ++ r) = Some (n, r).
Proof. unfold varint. apply read_varint_loop. rewrite N2Nat.id. apply N.size_gt. Qed.

Lemma varint_nonempty n : varint n <> [].
Proof. unfold varint. destruct (N.to_nat (N.size n)); cbn [varint_loop]; [discriminate|]. destruct (n <? 128); discriminate. Qed.

Lemma read_frames_ok xs : forall fuel, (length (flat_map frame xs) < fuel)%nat -> read_frames fuel (flat_map frame xs) = Some xs.
Proof.
  induction xs as [|x xs IH]; intros fuel L; (destruct fuel as [|f]; [lia|]); [reflexivity|].
  cbn [flat_map] in *. unfold frame at 1 in L. rewrite !app_length in L.
  assert (V : (0 < length (varint (len x)))%nat).
  { pose proof (varint_nonempty (len x)). destruct (varint (len x)); [congruence|cbn; lia]. }
  cbn [read_frames]. unfold frame at 1. rewrite <- app_assoc.
  destruct (varint (len x) ++ x ++ flat_map frame xs) as [|y l] eqn:E.
  - apply app_eq_nil in E as [E _]. exfalso. exact (varint_nonempty _ E).
  - unfold frame at 1. rewrite <- app_assoc, read_varint_ok, takeN_app, IH by lia. reflexivity.
Qed.

Lemma links_ok l : links (IList (map ILink l)) = Some l.
Proof. cbn [links]. induction l as [|c l IH]; cbn [map fold_right]; [reflexivity|]. rewrite IH. reflexivity. Qed.

Lemma norm_links l : map norm (map ILink l) = map ILink l.
Proof. rewrite map_map. apply map_ext. reflexivity. Qed.

Lemma header_decode roots : exists m, decode (dag_cbor_encode (IMap [(s "version", IInt 1); (s "roots", IList (map ILink roots))])) = Some (IMap m) /\
  dget (s "roots") m = Some (IList (map ILink roots)).
Proof.
  unfold dag_cbor_encode. rewrite decode_encode_lemma.
  exists [(s "roots", IList (map norm (map ILink roots))); (s "version", IInt 1)]. split; [reflexivity|].
  rewrite norm_links. reflexivity.
Qed.

Lemma firstn_all_app {A} (a b : list A) n : length a = n -> firstn n (a ++ b) = a /\ skipn n (a ++ b) = b.
Proof.
  intros <-. split.
  - rewrite firstn_app, Nat.sub_diag, firstn_O, app_nil_r. apply firstn_all.
  - rewrite skipn_app, Nat.sub_diag, skipn_all. reflexivity.
Qed.

Lemma read_write_car roots blocks : (forall b, In b blocks -> length (fst b) = cid_length) ->
  read_car (write_car roots blocks) = Some (roots, blocks).
Proof.
  intros H. unfold read_car, write_car. set (h := dag_cbor_encode _).
  assert (E : frame h ++ flat_map (fun b => frame (fst b ++ snd b)) blocks = flat_map frame (h :: map (fun b => fst b ++ snd b) blocks)).
  { cbn [flat_map]. f_equal. induction blocks as [|b bs IH]; cbn [flat_map map]; [reflexivity|].
    rewrite IH; [reflexivity|]. intros x HX. apply H. right. exact HX. }
  rewrite E, read_frames_ok by lia. destruct (header_decode roots) as (m & D & R). unfold h. rewrite D, R, links_ok.
  f_equal. f_equal. rewrite map_map. rewrite <- (map_id blocks) at 2. apply map_ext_in. intros [c x] HI.
  cbn [fst snd]. destruct (firstn_all_app c x cid_length (H _ HI)) as [-> ->]. reflexivity.
Qed.
