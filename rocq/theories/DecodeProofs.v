(** Bytes that are not the encoding of a value. *)
From Coq Require Import String List NArith ZArith Bool Lia.
From Verif Require Import Base Lists Ipld IpldProofs BlockModel BlockSpec BlockProofs.
Import ListNotations.
Local Open Scope N_scope.

Lemma take_more k : forall l x r q, take k l = Some (x, r) -> take k (l ++ q) = Some (x, r ++ q).
Proof.
  induction k as [|k IH]; intros l x r q; cbn [take]; [intros [= <- <-]; reflexivity|].
  destruct l as [|b l]; [discriminate|]. cbn [app take]. destruct (take k l) as [[y r']|] eqn:E; [|discriminate].
  intros [= <- <-]. rewrite (IH _ _ _ q E). reflexivity.
Qed.

Lemma takeN_more n l x r q : takeN n l = Some (x, r) -> takeN n (l ++ q) = Some (x, r ++ q).
Proof.
  unfold takeN. destruct (N.ltb_spec (len l) n); [discriminate|]. intros H'.
  destruct (N.ltb_spec (len (l ++ q)) n) as [L|_]; [exfalso; unfold len in *; rewrite app_length in L; lia|].
  apply take_more. exact H'.
Qed.

Lemma read_bits_more l : forall p r q, read_bits l = Some (p, r) -> read_bits (l ++ q) = Some (p, r ++ q).
Proof.
  induction l as [|b l IH]; intros p r q; cbn [read_bits app]; [discriminate|].
  destruct (b =? 2); [intros [= <- <-]; reflexivity|].
  destruct (read_bits l) as [[p' r']|] eqn:E; [|discriminate]. rewrite (IH _ _ q eq_refl).
  destruct (b =? 0); [intros [= <- <-]; reflexivity|]. destruct (b =? 1); [intros [= <- <-]; reflexivity|discriminate].
Qed.

Lemma dec_head_more l m n r q : dec_head l = Some (m, n, r) -> dec_head (l ++ q) = Some (m, n, r ++ q).
Proof.
  destruct l as [|b l]; [discriminate|]. cbn [app dec_head]. cbv zeta.
  destruct (b mod 32 <? 24); [intros [= <- <- <-]; reflexivity|].
  assert (X : forall k, match take k l with Some (x, r) => Some (b / 32, of_be 0 x, r) | None => None end = Some (m, n, r) ->
    match take k (l ++ q) with Some (x, r) => Some (b / 32, of_be 0 x, r) | None => None end = Some (m, n, r ++ q)).
  { intros k. destruct (take k l) as [[x r']|] eqn:E; [|discriminate]. rewrite (take_more _ _ _ _ q E). intros [= <- <- <-]. reflexivity. }
  destruct (b mod 32 =? 24); [apply X|]. destruct (b mod 32 =? 25); [apply X|]. destruct (b mod 32 =? 26); [apply X|].
  destruct (b mod 32 =? 27); [apply X|]. destruct (b mod 32 =? 28); [|discriminate].
  destruct (read_bits l) as [[p r']|] eqn:E; [|discriminate]. rewrite (read_bits_more _ _ _ q E). intros [= <- <- <-]. reflexivity.
Qed.

Lemma dec_more : forall f f' q, (f <= f')%nat ->
  (forall l v r, dec f l = Some (v, r) -> dec f' (l ++ q) = Some (v, r ++ q)) /\
  (forall n l v r, dec_items f n l = Some (v, r) -> dec_items f' n (l ++ q) = Some (v, r ++ q)) /\
  (forall n l v r, dec_pairs f n l = Some (v, r) -> dec_pairs f' n (l ++ q) = Some (v, r ++ q)).
Proof.
  induction f as [|f IH]; intros f' q LE; [repeat split; intros; discriminate|].
  destruct f' as [|f']; [lia|]. destruct (IH f' q ltac:(lia)) as (I1 & I2 & I3). clear IH. split; [|split].
  - intros l v r. cbn [dec]. destruct (dec_head l) as [[[m n] r0]|] eqn:E; [|discriminate]. rewrite (dec_head_more _ _ _ _ q E).
    destruct (m =? 0); [intros [= <- <-]; reflexivity|]. destruct (m =? 1); [intros [= <- <-]; reflexivity|].
    destruct (m =? 2). { destruct (takeN n r0) as [[x r1]|] eqn:T; [|discriminate]. rewrite (takeN_more _ _ _ _ q T). intros [= <- <-]. reflexivity. }
    destruct (m =? 3). { destruct (takeN n r0) as [[x r1]|] eqn:T; [|discriminate]. rewrite (takeN_more _ _ _ _ q T). intros [= <- <-]. reflexivity. }
    destruct (m =? 4). { destruct (dec_items f n r0) as [[x r1]|] eqn:T; [|discriminate]. rewrite (I2 _ _ _ _ T). intros [= <- <-]. reflexivity. }
    destruct (m =? 5). { destruct (dec_pairs f n r0) as [[x r1]|] eqn:T; [|discriminate]. rewrite (I3 _ _ _ _ T). intros [= <- <-]. reflexivity. }
    destruct (m =? 6).
    { destruct (dec_head r0) as [[[m' k] r1]|] eqn:E2; [|discriminate]. rewrite (dec_head_more _ _ _ _ q E2).
      destruct m' as [|[p|[p|p|]|]]; try discriminate.
      destruct (takeN k r1) as [[x r2]|] eqn:T; [|discriminate]. rewrite (takeN_more _ _ _ _ q T).
      destruct x as [|[|] x]; try discriminate. intros [= <- <-]. reflexivity. }
    destruct (n =? 20); [intros [= <- <-]; reflexivity|]. destruct (n =? 21); [intros [= <- <-]; reflexivity|].
    destruct (n =? 22); [intros [= <- <-]; reflexivity|discriminate].
  - intros n l v r. cbn [dec_items]. destruct (n =? 0); [intros [= <- <-]; reflexivity|].
    destruct (dec f l) as [[x r1]|] eqn:E; [|discriminate]. rewrite (I1 _ _ _ E).
    destruct (dec_items f (n - 1) r1) as [[y r2]|] eqn:E2; [|discriminate]. rewrite (I2 _ _ _ _ E2). intros [= <- <-]. reflexivity.
  - intros n l v r. cbn [dec_pairs]. destruct (n =? 0); [intros [= <- <-]; reflexivity|].
    destruct (dec_head l) as [[[m k] r0]|] eqn:E0; [|discriminate]. rewrite (dec_head_more _ _ _ _ q E0).
    destruct m as [|[[p|p|]|p|]]; try discriminate.
    destruct (takeN k r0) as [[key r1]|] eqn:T; [|discriminate]. rewrite (takeN_more _ _ _ _ q T).
    destruct (dec f r1) as [[x r2]|] eqn:E; [|discriminate]. rewrite (I1 _ _ _ E).
    destruct (dec_pairs f (n - 1) r2) as [[y r3]|] eqn:E2; [|discriminate]. rewrite (I3 _ _ _ _ E2). intros [= <- <-]. reflexivity.
Qed.

(** No proper prefix of bytes that decode does. *)
Lemma decode_prefix p q v w : decode p = Some v -> decode (p ++ q) = Some w -> q = [].
Proof.
  unfold decode. destruct (dec (2 * length p) p) as [[v' [|]]|] eqn:E; try discriminate. intros _.
  destruct (dec_more (2 * length p) (2 * length (p ++ q)) q ltac:(rewrite app_length; lia)) as (I1 & _ & _). apply I1 in E. rewrite E. cbn [app].
  destruct q; [reflexivity|discriminate].
Qed.

Lemma truncated v p q : p ++ q = dag_cbor_encode v -> q <> [] -> decode p = None.
Proof.
  intros E NQ. destruct (decode p) as [w|] eqn:D; auto. exfalso. apply NQ. eapply decode_prefix; [exact D|].
  rewrite E. apply decode_encode_lemma.
Qed.

Lemma trailing v q : q <> [] -> decode (dag_cbor_encode v ++ q) = None.
Proof.
  intros NQ. destruct (decode (dag_cbor_encode v ++ q)) as [w|] eqn:D; auto. exfalso. apply NQ. eapply decode_prefix; [|exact D]. apply decode_encode_lemma.
Qed.

Lemma bad_reads digest e : decode e = None -> forall rs b, lb_encoded b = Some e -> lb_decoded b = None -> In RDecoded rs ->
  read_props digest b rs = Err ValueError.
Proof.
  intros D. induction rs as [|r rs IH]; intros b EB DB HI; [destruct HI|]. cbn [read_props].
  destruct r; cbn [read_prop].
  - destruct HI as [HI|HI]; [discriminate|]. unfold get_cid, get_encoded. rewrite EB.
    destruct (lb_cid b); cbn [bind]; rewrite IH; auto.
  - destruct HI as [HI|HI]; [discriminate|]. unfold get_encoded. rewrite EB. cbn [bind]. rewrite IH; auto.
  - unfold get_decoded. rewrite DB, EB, D. reflexivity.
Qed.

Lemma block_garbage digest c e b rs : new_block c (Some e) None = Ok b -> In RDecoded rs ->
  (exists v p q, p ++ q = dag_cbor_encode v /\ q <> [] /\ e = p) \/ (exists v q, q <> [] /\ e = dag_cbor_encode v ++ q) ->
  read_props digest b rs = Err ValueError.
Proof.
  intros NB HI G. assert (D : decode e = None).
  { destruct G as [(v & p & q & A & B & ->)|(v & q & A & ->)]; [eapply truncated; eauto|apply trailing; auto]. }
  unfold new_block in NB. destruct e; [discriminate NB|]. injection NB as <-. eapply bad_reads; eauto.
Qed.
