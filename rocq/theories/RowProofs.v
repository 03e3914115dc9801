(** Proofs about blocks in the datastore. *)
From Coq Require Import String List NArith ZArith Bool Lia.
From Verif Require Import Base Lists Ipld IpldProofs MstModel MstRep MstClient StorageModel CodecModel CodecProofs JwtModel JwtProofs RowModel RowSpec.
Import ListNotations.

(** ** CIDs as text *)

Lemma alphabet32_lower_NoDup : NoDup alphabet32_lower.
Proof.
  assert (H : (fix go l := match l with [] => true | x :: r => negb (existsb (N.eqb x) r) && go r end) alphabet32_lower = true)
    by (vm_compute; reflexivity).
  revert H. generalize alphabet32_lower as l. intros l. induction l as [|x l IH]; intros H; constructor.
  - intros I. apply andb_prop in H. destruct H as [H _]. apply negb_true_iff in H.
    assert (existsb (N.eqb x) l = true) by (apply existsb_exists; exists x; split; [assumption|apply N.eqb_refl]). congruence.
  - apply IH. apply andb_prop in H. tauto.
Qed.

Lemma lower_chars l : map lower (map (char_at alphabet32) l) = map (char_at alphabet32_lower) l.
Proof.
  rewrite map_map. apply map_ext. intros d. unfold char_at, alphabet32_lower.
  change 0%N with (lower 0%N) at 2. symmetry. apply map_nth.
Qed.

Lemma text_inv c : proper c -> text_cid (cid_text c) = Ok c.
Proof.
  intros (codec & d & CO & LD & FD & E).
  assert (F : Forall (fun x => (x < 256)%N) c).
  { rewrite E. cbn [app]. repeat (constructor; [destruct CO as [->| ->]; reflexivity|]). exact FD. }
  unfold cid_text, b32_encode, regroup. rewrite lower_chars. cbn [s app]. unfold text_cid.
  destruct (groups_inv 5 ltac:(lia) (length (flat_map (bits 8) c)) (flat_map (bits 8) c) ltac:(lia)) as (p & P & G & Fd).
  match goal with |- match ?x with _ => _ end = _ => change x with (98%N :: map (char_at alphabet32_lower)
    (groups 5 (length (flat_map (bits 8) c)) (flat_map (bits 8) c))) end. cbv iota beta.
  rewrite values_chars by (try apply alphabet32_lower_NoDup; exact Fd). cbv zeta. rewrite G.
  rewrite whole_bytes; [|exact F|rewrite repeat_length; lia|].
  - rewrite E. cbn [app]. unfold len. rewrite LD. destruct CO as [->| ->]; reflexivity.
  - rewrite app_length, repeat_length. clear. induction c as [|x b IH]; cbn [flat_map length]; [lia|]. rewrite app_length, bits_length. lia.
Qed.

Lemma text_inj c c' : proper c -> proper c' -> cid_text c = cid_text c' -> c = c'.
Proof. intros H H' E. apply text_inv in H, H'. rewrite E in H. congruence. Qed.

Lemma text_inv_opt c : proper_opt c -> text_cid_opt (option_map cid_text c) = Ok c.
Proof.
  destruct c as [c|]; [|reflexivity]. intros H. apply text_inv in H. cbn [option_map text_cid_opt].
  destruct (cid_text c) eqn:E; [discriminate E|]. rewrite H. reflexivity.
Qed.

(** ** Blocks *)

Lemma op_inv op : proper_opt (op_cid op) -> proper_opt (op_prev op) -> op_of_row (row_of_op op) = Ok op.
Proof.
  intros A B. unfold op_of_row, row_of_op. cbn [o_action o_path o_cid o_prev].
  rewrite (text_inv_opt _ A), (text_inv_opt _ B). destruct op as [[] p c q]; reflexivity.
Qed.

Lemma ops_inv ops : (forall op, In op ops -> proper_opt (op_cid op) /\ proper_opt (op_prev op)) -> each op_of_row (map row_of_op ops) = Ok ops.
Proof.
  induction ops as [|op ops IH]; intros H; [reflexivity|]. cbn [map each].
  rewrite op_inv by (apply H; left; reflexivity). cbn [bind]. rewrite IH by (intros; apply H; right; auto). reflexivity.
Qed.

Lemma block_inv local b : storable b -> exists w b', from_block local b = Ok w /\ w_id w = cid_text (d_cid b) /\
  (exists d n, w_repo w = Some d /\ w_seq w = Some n) /\ to_block w = Ok b' /\ comes_back local b b'.
Proof.
  intros (PC & (did & ND & RE) & (n & SQ) & OPS). unfold from_block. rewrite RE, SQ. destruct did as [|x did]; [congruence|].
  cbn [bind]. cbv zeta. eexists. eexists. split; [reflexivity|]. split; [reflexivity|]. split; [cbn; eauto|].
  unfold to_block. cbn [RowModel.w_ops RowModel.w_id RowModel.w_encoded RowModel.w_seq RowModel.w_created RowModel.w_repo].
  assert (E : each op_of_row (map row_of_op match d_ops b with Some l => l | None => [] end) = Ok match d_ops b with Some l => l | None => [] end).
  { apply ops_inv. destruct (d_ops b) as [l|]; [|intros op []]. intros op. apply OPS. reflexivity. }
  rewrite E, (text_inv _ PC). cbn [bind]. split; [reflexivity|]. unfold comes_back. cbn. splits; auto. congruence.
Qed.

Lemma read_row_of ws c w b : dget (cid_text c) ws = Some w -> to_block w = Ok b -> row_read ws c = Ok (Some b).
Proof. intros A B. unfold row_read. rewrite A, B. reflexivity. Qed.

(** One more block, that was not there. *)
Lemma keeps_more local ws bl b w b' : keeps local ws bl -> proper (d_cid b) -> w_id w = cid_text (d_cid b) -> to_block w = Ok b' ->
  comes_back local b b' -> dget (d_cid b) bl = None -> keeps local (dset (w_id w) w ws) (dsetdefault bl (d_cid b, b)).
Proof.
  intros K PC ID TB CB N c PR. unfold dsetdefault. cbn [fst snd]. rewrite N, dget_app.
  specialize (K c PR). unfold row_read in *. rewrite dget_dset, ID. cbn [dget].
  destruct (str_eqb_spec (cid_text c) (cid_text (d_cid b))) as [E|NE].
  - apply text_inj in E; auto. subst c. rewrite N, str_eqb_refl. rewrite TB. cbn. eauto.
  - destruct (str_eqb_spec c (d_cid b)) as [->|NE']; [congruence|]. destruct (dget c bl); auto.
Qed.

Lemma keeps_iff local ws bl c : keeps local ws bl -> proper c -> (dget (cid_text c) ws = None <-> dget c bl = None).
Proof.
  intros K PR. specialize (K c PR). unfold row_read in K. destruct (dget c bl).
  - destruct K as (b' & K & _). destruct (dget (cid_text c) ws); split; intros; congruence.
  - destruct (dget (cid_text c) ws) as [w|]; [|tauto]. destruct (to_block w); discriminate K.
Qed.

(** ** The storage *)

Lemma write_all local (ws0 : rows) bs : Forall storable bs -> forall ws bl, NoDup (map d_cid bs) -> keeps local ws bl ->
  (forall b, In b bs -> dget (cid_text (d_cid b)) ws0 = None <-> dget (cid_text (d_cid b)) ws = None) ->
  exists new ws', each (from_block local) (filter (fun b => match dget (cid_text (d_cid b)) ws0 with Some _ => false | None => true end) bs) = Ok new /\
    put_all ws new = Ok ws' /\ keeps local ws' (fold_left dsetdefault (map (fun b => (d_cid b, b)) bs) bl).
Proof.
  induction 1 as [|b bs SB FB IH]; intros ws bl ND K SAME.
  - exists [], ws. splits; auto.
  - inversion ND as [|? ? NI ND']; subst. cbn [filter map fold_left].
    assert (PC : proper (d_cid b)) by apply SB.
    pose proof (keeps_iff _ _ _ _ K PC) as KI. pose proof (SAME b (or_introl eq_refl)) as SM.
    destruct (dget (cid_text (d_cid b)) ws0) as [w0|].
    + destruct (dget (d_cid b) bl) as [b0|] eqn:DB.
      * unfold dsetdefault at 2. cbn [fst]. rewrite DB. apply IH; auto. intros x HX. apply SAME. right. exact HX.
      * exfalso. destruct KI as [_ KI], SM as [_ SM]. specialize (SM (KI eq_refl)). discriminate SM.
    + destruct (block_inv local b SB) as (w & b' & F1 & ID & (d & n & WR & WS) & TB & CB). cbn [each]. rewrite F1. cbn [bind].
      assert (DB : dget (d_cid b) bl = None) by tauto.
      pose proof (keeps_more _ _ _ _ _ _ K PC ID TB CB DB) as K1.
      destruct (IH _ _ ND' K1) as (new & ws' & E1 & E2 & E3).
      { intros x HX. rewrite (SAME x (or_intror HX)). rewrite dget_dset.
        destruct (str_eqb_spec (cid_text (d_cid x)) (w_id w)) as [E|NE]; [|tauto]. exfalso. rewrite ID in E. apply text_inj in E; auto.
        - apply NI. rewrite <- E. apply in_map. exact HX.
        - rewrite Forall_forall in FB. apply (FB x HX). }
      exists (w :: new), ws'. rewrite E1. cbn [bind]. splits; auto. cbn [put_all]. unfold put. rewrite WR, WS. cbn [bind]. exact E2.
Qed.

Lemma c67_write_blocks local ws bl bs : keeps local ws bl -> Forall storable bs -> NoDup (map d_cid bs) ->
  exists ws', row_write_blocks local ws bs = Ok ws' /\ keeps local ws' (fold_left dsetdefault (map (fun b => (d_cid b, b)) bs) bl).
Proof.
  intros K F ND. destruct (write_all local ws bs F ws bl ND K) as (new & ws' & E1 & E2 & E3); [tauto|].
  exists ws'. split; auto. unfold row_write_blocks. rewrite E1. exact E2.
Qed.

Lemma c67_write local digest ws bl now did data seq : keeps local ws bl -> (0 < seq)%Z -> did <> [] ->
  proper ([1; 113; 18; 32]%N ++ digest (dag_cbor_encode data)) ->
  let c := [1; 113; 18; 32]%N ++ digest (dag_cbor_encode data) in
  let b := DBlock c (dag_cbor_encode data) (Some seq) None (Moment now (Some 0%Z)) (Did did) in
  match dget c bl with
  | None => exists ws' b', row_write digest ws now did data seq = Ok (ws', b') /\ comes_back local b b' /\ keeps local ws' (dsetdefault bl (c, b))
  | Some old => forall n, d_seq old = Some n ->
      if (n <=? seq)%Z then exists b', row_write digest ws now did data seq = Ok (ws, b') /\ comes_back local old b'
      else row_write digest ws now did data seq = Err AssertionError
  end.
Proof.
  intros K SP ND PC c b. fold c in PC. unfold row_write. destruct (Z.ltb_spec 0 seq); [|lia]. cbn [negb]. cbv zeta. fold c.
  pose proof (K c PC) as KC. unfold row_read in KC.
  destruct (dget c bl) as [old|] eqn:DB.
  - destruct KC as (b' & KR & CB). destruct (dget (cid_text c) ws) as [w|]; [|discriminate KR].
    destruct (to_block w) as [x|] eqn:TB; cbn [bind] in KR; [|discriminate KR]. injection KR as ->. intros n SQ. cbn [bind].
    assert (WS : RowModel.w_seq w = Some n).
    { destruct CB as (_ & _ & CS & _). rewrite <- SQ, <- CS. unfold to_block in TB.
      destruct (each op_of_row (RowModel.w_ops w)); cbn [bind] in TB; [|discriminate TB].
      destruct (text_cid (RowModel.w_id w)); cbn [bind] in TB; [|discriminate TB]. injection TB as <-. reflexivity. }
    rewrite WS. destruct (n <=? seq)%Z; [|reflexivity]. exists b'. rewrite TB. auto.
  - destruct (dget (cid_text c) ws) as [w|]; [destruct (to_block w); discriminate KC|].
    destruct (block_inv local b) as (w & b' & F1 & ID & _ & TB & CB).
    { unfold storable. split; [exact PC|]. split; [exists did; auto|]. split; [exists seq; reflexivity|]. discriminate. }
    assert (E : w = Row (cid_text c) (Some did) (dag_cbor_encode data) (Some seq) [] now).
    { unfold from_block, b in F1. cbn [d_ops d_time d_repo d_cid d_encoded d_seq m_wall m_offset map] in F1. destruct did as [|x did]; [congruence|].
      cbn [bind] in F1. injection F1 as <-. f_equal. lia. }
    unfold put. cbn [RowModel.w_repo RowModel.w_seq bind]. rewrite Z.leb_refl.
    match goal with |- context [to_block ?x] => assert (EW : x = w) by (symmetry; exact E) end.
    rewrite EW, TB. cbn [bind].
    eexists _, b'. splits; [reflexivity|exact CB|]. exact (keeps_more local ws bl b w b' K PC ID TB CB DB).
Qed.
Lemma c67_unnumbered digest ws now did data seq : (seq <= 0)%Z -> row_write digest ws now did data seq = Err AssertionError.
Proof. intros L. unfold row_write. destruct (Z.ltb_spec 0 seq); [lia|reflexivity]. Qed.
