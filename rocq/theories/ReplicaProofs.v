(** Proofs about consumers of the firehose. *)
From Coq Require Import String List NArith ZArith Bool Lia Sorted.
From Verif Require Import Base Lists Ipld IpldProofs MstModel MstTree MstRep TidModel CarModel
  StorageModel StorageSpec CommitProofs StoreProofs RepoSpec RepoProofs RepoHist RepoSteps RepoFacts
  EventsModel EventsSpec EventsProofs EventsHist EventsFacts MessageModel MessageSpec MessageProofs ReplicaSpec.
Import ListNotations.

(** ** Heads *)

Section Heads.
Variable digest : list N -> list N.
Variable kdigest : str -> list N.
Variable validate : ipld -> res unit.
Variable ecdsa : N -> Z -> list N -> list N.
Variable now : Z -> str.
Variable be : backend.
Notation inv := (inv digest kdigest validate ecdsa be).
Notation effect := (effect digest kdigest validate ecdsa now be).
Notation stored_repo := (stored_repo be).

Definition moves (op : sop) (out : res sout) (did : str) : Prop :=
  match op, out with
  | SCreate d _ _ _ _, Ok _ => d = did
  | SCommit _ _, Ok (OutCommit cd) => commit_did cd = did
  | _, _ => False
  end.

Lemma head_kept st refs bk op st' refs' out did o b : inv st refs bk -> effect st refs bk op st' refs' out ->
  (be = Memory -> clean_step (World st refs) op out) -> dget did bk <> None -> stored_repo st did = Some o -> r_head o = Some b ->
  ~ moves op out did -> exists o', stored_repo st' did = Some o' /\ r_head o' = Some b.
Proof.
  intros I E CL B A2 A3 NM.
  assert (KEEP : ~ touches be (World st refs) op out did -> exists o', stored_repo st' did = Some o' /\ r_head o' = Some b).
  { intros NT. destruct (effect_untouched digest kdigest validate ecdsa now be _ _ _ _ _ _ _ did o I E CL) as (o' & HS' & SR & _); auto.
    exists o'. split; congruence. }
  assert (STAT : forall h x type extra, status_op op = Some (h, x, type, extra) -> exists o', stored_repo st' did = Some o' /\ r_head o' = Some b).
  { intros h x type extra SO. destruct out as [[]|].
    all: try (inversion E; subst; try discriminate SO; destruct (H _ eq_refl) as [X Y]; try discriminate X; destruct Y; subst; discriminate SO).
    2: apply KEEP; intros TT; destruct op; try discriminate SO; destruct TT.
    - destruct (handle_did (World st refs) h) as [d|] eqn:HD.
      + destruct (str_eqb_spec d did) as [ED|NE].
        * subst d. destruct (effect_status digest kdigest validate ecdsa now be _ _ _ _ _ _ _ _ _ _ _ _ _ I E SO eq_refl HD A2) as (AT & _).
          assert (DEC : attached_ref be (World st refs) did h \/ ~ attached_ref be (World st refs) did h).
          { unfold attached_ref. cbn. destruct be; [|left; discriminate]. destruct (nth_error refs h) as [r|].
            - destruct (dget did (s_mem st)) as [r'|].
              + destruct (Nat.eq_dec r r') as [->|NE]; [left; eauto|]. right. intros X. destruct (X eq_refl) as (? & ? & ?). congruence.
              + right. intros X. destruct (X eq_refl) as (? & ? & ?). congruence.
            - right. intros X. destruct (X eq_refl) as (? & ? & ?). congruence. }
          destruct DEC as [A|NA].
          -- exists (with_status x o). split; auto.
          -- apply KEEP; auto. intros TT. apply NA. destruct op; try discriminate SO; injection SO as <- <- <- <-; apply TT.
        * apply KEEP; auto. intros TT. destruct op; try discriminate SO; injection SO as <- <- <- <-; destruct TT; congruence.
      + apply KEEP; auto. intros TT. destruct op; try discriminate SO; injection SO as <- <- <- <-; destruct TT; congruence. }
  destruct op; try (eapply STAT; reflexivity); apply KEEP; try exact NM; auto.
Qed.
End Heads.

(** ** Ops *)

Section Ops.
Variable digest : list N -> list N.
Hypothesis inj : forall a b, digest a = digest b -> a = b.

(** The copy [r] has the records whose CIDs are in [d]. *)
Definition has_cids (r : records) (d : list (str * cid)) : Prop :=
  NoDup (keys r) /\ NoDup (keys d) /\ forall p, option_map (cid_of digest) (dget p r) = dget p d.

Lemma take_ops_ok bl ops shown : Forall2 op_shown ops shown -> forall r d d',
  (forall op c, In op ops -> op_action op <> DELETE -> op_cid op = Some c -> exists v, car_reader bl c = Some v /\ c = cid_of digest v) ->
  has_cids r d -> replay d ops = Some d' -> exists r', take_ops digest bl r shown = Some r' /\ has_cids r' d'.
Proof.
  induction 1 as [|op v ops shown S1 F IH]; intros r d d' BL (N1 & N2 & HC) RP; cbn [replay take_ops] in *.
  - injection RP as <-. exists r. split; auto. split; auto.
  - assert (BL' : forall op c, In op ops -> op_action op <> DELETE -> op_cid op = Some c -> exists v, car_reader bl c = Some v /\ c = cid_of digest v).
    { intros op' c HI. apply BL. right. exact HI. }
    assert (SET : forall p x, has_cids (dset p x r) (dset p (cid_of digest x) d)).
    { intros p x. split; [apply dset_NoDup, N1|]. split; [apply dset_NoDup, N2|]. intros q. rewrite !dget_dset. destruct (str_eqb q p); auto. }
    pose proof (HC (op_path op)) as HP. specialize (BL op).
    destruct S1 as (m & -> & PA & S1). unfold take_op. rewrite PA.
    destruct (op_action op) eqn:OA.
    + destruct S1 as (AC & PV & c & OC & CI). rewrite AC, CI. rewrite OC in RP.
      destruct (op_prev op); [discriminate RP|].
      destruct (dget (op_path op) d) as [?|]; [discriminate RP|]. destruct (dget (op_path op) r) as [?|]; [discriminate HP|].
      destruct (BL c) as (x & CR & ->); [left; reflexivity|discriminate|exact OC|]. rewrite CR. cbn. eapply IH; eauto.
    + destruct S1 as (AC & (c & OC & CI) & p & OP & PV). rewrite AC, CI, PV. rewrite OC, OP in RP.
      destruct (dget (op_path op) d) as [c0|]; [|discriminate RP]. destruct (dget (op_path op) r) as [old|]; [|discriminate HP].
      injection HP as <-. destruct (str_eqb p (cid_of digest old)); [|discriminate RP].
      destruct (BL c) as (x & CR & ->); [left; reflexivity|discriminate|exact OC|]. rewrite CR. cbn. eapply IH; eauto.
    + destruct S1 as (AC & CI & p & OP & PV). rewrite AC, CI, PV. rewrite OP in RP.
      destruct (op_cid op); [discriminate RP|].
      destruct (dget (op_path op) d) as [c0|]; [|discriminate RP]. destruct (dget (op_path op) r) as [old|]; [|discriminate HP].
      injection HP as <-. destruct (str_eqb p (cid_of digest old)); [|discriminate RP]. cbn. eapply IH; eauto.
      split; [apply ddel_NoDup, N1|]. split; [apply ddel_NoDup, N2|]. intros q. rewrite !dget_ddel by auto. destruct (str_eqb q (op_path op)); auto.
Qed.
End Ops.

(** ** One message *)

Section Message.
Variable digest : list N -> list N.
Variable kdigest : str -> list N.
Hypothesis inj : forall a b, digest a = digest b -> a = b.

Lemma take_commit st did bp c recs0 recs ops header payload cs d' :
  commit_message digest kdigest st did bp c recs header payload ->
  item_text (s "did") (b_val c) = Ok did ->
  b_ops c = Some ops -> NoDup (keys recs0) -> replay (cids_of digest recs0) ops = Some d' ->
  (forall k, dget k d' = dget k (cids_of digest recs)) ->
  (match bp with
   | Some p => exists cp, dget did cs = Some cp /\ item_link (s "data") (b_val p) = Ok (cp_root cp) /\ NoDup (keys (cp_recs cp)) /\
       forall p, dget p (cp_recs cp) = option_map norm (dget p recs0)
   | None => recs0 = []
   end) ->
  exists cp, take digest kdigest cs (header, payload) = Some (dset did cp cs) /\
    item_link (s "data") (b_val c) = Ok (cp_root cp) /\ NoDup (keys (cp_recs cp)) /\
    forall p, dget p (cp_recs cp) = option_map norm (dget p recs).
Proof.
  intros CM DI OPS ND RP ED BP.
  destruct CM as [_ T RE _ _ CO PV (ops' & shown & O1 & O2 & O3) (car & B1 & bl & root & ops2 & K1 & K2 & K3 & K4 & K5 & K6 & K7 & K8 & K9) _].
  rewrite OPS in O1, K4. injection O1 as <-. injection K4 as <-.
  unfold take. rewrite T. cbn [str_eqb negb]. rewrite str_eqb_refl. cbn [negb]. rewrite RE, CO, O2, B1, K1. rewrite str_eqb_refl. cbn [andb].
  assert (FB : forallb (fun kx => str_eqb (fst kx) ([1; 113; 18; 32]%N ++ digest (snd kx))) bl = true).
  { apply forallb_forall. intros [k x] HI. cbn [fst snd]. destruct (K5 k x) as (b & _ & -> & ->); [apply In_dget; auto|]. apply str_eqb_refl. }
  rewrite FB.
  assert (RD : forall k b, dget k bl = Some (encode (b_val b)) -> car_reader bl k = Some (b_val b)).
  { intros k b H. unfold car_reader. rewrite H. apply decode_encode_lemma. }
  rewrite (RD _ _ K6), DI, K3.
  assert (BC : exists r0, base_copy cs did (dget (s "prevData") payload) = Some r0 /\ NoDup (keys r0) /\
    forall p, dget p r0 = option_map norm (dget p recs0)).
  { destruct bp as [p|].
    - destruct BP as (cp & A1 & A2 & A3 & A4). destruct PV as (_ & _ & r & D1 & D2). rewrite A2 in D1. injection D1 as <-.
      exists (cp_recs cp). rewrite D2. cbn [base_copy]. rewrite A1, str_eqb_refl. auto.
    - destruct PV as (_ & D2). subst recs0. exists []. rewrite D2. split; [reflexivity|]. split; [constructor|reflexivity]. }
  destruct BC as (r0 & -> & N0 & E0).
  destruct (take_ops_ok digest bl ops shown O3 r0 (cids_of digest recs0) d') as (r' & -> & N1 & _ & E1); auto.
  { intros op k HI NDL HC. destruct (K8 op k HI NDL HC) as (b & _ & D). exists (b_val b). split; auto.
    destruct (K5 _ _ D) as (b' & _ & D1 & D2). apply encode_inj in D1. congruence. }
  { split; auto. split; [rewrite keys_cids_of; auto|]. intros p. rewrite E0, dget_cids_of. destruct (dget p recs0); reflexivity. }
  assert (E2 : forall p, option_map (cid_of digest) (dget p r') = option_map (fun v => cid_of digest (norm v)) (dget p recs)).
  { intros p. rewrite E1, ED, dget_cids_of. reflexivity. }
  rewrite str_eqb_refl. cbn [andb].
  assert (FP : forallb (proved digest kdigest bl root r') shown = true).
  { apply forallb_forall. intros v HV.
    assert (X : exists op, In op ops /\ op_shown op v).
    { clear - O3 HV. induction O3 as [|a b ops shown H F IH]; [destruct HV|]. destruct HV as [->|HV]; [exists a; cbn; auto|].
      destruct (IH HV) as (op & A & B). exists op. cbn. auto. }
    destruct X as (op & HO & m & -> & PA & _). unfold proved, item_text, item. rewrite PA. cbn [bind].
    rewrite (K9 op HO). specialize (E2 (op_path op)).
    destruct (dget (op_path op) r') as [x|], (dget (op_path op) recs) as [y|]; cbn in E2 |- *; try discriminate E2; auto.
    injection E2 as <-. apply str_eqb_refl. }
  rewrite FP. eexists. split; [reflexivity|]. cbn [cp_root cp_recs]. split; auto. split; auto.
  intros p. specialize (E2 p). destruct (dget p r') as [x|], (dget p recs) as [y|]; cbn in E2 |- *; try discriminate E2; auto.
  injection E2 as E2. f_equal. apply (cid_of_inj digest); [exact inj|]. unfold cid_of. cbn. congruence.
Qed.
End Message.

(** ** Histories *)

Section Hist.
Variable digest : list N -> list N.
Variable kdigest : str -> list N.
Variable validate : ipld -> res unit.
Variable ecdsa : N -> Z -> list N -> list N.
Variable now : Z -> str.
Variable cb : nat -> option exn.
Variable btime : block -> str.
Variable be : backend.
Notation inv := (inv digest kdigest validate ecdsa be).
Notation effect := (effect digest kdigest validate ecdsa now be).
Notation stored_repo := (stored_repo be).
Notation chain := (chain digest kdigest validate ecdsa).
Notation sstep := (sstep digest kdigest validate ecdsa now cb be).
Notation srun := (srun digest kdigest validate ecdsa now cb be).
Notation history := (history digest kdigest validate ecdsa now cb be).
Notation clean_from := (clean_from digest kdigest validate ecdsa now cb be).
Notation log_from := (log_from digest kdigest validate ecdsa now cb be).
Hypothesis SET : setting digest kdigest validate cb.
Hypothesis DL : forall x, length (digest x) = 32.

Definition messages (st : state) (items : list eitem) (msgs : list message_parts) : Prop :=
  Forall2 (fun i m => process_event btime st i None = Ok m) items msgs.

Lemma take_event st cs type n did extra : In (type, map fst extra)
    [(s "identity", [s "handle"]); (s "account", [s "active"]); (s "account", [s "active"; s "status"]);
     (s "tombstone", []); (s "sync", [s "blocks"; s "rev"])] ->
  exists m, process_event btime st (EEvent (event_value now type n did extra)) None = Ok m /\ take digest kdigest cs m = Some cs.
Proof.
  clear. intros H.
  assert (X : forall u : unit, match process_event btime st (EEvent (event_value now type n did extra)) None with
                        | Ok m => take digest kdigest cs m = Some cs | Err _ => False end -> 
    exists m, process_event btime st (EEvent (event_value now type n did extra)) None = Ok m /\ take digest kdigest cs m = Some cs).
  { intros _. destruct (process_event _ _ _ _) as [m|]; [eauto|contradiction]. }
  apply (X tt). clear X.
  destruct H as [H|[H|[H|[H|[H|[]]]]]]; apply pair_equal_spec in H as [<- H]; symmetry in H.
  - destruct extra as [|[k1 v1] [|]]; try discriminate H. injection H as ->. reflexivity.
  - destruct extra as [|[k1 v1] [|]]; try discriminate H. injection H as ->. reflexivity.
  - destruct extra as [|[k1 v1] [|[k2 v2] [|]]]; try discriminate H. injection H as -> ->. reflexivity.
  - destruct extra as [|]; try discriminate H. reflexivity.
  - destruct extra as [|[k1 v1] [|[k2 v2] [|]]]; try discriminate H. injection H as -> ->. reflexivity.
Qed.

Definition good_copy (st : state) (did : str) (recs : records) (cp : copy) : Prop :=
  exists o h, stored_repo st did = Some o /\ r_head o = Some h /\ item_link (s "data") (b_val h) = Ok (cp_root cp) /\
    NoDup (keys (cp_recs cp)) /\ forall p, dget p (cp_recs cp) = option_map norm (dget p recs).
Definition stored_copies (st : state) (bk : book) (cs : copies) : Prop :=
  forall did, match dget did bk with
  | Some (_, recs) => exists cp, dget did cs = Some cp /\ good_copy st did recs cp
  | None => dget did cs = None
  end.

Lemma copies_kept st refs bk op st' refs' out cs did key recs cp : inv st refs bk -> effect st refs bk op st' refs' out ->
  (be = Memory -> clean_step (World st refs) op out) -> ~ moves op out did -> dget did bk = Some (key, recs) ->
  dget did cs = Some cp -> good_copy st did recs cp -> good_copy st' did recs cp.
Proof.
  clear SET DL. intros I E CL NM B C (o & h & A1 & A2 & A3 & A4 & A5).
  destruct (head_kept digest kdigest validate ecdsa now be _ _ _ _ _ _ _ did o h I E CL) as (o' & X & Y); auto; [congruence|].
  exists o', h. auto.
Qed.

Lemma commit_did_item b did key prev root : commit_of ecdsa b did key prev root -> item_text (s "did") (b_val b) = Ok did.
Proof. intros C. destruct (commit_of_items ecdsa _ _ _ _ _ C) as (_ & X & _). unfold item_text. rewrite X. reflexivity. Qed.

Lemma one_commit st lg c c' did key prev root did' key' prev' root' : log_ok st lg -> read st (b_cid c) = Some c -> read st (b_cid c') = Some c' ->
  commit_of ecdsa c did key prev root -> commit_of ecdsa c' did' key' prev' root' -> b_seq c = b_seq c' -> c = c'.
Proof.
  clear SET DL. intros L R R' C C' S.
  assert (X : forall b d k p r, read st (b_cid b) = Some b -> commit_of ecdsa b d k p r -> In b lg).
  { intros b d k p r RB CB. destruct (commit_of_shape ecdsa _ _ _ _ _ CB) as (S1 & S2 & _).
    destruct (lo_part _ _ L _ _ RB) as (e & HI & _ & _ & [->|[_ [O1 O2]]]); [exact HI|congruence]. }
  pose proof (X _ _ _ _ _ R C) as H. pose proof (X _ _ _ _ _ R' C') as H'. clear - L H H' S. destruct L as [L _ _ _].
  induction L as [|x l SS IH F]; [destruct H|]. rewrite Forall_forall in F. destruct H as [->|H], H' as [->|H']; auto.
  - specialize (F _ H'). lia.
  - specialize (F _ H). lia.
Qed.

Lemma step_replica w bk op w1 out cs Wf lg items : inv (w_state w) (w_refs w) bk ->
  effect (w_state w) (w_refs w) bk op (w_state w1) (w_refs w1) out ->
  (be = Memory -> clean_step (World (w_state w) (w_refs w)) op out) -> extends (s_blocks (w_state w1)) (s_blocks Wf) ->
  log_ok Wf lg -> (forall c b, read Wf c = Some b -> b_cid b = c /\ c = cid_of digest (b_val b)) ->
  stored_copies (w_state w) bk cs -> Forall2 (entry_item ecdsa now Wf) items (log_entries w op out) ->
  exists msgs cs', messages Wf items msgs /\ take_all digest kdigest cs msgs = Some cs' /\
    stored_copies (w_state w1) (book_step bk op out) cs'.
Proof.
  intros I E CL EXF LG KS SC FI. pose proof SET as (_ & inj & _).
  pose proof (effect_extends digest kdigest validate ecdsa now be _ _ _ _ _ _ _ I E) as [EX _].
  assert (STAY : (forall did, ~ moves op out did) -> stored_copies (w_state w1) bk cs).
  { intros NM did. specialize (SC did). destruct (dget did bk) as [[key recs]|] eqn:B; auto.
    destruct SC as (cp & C1 & C2). exists cp. split; auto. eapply copies_kept; eauto. }
  assert (STAT : forall h x type extra, status_op op = Some (h, x, type, extra) ->
    exists msgs cs', messages Wf items msgs /\ take_all digest kdigest cs msgs = Some cs' /\
    stored_copies (w_state w1) (book_step bk op out) cs').
  { intros h x type extra SO. assert (ST : stored_copies (w_state w1) bk cs).
    { apply STAY. intros did M. destruct op; try discriminate SO; exact M. }
    assert (book_step bk op out = bk) as -> by (destruct op; try discriminate SO; reflexivity).
    assert (LE : log_entries w op out = [] \/ exists did, log_entries w op out = [LEvent (s_next (w_state w)) did type extra]).
    { unfold log_entries. destruct out as [v|]; [|destruct op; auto].
      destruct op; try discriminate SO; rewrite SO; destruct (handle_did w h) as [d|]; eauto. }
    destruct LE as [LE|[did LE]]; rewrite LE in FI.
    - inversion FI; subst. exists [], cs. split; [constructor|]. auto.
    - inversion FI as [|i ? ? ? EI FI']; subst. inversion FI'; subst. destruct i as [v|]; [|destruct EI]. cbn in EI. subst v.
      destruct (take_event Wf cs type (s_next (w_state w)) did extra) as (m & P & T).
      { destruct op; try discriminate SO; injection SO as <- <- <- <-; cbn; auto 6. }
      exists [m], cs. split; [constructor; [exact P|constructor]|]. split; [|exact ST]. cbn [take_all]. rewrite T. reflexivity. }
  assert (NONE : (forall did, ~ moves op out did) -> log_entries w op out = [] -> book_step bk op out = bk ->
    exists msgs cs', messages Wf items msgs /\ take_all digest kdigest cs msgs = Some cs' /\
    stored_copies (w_state w1) (book_step bk op out) cs').
  { intros NM LE BK. rewrite LE in FI. inversion FI; subst. rewrite BK. exists [], cs. split; [constructor|]. split; auto. }
  destruct op as [did handle status hc key|x|h k|h x|h ws|h|h|h]; try (eapply STAT; reflexivity).
  - destruct out as [out|e]; [|apply NONE; auto].
    destruct (effect_create digest kdigest validate ecdsa now be _ _ _ _ _ _ _ _ _ _ _ I E) as (cd & _ & _ & CR & _ & o & HS & HH & _).
    destruct (n_chain _ _ _ _ _ _ _ _ _ _ _ _ _ _ CR) as (root & CH & CO).
    pose proof (n_seq _ _ _ _ _ _ _ _ _ _ _ _ _ _ CR) as SQ.
    cbn [log_entries] in FI.
    inversion FI as [|i1 ? r1 ? E1 F1]; subst. inversion F1 as [|i2 ? r2 ? E2 F2]; subst. inversion F2 as [|i3 ? r3 ? E3 F3]; subst.
    inversion F3 as [|i4 ? r4 ? E4 F4]; subst. inversion F4; subst. clear FI F1 F2 F3 F4.
    destruct i1 as [|cd']; [destruct E1|]. destruct E1 as ((key' & root' & CO') & OP' & PV' & SQ' & RD' & CB').
    pose proof (chain_mono digest kdigest validate ecdsa _ _ _ _ _ _ _ EXF CH) as CHF.
    assert (RD : read Wf (b_cid (cd_commit cd)) = Some (cd_commit cd)) by exact (chain_read _ _ _ _ _ _ _ _ _ _ CHF).
    assert (EC : cd_commit cd = cd_commit cd') by (eapply one_commit; eauto; congruence).
    destruct cd' as [c' bs' pv']. cbn [cd_commit cd_blocks cd_prev] in *. subst c'.
    destruct (message_ok digest kdigest validate ecdsa btime DL Wf did key (cd_commit cd) root [] None None bs' None pv') as (hd & pl & P1 & CM); auto.
    { eapply log_commit; eauto. }
    destruct (take_commit digest kdigest inj Wf did None (cd_commit cd) [] [] [] hd pl cs []) as (cp & T1 & G1 & G2 & G3); auto.
    { eapply commit_did_item; eauto. }
    { constructor. }
    destruct i2 as [v2|]; [|destruct E2]. cbn in E2. subst v2.
    destruct (take_event Wf (dset did cp cs) (s "identity") (s_next (w_state w) + 1) did [(s "handle", opt_text handle)]) as (m2 & P2 & T2); [cbn; auto|].
    destruct i3 as [v3|]; [|destruct E3]. cbn in E3. subst v3.
    destruct (take_event Wf (dset did cp cs) (s "account") (s_next (w_state w) + 2) did [(s "active", IBool true)]) as (m3 & P3 & T3); [cbn; auto|].
    destruct i4 as [v4|]; [|destruct E4]. cbn [entry_item] in E4. destruct E4 as (c4 & rev4 & _ & _ & _ & _ & ->).
    destruct (take_event Wf (dset did cp cs) (s "sync") (s_next (w_state w) + 3) did
      [(s "blocks", IBytes (write_car [b_cid c4] [(b_cid c4, encode (b_val c4))])); (s "rev", IText rev4)]) as (m4 & P4 & T4); [cbn; auto 6|].
    exists [(hd, pl); m2; m3; m4], (dset did cp cs). split; [|split].
    + unfold messages. auto.
    + cbn [take_all]. rewrite T1, T2, T3, T4. reflexivity.
    + cbn [book_step]. intros d. rewrite !dget_dset. destruct (str_eqb_spec d did) as [->|NE].
      * exists cp. split; auto. exists o, (cd_commit cd). auto.
      * specialize (SC d). destruct (dget d bk) as [[k rc]|] eqn:B; auto. destruct SC as (cp' & C1 & C2). exists cp'. split; auto.
        eapply copies_kept; eauto; cbn; congruence.
  - apply NONE; auto. unfold log_entries. destruct out; reflexivity.
  - apply NONE; auto. unfold log_entries. destruct out; reflexivity.
  - apply NONE; auto. unfold log_entries. destruct out; reflexivity.
  - destruct out as [[| | |cd]|e]; try (apply NONE; auto; fail).
    destruct (effect_commit digest kdigest validate ecdsa now be _ _ _ _ _ _ _ _ I E) as (r0 & o0 & did & key0 & recs0 & key & recs & HR & HO & G & B1 & ST & CP & C & _).
    pose proof (committed_did digest kdigest validate ecdsa be _ _ _ _ _ _ _ _ _ C) as CD. cbn [log_entries book_step] in *. rewrite CD in *. rewrite B1.
    destruct (c_objs _ _ _ _ _ _ _ _ _ _ _ _ _ _ C) as (so & root & m' & HS & SN & CH & N0 & MS).
    destruct (c_prev _ _ _ _ _ _ _ _ _ _ _ _ _ _ C) as (o2 & hb & HS2 & HH & _ & root2 & CO).
    replace o2 with so in * by congruence.
    assert (root2 = root) as ->.
    { pose proof (commit_of_data _ _ _ _ _ _ CO) as X. pose proof (chain_data _ _ _ _ _ _ _ _ _ _ CH) as Y. congruence. }
    inversion FI as [|i1 ? r1 ? E1 F1]; subst. inversion F1; subst. clear FI F1.
    destruct i1 as [|cd']; [destruct E1|]. destruct E1 as (EC & PV & SQ & _ & CB). destruct cd' as [c' bs' pv']. cbn [cd_commit cd_blocks cd_prev] in *. subst c'.
    pose proof (chain_mono digest kdigest validate ecdsa _ _ _ _ _ _ _ EXF CH) as CHF.
    pose proof (SC (commit_did cd)) as SD. rewrite B1 in SD. destruct SD as (cp0 & Q1 & o3 & h3 & Q2 & Q3 & Q4 & Q5 & Q6).
    replace o3 with so in * by congruence. replace h3 with hb in * by congruence.
    destruct (i_book _ _ _ _ _ _ _ _ I _ _ _ B1) as (_ & _ & o4 & HS4 & (b4 & root4 & HH4 & CH4 & _) & _).
    replace o4 with so in * by congruence. replace b4 with hb in * by congruence.
    pose proof (chain_mono digest kdigest validate ecdsa _ _ _ _ _ _ _ (fun c b H => EXF c b (EX c b H)) CH4) as CH4F.
    destruct (message_ok digest kdigest validate ecdsa btime DL Wf (commit_did cd) key (cd_commit cd) root (apply_writes recs ws) (Some (b_cid hb)) (Some hb) bs' None (cd_prev cd))
      as (hd & pl & P1 & CM); auto.
    { eapply log_commit; eauto. exact (chain_read _ _ _ _ _ _ _ _ _ _ CHF). }
    { split; auto. split; [exact (chain_read _ _ _ _ _ _ _ _ _ _ CH4F)|]. inversion CH4; subst; eauto. }
    assert (ND : NoDup (keys recs)) by (eapply chain_keys; eauto).
    destruct (replay_ops digest validate ws recs ND) as (d' & RP & ED); [exact (proj1 CP)|].
    destruct (take_commit digest kdigest inj Wf (commit_did cd) (Some hb) (cd_commit cd) recs (apply_writes recs ws) (commit_ops digest recs ws) hd pl cs d')
      as (cp & T1 & G1 & G2 & G3); auto.
    { eapply commit_did_item; eauto. }
    { exact (c_ops _ _ _ _ _ _ _ _ _ _ _ _ _ _ C). }
    { exists cp0. auto. }
    exists [(hd, pl)], (dset (commit_did cd) cp cs). split; [|split].
    + unfold messages. constructor; [|constructor]. rewrite PV. exact P1.
    + cbn [take_all]. rewrite T1. reflexivity.
    + intros d. rewrite !dget_dset. destruct (str_eqb_spec d (commit_did cd)) as [->|NE].
      * exists cp. split; auto. unfold good_copy. destruct be; eexists _, (cd_commit cd); (split; [exact MS|]); auto.
      * specialize (SC d). destruct (dget d bk) as [[k rc]|] eqn:B; auto. destruct SC as (cp' & C1 & C2). exists cp'. split; auto.
        eapply copies_kept; eauto; cbn; congruence.
Qed.

Lemma run_next ops : forall w bk w' outs, inv (w_state w) (w_refs w) bk -> Forall op_named ops ->
  (be = Memory -> clean_from w ops) -> srun w ops = (w', outs) ->
  inv (w_state w') (w_refs w') (book_of bk ops outs) /\ extends (s_blocks (w_state w)) (s_blocks (w_state w')) /\
  (s_next (w_state w) <= s_next (w_state w'))%Z /\ forall e, In e (log_from w ops) -> (s_next (w_state w) <= entry_seq e)%Z.
Proof.
  induction ops as [|o ops IH]; intros w bk w' outs I F CL E.
  - injection E as <- <-. splits; auto; [intros c b H; exact H|lia|intros e []].
  - inversion F as [|? ? F1 F2]; subst. cbn [StorageModel.srun EventsSpec.log_from] in *.
    destruct (sstep w o) as [w1 out] eqn:S1.
    pose proof (step_eff digest kdigest validate ecdsa now cb be SET _ _ _ _ _ I F1 S1) as EF.
    assert (CS : be = Memory -> clean_step (World (w_state w) (w_refs w)) o out).
    { intros BE. specialize (CL BE). cbn [RepoSpec.clean_from] in CL. rewrite world_eta. rewrite S1 in CL. exact (proj1 CL). }
    assert (I1 : inv (w_state w1) (w_refs w1) (book_step bk o out)).
    { destruct SET as (K1 & K2 & K3 & K4). eapply (effect_inv digest kdigest validate ecdsa now cb be); eauto. }
    pose proof (effect_extends digest kdigest validate ecdsa now be _ _ _ _ _ _ _ I EF) as [EX NX].
    destruct (srun w1 ops) as [w2 outs2] eqn:S2. injection E as <- <-.
    destruct (IH w1 _ w2 outs2 I1 F2) as (A1 & A2 & A3 & A4); auto.
    { intros BE. specialize (CL BE). cbn [RepoSpec.clean_from] in CL. rewrite S1 in CL. exact (proj2 CL). }
    splits; auto; [intros c b H; auto|lia|].
    intros e HE. apply in_app_or in HE as [HE|HE]; [|specialize (A4 e HE); lia].
    clear - HE. unfold log_entries in HE. destruct o, out as [[]|]; cbn [status_op] in HE;
      repeat match type of HE with context [match ?x with _ => _ end] => destruct x end;
      cbn [In] in HE; repeat (destruct HE as [<-|HE]; [cbn [entry_seq]; lia|]); destruct HE.
Qed.

Lemma run_replica ops : forall w bk w' outs cs lg items, inv (w_state w) (w_refs w) bk -> Forall op_named ops ->
  (be = Memory -> clean_from w ops) -> srun w ops = (w', outs) -> forall Wf, extends (s_blocks (w_state w')) (s_blocks Wf) ->
  log_ok Wf lg -> (forall c b, read Wf c = Some b -> b_cid b = c /\ c = cid_of digest (b_val b)) ->
  stored_copies (w_state w) bk cs -> Forall2 (entry_item ecdsa now Wf) items (log_from w ops) ->
  exists msgs cs', messages Wf items msgs /\ take_all digest kdigest cs msgs = Some cs' /\
    stored_copies (w_state w') (book_of bk ops outs) cs'.
Proof.
  induction ops as [|o ops IH]; intros w bk w' outs cs lg items I F CL E Wf EXF LG KS SC FI.
  - injection E as <- <-. inversion FI; subst. exists [], cs. split; [constructor|]. auto.
  - inversion F as [|? ? F1 F2]; subst. cbn [StorageModel.srun EventsSpec.log_from] in *.
    destruct (sstep w o) as [w1 out] eqn:S1.
    pose proof (step_eff digest kdigest validate ecdsa now cb be SET _ _ _ _ _ I F1 S1) as EF.
    assert (CS : be = Memory -> clean_step (World (w_state w) (w_refs w)) o out).
    { intros BE. specialize (CL BE). cbn [RepoSpec.clean_from] in CL. rewrite world_eta. rewrite S1 in CL. exact (proj1 CL). }
    assert (CL1 : be = Memory -> clean_from w1 ops).
    { intros BE. specialize (CL BE). cbn [RepoSpec.clean_from] in CL. rewrite S1 in CL. exact (proj2 CL). }
    assert (I1 : inv (w_state w1) (w_refs w1) (book_step bk o out)).
    { destruct SET as (K1 & K2 & K3 & K4). eapply (effect_inv digest kdigest validate ecdsa now cb be); eauto. }
    destruct (srun w1 ops) as [w2 outs2] eqn:S2. injection E as <- <-.
    assert (EX1 : extends (s_blocks (w_state w1)) (s_blocks (w_state w2))) by (eapply run_next; eauto).
    apply Forall2_app_inv_r in FI as (i1 & i2 & FI1 & FI2 & ->).
    destruct (step_replica w bk o w1 out cs Wf lg i1 I EF CS) as (m1 & cs1 & M1 & T1 & SC1); auto.
    { intros c b H. auto. }
    destruct (IH w1 _ w2 outs2 cs1 lg i2 I1 F2 CL1 S2 Wf EXF LG KS SC1 FI2) as (m2 & cs2 & M2 & T2 & SC2).
    exists (m1 ++ m2), cs2. split; [apply Forall2_app; auto|]. split; [|exact SC2].
    clear - T1 T2. revert cs T1. induction m1 as [|m m1 IH]; intros cs T1; cbn in *; [congruence|].
    destruct (take digest kdigest cs m); [auto|discriminate].
Qed.

Lemma copied_stored w bk cs : inv (w_state w) (w_refs w) bk -> copied be (w_state w) bk cs <-> stored_copies (w_state w) bk cs.
Proof.
  intros I. split; intros C did; specialize (C did); destruct (dget did bk) as [[key recs]|] eqn:B; auto;
    destruct (seen_stored digest kdigest validate ecdsa cb be SET _ _ _ _ _ _ I B) as (o' & S1 & HS & _).
  - destruct C as (cp & o & h & A1 & A2 & A3 & A4 & A5 & A6). exists cp. split; auto. exists o, h. splits; auto. congruence.
  - destruct C as (cp & A1 & o & h & A2 & A3 & A4 & A5 & A6). exists cp, o, h. splits; auto. congruence.
Qed.

Lemma log_app a : forall b w w1 outs, srun w a = (w1, outs) -> log_from w (a ++ b) = log_from w a ++ log_from w1 b.
Proof.
  clear. induction a as [|o a IH]; intros b w w1 outs E; cbn [app EventsSpec.log_from StorageModel.srun] in *.
  - injection E as <- _. reflexivity.
  - destruct (sstep w o) as [w2 out]. destruct (srun w2 a) as [w3 outs'] eqn:E2. injection E as <- _.
    rewrite (IH b _ _ _ E2). apply app_assoc.
Qed.

Lemma book_app a : forall b w w1 outs outs' bk, srun w a = (w1, outs) -> book_of bk (a ++ b) (outs ++ outs') = book_of (book_of bk a outs) b outs'.
Proof.
  clear. induction a as [|o a IH]; intros b w w1 outs outs' bk E; cbn [app StorageModel.srun] in *.
  - injection E as _ <-. reflexivity.
  - destruct (sstep w o) as [w2 out]. destruct (srun w2 a) as [w3 outs2] eqn:E2. injection E as _ <-. cbn. eapply IH; eauto.
Qed.

Lemma replica_resumes ops1 ops2 w1 outs1 w outs cs items : history ops1 w1 outs1 -> history (ops1 ++ ops2) w outs ->
  copied be (w_state w1) (book_of [] ops1 outs1) cs ->
  Forall2 (entry_item ecdsa now (w_state w)) items (filter (entry_selected (s_next (w_state w1)) None) (log_from init_world (ops1 ++ ops2))) ->
  exists msgs cs', messages (w_state w) items msgs /\ take_all digest kdigest cs msgs = Some cs' /\
    copied be (w_state w) (book_of [] (ops1 ++ ops2) outs) cs'.
Proof.
  intros H1 H C FI. pose proof H1 as (R1 & F1 & CL1). pose proof H as (R & F & CL).
  destruct (hist_facts digest kdigest validate ecdsa now cb be SET _ _ _ H1) as [I1 _].
  destruct (hist_facts digest kdigest validate ecdsa now cb be SET _ _ _ H) as [I _].
  destruct (hist_log digest kdigest validate ecdsa now cb be SET _ _ _ H) as (lg & LG & _).
  destruct (srun w1 ops2) as [w2 outs2] eqn:R2.
  pose proof (srun_app digest kdigest validate ecdsa now cb be ops1 ops2 _ _ _ R1) as RA. rewrite R2 in RA. rewrite R in RA. injection RA as -> ->.
  apply Forall_app in F as [_ F2].
  assert (CL2 : be = Memory -> clean_from w1 ops2).
  { intros BE. specialize (CL BE). apply clean_app in CL as [_ CL]. rewrite R1 in CL. exact CL. }
  destruct (run_next _ _ _ _ _ I1 F2 CL2 R2) as (_ & _ & _ & GE).
  destruct (c25_sorted digest kdigest validate ecdsa now cb be SET _ _ _ H1) as [_ LT].
  rewrite (log_app _ _ _ _ _ R1) in FI. rewrite filter_app in FI.
  assert (X1 : filter (entry_selected (s_next (w_state w1)) None) (log_from init_world ops1) = []).
  { clear - LT. induction (log_from init_world ops1) as [|e l IH]; auto. cbn [filter].
    destruct (LT e) as [_ X]; [left; reflexivity|]. unfold entry_selected at 1. destruct (Z.leb_spec (s_next (w_state w1)) (entry_seq e)); [lia|].
    cbn [andb]. apply IH. intros e' HE. apply LT. right. exact HE. }
  assert (X2 : filter (entry_selected (s_next (w_state w1)) None) (log_from w1 ops2) = log_from w1 ops2).
  { clear - GE. induction (log_from w1 ops2) as [|e l IH]; auto. cbn [filter].
    assert (X : (s_next (w_state w1) <= entry_seq e)%Z) by (apply GE; left; reflexivity). unfold entry_selected at 1.
    destruct (Z.leb_spec (s_next (w_state w1)) (entry_seq e)); [|lia]. cbn [andb]. f_equal. apply IH. intros e' HE. apply GE. right. exact HE. }
  rewrite X1, X2 in FI. cbn [app] in FI.
  destruct (run_replica ops2 w1 (book_of [] ops1 outs1) w2 outs2 cs lg items I1 F2 CL2 R2 (w_state w2)) as (msgs & cs' & A & B & D); auto.
  - intros c b X. exact X.
  - intros c b X. destruct (so_block _ _ _ _ (i_store _ _ _ _ _ _ _ _ I) _ _ X) as (K1 & K2 & _). auto.
  - apply copied_stored; auto.
  - exists msgs, cs'. splits; auto. rewrite (book_app _ _ _ _ _ _ _ R1). apply copied_stored; auto.
    rewrite <- (book_app _ _ _ _ _ _ _ R1). exact I.
Qed.
End Hist.

(** ** Both storages *)

Section Storages.
Variable digest : list N -> list N.
Variable kdigest : str -> list N.
Variable validate : ipld -> res unit.
Variable ecdsa : N -> Z -> list N -> list N.
Variable now : Z -> str.
Variable cb : nat -> option exn.
Variable btime : block -> str.

Lemma next_pos be ops w outs : setting digest kdigest validate cb -> history digest kdigest validate ecdsa now cb be ops w outs ->
  (0 <= s_next (w_state w))%Z.
Proof.
  intros SET (R & F & CL). destruct (run_next digest kdigest validate ecdsa now cb be SET ops init_world [] w outs) as (_ & _ & X & _); auto.
  - exact (init_inv digest kdigest validate ecdsa be).
  - cbn in X. lia.
Qed.

Lemma c66_memory ops1 ops2 w1 outs1 w outs cs : setting digest kdigest validate cb -> (forall x, length (digest x) = 32) ->
  history digest kdigest validate ecdsa now cb Memory ops1 w1 outs1 ->
  history digest kdigest validate ecdsa now cb Memory (ops1 ++ ops2) w outs ->
  copied Memory (w_state w1) (book_of [] ops1 outs1) cs ->
  exists items msgs cs', read_events (w_state w) (mem_blocks_by_seq (w_state w) (s_next (w_state w1)) None) = (items, None) /\
    Forall2 (fun i m => process_event btime (w_state w) i None = Ok m) items msgs /\
    take_all digest kdigest cs msgs = Some cs' /\ copied Memory (w_state w) (book_of [] (ops1 ++ ops2) outs) cs'.
Proof.
  intros SET DL H1 H C.
  destruct (c25_memory digest kdigest validate ecdsa now cb (ops1 ++ ops2) w outs (s_next (w_state w1)) None SET H (next_pos _ _ _ _ SET H1)) as (items & R & F).
  destruct (replica_resumes digest kdigest validate ecdsa now cb btime Memory SET DL _ _ _ _ _ _ _ _ H1 H C F) as (msgs & cs' & X).
  exists items, msgs, cs'. split; [exact R|exact X].
Qed.

Lemma c66_datastore ops1 ops2 w1 outs1 w outs cs query fails : setting digest kdigest validate cb -> (forall x, length (digest x) = 32) ->
  history digest kdigest validate ecdsa now cb Datastore ops1 w1 outs1 ->
  history digest kdigest validate ecdsa now cb Datastore (ops1 ++ ops2) w outs ->
  (forall i cur, enumerates (w_state w) cur None (query i cur)) ->
  copied Datastore (w_state w1) (book_of [] ops1 outs1) cs ->
  exists items msgs cs', read_events (w_state w) (scan query fails (s_next (w_state w1))) = (items, None) /\
    Forall2 (fun i m => process_event btime (w_state w) i None = Ok m) items msgs /\
    take_all digest kdigest cs msgs = Some cs' /\ copied Datastore (w_state w) (book_of [] (ops1 ++ ops2) outs) cs'.
Proof.
  intros SET DL H1 H Q C.
  destruct (c25_datastore digest kdigest validate ecdsa now cb (ops1 ++ ops2) w outs (s_next (w_state w1)) None query fails SET H (next_pos _ _ _ _ SET H1) Q) as (items & R & F).
  destruct (replica_resumes digest kdigest validate ecdsa now cb btime Datastore SET DL _ _ _ _ _ _ _ _ H1 H C F) as (msgs & cs' & X).
  exists items, msgs, cs'. split; [exact R|exact X].
Qed.

Lemma c66_start be : history digest kdigest validate ecdsa now cb be [] init_world [] /\ copied be (w_state init_world) [] [].
Proof. split; [split; [reflexivity|]; split; [constructor|reflexivity]|]. intros did. reflexivity. Qed.
End Storages.
