(** Histories in which processes die. *)
From Coq Require Import String List NArith ZArith Bool Lia Sorted.
From Coq Require Import ZifyBool ZifyNat ZifyN.
From Verif Require Import Base Lists Ipld IpldProofs MstModel MstTree MstTreeProofs MstRep MstTrav
  MstClient MstSpec MstHist MstFacts TidModel TidProofs BlockModel BlockSpec
  CarModel StorageModel StorageSpec CommitProofs StoreProofs ExecProofs RepoSpec RepoProofs RepoHist RepoSteps RepoFacts TellProofs CrashModel CrashSpec CrashProofs.
Import ListNotations.

Section Facts.
Variable digest : list N -> list N.
Variable kdigest : str -> list N.
Variable validate : ipld -> res unit.
Variable ecdsa : N -> Z -> list N -> list N.
Variable now : Z -> str.
Variable cb : nat -> option exn.
Notation inv := (inv digest kdigest validate ecdsa Datastore).
Notation good := (good digest kdigest validate ecdsa).
Notation effect := (effect digest kdigest validate ecdsa now Datastore).
Notation sstep := (sstep digest kdigest validate ecdsa now cb Datastore).
Notation cut := (cut digest kdigest validate ecdsa now cb).
Notation crash := (crash digest kdigest validate ecdsa now cb).
Notation take_turn := (take_turn digest kdigest validate ecdsa now cb).
Notation turns := (turns digest kdigest validate ecdsa now cb).
Notation turn_book := (turn_book digest kdigest validate ecdsa now cb).
Notation turns_book := (turns_book digest kdigest validate ecdsa now cb).
Hypothesis SET : setting digest kdigest validate cb.
Let klen := s_klen digest kdigest validate cb SET.
Let inj := s_inj digest kdigest validate cb SET.
Let valid_plain := s_plain digest kdigest validate cb SET.
Let quiet := s_quiet digest kdigest validate cb SET.

Lemma step_inv w bk op w' out : inv (w_state w) (w_refs w) bk -> op_named op -> sstep w op = (w', out) ->
  inv (w_state w') (w_refs w') (book_step bk op out) /\ effect (w_state w) (w_refs w) bk op (w_state w') (w_refs w') out /\
  extends (s_blocks (w_state w)) (s_blocks (w_state w')) /\ (s_next (w_state w) <= s_next (w_state w'))%Z.
Proof.
  intros I ON E. pose proof (step_eff digest kdigest validate ecdsa now cb Datastore SET w bk op w' out I ON E) as EF.
  pose proof (effect_extends digest kdigest validate ecdsa now Datastore _ _ _ _ _ _ _ I EF) as [EX LE].
  splits; auto. eapply (effect_inv digest kdigest validate ecdsa now cb Datastore klen inj quiet); eauto. discriminate.
Qed.

(** Cut before it happens. *)
Lemma cut_before w bk op k : inv (w_state w) (w_refs w) bk -> op_named op -> k < decisive op -> fine digest kdigest (w_state w) (cut w op k).
Proof.
  intros I ON LT. pose proof (fine_same _ _ _ _ _ _ _ I) as FS. destruct op as [did handle status hc key|x|h key|h x|h ws|h|h|h]; cbn [decisive] in LT; unfold CrashModel.cut.
  - destruct ON. eapply create_cut; eauto.
  - exact FS.
  - exact FS.
  - exact FS.
  - destruct (nth_error (w_refs w) h) as [r|] eqn:HR; [|exact FS]. destruct k as [|[|[|k]]]; [exact FS|exact (fine_alloc _ _ _ _ FS)| |lia].
    unfold commit_until. destruct (commit_same digest kdigest validate ecdsa cb r ws (w_state w)) as (B & N & E).
    destruct (sstep w (SCommit h ws)) as [w' out] eqn:S1. destruct (step_inv w bk (SCommit h ws) w' out I Logic.I S1) as (I' & _ & EX & LE).
    assert (W' : w_state w' = fst (commit digest kdigest validate ecdsa cb Datastore r ws None (w_state w))).
    { unfold StorageModel.sstep, on_ref in S1. rewrite HR in S1. unfold bindM in S1. destruct (commit digest kdigest validate ecdsa cb Datastore r ws None (w_state w)) as [st1 [cd|e]]; injection S1 as <- _; reflexivity. }
    rewrite <- W' in *. unfold fine. rewrite B, N, E. splits; auto. exact (i_store _ _ _ _ _ _ _ _ I').
  - assert (k = 0) as -> by lia. destruct (nth_error (w_refs w) h); exact FS.
  - assert (k = 0) as -> by lia. destruct (nth_error (w_refs w) h); exact FS.
  - assert (k = 0) as -> by lia. destruct (nth_error (w_refs w) h); exact FS.
Qed.

(** Cut after it happened. *)
Definition after_all (bk' : book) (c st' : state) : Prop := (exists refs, inv c refs bk') /\ s_ents c = s_ents st' /\ extends (s_blocks c) (s_blocks st').
Lemma after_same refs bk' st' : inv st' refs bk' -> after_all bk' st' st'.
Proof. intros I. split; [eauto|]. split; [reflexivity|apply extends_refl]. Qed.

Lemma run_same (m : M unit) (st : state) refs w' out : (let '(st', y) := bindM m (fun _ => ret OutDone) st in (World st' refs, y)) = (w', out) -> w_state w' = fst (m st).
Proof. unfold bindM. destruct (m st) as [st1 [a|e]]; intros [= <- _]; reflexivity. Qed.

Lemma status_cut w bk op h x type extra k w' out : status_op op = Some (h, x, type, extra) -> inv (w_state w) (w_refs w) bk -> sstep w op = (w', out) -> 1 <= k ->
  (forall r, nth_error (w_refs w) h = Some r -> w_state w' = fst (status_until digest now cb 3 r x type extra (w_state w))) ->
  after_all (book_step bk op out) (match nth_error (w_refs w) h with Some r => fst (status_until digest now cb k r x type extra (w_state w)) | None => w_state w end) (w_state w').
Proof.
  intros SO I E LE EQ. assert (ON : op_named op) by (destruct op; try discriminate SO; exact Logic.I). destruct (step_inv w bk op w' out I ON E) as (I' & EF & EX & _).
  assert (BK : book_step bk op out = bk) by (destruct op; try discriminate SO; destruct out as [[]|]; reflexivity). rewrite BK in *.
  assert (RF : op_ref op = Some h) by (destruct op; try discriminate SO; injection SO as -> _ _ _; reflexivity).
  inversion EF; subst; try discriminate SO.
  - match goal with H : forall h, op_ref op = Some h -> _ |- _ => rewrite (H h RF) end. apply (after_same (w_refs w)). exact I.
  - match goal with H : status_op op = Some (?h', ?x', ?t', ?e') |- _ => rewrite SO in H; injection H as <- <- <- <- end.
    match goal with H : nth_error (w_refs w) h = Some _ |- _ => rewrite H in *; rename H into HR end. specialize (EQ _ eq_refl).
    match goal with HO : nth_error (s_objs (w_state w)) r0 = Some o0, G : good _ _ _ _ o0 |- _ => destruct (good_head _ _ _ _ _ _ _ _ _ G) as (hd & HH & HD);
      destruct (status_facts digest kdigest validate ecdsa Datastore _ _ bk r0 o0 did key recs x I HO G ltac:(assumption)) as (I1 & N1 & B1 & _) end.
    assert (RG : registered Datastore (w_state w) did).
    { destruct (dget did bk) as [[k2 r2]|] eqn:B; [|congruence]. exact (proj1 (proj2 (i_book _ _ _ _ _ _ _ _ I _ _ _ B))). }
    match goal with HO : nth_error (s_objs (w_state w)) r0 = Some o0 |- _ => pose proof (status_exec Datastore _ _ _ _ _ x HO HH HD RG) as SE end.
    assert (EE : s_ents (w_state w') = s_ents (status_set Datastore (w_state w) r0 o0 did x)).
    { match goal with H : after_event _ _ _ = w_state w' |- _ => rewrite <- H | H : w_state w' = after_event _ _ _ |- _ => rewrite H end.
      match goal with |- s_ents (after_event ?a ?b ?c) = _ => destruct (after_event_facts a b c) as (_ & _ & _ & _ & X & _); exact X end. }
    assert (C1 : after_all bk (status_set Datastore (w_state w) r0 o0 did x) (w_state w')).
    { split; [eauto|]. split; [symmetry; exact EE|]. rewrite B1. exact EX. }
    match goal with H : after_event _ _ _ = w_state w' |- _ => rewrite ?H end.
    destruct k as [|[|[|k]]]; [lia| | |].
    + unfold status_until. rewrite (bindM_ok _ _ _ _ _ SE). exact C1.
    + unfold status_until. rewrite (bindM_ok _ _ _ _ _ SE). destruct C1 as ((refs1 & J) & C2 & C3).
      change (after_all bk (alloc (status_set Datastore (w_state w) r0 o0 did x)) (w_state w')). split; [|split; [exact C2|exact C3]]. exists refs1.
      eapply inv_frame; [exact J|change (s_next (alloc ?s)) with (s_next s + 1)%Z; apply Z.le_succ_diag_r|exact (store_ok_le _ _ _ _ _ (Z.le_succ_diag_r _) (i_store _ _ _ _ _ _ _ _ J))|apply extends_refl|reflexivity|reflexivity|auto].
    + change (status_until digest now cb (S (S (S k))) r0 x type extra) with (status_until digest now cb 3 r0 x type extra). rewrite <- EQ. apply (after_same (w_refs w')). exact I'.
Qed.

Lemma cut_after w bk op k w' out : inv (w_state w) (w_refs w) bk -> op_named op -> sstep w op = (w', out) -> decisive op <= k -> after_all (book_step bk op out) (cut w op k) (w_state w').
Proof.
  intros I ON E LE. destruct (step_inv w bk op w' out I ON E) as (I' & EF & EX & _).
  assert (SAME : w_state w' = cut w op k -> after_all (book_step bk op out) (cut w op k) (w_state w')).
  { intros <-. apply (after_same (w_refs w')). exact I'. }
  assert (QUIET : cut w op k = w_state w -> book_step bk op out = bk -> s_ents (w_state w') = s_ents (w_state w) -> after_all (book_step bk op out) (cut w op k) (w_state w')).
  { intros -> BK EE. rewrite BK. split; [eauto|]. split; [symmetry; exact EE|exact EX]. }
  destruct op as [did handle status hc key|x|h key|h x|h ws|h|h|h]; cbn [decisive] in LE.
  - apply SAME. unfold CrashModel.cut, create_until. replace (Nat.leb 9 k) with true by (symmetry; apply Nat.leb_le; exact LE).
    unfold StorageModel.sstep, on_new, bindM in E. unfold bindM. cbv zeta. destruct (repo_create digest kdigest validate ecdsa now cb Datastore did handle status hc key (w_state w)) as [st1 [r|e]]; injection E as <- _; reflexivity.
  - apply QUIET; [reflexivity|destruct out as [[]|]; reflexivity|].
    unfold StorageModel.sstep, on_new in E. pose proof (keeps_load x (w_state w)) as K. destruct (load_repo Datastore x (w_state w)) as [st1 [[r|]|e]]; injection E as <- _; exact K.
  - apply QUIET; [reflexivity|destruct out as [[]|]; reflexivity|]. inversion EF; subst; try discriminate; reflexivity.
  - apply QUIET; [reflexivity|destruct out as [[]|]; reflexivity|]. inversion EF; subst; try discriminate; reflexivity.
  - apply SAME. unfold CrashModel.cut. unfold StorageModel.sstep, on_ref in E. destruct (nth_error (w_refs w) h) as [r|]; [|injection E as <- _; reflexivity].
    destruct k as [|[|[|k]]]; [lia..|]. unfold commit_until, bindM. unfold bindM in E.
    destruct (commit digest kdigest validate ecdsa cb Datastore r ws None (w_state w)) as [st1 [cd|e]]; injection E as <- _; reflexivity.
  - eapply (status_cut w bk (SDeactivate h)); [reflexivity|exact I|exact E|exact LE|]. intros r HR. unfold StorageModel.sstep, on_ref in E. rewrite HR in E.
    unfold deactivate_repo in E. unfold status_until. revert E. apply run_same.
  - eapply (status_cut w bk (SActivate h)); [reflexivity|exact I|exact E|exact LE|]. intros r HR. unfold StorageModel.sstep, on_ref in E. rewrite HR in E.
    unfold activate_repo in E. unfold status_until. revert E. apply run_same.
  - eapply (status_cut w bk (STombstone h)); [reflexivity|exact I|exact E|exact LE|]. intros r HR. unfold StorageModel.sstep, on_ref in E. rewrite HR in E.
    unfold tombstone_repo in E. unfold status_until. revert E. apply run_same.
Qed.

(** No block is lost. *)
Lemma cut_extends w bk op k : inv (w_state w) (w_refs w) bk -> op_named op -> extends (s_blocks (w_state w)) (s_blocks (cut w op k)).
Proof.
  intros I ON. destruct (Nat.leb (decisive op) k) eqn:LE.
  - apply Nat.leb_le in LE. destruct (sstep w op) as [w' out] eqn:E. destruct (step_inv w bk op w' out I ON E) as (_ & _ & EX & _).
    assert (ST : forall h x type extra, status_op op = Some (h, x, type, extra) -> extends (s_blocks (w_state w)) (s_blocks (match nth_error (w_refs w) h with Some r => fst (status_until digest now cb k r x type extra (w_state w)) | None => w_state w end))).
    { intros h x type extra SO. destruct (nth_error (w_refs w) h) as [r|]; [|apply extends_refl]. unfold status_until. destruct k as [|k]; [apply extends_refl|].
      unfold bindM at 1. destruct (front_status Datastore r x (w_state w)) as [B _]. destruct (set_repo_status Datastore r x (w_state w)) as [st1 [[]|e]]; cbn [fst] in *; [|rewrite B; apply extends_refl].
      rewrite <- B. destruct k as [|[|k]]; [apply extends_refl..|]. unfold bindM. pose proof (grow_event digest now cb r type extra st1) as G. destruct (write_event digest now cb Datastore r type extra st1) as [st2 [b|e]]; exact G. }
    destruct op as [did handle status hc key|x|h key|h x|h ws|h|h|h]; cbn [decisive] in LE.
    + unfold CrashModel.cut, create_until. replace (Nat.leb 9 k) with true by (symmetry; apply Nat.leb_le; exact LE).
      unfold StorageModel.sstep, on_new, bindM in E. unfold bindM. cbv zeta. destruct (repo_create digest kdigest validate ecdsa now cb Datastore did handle status hc key (w_state w)) as [st1 [r|e]]; injection E as <- _; exact EX.
    + apply extends_refl.
    + apply extends_refl.
    + apply extends_refl.
    + unfold CrashModel.cut. unfold StorageModel.sstep, on_ref in E. destruct (nth_error (w_refs w) h) as [r|]; [|injection E as <- _; exact EX].
      destruct k as [|[|[|k]]]; [lia..|]. unfold commit_until, bindM. unfold bindM in E.
      destruct (commit digest kdigest validate ecdsa cb Datastore r ws None (w_state w)) as [st1 [cd|e]]; injection E as <- _; exact EX.
    + apply (ST h (Some (s "deactivated")) (s "account") _ eq_refl).
    + apply (ST h None (s "account") _ eq_refl).
    + apply (ST h (Some (s "tombstoned")) (s "tombstone") _ eq_refl).
  - apply Nat.leb_gt in LE. apply (cut_before w bk op k I ON LE).
Qed.
Lemma turn_inv w bk t : inv (w_state w) (w_refs w) bk -> turn_ok t -> inv (w_state (take_turn w t)) (w_refs (take_turn w t)) (turn_book bk w t).
Proof.
  intros I ON. destruct t as [op|op k lost]; cbn [CrashSpec.take_turn CrashSpec.turn_book]; unfold turn_ok in ON; cbn [turn_op] in ON; destruct (sstep w op) as [w' out] eqn:E; cbn [fst snd].
  - exact (proj1 (step_inv w bk op w' out I ON E)).
  - unfold CrashModel.crash. cbn [w_state w_refs]. destruct (Nat.leb (decisive op) k) eqn:LE.
    + apply Nat.leb_le in LE. destruct (cut_after w bk op k w' out I ON E LE) as ((refs & J) & _). eapply (reboot_inv _ _ _ _ cb). exact J.
    + apply Nat.leb_gt in LE. eapply (fine_inv _ _ _ _ cb); [exact I|]. apply (cut_before w bk op k I ON LE).
Qed.
Lemma turns_from l : forall w bk, inv (w_state w) (w_refs w) bk -> Forall turn_ok l ->
  inv (w_state (fold_left take_turn l w)) (w_refs (fold_left take_turn l w)) (turns_book bk w l).
Proof.
  induction l as [|t l IH]; intros w bk I F; [exact I|]. inversion F as [|? ? F1 F2]; subst. cbn [fold_left CrashSpec.turns_book]. apply IH; [|exact F2]. apply turn_inv; assumption.
Qed.
Lemma turns_inv l : Forall turn_ok l -> inv (w_state (turns l)) (w_refs (turns l)) (turns_book [] init_world l).
Proof. intros F. apply turns_from; [apply init_inv|exact F]. Qed.

Lemma turn_keeps l t c b : Forall turn_ok (l ++ [t]) -> read (w_state (turns l)) c = Some b -> read (w_state (turns (l ++ [t]))) c = Some b.
Proof.
  intros F R. apply Forall_app in F as [F ON]. inversion ON as [|? ? O1 _]; subst. pose proof (turns_inv l F) as I. unfold CrashSpec.turns. rewrite fold_left_app. cbn [fold_left].
  change (fold_left take_turn l init_world) with (turns l). set (w := turns l) in *. clearbody w. destruct t as [op|op k lost]; cbn [CrashSpec.take_turn].
  - destruct (sstep w op) as [w' out] eqn:E. destruct (step_inv w _ op w' out I O1 E) as (_ & _ & EX & _). exact (EX _ _ R).
  - exact (cut_extends w _ op k I O1 _ _ R).
Qed.

Lemma crash_atomic l op k lost did : Forall turn_ok l -> op_named op -> is_did did ->
  seen Datastore (w_state (crash (turns l) op k lost)) did = seen Datastore (w_state (if Nat.leb (decisive op) k then fst (sstep (turns l) op) else turns l)) did.
Proof.
  intros F ON ID. pose proof (turns_inv l F) as I. set (w := turns l) in *. set (bk := turns_book [] init_world l) in *. clearbody w bk.
  destruct (sstep w op) as [w' out] eqn:E. cbn [fst]. destruct (step_inv w bk op w' out I ON E) as (I' & _).
  unfold CrashModel.crash. cbn [w_state]. destruct (Nat.leb (decisive op) k) eqn:LE.
  - apply Nat.leb_le in LE. destruct (cut_after w bk op k w' out I ON E LE) as ((refs & J) & EE & EX). symmetry.
    eapply (seen_ents digest kdigest validate ecdsa (reboot lost (cut w op k)) [] _ (w_state w')); [exact inj|eapply (reboot_inv _ _ _ _ cb); exact J|exact I'|exact EX|symmetry; exact EE|exact ID].
  - apply Nat.leb_gt in LE. pose proof (cut_before w bk op k I ON LE) as FI. pose proof FI as (_ & _ & EX & EE).
    eapply (seen_ents digest kdigest validate ecdsa (w_state w)); [exact inj|exact I|eapply (fine_inv _ _ _ _ cb); [exact I|exact FI]|exact EX|exact EE|exact ID].
Qed.

Lemma crash_records l did key recs : Forall turn_ok l -> dget did (turns_book [] init_world l) = Some (key, recs) ->
  exists o, seen Datastore (w_state (turns l)) did = Some o /\ shows kdigest (w_state (turns l)) o recs /\ r_key o = key.
Proof.
  intros F B. pose proof (turns_inv l F) as I. destruct (seen_stored digest kdigest validate ecdsa cb Datastore SET _ _ _ _ _ _ I B) as (o & S1 & _ & G & K). exists o. splits; auto.
  eapply good_shows; eauto.
Qed.
Lemma crash_none l did : Forall turn_ok l -> dget did (turns_book [] init_world l) = None -> is_did did -> seen Datastore (w_state (turns l)) did = None.
Proof. intros F B ID. unfold seen. rewrite (seen_none digest kdigest validate ecdsa cb Datastore SET _ _ _ _ (turns_inv l F) B ID). reflexivity. Qed.

Lemma crash_next l did key recs o ws : Forall turn_ok l -> dget did (turns_book [] init_world l) = Some (key, recs) ->
  seen Datastore (w_state (turns l)) did = Some o -> r_status o = None -> commit_possible validate recs ws (s_next (w_state (turns l))) ->
  exists w1 w2 cd o', sstep (turns l) (SLoad did) = (w1, Ok OutRepo) /\ sstep w1 (SCommit (length (w_refs (turns l))) ws) = (w2, Ok (OutCommit cd)) /\
    seen Datastore (w_state w2) did = Some o' /\ r_head o' = Some (cd_commit cd) /\ shows kdigest (w_state w2) o' (apply_writes recs ws) /\
    forall c b, read (w_state (turns l)) c = Some b -> (b_seq b < b_seq (cd_commit cd))%Z.
Proof.
  intros F B SE ST CP. pose proof (turns_inv l F) as I. set (w := turns l) in *. set (bk := turns_book [] init_world l) in *. clearbody w bk.
  destruct (i_book _ _ _ _ _ _ _ _ I _ _ _ B) as (ID & RG & o1 & HS & G & HK & HN). rewrite (seen_is digest kdigest validate ecdsa _ _ _ _ inj I ID) in SE. rewrite SE in HS. injection HS as <-.
  destruct (load_did digest Datastore inj (w_state w) did (inv_named _ _ _ _ _ _ _ _ I) ID) as [(_ & NR)|(o2 & st1 & r & HS2 & _ & L & LD)]; [exfalso; exact (NR RG)|].
  rewrite SE in HS2. injection HS2 as <-. destruct (loaded_facts Datastore _ _ _ _ _ SE L) as (F1 & F2 & F3 & F4 & F5 & F6 & F7 & F8 & F9).
  assert (S1 : sstep w (SLoad did) = (World st1 (w_refs w ++ [r]), Ok OutRepo)) by (unfold StorageModel.sstep, on_new; rewrite LD; reflexivity).
  destruct (step_inv w bk (SLoad did) _ _ I Logic.I S1) as (I1 & _). cbn [w_state w_refs book_step] in I1.
  assert (HR : nth_error (w_refs w ++ [r]) (length (w_refs w)) = Some r) by apply nth_app_last.
  assert (G1 : good (s_blocks st1) did key recs o) by (rewrite F2; exact G).
  destruct (commit_ok digest kdigest validate ecdsa now cb Datastore klen inj valid_plain quiet st1 _ bk r o did key recs key recs ws I1 (nth_error_In _ _ HR) F6 G1 B ST)
    as [(_ & st2 & cd & E & C)|(NC & _)]; [|exfalso; apply NC; rewrite F1; exact CP].
  assert (S2 : sstep (World st1 (w_refs w ++ [r])) (SCommit (length (w_refs w)) ws) = (World st2 (w_refs w ++ [r]), Ok (OutCommit cd))).
  { unfold StorageModel.sstep, on_ref. cbn [w_refs w_state]. rewrite HR. rewrite (bindM_ok _ _ _ _ _ E). reflexivity. }
  destruct (step_inv (World st1 (w_refs w ++ [r])) bk (SCommit (length (w_refs w)) ws) _ _ I1 Logic.I S2) as (I2 & _). cbn [w_state w_refs book_step] in I2.
  rewrite (committed_did _ _ _ _ _ _ _ _ _ _ _ _ _ _ C), B in I2.
  assert (B2 : dget did (dset did (key, apply_writes recs ws) bk) = Some (key, apply_writes recs ws)) by (rewrite dget_dset, str_eqb_refl; reflexivity).
  destruct (seen_stored digest kdigest validate ecdsa cb Datastore SET _ _ _ _ _ _ I2 B2) as (o' & S3 & S4 & G2 & _).
  exists (World st1 (w_refs w ++ [r])), (World st2 (w_refs w ++ [r])), cd, o'. splits; auto.
  - destruct (c_objs _ _ _ _ _ _ _ _ _ _ _ _ _ _ C) as (oo & root & m' & _ & _ & _ & _ & X). rewrite X in S4. injection S4 as <-. reflexivity.
  - eapply good_shows; eauto.
  - intros c b R. rewrite (c_seq _ _ _ _ _ _ _ _ _ _ _ _ _ _ C), F1. apply (fresh_seq digest kdigest validate ecdsa Datastore _ _ _ _ _ I R).
Qed.

Lemma crash_create l did handle hc key : Forall turn_ok l -> is_did did -> handle_ok handle -> (s_next (w_state (turns l)) < 2 ^ 55)%Z ->
  exists w2 o, sstep (turns l) (SCreate did handle None hc key) = (w2, Ok OutRepo) /\ seen Datastore (w_state w2) did = Some o /\ shows kdigest (w_state w2) o [] /\ r_key o = key.
Proof.
  intros F ID HN LT. pose proof (turns_inv l F) as I. set (w := turns l) in *. set (bk := turns_book [] init_world l) in *. clearbody w bk.
  destruct (create_ok digest kdigest validate ecdsa now cb Datastore klen inj quiet (w_state w) (w_refs w) bk did handle None hc key I ID HN)
    as [(_ & _ & st' & cd & RUN & _ & I')|(X & _)]; [|exfalso; destruct X as [X|X]; [apply X; reflexivity|lia]].
  assert (B : dget did (dset did (key, []) bk) = Some (key, [])) by (rewrite dget_dset, str_eqb_refl; reflexivity).
  destruct (seen_stored digest kdigest validate ecdsa cb Datastore SET _ _ _ _ _ _ I' B) as (o & S1 & _ & G & K).
  exists (World st' (w_refs w ++ [length (s_objs (w_state w))])), o. splits; auto; [|eapply good_shows; eauto].
  unfold StorageModel.sstep, on_new. rewrite (bindM_ok _ _ _ _ _ RUN). reflexivity.
Qed.
End Facts.
