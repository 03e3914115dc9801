(** Heads only move on, on servers that do everything. *)
From Coq Require Import String List NArith ZArith Bool Lia.
From Verif Require Import Base Lists Ipld IpldProofs MstModel MstRep CarModel StorageModel StorageSpec RepoSpec UriModel ServerModel ServerSpec
  IsolateSpec IsolateProofs ChainProofs RequestSpec RequestProofs AnySpec AnyProofs ClosedProofs OnwardSpec.
Import ListNotations.
Local Open Scope m_scope.

Section O.
Variable digest : list N -> list N.
Variable kdigest : str -> list N.
Variable validate : ipld -> res unit.
Variable ecdsa : N -> Z -> list N -> list N.
Variable now : Z -> str.
Variable cb : nat -> option exn.
Variable be : backend.
Hypothesis inj : forall a b, digest a = digest b -> a = b.
Variable did : str.
Hypothesis isdid : is_did did.
Notation J := (IsolateProofs.J digest).
Notation wf := (IsolateProofs.wf digest).

(** The CID of the head of [did]. *)
Definition top (st : state) : option cid :=
  match be with
  | Memory => match dget did (s_mem st) with
              | Some r => match nth_error (s_objs st) r with Some o => option_map b_cid (r_head o) | None => None end
              | None => None
              end
  | Datastore => option_map e_head (dget did (s_ents st))
  end.
Definition topped (st : state) (c : cid) : Prop :=
  top st = Some c /\ (be = Datastore -> exists b root, read st c = Some b /\ item_link (s "data") (b_val b) = Ok root).
Definition moves (a b : state) : Prop := grows a b /\ forall c, topped a c -> exists c', topped b c' /\ precedes b c c'.

Lemma precedes_grows a b c d : grows a b -> precedes a c d -> precedes b c d.
Proof. intros G. induction 1 as [|d p x R I P IH]; [constructor|]. econstructor; eauto. Qed.
Lemma precedes_trans st c d e : precedes st c d -> precedes st d e -> precedes st c e.
Proof. intros P. induction 1 as [|e p x R I Q IH]; [exact P|]. econstructor; eauto. Qed.

Lemma moves_hold a b : grows a b -> (forall c, top a = Some c -> top b = Some c) -> moves a b.
Proof.
  intros G H. split; [exact G|]. intros c [T D]. exists c. split; [|constructor]. split; [apply H, T|]. intros Y. destruct (D Y) as (x & root & R & I).
  exists x, root. auto.
Qed.
Lemma grows_refl a : grows a a.
Proof. intros c x H. exact H. Qed.
Lemma moves_refl a : moves a a.
Proof. apply moves_hold; [apply grows_refl|auto]. Qed.
Lemma moves_trans a b c : moves a b -> moves b c -> moves a c.
Proof.
  intros [G1 H1] [G2 H2]. split; [intros k x H; auto|]. intros k T. destruct (H1 k T) as (k1 & T1 & P1). destruct (H2 k1 T1) as (k2 & T2 & P2).
  exists k2. split; [exact T2|]. eapply precedes_trans; [eapply precedes_grows; eauto|exact P2].
Qed.
Lemma moves_bind {A B} (m : M A) (f : A -> M B) st : moves st (fst (m st)) -> (forall a st1, m st = (st1, Ok a) -> moves st1 (fst (f a st1))) -> moves st (fst (bindM m f st)).
Proof.
  intros H1 H2. unfold bindM. destruct (m st) as [st1 [a|e]]; [|exact H1]. cbn [fst] in H1. eapply moves_trans; [exact H1|]. apply H2. reflexivity.
Qed.
Lemma moves_pure {A B} (m : M A) (f : A -> M B) st : pure m -> (forall a, m st = (st, Ok a) -> moves st (fst (f a st))) -> moves st (fst (bindM m f st)).
Proof.
  intros P H. unfold bindM. pose proof (P st) as X. destruct (m st) as [st1 [a|e]]; cbn [fst] in *; subst st1; [apply H; reflexivity|apply moves_refl].
Qed.
Lemma moves_exception {A} (m : M A) h st : moves st (fst (m st)) -> (forall s, moves s (fst (h s))) -> moves st (fst (on_exception m h st)).
Proof.
  intros H1 H2. unfold on_exception. destruct (m st) as [st1 [a|e]]; [exact H1|]. cbn [fst] in H1. specialize (H2 st1). destruct (h st1) as [st2 [u|e2]];
    cbn [fst] in *; eapply moves_trans; eauto.
Qed.

(** Nothing but the trees and status of objects differs, and there may be new objects. *)
Definition calm (a b : state) : Prop := s_blocks b = s_blocks a /\ s_mem b = s_mem a /\ s_ents b = s_ents a /\
  forall r o, nth_error (s_objs a) r = Some o -> exists o', nth_error (s_objs b) r = Some o' /\ r_head o' = r_head o.
Lemma calm_refl a : calm a a.
Proof. unfold calm. splits; eauto. Qed.
Lemma calm_trans a b c : calm a b -> calm b c -> calm a c.
Proof.
  intros (A1 & A2 & A3 & A4) (B1 & B2 & B3 & B4). unfold calm. splits; try congruence. intros r o H. destruct (A4 r o H) as (o1 & H1 & E1).
  destruct (B4 r o1 H1) as (o2 & H2 & E2). exists o2. split; congruence.
Qed.
Lemma calm_top a b c : calm a b -> top a = Some c -> top b = Some c.
Proof.
  intros (_ & A2 & A3 & A4). unfold top. destruct be.
  - rewrite A2. destruct (dget did (s_mem a)) as [r|]; [|discriminate]. destruct (nth_error (s_objs a) r) as [o|] eqn:E; [|discriminate].
    destruct (A4 r o E) as (o' & E' & H). rewrite E', H. auto.
  - rewrite A3. auto.
Qed.
Lemma calm_moves a b : calm a b -> moves a b.
Proof.
  intros C. apply moves_hold; [|intros c; apply calm_top, C]. destruct C as (A1 & _). intros c x. unfold read. rewrite A1. auto.
Qed.
Definition calms {A} (m : M A) : Prop := forall st, calm st (fst (m st)).
Lemma calms_pure {A} (m : M A) : pure m -> calms m.
Proof. intros P st. rewrite P. apply calm_refl. Qed.
Lemma calms_bind {A B} (m : M A) (f : A -> M B) : calms m -> (forall a, calms (f a)) -> calms (bindM m f).
Proof. intros H1 H2 st. unfold bindM. specialize (H1 st). destruct (m st) as [st1 [a|e]]; [|exact H1]. eapply calm_trans; [exact H1|apply H2]. Qed.
Lemma calms_attr r f : (forall o, r_head (f o) = r_head o) -> calms (set_attr r f).
Proof.
  intros F st. unfold set_attr, bindM, obj, put_obj, modify. destruct (nth_error (s_objs st) r) as [o|] eqn:E; [|apply calm_refl]. cbn [fst].
  unfold calm. cbn [set_objs s_blocks s_mem s_ents s_objs]. splits; auto. intros k x H. rewrite nth_put by congruence.
  destruct (PeanoNat.Nat.eqb_spec r k) as [<-|]; [|eauto]. rewrite E in H. injection H as <-. eauto.
Qed.
Lemma same_calm a b : same_storage a b -> calm a b.
Proof. intros (_ & B & M & E & _ & O). unfold calm. splits; auto. eauto. Qed.
Lemma calms_load x : calms (load_repo be x).
Proof. intros st. apply same_calm, load_storage. Qed.
Lemma calms_seq : calms allocate_seq.
Proof. intros st. unfold calm. cbn. splits; eauto. Qed.
Lemma calms_callback r c : calms (callback cb r c).
Proof.
  intros st. unfold callback, bindM, obj. destruct (nth_error (s_objs st) r) as [o|]; [|apply calm_refl]. destruct (r_callback o); [|apply calm_refl].
  cbn [fst]. unfold calm, add_call. cbn. splits; eauto.
Qed.

Ltac calms := repeat
  match goal with
  | |- calms (ret _) => apply calms_pure, pure_ret
  | |- calms (throw _) => apply calms_pure, pure_throw
  | |- calms (lift _) => apply calms_pure, pure_lift
  | |- calms (assert _) => apply calms_pure, pure_assert
  | |- calms (obj _) => apply calms_pure, pure_obj
  | |- calms (reads _) => apply calms_pure, pure_reads
  | |- calms (need_did _) => apply calms_pure, pure_need_did
  | |- calms (set_attr _ (with_mst _)) => apply calms_attr; reflexivity
  | |- calms (set_attr _ (with_status _)) => apply calms_attr; reflexivity
  | |- calms (set_attr _ (with_callback _)) => apply calms_attr; reflexivity
  | |- calms (load_repo _ _) => apply calms_load
  | |- calms allocate_seq => apply calms_seq
  | |- calms (callback _ _ _) => apply calms_callback
  | |- calms (bindM _ _) => apply calms_bind; [|intros ?]
  | |- calms (fun st => (st, _)) => apply calms_pure; intros ?; reflexivity
  | |- calms (match ?x with _ => _ end) => destruct x
  | |- calms (let '_ := ?x in _) => destruct x
  end.

Lemma calms_fold r d seq ws : forall acc, calms (foldM (commit_write digest kdigest validate r d seq) acc ws).
Proof.
  induction ws as [|w ws IH]; intros acc; cbn [foldM]; [calms|]. apply calms_bind; [|intros; apply IH]. unfold commit_write. calms.
Qed.
Lemma calms_target r : calms (commit_target be r None).
Proof. unfold commit_target. calms. Qed.

Lemma blocks_grow bs st : grows st (fst (write_blocks bs st)).
Proof. intros c x H. rewrite read_write_blocks, H. reflexivity. Qed.
Lemma moves_blocks bs st : moves st (fst (write_blocks bs st)).
Proof. apply moves_hold; [apply blocks_grow|]. intros c. unfold top, write_blocks, modify. cbn. auto. Qed.

(** ** Commits *)

Definition place (r : nat) (st : state) : Prop := be = Memory -> dget did (s_mem st) = Some r.

Lemma target_found st r0 o0 st1 d r prev : J st -> nth_error (s_objs st) r0 = Some o0 -> repo_did o0 = Ok (Some did) ->
  commit_target be r0 None st = (st1, Ok (d, r, prev)) -> d = did /\ place r st1 /\ exists c, prev = Some c /\ top st1 = Some c.
Proof.
  intros HJ EO RD. unfold commit_target. unfold bindM at 1, obj at 1. rewrite EO. destruct (is_some (r_status o0)); [discriminate|].
  unfold bindM at 1. cbn [ret]. unfold bindM at 1, need_did, bindM at 1, lift. rewrite RD. cbn [ret].
  unfold bindM. destruct (load_repo be did st) as [st2 [[r2|]|e]] eqn:L; try discriminate. unfold obj.
  destruct (nth_error (s_objs st2) r2) as [o|] eqn:E2; [|discriminate]. destruct (r_head o) as [h|] eqn:EH; [|discriminate].
  unfold ret. intros X. injection X as <- <- <- <-. split; [reflexivity|].
  pose proof (seen_load be _ _ _ _ L) as SE. rewrite (seen_eq digest be did isdid _ HJ), E2 in SE.
  assert (C : calm st st2) by (pose proof (calms_load did st) as C; rewrite L in C; exact C). destruct C as (CB & CM & CE & CO).
  unfold place, top, stored in *. destruct be.
  - unfold load_repo in L. assert (NE : nonempty did = true) by (pose proof (not_nil did isdid); destruct did; [congruence|reflexivity]).
    unfold bindM, assert, reads in L. rewrite NE in L. cbn [ret] in L. rewrite (mem_find_dget digest did isdid st HJ _ (j_mem _ _ HJ)) in L.
    injection L as <- L. split; [auto|]. rewrite L, E2, EH. exists (b_cid h). auto.
  - split; [discriminate|]. rewrite CE. destruct (dget did (s_ents st)) as [e|]; [|discriminate SE]. destruct (read st (e_head e)) as [b|] eqn:R; [|discriminate SE].
    destruct (item_link (s "data") (b_val b)); [|discriminate SE]. injection SE as <-. cbn [r_head] in EH. injection EH as <-.
    destruct (j_blocks _ _ HJ _ _ R) as [RC _]. exists (e_head e). rewrite RC. auto.
Qed.

Lemma set_head r h st o : nth_error (s_objs st) r = Some o ->
  fst (set_attr r (with_head h) st) = set_objs (replace_nth r (with_head h o) (s_objs st)) st /\ snd (set_attr r (with_head h) st) = Ok tt.
Proof. intros E. unfold set_attr, bindM, obj, put_obj, modify. rewrite E. auto. Qed.

Lemma finish_moves r0 r prev seq bo st : (forall c b, read st c = Some b -> b_cid b = c /\ wf b) -> IsolateProofs.wf_acc digest bo ->
  place r st -> top st = Some prev -> moves st (fst (commit_finish digest kdigest ecdsa be r0 r did (Some prev) seq bo st)).
Proof.
  intros JB W PL TP. unfold commit_finish. apply moves_pure; [apply pure_obj|]. intros o EO. unfold obj in EO.
  destruct (nth_error (s_objs st) r) as [o1|] eqn:E; [|discriminate EO]. injection EO as ->.
  apply moves_pure; [exact (pure_rd (fun rd => get_unstored_blocks digest kdigest rd max_depth (r_mst o)))|].
  intros ru RU. assert (WN : wf_nodes digest (snd ru)).
  { destruct ru as [p l]. eapply (unstored_wf digest kdigest (rd st) max_depth (r_mst o) p l). injection RU. auto. }
  clear RU. apply moves_pure; [apply pure_lift|]. intros rev _. cbv zeta.
  match goal with |- context [mk_block digest ?v ?a ?b ?c] => set (cblock := mk_block digest v a b c) end. set (blocks := dset (b_cid cblock) cblock _).
  assert (WB : Forall wf (map snd blocks)).
  { apply Forall_forall. intros b I. apply in_map_iff in I as ([c x] & <- & I). cbn [snd]. unfold blocks in I.
    apply In_dset in I as [I|I]; [injection I as -> ->; apply mk_block_wf|]. eapply wf_add_nodes; [exact WN| |exact I]. exact W. }
  assert (IB : In cblock (map snd blocks)).
  { apply in_map_iff. exists (b_cid cblock, cblock). split; [reflexivity|]. apply In_dget1. unfold blocks. rewrite dget_dset, str_eqb_refl. reflexivity. }
  assert (CP : item (s "prev") (b_val cblock) = Ok (ILink prev)) by reflexivity.
  assert (CD : exists root, item_link (s "data") (b_val cblock) = Ok root) by (eexists; reflexivity).
  assert (CI : item_text (s "did") (b_val cblock) = Ok did) by apply commit_did_val.
  clearbody cblock.
  apply moves_bind; [apply moves_blocks|]. intros u st1 E1.
  assert (R1 : exists x, read st1 (b_cid cblock) = Some x /\ b_val x = b_val cblock).
  { pose proof (read_write_blocks (map snd blocks) st (b_cid cblock)) as R. rewrite E1 in R. cbn [fst] in R.
    destruct (dget_blocks_in _ _ IB) as [y DY]. rewrite DY in R. pose proof WB as WA. rewrite Forall_forall in WA.
    destruct (read st (b_cid cblock)) as [z|] eqn:RZ.
    - exists z. split; [exact R|]. destruct (JB _ _ RZ) as [Z1 Z2]. apply (wf_val digest inj); auto.
    - exists y. split; [exact R|]. destruct (dget_blocks digest inj _ _ _ WB DY) as [Y1 Y2]. apply (wf_val digest inj); auto. }
  assert (S1 : s_mem st1 = s_mem st /\ s_ents st1 = s_ents st /\ s_objs st1 = s_objs st) by (injection E1 as <-; auto).
  destruct S1 as (M1 & N1 & O1). assert (T1 : top st1 = Some prev) by (unfold top in *; rewrite M1, N1, O1; exact TP).
  assert (PL1 : place r st1) by (unfold place in *; rewrite M1; exact PL). rewrite <- O1 in E. clear E1 M1 N1 O1 TP PL WB IB WN JB. clearbody blocks.
  assert (NEW : forall st2 st3, grows st2 st3 -> read st2 (b_cid cblock) = read st1 (b_cid cblock) -> top st2 = Some prev -> top st3 = Some (b_cid cblock) -> moves st2 st3).
  { intros st2 st3 G RD T2 T3. split; [exact G|]. intros c [T _]. assert (c = prev) as -> by congruence. destruct R1 as (x & R & V). rewrite <- RD in R. apply G in R.
    exists (b_cid cblock). split.
    - split; [exact T3|]. intros _. destruct CD as (root & CD). exists x, root. split; [exact R|]. rewrite V. exact CD.
    - econstructor; [exact R|rewrite V; exact CP|constructor]. }
  (** The rest, once the head is written. *)
  assert (REST : forall st2, (be = Memory -> top st2 = Some (b_cid cblock)) ->
    moves st2 (fst ((set_attr r0 (with_mst (r_mst o));; set_attr r0 (with_head (Some cblock));; ret (CommitData cblock blocks (Some prev))) st2))).
  { intros st2 F. apply moves_bind; [apply calm_moves, calms_attr; reflexivity|]. intros u2 st3 E3.
    assert (F3 : be = Memory -> top st3 = Some (b_cid cblock)).
    { intros Y. eapply calm_top; [|exact (F Y)]. pose proof (calms_attr r0 (with_mst (r_mst o)) (fun _ => eq_refl) st2) as C. rewrite E3 in C. exact C. }
    apply moves_bind; [|intros; apply moves_refl]. unfold set_attr, bindM, obj, put_obj, modify. destruct (nth_error (s_objs st3) r0) as [o3|] eqn:EO3; [|apply moves_refl].
    cbn [fst]. apply moves_hold; [intros c x H; exact H|]. unfold top in *. destruct be; [|auto].
    specialize (F3 eq_refl). cbn [set_objs s_mem s_objs]. destruct (dget did (s_mem st3)) as [r3|]; [|discriminate F3].
    intros c H. assert (c = b_cid cblock) as -> by congruence. rewrite nth_put by congruence. destruct (PeanoNat.Nat.eqb_spec r0 r3) as [->|]; [reflexivity|exact F3]. }
  destruct (is_some (r_head o)) eqn:HS.
  2: { unfold bindM at 1. cbn [ret]. apply REST. intros Y. exfalso. specialize (PL1 Y). unfold top in T1. rewrite Y, PL1, E in T1.
       destruct (r_head o); [discriminate HS|discriminate T1]. }
  destruct (set_head r (Some cblock) st1 o E) as [SH1 SH2].
  assert (E5 : nth_error (s_objs (fst (set_attr r (with_head (Some cblock)) st1))) r = Some (with_head (Some cblock) o)).
  { rewrite SH1. cbn [set_objs s_objs]. rewrite nth_put by congruence. rewrite PeanoNat.Nat.eqb_refl. reflexivity. }
  assert (MV1 : moves st1 (fst (set_attr r (with_head (Some cblock)) st1)) /\ (be = Memory -> top (fst (set_attr r (with_head (Some cblock)) st1)) = Some (b_cid cblock)) /\
    (be = Datastore -> top (fst (set_attr r (with_head (Some cblock)) st1)) = Some prev)).
  { assert (TM : be = Memory -> top (fst (set_attr r (with_head (Some cblock)) st1)) = Some (b_cid cblock)).
    { intros Y. unfold top. rewrite Y. rewrite SH1 at 1. cbn [set_objs s_mem]. rewrite (PL1 Y), E5. reflexivity. }
    assert (TD : be = Datastore -> top (fst (set_attr r (with_head (Some cblock)) st1)) = Some prev).
    { intros Y. unfold top in *. rewrite Y in *. rewrite SH1. exact T1. }
    split; [|auto]. assert (G : grows st1 (fst (set_attr r (with_head (Some cblock)) st1))) by (rewrite SH1; intros c x H; exact H).
    destruct be eqn:BE; [apply NEW; auto|]. apply moves_hold; [exact G|]. intros c H. rewrite TD by reflexivity. congruence. }
  destruct MV1 as (MV1 & TM & TD).
  assert (RB : read (fst (set_attr r (with_head (Some cblock)) st1)) (b_cid cblock) = read st1 (b_cid cblock)) by (rewrite SH1; reflexivity).
  destruct (set_attr r (with_head (Some cblock)) st1) as [st5 out5] eqn:ES. cbn [fst snd] in *. subst out5.
  (** Storing the repo. *)
  assert (SR : moves st5 (fst (store_repo be r st5)) /\ (be = Memory -> top (fst (store_repo be r st5)) = Some (b_cid cblock))).
  { remember (fst (store_repo be r st5)) as st6 eqn:Q6. unfold store_repo in Q6. unfold bindM at 1, obj in Q6. rewrite E5 in Q6. unfold bindM at 1, need_did in Q6.
    unfold bindM at 1, lift in Q6.
    assert (RD : repo_did (with_head (Some cblock) o) = Ok (Some did)) by (unfold repo_did; cbn [with_head r_head]; rewrite CI; reflexivity).
    rewrite RD in Q6. cbn [ret] in Q6. destruct be eqn:BE.
    - unfold modify in Q6. cbn [fst] in Q6. subst st6. assert (X : forall c, top st5 = Some c -> top (set_mem (dset did r (s_mem st5)) st5) = Some c).
      { intros c H. specialize (TM eq_refl). assert (c = b_cid cblock) as -> by congruence. unfold top. rewrite BE. cbn [set_mem s_mem s_objs].
        rewrite dget_dset, str_eqb_refl, E5. reflexivity. }
      split; [apply moves_hold; [intros c x H; exact H|exact X]|]. intros _. apply X. auto.
    - split; [|discriminate]. unfold bindM, reads in Q6. destruct (dget did (s_ents st5)) as [e|] eqn:DE; [|subst st6; apply moves_refl].
      cbn [with_head r_head] in Q6. unfold modify in Q6. cbn [fst] in Q6. subst st6.
      apply NEW; auto; [intros c x H; exact H|]. unfold top. rewrite BE. cbn [set_ents s_ents]. rewrite ent_dget_put, str_eqb_refl. reflexivity. }
  destruct SR as [SR1 SR2].
  unfold bindM at 1. unfold bindM at 1. rewrite ES. cbn [fst]. destruct (store_repo be r st5) as [st6 [[]|e6]]; cbn [fst] in *.
  - eapply moves_trans; [exact MV1|]. eapply moves_trans; [exact SR1|]. apply REST. exact SR2.
  - eapply moves_trans; eauto.
Qed.

Lemma calm_J a b : calm a b -> (forall c x, read a c = Some x -> b_cid x = c /\ wf x) -> forall c x, read b c = Some x -> b_cid x = c /\ wf x.
Proof. intros (B & _) H c x. unfold read. rewrite B. exact (H c x). Qed.
Lemma calm_place a b r : calm a b -> place r a -> place r b.
Proof. intros (_ & M & _) H Y. rewrite M. auto. Qed.
Lemma calm_of {A} (m : M A) st st1 out : calms m -> m st = (st1, out) -> calm st st1.
Proof. intros C E. specialize (C st). rewrite E in C. exact C. Qed.

Lemma commit__moves r0 o0 ws seq st : J st -> nth_error (s_objs st) r0 = Some o0 -> repo_did o0 = Ok (Some did) ->
  moves st (fst (commit_ digest kdigest validate ecdsa be r0 ws seq None st)).
Proof.
  intros HJ EO RD. unfold commit_. apply moves_pure; [apply pure_assert|]. intros _ _.
  apply moves_bind; [apply calm_moves, calms_target|]. intros [[d r] prev] st1 E1. pose proof (calm_of _ _ _ _ (calms_target r0) E1) as C1.
  destruct (some_did_ok digest kdigest inj (Some did)) as [A B].
  assert (X : tri digest (some_did (Some did)) (ctx (some_did (Some did)) did [r0] []) (commit_target be r0 None)
    (fun drp st => (fst (fst drp) = did /\ is_did did) /\ ctx (some_did (Some did)) did [r0; snd (fst drp)] [] st))
    by (apply tri_commit_target; auto).
  destruct (X st HJ) as (J1 & _ & Q1).
  { split; [congruence|]. split; [|intros h []]. intros x [<-|[]]. exists o0. auto. }
  rewrite E1 in J1, Q1. cbn [fst snd] in J1, Q1. destruct Q1 as [_ Q1].
  destruct (target_found _ _ _ _ _ _ _ HJ EO RD E1) as (-> & PL & c & -> & TP).
  apply moves_pure; [destruct (_ <? _)%N; [apply pure_throw|apply pure_ret]|]. intros _ _.
  apply moves_bind; [apply calm_moves, calms_fold|]. intros bo st2 E2. pose proof (calm_of _ _ _ _ (calms_fold _ _ _ _ _) E2) as C2.
  assert (Y : tri digest (some_did (Some did)) (ctx (some_did (Some did)) did [r0; r] []) (foldM (commit_write digest kdigest validate r did seq) ([], []) ws)
    (fun acc' st => ctx (some_did (Some did)) did [r0; r] [] st /\ IsolateProofs.wf_acc digest acc')).
  { apply tri_fold; auto; [right; left; reflexivity|]. intros k b []. }
  destruct (Y st1 J1 Q1) as (J2 & _ & Q2). rewrite E2 in J2, Q2. cbn [fst snd] in J2, Q2.
  apply finish_moves; [exact (j_blocks _ _ J2)|apply Q2|eapply calm_place; eauto|eapply calm_top; eauto].
Qed.

Lemma commit_moves r0 o0 ws st : J st -> nth_error (s_objs st) r0 = Some o0 -> repo_did o0 = Ok (Some did) ->
  moves st (fst (commit digest kdigest validate ecdsa cb be r0 ws None st)).
Proof.
  intros HJ EO RD. unfold commit. apply moves_bind; [apply calm_moves, calms_seq|]. intros seq st1 E1.
  assert (J1 : J st1 /\ nth_error (s_objs st1) r0 = Some o0).
  { unfold allocate_seq in E1. apply (f_equal fst) in E1. cbn [fst] in E1. subst st1. split; [|exact EO]. refine (proj1 (J_same digest did st _ _ _ _ _ HJ)); reflexivity. }
  destruct J1 as [J1 EO1]. apply moves_exception; [|intros; apply calm_moves, calms_callback].
  apply moves_bind; [eapply commit__moves; eauto|]. intros cd st2 _. apply calm_moves. 
  apply calms_bind; [apply calms_callback|]. intros. apply calms_pure, pure_ret.
Qed.

(** ** Everything else *)

Definition held {A} (m : M A) : Prop := forall st, moves st (fst (m st)).
Lemma held_calm {A} (m : M A) : calms m -> held m.
Proof. intros C st. apply calm_moves, C. Qed.
Lemma held_bind {A B} (m : M A) (f : A -> M B) : held m -> (forall a, held (f a)) -> held (bindM m f).
Proof. intros H1 H2 st. apply moves_bind; [apply H1|]. intros a st1 _. apply H2. Qed.
Lemma held_obj d v seq : held (write_obj digest be d v seq).
Proof.
  unfold write_obj. destruct be eqn:BE; (apply held_bind; [apply held_calm; calms|]; intros; apply held_bind; [intros st; apply moves_blocks|]; intros; apply held_calm; calms).
Qed.
Lemma held_event r type extra : held (write_event digest now cb be r type extra).
Proof.
  unfold write_event. apply held_bind; [apply held_calm; calms|]. intros. apply held_bind; [apply held_calm; calms|]. intros. apply held_bind; [apply held_calm; calms|]. intros.
  apply held_bind; [apply held_obj|]. intros. apply held_calm; calms.
Qed.
Lemma held_status r x : held (set_repo_status be r x).
Proof.
  unfold set_repo_status. apply held_bind; [apply held_calm; calms|]. intros _. destruct be eqn:BE; [apply held_calm; calms|].
  intros st. apply moves_pure; [apply pure_obj|]. intros o _. apply moves_pure; [apply pure_lift|]. intros d _. unfold bindM, reads. cbn [fst].
  destruct d as [d|]; [|apply moves_refl]. destruct (dget d (s_ents st)) as [e|] eqn:E; [|apply moves_refl]. unfold modify. cbn [fst].
  apply moves_hold; [intros c y H; exact H|]. intros c. unfold top. rewrite BE. cbn [set_ents s_ents]. rewrite ent_dget_put.
  destruct (str_eqb_spec did d) as [->|]; [rewrite E|]; auto.
Qed.

Lemma frame_moves a b : J a -> IsolateProofs.frame did a b -> moves a b.
Proof.
  intros HJ F. apply moves_hold; [exact (f_blocks _ _ _ F)|]. intros c. unfold top. destruct be.
  - rewrite (f_mem _ _ _ F). destruct (dget did (s_mem a)) as [r|] eqn:E; [|discriminate]. pose proof (j_mem _ _ HJ did r (dget_In _ _ _ E)) as (o & O & D).
    rewrite O. destruct (f_objs _ _ _ F r o O D) as (o' & O' & (SH & _)). rewrite O', SH. auto.
  - rewrite (f_ents _ _ _ F). auto.
Qed.

Lemma step_moves w op : JW digest w -> op_named op -> (forall h st x k, op <> SCreate did h st x k) ->
  moves (w_state w) (w_state (fst (sstep digest kdigest validate ecdsa now cb be w op))).
Proof.
  intros HW ON NC. assert (DEC : op_did w op = Some did \/ op_did w op <> Some did)
    by (destruct (op_did w op) as [d|]; [destruct (str_eqb_spec d did); [left|right]; congruence|right; discriminate]).
  destruct DEC as [Y|N].
  2: { apply frame_moves; [apply HW|]. apply (proj2 (step_others digest kdigest validate ecdsa now cb be inj did isdid w op HW ON N)). }
  destruct op as [d handle status x key|x|h key|h x|h ws|h|h|h]; cbn [op_did] in Y; try discriminate Y; [injection Y as ->; destruct (NC _ _ _ _ eq_refl)|..];
    cbn [sstep]; unfold on_ref; unfold handle_did, handle_obj in Y; destruct (nth_error (w_refs w) h) as [r|]; try discriminate Y.
  - destruct (nth_error (s_objs (w_state w)) r) as [o|] eqn:EO; [|discriminate Y].
    assert (RD : repo_did o = Ok (Some did)) by (destruct (repo_did o); congruence).
    pose proof (commit_moves r o ws (w_state w) (proj1 HW) EO RD) as M. unfold bindM.
    destruct (commit digest kdigest validate ecdsa cb be r ws None (w_state w)) as [st1 [cd|e]]; exact M.
  - pose proof (held_bind (deactivate_repo digest now cb be r) (fun _ => ret OutDone)) as M.
    assert (H : held (let! _ := deactivate_repo digest now cb be r in ret OutDone)).
    { apply M; [|intros; apply held_calm; calms]. unfold deactivate_repo. apply held_bind; [apply held_status|]. intros. apply held_bind; [apply held_event|]. intros. apply held_calm; calms. }
    specialize (H (w_state w)). destruct ((let! _ := deactivate_repo digest now cb be r in ret OutDone) (w_state w)). exact H.
  - pose proof (held_bind (activate_repo digest now cb be r) (fun _ => ret OutDone)) as M.
    assert (H : held (let! _ := activate_repo digest now cb be r in ret OutDone)).
    { apply M; [|intros; apply held_calm; calms]. unfold activate_repo. apply held_bind; [apply held_status|]. intros. apply held_bind; [apply held_event|]. intros. apply held_calm; calms. }
    specialize (H (w_state w)). destruct ((let! _ := activate_repo digest now cb be r in ret OutDone) (w_state w)). exact H.
  - pose proof (held_bind (tombstone_repo digest now cb be r) (fun _ => ret OutDone)) as M.
    assert (H : held (let! _ := tombstone_repo digest now cb be r in ret OutDone)).
    { apply M; [|intros; apply held_calm; calms]. unfold tombstone_repo. apply held_bind; [apply held_status|]. intros. apply held_bind; [apply held_event|]. intros. apply held_calm; calms. }
    specialize (H (w_state w)). destruct ((let! _ := tombstone_repo digest now cb be r in ret OutDone) (w_state w)). exact H.
Qed.

Lemma run_moves ops : forall w w' outs, JW digest w -> Forall request_op ops -> srun digest kdigest validate ecdsa now cb be w ops = (w', outs) ->
  moves (w_state w) (w_state w').
Proof.
  induction ops as [|op ops IH]; intros w w' outs HW F E; cbn [srun] in E; [injection E as <- <-; apply moves_refl|].
  inversion F as [|? ? R F']; subst. assert (ON : op_named op) by (destruct op; exact Logic.I || destruct R).
  assert (NC : forall h st x k, op <> SCreate did h st x k) by (intros h st x k ->; destruct R).
  pose proof (step_moves w op HW ON NC) as M. pose proof (step_JW digest kdigest validate ecdsa now cb be inj w op HW ON) as HW1.
  destruct (sstep digest kdigest validate ecdsa now cb be w op) as [w1 out]. cbn [fst] in *.
  destruct (srun digest kdigest validate ecdsa now cb be w1 ops) as [w2 outs2] eqn:E2. injection E as <- <-. eapply moves_trans; [exact M|]. eapply IH; eauto.
Qed.

Lemma seen_topped st o h : J st -> seen be st did = Some o -> r_head o = Some h -> topped st (b_cid h).
Proof.
  intros HJ. rewrite (seen_eq digest be did isdid _ HJ). unfold stored, topped, top. destruct be.
  - destruct (dget did (s_mem st)) as [r|]; [|discriminate]. intros -> ->. split; [reflexivity|discriminate].
  - destruct (dget did (s_ents st)) as [e|]; [|discriminate]. destruct (read st (e_head e)) as [b|] eqn:R; [|discriminate].
    destruct (item_link (s "data") (b_val b)) as [root|] eqn:D; [|discriminate]. intros X. injection X as <-. cbn [r_head]. intros X. injection X as <-.
    destruct (j_blocks _ _ HJ _ _ R) as [RC _]. rewrite RC. split; [reflexivity|]. intros _. eauto.
Qed.
Lemma topped_seen st c : J st -> topped st c -> exists o h, seen be st did = Some o /\ r_head o = Some h /\ b_cid h = c.
Proof.
  intros HJ [T D]. rewrite (seen_eq digest be did isdid _ HJ). unfold stored, top in *. destruct be.
  - destruct (dget did (s_mem st)) as [r|]; [|discriminate]. destruct (nth_error (s_objs st) r) as [o|]; [|discriminate]. destruct (r_head o) as [h|] eqn:H; [|discriminate].
    injection T as <-. eauto.
  - destruct (D eq_refl) as (b & root & R & I). destruct (dget did (s_ents st)) as [e|]; [|discriminate]. injection T as <-. rewrite R, I.
    destruct (j_blocks _ _ HJ _ _ R) as [RC _]. eexists _, b. splits; [reflexivity|reflexivity|exact RC].
Qed.

Lemma act_moves w a c : JW digest w -> act_ok digest a -> (forall h st x k, a <> AStorage (SCreate did h st x k)) -> topped (w_state w) c ->
  moves (w_state w) (w_state (fst (astep digest kdigest validate ecdsa now cb be w a))).
Proof.
  intros HW OK NC T. destruct a as [op|nk cfg q|cfg res sk ver hof header car key].
  - pose proof (step_moves w op HW OK) as M. cbn [AnySpec.astep]. destruct (sstep digest kdigest validate ecdsa now cb be w op) as [w' out]. cbn [fst] in *.
    apply M. intros h st x k ->. exact (NC _ _ _ _ eq_refl).
  - cbn [AnySpec.astep]. destruct (request_is digest kdigest validate ecdsa now cb be nk cfg q (w_state w) (w_refs w)) as (ops & outs & ex & R & F & _).
    destruct w as [st refs]. cbn [w_state w_refs] in *. pose proof (run_moves ops _ _ _ HW F R) as M.
    destruct (serve digest kdigest validate ecdsa cb be nk cfg q st) as [st1 out]. exact M.
  - assert (DEC : car_did car = Some did \/ car_did car <> Some did)
      by (destruct (car_did car) as [d|]; [destruct (str_eqb_spec d did); [left|right]; congruence|right; discriminate]).
    destruct DEC as [Y|N].
    + destruct (topped_seen _ _ (proj1 HW) T) as (o & h & SE & _). cbn [AnySpec.astep].
      destruct (stuck_import be cfg res sk ver hof did o (w_state w) header car key Y SE) as [S _].
      destruct (import_repo be cfg res sk ver hof header car key (w_state w)) as [st out]. apply calm_moves, same_calm. exact S.
    + apply frame_moves; [apply HW|]. apply (proj2 (astep_others digest kdigest validate ecdsa now cb be inj did isdid w _ HW OK N)).
Qed.

Lemma all_moves l : forall w c, JW digest w -> Forall (act_ok digest) l -> (forall h st x k, ~ In (AStorage (SCreate did h st x k)) l) -> topped (w_state w) c ->
  moves (w_state w) (w_state (arun digest kdigest validate ecdsa now cb be w l)).
Proof.
  unfold arun. induction l as [|a l IH]; intros w c HW OK NC T; cbn [fold_left]; [apply moves_refl|]. inversion OK as [|? ? OK1 OK2]; subst.
  pose proof (act_moves w a c HW OK1) as M. specialize (M (fun h st x k E => NC h st x k (or_introl E)) T).
  pose proof (astep_JW digest kdigest validate ecdsa now cb be inj w a HW OK1) as HW1.
  eapply moves_trans; [exact M|]. destruct (proj2 M c T) as (c1 & T1 & _). apply (IH _ c1 HW1 OK2); [|exact T1].
  intros h st x k I. apply (NC h st x k). right. exact I.
Qed.
End O.

Section Top.
Variable digest : list N -> list N.
Variable kdigest : str -> list N.
Variable validate : ipld -> res unit.
Variable ecdsa : N -> Z -> list N -> list N.
Variable now : Z -> str.
Variable cb : nat -> option exn.
Variable be : backend.
Hypothesis inj : forall a b, digest a = digest b -> a = b.
Notation arun := (arun digest kdigest validate ecdsa now cb be).

Lemma c85_any did l1 l2 o h : Forall (act_ok digest) (l1 ++ l2) -> is_did did -> (forall hd st x k, ~ In (AStorage (SCreate did hd st x k)) l2) ->
  seen be (w_state (arun init_world l1)) did = Some o -> r_head o = Some h ->
  exists o' h', seen be (w_state (arun init_world (l1 ++ l2))) did = Some o' /\ r_head o' = Some h' /\
    precedes (w_state (arun init_world (l1 ++ l2))) (b_cid h) (b_cid h').
Proof.
  intros OK ID NC SE RH. apply Forall_app in OK as [OK1 OK2].
  pose proof (arun_JW digest kdigest validate ecdsa now cb be inj l1 init_world (JW_init digest) OK1) as HW.
  pose proof (seen_topped digest be did ID _ _ _ (proj1 HW) SE RH) as T.
  destruct (proj2 (all_moves digest kdigest validate ecdsa now cb be inj did ID l2 _ _ HW OK2 NC T) _ T) as (c' & T' & P).
  pose proof (arun_JW digest kdigest validate ecdsa now cb be inj l2 _ HW OK2) as HW'.
  destruct (topped_seen digest be did ID _ _ (proj1 HW') T') as (o' & h' & SE' & RH' & <-). exists o', h'.
  unfold AnySpec.arun in *. rewrite fold_left_app. auto.
Qed.
End Top.
