(** Only the calls that are for it change the status of a repo, also when processes die. *)
From Coq Require Import String List NArith ZArith Bool Lia.
From Verif Require Import Base Lists Ipld MstModel MstSpec MstRep StorageModel StorageSpec StoreProofs ExecProofs RepoSpec RepoProofs RepoSteps RepoHist RepoFacts
  IsolateSpec CrashModel CrashSpec CrashProofs CrashFacts GrowProofs StatusSpec StatusCrashSpec.
Import ListNotations.

Section G.
Variable digest : list N -> list N.
Variable kdigest : str -> list N.
Variable validate : ipld -> res unit.
Variable ecdsa : N -> Z -> list N -> list N.
Variable now : Z -> str.
Variable cb : nat -> option exn.
Hypothesis SET : setting digest kdigest validate cb.
Let inj := s_inj digest kdigest validate cb SET.
Notation inv := (inv digest kdigest validate ecdsa Datastore).
Notation effect := (effect digest kdigest validate ecdsa now Datastore).
Notation sstep := (sstep digest kdigest validate ecdsa now cb Datastore).
Notation turns := (turns digest kdigest validate ecdsa now cb).
Notation turns_book := (turns_book digest kdigest validate ecdsa now cb).

Lemma effect_mark st refs bk op st' refs' out did o : inv st refs bk -> effect st refs bk op st' refs' out ->
  (for_status op -> op_did (World st refs) op <> Some did) -> dget did bk <> None -> stored_repo Datastore st did = Some o ->
  exists o', stored_repo Datastore st' did = Some o' /\ r_status o' = r_status o.
Proof.
  intros I E NS B HS.
  assert (KEEP : ~ touches Datastore (World st refs) op out did -> exists o', stored_repo Datastore st' did = Some o' /\ r_status o' = r_status o).
  { intros NT. destruct (effect_untouched _ _ _ _ _ _ _ _ _ _ _ _ _ did o I E ltac:(discriminate) B HS NT) as (o' & HS' & _ & _ & X & _). eauto. }
  destruct op as [did' handle status hc key'|x|i k|i x|i ws|i|i|i].
  5: { destruct out as [[| | |cd]|e]; try (apply KEEP; auto; fail).
    destruct (effect_commit _ _ _ _ _ _ _ _ _ _ _ _ _ _ I E) as (r0 & o0 & did' & key0 & recs0 & key1 & recs1 & HR & HO & G & B1 & ST & CP & C & _).
    pose proof (committed_did _ _ _ _ _ _ _ _ _ _ _ _ _ _ C) as CD.
    destruct (str_eqb_spec did' did) as [->|NE]; [|apply KEEP; cbn [touches]; congruence].
    destruct (c_objs _ _ _ _ _ _ _ _ _ _ _ _ _ _ C) as (so & root & m' & HS1 & SN & CH & N0 & MS). replace so with o in * by congruence.
    eexists. split; [exact MS|]. reflexivity. }
  all: apply KEEP; intros T; cbn [touches for_status op_did] in *; try contradiction; specialize (NS Logic.I); destruct out; try contradiction.
  - congruence.
  - apply NS, T.
  - apply NS, T.
  - apply NS, T.
Qed.

Lemma turn_mark l t did o : Forall turn_ok (l ++ [t]) -> is_did did -> seen Datastore (w_state (turns l)) did = Some o -> lets_be (turns l) t did ->
  exists o', seen Datastore (w_state (turns (l ++ [t]))) did = Some o' /\ r_status o' = r_status o.
Proof.
  intros F ID SE LB. apply Forall_app in F as [F ON]. inversion ON as [|? ? O1 _]; subst.
  pose proof (turns_inv digest kdigest validate ecdsa now cb SET l F) as I.
  assert (B : dget did (turns_book [] init_world l) <> None).
  { intros B. rewrite (crash_none digest kdigest validate ecdsa now cb SET l did F B ID) in SE. discriminate SE. }
  assert (HS : stored_repo Datastore (w_state (turns l)) did = Some o).
  { rewrite <- (seen_is digest kdigest validate ecdsa _ _ _ did inj I ID). exact SE. }
  assert (STEP : (for_status (turn_op t) -> op_did (turns l) (turn_op t) <> Some did) ->
    exists o', seen Datastore (w_state (fst (sstep (turns l) (turn_op t)))) did = Some o' /\ r_status o' = r_status o).
  { intros NS. destruct (sstep (turns l) (turn_op t)) as [w' out] eqn:E. destruct (step_inv digest kdigest validate ecdsa now cb SET _ _ _ _ _ I O1 E) as (I' & EF & _).
    destruct (turns l) as [st refs]. cbn [w_state w_refs fst] in *.
    rewrite (seen_is digest kdigest validate ecdsa _ _ _ did inj I' ID). exact (effect_mark _ _ _ _ _ _ _ did o I EF NS B HS). }
  unfold CrashSpec.turns. rewrite fold_left_app. cbn [fold_left]. fold (turns l). destruct t as [op|op k lost]; cbn [CrashSpec.take_turn turn_op lets_be] in *.
  - exact (STEP LB).
  - rewrite (crash_atomic digest kdigest validate ecdsa now cb SET l op k lost did F O1 ID). destruct (Nat.leb (decisive op) k) eqn:LE.
    + apply STEP, LB, Nat.leb_le, LE.
    + exists o. auto.
Qed.

Lemma turns_mark l1 l2 did o : Forall turn_ok (l1 ++ l2) -> is_did did -> seen Datastore (w_state (turns l1)) did = Some o ->
  (forall a t b, l2 = a ++ t :: b -> lets_be (turns (l1 ++ a)) t did) ->
  exists o', seen Datastore (w_state (turns (l1 ++ l2))) did = Some o' /\ r_status o' = r_status o.
Proof.
  intros F ID SE. induction l2 as [|t l2 IH] using rev_ind; intros LB.
  - rewrite app_nil_r. exists o. auto.
  - rewrite app_assoc in F |- *. destruct IH as (o1 & SE1 & X1).
    + apply Forall_app in F. apply F.
    + intros a u b ->. apply (LB a u (b ++ [t])). rewrite <- app_assoc. reflexivity.
    + destruct (turn_mark (l1 ++ l2) t did o1 F ID SE1) as (o2 & SE2 & X2); [exact (LB l2 t [] eq_refl)|]. exists o2. split; [exact SE2|]. congruence.
Qed.
End G.
