(** The commits of a repo only grow, also when processes die. *)
From Coq Require Import String List NArith ZArith Bool Lia.
From Verif Require Import Base Lists Ipld TidModel TidProofs MstModel MstSpec MstRep StorageModel StorageSpec StoreProofs ExecProofs RepoSpec RepoProofs RepoSteps RepoHist RepoFacts
  CrashModel CrashSpec CrashProofs CrashFacts GrowSpec GrowProofs.
Import ListNotations.

Section G.
Variable digest : list N -> list N.
Variable kdigest : str -> list N.
Variable validate : ipld -> res unit.
Variable ecdsa : N -> Z -> list N -> list N.
Variable now : Z -> str.
Variable cb : nat -> option exn.
Hypothesis SET : setting digest kdigest validate cb.
Let inj := s_inj digest kdigest validate cb SET.
Notation inv := (inv digest kdigest validate ecdsa Datastore).
Notation sstep := (sstep digest kdigest validate ecdsa now cb Datastore).
Notation take_turn := (take_turn digest kdigest validate ecdsa now cb).
Notation turns := (turns digest kdigest validate ecdsa now cb).
Notation turns_book := (turns_book digest kdigest validate ecdsa now cb).

(** No creation of the repo gets to its last write. *)
Lemma turn_head l t did o h : Forall turn_ok (l ++ [t]) -> is_did did -> seen Datastore (w_state (turns l)) did = Some o -> r_head o = Some h ->
  (forall a b c d, t <> Done (SCreate did a b c d)) -> (forall a b c d k lost, t = Died (SCreate did a b c d) k lost -> k < 9) ->
  exists o' h', seen Datastore (w_state (turns (l ++ [t]))) did = Some o' /\ r_head o' = Some h' /\ (h' = h \/ link h h') /\
    read (w_state (turns l)) (b_cid h) = Some h.
Proof.
  intros F ID SE HH NC1 NC2. apply Forall_app in F as [F ON]. inversion ON as [|? ? O1 _]; subst.
  pose proof (turns_inv digest kdigest validate ecdsa now cb SET l F) as I.
  assert (B : dget did (turns_book [] init_world l) <> None).
  { intros B. rewrite (crash_none digest kdigest validate ecdsa now cb SET l did F B ID) in SE. discriminate SE. }
  assert (HS : stored_repo Datastore (w_state (turns l)) did = Some o).
  { rewrite <- (seen_is digest kdigest validate ecdsa _ _ _ did inj I ID). exact SE. }
  assert (RH : read (w_state (turns l)) (b_cid h) = Some h).
  { destruct (dget did (turns_book [] init_world l)) as [[key recs]|] eqn:EB; [|congruence].
    destruct (i_book _ _ _ _ _ _ _ _ I _ _ _ EB) as (_ & _ & o4 & HS4 & (h4 & root4 & HH4 & CH4 & _) & _). replace h4 with h in * by congruence.
    exact (chain_read _ _ _ _ _ _ _ _ _ _ CH4). }
  assert (STEP : op_named (turn_op t) -> (forall a b c d, turn_op t <> SCreate did a b c d) ->
    exists o' h', seen Datastore (w_state (fst (sstep (turns l) (turn_op t)))) did = Some o' /\ r_head o' = Some h' /\ (h' = h \/ link h h')).
  { intros N1 N2. destruct (sstep (turns l) (turn_op t)) as [w' out] eqn:E. destruct (step_inv digest kdigest validate ecdsa now cb SET _ _ _ _ _ I N1 E) as (I' & EF & _).
    destruct (effect_head digest kdigest validate ecdsa now Datastore (fun _ => true) _ _ _ _ _ _ _ did o h I EF ltac:(discriminate) B HS HH) as (o' & h' & HS' & HH' & X).
    exists o', h'. cbn [fst]. rewrite (seen_is digest kdigest validate ecdsa _ _ _ did inj I' ID). splits; auto.
    destruct X as [X|[X|(_ & _ & a & b & c & d & X)]]; auto. destruct (N2 _ _ _ _ X). }
  unfold CrashSpec.turns. rewrite fold_left_app. cbn [fold_left]. fold (turns l). destruct t as [op|op k lost]; cbn [CrashSpec.take_turn turn_op] in *.
  - destruct STEP as (o' & h' & A1 & A2 & A3); [exact O1|intros a b c d ->; exact (NC1 _ _ _ _ eq_refl)|]. exists o', h'. auto.
  - rewrite (crash_atomic digest kdigest validate ecdsa now cb SET l op k lost did F O1 ID). destruct (Nat.leb (decisive op) k) eqn:LE.
    + destruct STEP as (o' & h' & A1 & A2 & A3); [exact O1| |exists o', h'; auto]. intros a b c d ->. apply Nat.leb_le in LE. cbn [decisive] in LE.
      pose proof (NC2 _ _ _ _ _ _ eq_refl). lia.
    + exists o, h. auto.
Qed.

Lemma turns_grow l1 l2 did o h : Forall turn_ok (l1 ++ l2) -> is_did did -> seen Datastore (w_state (turns l1)) did = Some o -> r_head o = Some h ->
  (forall a b c d, ~ In (Done (SCreate did a b c d)) l2) -> (forall a b c d k lost, In (Died (SCreate did a b c d) k lost) l2 -> k < 9) ->
  exists o' h', seen Datastore (w_state (turns (l1 ++ l2))) did = Some o' /\ r_head o' = Some h' /\ descends (w_state (turns (l1 ++ l2))) h h'.
Proof.
  intros F ID SE HH. induction l2 as [|t l2 IH] using rev_ind; intros NC1 NC2.
  - rewrite app_nil_r. exists o, h. splits; auto. constructor.
  - rewrite app_assoc in F |- *. destruct IH as (o1 & h1 & SE1 & HH1 & D1).
    + apply Forall_app in F. apply F.
    + intros a b c d I. apply (NC1 a b c d). apply in_or_app. auto.
    + intros a b c d k lost I. apply (NC2 a b c d k lost). apply in_or_app. auto.
    + destruct (turn_head (l1 ++ l2) t did o1 h1 F ID SE1 HH1) as (o2 & h2 & SE2 & HH2 & X & RH).
      * intros a b c d ->. apply (NC1 a b c d). apply in_or_app. right. left. reflexivity.
      * intros a b c d k lost ->. apply (NC2 a b c d k lost). apply in_or_app. right. left. reflexivity.
      * assert (KEEP : forall c b, read (w_state (turns (l1 ++ l2))) c = Some b -> read (w_state (turns ((l1 ++ l2) ++ [t]))) c = Some b)
          by (intros c b; apply (turn_keeps digest kdigest validate ecdsa now cb SET (l1 ++ l2) t c b F)).
        exists o2, h2. splits; auto. assert (D2 : descends (w_state (turns ((l1 ++ l2) ++ [t]))) h h1) by (eapply descends_mono; [|exact D1]; exact KEEP).
        destruct X as [->|(P & L & x & y & X1 & Y1 & SL)]; [exact D2|]. exact (de_next _ _ h1 h2 x y D2 (KEEP _ _ RH) P L X1 Y1 SL).
Qed.
End G.
