(** The commits of a repo only grow. *)
From Coq Require Import String List NArith ZArith Bool Lia.
From Verif Require Import Base Lists Ipld TidModel TidProofs MstModel MstSpec MstRep StorageModel StorageSpec StoreProofs ExecProofs RepoSpec RepoProofs RepoSteps RepoHist RepoFacts UriModel ServerModel ServerSpec
  ServerProofs ServerFacts MessageProofs RequestSpec RequestProofs GrowSpec.
Import ListNotations.

Section Grow.
Variable digest : list N -> list N.
Variable kdigest : str -> list N.
Variable validate : ipld -> res unit.
Variable ecdsa : N -> Z -> list N -> list N.
Variable now : Z -> str.
Variable cb : nat -> option exn.
Variable be : backend.
Variable netloc_ok : str -> bool.
Variable cfg : config.
Hypothesis SET : setting digest kdigest validate cb.

Notation inv := (inv digest kdigest validate ecdsa be).
Notation effect := (effect digest kdigest validate ecdsa now be).
Notation steps := (steps digest kdigest validate ecdsa now be).
Notation serves := (serves digest kdigest validate ecdsa now cb be netloc_ok cfg).
Notation goes_on := (goes_on digest kdigest validate ecdsa now cb be netloc_ok cfg).
Notation stays := (stays digest kdigest validate ecdsa now cb be netloc_ok cfg).
Notation serve := (serve digest kdigest validate ecdsa cb be netloc_ok cfg).
Notation stored_repo := (stored_repo be).

Lemma descends_mono st st' c h : extends (s_blocks st) (s_blocks st') -> descends st c h -> descends st' c h.
Proof.
  clear. intros EX. induction 1 as [|p h x y D IH R I L X Y S]; [constructor|]. eapply de_next; eauto.
Qed.

Definition link (h h' : block) : Prop := item (s "prev") (b_val h') = Ok (ILink (b_cid h)) /\ (b_seq h < b_seq h')%Z /\
  exists x y, item_text (s "rev") (b_val h) = Ok x /\ item_text (s "rev") (b_val h') = Ok y /\ slt x y.

Lemma rev_below b did key prev root : commit_of ecdsa b did key prev root -> (0 < b_seq b)%Z -> exists x, item_text (s "rev") (b_val b) = Ok x /\
  int_to_tid (b_seq b) 0 = Ok x /\ (0 <= b_seq b < p55)%Z.
Proof.
  clear. intros CO L. destruct (commit_of_items _ _ _ _ _ _ CO) as (_ & _ & _ & _ & x & X & T). exists x. splits; auto; [lia|].
  destruct (Z.lt_ge_cases (b_seq b) p55) as [|G]; [auto|]. rewrite (tid_too_large _ 0 G) in T. discriminate T.
Qed.

(** What an operation does to the head of a repo. *)
Lemma effect_head st refs bk op st' refs' out did o h : inv st refs bk -> effect st refs bk op st' refs' out ->
  (be = Memory -> clean_step (World st refs) op out) -> dget did bk <> None -> stored_repo st did = Some o -> r_head o = Some h ->
  exists o' h', stored_repo st' did = Some o' /\ r_head o' = Some h' /\
    (h' = h \/ link h h' \/
     (item (s "prev") (b_val h') = Ok INull /\ b_seq h' = s_next st /\ exists a b c d, op = SCreate did a b c d)).
Proof.
  intros I E CL B HS HH.
  assert (KEEP : ~ touches be (World st refs) op out did -> exists o' h', stored_repo st' did = Some o' /\ r_head o' = Some h' /\
    (h' = h \/ link h h' \/ (item (s "prev") (b_val h') = Ok INull /\ b_seq h' = s_next st /\ exists a b c d, op = SCreate did a b c d))).
  { intros NT. destruct (effect_untouched _ _ _ _ _ _ _ _ _ _ _ _ _ did o I E CL B HS NT) as (o' & HS' & SR & _). exists o', h. splits; auto. congruence. }
  assert (STAT : forall i x type extra, status_op op = Some (i, x, type, extra) -> exists o' h', stored_repo st' did = Some o' /\ r_head o' = Some h' /\
    (h' = h \/ link h h' \/ (item (s "prev") (b_val h') = Ok INull /\ b_seq h' = s_next st /\ exists a b c d, op = SCreate did a b c d))).
  { intros i x type extra SO. destruct out as [[]|].
    1,2,4,5: apply KEEP; auto; intros TT.
    - inversion E; subst; try discriminate SO. destruct (H _ eq_refl) as [X _]. discriminate X.
    - inversion E; subst; try discriminate SO. destruct (H _ eq_refl) as [_ [? ?]]. subst. discriminate SO.
    - inversion E; subst; try discriminate SO. destruct (H _ eq_refl) as [X _]. discriminate X.
    - destruct op; try discriminate SO; destruct TT.
    - destruct (handle_did (World st refs) i) as [d|] eqn:HD.
      + destruct (str_eqb_spec d did) as [ED|NE].
        * subst d. destruct (effect_status _ _ _ _ _ _ _ _ _ _ _ _ _ _ _ _ _ _ _ I E SO eq_refl HD HS) as (AT & _).
          assert (DEC : attached_ref be (World st refs) did i \/ ~ attached_ref be (World st refs) did i).
          { unfold attached_ref. cbn. destruct be; [|left; discriminate]. destruct (nth_error refs i) as [r|].
            - destruct (dget did (s_mem st)) as [r'|].
              + destruct (Nat.eq_dec r r') as [->|NE]; [left; eauto|]. right. intros X. destruct (X eq_refl) as (? & ? & ?). congruence.
              + right. intros X. destruct (X eq_refl) as (? & ? & ?). congruence.
            - right. intros X. destruct (X eq_refl) as (? & ? & ?). congruence. }
          destruct DEC as [A|NA].
          -- exists (with_status x o), h. splits; auto.
          -- apply KEEP; auto. intros TT. apply NA. destruct op; try discriminate SO; injection SO as <- <- <- <-; apply TT.
        * apply KEEP; auto. intros TT. destruct op; try discriminate SO; injection SO as <- <- <- <-; destruct TT; congruence.
      + apply KEEP; auto. intros TT. destruct op; try discriminate SO; injection SO as <- <- <- <-; destruct TT; congruence. }
  destruct op as [did' handle status hc key'|x|i k|i x|i ws|i|i|i].
  - destruct out as [out|e]; [|apply KEEP; auto].
    destruct (str_eqb_spec did' did) as [->|NE]; [|apply KEEP; auto].
    destruct (effect_create _ _ _ _ _ _ _ _ _ _ _ _ _ _ _ _ _ I E) as (cd & _ & _ & CR & _ & o' & HS' & HH' & _).
    destruct (n_chain _ _ _ _ _ _ _ _ _ _ _ _ _ _ CR) as (root & CH & CO).
    exists o', (cd_commit cd). splits; auto. right. right. destruct (commit_of_items _ _ _ _ _ _ CO) as (_ & _ & X & _). splits; eauto 6.
    exact (n_seq _ _ _ _ _ _ _ _ _ _ _ _ _ _ CR).
  - apply KEEP; auto.
  - apply KEEP; auto.
  - apply KEEP; auto.
  - destruct out as [[| | |cd]|e]; try (apply KEEP; auto; fail).
    destruct (effect_commit _ _ _ _ _ _ _ _ _ _ _ _ _ _ I E) as (r0 & o0 & did' & key0 & recs0 & key1 & recs1 & HR & HO & G & B1 & ST & CP & C & _).
    pose proof (committed_did _ _ _ _ _ _ _ _ _ _ _ _ _ _ C) as CD.
    destruct (str_eqb_spec did' did) as [->|NE]; [|apply KEEP; cbn [touches]; congruence].
    destruct (c_objs _ _ _ _ _ _ _ _ _ _ _ _ _ _ C) as (so & root & m' & HS1 & SN & CH & N0 & MS).
    destruct (c_prev _ _ _ _ _ _ _ _ _ _ _ _ _ _ C) as (o2 & hb & HS2 & HH2 & _ & root2 & CO).
    replace o2 with o in * by congruence. replace hb with h in * by congruence.
    destruct (i_book _ _ _ _ _ _ _ _ I _ _ _ B1) as (_ & _ & o4 & HS4 & (h4 & root4 & HH4 & CH4 & _) & _). replace h4 with h in * by congruence.
    destruct (so_block _ _ _ _ (i_store _ _ _ _ _ _ _ _ I) _ _ (chain_read _ _ _ _ _ _ _ _ _ _ CH4)) as (_ & _ & X & _).
    pose proof (c_seq _ _ _ _ _ _ _ _ _ _ _ _ _ _ C) as SQ.
    assert (L : link h (cd_commit cd)).
    { destruct (commit_of_items _ _ _ _ _ _ CO) as (_ & _ & P & _). split; [exact P|]. split; [lia|].
      destruct (chain_commit _ _ _ _ _ _ _ _ _ _ CH4) as (q & CQ).
      destruct (rev_below _ _ _ _ _ CQ) as (x & X1 & X2 & X3); [lia|]. destruct (rev_below _ _ _ _ _ CO) as (y & Y1 & Y2 & Y3); [lia|].
      exists x, y. splits; auto. apply (tid_order _ _ 0 _ _ X3 Y3); auto; lia. }
    destruct be; (eexists _, _; split; [exact MS|]; split; [reflexivity|]; auto).
  - eapply STAT; reflexivity.
  - eapply STAT; reflexivity.
  - eapply STAT; reflexivity.
Qed.

Lemma book_stays bk op out d : dget d bk <> None -> dget d (book_step bk op out) <> None.
Proof.
  clear. intros B. assert (DS : forall k v, dget d (dset k v bk) <> None) by (intros; rewrite dget_dset; destruct (str_eqb _ _); [discriminate|exact B]).
  unfold book_step. destruct op; auto; destruct out as [[| | |cd]|]; auto. destruct (dget (commit_did cd) bk) as [[]|]; auto.
Qed.

(** The commit [c] was the head of [did] when [n] was the next number. *)
Definition grown (did : str) (c : block) (n : Z) (again : bool) (st : state) (bk : book) : Prop :=
  dget did bk <> None /\ (n <= s_next st)%Z /\ exists o h, stored_repo st did = Some o /\ r_head o = Some h /\
    (descends st c h \/ again = true /\ exists c0, item (s "prev") (b_val c0) = Ok INull /\ (n <= b_seq c0)%Z /\ descends st c0 h).

Lemma effect_grown did c n again st refs bk op st' refs' out : inv st refs bk -> effect st refs bk op st' refs' out ->
  (be = Memory -> clean_step (World st refs) op out) -> (again = true \/ forall a b c d, op <> SCreate did a b c d) ->
  grown did c n again st bk -> grown did c n again st' (book_step bk op out).
Proof.
  intros I E CL CR (B & LE & o & h & HS & HH & D). pose proof (effect_extends _ _ _ _ _ _ _ _ _ _ _ _ _ I E) as [EX LN].
  split; [apply book_stays; exact B|]. split; [lia|].
  destruct (effect_head _ _ _ _ _ _ _ _ _ _ I E CL B HS HH) as (o' & h' & HS' & HH' & X). exists o', h'. splits; auto.
  assert (RH : read st' (b_cid h) = Some h).
  { destruct (dget did bk) as [[key recs]|] eqn:EB; [|congruence].
    destruct (i_book _ _ _ _ _ _ _ _ I _ _ _ EB) as (_ & _ & o4 & HS4 & (h4 & root4 & HH4 & CH4 & _) & _). replace h4 with h in * by congruence.
    apply EX. exact (chain_read _ _ _ _ _ _ _ _ _ _ CH4). }
  assert (NX : forall c, descends st c h -> h' = h \/ link h h' -> descends st' c h').
  { intros c1 D1 [->|(P & L & x & y & X1 & Y1 & SL)]; [exact (descends_mono _ _ _ _ EX D1)|].
    exact (de_next _ _ h h' x y (descends_mono _ _ _ _ EX D1) RH P L X1 Y1 SL). }
  destruct X as [X|[X|(P & SQ & a & b & c1 & d & EO)]].
  - destruct D as [D|(A & c0 & P0 & L0 & D)]; [left; auto|]. right. split; auto. exists c0. splits; auto.
  - destruct D as [D|(A & c0 & P0 & L0 & D)]; [left; auto|]. right. split; auto. exists c0. splits; auto.
  - destruct CR as [->|CR]; [|destruct (CR _ _ _ _ EO)]. right. split; auto. exists h'. splits; auto; [lia|constructor].
Qed.

Lemma request_grown did c n again st refs bk q st' out : inv st refs bk -> statuses be st bk -> (be = Memory -> (s_next st < 2 ^ 55)%Z) -> serve q st = (st', out) ->
  grown did c n again st bk -> grown did c n again st' (request_book be netloc_ok st bk q out).
Proof.
  intros I ST LIM E G. destruct (serve_outcome digest kdigest validate ecdsa now cb be netloc_ok cfg SET _ refs _ _ _ _ I ST LIM E) as [(extra & SS) _].
  revert G. eapply (steps_keep digest kdigest validate ecdsa now be); [|exact SS].
  intros. eapply effect_grown; eauto. right. intros ? ? ? ? ->. destruct H0.
Qed.

Lemma head_grown w bk did key recs o h : serves w bk -> dget did bk = Some (key, recs) -> seen be (w_state w) did = Some o -> r_head o = Some h ->
  forall again, grown did h (s_next (w_state w)) again (w_state w) bk.
Proof.
  intros H B SE HH again. destruct (serves_inv digest kdigest validate ecdsa now cb be netloc_ok cfg SET _ _ H) as [I _].
  destruct (seen_stored digest kdigest validate ecdsa cb be SET _ _ _ _ _ _ I B) as (o' & S1 & HS & _).
  split; [congruence|]. split; [lia|]. exists o, h. splits; auto; [congruence|]. left. constructor.
Qed.

Lemma grown_head w bk did c n again : serves w bk -> grown did c n again (w_state w) bk -> exists o h, seen be (w_state w) did = Some o /\ r_head o = Some h /\
  (descends (w_state w) c h \/ again = true /\ exists c0, item (s "prev") (b_val c0) = Ok INull /\ (n <= b_seq c0)%Z /\ descends (w_state w) c0 h).
Proof.
  intros H (B & _ & o & h & HS & HH & D). destruct (serves_inv digest kdigest validate ecdsa now cb be netloc_ok cfg SET _ _ H) as [I _].
  destruct (dget did bk) as [[key recs]|] eqn:EB; [|congruence].
  destruct (seen_stored digest kdigest validate ecdsa cb be SET _ _ _ _ _ _ I EB) as (o' & S1 & HS' & _).
  exists o, h. splits; auto. congruence.
Qed.

Theorem stays_grows w1 bk1 w bk did key recs o1 h1 : serves w1 bk1 -> stays did w1 bk1 w bk -> dget did bk1 = Some (key, recs) ->
  seen be (w_state w1) did = Some o1 -> r_head o1 = Some h1 ->
  exists o h, seen be (w_state w) did = Some o /\ r_head o = Some h /\ descends (w_state w) h1 h.
Proof.
  intros H ST B SE HH.
  assert (X : serves w bk /\ grown did h1 (s_next (w_state w1)) false (w_state w) bk).
  { induction ST as [|w2 bk2 op w' out ST [S2 G2] ON CL NC E|w2 bk2 q st' out ST [S2 G2] LIM E].
    - split; [exact H|]. eapply head_grown; eauto.
    - destruct (serves_inv digest kdigest validate ecdsa now cb be netloc_ok cfg SET _ _ S2) as [I _]. split; [eapply sv_storage; eauto|].
      pose proof (step_eff digest kdigest validate ecdsa now cb be SET _ _ _ _ _ I ON E) as EF. eapply effect_grown; eauto.
    - destruct (serves_inv digest kdigest validate ecdsa now cb be netloc_ok cfg SET _ _ S2) as [I STS]. split; [eapply sv_request; eauto|].
      cbn [w_state]. eapply request_grown; eauto. }
  destruct X as [S G]. destruct (grown_head _ _ _ _ _ _ S G) as (o & h & A & C & [D|[D _]]); [eauto|discriminate D].
Qed.

Theorem goes_grows w1 bk1 w bk did key recs o1 h1 : serves w1 bk1 -> goes_on w1 bk1 w bk -> dget did bk1 = Some (key, recs) ->
  seen be (w_state w1) did = Some o1 -> r_head o1 = Some h1 ->
  exists o h, seen be (w_state w) did = Some o /\ r_head o = Some h /\
    (descends (w_state w) h1 h \/
     exists c0, item (s "prev") (b_val c0) = Ok INull /\ (s_next (w_state w1) <= b_seq c0)%Z /\ descends (w_state w) c0 h).
Proof.
  intros H ST B SE HH.
  assert (X : serves w bk /\ grown did h1 (s_next (w_state w1)) true (w_state w) bk).
  { induction ST as [|w2 bk2 op w' out ST [S2 G2] ON CL E|w2 bk2 q st' out ST [S2 G2] LIM E].
    - split; [exact H|]. eapply head_grown; eauto.
    - destruct (serves_inv digest kdigest validate ecdsa now cb be netloc_ok cfg SET _ _ S2) as [I _]. split; [eapply sv_storage; eauto|].
      pose proof (step_eff digest kdigest validate ecdsa now cb be SET _ _ _ _ _ I ON E) as EF. eapply effect_grown; eauto.
    - destruct (serves_inv digest kdigest validate ecdsa now cb be netloc_ok cfg SET _ _ S2) as [I STS]. split; [eapply sv_request; eauto|].
      cbn [w_state]. eapply request_grown; eauto. }
  destruct X as [S G]. destruct (grown_head _ _ _ _ _ _ S G) as (o & h & A & C & [D|[_ D]]); exists o, h; auto.
Qed.
End Grow.
