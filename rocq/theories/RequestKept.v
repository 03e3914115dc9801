(** What servers keep, and what their clients can rely on. *)
From Coq Require Import String List NArith ZArith Bool Lia.
From Verif Require Import Base Lists Ipld MstModel MstClient MstSpec MstRep CarModel StorageModel StorageSpec StoreProofs ExecProofs RepoSpec RepoProofs RepoSteps RepoHist RepoFacts UriModel ServerModel
  ServerSpec ServerProofs ServerFacts WarySpec WaryProofs RequestSpec RequestProofs.
Import ListNotations.

Section Kept.
Variable digest : list N -> list N.
Variable kdigest : str -> list N.
Variable validate : ipld -> res unit.
Variable ecdsa : N -> Z -> list N -> list N.
Variable now : Z -> str.
Variable cb : nat -> option exn.
Variable be : backend.
Variable netloc_ok : str -> bool.
Variable cfg : config.
Hypothesis SET : setting digest kdigest validate cb.
Notation serves := (serves digest kdigest validate ecdsa now cb be netloc_ok cfg).
Notation goes_on := (goes_on digest kdigest validate ecdsa now cb be netloc_ok cfg).

Lemma goes_serves w1 bk1 w bk : serves w1 bk1 -> goes_on w1 bk1 w bk -> serves w bk.
Proof. clear. intros H. induction 1; [exact H|eapply sv_storage; eauto|eapply sv_request; eauto]. Qed.

Theorem blocks_kept w1 bk1 w bk c b : serves w1 bk1 -> goes_on w1 bk1 w bk -> read (w_state w1) c = Some b -> read (w_state w) c = Some b.
Proof.
  intros H G R. induction G as [|w2 bk2 op w' out G IH ON CL E|w2 bk2 q st' out G IH LIM E]; [exact R| |].
  - pose proof (goes_serves _ _ _ _ H G) as S2. destruct (serves_inv digest kdigest validate ecdsa now cb be netloc_ok cfg SET _ _ S2) as [I _].
    pose proof (step_eff digest kdigest validate ecdsa now cb be SET _ _ _ _ _ I ON E) as EF.
    destruct (effect_extends _ _ _ _ _ _ _ _ _ _ _ _ _ I EF) as [EX _]. exact (EX _ _ IH).
  - pose proof (goes_serves _ _ _ _ H G) as S2. destruct (serves_inv digest kdigest validate ecdsa now cb be netloc_ok cfg SET _ _ S2) as [I STS].
    destruct (serve_outcome digest kdigest validate ecdsa now cb be netloc_ok cfg SET _ (w_refs w2) _ _ _ _ I STS LIM E) as [(extra & SS) _]. cbn [w_state].
    revert IH. eapply (steps_keep digest kdigest validate ecdsa now be (fun st _ => read st c = Some b)); [|exact SS].
    intros st refs bk0 op st1 refs1 out1 I0 _ EF _ R0. destruct (effect_extends _ _ _ _ _ _ _ _ _ _ _ _ _ I0 EF) as [EX _]. exact (EX _ _ R0).
Qed.

Theorem blocks_right w bk c b : serves w bk -> read (w_state w) c = Some b ->
  b_cid b = c /\ c = cid_of digest (b_val b) /\ (0 < b_seq b < s_next (w_state w))%Z.
Proof.
  intros H R. destruct (serves_inv digest kdigest validate ecdsa now cb be netloc_ok cfg SET _ _ H) as [I _].
  destruct (so_block _ _ _ _ (i_store _ _ _ _ _ _ _ _ I) _ _ R) as (A & B & C & _). auto.
Qed.

Theorem wary_requests w bk did key recs o0 h car st o : serves w bk -> dget did bk = Some (key, recs) ->
  seen be (w_state w) did = Some o0 -> r_head o0 = Some h -> wary_client digest (b_cid h) car = Some (st, o) ->
  option_map b_val (r_head o) = Some (b_val h) /\
  (forall coll rkey y, get_record kdigest st o coll rkey = Ok y -> y = option_map norm (dget (record_path coll rkey) recs)) /\
  (forall m, get_contents kdigest st o = Ok m ->
     (forall coll rkey, match dget coll m with Some d => dget rkey d | None => None end = option_map norm (dget (record_path coll rkey) recs)) /\
     forall coll, dget coll m <> Some []).
Proof.
  intros H B SE HH WC. destruct (server_is digest kdigest validate ecdsa now cb be netloc_ok cfg w bk SET H) as (ops & w2 & outs & H2 & (E & _) & BK).
  specialize (BK did). rewrite B in BK. destruct (dget did (book_of [] ops outs)) as [[key' recs']|] eqn:B2; [|destruct BK]. destruct BK as [<- N].
  rewrite <- E in SE. destruct (wary_repo digest kdigest validate ecdsa now cb be SET _ _ _ _ _ _ _ _ _ _ _ H2 B2 SE HH WC) as (A1 & A2 & A3).
  split; [exact A1|]. split; [intros coll rkey y G; rewrite N; auto|].
  intros m G. destruct (A3 m G) as [C1 C2]. split; [intros coll rkey; rewrite N; auto|exact C2].
Qed.
End Kept.
