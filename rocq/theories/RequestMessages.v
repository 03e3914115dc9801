(** The messages of the commits that requests make. *)
From Coq Require Import String List NArith ZArith Bool Lia.
From Verif Require Import Base Lists Ipld MstModel MstSpec MstRep CarModel StoreProofs StorageModel StorageSpec ExecProofs RepoSpec RepoProofs RepoSteps RepoHist RepoFacts UriModel ServerModel ServerSpec ServerProofs
  ServerFacts EventsModel EventsSpec EventsHist EventsFacts MessageModel MessageSpec MessageProofs RequestSpec RequestProofs RequestOps.
Import ListNotations.

Section Messages.
Variable digest : list N -> list N.
Variable kdigest : str -> list N.
Variable validate : ipld -> res unit.
Variable ecdsa : N -> Z -> list N -> list N.
Variable now : Z -> str.
Variable cb : nat -> option exn.
Variable be : backend.
Variable netloc_ok : str -> bool.
Variable cfg : ServerModel.config.
Variable btime : block -> str.
Hypothesis SET : setting digest kdigest validate cb.
Hypothesis DL : forall x, length (digest x) = 32%nat.
Notation serves := (serves digest kdigest validate ecdsa now cb be netloc_ok cfg).
Notation serve := (serve digest kdigest validate ecdsa cb be netloc_ok cfg).
Notation named_did := (named_did be netloc_ok).

Lemma serves_log w bk : serves w bk -> exists lg, log_ok (w_state w) lg.
Proof.
  intros H. destruct (server_is digest kdigest validate ecdsa now cb be netloc_ok cfg w bk SET H) as (ops & w2 & outs & H2 & (E & _) & _).
  destruct (hist_log digest kdigest validate ecdsa now cb be SET _ _ _ H2) as (lg & L & _). exists lg. rewrite <- E. exact L.
Qed.

Lemma head_message w bk did key recs o h prev root : serves w bk -> dget did bk = Some (key, recs) -> seen be (w_state w) did = Some o -> r_head o = Some h ->
  commit_of ecdsa h did key (Some (b_cid prev)) root -> read (w_state w) (b_cid prev) = Some prev ->
  forall blocks cdp pre, commit_blocks (w_state w) h blocks -> pre = None \/ pre = Some prev ->
  exists header payload, process_event btime (w_state w) (ECommit (CommitData h blocks cdp)) pre = Ok (header, payload) /\
    commit_message digest kdigest (w_state w) did (Some prev) h recs header payload.
Proof.
  intros H B SE HD CO RP blocks cdp pre CB PR. destruct (serves_inv digest kdigest validate ecdsa now cb be netloc_ok cfg SET _ _ H) as [I _].
  destruct (seen_stored digest kdigest validate ecdsa cb be SET _ _ _ _ _ _ I B) as (o' & S1 & HS & (h' & root' & H1 & CH & _) & _).
  assert (h' = h) as -> by congruence. destruct (serves_log _ _ H) as (lg & LG).
  assert (KS : forall c b, read (w_state w) c = Some b -> b_cid b = c /\ c = cid_of digest (b_val b)).
  { intros c x R. destruct (so_block _ _ _ _ (i_store _ _ _ _ _ _ _ _ I) _ _ R) as (K1 & K2 & _). auto. }
  assert (CO' : commit_of ecdsa h did key (Some (b_cid prev)) root' /\ exists k q r, commit_of ecdsa prev did k q r).
  { destruct (commit_of_items _ _ _ _ _ _ CO) as (X1 & _ & X3 & _). inversion CH; subst.
    - match goal with C : commit_of _ _ _ _ None _ |- _ => destruct (commit_of_items _ _ _ _ _ _ C) as (_ & _ & X & _) end. rewrite X in X3. discriminate X3.
    - match goal with C : commit_of _ h _ _ (Some (b_cid ?p)) root' |- _ => destruct (commit_of_items _ _ _ _ _ _ C) as (_ & _ & X & _); rename p into b' end.
      rewrite X in X3. cbn [link_opt] in X3. injection X3 as EC.
      match goal with C : RepoProofs.chain _ _ _ _ _ _ _ b' _ _ |- _ => pose proof (chain_read _ _ _ _ _ _ _ _ _ _ C) as RB; destruct (chain_commit _ _ _ _ _ _ _ _ _ _ C) as (q & CQ) end.
      unfold read in RP. rewrite EC in RB. assert (b' = prev) as -> by congruence. eauto. }
  destruct CO' as [CO' (k & q & r & CP)].
  eapply (message_ok digest kdigest validate ecdsa btime DL); eauto.
  - eapply log_commit; eauto. exact (chain_read _ _ _ _ _ _ _ _ _ _ CH).
  - cbn. eauto 8.
Qed.

Theorem write_message w bk q st' a x coll rkey v : serves w bk -> (be = Memory -> (s_next (w_state w) < 2 ^ 55)%Z) ->
  serve q (w_state w) = (st', Ok a) -> request_write q = Some (x, coll, rkey, v) ->
  exists did key recs, named_did (w_state w) x = Some did /\ dget did bk = Some (key, recs) /\
    let old := dget (record_path coll rkey) recs in
    let recs' := match v with Some v => dset (record_path coll rkey) v recs | None => ddel (record_path coll rkey) recs end in
    (v = None /\ old = None) \/
    exists o h o' h', seen be (w_state w) did = Some o /\ r_head o = Some h /\ seen be st' did = Some o' /\ r_head o' = Some h' /\
      b_ops h' = Some (request_ops (record_path coll rkey) (option_map (rcid digest) old) (option_map (rcid digest) v)) /\
      forall blocks cdp pre, commit_blocks st' h' blocks -> pre = None \/ pre = Some h ->
        exists header payload, process_event btime st' (ECommit (CommitData h' blocks cdp)) pre = Ok (header, payload) /\
          commit_message digest kdigest st' did (Some h) h' recs' header payload.
Proof.
  intros H LIM E R. destruct (serves_inv digest kdigest validate ecdsa now cb be netloc_ok cfg SET _ _ H) as [I ST].
  pose proof (sv_request _ _ _ _ _ _ _ _ _ _ _ _ _ _ H LIM E) as H'.
  destruct (request_made digest kdigest validate ecdsa now cb be netloc_ok cfg SET _ _ _ _ _ _ I ST E _ _ _ _ R) as (did & key & recs & N & B & X).
  exists did, key, recs. split; [exact N|]. split; [exact B|]. cbv zeta in *. destruct X as [(X1 & X2 & _)|(_ & o & o' & h & h' & [])]; [left; auto|right].
  exists o, h, o', h'. splits; auto. destruct m_prev as (root & CO). intros blocks cdp pre.
  set (recs' := match v with Some v => dset (record_path coll rkey) v recs | None => ddel (record_path coll rkey) recs end).
  assert (B' : dget did (request_book be netloc_ok (w_state w) bk q (Ok a)) = Some (key, recs')).
  { unfold request_book. rewrite R, N, B, dget_dset, str_eqb_refl. reflexivity. }
  exact (head_message _ _ _ _ _ _ _ _ _ H' B' m_after m_head' CO m_kept blocks cdp pre).
Qed.
End Messages.
