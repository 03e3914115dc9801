(** Every item of the log makes a message, and the preload loads them all. *)
From Coq Require Import String List NArith ZArith Bool Lia Sorted.
From Verif Require Import Base Lists Ipld IpldProofs MstModel MstTree MstRep MstTrav MstClient MstHist TidModel CarModel CarProofs StorageModel StorageSpec StoreProofs
  RepoSpec EventsModel EventsSpec EventsProofs EventsHist EventsFacts IsolateProofs LogSpec LogProofs UriModel ServerModel ServerSpec AnySpec FeedSpec FeedProofs
  MessageModel MessageSpec MessageProofs PreloadModel WholeSpec WholeProofs.
Import ListNotations.

Section Told.
Variable digest : list N -> list N.
Variable kdigest : str -> list N.
Variable ecdsa : N -> Z -> list N -> list N.
Variable btime : block -> str.
Hypothesis inj : forall a b, digest a = digest b -> a = b.
Hypothesis dlen : forall x, length (digest x) = 32.
Notation V := (V digest kdigest).
Notation message_told := (message_told digest kdigest ecdsa).

Lemma op_told_ok op : op_told op (event_op op).
Proof.
  destruct op as [a p c q]. unfold op_told, event_op. cbn [op_action op_path op_cid op_prev]. eexists. split; [reflexivity|].
  destruct a, c, q; cbn; auto.
Qed.
Definition prev_fits (st : state) (i : eitem) (pre : option block) : Prop :=
  pre = None \/ match i with ECommit cd => exists q, cd_prev cd = Some q /\ pre = read st q | EEvent _ => False end.
Lemma item_told st i b pre : V st -> (exists c, read st c = Some b) -> b_seq b <> 0%Z -> item_for ecdsa st i b -> prev_fits st i pre ->
  exists p, process_event btime st i pre = Ok p /\ message_told st i p.
Proof.
  intros HV [c0 RB] NZ IF PF. destruct (v_wf _ _ _ HV _ _ RB) as [EC WB]. rewrite <- EC in RB. clear c0 EC. destruct i as [v|cd].
  - destruct IF as [(t & IT) ->]. unfold item_text, item in IT. destruct (b_val b) as [| | | | | |m|] eqn:EV; try discriminate IT.
    destruct (dget (s "$type") m) as [[| | | |x| | |]|] eqn:DT; try discriminate IT. cbn [bind] in IT.
    assert (x = s "com.atproto.sync.subscribeRepos" ++ (s "#" ++ t)) as -> by exact (f_equal (fun r => match r with Ok y => y | Err _ => x end) IT).
    destruct (event_message btime st m (s "#" ++ t) pre) as (payload & E & G); [discriminate| |exact DT|].
    + apply (v_tidy _ _ _ HV _ _ RB NZ); [rewrite EV; cbn [vtype]; rewrite DT; discriminate|exact EV].
    + eexists. split; [exact E|]. split; [reflexivity|]. exists m, (s "#" ++ t). auto.
  - destruct IF as (EB & (did & key & root & CO) & (NB & BI)). destruct cd as [c blocks prev]. cbn [cd_commit cd_blocks cd_prev] in *. subst c.
    destruct (commit_of_items _ _ _ _ _ _ CO) as (I1 & I2 & I3 & _ & rev & I4 & I5). destruct (commit_of_shape _ _ _ _ _ _ CO) as (_ & CK & _).
    destruct (v_log _ _ _ HV _ _ RB NZ CK) as ((ops & OPS) & (m & root' & EV & ED & n & t & W & SO & LE & ST & RT) & OP).
    assert (root' = root) as -> by (unfold item_link, item in I1; rewrite EV, ED in I1; cbn in I1; congruence). clear m EV ED. subst root.
    destruct (load_any digest kdigest (rd st) n t W ST) as (n' & LE' & W' & R & _).
    assert (KS : forall c b, read st c = Some b -> b_cid b = c /\ c = cid_of digest (b_val b)).
    { intros c x RX. destruct (v_wf _ _ _ HV _ _ RX) as [A B]. split; [exact A|]. rewrite <- A. exact B. }
    destruct (cover_car digest kdigest dlen st n' t ops blocks R W' SO ltac:(lia) ST KS NB) as (out & bl & E1 & E2 & NBL & BLS & BLI & BLG).
    { intros k x H. apply BI in H. tauto. }
    assert (PD : exists pd, match link_opt prev with
         | ILink p => match (match pre with Some b => Some b | None => read st p end) with
                      | Some b => get_data (b_val b) | None => Ok None end
         | _ => Ok None end = Ok pd /\
         match prev with
         | Some p => exists x r, read st p = Some x /\ item_link (s "data") (b_val x) = Ok r /\ pd = Some (ILink r)
         | None => pd = None
         end).
    { destruct prev as [p|]; [|exists None; auto]. destruct (OP p I3) as (x & RX & m & r & EV & ED & _). change (read st p = Some x) in RX.
      exists (Some (ILink r)). split.
      - cbn [link_opt]. assert (match pre with Some b => Some b | None => read st p end = Some x) as ->.
        { destruct PF as [->|(q & [= <-] & ->)]; [exact RX|]. rewrite RX. reflexivity. }
        unfold get_data. rewrite EV, ED. reflexivity.
      - exists x, r. split; [exact RX|]. split; [|reflexivity]. unfold item_link, item. rewrite EV, ED. reflexivity. }
    destruct PD as (pd & PD1 & PD2). eexists. split.
    { unfold process_event. cbn [cd_commit cd_blocks]. cbv zeta. rewrite I1. cbn [bind]. rewrite OPS, E1. cbn [bind]. rewrite E2. cbn [bind].
      rewrite I3. cbn [bind]. unfold cid in *. rewrite PD1. cbn [bind]. rewrite I2. cbn [bind]. rewrite I5. cbn [bind]. reflexivity. }
    split; [reflexivity|]. cbn [cd_commit cd_prev]. exists did, key, (tcid digest t), ops. split; [exact CO|]. split; [exact OPS|].
    split; [reflexivity|]. split; [reflexivity|]. split; [reflexivity|]. split; [reflexivity|]. split; [exists rev; auto|]. split; [reflexivity|]. split.
    { destruct prev as [p|]; [|rewrite PD2; reflexivity]. destruct PD2 as (x & r & RX & IL & ->). exists x, r. split; [exact RX|]. split; [exact IL|]. reflexivity. }
    split.
    { exists (map event_op ops). split; [reflexivity|]. clear. induction ops; cbn; constructor; auto. apply op_told_ok. }
    eexists. split; [reflexivity|]. exists bl.
    split; [apply read_write_car; intros [k x] HI; destruct (BLS _ _ HI) as (y & _ & _ & ->); cbn [fst]; unfold cid_of; rewrite app_length, dlen; reflexivity|].
    split; [exact NBL|]. split; [intros k x H; apply BLS; apply dget_In; exact H|]. split; [apply BLI, BI; auto|]. split; [intros k x HR HS; apply BLI, BI; auto|].
    intros op HO. exists (dget (op_path op) (leaves t)). split; [|apply BLG; apply in_map; exact HO].
    pose proof md as MD. apply (get_ok digest kdigest (rd st) n'); auto. lia.
Qed.

(** ** The preload *)
Lemma event_prev_ok st i b : item_for ecdsa st i b -> event_prev i = Ok match i with ECommit cd => cd_prev cd | EEvent _ => None end.
Proof.
  destruct i as [v|cd]; [reflexivity|]. intros (<- & (did & key & root & rev & _ & _ & E) & _). unfold event_prev. rewrite E. destruct (cd_prev cd); reflexivity.
Qed.
Lemma mapM_Forall2 {A B} (f : A -> res B) (R : A -> B -> Prop) l : (forall a, In a l -> exists b, f a = Ok b /\ R a b) -> exists bs, mapM_res f l = Ok bs /\ Forall2 R l bs.
Proof.
  induction l as [|a l IH]; intros H; [exists []; auto|]. destruct (H a (or_introl eq_refl)) as (b & E & RB). destruct IH as (bs & ES & F); [intros x I; apply H; right; exact I|].
  exists (b :: bs). cbn [mapM_res]. rewrite E. cbn [bind]. rewrite ES. auto.
Qed.
Lemma deque_Forall2 {A B} (R : A -> B -> Prop) n l m : Forall2 R l m -> Forall2 R (deque n l) (deque n m).
Proof.
  intros F. unfold deque. replace (length m) with (length l) by (clear - F; induction F; cbn; auto). generalize (length l - n). induction F; intros [|k]; cbn; auto.
Qed.
Lemma preload_ok st items lg window : V st -> Forall2 (item_for ecdsa st) items lg -> (forall b, In b lg -> (exists c, read st c = Some b) /\ b_seq b <> 0%Z) ->
  exists msgs, preload btime st window (items, None) = Ok msgs /\ Forall2 (message_told st) (deque window items) msgs.
Proof.
  intros HV F LG. set (pv := fun i => match i with ECommit cd => cd_prev cd | EEvent _ => None end).
  assert (X1 : forall i, In i items -> exists b, In b lg /\ item_for ecdsa st i b).
  { clear - F. induction F as [|i b items lg H F IH]; intros j [].
    - subst. exists b. split; [left; reflexivity|exact H].
    - destruct (IH j H0) as (x & I & Y). exists x. split; [right; exact I|exact Y]. }
  assert (E1 : mapM_res event_prev items = Ok (map pv items)).
  { clear - X1. induction items as [|i items IH]; [reflexivity|]. cbn [mapM_res map]. destruct (X1 i (or_introl eq_refl)) as (b & _ & IF). rewrite (event_prev_ok _ _ _ IF). cbn [bind].
    rewrite IH by (intros j J; apply X1; right; exact J). reflexivity. }
  assert (CB : combine items (map pv items) = map (fun i => (i, pv i)) items) by (clear; induction items; cbn; [reflexivity|f_equal; auto]).
  unfold preload. rewrite E1. cbn [bind]. cbv zeta. rewrite CB.
  match goal with |- context [mapM_res ?f ?l] => destruct (mapM_Forall2 f (fun ep p => message_told st (fst ep) p) l) as (msgs & E2 & FM) end.
  { intros [i q] I. apply in_map_iff in I as (j & [= -> <-] & I). cbn [fst snd]. destruct (X1 i I) as (b & IB & IF). destruct (LG b IB) as [RB NZ].
    apply (item_told st i b); auto. destruct i as [v|cd]; [left; reflexivity|]. cbn [pv]. destruct (cd_prev cd) as [q|] eqn:EP; [|left; reflexivity].
    rewrite read_many_ok. destruct (mem_str _ _); [right; exists q; auto|left; reflexivity]. }
  rewrite E2. cbn [bind]. eexists. split; [reflexivity|]. apply deque_Forall2. clear - FM. revert msgs FM. induction items as [|i items IH]; intros msgs F; inversion F; subst; constructor; auto.
Qed.
End Told.

Section Top.
Variable digest : list N -> list N.
Variable kdigest : str -> list N.
Variable validate : ipld -> res unit.
Variable ecdsa : N -> Z -> list N -> list N.
Variable now : Z -> str.
Variable cb : nat -> option exn.
Variable btime : block -> str.
Hypothesis inj : forall a b, digest a = digest b -> a = b.
Hypothesis dlen : forall x, length (digest x) = 32.
Hypothesis klen : forall k, length (kdigest k) = 32.
Hypothesis plains : forall v, validate v = Ok tt -> plain v.
Notation arun := (arun digest kdigest validate ecdsa now cb).

Lemma told_any be l start repo bs rb : Forall (act_ok digest) l -> unforged ecdsa l -> Forall (whole_import digest kdigest) l -> (0 < start)%Z \/ Forall (fun a => ~ imports a) l ->
  let st := w_state (arun be init_world l) in enumerates st start repo bs ->
  exists items lg, read_events st (Ok bs) = (items, None) /\ logged ecdsa st start repo lg /\ Forall2 (item_for ecdsa st) items lg /\
    (forall i, In i items -> exists p, process_event btime st i None = Ok p /\ message_told digest kdigest ecdsa st i p) /\
    exists msgs, preload btime st rb (read_events st (Ok bs)) = Ok msgs /\ Forall2 (message_told digest kdigest ecdsa st) (deque rb items) msgs.
Proof.
  intros OK UF WI S0 st EN. destruct (feed_any digest kdigest validate ecdsa now cb inj plains be l start repo bs OK UF S0 EN) as (items & lg & A & B & C & _). fold st in A, B, C.
  pose proof (arun_V digest kdigest validate ecdsa now cb be inj plains klen l init_world (init_V _ _) OK WI) as HV. change (V digest kdigest st) in HV.
  assert (LG : forall b, In b lg -> (exists c, read st c = Some b) /\ b_seq b <> 0%Z).
  { intros b IB. apply B in IB as ((c & R) & IR & _). split; [eauto|]. destruct (feed_J digest kdigest validate ecdsa now cb inj plains be l OK UF) as [HJ _].
    destruct (j_low _ _ _ _ _ _ HJ c b R) as [X|[Z [_ (a & IA & IM)]]]; [lia|]. destruct S0 as [S0|S0]; [|rewrite Forall_forall in S0; destruct (S0 a IA IM)].
    unfold in_range in IR. apply andb_true_iff in IR as [IR _]. apply Z.leb_le in IR. lia. }
  exists items, lg. split; [exact A|]. split; [exact B|]. split; [exact C|]. split.
  - intros i I. assert (X : exists b, In b lg /\ item_for ecdsa st i b).
    { clear - C I. induction C as [|j b items lg H F IH]; [destruct I|]. destruct I as [<-|I]; [exists b; split; [left; reflexivity|exact H]|]. destruct (IH I) as (x & J0 & Y). exists x. split; [right; exact J0|exact Y]. }
    destruct X as (b & IB & IF). destruct (LG b IB). apply (item_told digest kdigest ecdsa btime inj dlen st i b); auto. left. reflexivity.
  - rewrite A. apply (preload_ok digest kdigest ecdsa btime inj dlen st items lg rb HV C LG).
Qed.
Lemma told_memory l start repo rb : Forall (act_ok digest) l -> unforged ecdsa l -> Forall (whole_import digest kdigest) l -> (0 < start)%Z \/ start = 0%Z /\ Forall (fun a => ~ imports a) l ->
  let st := w_state (arun Memory init_world l) in let query := read_events st (mem_blocks_by_seq st start repo) in
  exists items lg, query = (items, None) /\ logged ecdsa st start repo lg /\ Forall2 (item_for ecdsa st) items lg /\
    (forall i, In i items -> exists p, process_event btime st i None = Ok p /\ message_told digest kdigest ecdsa st i p) /\
    exists msgs, preload btime st rb query = Ok msgs /\ Forall2 (message_told digest kdigest ecdsa st) (deque rb items) msgs.
Proof.
  intros OK UF WI S0 st query. unfold query. destruct (mem_enumerates st start repo (feed_keyed digest kdigest validate ecdsa now cb inj plains Memory l OK UF) ltac:(lia)) as (bs & -> & EN).
  apply told_any; auto. tauto.
Qed.
Lemma told_datastore l start repo rows fails rb : Forall (act_ok digest) l -> unforged ecdsa l -> Forall (whole_import digest kdigest) l -> (0 < start)%Z \/ start = 0%Z /\ Forall (fun a => ~ imports a) l ->
  let st := w_state (arun Datastore init_world l) in let query := read_events st (scan rows fails start) in
  (forall i cur, enumerates st cur repo (rows i cur)) ->
  exists items lg, query = (items, None) /\ logged ecdsa st start repo lg /\ Forall2 (item_for ecdsa st) items lg /\
    (forall i, In i items -> exists p, process_event btime st i None = Ok p /\ message_told digest kdigest ecdsa st i p) /\
    exists msgs, preload btime st rb query = Ok msgs /\ Forall2 (message_told digest kdigest ecdsa st) (deque rb items) msgs.
Proof.
  intros OK UF WI S0 st query Q. unfold query. destruct (scan_ok st start repo (proj2 (feed_keyed digest kdigest validate ecdsa now cb inj plains Datastore l OK UF)) rows fails Q ltac:(lia)) as (bs & -> & EN).
  apply told_any; auto. tauto.
Qed.

(** What a restarted firehose has. *)
Lemma sorted_few lg lo : forall hi, StronglySorted (fun a b => (b_seq a < b_seq b)%Z) lg -> (forall b, In b lg -> (lo <= b_seq b < hi)%Z) -> (Z.of_nat (length lg) <= Z.max (hi - lo) 0)%Z.
Proof.
  revert lo. induction lg as [|b lg IH]; intros lo hi SO BD; [cbn [length]; lia|]. inversion SO as [|? ? SO' F]; subst. rewrite Forall_forall in F.
  pose proof (BD b (or_introl eq_refl)). pose proof (IH (b_seq b + 1)%Z hi SO' ltac:(intros x IX; pose proof (F x IX); pose proof (BD x (or_intror IX)); lia)). cbn [length]. lia.
Qed.
Lemma told_recent be l window bs rb : Forall (act_ok digest) l -> unforged ecdsa l -> Forall (whole_import digest kdigest) l ->
  let st := w_state (arun be init_world l) in (0 < window)%Z -> (window < s_next st)%Z \/ Forall (fun a => ~ imports a) l ->
  enumerates st (preload_start (last_seq st) window) None bs ->
  exists items lg msgs, read_events st (Ok bs) = (items, None) /\ Forall2 (item_for ecdsa st) items lg /\
    StronglySorted (fun a b => (b_seq a < b_seq b)%Z) lg /\
    (forall b, In b lg <-> (exists c, read st c = Some b) /\ (s_next st - window <= b_seq b < s_next st)%Z /\ (is_event_block b \/ is_commit_block ecdsa b)) /\
    (Z.of_nat (length lg) <= window)%Z /\
    preload btime st rb (read_events st (Ok bs)) = Ok msgs /\ Forall2 (message_told digest kdigest ecdsa st) (deque rb items) msgs /\
    ((window <= Z.of_nat rb)%Z -> deque rb items = items).
Proof.
  intros OK UF WI st W0 WN EN. assert (ST : preload_start (last_seq st) window = Z.max (s_next st - window) 0) by (unfold preload_start, last_seq; f_equal; lia). rewrite ST in EN.
  assert (S0 : (0 < Z.max (s_next st - window) 0)%Z \/ Forall (fun a => ~ imports a) l) by (destruct WN as [X|X]; [left; lia|right; exact X]).
  destruct (told_any be l (Z.max (s_next st - window) 0) None bs rb OK UF WI S0 EN) as (items & lg & A & [B1 B2] & C & _ & msgs & P1 & P2).
  destruct (feed_J digest kdigest validate ecdsa now cb inj plains be l OK UF) as [HJ _]. fold st in HJ.
  assert (MEM : forall b, In b lg <-> (exists c, read st c = Some b) /\ (s_next st - window <= b_seq b < s_next st)%Z /\ (is_event_block b \/ is_commit_block ecdsa b)).
  { intros b. rewrite B2. split.
    - intros ((c & R) & IR & K). split; [eauto|]. split; [|exact K]. unfold in_range in IR. apply andb_true_iff in IR as [IR _]. apply Z.leb_le in IR.
      destruct (j_low _ _ _ _ _ _ HJ c b R) as [X|[Z [_ (a & IA & IM)]]]; [lia|]. destruct S0 as [S0|S0]; [lia|]. rewrite Forall_forall in S0. destruct (S0 a IA IM).
    - intros ((c & R) & IR & K). split; [eauto|]. split; [|exact K]. unfold in_range. apply andb_true_iff. split; [|reflexivity]. apply Z.leb_le.
      destruct (j_low _ _ _ _ _ _ HJ c b R) as [X|[Z [_ (a & IA & IM)]]]; [lia|]. lia. }
  assert (LEN : (Z.of_nat (length lg) <= window)%Z).
  { pose proof (sorted_few lg (s_next st - window)%Z (s_next st) B1 ltac:(intros b IB; apply MEM in IB; tauto)). lia. }
  exists items, lg, msgs. split; [exact A|]. split; [exact C|]. split; [exact B1|]. split; [exact MEM|]. split; [exact LEN|]. split; [exact P1|]. split; [exact P2|].
  intros RB. assert (EL : length items = length lg) by (clear - C; induction C; cbn [length]; congruence). unfold deque. replace (length items - rb) with 0 by lia. reflexivity.
Qed.
End Top.
