From Coq Require Import String List NArith ZArith Bool Lia Sorted.
From Verif Require Import Base Lists Ipld IpldProofs MstModel CarModel StorageModel StorageSpec RepoSpec EventsModel EventsSpec EventsFacts EventsProofs
  MessageModel MessageSpec MessageProofs ReplicaSpec ReplicaProofs FireModel FireSpec FireProofs FireHonest StreamSpec StreamProofs RelaySpec.
Import ListNotations.

Lemma increasing_ext l1 l2 : increasing l1 -> increasing l2 -> (forall e, In e l1 <-> In e l2) -> l1 = l2.
Proof.
  revert l2. induction l1 as [|x l1 IH]; intros l2 I1 I2 H.
  - destruct l2 as [|y l2]; [reflexivity|]. destruct (proj2 (H y) (or_introl eq_refl)).
  - destruct l2 as [|y l2]; [destruct (proj1 (H x) (or_introl eq_refl))|].
    apply inc_cons in I1. apply inc_cons in I2. destruct I1 as [I1 A1], I2 as [I2 A2].
    assert (x = y) as <-.
    { destruct (proj1 (H x) (or_introl eq_refl)) as [E|Hx]; [now symmetry|]. destruct (proj2 (H y) (or_introl eq_refl)) as [E|Hy]; [exact E|].
      specialize (A1 y Hy). specialize (A2 x Hx). lia. }
    f_equal. apply IH; auto. intros e. split; intros He.
    + destruct (proj1 (H e) (or_intror He)) as [<-|X]; [|exact X]. specialize (A1 x He). lia.
    + destruct (proj2 (H e) (or_intror He)) as [<-|X]; [|exact X]. specialize (A2 x He). lia.
Qed.

Lemma dget_insert {V} q (kv : str * V) m : dget q (insert_key kv m) = if str_eqb q (fst kv) then Some (snd kv) else dget q m.
Proof.
  induction m as [|kv' m IH]; cbn [insert_key]; [destruct kv; reflexivity|].
  destruct (key_leb (fst kv) (fst kv')) eqn:L; [destruct kv; reflexivity|].
  destruct kv' as [k' v']. cbn [dget fst snd] in *. rewrite IH. destruct (str_eqb_spec q (fst kv)) as [->|N]; [|reflexivity].
  destruct (str_eqb_spec (fst kv) k') as [E|N]; [|reflexivity]. subst k'. exfalso. unfold key_leb in L. rewrite N.compare_refl in L.
  unfold str_leb in L. rewrite str_cmp_refl in L. discriminate.
Qed.
Lemma dget_sort {V} q (m : list (str * V)) : dget q (sort_keys m) = dget q m.
Proof.
  induction m as [|[k v] m IH]; [reflexivity|]. change (sort_keys ((k, v) :: m)) with (insert_key (k, v) (sort_keys m)).
  rewrite dget_insert, IH. reflexivity.
Qed.

Lemma dget_ddel_other {V} k k' (d : list (str * V)) : str_eqb k k' = false -> dget k (ddel k' d) = dget k d.
Proof.
  intros N. induction d as [|[k2 v2] d IH]; [reflexivity|]. cbn [ddel dget]. destruct (str_eqb_spec k' k2) as [<-|N2].
  - now rewrite N.
  - cbn [dget]. destruct (str_eqb k k2); [reflexivity|exact IH].
Qed.

Section Relay.
Variable digest : list N -> list N.
Variable kdigest : str -> list N.
Variable validate : ipld -> res unit.
Variable ecdsa : N -> Z -> list N -> list N.
Variable now : Z -> str.
Variable cb : nat -> option exn.
Variable btime : block -> str.
Variable code : message_parts -> str.

Lemma item_seq st i e m : entry_item ecdsa now st i e -> process_event btime st i None = Ok m -> msg_seq m = entry_seq e.
Proof.
  assert (EV : forall type n did extra, process_event btime st (EEvent (event_value now type n did extra)) None = Ok m -> msg_seq m = n).
  { intros type n did extra. unfold event_value. cbn [norm process_event]. match goal with |- context [sort_keys ?l] => set (l0 := l) end.
    rewrite !dget_sort. destruct (dget (s "$type") l0) as [[]|]; try discriminate.
    destruct (str_eqb _ _); [discriminate|]. intros [= <-]. unfold msg_seq. cbn [snd]. rewrite dget_ddel_other by reflexivity. rewrite !dget_insert. cbn [fst]. reflexivity. }
  assert (CM : forall cd, process_event btime st (ECommit cd) None = Ok m -> msg_seq m = b_seq (cd_commit cd)).
  { intros cd. cbn [process_event]. repeat match goal with |- context [bind ?x _] => destruct x; cbn [bind]; [|discriminate] end.
    intros [= <-]. reflexivity. }
  destruct e as [n d [cd|]|n d type extra|n d], i as [v|cd']; cbn [entry_item entry_seq]; try contradiction.
  - intros (E1 & _ & E2 & _) P. rewrite (CM _ P), E1. exact E2.
  - intros (_ & _ & _ & E & _) P. now rewrite (CM _ P).
  - intros -> P. exact (EV _ _ _ _ P).
  - intros (c & rev & _ & _ & _ & _ & ->) P. exact (EV _ _ _ _ P).
Qed.

Lemma relay be cf i c out0 f1 l f2 out ops1 ops2 w1 outs1 w outs cs items : setting digest kdigest validate cb -> (forall x, length (digest x) = 32) ->
  history digest kdigest validate ecdsa now cb be ops1 w1 outs1 ->
  history digest kdigest validate ecdsa now cb be (ops1 ++ ops2) w outs ->
  copied be (w_state w1) (book_of [] ops1 outs1) cs -> c = s_next (w_state w1) ->
  Forall2 (entry_item ecdsa now (w_state w)) items (filter (entry_selected c None) (log_from digest kdigest validate ecdsa now cb be init_world (ops1 ++ ops2))) ->
  (0 < rollback_window cf)%nat -> reached cf steady f1 -> thread f1 i (SNew (Some c)) out0 ->
  (exists x, In x (collected f1) /\ (c <= e_seq x)%Z) -> run cf f1 (SStep i :: l) = Some f2 ->
  along cf (fun f a => steady f a /\ undisturbed cf i f a /\ calm cf i f a) f1 (SStep i :: l) ->
  throughout cf (timely cf i (length (f_sent f1))) f1 (SStep i :: l) -> up_to_date f2 -> thread f2 i (SLive []) out ->
  streams code btime (w_state w) items c (f_log f2) ->
  exists msgs cs', out = out0 ++ map (fun m => MEvent (to_event code m)) msgs /\
    Forall2 (fun i m => process_event btime (w_state w) i None = Ok m) items msgs /\
    take_all digest kdigest cs msgs = Some cs' /\ copied be (w_state w) (book_of [] (ops1 ++ ops2) outs) cs'.
Proof.
  intros SET DL H1 H C Ec F W R T C1 Ru Al Th U T2 St.
  assert (C0 : (0 <= c)%Z) by (rewrite Ec; exact (next_pos digest kdigest validate ecdsa now cb _ _ _ _ SET H1)).
  destruct (stream cf W i c out0 f1 l f2 out R T C0 C1 Ru Al Th U T2) as (D & EO & ID & MD).
  rewrite Ec in F. destruct (replica_resumes digest kdigest validate ecdsa now cb btime be SET DL _ _ _ _ _ _ _ _ H1 H C F) as (msgs & cs' & FM & X).
  rewrite <- Ec in F. exists msgs, cs'. split; [|split; [exact FM|exact X]].
  assert (D = map (to_event code) msgs) as ->.
  { apply increasing_ext; [exact ID| |].
    - destruct (c25_order digest kdigest validate ecdsa now cb be (ops1 ++ ops2) w outs SET H) as [SO _].
      set (lg := log_from digest kdigest validate ecdsa now cb be init_world (ops1 ++ ops2)) in *.
      assert (SF : StronglySorted Z.lt (map entry_seq (filter (entry_selected c None) lg))).
      { clear - SO. induction lg as [|e lg IH]; [constructor|]. cbn [map] in SO. inversion SO as [|? ? S1 S2]; subst. cbn [filter].
        destruct (entry_selected c None e); [|now apply IH]. cbn [map]. constructor; [now apply IH|].
        rewrite Forall_forall in *. intros z Hz. apply S2. apply in_map_iff in Hz. destruct Hz as (y & <- & Hy). apply in_map. now apply filter_In in Hy. }
      clear - F FM SF. revert msgs FM SF. induction F as [|i e items es Hi F IH]; intros msgs FM SF.
      + inversion FM; subst. constructor.
      + inversion FM as [|? m ? ms Hm FM']; subst. cbn [map] in SF |- *. inversion SF as [|? ? S1 S2]; subst.
        apply inc_cons. split; [now apply IH|]. intros y Hy. apply in_map_iff in Hy. destruct Hy as (m' & <- & Hm'). cbn.
        rewrite (item_seq _ _ _ _ Hi Hm). rewrite Forall_forall in S2. clear IH SF S1 FM. revert es F S2.
        induction FM' as [|i2 m2 items ms H2 FM' IH]; intros es F S2; [contradiction|]. inversion F as [|? e2 ? es2 Hi2 F2]; subst.
        destruct Hm' as [<-|Hm'].
        * rewrite (item_seq _ _ _ _ Hi2 H2). apply S2. cbn. auto.
        * apply (IH Hm' es2 F2). intros z Hz. apply S2. cbn. auto.
    - intros e. rewrite MD. assert (Hm : forall m, In m msgs -> (c <= msg_seq m)%Z).
      { clear - F FM. intros m Hm. assert (A : forall e, In e (filter (entry_selected c None) (log_from digest kdigest validate ecdsa now cb be init_world (ops1 ++ ops2))) -> (c <= entry_seq e)%Z).
        { intros e He. apply filter_In in He. destruct He as [_ He]. unfold entry_selected in He. apply andb_true_iff in He. now apply Z.leb_le. }
        revert msgs FM Hm. induction F as [|i e items es Hi F IH]; intros msgs FM Hm; inversion FM as [|? m0 ? ms H0 FM']; subst; [contradiction|].
        destruct Hm as [<-|Hm]; [rewrite (item_seq _ _ _ _ Hi H0); apply A; cbn; auto|]. apply (IH (fun e He => A e (or_intror He)) ms FM' Hm). }
      assert (Q : forall m, In m msgs <-> exists i, In i items /\ process_event btime (w_state w) i None = Ok m).
      { clear - FM. induction FM as [|i m items ms P FM IH]; intros m'; [split; [contradiction|intros (i & [] & _)]|]. split.
        - intros [<-|Hm']; [exists i; cbn; auto|]. apply IH in Hm'. destruct Hm' as (i' & Hi & P'). exists i'. cbn. auto.
        - intros (i' & [<-|Hi] & P'); [left; congruence|]. right. apply IH. eauto. }
      split.
      + intros [He Lc]. apply (St e Lc) in He. destruct He as (i' & m & Hi & P & ->). apply in_map_iff. exists m. split; [reflexivity|]. apply Q. eauto.
      + intros He. apply in_map_iff in He. destruct He as (m & <- & Hm'). specialize (Hm m Hm'). split; [|exact Hm].
        apply St; [exact Hm|]. apply Q in Hm'. destruct Hm' as (i' & Hi & P). eauto. }
  now rewrite EO, map_map.
Qed.
End Relay.

Lemma relay_memory : forall digest kdigest validate ecdsa now cb btime code cf i c out0 f1 l f2 out ops1 ops2 w1 outs1 w outs cs items,
  setting digest kdigest validate cb -> (forall x, length (digest x) = 32) ->
  history digest kdigest validate ecdsa now cb Memory ops1 w1 outs1 ->
  history digest kdigest validate ecdsa now cb Memory (ops1 ++ ops2) w outs ->
  copied Memory (w_state w1) (book_of [] ops1 outs1) cs -> c = s_next (w_state w1) ->
  read_events (w_state w) (mem_blocks_by_seq (w_state w) c None) = (items, None) ->
  (0 < rollback_window cf)%nat -> reached cf steady f1 -> thread f1 i (SNew (Some c)) out0 ->
  (exists x, In x (collected f1) /\ (c <= e_seq x)%Z) -> run cf f1 (SStep i :: l) = Some f2 ->
  along cf (fun f a => steady f a /\ undisturbed cf i f a /\ calm cf i f a) f1 (SStep i :: l) ->
  throughout cf (timely cf i (length (f_sent f1))) f1 (SStep i :: l) -> up_to_date f2 -> thread f2 i (SLive []) out ->
  streams code btime (w_state w) items c (f_log f2) ->
  exists msgs cs', out = out0 ++ map (fun m => MEvent (to_event code m)) msgs /\
    Forall2 (fun i m => process_event btime (w_state w) i None = Ok m) items msgs /\
    take_all digest kdigest cs msgs = Some cs' /\ copied Memory (w_state w) (book_of [] (ops1 ++ ops2) outs) cs'.
Proof.
  intros digest kdigest validate ecdsa now cb btime code cf i c out0 f1 l f2 out ops1 ops2 w1 outs1 w outs cs items SET DL H1 H C Ec Rd.
  assert (C0 : (0 <= c)%Z) by (rewrite Ec; exact (next_pos digest kdigest validate ecdsa now cb _ _ _ _ SET H1)).
  destruct (c25_memory digest kdigest validate ecdsa now cb (ops1 ++ ops2) w outs c None SET H C0) as (items' & R & F).
  rewrite Rd in R. injection R as <-.
  exact (relay digest kdigest validate ecdsa now cb btime code Memory cf i c out0 f1 l f2 out ops1 ops2 w1 outs1 w outs cs items SET DL H1 H C Ec F).
Qed.

Lemma relay_datastore : forall digest kdigest validate ecdsa now cb btime code query fails cf i c out0 f1 l f2 out ops1 ops2 w1 outs1 w outs cs items,
  setting digest kdigest validate cb -> (forall x, length (digest x) = 32) ->
  history digest kdigest validate ecdsa now cb Datastore ops1 w1 outs1 ->
  history digest kdigest validate ecdsa now cb Datastore (ops1 ++ ops2) w outs ->
  copied Datastore (w_state w1) (book_of [] ops1 outs1) cs -> c = s_next (w_state w1) ->
  (forall i cur, enumerates (w_state w) cur None (query i cur)) ->
  read_events (w_state w) (scan query fails c) = (items, None) ->
  (0 < rollback_window cf)%nat -> reached cf steady f1 -> thread f1 i (SNew (Some c)) out0 ->
  (exists x, In x (collected f1) /\ (c <= e_seq x)%Z) -> run cf f1 (SStep i :: l) = Some f2 ->
  along cf (fun f a => steady f a /\ undisturbed cf i f a /\ calm cf i f a) f1 (SStep i :: l) ->
  throughout cf (timely cf i (length (f_sent f1))) f1 (SStep i :: l) -> up_to_date f2 -> thread f2 i (SLive []) out ->
  streams code btime (w_state w) items c (f_log f2) ->
  exists msgs cs', out = out0 ++ map (fun m => MEvent (to_event code m)) msgs /\
    Forall2 (fun i m => process_event btime (w_state w) i None = Ok m) items msgs /\
    take_all digest kdigest cs msgs = Some cs' /\ copied Datastore (w_state w) (book_of [] (ops1 ++ ops2) outs) cs'.
Proof.
  intros digest kdigest validate ecdsa now cb btime code query fails cf i c out0 f1 l f2 out ops1 ops2 w1 outs1 w outs cs items SET DL H1 H C Ec Q Rd.
  assert (C0 : (0 <= c)%Z) by (rewrite Ec; exact (next_pos digest kdigest validate ecdsa now cb _ _ _ _ SET H1)).
  destruct (c25_datastore digest kdigest validate ecdsa now cb (ops1 ++ ops2) w outs c None query fails SET H C0 Q) as (items' & R & F).
  rewrite Rd in R. injection R as <-.
  exact (relay digest kdigest validate ecdsa now cb btime code Datastore cf i c out0 f1 l f2 out ops1 ops2 w1 outs1 w outs cs items SET DL H1 H C Ec F).
Qed.
