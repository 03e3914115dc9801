(** What callbacks are told of a new repo, whatever fails. *)
From Coq Require Import String List NArith ZArith Bool Lia.
From Verif Require Import Base Lists Ipld IpldProofs MstModel MstRep MstClient TidModel BlockModel CarModel StorageModel RepoSpec CallbackProofs IsolateSpec IsolateProofs
  ChainProofs TellProofs ServerModel AnySpec SteadySpec SteadyProofs BirthSpec.
Import ListNotations.
Local Open Scope m_scope.

Section Birth.
Variable digest : list N -> list N.
Variable kdigest : str -> list N.
Variable validate : ipld -> res unit.
Variable ecdsa : N -> Z -> list N -> list N.
Variable now : Z -> str.
Variable cb : nat -> option exn.
Variable be : backend.
Hypothesis inj : forall a b, digest a = digest b -> a = b.
Notation K := (ChainProofs.K digest ecdsa be).
Notation kept := (TellProofs.kept).

(** The object of the new repo, once it has a head. *)
Definition named (r : nat) (d : str) (hc : bool) (st : state) : Prop :=
  exists o h, nth_error (s_objs st) r = Some o /\ repo_did o = Ok (Some d) /\ r_head o = Some h /\ r_callback o = hc.

Lemma target_cases r0 d st o : nth_error (s_objs st) r0 = Some o -> r_head o = None -> is_did d ->
  commit_target be r0 (Some d) st = (st, Ok (d, r0, None)) \/ commit_target be r0 (Some d) st = (st, Err InactiveRepo).
Proof.
  intros E H ID. unfold commit_target, bindM, obj. rewrite E. destruct (is_some (r_status o)); [right; reflexivity|left].
  destruct d as [|x d]; [discriminate ID|]. unfold ret. rewrite H. reflexivity.
Qed.
Lemma first_cases seq r0 d st o : K seq st -> nth_error (s_objs st) r0 = Some o -> r_head o = None -> is_did d ->
  match commit_ digest kdigest validate ecdsa be r0 [] seq (Some d) st with
  | (st', Err _) => s_blocks st' = s_blocks st /\ s_next st' = s_next st
  | (st', Ok cd) => s_next st' = s_next st /\ kept st st' seq cd /\ named r0 d (r_callback o) st' /\
      exists rev, int_to_tid seq 0 = Ok rev /\ item (s "rev") (b_val (cd_commit cd)) = Ok (IText rev)
  end.
Proof.
  intros HK E H ID. unfold commit_. unfold bindM at 1, assert. destruct (negb (seq =? 0)%Z); [|split; reflexivity]. unfold ret at 1.
  unfold bindM at 1. destruct (target_cases r0 d st o E H ID) as [->| ->]; [|split; reflexivity]. cbv beta iota.
  change (bindM (if (max_operations <? len (@nil write))%N then throw ValueError else ret tt) (fun _ => bindM (foldM (commit_write digest kdigest validate r0 d seq) ([], []) []) (fun bo => commit_finish digest kdigest ecdsa be r0 r0 d None seq bo)) st)
    with (commit_finish digest kdigest ecdsa be r0 r0 d None seq ([], []) st).
  unfold commit_finish. unfold bindM at 1, obj at 1. rewrite E. unfold bindM at 1.
  destruct (get_unstored_blocks digest kdigest (rd st) max_depth (r_mst o)) as [[root l]|] eqn:U; [|split; reflexivity].
  apply unstored_wf in U. unfold bindM at 1, lift. destruct (int_to_tid seq 0) as [rev|] eqn:TI; [|split; reflexivity]. cbv zeta. cbn [fst snd].
  set (cblock := mk_block digest _ _ _ _). set (blocks := dset (b_cid cblock) cblock _).
  assert (AB : all_ok digest seq blocks).
  { intros c b J. unfold blocks in J. apply In_dset in J as [J|J]; [injection J as -> ->; split; [apply mk_block_wf|split; reflexivity]|].
    apply (add_nodes_ok digest inj d seq l [] U); [intros ? ? []|exact J]. }
  unfold bindM at 1. change (write_blocks (map snd blocks) st) with (fst (write_blocks (map snd blocks) st), @Ok unit tt).
  set (st1 := fst (write_blocks (map snd blocks) st)).
  assert (KP : forall st', s_blocks st' = s_blocks st1 -> kept st st' seq (CommitData cblock blocks None)).
  { intros st' EB. assert (RD : forall c, read st' c = match read st c with Some b => Some b | None => dget c blocks end).
    { intros c. unfold read at 1. rewrite EB. change (dget c (s_blocks st1)) with (read st1 c). unfold st1. rewrite read_write_blocks. destruct (read st c); [reflexivity|]. exact (f_equal (dget c) (keyed digest _ _ AB)). }
    split; [reflexivity|]. split; [intros c b R; rewrite RD, R; reflexivity|]. split.
    - intros c b. rewrite RD. destruct (read st c) as [y|]; [auto|]. intros R. right. apply In_dget1 in R. apply (AB c b R).
    - cbn [cd_commit]. rewrite RD. destruct (read st (b_cid cblock)) as [y|] eqn:R.
      + exists y. split; [reflexivity|]. right. split; [reflexivity|]. destruct (k_blocks _ _ _ _ _ HK _ _ R) as [C W]. apply (wf_val digest inj); [exact W|apply mk_block_wf|exact C].
      + exists cblock. split; [|left; reflexivity]. unfold blocks. rewrite dget_dset, str_eqb_refl. reflexivity. }
  rewrite H. cbn [is_some]. unfold bindM at 1, ret at 1. change (nth_error (s_objs st) r0) with (nth_error (s_objs st1) r0) in E.
  unfold bindM at 1. rewrite (set_attr_ok r0 _ st1 o E). set (st4 := set_objs _ st1).
  assert (E4 : nth_error (s_objs st4) r0 = Some (with_mst (r_mst o) o)).
  { unfold st4. cbn [set_objs s_objs]. rewrite nth_put, PeanoNat.Nat.eqb_refl by congruence. reflexivity. }
  unfold bindM. rewrite (set_attr_ok r0 _ st4 _ E4). unfold ret. split; [reflexivity|]. split; [apply KP; reflexivity|]. split.
  - exists (with_head (Some cblock) (with_mst (r_mst o) o)), cblock. cbn [set_objs s_objs]. rewrite nth_put, PeanoNat.Nat.eqb_refl by congruence.
    split; [reflexivity|]. split; [|split; reflexivity]. unfold repo_did. cbn [with_head r_head]. unfold cblock. cbn [mk_block b_val]. rewrite commit_did_val. reflexivity.
  - exists rev. split; [reflexivity|]. cbn [cd_commit]. unfold cblock. cbn [mk_block b_val]. reflexivity.
Qed.

Notation low := (TellProofs.low).
(** The first commit and what its callback hears. *)
Lemma first_calls r d st o : K (s_next st) st -> low st -> nth_error (s_objs st) r = Some o -> r_head o = None -> is_did d ->
  let n := s_next st in let st' := fst (commit digest kdigest validate ecdsa cb be r [] (Some d) st) in
  let out := snd (commit digest kdigest validate ecdsa cb be r [] (Some d) st) in
  K (s_next st') st' /\ low st' /\ s_next st' = (n + 1)%Z /\
  ((exists cd rv, kept st st' n cd /\ int_to_tid n 0 = Ok rv /\ item (s "rev") (b_val (cd_commit cd)) = Ok (IText rv) /\
      (out = Ok cd /\ named r d (r_callback o) st' /\ s_calls st' = (if r_callback o then [CData (MCommit cd)] else []) ++ s_calls st \/
       r_callback o = true /\ (exists k e, cb k = Some e) /\ (exists e, out = Err e) /\ s_calls st' = [CLost n; CData (MCommit cd)] ++ s_calls st)) \/
   (exists e, out = Err e) /\ s_blocks st' = s_blocks st /\ s_calls st' = (if r_callback o then [CLost n] else []) ++ s_calls st).
Proof.
  intros HK HL E H ID n. cbv zeta. split; [|split].
  { apply (step_commit digest kdigest validate ecdsa now cb be inj (blank r) (fun B => headed ecdsa B d r)).
    - intros a b. apply blank_rel.
    - intros B a b. apply (headed_rel digest kdigest ecdsa now inj).
    - intros B B' x. apply (headed_more digest kdigest ecdsa now inj).
    - intros seq. apply (spec_commit_first digest kdigest validate ecdsa now cb be inj); exact ID.
    - exact HK.
    - exists o. auto. }
  { assert (W : lows (commit digest kdigest validate ecdsa cb be r [] (Some d))); [|apply W, HL]. unfold commit. apply (lows_body digest kdigest inj).
    intros seq. apply marks_exc; [|apply marks_front, front_callback].
    apply marks_bind; [apply marks_first|]. intros cd. apply marks_front. fronts. apply front_callback. }
  set (st1 := set_next (n + 1) st).
  assert (K1 : K n st1) by apply (quiet_allocate digest kdigest ecdsa now be inj n st HK).
  change (commit digest kdigest validate ecdsa cb be r [] (Some d) st) with
    (on_exception (bindM (commit_ digest kdigest validate ecdsa be r [] n (Some d)) (fun cd => callback cb r (CData (MCommit cd));; ret cd)) (callback cb r (CLost n)) st1).
  pose proof (first_cases n r d st1 o K1 E H ID) as C. pose proof (blind_commit_ digest kdigest validate ecdsa be r [] n (Some d)) as (_ & BC & BH).
  specialize (BC st1). specialize (BH st1 r (r_callback o)). unfold on_exception, bindM.
  destruct (commit_ digest kdigest validate ecdsa be r [] n (Some d) st1) as [st2 [cd|e]]; cbn [fst snd] in *.
  all: assert (H2 : has_cb st2 r = Some (r_callback o)) by (apply BH; unfold has_cb; change (s_objs st1) with (s_objs st); rewrite E; reflexivity).
  all: unfold has_cb in H2; destruct (nth_error (s_objs st2) r) as [o2|] eqn:E2; [|discriminate H2]; injection H2 as H2.
  - destruct C as (N2 & KP & NA & rv & T1 & T2). change (s_next st1) with (n + 1)%Z in N2. change (s_calls st1) with (s_calls st) in BC.
    rewrite callback_eq, E2, H2. destruct (r_callback o).
    + destruct (cb (length (s_calls st2))) as [e|] eqn:CB.
      * rewrite callback_eq. cbn [add_call s_objs]. rewrite E2, H2.
        destruct (cb (length (s_calls (add_call (CData (MCommit cd)) st2)))); cbn [fst snd]; (split; [exact N2|]; left; exists cd, rv; split; [exact KP|]; split; [exact T1|]; split; [exact T2|right]);
          (split; [reflexivity|]; split; [eauto|]; split; [eauto|]; cbn [add_call s_calls app]; rewrite BC; reflexivity).
      * unfold ret. cbn [fst snd]. split; [exact N2|]. left. exists cd, rv. split; [exact KP|]. split; [exact T1|]. split; [exact T2|]. left. split; [reflexivity|].
        split; [exact NA|]. cbn [add_call s_calls app]. rewrite BC. reflexivity.
    + unfold ret. cbn [fst snd]. split; [exact N2|]. left. exists cd, rv. split; [exact KP|]. split; [exact T1|]. split; [exact T2|]. left. split; [reflexivity|].
      split; [exact NA|]. cbn [app]. exact BC.
  - destruct C as [B2 N2]. change (s_next st1) with (n + 1)%Z in N2. change (s_calls st1) with (s_calls st) in BC. change (s_blocks st1) with (s_blocks st) in B2.
    rewrite callback_eq, E2, H2. destruct (r_callback o); [destruct (cb (length (s_calls st2)))|]; cbn [fst snd];
      (split; [exact N2|]; right; split; [eauto|]; split; [exact B2|]; cbn [add_call s_calls app]; rewrite BC; reflexivity).
Qed.

(** Events leave the objects alone. *)
Definition same_objs {A} (m : M A) : Prop := forall st, s_objs (fst (m st)) = s_objs st.
Lemma same_pure {A} (m : M A) : pure m -> same_objs m.
Proof. intros P st. rewrite P. reflexivity. Qed.
Lemma same_bind {A B} (m : M A) (f : A -> M B) : same_objs m -> (forall a, same_objs (f a)) -> same_objs (bindM m f).
Proof. intros H F st. specialize (H st). unfold bindM. destruct (m st) as [st1 [a|e]]; cbn [fst] in *; [|exact H]. rewrite F. exact H. Qed.
Lemma same_callback r c : same_objs (callback cb r c).
Proof.
  intros st. rewrite callback_eq. destruct (nth_error (s_objs st) r) as [o|]; [|reflexivity]. destruct (r_callback o); reflexivity.
Qed.
Lemma same_event r type extra : same_objs (write_event digest now cb be r type extra).
Proof.
  unfold write_event. apply same_bind; [intros st; reflexivity|]. intros seq. apply same_bind; [apply same_pure, pure_obj|]. intros o.
  apply same_bind; [apply same_pure, pure_lift|]. intros d. apply same_bind.
  - unfold write_obj. destruct be; (apply same_bind; [apply same_pure|intros _]; [first [apply pure_assert|destruct (truthy _); [apply pure_ret|apply pure_throw]]|]);
      (apply same_bind; [intros st; reflexivity|intros []; apply same_pure]).
    + apply pure_ret.
    + intros st. unfold reads, bindM. destruct (read st _) as [b|]; [|reflexivity]. destruct (_ <=? _)%Z; reflexivity.
  - intros b. apply same_bind; [apply same_callback|]. intros _. apply same_pure, pure_ret.
Qed.

(** The state after the first commit and the events [l]. *)
Record grown (st : state) (r : nat) (d : str) (hc : bool) (cd : commit_data) (l : list ipld) (st' : state) : Prop := {
  g_K : K (s_next st') st';
  g_low : low st';
  g_named : named r d hc st';
  g_next : s_next st' = (s_next st + 1 + Z.of_nat (length l))%Z;
  g_stored : forall v, In v l -> exists x, read st' (cid_of digest v) = Some x /\ b_val x = v;
  g_old : forall c x, read st c = Some x -> read st' c = Some x;
  g_new : forall c x, read st' c = Some x -> read st c = Some x \/ (s_next st <= b_seq x < s_next st')%Z;
  g_commit : exists b, read st' (b_cid (cd_commit cd)) = Some b /\ b_val b = b_val (cd_commit cd);
  g_calls : s_calls st' = (if hc then rev (CData (MCommit cd) :: map (fun v => CData (MEvent v)) l) else []) ++ s_calls st
}.
Lemma grow st r d hc cd l st1 type extra : grown st r d hc cd l st1 ->
  let v := event_value now type (s_next st + 1 + Z.of_nat (length l)) d extra in
  let st' := fst (write_event digest now cb be r type extra st1) in let out := snd (write_event digest now cb be r type extra st1) in
  grown st r d hc cd (l ++ [v]) st' /\ ((exists b, out = Ok b) \/ hc = true /\ exists k e, cb k = Some e /\ out = Err e).
Proof.
  intros [HK HL NA N ST OLD NEW CO CA]. cbv zeta. destruct NA as (o & h & E & D & H & RC).
  pose proof (event_calls digest kdigest validate ecdsa now cb be inj r type extra st1 o d HK HL E D) as EC. cbv zeta in EC.
  pose proof (lows_event digest kdigest now cb be inj r type extra st1 HL) as L2. pose proof (same_event r type extra st1) as O2.
  destruct (quiet_write_event digest kdigest ecdsa now cb be inj r type extra _ st1 HK) as (K2 & R2 & _).
  set (st2 := fst (write_event digest now cb be r type extra st1)) in *. destruct EC as (N2 & S1 & S2 & S3 & C2 & OUT).
  rewrite N in S3, C2. rewrite RC in OUT, C2. split; [|exact OUT]. set (v := event_value now type _ d extra) in *. constructor.
  - eapply (K_more digest kdigest ecdsa now be inj); [|exact K2]. lia.
  - exact L2.
  - exists o, h. rewrite O2. auto.
  - rewrite N2, N, app_length. cbn [length]. lia.
  - intros x J. apply in_app_or in J as [J|[<-|[]]]; [|exact S3]. destruct (ST x J) as (y & Y1 & Y2). exists y. split; [apply S1, Y1|exact Y2].
  - intros c x R. apply S1, OLD, R.
  - intros c x R. destruct (S2 c x R) as [R'|R']; [destruct (NEW c x R'); [auto|right; lia]|]. right. lia.
  - destruct CO as (b & B1 & B2). exists b. split; [apply S1, B1|exact B2].
  - rewrite C2, CA. destruct hc; [|reflexivity]. rewrite map_app. cbn [map]. rewrite app_comm_cons, rev_app_distr. reflexivity.
Qed.

Lemma create_named r d hc st : named r d hc st -> exists st', create_repo be r st = (st', Ok tt) /\
  s_blocks st' = s_blocks st /\ s_next st' = s_next st /\ s_calls st' = s_calls st /\ s_objs st' = s_objs st.
Proof.
  intros (o & h & E & D & H & _). unfold create_repo, bindM, obj. rewrite E. unfold need_did, bindM, lift. rewrite D. unfold ret.
  destruct be; [|rewrite H]; (eexists; split; [reflexivity|auto]).
Qed.

Lemma birth_calls did handle status hc key st : K (s_next st) st -> low st -> is_did did -> handle_ok handle ->
  let r := repo_create digest kdigest validate ecdsa now cb be did handle status hc key st in
  birth digest now cb did handle hc st (fst r) (exists e, snd r = Err e).
Proof.
  intros HK HL ID HH. cbv zeta. pose (G := fun p : state * res nat => birth digest now cb did handle hc st (fst p) (exists e, snd p = Err e)).
  change (G (repo_create digest kdigest validate ecdsa now cb be did handle status hc key st)). unfold repo_create. unfold bindM at 1.
  assert (M : exists m, mst_create digest [] None = Ok m) by (eexists; reflexivity). destruct M as (m & M). unfold lift at 1. rewrite M.
  unfold bindM at 1. set (o := Repo m None handle status hc key). set (r := length (s_objs st)).
  change (new_obj o st) with (set_objs (s_objs st ++ [o]) st, Ok r). cbv beta iota. set (st0 := set_objs (s_objs st ++ [o]) st).
  assert (K0 : K (s_next st0) st0).
  { destruct (K_new digest kdigest ecdsa now cb be inj (s_next st) st o HK HH) as [K1 _]; [discriminate|exact K1]. }
  assert (E0 : nth_error (s_objs st0) r = Some o).
  { unfold st0, r. cbn [set_objs s_objs]. rewrite nth_error_app2, PeanoNat.Nat.sub_diag by apply le_n. reflexivity. }
  destruct (first_calls r did st0 o K0 HL E0 eq_refl ID) as (K1 & L1 & N1 & C). cbv zeta in *. change (r_callback o) with hc in C. clearbody r.
  unfold bindM at 1. set (n := s_next st) in *. change (s_next st0) with n in *. change (s_calls st0) with (s_calls st) in C. change (s_blocks st0) with (s_blocks st) in C.
  destruct (commit digest kdigest validate ecdsa cb be r [] (Some did) st0) as [st1 [cd|e]]; cbn [fst snd] in *.
  2: { unfold G. cbn [fst snd]. destruct C as [(cd & rv & (S1 & S2 & S3 & b & S4 & S5) & T1 & T2 & [[X _]|(-> & CB & _ & CA)])|(_ & B & CA)]; [discriminate X| |].
    - right. exists cd, rv, b, 0. cbv zeta. split; [exact S1|]. split; [exact T1|]. split; [exact T2|]. split; [exact S4|].
      split; [destruct S5 as [->|[_ V]]; auto|]. split; [lia|]. split; [fold n; rewrite N1; cbn [Z.of_nat]; lia|]. split; [intros v []|]. split; [exact S2|].
      split; [intros c x R; destruct (S3 c x R); [auto|right; lia]|]. right. split; [eexists; reflexivity|]. split; [reflexivity|]. split; [exact CB|]. left. auto.
    - left. split; [eexists; reflexivity|]. split; [exact N1|]. split; [exact B|]. split; [|exact CA]. intros c x R. unfold read in R. rewrite B in R. specialize (HL c x R). lia. }
  destruct C as [(cd' & rv & KP & T1 & T2 & [(X & NA & CA)|(_ & _ & (e & X) & _)])|((e & X) & _)]; [|discriminate X|discriminate X].
  injection X as <-. destruct KP as (S1 & S2 & S3 & b & S4 & S5).
  assert (G0 : grown st r did hc cd [] st1).
  { constructor; auto.
    - cbn [length Z.of_nat]. fold n. lia.
    - intros v [].
    - intros c x R. destruct (S3 c x R); [auto|right; fold n; lia].
    - exists b. split; [exact S4|]. destruct S5 as [->|[_ V]]; auto. }
  destruct NA as (o1 & h1 & E1 & D1 & H1 & _). unfold bindM at 1, obj at 1. rewrite E1. unfold bindM at 1. unfold need_did at 1, bindM at 1, lift at 1. rewrite D1. unfold ret at 1.
  set (evs := birth_events now did handle n (cd_commit cd) rv).
  set (told := CData (MCommit cd) :: map (fun v => CData (MEvent v)) evs ++ [CData (MCommit cd)]).
  assert (FIN : forall k l st2 st', l = firstn k evs -> k <= 3 -> grown st r did hc cd l st2 -> s_blocks st' = s_blocks st2 -> s_next st' = s_next st2 ->
    forall F : Prop, (~ F /\ k = 3 /\ s_calls st' = (if hc then rev told else []) ++ s_calls st \/ F /\ hc = true /\ (exists j e, cb j = Some e) /\
       (k = 0 /\ s_calls st' = [CLost n; CData (MCommit cd)] ++ s_calls st \/
        0 < k /\ s_calls st' = rev (firstn (S k) told) ++ s_calls st \/
        k = 3 /\ s_calls st' = rev told ++ s_calls st)) ->
    birth digest now cb did handle hc st st' F).
  { intros k l st2 st' -> LE [_ _ _ GN GS GO GW (b' & GB & GV) _] EB EN F OUT. right. exists cd, rv, b', k. cbv zeta. fold n. fold evs. fold told.
    rewrite firstn_length_le in GN by (cbn [evs birth_events length]; exact LE).
    assert (RE : forall c, read st' c = read st2 c) by (intros c; unfold read; rewrite EB; reflexivity). fold n in GW.
    split; [exact S1|]. split; [exact T1|]. split; [exact T2|]. split; [rewrite RE; exact GB|]. split; [exact GV|]. split; [exact LE|].
    split; [rewrite EN; exact GN|]. split; [intros v J; rewrite RE; apply GS, J|]. split; [intros c x R; rewrite RE; apply GO, R|].
    split; [intros c x; rewrite RE, EN; apply GW|exact OUT]. }
  assert (BAD : forall k l st' e, l = firstn k evs -> 0 < k <= 3 -> grown st r did hc cd l st' -> hc = true -> (exists j e, cb j = Some e) ->
    G (st', Err e)).
  { intros k l st' e EL LE GR HC CB. unfold G. cbn [fst snd]. apply (FIN k l st' st' EL); [lia|exact GR|reflexivity|reflexivity|]. right. split; [eauto|]. split; [exact HC|]. split; [exact CB|].
    right. left. split; [lia|]. rewrite (g_calls _ _ _ _ _ _ _ GR), HC, EL. do 2 f_equal. unfold told, evs, birth_events. destruct k as [|[|[|[|k]]]]; [lia|reflexivity|reflexivity|reflexivity|lia]. }
  clear K1 L1 N1 S2 S3 S4 S5 CA E1 D1 H1.
  unfold bindM at 1. destruct (grow _ _ _ _ _ _ _ (s "identity") [(s "handle", opt_text handle)] G0) as [G1 O1]. cbv zeta in G1, O1.
  assert (L1 : forall v, event_value now (s "identity") (s_next st + 1 + Z.of_nat (length (@nil ipld))) did [(s "handle", opt_text handle)] = v -> v = nth 0 evs INull).
  { intros v <-. unfold evs, birth_events. cbn [nth length]. f_equal. fold n. lia. }
  specialize (L1 _ eq_refl). rewrite L1 in G1. clear L1. cbn [app] in G1.
  destruct (write_event digest now cb be r (s "identity") [(s "handle", opt_text handle)] st1) as [st2 [b2|e]]; cbn [fst snd] in *.
  2: { destruct O1 as [[? X]|(HC & j & e' & CB & _)]; [discriminate X|]. eapply (BAD 1); [reflexivity|lia|exact G1|exact HC|eauto]. }
  clear O1. unfold bindM at 1. destruct (grow _ _ _ _ _ _ _ (s "account") [(s "active", IBool true)] G1) as [G2 O2]. cbv zeta in G2, O2.
  assert (L2 : forall v, event_value now (s "account") (s_next st + 1 + Z.of_nat (length [nth 0 evs INull])) did [(s "active", IBool true)] = v -> v = nth 1 evs INull).
  { intros v <-. unfold evs, birth_events. cbn [nth length]. f_equal. fold n. lia. }
  specialize (L2 _ eq_refl). rewrite L2 in G2. clear L2. cbn [app] in G2.
  destruct (write_event digest now cb be r (s "account") [(s "active", IBool true)] st2) as [st3 [b3|e]]; cbn [fst snd] in *.
  2: { destruct O2 as [[? X]|(HC & j & e' & CB & _)]; [discriminate X|]. eapply (BAD 2); [reflexivity|lia|exact G2|exact HC|eauto]. }
  clear O2. cbv zeta. unfold bindM at 1, lift at 1. rewrite T2.
  unfold bindM at 1. set (ex := [(s "blocks", _); (s "rev", IText rv)]) in *. destruct (grow _ _ _ _ _ _ _ (s "sync") ex G2) as [G3 O3]. cbv zeta in G3, O3.
  assert (L3 : forall v, event_value now (s "sync") (s_next st + 1 + Z.of_nat (length [nth 0 evs INull; nth 1 evs INull])) did ex = v -> v = nth 2 evs INull).
  { intros v <-. unfold evs, birth_events. cbn [nth length]. f_equal. fold n. lia. }
  specialize (L3 _ eq_refl). rewrite L3 in G3. clear L3. cbn [app] in G3.
  destruct (write_event digest now cb be r (s "sync") ex st3) as [st4 [b4|e]]; cbn [fst snd] in *.
  2: { destruct O3 as [[? X]|(HC & j & e' & CB & _)]; [discriminate X|]. eapply (BAD 3); [reflexivity|lia|exact G3|exact HC|eauto]. }
  clear O3 BAD G0 G1 G2. destruct (create_named r did hc st4 (g_named _ _ _ _ _ _ _ G3)) as (st5 & CR & B5 & N5 & C5 & O5).
  unfold bindM at 1. rewrite CR. destruct (g_named _ _ _ _ _ _ _ G3) as (o4 & h4 & E4 & _ & _ & RC). pose proof (g_calls _ _ _ _ _ _ _ G3) as C4.
  unfold bindM. rewrite callback_eq, O5, E4, RC. unfold ret. destruct hc.
  - assert (TL : s_calls (add_call (CData (MCommit cd)) st5) = rev told ++ s_calls st) by (cbn [add_call s_calls]; rewrite C5, C4; reflexivity).
    destruct (cb (length (s_calls st5))) as [e|] eqn:CB; unfold G; cbn [fst snd]; apply (FIN 3 _ st4 _ eq_refl (le_n 3) G3); [exact B5|exact N5| |exact B5|exact N5|].
    + right. split; [eexists; reflexivity|]. split; [reflexivity|]. split; [eauto|]. right. right. split; [reflexivity|exact TL].
    + left. split; [intros [? X]; discriminate X|]. split; [reflexivity|exact TL].
  - unfold G. cbn [fst snd]. apply (FIN 3 _ st4 _ eq_refl (le_n 3) G3); [exact B5|exact N5|].
    left. split; [intros [? X]; discriminate X|]. split; [reflexivity|]. rewrite C5, C4. reflexivity.
Qed.

Lemma birth_same did handle hc st st' (F F' : Prop) : (F <-> F') -> birth digest now cb did handle hc st st' F -> birth digest now cb did handle hc st st' F'.
Proof.
  intros I [(A & B)|(cd & rv & b & k & A1 & A2 & A3 & A4 & A5 & A6 & A7 & A8 & A9 & A10 & A11)]; [left; split; [apply I, A|exact B]|].
  right. exists cd, rv, b, k. cbv zeta. splits; auto. destruct A11 as [(X & Y)|(X & Y)]; [left|right]; (split; [rewrite <- I; exact X|exact Y]).
Qed.
Lemma birth_steady l did handle status hc key : Forall no_import l -> is_did did -> handle_ok handle ->
  let w := arun digest kdigest validate ecdsa now cb be init_world l in
  let '(w', out) := sstep digest kdigest validate ecdsa now cb be w (SCreate did handle status hc key) in
  birth digest now cb did handle hc (w_state w) (w_state w') (exists e, out = Err e).
Proof.
  intros F ID HH. cbv zeta. destruct (steady_run digest kdigest validate ecdsa now cb be inj l F) as [HK HL]. cbv zeta in HK, HL. set (w := arun _ _ _ _ _ _ _ _ l) in *.
  pose proof (birth_calls did handle status hc key (w_state w) HK HL ID HH) as B. cbv zeta in B. cbn [sstep]. unfold on_new, bindM.
  destruct (repo_create digest kdigest validate ecdsa now cb be did handle status hc key (w_state w)) as [st' [r|e]]; cbn [fst snd] in B; unfold ret; cbn [w_state].
  - eapply birth_same; [|exact B]. split; intros [x X]; discriminate X.
  - eapply birth_same; [|exact B]. split; intros _; eexists; reflexivity.
Qed.
End Birth.
