(** Concrete runs of the firehose. *)
From Coq Require Import String List NArith ZArith Bool Lia Sorted.
From Verif Require Import Base Lists FireModel FireSpec FireCheck FireProofs FireFacts.
Import ListNotations.
Local Open Scope Z_scope.

Definition ev (n : Z) : event := Ev n [].
Definition evs (l : list Z) : list event := map ev l.

(** A window of four events, two of which are loaded at the start. *)
Definition cf4 : config := Config 4 2 5 10.
Definition cf2 : config := Config 2 2 5 10.

(** Events 1 to 5, of which the collector loads the last two. *)
Definition boot : list act := map (fun n => EAdd (ev n)) [1; 2; 3; 4; 5] ++ [ELast (Some 5); CStep; CItem (ev 4); CItem (ev 5); CEnd].

(** The collector sends event [n] as soon as it is there. *)
Definition emit (n : Z) : list act := [EAdd (ev n); ELast (Some n); CStep; CItem (ev n); CStep; CStep; CStep; CEnd].

Definition after (cf : config) (l : list act) : fire := match checked cf honestb always fire0 l with Some f => f | None => fire0 end.

Lemma after_reached cf l : (if checked cf honestb always fire0 l then true else false) = true -> reached cf honest (after cf l).
Proof. unfold after. destruct (checked cf honestb always fire0 l) as [f|] eqn:E; [|discriminate]. intros _. exact (checked_reached _ _ _ E). Qed.

(** *** One subscriber *)

(** It asks for events from 2 on; the collector goes on meanwhile. *)
Definition ex1 : fire := after cf4 (boot ++ [SOpen (SRequest (Some 2)); SStep 0]).
Definition ex_run : list act :=
  [SItem 0 (ev 2); SStep 0] ++ emit 6 ++ [SItem 0 (ev 3); SStep 0; SItem 0 (ev 4); SStep 0; SStep 0; SStep 0] ++ emit 7 ++
  [SStep 0; SStep 0; SStep 0] ++ emit 8 ++ [SStep 0; SStep 0].

Definition pass (cf : config) (i n : nat) (p : fire -> act -> bool) (f : fire) (l : list act) : option fire :=
  checked cf (fun g a => honestb g a && p g a) (timelyb cf i n) f l.

Lemma pass_ok p (P : fire -> act -> Prop) cf i n f l f' : (forall g a, p g a = true -> P g a) -> pass cf i n p f l = Some f' ->
  run cf f l = Some f' /\ along cf (fun g a => honest g a /\ P g a) f l /\ throughout cf (timely cf i n) f l.
Proof.
  intros HP. apply checked_ok; [|apply timelyb_ok]. intros g a X. apply andb_true_iff in X. destruct X as [X1 X2].
  exact (conj (honestb_ok _ _ X1) (HP _ _ X2)).
Qed.

Definition unbothered (cf : config) (i : nat) (g : fire) (a : act) : bool := undisturbedb cf i g a && calmb cf i g a.
Lemma unbothered_ok cf i g a : unbothered cf i g a = true -> undisturbed cf i g a /\ calm cf i g a.
Proof. intros X. apply andb_true_iff in X. destruct X as [X2 X3]. exact (conj (undisturbedb_ok _ _ _ _ X2) (calmb_ok _ _ _ _ X3)). Qed.

Definition ex2 : fire := match run cf4 ex1 (SStep 0 :: ex_run) with Some f => f | None => fire0 end.

Lemma ex_pass : pass cf4 0 (length (f_sent ex1)) (unbothered cf4 0) ex1 (SStep 0 :: ex_run) = Some ex2.
Proof. vm_compute. reflexivity. Qed.

Example ex1_ok : reached cf4 honest ex1 /\ thread ex1 0 (SNew (Some 2)) [] /\ (exists x, In x (collected ex1) /\ 2 <= e_seq x) /\
  f_rollback ex1 = evs [4; 5].
Proof.
  split; [apply after_reached; vm_compute; reflexivity|]. split; [vm_compute; reflexivity|]. split; [|vm_compute; reflexivity].
  exists (ev 4). split; [vm_compute; auto|cbn; lia].
Qed.

Example ex2_ok : run cf4 ex1 (SStep 0 :: ex_run) = Some ex2 /\
  along cf4 (fun f a => honest f a /\ undisturbed cf4 0 f a /\ calm cf4 0 f a) ex1 (SStep 0 :: ex_run) /\
  throughout cf4 (timely cf4 0 (length (f_sent ex1))) ex1 (SStep 0 :: ex_run) /\
  thread ex2 0 (SLive []) (map MEvent (evs [2; 3; 4; 5; 6; 7; 8])).
Proof.
  destruct (pass_ok _ _ _ _ _ _ _ ex2 (unbothered_ok cf4 0) ex_pass) as (H1 & H2 & H3).
  split; [exact H1|]. split; [exact H2|]. split; [exact H3|]. vm_compute. reflexivity.
Qed.

(** *** What goes wrong *)

(** The window moves between the two looks at it. *)
Definition race1 : fire := after cf2 (boot ++ [SOpen (SNew (Some 4))]).
Definition race_run : list act := emit 6 ++ [SStep 0; SStep 0; SStep 0; SStep 0; SStep 0].
Definition race2 : fire := match run cf2 race1 (SStep 0 :: race_run) with Some f => f | None => fire0 end.

Lemma race_pass : pass cf2 0 (length (f_sent race1)) (aloneb 0) race1 (SStep 0 :: race_run) = Some race2.
Proof. vm_compute. reflexivity. Qed.

Lemma race : exists cf f1 c l f2 D e, (0 < rollback_window cf)%nat /\ reached cf honest f1 /\ thread f1 0 (SNew (Some c)) [] /\ 0 <= c /\
  (exists x, In x (collected f1) /\ c <= e_seq x) /\ run cf f1 (SStep 0 :: l) = Some f2 /\
  along cf (fun g a => honest g a /\ alone 0 g a) f1 (SStep 0 :: l) /\ throughout cf (timely cf 0 (length (f_sent f1))) f1 (SStep 0 :: l) /\
  thread f2 0 (SLive []) (map MEvent D) /\ In e (collected f1) /\ owed f1 f2 c e /\ ~ In e D.
Proof.
  exists cf2, race1, 4, race_run, race2, (evs [5; 6]), (ev 4). split; [cbn; lia|]. split; [apply after_reached; vm_compute; reflexivity|].
  split; [vm_compute; reflexivity|]. split; [lia|]. split; [exists (ev 4); split; [vm_compute; auto|cbn; lia]|].
  destruct (pass_ok _ _ _ _ _ _ _ race2 (aloneb_ok 0) race_pass) as (H1 & H2 & H3).
  split; [exact H1|]. split; [exact H2|]. split; [exact H3|].
  split; [vm_compute; reflexivity|]. split; [vm_compute; auto|]. split; [split; [cbn; lia|left; vm_compute; auto]|].
  cbn. intros [X|[X|[]]]; discriminate X.
Qed.

(** More events than the window holds come while the storage is read. *)
Definition over1 : fire := after cf2 (boot ++ [SOpen (SNew (Some 2))]).
Definition over_run : list act :=
  [SItem 0 (ev 2); SStep 0; SItem 0 (ev 3); SStep 0] ++ emit 6 ++ emit 7 ++ emit 8 ++
  [SItem 0 (ev 4); SStep 0; SItem 0 (ev 5); SStep 0; SEnd 0; SStep 0; SStep 0; SStep 0; SStep 0; SStep 0].
Definition over2 : fire := match run cf2 over1 (SStep 0 :: over_run) with Some f => f | None => fire0 end.
Definition quiet (g : fire) (a : act) : bool := aloneb 0 g a && calmb cf2 0 g a.
Definition fair (g : fire) (a : act) : bool := honestb g a && quiet g a.
Lemma fair_ok g a : fair g a = true -> honest g a /\ alone 0 g a /\ calm cf2 0 g a.
Proof.
  intros X. apply andb_true_iff in X. destruct X as [X1 X]. apply andb_true_iff in X. destruct X as [X2 X3].
  exact (conj (honestb_ok _ _ X1) (conj (aloneb_ok _ _ _ X2) (calmb_ok _ _ _ _ X3))).
Qed.
Lemma over_pass : checked cf2 fair always over1 (SStep 0 :: over_run) = Some over2.
Proof. vm_compute. reflexivity. Qed.

Lemma overrun : exists cf f1 c l f2 D e, (0 < rollback_window cf)%nat /\ reached cf honest f1 /\ thread f1 0 (SNew (Some c)) [] /\ 0 <= c /\
  (exists x, In x (collected f1) /\ c <= e_seq x) /\ run cf f1 (SStep 0 :: l) = Some f2 /\
  along cf (fun g a => honest g a /\ alone 0 g a /\ calm cf 0 g a) f1 (SStep 0 :: l) /\
  thread f2 0 (SLive []) (map MEvent D) /\ owed f1 f2 c e /\ (exists d, In d D /\ e_seq e < e_seq d) /\ ~ In e D.
Proof.
  exists cf2, over1, 2, over_run, over2, (evs [2; 3; 4; 5; 7; 8]), (ev 6). split; [cbn; lia|]. split; [apply after_reached; vm_compute; reflexivity|].
  split; [vm_compute; reflexivity|]. split; [lia|]. split; [exists (ev 4); split; [vm_compute; auto|cbn; lia]|].
  destruct (checked_ok _ _ _ _ (fun _ => True) _ _ _ fair_ok (fun _ _ => Logic.I) over_pass) as (H1 & H2 & _).
  split; [exact H1|]. split; [exact H2|].
  split; [vm_compute; reflexivity|]. split; [split; [cbn; lia|left; vm_compute; auto]|]. split; [exists (ev 8); split; [vm_compute; tauto|cbn; lia]|].
  intros X. repeat (destruct X as [X|X]; [discriminate X|]). exact X.
Qed.

(** Nothing in the window yet. *)
Definition empty1 : fire := after cf4 [ELast (Some 0); CStep; CEnd; SOpen (SRequest (Some 0)); SStep 0].
Definition empty2 : fire := match run cf4 empty1 [SStep 0; SStep 0] with Some f => f | None => fire0 end.

Lemma empty_window : exists cf f1 f2, (0 < rollback_window cf)%nat /\ reached cf honest f1 /\ f_last f1 = Some 0 /\ f_started f1 = true /\
  thread f1 0 (SNew (Some 0)) [] /\ run cf f1 [SStep 0; SStep 0] = Some f2 /\ thread f2 0 (SDead (Some IndexError)) [].
Proof.
  exists cf4, empty1, empty2. split; [cbn; lia|]. split; [apply after_reached; vm_compute; reflexivity|]. vm_compute. auto 6.
Qed.

(** An event before the cursor is sent live. *)
Definition cf5 : config := Config 4 5 5 10.
Definition below1 : fire := after cf5 [EAdd (ev 1); ELast (Some 3); CStep; CItem (ev 1); CEnd; SOpen (SRequest (Some 3)); SStep 0].
Definition below_run : list act :=
  [SStep 0; SStep 0; SStep 0; SStep 0; EAdd (ev 2); CStep; CItem (ev 2); CStep; CStep; CStep; SStep 0].
Definition below2 : fire := match run cf5 below1 (SStep 0 :: below_run) with Some f => f | None => fire0 end.
Lemma below_pass : pass cf5 0 0 (fun g a => aloneb 0 g a && calmb cf5 0 g a) below1 (SStep 0 :: below_run) = Some below2.
Proof. vm_compute. reflexivity. Qed.

Lemma below_cursor : exists cf f1 c last l f2 e, (0 < rollback_window cf)%nat /\ reached cf honest f1 /\ f_last f1 = Some last /\ c <= last /\
  thread f1 0 (SNew (Some c)) [] /\ run cf f1 (SStep 0 :: l) = Some f2 /\
  along cf (fun g a => honest g a /\ alone 0 g a /\ calm cf 0 g a) f1 (SStep 0 :: l) /\
  thread f2 0 (SLive []) [MEvent e] /\ e_seq e < c.
Proof.
  exists cf5, below1, 3, 3, below_run, below2, (ev 2). split; [cbn; lia|]. split; [apply after_reached; vm_compute; reflexivity|].
  split; [vm_compute; reflexivity|]. split; [lia|]. split; [vm_compute; reflexivity|].
  destruct (pass_ok _ (fun g a => alone 0 g a /\ calm cf5 0 g a) _ _ _ _ _ _
    ltac:(intros g a X; apply andb_true_iff in X; exact (conj (aloneb_ok _ _ _ (proj1 X)) (calmb_ok _ _ _ _ (proj2 X)))) below_pass) as (H1 & H2 & _).
  split; [exact H1|]. split; [exact H2|]. split; [vm_compute; reflexivity|cbn; lia].
Qed.

(** Two subscribers. *)
Definition two1 : fire := after cf4 (boot ++ [SOpen (SNew (Some 2)); SOpen (SNew (Some 2))]).
Definition two_run : list act :=
  [SItem 0 (ev 2); SStep 0; SItem 0 (ev 3); SStep 0] ++
  [SStep 1; SItem 1 (ev 2); SStep 1; SItem 1 (ev 3); SStep 1; SItem 1 (ev 4); SStep 1] ++
  [SItem 0 (ev 4); SStep 0; SStep 0; SStep 0; SStep 0; SStep 0].
Definition two2 : fire := match run cf4 two1 (SStep 0 :: two_run) with Some f => f | None => fire0 end.
Lemma two_pass : pass cf4 0 (length (f_sent two1)) (calmb cf4 0) two1 (SStep 0 :: two_run) = Some two2.
Proof. vm_compute. reflexivity. Qed.

Lemma disturbed : exists cf f1 c l f2 st D, (0 < rollback_window cf)%nat /\ reached cf honest f1 /\ thread f1 0 (SNew (Some c)) [] /\ 0 <= c /\
  (exists x, In x (collected f1) /\ c <= e_seq x) /\ run cf f1 (SStep 0 :: l) = Some f2 /\
  along cf (fun g a => honest g a /\ calm cf 0 g a) f1 (SStep 0 :: l) /\ throughout cf (timely cf 0 (length (f_sent f1))) f1 (SStep 0 :: l) /\
  thread f2 0 st (map MEvent D) /\ ~ increasing D /\ ~ NoDup D.
Proof.
  exists cf4, two1, 2, two_run, two2, (SServe 2 (evs [2; 3; 4; 5]) []), (evs [2; 3; 2; 3; 4; 5]).
  split; [cbn; lia|]. split; [apply after_reached; vm_compute; reflexivity|].
  split; [vm_compute; reflexivity|]. split; [lia|]. split; [exists (ev 4); split; [vm_compute; auto|cbn; lia]|].
  destruct (pass_ok _ _ _ _ _ _ _ two2 (calmb_ok cf4 0) two_pass) as (H1 & H2 & H3).
  split; [exact H1|]. split; [exact H2|]. split; [exact H3|]. split; [vm_compute; reflexivity|]. split.
  - intros X. inversion X as [|? ? X1 X2]; subst. inversion X2 as [|? ? X3 X4]; subst. inversion X4 as [|? ? X5 X6]; subst. cbn in X5. lia.
  - intros X. inversion X as [|? ? X1 X2]; subst. apply X1. cbn. auto.
Qed.

(** After a while without events. *)
Definition calm_run : list act :=
  [EAdd (ev 1); ELast (Some 1); CStep; CItem (ev 1); CEnd; ETime 100; ELast (Some 3); EAdd (ev 3); CStep; CItem (ev 3); CStep; CStep; CStep].
Definition gap1 : fire := after cf5 calm_run.
Definition gap2 : fire := match step cf5 gap1 CStep with Some f => f | None => fire0 end.
Definition unhurried (m now : Z) (g : fire) : bool := negb (existsb (fun x => m <? e_seq x) (f_log g)) || (f_now g =? now).
Lemma unhurried_ok m now g : unhurried m now g = true -> (exists x, In x (f_log g) /\ m < e_seq x) -> f_now g = now.
Proof.
  intros H (x & Hx & L). unfold unhurried in H. apply orb_true_iff in H. destruct H as [H|H]; [|now apply Z.eqb_eq].
  apply negb_true_iff in H. assert (X : existsb (fun x => m <? e_seq x) (f_log g) = true). { apply existsb_exists. exists x. split; [assumption|now apply Z.ltb_lt]. } congruence.
Qed.
Lemma gap_pass : checked cf5 honestb (unhurried 2 100) fire0 calm_run = Some gap1.
Proof. vm_compute. reflexivity. Qed.

(** Number 2 is still under way when 3 is sent, at the very moment when 3 turns up, and 2 is never sent. *)
Lemma hasty : exists cf l f f' p e m last, (0 < rollback_window cf)%nat /\ 0 < skip_delay cf /\ run cf fire0 l = Some f /\ along cf honest fire0 l /\
  step cf f CStep = Some f' /\ f_sent f' = f_sent f ++ [e] /\ last_of (collected f) = Some p /\ e_seq p < m < e_seq e /\
  ~ In m (f_lost f) /\ ~ In m (map e_seq (f_log f)) /\ f_last f = Some last /\ last - e_seq p <= skip_window cf /\
  throughout cf (fun g => (exists x, In x (f_log g) /\ m < e_seq x) -> f_now g = f_now f) fire0 l /\
  forall l' f'', run cf f' l' = Some f'' -> ~ In m (map e_seq (f_sent f'')).
Proof.
  exists cf5, calm_run, gap1, gap2, (ev 1), (ev 3), 2, 3. split; [cbn; lia|]. split; [cbn; lia|].
  destruct (checked_ok _ _ _ _ _ _ _ _ honestb_ok (unhurried_ok 2 100) gap_pass) as (H1 & H2 & H3).
  assert (E : step cf5 gap1 CStep = Some gap2) by (vm_compute; reflexivity).
  split; [exact H1|]. split; [exact H2|]. split; [exact E|]. split; [vm_compute; reflexivity|]. split; [vm_compute; reflexivity|]. split; [cbn; lia|].
  split; [vm_compute; tauto|]. split; [vm_compute; intros [X|[X|X]]; [discriminate X|discriminate X|exact X]|]. split; [vm_compute; reflexivity|]. split; [cbn; lia|].
  split; [exact H3|]. intros l' f'' R.
  refine (passed_over cf5 anything gap2 2 (ev 3) l' f'' _ _ _ _ _ _ R).
  - cbn. lia.
  - exists (calm_run ++ [CStep]). split; [|apply along_anything]. rewrite run_app, H1. cbn [run]. now rewrite E.
  - vm_compute. reflexivity.
  - vm_compute. reflexivity.
  - cbn. lia.
  - vm_compute. intros [X|X]; [discriminate X|exact X].
Qed.

(** Number 2 is under way when the server starts and loads 1 and 3. *)
Definition load_run : list act := [EAdd (ev 1); EAdd (ev 3); ELast (Some 3); CStep; CItem (ev 1); CItem (ev 3); CEnd].
Definition load1 : fire := after cf5 load_run.
Lemma load_pass : checked cf5 honestb (fun g => f_now g =? 0) fire0 load_run = Some load1.
Proof. vm_compute. reflexivity. Qed.

Lemma overlooked : exists cf l f m p, (0 < rollback_window cf)%nat /\ 0 < skip_delay cf /\ run cf fire0 l = Some f /\ along cf honest fire0 l /\
  f_started f = true /\ throughout cf (fun g => f_now g = 0) fire0 l /\ ~ In m (f_lost f) /\ ~ In m (map e_seq (f_log f)) /\
  last_of (collected f) = Some p /\ f_last f = Some (e_seq p) /\ m < e_seq p /\
  forall l' f'', run cf f l' = Some f'' -> ~ In m (map e_seq (f_sent f'')).
Proof.
  exists cf5, load_run, load1, 2, (ev 3). split; [cbn; lia|]. split; [cbn; lia|].
  destruct (checked_ok _ _ _ _ (fun g => f_now g = 0) _ _ _ honestb_ok (fun g H => proj1 (Z.eqb_eq _ _) H) load_pass) as (H1 & H2 & H3).
  split; [exact H1|]. split; [exact H2|]. split; [vm_compute; reflexivity|]. split; [exact H3|]. split; [vm_compute; tauto|].
  split; [vm_compute; intros [X|[X|X]]; [discriminate X|discriminate X|exact X]|]. split; [vm_compute; reflexivity|].
  split; [vm_compute; reflexivity|]. split; [cbn; lia|]. intros l' f'' R.
  refine (passed_over cf5 anything load1 2 (ev 3) l' f'' _ _ _ _ _ _ R).
  - cbn. lia.
  - exists load_run. split; [exact H1|apply along_anything].
  - vm_compute. reflexivity.
  - vm_compute. reflexivity.
  - cbn. lia.
  - vm_compute. tauto.
Qed.

(** The storage fails while the collector loads events: it is never started. *)
Definition fail_run : list act := [EAdd (ev 1); ELast (Some 1); CStep; CFail; SOpen (SNew None)].
Definition fail1 : fire := after cf5 fail_run.

Lemma never_starts : exists cf f, reached cf honest f /\ thread f 0 (SNew None) [] /\
  forall l f', run cf f l = Some f' -> f_started f' = false /\ f_sent f' = [].
Proof.
  exists cf5, fail1. assert (R : reached cf5 honest fail1) by (apply after_reached; vm_compute; reflexivity).
  split; [exact R|]. split; [vm_compute; reflexivity|]. intros l f' Ru.
  assert (D : f_coll fail1 = CDead) by (vm_compute; reflexivity). pose proof (dead_collector _ _ _ _ D Ru) as D'.
  assert (R' : reached cf5 anything f').
  { destruct R as (l0 & R & _). exists (l0 ++ l). split; [now rewrite run_app, R|apply along_anything]. }
  assert (S : f_started f' = false) by (rewrite (started_collecting _ _ _ R'), D'; reflexivity).
  split; [exact S|]. now apply (o_start cf5 f' (reached_ordered _ _ _ R')).
Qed.

(** *** For FireProps *)

Lemma ex2_collected : collected ex2 = evs [4; 5; 6; 7; 8].
Proof. vm_compute. reflexivity. Qed.

Lemma ex_alone_pass : pass cf4 0 (length (f_sent ex1)) (fun g a => aloneb 0 g a && calmb cf4 0 g a) ex1 (SStep 0 :: ex_run) = Some ex2.
Proof. vm_compute. reflexivity. Qed.

Lemma ex_alone : reached cf4 honest ex1 /\ thread ex1 0 (SNew (Some 2)) [] /\ (exists x, In x (collected ex1) /\ 2 <= e_seq x) /\
  run cf4 ex1 (SStep 0 :: ex_run) = Some ex2 /\
  along cf4 (fun f a => honest f a /\ alone 0 f a /\ calm cf4 0 f a) ex1 (SStep 0 :: ex_run) /\
  throughout cf4 (timely cf4 0 (length (f_sent ex1))) ex1 (SStep 0 :: ex_run) /\
  thread ex2 0 (SLive []) (map MEvent (evs [2; 3; 4; 5; 6; 7; 8])).
Proof.
  destruct ex1_ok as (X1 & X2 & X3 & _). destruct ex2_ok as (_ & _ & _ & Y).
  destruct (pass_ok _ (fun g a => alone 0 g a /\ calm cf4 0 g a) _ _ _ _ _ _
    ltac:(intros g a X; apply andb_true_iff in X; exact (conj (aloneb_ok _ _ _ (proj1 X)) (calmb_ok _ _ _ _ (proj2 X)))) ex_alone_pass) as (H1 & H2 & H3).
  exact (conj X1 (conj X2 (conj X3 (conj H1 (conj H2 (conj H3 Y)))))).
Qed.

Lemma ex2_window : reached cf4 anything ex2 /\ f_subscribers ex2 = [0%nat] /\ thread ex2 0 (SLive []) (map MEvent (evs [2; 3; 4; 5; 6; 7; 8])) /\
  f_rollback ex2 = evs [5; 6; 7; 8].
Proof.
  split; [|vm_compute; auto]. destruct ex1_ok as ((l & R & _) & _). destruct ex2_ok as (R2 & _).
  exists (l ++ SStep 0 :: ex_run). split; [now rewrite run_app, R|apply along_anything].
Qed.

Definition live_run : list act := [SStep 0; SStep 0] ++ emit 6 ++ emit 7 ++ [SStep 0].
Lemma live_case : exists f f2, reached cf4 anything f /\ thread f 0 (SNew None) [] /\ run cf4 f live_run = Some f2 /\
  thread f2 0 (SLive (evs [7])) (map MEvent (evs [6])).
Proof.
  destruct (run cf4 fire0 (boot ++ [SOpen (SNew None)])) as [f|] eqn:E; [|vm_compute in E; discriminate E].
  exists f. destruct (run cf4 f live_run) as [f2|] eqn:E2; [|vm_compute in E; injection E as <-; vm_compute in E2; discriminate E2].
  exists f2. split; [eexists; split; [exact E|apply along_anything]|]. vm_compute in E. injection E as <-. split; [reflexivity|]. split; [reflexivity|].
  vm_compute in E2. injection E2 as <-. reflexivity.
Qed.

Definition request_all : list act := map SOpen [SRequest (Some 6); SRequest (Some 0); SRequest (Some 5); SRequest None].
Lemma request_case : exists f1 f2 f3, run cf4 fire0 (boot ++ request_all) = Some f1 /\ step cf4 f1 (SStep 0) = Some f2 /\
  run cf4 f2 [SStep 1; SStep 2; SStep 3] = Some f3 /\ thread f3 0 (SDead None) [MFuture 6 5] /\ thread f3 1 (SNew (Some 1)) [MOutdated] /\
  thread f3 2 (SNew (Some 5)) [] /\ thread f3 3 (SNew None) [].
Proof.
  destruct (run cf4 fire0 (boot ++ request_all)) as [f1|] eqn:E1; [|vm_compute in E1; discriminate E1]. exists f1.
  vm_compute in E1. injection E1 as <-.
  match goal with |- context [step ?c ?f ?a] => destruct (step c f a) as [f2|] eqn:E2; [|vm_compute in E2; discriminate E2] end. exists f2.
  vm_compute in E2. injection E2 as <-.
  match goal with |- context [run ?c ?f ?a] => destruct (run c f a) as [f3|] eqn:E3; [|vm_compute in E3; discriminate E3] end. exists f3.
  vm_compute in E3. injection E3 as <-. split; [reflexivity|]. split; [reflexivity|]. split; [reflexivity|]. unfold thread. auto.
Qed.
