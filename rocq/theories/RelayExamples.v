(** A firehose over the messages of [wstory]. *)
From Coq Require Import String List NArith ZArith Bool Lia.
From Verif Require Import Base Lists Ipld MstModel CarModel StorageModel StorageSpec RepoSpec RepoExamples EventsModel EventsSpec EventsFacts EventsProps
  MessageModel MessageSpec MessageExamples ReplicaSpec ReplicaProofs ReplicaProps FireModel FireSpec FireCheck FireExamples StreamSpec StreamProofs
  RelaySpec RelayProofs.
Import ListNotations.

(** The messages of [wstory] through a firehose with a window of four events, to a consumer who has
    alice's repo as it was after the first two operations. *)
Definition frame (m : message_parts) : str := encode (norm (IMap (fst m))) ++ encode (norm (IMap (snd m))).
Definition revs : list event := Eval vm_compute in map (to_event frame) (ex_msgs 0).
Definition rev (n : nat) : event := nth (n - 1) revs (ev 0).
Definition remit (n : nat) : list act :=
  [EAdd (rev n); ELast (Some (Z.of_nat n)); CStep; CItem (rev n); CStep; CStep; CStep; CEnd].
Definition rboot : list act := map (fun n => EAdd (rev n)) (seq 1 8) ++ [ELast (Some 8%Z); CStep; CItem (rev 7); CItem (rev 8); CEnd; SOpen (SNew (Some 6%Z))].
Definition rrun : list act :=
  [SItem 0 (rev 6); SStep 0] ++ remit 9 ++ [SItem 0 (rev 7); SStep 0; SStep 0; SStep 0] ++ remit 10 ++ [SStep 0; SStep 0; SStep 0; SStep 0].
Definition in_turnb (f : fire) (a : act) : bool :=
  let least q e := forallb (fun x => negb (q_pos q <=? e_seq x)%Z || (e_seq e <=? e_seq x)%Z) (f_log f) in
  match a with
  | EAdd e => forallb (fun x => (e_seq x <? e_seq e)%Z) (f_log f)
  | CItem e => match f_coll f with CPreload _ q _ | CRead q => least q e | _ => true end
  | SItem i e => match nth_error (f_threads f) i with Some (Sub (SQuery _ _ _ q) _) => least q e | _ => true end
  | _ => true
  end.
Definition steadyb (f : fire) (a : act) : bool := honestb f a && in_turnb f a.
Definition rf1 : fire := match checked cf4 steadyb always fire0 rboot with Some f => f | None => fire0 end.
Definition rf2 : fire := match checked cf4 (fun g a => steadyb g a && unbothered cf4 0 g a) (timelyb cf4 0 0) rf1 (SStep 0 :: rrun) with Some f => f | None => fire0 end.


Definition ritems : list eitem := fst (read_events (w_state (wafter wstory)) (scan (flip_query (w_state (wafter wstory)) None) [] 6)).

Lemma in_turnb_ok f a : in_turnb f a = true -> in_turn f a.
Proof.
  assert (L : forall q e, forallb (fun x => negb (q_pos q <=? e_seq x)%Z || (e_seq e <=? e_seq x)%Z) (f_log f) = true -> least (f_log f) q e).
  { intros q e H x Hx P. rewrite forallb_forall in H. specialize (H x Hx). apply Z.leb_le in P. rewrite P in H. now apply Z.leb_le. }
  destruct a; cbn; auto.
  - intros H x Hx. rewrite forallb_forall in H. apply Z.ltb_lt. now apply H.
  - destruct (f_coll f); auto.
  - intros H c pre last q out T. unfold thread in T. rewrite T in H. auto.
Qed.
Lemma steadyb_ok f a : steadyb f a = true -> steady f a.
Proof. intros H. apply andb_true_iff in H. destruct H as [H1 H2]. exact (conj (honestb_ok _ _ H1) (in_turnb_ok _ _ H2)). Qed.

(** Both sides of an equality compute to the same value. The value is written into the proof, which is faster to
    check without the virtual machine. *)
Ltac same := match goal with |- ?a = _ => let v := eval vm_compute in a in vm_cast_no_check (eq_refl v) end.

Lemma rboot_ok : checked cf4 steadyb always fire0 rboot = Some rf1.
Proof.
  assert (H : match checked cf4 steadyb always fire0 rboot with Some _ => true | None => false end = true) by (vm_cast_no_check (eq_refl true)).
  unfold rf1. destruct (checked cf4 steadyb always fire0 rboot); [reflexivity|discriminate H].
Qed.
Lemma rrun_ok : checked cf4 (fun g a => steadyb g a && unbothered cf4 0 g a) (timelyb cf4 0 0) rf1 (SStep 0 :: rrun) = Some rf2.
Proof.
  assert (H : match checked cf4 (fun g a => steadyb g a && unbothered cf4 0 g a) (timelyb cf4 0 0) rf1 (SStep 0 :: rrun) with Some _ => true | None => false end = true) by (vm_cast_no_check (eq_refl true)).
  unfold rf2. destruct (checked cf4 _ _ rf1 _); [reflexivity|discriminate H].
Qed.
Lemma revs_ok : revs = map (to_event frame) (ex_msgs 0).
Proof. same. Qed.
Lemma rlog : f_log rf2 = map (to_event frame) (ex_msgs 0).
Proof. rewrite <- revs_ok. same. Qed.
Lemma rsplit : ex_msgs 0 = firstn 5 (ex_msgs 0) ++ ex_msgs 6.
Proof. same. Qed.
Lemma rprocessed : map (fun i => process_event (fun _ => s "now") (w_state (wafter wstory)) i None) ritems = map (@Ok _) (ex_msgs 6).
Proof. same. Qed.
Lemma rearly : forallb (fun m => (msg_seq m <? 6)%Z) (firstn 5 (ex_msgs 0)) = true.
Proof. same. Qed.
Lemma rlate : forallb (fun e => (e_seq e <=? 10)%Z) (f_log rf2) = true.
Proof. same. Qed.

Lemma streams_msgs btime st items c ms1 ms2 :
  map (fun i => process_event btime st i None) items = map (@Ok _) ms2 ->
  forallb (fun m => (msg_seq m <? c)%Z) ms1 = true ->
  streams frame btime st items c (map (to_event frame) (ms1 ++ ms2)).
Proof.
  intros Hp Hb e Le. rewrite map_app, in_app_iff. split.
  - intros [H|H].
    + exfalso. apply in_map_iff in H. destruct H as (m & <- & Hm). rewrite forallb_forall in Hb.
      specialize (Hb m Hm). apply Z.ltb_lt in Hb. cbn [to_event e_seq] in Le. lia.
    + apply in_map_iff in H. destruct H as (m & <- & Hm). apply (in_map (@Ok _)) in Hm. rewrite <- Hp in Hm.
      apply in_map_iff in Hm. destruct Hm as (i & P & Hi). exists i, m. auto.
  - intros (i & m & Hi & P & ->). right. apply in_map.
    apply (in_map (fun i => process_event btime st i None)) in Hi. rewrite Hp, P in Hi.
    apply in_map_iff in Hi. destruct Hi as (m' & E & Hm). injection E as ->. exact Hm.
Qed.
Lemma rstreams : streams frame (fun _ => s "now") (w_state (wafter wstory)) ritems 6 (f_log rf2).
Proof. rewrite rlog, rsplit. exact (streams_msgs _ _ _ _ _ _ rprocessed rearly). Qed.

Lemma rcase : setting wdigest xkdigest xvalidate xcb /\ (forall x, length (wdigest x) = 32) /\
  whistory (firstn 2 wstory) (wafter (firstn 2 wstory)) (snd (wrun (firstn 2 wstory))) /\
  whistory (firstn 2 wstory ++ skipn 2 wstory) (wafter wstory) (snd (wrun wstory)) /\
  (exists cs, copied Datastore (w_state (wafter (firstn 2 wstory))) (book_of [] (firstn 2 wstory) (snd (wrun (firstn 2 wstory)))) cs) /\
  s_next (w_state (wafter (firstn 2 wstory))) = 6%Z /\
  (forall i cur, enumerates (w_state (wafter wstory)) cur None (flip_query (w_state (wafter wstory)) None i cur)) /\
  read_events (w_state (wafter wstory)) (scan (flip_query (w_state (wafter wstory)) None) [] 6) = (ritems, None) /\
  reached cf4 steady rf1 /\ thread rf1 0 (SNew (Some 6%Z)) [] /\ (exists x, In x (collected rf1) /\ (6 <= e_seq x)%Z) /\
  run cf4 rf1 (SStep 0 :: rrun) = Some rf2 /\
  along cf4 (fun f a => steady f a /\ undisturbed cf4 0 f a /\ calm cf4 0 f a) rf1 (SStep 0 :: rrun) /\
  throughout cf4 (timely cf4 0 (length (f_sent rf1))) rf1 (SStep 0 :: rrun) /\ up_to_date rf2 /\
  thread rf2 0 (SLive []) (map (fun m => FireModel.MEvent (to_event frame m)) (ex_msgs 6)) /\ length (ex_msgs 6) = 5 /\
  streams frame (fun _ => s "now") (w_state (wafter wstory)) ritems 6 (f_log rf2).
Proof.
  assert (WH : whistory (firstn 2 wstory) (wafter (firstn 2 wstory)) (snd (wrun (firstn 2 wstory)))) by (apply whistory_ok; reflexivity).
  assert (WA : whistory (firstn 2 wstory ++ skipn 2 wstory) (wafter wstory) (snd (wrun wstory))) by (apply whistory_ok; reflexivity).
  split; [exact wsetting|]. split; [exact wdigest_length|]. split; [exact WH|]. split; [exact WA|]. split.
  { destruct (c66_start wdigest xkdigest xvalidate xecdsa xnow xcb Datastore) as [H0 C0].
    destruct (c66_datastore wdigest xkdigest xvalidate xecdsa xnow xcb (fun _ => s "now") [] (firstn 2 wstory) _ _ _ _ [] (flip_query (w_state (wafter (firstn 2 wstory))) None) [] wsetting wdigest_length H0 WH
      (fun i cur => flip_enumerates _ None i cur (hist_keyed _ _ _ _ _ _ _ _ _ _ wsetting WH)) C0) as (_ & _ & cs & _ & _ & _ & X).
    exists cs. exact X. }
  split; [same|]. split; [exact (fun i cur => flip_enumerates _ None i cur (hist_keyed _ _ _ _ _ _ _ _ _ _ wsetting WA))|]. split; [same|]. split.
  { destruct (checked_ok cf4 steadyb always steady (fun _ => True) _ _ _ steadyb_ok (fun _ _ => Logic.I) rboot_ok) as (H1 & H2 & _). exact (ex_intro _ rboot (conj H1 H2)). }
  split; [unfold thread; same|]. split.
  { exists (nth 0 (collected rf1) (ev 0)). split; [apply nth_In; apply Nat.ltb_lt; same|apply Z.leb_le; same]. }
  destruct (checked_ok cf4 (fun g a => steadyb g a && unbothered cf4 0 g a) (timelyb cf4 0 0)
    (fun f a => steady f a /\ undisturbed cf4 0 f a /\ calm cf4 0 f a) (timely cf4 0 0) _ _ _
    ltac:(intros g a X; apply andb_true_iff in X; destruct X as [X1 X2]; exact (conj (steadyb_ok _ _ X1) (unbothered_ok _ _ _ _ X2)))
    (timelyb_ok cf4 0 0) rrun_ok) as (H1 & H2 & H3).
  split; [exact H1|]. split; [exact H2|]. split; [exact H3|]. split.
  { intros e He. pose proof rlate as R. rewrite forallb_forall in R. specialize (R e He). apply Z.leb_le in R.
    exists (nth 3 (collected rf2) (ev 0)). split; [apply nth_In; apply Nat.ltb_lt; same|].
    replace (e_seq (nth 3 (collected rf2) (ev 0))) with 10%Z by (symmetry; same). exact R. }
  split; [unfold thread; same|]. split; [same|exact rstreams].
Qed.
