(** Proofs for CallbackProps: what is stored does not depend on callbacks that raise. *)

From Coq Require Import ZArith NArith String List Bool.
From Verif Require Import Base Ipld MstModel MstClient StorageModel CallbackSpec.
Import ListNotations.
Local Open Scope m_scope.

Definition with_calls (cs : list call) (st : state) : state :=
  State (s_next st) (s_blocks st) (s_objs st) (s_mem st) (s_ents st) cs.

(** Whether the object with this reference has a callback. *)
Definition has_cb (st : state) (r : nat) : option bool := option_map r_callback (nth_error (s_objs st) r).

(** Does not look at or change the list of calls, and sets no callback. *)
Definition blind {A} (m : M A) : Prop :=
  (forall cs st, m (with_calls cs st) = (with_calls cs (fst (m st)), snd (m st))) /\
  (forall st, s_calls (fst (m st)) = s_calls st) /\
  (forall st r x, has_cb st r = Some x -> has_cb (fst (m st)) r = Some x).

Lemma blind_ret {A} (a : A) : blind (ret a).
Proof. split; [|split]; auto. Qed.
Lemma blind_throw {A} e : blind (@throw A e).
Proof. split; [|split]; auto. Qed.
Lemma blind_lift {A} (r : res A) : blind (lift r).
Proof. split; [|split]; auto. Qed.
Lemma blind_assert b : blind (assert b).
Proof. destruct b; [apply blind_ret|apply blind_throw]. Qed.
Lemma blind_bind {A B} (m : M A) (f : A -> M B) : blind m -> (forall a, blind (f a)) -> blind (bindM m f).
Proof.
  intros (E & C & K) Hf. unfold bindM. split; [|split].
  - intros cs st. rewrite E. destruct (m st) as [st' [a|e]]; cbn [fst snd] in *; [|reflexivity]. apply (Hf a).
  - intros st. specialize (C st). destruct (m st) as [st' [a|e]]; cbn [fst snd] in *; [|exact C].
    rewrite <- C. apply (Hf a).
  - intros st r x H. specialize (K st r x H). destruct (m st) as [st' [a|e]]; cbn [fst snd] in *; [|exact K].
    apply (Hf a). exact K.
Qed.
Lemma blind_obj r : blind (obj r).
Proof.
  unfold obj. split; [|split].
  - intros cs st. cbn [with_calls s_objs]. destruct (nth_error (s_objs st) r); reflexivity.
  - intros st. destruct (nth_error (s_objs st) r); reflexivity.
  - intros st. destruct (nth_error (s_objs st) r); auto.
Qed.
Lemma blind_new_obj o : blind (new_obj o).
Proof.
  split; [|split]; auto. intros st r x. unfold has_cb, new_obj. cbn [fst set_objs s_objs]. intros H.
  destruct (nth_error (s_objs st) r) eqn:E; [|discriminate H].
  rewrite nth_error_app1, E; [exact H|]. apply nth_error_Some. rewrite E. discriminate.
Qed.
Lemma nth_replace {A} (l : list A) : forall n m a,
  nth_error (replace_nth n a l) m = if Nat.eqb n m then match nth_error l m with Some _ => Some a | None => None end else nth_error l m.
Proof.
  induction l as [|x l IH]; intros [|n] [|m] a; cbn; try reflexivity.
  - destruct (Nat.eqb n m); reflexivity.
  - apply IH.
Qed.
Lemma blind_set_attr r f : (forall o, r_callback (f o) = r_callback o) -> blind (set_attr r f).
Proof.
  intros F. unfold set_attr, bindM, obj, put_obj, modify. split; [|split].
  - intros cs st. cbn [with_calls s_objs]. destruct (nth_error (s_objs st) r); reflexivity.
  - intros st. destruct (nth_error (s_objs st) r); reflexivity.
  - intros st k x. unfold has_cb. destruct (nth_error (s_objs st) r) as [o|] eqn:E; auto.
    cbn [fst set_objs s_objs]. rewrite nth_replace. destruct (Nat.eqb r k) eqn:K; auto.
    apply PeanoNat.Nat.eqb_eq in K. subst k. rewrite E. cbn [option_map]. rewrite F. auto.
Qed.
Lemma blind_write_blocks bs : blind (write_blocks bs).
Proof. split; [|split]; auto. Qed.
Lemma blind_allocate : blind allocate_seq.
Proof. split; [|split]; auto. Qed.
Lemma blind_need_did o : blind (need_did o).
Proof. apply blind_bind; [apply blind_lift|]. intros [d|]; [apply blind_ret|apply blind_throw]. Qed.
Lemma blind_rd {A} (f : (cid -> option ipld) -> res A) : blind (fun st => (st, f (rd st))).
Proof. split; [|split]; auto. Qed.

Ltac blinds := repeat
  match goal with
  | |- blind (ret _) => apply blind_ret
  | |- blind (throw _) => apply blind_throw
  | |- blind (lift _) => apply blind_lift
  | |- blind (assert _) => apply blind_assert
  | |- blind (obj _) => apply blind_obj
  | |- blind (new_obj _) => apply blind_new_obj
  | |- blind (set_attr _ _) => apply blind_set_attr; reflexivity
  | |- blind (write_blocks _) => apply blind_write_blocks
  | |- blind allocate_seq => apply blind_allocate
  | |- blind (need_did _) => apply blind_need_did
  | |- blind (bindM _ _) => apply blind_bind; [|intros ?]
  | |- blind (reads _) => split; [|split]; solve [auto]
  | |- blind (modify _) => split; [|split]; solve [auto]
  | |- blind (match ?x with _ => _ end) => destruct x
  | |- blind (let '_ := ?x in _) => destruct x
  end.

Section S.
Variable digest : list N -> list N.
Variable kdigest : str -> list N.
Variable validate : ipld -> res unit.
Variable ecdsa : N -> Z -> list N -> list N.
Variable now : Z -> str.
Variable be : backend.

Lemma blind_write_obj did v seq : blind (write_obj digest be did v seq).
Proof. unfold write_obj. destruct be; blinds. Qed.
Lemma blind_repo_load c h st k : blind (repo_load c h st k).
Proof. unfold repo_load. blinds. Qed.
Lemma blind_mem_find x l : blind (mem_find x l).
Proof.
  induction l as [|[k r] l IH]; cbn [mem_find]; blinds. exact IH.
Qed.
Lemma blind_load_repo x : blind (load_repo be x).
Proof.
  unfold load_repo. apply blind_bind; [apply blind_assert|]. intros _. destruct be; blinds; first [apply blind_mem_find|apply blind_repo_load].
Qed.
Lemma blind_create_repo r : blind (create_repo be r).
Proof. unfold create_repo. destruct be; blinds. Qed.
Lemma blind_store_repo r : blind (store_repo be r).
Proof. unfold store_repo. destruct be; blinds. Qed.
Lemma blind_set_repo_status r x : blind (set_repo_status be r x).
Proof. unfold set_repo_status. destruct be; blinds. Qed.
Lemma blind_commit_write r did seq acc w : blind (commit_write digest kdigest validate r did seq acc w).
Proof.
  unfold commit_write. blinds.
  all: match goal with
       | |- blind (fun st => (st, ?f kdigest (rd st) ?d ?m ?p)) => exact (blind_rd (fun r => f kdigest r d m p))
       | |- blind (fun st => (st, ?f kdigest (rd st) ?d ?m ?p ?v)) => exact (blind_rd (fun r => f kdigest r d m p v))
       | |- blind (fun st => (st, ?f digest kdigest (rd st) ?d ?m ?p ?v ?w)) => exact (blind_rd (fun r => f digest kdigest r d m p v w))
       end.
Qed.
Lemma blind_foldM {A B} (f : A -> B -> M A) l : (forall a b, blind (f a b)) -> forall a, blind (foldM f a l).
Proof. intros H. induction l as [|x l IH]; intros a; cbn [foldM]; blinds; auto. Qed.
Lemma blind_commit_target r first : blind (commit_target be r first).
Proof.
  unfold commit_target. blinds; apply blind_load_repo.
Qed.
Lemma blind_commit_finish r0 r did prev seq bo : blind (commit_finish digest kdigest ecdsa be r0 r did prev seq bo).
Proof.
  unfold commit_finish. blinds.
  - exact (blind_rd (fun r1 => get_unstored_blocks digest kdigest r1 max_depth (r_mst a))).
  - apply blind_store_repo.
Qed.
Lemma blind_commit_ r ws seq first : blind (commit_ digest kdigest validate ecdsa be r ws seq first).
Proof.
  unfold commit_. blinds; [apply blind_commit_target| |apply blind_commit_finish].
  apply blind_foldM. intros. apply blind_commit_write.
Qed.

Lemma same_refl st : same_stored st st.
Proof. repeat split. Qed.
Lemma same_with st st' : same_stored st st' -> st' = with_calls (s_calls st') st.
Proof. destruct st, st'. intros (A & B & C & D & E & _). cbn in *. subst. reflexivity. Qed.
Lemma with_same cs st : data_calls cs = data_calls (s_calls st) -> same_stored st (with_calls cs st).
Proof. intros H. unfold same_stored. cbn. rewrite <- H. repeat split. Qed.
Lemma blind_same {A} (m : M A) st st' : blind m -> same_stored st st' ->
  same_stored (fst (m st)) (fst (m st')) /\ snd (m st) = snd (m st').
Proof.
  intros (E & C & _) S. pose proof (same_with _ _ S) as W. destruct S as (_ & _ & _ & _ & _ & D).
  rewrite W, E. cbn [fst snd]. split; [|reflexivity]. apply with_same. rewrite C, <- D. reflexivity.
Qed.

Variable cb : nat -> option exn.

(** Related runs; the first may raise an exception of a callback. *)
Definition rel {A} (m m' : M A) : Prop := forall st st', same_stored st st' ->
  same_stored (fst (m st)) (fst (m' st')) /\
  (snd (m st) = snd (m' st') \/ exists e n, snd (m st) = Err e /\ cb n = Some e).

Lemma callback_eq c0 r c st : callback c0 r c st =
  match nth_error (s_objs st) r with
  | Some o => if r_callback o then (add_call c st, match c0 (length (s_calls st)) with Some e => Err e | None => Ok tt end) else (st, Ok tt)
  | None => (st, Err (OtherError (s "dangling reference")))
  end.
Proof. unfold callback, bindM, obj. destruct (nth_error (s_objs st) r) as [o|]; [destruct (r_callback o)|]; reflexivity. Qed.
Lemma same_lost1 n st st' : same_stored st st' -> same_stored (add_call (CLost n) st) st'.
Proof. intros (A & B & C & D & E & F). unfold same_stored. cbn. auto 10. Qed.
Lemma same_call c st st' : same_stored st st' -> same_stored (add_call c st) (add_call c st').
Proof. intros (A & B & C & D & E & F). unfold same_stored. unfold data_calls in *. cbn [add_call s_next s_blocks s_objs s_mem s_ents s_calls flat_map]. rewrite F. auto 10. Qed.

Lemma callback_rel r c : rel (callback cb r c) (callback quiet r c).
Proof.
  intros st st' S. rewrite !callback_eq. replace (s_objs st') with (s_objs st) by apply S.
  destruct (nth_error (s_objs st) r) as [o|]; [|auto].
  destruct (r_callback o); cbn [fst snd]; [|auto]. split; [apply same_call; exact S|].
  unfold quiet. destruct (cb (length (s_calls st))) as [e|] eqn:E; [right; eauto|left; reflexivity].
Qed.

Lemma commit_rel r ws first :
  rel (commit digest kdigest validate ecdsa cb be r ws first) (commit digest kdigest validate ecdsa quiet be r ws first).
Proof.
  intros st0 st0' S0. unfold commit, bindM, allocate_seq.
  assert (S : same_stored (set_next (s_next st0 + 1) st0) (set_next (s_next st0 + 1) st0')).
  { destruct S0 as (A & B & C & D & E & F). unfold same_stored. cbn. auto 10. }
  replace (s_next st0') with (s_next st0) by apply S0.
  revert S. generalize (set_next (s_next st0 + 1) st0). generalize (set_next (s_next st0 + 1) st0'). generalize (s_next st0).
  clear st0 st0' S0. intros seq st' st S. unfold on_exception.
  destruct (blind_same _ _ _ (blind_commit_ r ws seq first) S) as [S1 E1].
  destruct (commit_ _ _ _ _ _ _ _ _ _ st) as [st1 o1]. destruct (commit_ _ _ _ _ _ _ _ _ _ st') as [st1' o1'].
  cbn [fst snd] in *. subst o1'. pose proof S1 as (_ & _ & EO & _). destruct o1 as [cd|e].
  - rewrite !callback_eq, <- EO. destruct (nth_error (s_objs st1) r) as [o|] eqn:EN.
    + destruct (r_callback o) eqn:EC; cbn [ret fst snd]; [|auto]. unfold quiet.
      pose proof (same_call (CData (MCommit cd)) _ _ S1) as S2.
      destruct (cb (length (s_calls st1))) as [e|] eqn:E; cbn [fst snd]; [|auto].
      rewrite callback_eq. cbn [add_call s_objs]. rewrite EN, EC.
      pose proof (same_lost1 seq _ _ S2) as S3. unfold add_call in *. cbn in S3 |- *.
      destruct (cb (Datatypes.S (length (s_calls st1)))) as [e'|] eqn:E'; cbn [fst snd]; eauto 6.
    + rewrite !callback_eq, <- EO, EN. auto.
  - rewrite !callback_eq, <- EO. destruct (nth_error (s_objs st1) r) as [o|] eqn:EN; [|auto].
    destruct (r_callback o) eqn:EC; cbn [fst snd]; [|auto]. unfold quiet.
    pose proof (same_call (CLost seq) _ _ S1) as S2.
    destruct (cb (length (s_calls st1))) as [e'|] eqn:E; cbn [fst snd]; eauto 6.
Qed.

(** A step that looks at nothing but the state first, then related steps. *)
Lemma blind_rel {A} (m : M A) : blind m -> rel m m.
Proof. intros B st st' S. destruct (blind_same m st st' B S). auto. Qed.
Lemma rel_bind {A B} (m : M A) (f f' : A -> M B) : blind m -> (forall a, rel (f a) (f' a)) -> rel (bindM m f) (bindM m f').
Proof.
  intros H F st st' S. unfold bindM. destruct (blind_same m st st' H S) as [S1 E].
  destruct (m st) as [st1 o]. destruct (m st') as [st1' o']. cbn [fst snd] in *. subst o'.
  destruct o as [a|e]; [apply F; exact S1|cbn; auto].
Qed.
(** Related steps, then nothing that can fail. *)
Lemma rel_then {A B} (m m' : M A) (f : A -> B) : rel m m' -> rel (bindM m (fun a => ret (f a))) (bindM m' (fun a => ret (f a))).
Proof.
  intros R st st' S. destruct (R st st' S) as [S1 E]. unfold bindM.
  destruct (m st) as [st1 o]. destruct (m' st') as [st1' o']. cbn [fst snd] in *.
  destruct E as [<-|(e & n & -> & E)].
  - destruct o as [a|e]; cbn; auto.
  - destruct o' as [a|e']; cbn; eauto 6.
Qed.
Lemma write_event_rel r type extra : rel (write_event digest now cb be r type extra) (write_event digest now quiet be r type extra).
Proof.
  unfold write_event. apply rel_bind; [apply blind_allocate|]. intros seq. apply rel_bind; [apply blind_obj|].
  intros o. apply rel_bind; [apply blind_lift|]. intros d. apply rel_bind; [apply blind_write_obj|].
  intros b. apply (rel_then _ _ (fun _ => b)). apply callback_rel.
Qed.

(** Related if the first succeeds. *)
Definition okrel {A} (m m' : M A) : Prop := forall st st', same_stored st st' ->
  forall st1 a, m st = (st1, Ok a) -> exists st1', m' st' = (st1', Ok a) /\ same_stored st1 st1'.
Lemma rel_okrel {A} (m m' : M A) : rel m m' -> okrel m m'.
Proof.
  intros R st st' S st1 a E. destruct (R st st' S) as [S1 E1]. rewrite E in S1, E1. cbn [fst snd] in *.
  destruct (m' st') as [st1' o]. cbn [fst snd] in *. exists st1'. split; [|exact S1].
  destruct E1 as [<-|(e & n & D & _)]; [reflexivity|discriminate D].
Qed.
Lemma okrel_bind {A B} (m m' : M A) (f f' : A -> M B) : okrel m m' -> (forall a, okrel (f a) (f' a)) -> okrel (bindM m f) (bindM m' f').
Proof.
  intros R F st st' S st1 b E. unfold bindM in *. destruct (m st) as [st2 [a|e]] eqn:E2; [|discriminate E].
  destruct (R st st' S st2 a E2) as (st2' & -> & S2). exact (F a st2 st2' S2 st1 b E).
Qed.

Lemma create_okrel did handle status x key :
  okrel (repo_create digest kdigest validate ecdsa now cb be did handle status x key)
        (repo_create digest kdigest validate ecdsa now quiet be did handle status x key).
Proof.
  unfold repo_create.
  repeat (apply okrel_bind; [apply rel_okrel; first
    [ apply blind_rel; first [apply blind_lift|apply blind_new_obj|apply blind_obj|apply blind_need_did|apply blind_create_repo]
    | apply commit_rel | apply write_event_rel | apply callback_rel ] |intros ?]; cbv zeta).
  apply rel_okrel, blind_rel, blind_ret.
Qed.

(** Related for a repo object without a callback. *)
Definition calm {A} (r : nat) (m m' : M A) : Prop := forall st st', same_stored st st' -> has_cb st r = Some false ->
  same_stored (fst (m st)) (fst (m' st')) /\ snd (m st) = snd (m' st') /\ has_cb (fst (m st)) r = Some false.
Lemma calm_blind {A} r (m : M A) : blind m -> calm r m m.
Proof. intros B st st' S H. destruct (blind_same m st st' B S). split; [|split]; auto. apply B. exact H. Qed.
Lemma calm_bind {A B} r (m m' : M A) (f f' : A -> M B) : calm r m m' -> (forall a, calm r (f a) (f' a)) -> calm r (bindM m f) (bindM m' f').
Proof.
  intros R F st st' S H. unfold bindM. destruct (R st st' S H) as (S1 & E & H1).
  destruct (m st) as [st1 o]. destruct (m' st') as [st1' o']. cbn [fst snd] in *. subst o'.
  destruct o as [a|e]; [apply F; assumption|cbn; auto].
Qed.
Lemma callback_calm r c : calm r (callback cb r c) (callback quiet r c).
Proof.
  intros st st' S H. rewrite !callback_eq. replace (s_objs st') with (s_objs st) by apply S. revert H. unfold has_cb.
  destruct (nth_error (s_objs st) r) as [o|] eqn:E; [|discriminate]. cbn [option_map]. intros H. injection H as H. rewrite H.
  cbn [fst snd]. rewrite E. cbn [option_map]. rewrite H. auto.
Qed.
Lemma calm_on_exception {A} r (m m' : M A) (h h' : M unit) : calm r m m' -> calm r h h' -> calm r (on_exception m h) (on_exception m' h').
Proof.
  intros R F st st' S H. unfold on_exception. destruct (R st st' S H) as (S1 & E & H1).
  destruct (m st) as [st1 o]. destruct (m' st') as [st1' o']. cbn [fst snd] in *. subst o'.
  destruct o as [a|e]; [cbn; auto|]. destruct (F st1 st1' S1 H1) as (S2 & E2 & H2).
  destruct (h st1) as [st2 o]. destruct (h' st1') as [st2' o']. cbn [fst snd] in *. subst o'.
  destruct o; cbn; auto.
Qed.
Lemma commit_calm r ws first :
  calm r (commit digest kdigest validate ecdsa cb be r ws first) (commit digest kdigest validate ecdsa quiet be r ws first).
Proof.
  unfold commit. apply calm_bind; [apply calm_blind, blind_allocate|]. intros seq.
  apply calm_on_exception; [|apply callback_calm].
  apply calm_bind; [apply calm_blind, blind_commit_|]. intros cd.
  apply calm_bind; [apply callback_calm|]. intros _. apply calm_blind, blind_ret.
Qed.
Lemma write_event_calm r type extra : calm r (write_event digest now cb be r type extra) (write_event digest now quiet be r type extra).
Proof.
  unfold write_event. apply calm_bind; [apply calm_blind, blind_allocate|]. intros seq. apply calm_bind; [apply calm_blind, blind_obj|].
  intros o. apply calm_bind; [apply calm_blind, blind_lift|]. intros d. apply calm_bind; [apply calm_blind, blind_write_obj|].
  intros b. apply calm_bind; [apply callback_calm|]. intros _. apply calm_blind, blind_ret.
Qed.
(** Related, and the first fails only if the second does. *)
Definition sure {A} (m m' : M A) : Prop := forall st st', same_stored st st' ->
  same_stored (fst (m st)) (fst (m' st')) /\
  (snd (m st) = snd (m' st') \/ exists e n e', snd (m st) = Err e /\ cb n = Some e /\ snd (m' st') = Err e').
Lemma sure_new {A} (l : res mst) (g : mst -> repo) (f f' : mst -> nat -> M A) :
  (forall m r st st', same_stored st st' -> nth_error (s_objs st) r = Some (g m) ->
   same_stored (fst (f m r st)) (fst (f' m r st')) /\
   (snd (f m r st) = snd (f' m r st') \/ exists e n e', snd (f m r st) = Err e /\ cb n = Some e /\ snd (f' m r st') = Err e')) ->
  sure (bindM (lift l) (fun m => bindM (new_obj (g m)) (f m))) (bindM (lift l) (fun m => bindM (new_obj (g m)) (f' m))).
Proof.
  intros H st st' S. unfold bindM, lift, new_obj. destruct l as [m|e]; [|cbn; auto].
  replace (s_objs st') with (s_objs st) by apply S. apply H.
  - destruct S as (A1 & B & C & D & E & F). unfold same_stored. cbn. auto 10.
  - cbn [set_objs s_objs]. rewrite nth_error_app2, PeanoNat.Nat.sub_diag by apply le_n. reflexivity.
Qed.

Lemma create_calm did handle status key :
  sure (repo_create digest kdigest validate ecdsa now cb be did handle status false key)
       (repo_create digest kdigest validate ecdsa now quiet be did handle status false key).
Proof.
  unfold repo_create. apply (sure_new _ (fun m => Repo m None handle status false key)). intros m r.
  match goal with |- forall a b, _ -> _ -> same_stored (fst (?f a)) (fst (?g b)) /\ _ => assert (calm r f g) as C end.
  { repeat (apply calm_bind; [first
    [ apply calm_blind; first [apply blind_lift|apply blind_obj|apply blind_need_did|apply blind_create_repo]
    | apply commit_calm | apply write_event_calm | apply callback_calm ] |intros ?]; cbv zeta).
    apply calm_blind, blind_ret. }
  intros st st' S1 H1. destruct (C st st' S1) as (A & B & _); [unfold has_cb; rewrite H1; reflexivity|]. auto.
Qed.

(** Creating an inactive repo fails, whatever the callback does. *)
Lemma commit_inactive c0 r ws first st o x : nth_error (s_objs st) r = Some o -> r_status o = Some x ->
  exists e, snd (commit digest kdigest validate ecdsa c0 be r ws first st) = Err e.
Proof.
  intros EN ES. unfold commit, bindM, allocate_seq, on_exception, commit_, commit_target, bindM, assert, obj.
  destruct (negb (s_next st =? 0)%Z); cbn [ret throw set_next s_objs].
  2: { rewrite callback_eq. cbn [set_next s_objs]. rewrite EN. destruct (r_callback o); [|eexists; reflexivity].
       destruct (c0 _); eexists; reflexivity. }
  rewrite EN, ES. cbn [is_some throw].
  rewrite callback_eq. cbn [set_next s_objs]. rewrite EN. destruct (r_callback o); [|eexists; reflexivity].
  destruct (c0 _); eexists; reflexivity.
Qed.
Lemma create_inactive did handle x key b :
  sure (repo_create digest kdigest validate ecdsa now cb be did handle (Some x) b key)
       (repo_create digest kdigest validate ecdsa now quiet be did handle (Some x) b key).
Proof.
  unfold repo_create. apply (sure_new _ (fun m => Repo m None handle (Some x) b key)). intros m r st1 st1' S1 H1.
  assert (H1' : nth_error (s_objs st1') r = Some (Repo m None handle (Some x) b key)) by (replace (s_objs st1') with (s_objs st1) by apply S1; exact H1).
  destruct (commit_rel r [] (Some did) st1 st1' S1) as [S2 E2].
  destruct (commit_inactive cb r [] (Some did) st1 _ x H1 eq_refl) as [e E].
  destruct (commit_inactive quiet r [] (Some did) st1' _ x H1' eq_refl) as [e' E'].
  unfold bindM.
  destruct (commit _ _ _ _ cb _ _ _ _ st1) as [st2 o2]. destruct (commit _ _ _ _ quiet _ _ _ _ st1') as [st2' o2'].
  cbn [fst snd] in *. subst o2 o2'. cbn [fst snd]. split; [exact S2|].
  destruct E2 as [E2|(e2 & n & E2 & C)]; [left; congruence|right; exists e, n, e'; split; [|split]; congruence].
Qed.

Lemma rel_on_ref w w' h (f f' : nat -> M sout) : same_world w w' -> (forall r, rel (f r) (f' r)) ->
  same_world (fst (on_ref w h f)) (fst (on_ref w' h f')) /\ same_or_raised cb (snd (on_ref w h f)) (snd (on_ref w' h f')).
Proof.
  intros [S R] H. unfold on_ref. rewrite <- R. destruct (nth_error (w_refs w) h) as [r|].
  - destruct (H r _ _ S) as [S1 E]. destruct (f r (w_state w)) as [st o]. destruct (f' r (w_state w')) as [st' o'].
    cbn [fst snd] in *. split; [split; cbn; auto|exact E].
  - cbn. split; [split; auto|left; reflexivity].
Qed.
Lemma blind_on_new w w' m : same_world w w' -> blind m ->
  same_world (fst (on_new w m)) (fst (on_new w' m)) /\ same_or_raised cb (snd (on_new w m)) (snd (on_new w' m)).
Proof.
  intros [S R] H. unfold on_new. destruct (blind_same m _ _ H S) as [S1 E].
  destruct (m (w_state w)) as [st o]. destruct (m (w_state w')) as [st' o']. cbn [fst snd] in *. subst o'. rewrite R.
  destruct o as [[r|]|e]; cbn; (split; [split; cbn; auto|left; reflexivity]).
Qed.
Lemma sure_on_new w w' m m' : same_world w w' -> sure m m' ->
  same_world (fst (on_new w (bindM m (fun r => ret (Some r))))) (fst (on_new w' (bindM m' (fun r => ret (Some r))))) /\
  same_or_raised cb (snd (on_new w (bindM m (fun r => ret (Some r))))) (snd (on_new w' (bindM m' (fun r => ret (Some r))))).
Proof.
  intros [S R] H. unfold on_new, bindM. destruct (H _ _ S) as [S1 E].
  destruct (m (w_state w)) as [st o]. destruct (m' (w_state w')) as [st' o']. cbn [fst snd] in *.
  destruct E as [<-|(e & n & e' & -> & C & ->)].
  - destruct o as [r|e]; cbn; rewrite R; (split; [split; cbn; auto|left; reflexivity]).
  - cbn. split; [split; auto|right; eauto].
Qed.

Lemma step_same w w' op : same_world w w' ->
  created op (snd (sstep digest kdigest validate ecdsa now cb be w op)) ->
  same_world (fst (sstep digest kdigest validate ecdsa now cb be w op)) (fst (sstep digest kdigest validate ecdsa now quiet be w' op)) /\
  same_or_raised cb (snd (sstep digest kdigest validate ecdsa now cb be w op)) (snd (sstep digest kdigest validate ecdsa now quiet be w' op)).
Proof.
  intros W C. destruct op as [did handle status x key|x|h key|h x|h ws|h|h|h]; cbn [sstep] in *.
  - destruct x; [destruct status as [y|]|].
    + apply sure_on_new; [exact W|]. apply create_inactive.
    + cbn [created] in C. destruct C as [o C].
      pose proof (create_okrel did handle None true key) as K.
      destruct W as [S R]. unfold on_new, bindM in C |- *.
      specialize (K _ _ S). destruct (repo_create _ _ _ _ _ cb _ _ _ _ _ _ (w_state w)) as [st [r|e]]; [|discriminate C].
      destruct (K st r eq_refl) as (st' & -> & S'). cbn. rewrite R. split; [split; cbn; auto|left; reflexivity].
    + apply sure_on_new; [exact W|]. apply create_calm.
  - apply blind_on_new; [exact W|]. apply blind_load_repo.
  - pose proof W as [_ R]. rewrite <- R. destruct (nth_error (w_refs w) h) as [r|].
    + apply blind_on_new; [exact W|]. blinds. apply blind_repo_load.
    + cbn. split; [exact W|left; reflexivity].
  - apply rel_on_ref; [exact W|]. intros r st st' S. unfold set_attr, bindM, obj, put_obj, modify, ret.
    replace (s_objs st') with (s_objs st) by apply S. destruct (nth_error (s_objs st) r); cbn [fst snd]; [|auto].
    split; [|auto]. destruct S as (A1 & B & C1 & D & E & F). unfold same_stored. cbn. rewrite C1. auto 10.
  - apply rel_on_ref; [exact W|]. intros r. apply (rel_then _ _ OutCommit). apply commit_rel.
  - apply rel_on_ref; [exact W|]. intros r. apply (rel_then _ _ (fun _ => OutDone)).
    apply rel_bind; [apply blind_set_repo_status|]. intros _. apply (rel_then _ _ (fun _ => tt)). apply write_event_rel.
  - apply rel_on_ref; [exact W|]. intros r. apply (rel_then _ _ (fun _ => OutDone)).
    apply rel_bind; [apply blind_set_repo_status|]. intros _. apply (rel_then _ _ (fun _ => tt)). apply write_event_rel.
  - apply rel_on_ref; [exact W|]. intros r. apply (rel_then _ _ (fun _ => OutDone)).
    apply rel_bind; [apply blind_set_repo_status|]. intros _. apply (rel_then _ _ (fun _ => tt)). apply write_event_rel.
Qed.

Lemma run_same ops : forall w w' w1 outs, same_world w w' ->
  srun digest kdigest validate ecdsa now cb be w ops = (w1, outs) -> Forall2 created ops outs ->
  exists w1' outs', srun digest kdigest validate ecdsa now quiet be w' ops = (w1', outs') /\ same_world w1 w1' /\
    Forall2 (same_or_raised cb) outs outs'.
Proof.
  induction ops as [|op ops IH]; intros w w' w1 outs W E C; cbn [srun] in *.
  - injection E as <- <-. exists w', []. auto.
  - pose proof (step_same w w' op W) as K.
    destruct (sstep _ _ _ _ _ cb _ w op) as [w2 o]. destruct (sstep _ _ _ _ _ quiet _ w' op) as [w2' o'].
    cbn [fst snd] in K. destruct (srun _ _ _ _ _ cb _ w2 ops) as [w3 os] eqn:E3. injection E as <- <-.
    inversion C as [|? ? ? ? C1 C2]; subst. destruct (K C1) as [W2 O].
    destruct (IH w2 w2' w3 os W2 E3 C2) as (w3' & os' & -> & W3 & O3).
    exists w3', (o' :: os'). auto.
Qed.
End S.
