(** Invariant of storages and what each operation does to it. *)
From Coq Require Import String List NArith ZArith Bool Lia Sorted.
From Coq Require Import ZifyBool ZifyNat ZifyN.
From Verif Require Import Base Lists Ipld IpldProofs MstModel MstTree MstTreeProofs MstRep MstTrav
  MstClient MstSpec MstHist MstFacts TidModel TidProofs BlockModel BlockSpec
  CarModel StorageModel StorageSpec CommitProofs StoreProofs ExecProofs RepoSpec.
Import ListNotations.

Definition add_obj (o : repo) (st : state) : state := set_objs (s_objs st ++ [o]) st.

(** ** Entities *)

Lemma ent_put_get k e x : forall l, ssorted (keys l) -> dget x (ent_put k e l) = if str_eqb x k then Some e else dget x l.
Proof.
  induction l as [|[k' e'] l IH]; intros SS; cbn [ent_put dget]; auto.
  unfold keys in SS; cbn [map fst] in SS. inversion SS as [|? ? SS' HF]; subst.
  destruct (str_cmp k k') eqn:C; cbn [dget].
  - apply str_cmp_eq in C. subst k'. destruct (str_eqb x k); auto.
  - auto.
  - rewrite IH by auto. destruct (str_eqb_spec x k') as [->|NE]; auto.
    destruct (str_eqb_spec k' k) as [->|NE]; auto. rewrite str_cmp_refl in C. discriminate.
Qed.

Lemma ent_put_keys k e x : forall l, In x (keys (ent_put k e l)) -> x = k \/ In x (keys l).
Proof.
  induction l as [|[k' e'] l IH]; cbn [ent_put]; [intros [<-|[]]; auto|].
  destruct (str_cmp k k') eqn:C; unfold keys; cbn [map fst In]; intros [H|H]; auto.
  destruct (IH H); auto.
Qed.

Lemma ent_put_sorted k e : forall l, ssorted (keys l) -> ssorted (keys (ent_put k e l)).
Proof.
  induction l as [|[k' e'] l IH]; intros SS; cbn [ent_put].
  - repeat constructor.
  - unfold keys in SS; cbn [map fst] in SS. inversion SS as [|? ? SS' HF]; subst.
    destruct (str_cmp k k') eqn:C.
    + apply str_cmp_eq in C. subst k'. exact SS.
    + unfold keys. cbn [map fst]. constructor; [exact SS|]. constructor; [exact C|].
      eapply Forall_impl; [|exact HF]. intros a Ha. eapply slt_trans; eauto.
    + unfold keys. cbn [map fst]. constructor; [apply IH; auto|]. apply Forall_forall. intros x Hx.
      apply ent_put_keys in Hx as [->|Hx].
      * unfold slt. rewrite str_cmp_antisym, C. reflexivity.
      * rewrite Forall_forall in HF. auto.
Qed.

Section Repo.
Variable digest : list N -> list N.
Variable kdigest : str -> list N.
Variable validate : ipld -> res unit.
Variable ecdsa : N -> Z -> list N -> list N.
Variable now : Z -> str.
Variable cb : nat -> option exn.
Variable be : backend.
Hypothesis klen : forall k, length (kdigest k) = 32.
Hypothesis inj : forall a b, digest a = digest b -> a = b.
Hypothesis valid_plain : forall v, validate v = Ok tt -> plain v.
Hypothesis quiet : forall n, cb n = None.
Notation rcid := (rcid digest).
Notation cids_of := (cids_of digest).
Notation holds := (holds digest kdigest).
Notation writes_allowed := (writes_allowed validate).
Notation commit_ops := (commit_ops digest).
Notation store_ok := (store_ok digest kdigest).
Notation snapshot := (snapshot digest kdigest).
Notation finish_block := (finish_block digest ecdsa).
Notation finish_new := (finish_new digest ecdsa).
Notation finish_store := (finish_store digest ecdsa).
Notation commit_of := (commit_of ecdsa).
Notation after_finish := (after_finish be).
Notation after_store := (after_store be).

(** ** The stored repos *)

(** The object that load_repo gives for a DID. *)
Definition stored_repo (st : state) (did : str) : option repo :=
  match be with
  | Memory => match dget did (s_mem st) with Some r => nth_error (s_objs st) r | None => None end
  | Datastore =>
      match dget did (s_ents st) with
      | Some e =>
          match dget (e_head e) (s_blocks st) with
          | Some b =>
              match item_link (s "data") (b_val b) with
              | Ok data => Some (Repo (mst_load data) (Some b) (e_handle e) (e_status e) false (e_key e))
              | Err _ => None
              end
          | None => None
          end
      | None => None
      end
  end.

Definition registered (st : state) (did : str) : Prop :=
  match be with Memory => dget did (s_mem st) <> None | Datastore => dget did (s_ents st) <> None end.

Definition named (st : state) : Prop :=
  NoDup (keys (s_mem st)) /\ ssorted (keys (s_ents st)) /\
  forall did, registered st did -> exists o h, stored_repo st did = Some o /\ r_head o = Some h /\
    item_text (s "did") (b_val h) = Ok did /\ handle_ok (r_handle o).

Definition loaded (st : state) (did : str) (o : repo) (st' : state) (r : nat) : Prop :=
  match be with
  | Memory => dget did (s_mem st) = Some r /\ st' = st
  | Datastore => r = length (s_objs st) /\ st' = add_obj o st
  end.

Lemma opt_str_eqb_spec x y : opt_str_eqb x y = true <-> y = Some x.
Proof.
  destruct y as [y|]; cbn [opt_str_eqb]; [|split; discriminate].
  destruct (str_eqb_spec x y) as [->|NE]; split; auto; congruence.
Qed.

Lemma mem_find_ok st x : forall l,
  (forall did r, In (did, r) l -> exists o h, nth_error (s_objs st) r = Some o /\ r_head o = Some h /\
     item_text (s "did") (b_val h) = Ok did) ->
  (mem_find x l st = (st, Ok None) /\ forall did r o, In (did, r) l -> nth_error (s_objs st) r = Some o ->
     did <> x /\ r_handle o <> Some x) \/
  exists did r o, In (did, r) l /\ nth_error (s_objs st) r = Some o /\ mem_find x l st = (st, Ok (Some r)) /\
    (did = x \/ r_handle o = Some x).
Proof.
  clear. induction l as [|[did r] l IH]; intros HL.
  - left. split; [reflexivity|]. intros ? ? ? [].
  - cbn [mem_find]. destruct (HL did r (or_introl eq_refl)) as (o & h & HO & HH & HD).
    rewrite (bindM_ok _ _ _ _ _ (obj_some _ _ _ HO)).
    rewrite (bindM_ok (lift (repo_did o)) _ st st (Some did)) by (unfold lift, repo_did; rewrite HH, HD; exact eq_refl).
    destruct (opt_str_eqb x (Some did) || opt_str_eqb x (r_handle o)) eqn:C.
    + right. exists did, r, o. splits; auto; [left; auto|]. apply orb_true_iff in C as [C|C]; apply opt_str_eqb_spec in C; auto.
      left. congruence.
    + apply orb_false_iff in C as [C1 C2].
      destruct IH as [(E & F)|(d' & r' & o' & HI & E)].
      { intros d' r' HI. apply (HL d' r'). right. auto. }
      * left. split; auto. intros d' r' o' [[= <- <-]|HI] HO'; [|eauto].
        replace o' with o in * by congruence. split; intros X.
        -- subst did. cbn [opt_str_eqb] in C1. rewrite str_eqb_refl in C1. discriminate.
        -- apply opt_str_eqb_spec in X. congruence.
      * right. exists d', r', o'. split; [right; auto|]. auto.
Qed.

Lemma load_spec st x : named st ->
  (x = [] /\ load_repo be x st = (st, Err AssertionError)) \/
  (load_repo be x st = (st, Ok None) /\ ~ registered st x) \/
  exists did o st' r, stored_repo st did = Some o /\ registered st did /\ (did = x \/ r_handle o = Some x) /\
    loaded st did o st' r /\ load_repo be x st = (st', Ok (Some r)).
Proof.
  intros (ND & SS & NM). unfold load_repo. destruct x as [|x0 x'].
  { left. split; reflexivity. }
  right. set (x := x0 :: x'). assert (NE : nonempty x = true) by reflexivity. rewrite NE. unfold assert.
  rewrite (bindM_ok (ret tt) _ st st tt eq_refl).
  assert (U : forall A B (f : state -> A) (g : A -> M B), bindM (reads f) g st = g (f st) st) by reflexivity.
  unfold registered, stored_repo, loaded in *. destruct be.
  - rewrite U.
    destruct (mem_find_ok st x (s_mem st)) as [(E & F)|(did & r & o & HI & HO & E & D)].
    { intros did r HI. apply In_dget in HI; auto. destruct (NM did ltac:(congruence)) as (o & h & HO & HH & HD & _).
      rewrite HI in HO. exists o, h. auto. }
    + left. split; [exact E|]. intros X. destruct (NM x X) as (o & h & HO & _).
      destruct (dget x (s_mem st)) as [r|] eqn:G; [|congruence]. apply dget_In in G.
      destruct (F x r o G HO) as [C _]. auto.
    + right. apply In_dget in HI; auto. exists did, o, st, r. rewrite HI. splits; auto. discriminate.
  - rewrite U. unfold ent_find.
    assert (LD : forall did e, dget did (s_ents st) = Some e -> exists o,
       match dget (e_head e) (s_blocks st) with
       | Some b => match item_link (s "data") (b_val b) with
            | Ok data => Some (Repo (mst_load data) (Some b) (e_handle e) (e_status e) false (e_key e))
            | Err _ => None end
       | None => None end = Some o /\ r_handle o = e_handle e /\
       bindM (repo_load (e_head e) (e_handle e) (e_status e) (e_key e)) (fun r => ret (Some r)) st
       = (add_obj o st, Ok (Some (length (s_objs st))))).
    { intros did e G. destruct (NM did ltac:(congruence)) as (o & h & HO & HH & HD & _). rewrite G in HO. exists o.
      split; [exact HO|].
      destruct (dget (e_head e) (s_blocks st)) as [b|] eqn:EB; [|discriminate].
      destruct (item_link (s "data") (b_val b)) as [data|] eqn:ED; [|discriminate]. injection HO as <-. split; auto.
      assert (X : repo_load (e_head e) (e_handle e) (e_status e) (e_key e) st
         = (add_obj (Repo (mst_load data) (Some b) (e_handle e) (e_status e) false (e_key e)) st, Ok (length (s_objs st)))).
      { unfold repo_load. unfold bindM at 1, reads, read. rewrite EB.
        rewrite (bindM_ok (lift (item_link (s "data") (b_val b))) _ st st data) by (unfold lift; rewrite ED; exact eq_refl).
        reflexivity. }
      rewrite (bindM_ok _ _ _ _ _ X). reflexivity. }
    destruct (dget x (s_ents st)) as [e|] eqn:G.
    + right. destruct (LD x e G) as (o & E1 & E2 & E3). exists x, o, (add_obj o st), (length (s_objs st)). rewrite G. splits; auto.
      discriminate.
    + destruct (find _ (s_ents st)) as [[did e]|] eqn:F.
      * right. apply find_some in F as [HI HH]. cbn [snd] in HH. apply opt_str_eqb_spec in HH.
        apply In_dget in HI; [|apply ssorted_NoDup; auto]. destruct (LD did e HI) as (o & E1 & E2 & E3).
        exists did, o, (add_obj o st), (length (s_objs st)). rewrite HI. splits; auto; [discriminate|]. right. rewrite E2. exact HH.
      * left. split; auto.
Qed.

(** Looking up a DID. *)
Lemma load_did st did : named st -> is_did did ->
  (load_repo be did st = (st, Ok None) /\ ~ registered st did) \/
  exists o st' r, stored_repo st did = Some o /\ registered st did /\ loaded st did o st' r /\
    load_repo be did st = (st', Ok (Some r)).
Proof.
  intros NM ID. destruct (load_spec st did NM) as [(-> & _)|[H|(did' & o & st' & r & HS & RG & D & L & E)]].
  - discriminate.
  - left. exact H.
  - right. destruct D as [->|D]; [exists o, st', r; auto|].
    destruct NM as (_ & _ & NM). destruct (NM did' RG) as (o2 & h & HS2 & _ & _ & HK).
    rewrite HS in HS2. injection HS2 as <-. rewrite D in HK. exfalso. exact (HK ID).
Qed.

(** ** Chains of commits *)

Definition recs_stored (bl : store) (recs : records) : Prop :=
  forall k v, dget k recs = Some v -> dget (rcid v) (vals bl) = Some (norm v).

Inductive chain (bl : store) (did : str) (key : N) : block -> cid -> records -> Prop :=
| chain_first b root : dget (b_cid b) bl = Some b -> commit_of b did key None root -> b_ops b = Some [] ->
    snapshot bl (mst_load root) root [] -> chain bl did key b root []
| chain_next b' root' recs ws b root : chain bl did key b' root' recs -> dget (b_cid b) bl = Some b ->
    commit_of b did key (Some (b_cid b')) root -> (b_seq b' < b_seq b)%Z ->
    writes_allowed recs ws -> (len ws <= 200)%N -> b_ops b = Some (commit_ops recs ws) ->
    snapshot bl (mst_load root) root (cids_of (apply_writes recs ws)) ->
    recs_stored bl (apply_writes recs ws) -> chain bl did key b root (apply_writes recs ws).

Definition extends (bl bl' : store) : Prop := forall c b, dget c bl = Some b -> dget c bl' = Some b.

Lemma recs_stored_mono bl bl' recs : extends bl bl' -> recs_stored bl recs -> recs_stored bl' recs.
Proof.
  clear. intros EX RS k v H. specialize (RS k v H). rewrite dget_vals in *.
  destruct (dget (rcid v) bl) as [b|] eqn:E; [|discriminate]. rewrite (EX _ _ E). exact RS.
Qed.

Lemma chain_mono bl bl' did key b root recs : extends bl bl' -> chain bl did key b root recs -> chain bl' did key b root recs.
Proof.
  clear. intros EX. induction 1 as [b root H1 H2 H3 H4|b' root' recs ws b root C IH H1 H2 H3 H4 H5 H6 H7 H8].
  - apply chain_first; auto. eapply snapshot_mono; eauto.
  - eapply chain_next; eauto. eapply snapshot_mono; eauto. eapply recs_stored_mono; eauto.
Qed.

Lemma commit_of_did b did key prev root : commit_of b did key prev root -> item_text (s "did") (b_val b) = Ok did.
Proof. clear. intros (rev & _ & _ & ->). destruct prev; reflexivity. Qed.
Lemma commit_of_data b did key prev root : commit_of b did key prev root -> item_link (s "data") (b_val b) = Ok root.
Proof. clear. intros (rev & _ & _ & ->). destruct prev; reflexivity. Qed.

Lemma chain_commit bl did key b root recs : chain bl did key b root recs ->
  exists prev, commit_of b did key prev root.
Proof. clear. destruct 1; eauto. Qed.
Lemma chain_did bl did key b root recs : chain bl did key b root recs -> item_text (s "did") (b_val b) = Ok did.
Proof. clear. intros C. apply chain_commit in C as (prev & C). eapply commit_of_did; eauto. Qed.
Lemma chain_data bl did key b root recs : chain bl did key b root recs -> item_link (s "data") (b_val b) = Ok root.
Proof. clear. intros C. apply chain_commit in C as (prev & C). eapply commit_of_data; eauto. Qed.
Lemma chain_read bl did key b root recs : chain bl did key b root recs -> dget (b_cid b) bl = Some b.
Proof. clear. destruct 1; auto. Qed.
Lemma chain_stored bl did key b root recs : chain bl did key b root recs -> recs_stored bl recs.
Proof. clear. destruct 1; auto. intros k v HX. discriminate HX. Qed.
Lemma chain_snapshot bl did key b root recs : chain bl did key b root recs -> snapshot bl (mst_load root) root (cids_of recs).
Proof. clear. destruct 1; auto. Qed.

(** A repo object that shows the records [recs] of [did]. *)
Definition good (bl : store) (did : str) (key : N) (recs : records) (o : repo) : Prop :=
  exists h root, r_head o = Some h /\ chain bl did key h root recs /\ snapshot bl (r_mst o) root (cids_of recs).

Lemma good_mono bl bl' did key recs o : extends bl bl' -> good bl did key recs o -> good bl' did key recs o.
Proof.
  clear. intros EX (h & root & A & B & C). exists h, root. splits; auto.
  - eapply chain_mono; eauto.
  - eapply snapshot_mono; eauto.
Qed.

Lemma good_head bl did key recs o : good bl did key recs o -> exists h, r_head o = Some h /\ item_text (s "did") (b_val h) = Ok did.
Proof. clear. intros (h & root & A & B & C). exists h. split; auto. eapply chain_did; eauto. Qed.

Lemma good_did bl bl' did did' key key' recs recs' o : good bl did key recs o -> good bl' did' key' recs' o -> did = did'.
Proof. clear. intros A B. apply good_head in A as (h & H & D). apply good_head in B as (h' & H' & D'). congruence. Qed.

(** ** The invariant *)

Record inv (st : state) (refs : list nat) (bk : book) : Prop := {
  i_next : (0 < s_next st)%Z;
  i_store : store_ok (s_blocks st) (s_next st);
  i_mem : NoDup (keys (s_mem st));
  i_ents : ssorted (keys (s_ents st));
  i_ref : forall r, In r refs -> exists o did key recs,
    nth_error (s_objs st) r = Some o /\ good (s_blocks st) did key recs o /\ dget did bk <> None;
  i_book : forall did key recs, dget did bk = Some (key, recs) -> is_did did /\ registered st did /\
    exists o, stored_repo st did = Some o /\ good (s_blocks st) did key recs o /\ r_key o = key /\ handle_ok (r_handle o);
  i_none : forall did, dget did bk = None -> ~ registered st did
}.

Lemma inv_named st refs bk : inv st refs bk -> named st.
Proof.
  clear. intros I. split; [exact (i_mem _ _ _ I)|]. split; [exact (i_ents _ _ _ I)|].
  intros did R. destruct (dget did bk) as [[key recs]|] eqn:E.
  - destruct (i_book _ _ _ I _ _ _ E) as (_ & _ & o & HO & G & _ & HK). apply good_head in G as (h & HH & HD).
    exists o, h. auto.
  - exfalso. exact (i_none _ _ _ I _ E R).
Qed.

(** What load_repo sees only depends on the registered objects, entities and blocks. *)
Lemma stored_same st st' did o :
  stored_repo st did = Some o -> extends (s_blocks st) (s_blocks st') ->
  (be = Memory -> forall r, dget did (s_mem st) = Some r -> dget did (s_mem st') = Some r /\
     nth_error (s_objs st') r = nth_error (s_objs st) r) ->
  (be = Datastore -> dget did (s_ents st') = dget did (s_ents st)) ->
  stored_repo st' did = Some o.
Proof.
  clear. intros HS EX M D. unfold stored_repo in *. destruct be.
  - destruct (dget did (s_mem st)) as [r|] eqn:E; [|discriminate].
    destruct (M eq_refl r eq_refl) as [-> ->]. exact HS.
  - rewrite (D eq_refl). destruct (dget did (s_ents st)) as [e|]; [|discriminate].
    destruct (dget (e_head e) (s_blocks st)) as [b|] eqn:E; [|discriminate]. rewrite (EX _ _ E). exact HS.
Qed.

(** More blocks, objects and numbers; the registered repos stay. *)
Lemma inv_frame st st' refs bk : inv st refs bk ->
  (s_next st <= s_next st')%Z -> store_ok (s_blocks st') (s_next st') -> extends (s_blocks st) (s_blocks st') ->
  s_mem st' = s_mem st -> s_ents st' = s_ents st ->
  (forall r o, nth_error (s_objs st) r = Some o -> nth_error (s_objs st') r = Some o) ->
  inv st' refs bk.
Proof.
  clear. intros I LE SO EX EM EE EO.
  split; auto.
  - pose proof (i_next _ _ _ I). lia.
  - rewrite EM. exact (i_mem _ _ _ I).
  - rewrite EE. exact (i_ents _ _ _ I).
  - intros r HR. destruct (i_ref _ _ _ I r HR) as (o & did & key & recs & A & B & C).
    exists o, did, key, recs. splits; auto. eapply good_mono; eauto.
  - intros did key recs E. destruct (i_book _ _ _ I _ _ _ E) as (A & B & o & C & D & F). splits; auto.
    + unfold registered in *. rewrite EM, EE. exact B.
    + exists o. split; [|split; [eapply good_mono; eauto|auto]]. apply (stored_same st); auto.
      * intros BE r R. rewrite EM. split; auto. unfold stored_repo in C. rewrite BE, R in C. rewrite C. auto.
      * intros _. rewrite EE. auto.
  - intros did E. unfold registered. rewrite EM, EE. exact (i_none _ _ _ I did E).
Qed.

Lemma extends_refl bl : extends bl bl.
Proof. clear. intros c b H. exact H. Qed.
Lemma extends_trans a b c : extends a b -> extends b c -> extends a c.
Proof. clear. intros H1 H2 x y H. auto. Qed.
Lemma extends_app a b : extends a (a ++ b).
Proof. clear. intros c x H. rewrite dget_app, H. auto. Qed.
Lemma extends_setdefault bs a : extends a (fold_left dsetdefault bs a).
Proof. clear. intros c x H. rewrite fold_setdefault_get, H. auto. Qed.

Lemma called_objs o c st : s_objs (called o c st) = s_objs st.
Proof. clear. unfold called. destruct (r_callback o); auto. Qed.
Lemma called_blocks o c st : s_blocks (called o c st) = s_blocks st.
Proof. clear. unfold called. destruct (r_callback o); auto. Qed.
Lemma called_mem o c st : s_mem (called o c st) = s_mem st.
Proof. clear. unfold called. destruct (r_callback o); auto. Qed.
Lemma called_ents o c st : s_ents (called o c st) = s_ents st.
Proof. clear. unfold called. destruct (r_callback o); auto. Qed.
Lemma called_next o c st : s_next (called o c st) = s_next st.
Proof. clear. unfold called. destruct (r_callback o); auto. Qed.
Lemma called_calls o c st : s_calls (called o c st) = if r_callback o then c :: s_calls st else s_calls st.
Proof. clear. unfold called. destruct (r_callback o); auto. Qed.

Lemma store_ok_le bl a b : (a <= b)%Z -> store_ok bl a -> store_ok bl b.
Proof.
  clear. intros LE SO. split; [|exact (so_closed _ _ _ _ SO)|exact (so_nodup _ _ _ _ SO)].
  intros c x H. destruct (so_block _ _ _ _ SO _ _ H) as (A & B & C & D). unfold block_ok. splits; auto; lia.
Qed.

Lemma inv_lost st refs bk o c : inv st refs bk -> inv (called o c (alloc st)) refs bk.
Proof.
  clear. intros I. eapply inv_frame; eauto.
  - rewrite called_next. cbn. lia.
  - rewrite called_next, called_blocks. cbn. eapply store_ok_le; [|exact (i_store _ _ _ I)]. lia.
  - rewrite called_blocks. apply extends_refl.
  - rewrite called_mem. auto.
  - rewrite called_ents. auto.
  - intros r o'. rewrite called_objs. auto.
Qed.

Lemma nth_app_some {A} (l l' : list A) n a : nth_error l n = Some a -> nth_error (l ++ l') n = Some a.
Proof. clear. intros H. rewrite nth_error_app1; auto. apply nth_error_Some. congruence. Qed.
Lemma nth_app_last {A} (l : list A) a : nth_error (l ++ [a]) (length l) = Some a.
Proof. clear. rewrite nth_error_app2 by lia. rewrite Nat.sub_diag. reflexivity. Qed.

Lemma inv_add_obj st refs bk o : inv st refs bk -> inv (add_obj o st) refs bk.
Proof.
  clear. intros I. eapply inv_frame; eauto.
  - cbn. lia.
  - exact (i_store _ _ _ I).
  - apply extends_refl.
  - intros r o'. cbn. apply nth_app_some.
Qed.

Lemma inv_add_ref st refs bk r o did key recs : inv st refs bk ->
  nth_error (s_objs st) r = Some o -> good (s_blocks st) did key recs o -> dget did bk <> None -> inv st (refs ++ [r]) bk.
Proof.
  clear. intros I HO G D. destruct I as [I1 I2 I3 I4 I5 I6 I7]. split; auto.
  intros r' HI. apply in_app_or in HI as [HI|[<-|[]]]; auto. exists o, did, key, recs. auto.
Qed.

(** ** Commits *)

(** What a successful commit of [ws] through the reference [r0] does. *)
Record committed (st st' : state) (r0 : nat) (o0 : repo) (did : str) (key : N) (recs : records) (ws : list write)
  (cd : commit_data) : Prop := {
  c_next : s_next st' = (s_next st + 1)%Z;
  c_seq : b_seq (cd_commit cd) = s_next st;
  c_blocks : s_blocks st' = fold_left dsetdefault (cd_blocks cd) (s_blocks st);
  c_store : store_ok (s_blocks st') (s_next st');
  c_calls : s_calls st' = if r_callback o0 then CData (MCommit cd) :: s_calls st else s_calls st;
  c_mem : keys (s_mem st') = keys (s_mem st) /\ forall d, dget d (s_mem st') = dget d (s_mem st);
  c_ents : match be with
           | Memory => s_ents st' = s_ents st
           | Datastore => exists e, dget did (s_ents st) = Some e /\
               s_ents st' = ent_put did (Entity (e_handle e) (b_cid (cd_commit cd)) (e_status e) (e_key e)) (s_ents st)
           end;
  c_other : forall r' o', nth_error (s_objs st) r' = Some o' -> r' <> r0 ->
    (be = Memory -> dget did (s_mem st) <> Some r') -> nth_error (s_objs st') r' = Some o';
  c_objs : exists o root m', stored_repo st did = Some o /\
    snapshot (s_blocks st') m' root (cids_of (apply_writes recs ws)) /\
    chain (s_blocks st') did key (cd_commit cd) root (apply_writes recs ws) /\
    nth_error (s_objs st') r0 = Some (with_head (Some (cd_commit cd)) (with_mst m' o0)) /\
    (match be with
     | Memory => stored_repo st' did = Some (with_head (Some (cd_commit cd)) (with_mst m' o))
     | Datastore => stored_repo st' did = Some (with_head (Some (cd_commit cd)) (with_mst (mst_load root) o))
     end);
  c_prev : exists o h, stored_repo st did = Some o /\ r_head o = Some h /\ cd_prev cd = Some (b_cid h) /\
    exists root, commit_of (cd_commit cd) did key (Some (b_cid h)) root;
  c_ops : b_ops (cd_commit cd) = Some (commit_ops recs ws);
  c_keyed : keyed (cd_blocks cd);
  c_nodup : NoDup (keys (cd_blocks cd));
  c_new : forall c b, dget c (cd_blocks cd) = Some b -> b_seq b = s_next st /\ b_repo b = Some did /\
    c = cid_of digest (b_val b) /\
    (b = cd_commit cd \/ b_ops b = None /\ ((exists d, b_val b = ndata_ipld d) \/
       exists w v, In w ws /\ w_action w <> DELETE /\ w_record w = Some v /\ b_val b = norm v /\ plain v));
  c_in : dget (b_cid (cd_commit cd)) (cd_blocks cd) = Some (cd_commit cd);
  c_fresh : dget (b_cid (cd_commit cd)) (s_blocks st) = None;
  c_written : forall w v, In w ws -> w_action w <> DELETE -> w_record w = Some v ->
    dget (rcid v) (vals (s_blocks st')) = Some (norm v);
  c_nodes : forall n t k v, wf kdigest n t -> dget (tcid digest t) (cd_blocks cd) <> None -> In (k, v) (leaves t) ->
    dget k (cids_of (apply_writes recs ws)) = Some v
}.

Lemma dset_same_get {V} k (v : V) l d : dget k l = Some v -> dget d (dset k v l) = dget d l.
Proof. clear. intros H. rewrite dget_dset. destruct (str_eqb_spec d k) as [->|]; auto. Qed.

Lemma apply_stored bl recs ws : recs_stored bl recs ->
  (forall w v, In w ws -> w_action w <> DELETE -> w_record w = Some v -> dget (rcid v) (vals bl) = Some (norm v)) ->
  NoDup (keys recs) -> recs_stored bl (apply_writes recs ws).
Proof.
  clear. revert recs. induction ws as [|w ws IH]; intros recs RS WS ND; auto. cbn [apply_writes fold_left].
  apply IH; auto.
  - intros k v. unfold apply_write. set (p := record_path _ _).
    pose proof (WS w) as W. destruct (w_action w) eqn:A.
    + destruct (w_record w) as [x|]; [|exact (RS k v)]. rewrite dget_dset.
      destruct (str_eqb_spec k p) as [->|NE]; [|exact (RS k v)].
      intros [= <-]. apply W; auto; [left; auto|discriminate].
    + destruct (w_record w) as [x|]; [|exact (RS k v)]. rewrite dget_dset.
      destruct (str_eqb_spec k p) as [->|NE]; [|exact (RS k v)].
      intros [= <-]. apply W; auto; [left; auto|discriminate].
    + rewrite dget_ddel by auto. destruct (str_eqb k p); [discriminate|exact (RS k v)].
  - intros w' v HI. apply WS. right. auto.
  - unfold apply_write. destruct (w_action w), (w_record w); auto using dset_NoDup, ddel_NoDup.
Qed.

Lemma loaded_facts st did o st1 r : stored_repo st did = Some o -> loaded st did o st1 r ->
  s_next st1 = s_next st /\ s_blocks st1 = s_blocks st /\ s_calls st1 = s_calls st /\ s_mem st1 = s_mem st /\
  s_ents st1 = s_ents st /\ nth_error (s_objs st1) r = Some o /\
  (forall r' o', nth_error (s_objs st) r' = Some o' -> nth_error (s_objs st1) r' = Some o') /\
  (be = Memory -> dget did (s_mem st) = Some r) /\ (be = Datastore -> nth_error (s_objs st) r = None).
Proof.
  clear. intros HS L. unfold stored_repo, loaded in *. destruct be.
  - destruct L as [E ->]. rewrite E in HS. splits; auto. discriminate.
  - destruct L as [-> ->]. splits; auto; try discriminate.
    + cbn. apply nth_app_last.
    + intros r' o' H. cbn. apply nth_app_some. auto.
    + intros _. apply nth_error_None. lia.
Qed.

Lemma commit_ok st refs bk r0 o0 did key0 recs0 key recs ws :
  inv st refs bk -> In r0 refs -> nth_error (s_objs st) r0 = Some o0 -> good (s_blocks st) did key0 recs0 o0 ->
  dget did bk = Some (key, recs) -> r_status o0 = None ->
  (commit_possible validate recs ws (s_next st) /\
   exists st' cd, commit digest kdigest validate ecdsa cb be r0 ws None st = (st', Ok cd) /\
     committed st st' r0 o0 did key recs ws cd) \/
  (~ commit_possible validate recs ws (s_next st) /\
   exists o st1 r m' e, stored_repo st did = Some o /\ loaded (alloc st) did o st1 r /\
     commit digest kdigest validate ecdsa cb be r0 ws None st
     = (called o0 (CLost (s_next st)) (upd st1 r (with_mst m' o)), Err e) /\
     commit_fails validate recs ws (s_next st) e /\
     (length ws <= 1 \/ 200 < length ws -> (s_next st < 2 ^ 55)%Z -> m' = r_mst o)).
Proof.
  intros I HR HO0 G0 HB ST.
  destruct (i_book _ _ _ I _ _ _ HB) as (ID & RG & o & HS & G & HK & HN).
  pose proof (inv_named _ _ _ I) as NM.
  assert (NMA : named (alloc st)) by exact NM.
  destruct (load_did (alloc st) did NMA ID) as [(_ & NR)|(o' & st1 & r & HS' & _ & L & LD)]; [exfalso; exact (NR RG)|].
  change (stored_repo (alloc st) did) with (stored_repo st did) in HS'. rewrite HS in HS'. injection HS' as <-.
  destruct (loaded_facts (alloc st) did o st1 r HS L) as (F1 & F2 & F3 & F4 & F5 & F6 & F7 & F8 & F9).
  destruct (good_head _ _ _ _ _ G0) as (h0 & HH0 & HD0).
  pose proof G as (hb & root0 & HHb & CH & SN).
  assert (HOLD : holds st1 (r_mst o) recs).
  { unfold CommitProofs.holds. rewrite F2. eapply snapshot_rel; eauto. }
  assert (EN : be = Datastore -> dget did (s_ents st1) <> None).
  { intros BE. rewrite F5. unfold registered in RG. rewrite BE in RG. exact RG. }
  pose proof (i_store _ _ _ I) as SO. pose proof (i_next _ _ _ I) as POS.
  destruct (commit_exec digest kdigest validate ecdsa cb be klen inj quiet st r0 o0 h0 did st1 r o hb recs ws
     HO0 ST HH0 HD0 LD F1 F2 F3 (F7 _ _ HO0) F6 HHb EN (so_closed _ _ _ _ SO) POS HOLD)
    as [(CP & m' & root & bs & rev & HM & REV & GU & EX)|(NCP & m' & e & EX & CF & KEEP)].
  2:{ right. split; auto. exists o, st1, r, m', e. splits; auto. }
  left. split; auto.
  set (ops := commit_ops recs ws) in *.
  set (prev := Some (b_cid hb)) in *.
  set (seq := s_next st) in *.
  set (cblock := finish_block did seq ops (r_key o) prev rev root) in *.
  set (new := finish_new did seq ws ops (r_key o) prev rev root bs) in *.
  set (bl := finish_store (s_blocks st) did seq ws ops (r_key o) prev rev root bs) in *.
  set (cd := CommitData cblock new prev) in *. cbn [cd_commit] in EX.
  destruct CP as (AL & LIM & LT).
  assert (HM2 : Rel digest kdigest None (Client (vals (s_blocks st)) m') (cids_of (apply_writes recs ws))).
  { unfold CommitProofs.holds in HM. rewrite F2 in HM. exact HM. }
  destruct (finish_ok digest kdigest klen inj ecdsa (s_blocks st) m' (apply_writes recs ws) did seq ws ops (r_key o) prev rev
     SO POS HM2 REV (allowed_plain validate valid_plain _ _ AL))
    as (root2 & bs2 & GU2 & PT & GS & NK & SO' & CBR & SN' & RS & NL).
  assert (X : (root2, bs2) = (root, bs)).
  { unfold rd in GU. rewrite F2 in GU. change (s_blocks (alloc st)) with (s_blocks st) in GU. rewrite GU in GU2. congruence. }
  injection X as -> ->.
  fold cblock new bl in GS, NK, SO', CBR, SN', RS, NL.
  assert (BLE : bl = fold_left dsetdefault new (s_blocks st)).
  { unfold bl, StoreProofs.finish_store. fold new. rewrite keyed_map; auto. apply finish_keyed. }
  assert (EXT : extends (s_blocks st) bl) by (rewrite BLE; apply extends_setdefault).
  assert (CO : commit_of cblock did (r_key o) prev root).
  { exists rev. splits; auto. }
  assert (SQB : (b_seq hb < seq)%Z).
  { destruct (so_block _ _ _ _ SO _ _ (chain_read _ _ _ _ _ _ CH)) as (_ & _ & Q & _). unfold seq. lia. }
  assert (NDR : NoDup (keys recs)).
  { destruct SN as (n & t & _ & _ & _ & _ & _ & _ & _ & ND). rewrite keys_cids in ND. auto. }
  assert (RST : recs_stored bl (apply_writes recs ws)).
  { apply apply_stored; auto. eapply recs_stored_mono; [exact EXT|]. eapply chain_stored; eauto. }
  assert (CHN : chain bl did (r_key o) cblock root (apply_writes recs ws)).
  { apply (chain_next bl did (r_key o) hb root0 recs ws cblock root); auto.
    - eapply chain_mono; eauto. rewrite HK. exact CH.
    - eapply snapshot_load; eauto. }
  exists (called o0 (CData (MCommit cd)) (after_finish st1 r0 r (with_mst m' o) did bl cblock)), cd.
  split; [exact EX|].
  set (stf := after_finish st1 r0 r (with_mst m' o) did bl cblock) in *.
  set (o1 := with_head (Some cblock) (with_mst m' o)).
  set (s1 := after_store (upd (set_blocks bl st1) r o1) did r o1 cblock).
  assert (S1O : s_objs s1 = replace_nth r o1 (s_objs st1)) by (unfold s1; rewrite after_store_objs; reflexivity).
  assert (HY : exists y, nth_error (s_objs s1) r0 = Some y /\ with_head (Some cblock) (with_mst m' y) = with_head (Some cblock) (with_mst m' o0)
      /\ (r = r0 -> o0 = o)).
  { rewrite S1O. destruct (Nat.eq_dec r r0) as [E|NE].
    - assert (o0 = o) by (subst r; pose proof (F7 _ _ HO0); congruence). subst o.
      subst r. eexists. split; [eapply nth_replace_same; exact F6|]. split; auto.
    - exists o0. rewrite nth_replace_other by auto. splits; auto. intros E; congruence. }
  destruct HY as (y & HY & YE & YR).
  assert (SF : stf = upd s1 r0 (with_head (Some cblock) (with_mst m' o0))).
  { unfold stf, ExecProofs.after_finish. cbv zeta. fold o1. fold s1. rewrite HY. cbn [r_mst with_mst]. rewrite YE. reflexivity. }
  assert (FN : s_next stf = (seq + 1)%Z) by (rewrite SF; cbn; unfold s1; rewrite after_store_next; exact F1).
  assert (FB : s_blocks stf = bl) by (rewrite SF; cbn; unfold s1; rewrite after_store_blocks; reflexivity).
  assert (FC : s_calls stf = s_calls st) by (rewrite SF; cbn; unfold s1; rewrite after_store_calls; exact F3).
  assert (FM : keys (s_mem stf) = keys (s_mem st) /\ forall d, dget d (s_mem stf) = dget d (s_mem st)).
  { rewrite SF. cbn [s_mem upd set_objs]. unfold s1, ExecProofs.after_store. destruct be.
    - cbn [s_mem set_mem upd set_objs set_blocks]. rewrite F4. cbn [s_mem alloc set_next]. specialize (F8 eq_refl). cbn [s_mem alloc set_next] in F8.
      split; [apply keys_dset_present; congruence|].
      intros d. apply dset_same_get. auto.
    - destruct (dget did (s_ents (upd (set_blocks bl st1) r o1))); cbn [s_mem set_ents upd set_objs set_blocks]; rewrite F4; auto. }
  assert (FE : match be with
           | Memory => s_ents stf = s_ents st
           | Datastore => exists e, dget did (s_ents st) = Some e /\
               s_ents stf = ent_put did (Entity (e_handle e) (b_cid cblock) (e_status e) (e_key e)) (s_ents st)
           end).
  { rewrite SF. cbn [s_ents upd set_objs]. unfold s1, ExecProofs.after_store. clear - F5 HS RG. unfold registered, stored_repo in *. destruct be; [exact F5|].
    destruct (dget did (s_ents st)) as [e|] eqn:EE; [|congruence].
    exists e. split; auto. cbn [s_ents upd set_objs set_blocks]. rewrite F5. cbn [s_ents alloc set_next]. rewrite EE.
    cbn [s_ents set_ents]. unfold o1. cbn [r_handle r_status with_head with_mst].
    destruct (dget (e_head e) (s_blocks st)) as [b|]; [|discriminate].
    destruct (item_link (s "data") (b_val b)); [|discriminate]. injection HS as <-.
    cbn [r_handle r_status s_ents upd set_objs set_blocks]. reflexivity. }
  assert (FO : forall r' o', nth_error (s_objs st) r' = Some o' -> r' <> r0 ->
    (be = Memory -> dget did (s_mem st) <> Some r') -> nth_error (s_objs stf) r' = Some o').
  { intros r' o' H1 H2 H3. rewrite SF. cbn [s_objs upd set_objs]. rewrite nth_replace_other by auto. rewrite S1O.
    rewrite nth_replace_other; [apply F7; exact H1|]. intros ->.
    destruct be; [exact (H3 eq_refl (F8 eq_refl))|]. specialize (F9 eq_refl). cbn [s_objs alloc set_next] in F9. congruence. }
  assert (FR0 : nth_error (s_objs stf) r0 = Some (with_head (Some cblock) (with_mst m' o0))).
  { rewrite SF. cbn [s_objs upd set_objs]. eapply nth_replace_same. exact HY. }
  assert (FS : match be with
     | Memory => stored_repo stf did = Some o1
     | Datastore => stored_repo stf did = Some (with_head (Some cblock) (with_mst (mst_load root) o))
     end).
  { pose proof (i_ents _ _ _ I) as SS. unfold stored_repo in *. destruct be eqn:BE.
    - rewrite (proj2 FM). specialize (F8 eq_refl). cbn [s_mem alloc set_next] in F8. rewrite F8.
      rewrite SF. cbn [s_objs upd set_objs]. destruct (Nat.eq_dec r r0) as [E|NE].
      + unfold o1. rewrite <- (YR E). subst r0. eapply nth_replace_same. exact HY.
      + rewrite nth_replace_other by auto. rewrite S1O. eapply nth_replace_same. exact F6.
    - destruct FE as (e & EE & FE). rewrite FE, ent_put_get, str_eqb_refl by exact SS. cbn [e_head].
      rewrite FB, CBR. rewrite (commit_of_data _ _ _ _ _ CO). cbn [e_handle e_status e_key].
      rewrite EE in HS. destruct (dget (e_head e) (s_blocks st)) as [b|]; [|discriminate].
      destruct (item_link (s "data") (b_val b)); [|discriminate]. injection HS as <-. reflexivity. }
  clearbody stf.
  split; rewrite ?called_next, ?called_blocks, ?called_objs, ?called_mem, ?called_ents, ?called_calls; auto.
  - rewrite FB. exact BLE.
  - rewrite FB, FN. exact SO'.
  - rewrite FC. reflexivity.
  - exists o, root, m'. rewrite FB. splits; auto.
    + rewrite <- HK. exact CHN.
    + clear - FS. unfold stored_repo in *. destruct be; rewrite ?called_mem, ?called_ents, ?called_objs, ?called_blocks; exact FS.
  - exists o, hb. splits; auto. exists root. rewrite <- HK. exact CO.
  - apply finish_keyed.
  - apply finish_nodup.
  - intros c b H. destruct (NK c b H) as (N1 & N2 & (_ & N3 & _) & N4). splits; auto.
    destruct N4 as [N4|[(N4 & N5)|(w & v & W1 & W2 & W3 & W4 & W5)]]; [left; auto| |].
    + right. split; auto.
    + right. subst b. split; auto. right. exists w, v. splits; auto. eapply (allowed_plain validate valid_plain _ _ AL); eauto.
  - unfold cd. cbn [cd_commit cd_blocks]. unfold new, StoreProofs.finish_new. fold cblock. rewrite dget_dset, str_eqb_refl. auto.
  - eapply (commit_fresh digest kdigest inj ecdsa); eauto.
  - rewrite FB. exact RS.
Qed.

Lemma committed_extends st st' r0 o0 did key recs ws cd : committed st st' r0 o0 did key recs ws cd ->
  extends (s_blocks st) (s_blocks st').
Proof. intros C. rewrite (c_blocks _ _ _ _ _ _ _ _ _ C). apply extends_setdefault. Qed.

(** Other repos are not affected. *)
Lemma committed_other st refs bk st' r0 o0 did key0 recs0 key recs ws cd did' :
  inv st refs bk -> In r0 refs -> nth_error (s_objs st) r0 = Some o0 -> good (s_blocks st) did key0 recs0 o0 ->
  committed st st' r0 o0 did key recs ws cd -> did' <> did ->
  forall o, stored_repo st did' = Some o -> dget did' bk <> None -> stored_repo st' did' = Some o.
Proof.
  clear klen inj valid_plain quiet. intros I HR HO0 G0 C NE o HS HB. destruct (dget did' bk) as [[key' recs']|] eqn:B; [|congruence].
  destruct (i_book _ _ _ I _ _ _ B) as (_ & _ & o' & HS' & G' & _). rewrite HS in HS'. injection HS' as <-.
  apply (stored_same st); auto.
  - eapply committed_extends; eauto.
  - intros BE r R. rewrite (proj2 (c_mem _ _ _ _ _ _ _ _ _ C)). split; auto.
    unfold stored_repo in HS. rewrite BE, R in HS. rewrite HS. apply (c_other _ _ _ _ _ _ _ _ _ C); auto.
    + intros ->. rewrite HS in HO0. injection HO0 as ->. apply NE. eapply good_did; eauto.
    + intros _ R'. destruct (c_objs _ _ _ _ _ _ _ _ _ C) as (o2 & _ & _ & HS2 & _).
      unfold stored_repo in HS2. rewrite BE, R', HS in HS2. injection HS2 as <-.
      destruct (c_prev _ _ _ _ _ _ _ _ _ C) as (o3 & h3 & HS3 & HH3 & _).
      unfold stored_repo in HS3. rewrite BE, R', HS in HS3. injection HS3 as <-.
      destruct (dget did bk) as [[key2 recs2]|] eqn:B2.
      * destruct (i_book _ _ _ I _ _ _ B2) as (_ & _ & o4 & HS4 & G4 & _). unfold stored_repo in HS4. rewrite BE, R', HS in HS4.
        injection HS4 as <-. apply NE. eapply good_did; eauto.
      * apply (i_none _ _ _ I _ B2). unfold registered. rewrite BE, R'. discriminate.
  - intros BE. pose proof (c_ents _ _ _ _ _ _ _ _ _ C) as E. rewrite BE in E. destruct E as (e & E1 & E2). rewrite E2.
    rewrite ent_put_get by exact (i_ents _ _ _ I). destruct (str_eqb_spec did' did); [contradiction|auto].
Qed.

Lemma good_committed bl did key recs m root b (o : repo) :
  snapshot bl m root (cids_of recs) -> chain bl did key b root recs -> good bl did key recs (with_head (Some b) (with_mst m o)).
Proof. clear. intros S1 C. exists b, root. splits; auto. Qed.

Lemma committed_inv st refs bk st' r0 o0 did key0 recs0 key recs ws cd :
  inv st refs bk -> In r0 refs -> nth_error (s_objs st) r0 = Some o0 -> good (s_blocks st) did key0 recs0 o0 ->
  dget did bk = Some (key, recs) -> committed st st' r0 o0 did key recs ws cd ->
  inv st' refs (dset did (key, apply_writes recs ws) bk).
Proof.
  clear klen inj valid_plain quiet. intros I HR HO0 G0 HB C. pose proof (committed_extends _ _ _ _ _ _ _ _ _ C) as EXT.
  destruct (c_objs _ _ _ _ _ _ _ _ _ C) as (o & root & m' & HS & SN & CH & HR0 & HS').
  destruct (i_book _ _ _ I _ _ _ HB) as (ID & RG & o' & HSx & GS & HK & HN). rewrite HS in HSx. injection HSx as <-.
  assert (RGE : forall d, registered st' d <-> registered st d).
  { intros d. pose proof (proj2 (c_mem _ _ _ _ _ _ _ _ _ C) d) as Em. pose proof (c_ents _ _ _ _ _ _ _ _ _ C) as Ee.
    pose proof (i_ents _ _ _ I) as SS. clear - Em Ee SS RG. unfold registered in *. destruct be.
    - rewrite Em. tauto.
    - destruct Ee as (e & E1 & E2). rewrite E2, ent_put_get by exact SS. destruct (str_eqb_spec d did) as [->|NE]; [|tauto].
      split; congruence. }
  assert (SG : exists o2, stored_repo st' did = Some o2 /\ good (s_blocks st') did key (apply_writes recs ws) o2 /\
     r_key o2 = key /\ handle_ok (r_handle o2)).
  { assert (SNL : snapshot (s_blocks st') (mst_load root) root (cids_of (apply_writes recs ws))) by (eapply snapshot_load; eauto).
    assert (X : exists m2, stored_repo st' did = Some (with_head (Some (cd_commit cd)) (with_mst m2 o)) /\
       snapshot (s_blocks st') m2 root (cids_of (apply_writes recs ws))).
    { clear - HS' SN SNL. destruct be; eauto. }
    destruct X as (m2 & X1 & X2). exists (with_head (Some (cd_commit cd)) (with_mst m2 o)). splits; auto.
    eapply good_committed; eauto. }
  split.
  - rewrite (c_next _ _ _ _ _ _ _ _ _ C). pose proof (i_next _ _ _ I). lia.
  - exact (c_store _ _ _ _ _ _ _ _ _ C).
  - rewrite (proj1 (c_mem _ _ _ _ _ _ _ _ _ C)). exact (i_mem _ _ _ I).
  - pose proof (c_ents _ _ _ _ _ _ _ _ _ C) as Ee. pose proof (i_ents _ _ _ I) as SS. clear - Ee SS. destruct be; [rewrite Ee; auto|].
    destruct Ee as (e & _ & ->). apply ent_put_sorted. auto.
  - intros r HI. destruct (i_ref _ _ _ I r HI) as (oo & did2 & key2 & recs2 & HO & G & D2).
    assert (DN : forall d, dget d bk <> None -> dget d (dset did (key, apply_writes recs ws) bk) <> None).
    { intros d Hd. rewrite dget_dset. destruct (str_eqb d did); congruence. }
    destruct (Nat.eq_dec r r0) as [->|NE].
    + eexists. exists did, key, (apply_writes recs ws). splits; eauto.
      * eapply good_committed; eauto.
      * apply DN. congruence.
    + assert (CASE : (be = Memory /\ dget did (s_mem st) = Some r) \/ (be = Memory -> dget did (s_mem st) <> Some r)).
      { clear. destruct be.
        - destruct (dget did (s_mem st)) as [x|]; [|right; discriminate]. destruct (Nat.eq_dec x r) as [->|N]; [left|right]; auto. congruence.
        - right. discriminate. }
      destruct CASE as [(BE & R)|NR].
      * destruct SG as (o2 & S1 & S2 & _). exists o2, did, key, (apply_writes recs ws). splits; auto.
        -- unfold stored_repo in S1. rewrite BE in S1. rewrite (proj2 (c_mem _ _ _ _ _ _ _ _ _ C)), R in S1. exact S1.
        -- apply DN. congruence.
      * exists oo, did2, key2, recs2. splits; auto.
        -- exact (c_other _ _ _ _ _ _ _ _ _ C r oo HO NE NR).
        -- eapply good_mono; eauto.
  - intros d k2 r2 E. rewrite dget_dset in E. destruct (str_eqb_spec d did) as [->|NE].
    + injection E as <- <-. splits; auto. apply RGE. auto.
    + destruct (i_book _ _ _ I _ _ _ E) as (A & B & o2 & C2 & D & F). splits; auto; [apply RGE; auto|].
      exists o2. split; [|split; [eapply good_mono; eauto|auto]].
      eapply committed_other; eauto. congruence.
  - intros d E. rewrite dget_dset in E. destruct (str_eqb_spec d did) as [ED|NE]; [discriminate E|].
    rewrite RGE. exact (i_none _ _ _ I d E).
Qed.

(** A failed commit leaves no trace if the working copy is private or unchanged. *)
Lemma failed_inv st refs bk did o st1 r m' o0 c : inv st refs bk -> stored_repo st did = Some o ->
  loaded (alloc st) did o st1 r -> (be = Memory -> m' = r_mst o) ->
  let st' := called o0 c (upd st1 r (with_mst m' o)) in
  inv st' refs bk /\ s_next st' = (s_next st + 1)%Z /\ s_blocks st' = s_blocks st /\ s_mem st' = s_mem st /\ s_ents st' = s_ents st /\
  (forall r' o', nth_error (s_objs st) r' = Some o' -> nth_error (s_objs st') r' = Some o') /\
  s_calls st' = (if r_callback o0 then c :: s_calls st else s_calls st).
Proof.
  clear. intros I HS L KEEP st'. assert (HSA : stored_repo (alloc st) did = Some o) by exact HS.
  destruct (loaded_facts _ _ _ _ _ HSA L) as (F1 & F2 & F3 & F4 & F5 & F6 & F7 & F8 & F9).
  assert (EO : forall r' o', nth_error (s_objs st) r' = Some o' -> nth_error (s_objs st') r' = Some o').
  { intros r' o' H. unfold st'. rewrite called_objs. cbn [s_objs upd set_objs]. destruct (Nat.eq_dec r r') as [->|NE].
    - pose proof (F7 r' o' H) as H1. assert (o' = o) by congruence. subst o'. 
      assert (X : be = Memory \/ be = Datastore) by (destruct be; auto). destruct X as [BE|BE].
      + rewrite (KEEP BE). erewrite nth_replace_same; [|exact F6]. destruct o; reflexivity.
      + specialize (F9 BE). cbn [s_objs alloc set_next] in F9. congruence.
    - rewrite nth_replace_other by auto. apply F7. exact H. }
  assert (N : s_next st' = (s_next st + 1)%Z) by (unfold st'; rewrite called_next; exact F1).
  assert (B : s_blocks st' = s_blocks st) by (unfold st'; rewrite called_blocks; exact F2).
  assert (M : s_mem st' = s_mem st) by (unfold st'; rewrite called_mem; exact F4).
  assert (E : s_ents st' = s_ents st) by (unfold st'; rewrite called_ents; exact F5).
  splits; auto.
  - eapply inv_frame; eauto.
    + lia.
    + rewrite B, N. eapply store_ok_le; [|exact (i_store _ _ _ I)]. lia.
    + rewrite B. apply extends_refl.
  - unfold st'. rewrite called_calls. cbn [s_calls upd set_objs]. rewrite F3. reflexivity.
Qed.

(** ** Events *)

Definition after_event (st : state) (o : repo) (b : block) : state :=
  called o (CData (MEvent (b_val b))) (add_block b (alloc st)).

Definition event_block (did type : str) (seq : Z) (extra : list (str * ipld)) : block :=
  mk_block digest (event now type seq (Some did) extra) (Some did) seq None.

Lemma after_event_facts st o b : s_next (after_event st o b) = (s_next st + 1)%Z /\
  s_blocks (after_event st o b) = s_blocks st ++ [(b_cid b, b)] /\ s_objs (after_event st o b) = s_objs st /\
  s_mem (after_event st o b) = s_mem st /\ s_ents (after_event st o b) = s_ents st /\
  s_calls (after_event st o b) = if r_callback o then CData (MEvent (b_val b)) :: s_calls st else s_calls st.
Proof.
  clear. unfold after_event. rewrite called_next, called_blocks, called_objs, called_mem, called_ents, called_calls. splits; auto.
Qed.

Lemma event_ok st refs bk r o h did type extra : inv st refs bk -> nth_error (s_objs st) r = Some o ->
  r_head o = Some h -> item_text (s "did") (b_val h) = Ok did ->
  (forall seq, is_event type seq (event now type seq (Some did) extra)) ->
  let b := event_block did type (s_next st) extra in
  write_event digest now cb be r type extra st = (after_event st o b, Ok b) /\
  dget (b_cid b) (s_blocks st) = None /\ inv (after_event st o b) refs bk.
Proof.
  intros I HO HH HD EV b. pose proof (i_store _ _ _ I) as SO. pose proof (i_next _ _ _ I) as POS. splits.
  - exact (write_event_ok digest kdigest now cb be klen inj quiet st r o h did type extra HO HH HD POS (event_fresh digest kdigest inj _ _ _ _ SO (EV _))).
  - exact (event_fresh digest kdigest inj _ _ _ _ SO (EV _)).
  - destruct (after_event_facts st o b) as (F1 & F2 & F3 & F4 & F5 & _). eapply inv_frame; eauto.
    + lia.
    + rewrite F1, F2. exact (event_store digest kdigest inj _ _ _ _ (Some did) SO POS (EV _)).
    + rewrite F2. apply extends_app.
    + intros r' o'. rewrite F3. auto.
Qed.

(** ** Status changes *)

Definition status_set (st : state) (r : nat) (o : repo) (did : str) (x : option str) : state :=
  match be with
  | Memory => upd st r (with_status x o)
  | Datastore =>
      match dget did (s_ents st) with
      | Some e => set_ents (ent_put did (Entity (e_handle e) (e_head e) x (e_key e)) (s_ents st)) (upd st r (with_status x o))
      | None => st
      end
  end.

Lemma status_exec st r o h did x : nth_error (s_objs st) r = Some o -> r_head o = Some h ->
  item_text (s "did") (b_val h) = Ok did -> registered st did ->
  set_repo_status be r x st = (status_set st r o did x, Ok tt).
Proof.
  clear. intros HO HH HD RG. unfold set_repo_status, status_set, registered in *.
  rewrite (bindM_ok _ _ _ _ _ (set_attr_some _ _ _ _ HO)). destruct be; [reflexivity|].
  assert (HO1 : nth_error (s_objs (upd st r (with_status x o))) r = Some (with_status x o)).
  { cbn. eapply nth_replace_same; eauto. }
  rewrite (bindM_ok _ _ _ _ _ (obj_some _ _ _ HO1)).
  rewrite (bindM_ok (lift (repo_did (with_status x o))) _ _ (upd st r (with_status x o)) (Some did))
    by (unfold lift, repo_did; cbn [r_head with_status]; rewrite HH, HD; exact eq_refl).
  assert (U : forall A B (f : state -> A) (g : A -> M B) s0, bindM (reads f) g s0 = g (f s0) s0) by reflexivity.
  rewrite U. cbn [s_ents upd set_objs]. destruct (dget did (s_ents st)) as [e|]; [reflexivity|congruence].
Qed.

Lemma good_status bl did key recs o x : good bl did key recs o -> good bl did key recs (with_status x o).
Proof. clear. intros (h & root & A & B & C). exists h, root. auto. Qed.

Definition attached (st : state) (did : str) (r : nat) : Prop := be = Memory -> dget did (s_mem st) = Some r.

Lemma status_facts st refs bk r o did key recs x : inv st refs bk -> nth_error (s_objs st) r = Some o ->
  good (s_blocks st) did key recs o -> dget did bk <> None ->
  let st' := status_set st r o did x in
  inv st' refs bk /\ s_next st' = s_next st /\ s_blocks st' = s_blocks st /\ s_calls st' = s_calls st /\
  s_mem st' = s_mem st /\ nth_error (s_objs st') r = Some (with_status x o) /\
  (forall r', r' <> r -> nth_error (s_objs st') r' = nth_error (s_objs st) r') /\
  (attached st did r -> stored_repo st' did = option_map (with_status x) (stored_repo st did)) /\
  (~ attached st did r -> stored_repo st' did = stored_repo st did) /\
  (forall did' o', did' <> did -> dget did' bk <> None -> stored_repo st did' = Some o' -> stored_repo st' did' = Some o').
Proof.
  clear klen inj valid_plain quiet. intros I HO G HB st'.
  destruct (dget did bk) as [[key1 recs1]|] eqn:B; [|congruence]. clear HB.
  destruct (i_book _ _ _ I _ _ _ B) as (ID & RG & o1 & HS & G1 & HK & HN).
  assert (SE : s_next st' = s_next st /\ s_blocks st' = s_blocks st /\ s_calls st' = s_calls st /\ s_mem st' = s_mem st /\
    s_objs st' = replace_nth r (with_status x o) (s_objs st)).
  { unfold st', status_set, registered in *. destruct be; [splits; auto|]. destruct (dget did (s_ents st)); [splits; auto|congruence]. }
  destruct SE as (E1 & E2 & E3 & E4 & E5).
  assert (EN : forall d, be = Datastore -> d <> did -> dget d (s_ents st') = dget d (s_ents st)).
  { intros d BE NE. pose proof (i_ents _ _ _ I) as SS. unfold st', status_set. rewrite BE. destruct (dget did (s_ents st)) as [e|]; auto.
    cbn [s_ents set_ents]. rewrite ent_put_get by exact SS. destruct (str_eqb_spec d did); [contradiction|auto]. }
  assert (OR : nth_error (s_objs st') r = Some (with_status x o)) by (rewrite E5; eapply nth_replace_same; eauto).
  assert (OO : forall r', r' <> r -> nth_error (s_objs st') r' = nth_error (s_objs st) r').
  { intros r' NE. rewrite E5. apply nth_replace_other. auto. }
  assert (OT : forall did' o', did' <> did -> dget did' bk <> None -> stored_repo st did' = Some o' -> stored_repo st' did' = Some o').
  { intros d o' NE HB HS'. apply (stored_same st); auto.
    - rewrite E2. apply extends_refl.
    - intros BE r' R. rewrite E4. split; auto. apply OO. intros ->.
      destruct (dget d bk) as [[k2 r2]|] eqn:B2; [|congruence].
      destruct (i_book _ _ _ I _ _ _ B2) as (_ & _ & o2 & HS2 & G2 & _). unfold stored_repo in HS2. rewrite BE, R, HO in HS2.
      injection HS2 as <-. apply NE. eapply good_did; eauto. }
  assert (AT : attached st did r -> stored_repo st' did = option_map (with_status x) (stored_repo st did)).
  { intros A. pose proof (i_ents _ _ _ I) as SS. clear - A E4 OR HO RG E2 SS. unfold stored_repo, attached, registered, st', status_set in *.
    destruct be.
    - rewrite E4, (A eq_refl), HO. exact OR.
    - destruct (dget did (s_ents st)) as [e|] eqn:EE; [|congruence]. cbn [s_ents set_ents].
      rewrite ent_put_get, str_eqb_refl by exact SS. cbn [e_head e_handle e_status e_key s_blocks set_ents upd set_objs].
      destruct (dget (e_head e) (s_blocks st)) as [b|]; auto. destruct (item_link (s "data") (b_val b)); auto. }
  assert (NA : ~ attached st did r -> stored_repo st' did = stored_repo st did).
  { intros A. assert (BE : be = Memory).
    { clear - A. unfold attached in A. destruct be; auto. exfalso. apply A. discriminate. }
    rewrite HS. apply (stored_same st); auto.
    - rewrite E2. apply extends_refl.
    - intros _ r' R. rewrite E4. split; auto. apply OO. intros ->. apply A. intros _. exact R.
    - rewrite BE. discriminate. }
  assert (RGE : forall d, registered st' d <-> registered st d).
  { intros d. pose proof (i_ents _ _ _ I) as SS. clear - E4 SS RG. unfold registered, st', status_set in *. destruct be; [rewrite E4; tauto|].
    destruct (dget did (s_ents st)) as [e|] eqn:EE; [|congruence]. cbn [s_ents set_ents]. rewrite ent_put_get by exact SS.
    destruct (str_eqb_spec d did) as [->|NE]; [|tauto]. split; congruence. }
  splits; auto. split.
  - rewrite E1. exact (i_next _ _ _ I).
  - rewrite E1, E2. exact (i_store _ _ _ I).
  - rewrite E4. exact (i_mem _ _ _ I).
  - pose proof (i_ents _ _ _ I) as SS. clear - SS. unfold st', status_set. destruct be; auto.
    destruct (dget did (s_ents st)); auto. cbn [s_ents set_ents]. apply ent_put_sorted. auto.
  - intros r' HR. destruct (i_ref _ _ _ I r' HR) as (o' & d' & k' & rc' & A & C & D). rewrite E2.
    destruct (Nat.eq_dec r' r) as [->|NE].
    + exists (with_status x o), d', k', rc'. splits; auto. replace o with o' by congruence. apply good_status. auto.
    + exists o', d', k', rc'. rewrite OO by auto. auto.
  - intros d k2 r2 E. destruct (i_book _ _ _ I _ _ _ E) as (A & C & o2 & HS2 & G2 & K2 & N2). rewrite E2. splits; auto; [apply RGE; auto|].
    destruct (str_eqb_spec d did) as [ED|NE].
    + subst d. assert (CASE : attached st did r \/ ~ attached st did r).
      { clear. unfold attached. destruct be; [|left; discriminate]. destruct (dget did (s_mem st)) as [y|]; [|right; intros Y; discriminate (Y eq_refl)].
        destruct (Nat.eq_dec y r) as [->|N]; [left; auto|right]. intros Y. specialize (Y eq_refl). congruence. }
      destruct CASE as [CA|CA].
      * exists (with_status x o2). rewrite AT by auto. rewrite HS2. splits; auto using good_status.
      * exists o2. rewrite NA by auto. auto.
    + exists o2. splits; auto. apply OT; auto. congruence.
  - intros d E. rewrite RGE. exact (i_none _ _ _ I d E).
Qed.

(** ** Creating repos *)

Definition first_repo (handle : option str) (has_callback : bool) (key : N) (b : block) : repo :=
  Repo (Mst (Some []) (Some (tcid digest (Node []))) None false) (Some b) handle None has_callback key.

Definition identity_extra (handle : option str) : list (str * ipld) := [(s "handle", opt_text handle)].
Definition active_extra : list (str * ipld) := [(s "active", IBool true)].
Definition sync_extra (c : block) (rev : str) : list (str * ipld) :=
  [(s "blocks", IBytes (write_car [b_cid c] [(b_cid c, encode (b_val c))])); (s "rev", IText rev)].

Record created (st st' : state) (r : nat) (did : str) (handle : option str) (has_callback : bool) (key : N) (cd : commit_data)
  : Prop := {
  n_ref : r = length (s_objs st);
  n_next : s_next st' = (s_next st + 4)%Z;
  n_seq : b_seq (cd_commit cd) = s_next st;
  n_commit : exists rev, int_to_tid (s_next st) 0 = Ok rev /\
    let e1 := event_block did (s "identity") (s_next st + 1) (identity_extra handle) in
    let e2 := event_block did (s "account") (s_next st + 2) active_extra in
    let e3 := event_block did (s "sync") (s_next st + 3) (sync_extra (cd_commit cd) rev) in
    s_blocks st' = fold_left dsetdefault (cd_blocks cd) (s_blocks st) ++ [(b_cid e1, e1); (b_cid e2, e2); (b_cid e3, e3)] /\
    s_calls st' = (if has_callback then
       [CData (MCommit cd); CData (MEvent (b_val e3)); CData (MEvent (b_val e2)); CData (MEvent (b_val e1)); CData (MCommit cd)]
       else []) ++ s_calls st /\
    NoDup [b_cid e1; b_cid e2; b_cid e3] /\
    (forall b, In b [e1; e2; e3] -> dget (b_cid b) (fold_left dsetdefault (cd_blocks cd) (s_blocks st)) = None);
  n_objs : s_objs st' = s_objs st ++ [first_repo handle has_callback key (cd_commit cd)];
  n_mem : s_mem st' = match be with Memory => dset did r (s_mem st) | Datastore => s_mem st end;
  n_ents : s_ents st' = match be with
                        | Memory => s_ents st
                        | Datastore => ent_put did (Entity handle (b_cid (cd_commit cd)) None key) (s_ents st)
                        end;
  n_chain : exists root, chain (s_blocks st') did key (cd_commit cd) root [] /\ commit_of (cd_commit cd) did key None root;
  n_prev : cd_prev cd = None;
  n_keyed : keyed (cd_blocks cd);
  n_nodup : NoDup (keys (cd_blocks cd));
  n_new : forall c b, dget c (cd_blocks cd) = Some b -> b_seq b = s_next st /\ b_repo b = Some did /\
    c = cid_of digest (b_val b) /\
    (b = cd_commit cd \/ b_ops b = None /\ exists d, b_val b = ndata_ipld d);
  n_in : dget (b_cid (cd_commit cd)) (cd_blocks cd) = Some (cd_commit cd);
  n_fresh : dget (b_cid (cd_commit cd)) (s_blocks st) = None;
  n_nodes : forall n t, wf kdigest n t -> dget (tcid digest t) (cd_blocks cd) <> None -> leaves t = []
}.

Lemma empty_rel bl : Rel digest kdigest None
  (Client (vals bl) (Mst (Some []) (Some (tcid digest (Node []))) None false)) [].
Proof.
  clear. exists 0, (Node []). cbn [cl_tree cl_store]. splits; auto.
  - apply rep_eq. splits; auto.
  - apply wf_empty.
  - constructor.
  - lia.
  - constructor.
  - exact I.
Qed.

Lemma create_ok st refs bk did handle status has_callback key :
  inv st refs bk -> is_did did -> handle_ok handle ->
  (status = None /\ (s_next st < 2 ^ 55)%Z /\
   exists st' cd, repo_create digest kdigest validate ecdsa now cb be did handle status has_callback key st
     = (st', Ok (length (s_objs st))) /\
     created st st' (length (s_objs st)) did handle has_callback key cd /\
     inv st' (refs ++ [length (s_objs st)]) (dset did (key, []) bk)) \/
  ((status <> None \/ (2 ^ 55 <= s_next st)%Z) /\
   exists o e, repo_create digest kdigest validate ecdsa now cb be did handle status has_callback key st
     = (called o (CLost (s_next st)) (alloc (add_obj o st)), Err e) /\ r_callback o = has_callback /\
     (status <> None -> e = InactiveRepo)).
Proof.
  intros I ID HN.
  set (m0 := Mst (Some []) (Some (tcid digest (Node []))) None false).
  set (o := Repo m0 None handle status has_callback key).
  set (r := length (s_objs st)).
  set (st0 := add_obj o st).
  pose proof (inv_add_obj _ _ _ o I) as I0. fold st0 in I0.
  assert (HO : nth_error (s_objs st0) r = Some o) by (cbn; apply nth_app_last).
  pose proof (i_store _ _ _ I0) as SO. pose proof (i_next _ _ _ I0) as POS.
  assert (HR : holds st0 (r_mst o) []) by (apply empty_rel).
  assert (NE : exists x did', did = x :: did') by (destruct did as [|x did']; [discriminate ID|eauto]).
  destruct NE as (x & did' & DE).
  assert (START : forall f, (fun f : nat -> M nat => bindM (lift (mst_create digest [] None)) (fun m =>
     bindM (new_obj (Repo m None handle status has_callback key)) f) st) f = f r st0) by (intros f; reflexivity).
  assert (CASE : status = None /\ (s_next st < 2 ^ 55)%Z \/ status <> None \/ status = None /\ (2 ^ 55 <= s_next st)%Z).
  { destruct status; [right; left; discriminate|]. destruct (Z_lt_le_dec (s_next st) (2 ^ 55)); auto. }
  destruct CASE as [(ST & LT)|[ST|(ST & GE)]].
  2:{ right. split; auto. exists o, InactiveRepo. splits; auto. unfold repo_create. etransitivity; [exact (START _)|].
      destruct status as [y|] eqn:SE; [|congruence].
      apply bindM_err. exact (commit_inactive digest kdigest validate ecdsa cb be klen inj quiet st0 r o y [] HO eq_refl POS (Some did)). }
  2:{ right. split; auto. exists o, AssertionError. splits; auto; [|intros X; congruence]. unfold repo_create. etransitivity; [exact (START _)|].
      apply bindM_err. rewrite DE.
      exact (commit_first_err digest kdigest validate ecdsa cb be klen inj quiet st0 r o x did' AssertionError HO ST eq_refl (so_closed _ _ _ _ SO) POS HR
               (tid_too_large _ 0 GE)). }
  left. splits; auto.
  destruct (tid_round_trip (s_next st) 0 (conj (Z.lt_le_incl _ _ POS) LT) ltac:(lia)) as (rev & REV & _).
  destruct (commit_first_ok digest kdigest validate ecdsa cb be klen inj quiet st0 r o x did' rev HO ST eq_refl (so_closed _ _ _ _ SO) POS HR REV)
    as (root & bs & GU & EX).
  cbv zeta in EX. rewrite <- DE in EX.
  change (s_next st0) with (s_next st) in *. change (s_blocks st0) with (s_blocks st) in *.
  change (r_key o) with key in *.
  set (seq := s_next st) in *.
  set (cblock := finish_block did seq [] key None rev root) in *.
  set (new := finish_new did seq [] [] key None rev root bs) in *.
  set (bl := finish_store (s_blocks st) did seq [] [] key None rev root bs) in *.
  set (cd := CommitData cblock new None) in *.
  set (o1 := with_head (Some cblock) o) in *.
  set (st1 := called o (CData (MCommit cd)) (upd (set_blocks bl (alloc st0)) r o1)) in *.
  destruct (finish_ok digest kdigest klen inj ecdsa (s_blocks st) m0 [] did seq [] [] key None rev
     SO POS HR REV ltac:(intros ? ? [])) as (root2 & bs2 & GU2 & PT & GS & NK & SO' & CBR & SN' & RS & NL).
  assert (X : (root2, bs2) = (root, bs)).
  { change (get_unstored_blocks digest kdigest (rd st0) max_depth (r_mst o) = Ok (root2, bs2)) in GU2. rewrite GU in GU2. congruence. }
  injection X as -> ->. fold cblock new bl in GS, NK, SO', CBR, SN', RS, NL.
  assert (BLE : bl = fold_left dsetdefault new (s_blocks st)).
  { unfold bl, StoreProofs.finish_store. fold new. rewrite keyed_map; auto. apply finish_keyed. }
  assert (EXT : extends (s_blocks st) bl) by (rewrite BLE; apply extends_setdefault).
  assert (CO : commit_of cblock did key None root) by (exists rev; splits; auto).
  assert (CHN : chain bl did key cblock root []).
  { apply chain_first; auto. eapply snapshot_load; eauto. }
  assert (OB1 : s_objs st1 = s_objs st ++ [o1]).
  { unfold st1. rewrite called_objs. cbn [s_objs upd set_objs set_blocks alloc set_next st0 add_obj]. unfold r. clear.
    induction (s_objs st) as [|y l IH]; cbn; [reflexivity|]. f_equal. exact IH. }
  assert (B1 : s_blocks st1 = bl) by (unfold st1; rewrite called_blocks; reflexivity).
  assert (N1 : s_next st1 = (seq + 1)%Z) by (unfold st1; rewrite called_next; reflexivity).
  assert (M1 : s_mem st1 = s_mem st) by (unfold st1; rewrite called_mem; reflexivity).
  assert (E1 : s_ents st1 = s_ents st) by (unfold st1; rewrite called_ents; reflexivity).
  assert (C1 : s_calls st1 = (if has_callback then CData (MCommit cd) :: s_calls st else s_calls st))
    by (unfold st1; rewrite called_calls; reflexivity).
  assert (I1 : inv st1 refs bk).
  { eapply inv_frame; [exact I| | | | | |]; auto.
    - fold seq. lia.
    - rewrite B1, N1. exact SO'.
    - rewrite B1. exact EXT.
    - intros r' o'. rewrite OB1. apply nth_app_some. }
  clearbody st1.
  assert (HO1 : nth_error (s_objs st1) r = Some o1) by (rewrite OB1; apply nth_app_last).
  assert (HD : item_text (s "did") (b_val cblock) = Ok did) by (eapply commit_of_did; eauto).
  destruct (event_ok st1 refs bk r o1 cblock did (s "identity") (identity_extra handle) I1 HO1 eq_refl HD
     ltac:(intros q; split; destruct handle; reflexivity)) as (X1 & FR1 & I2).
  set (e1 := event_block did (s "identity") (s_next st1) (identity_extra handle)) in *.
  destruct (after_event_facts st1 o1 e1) as (N2 & B2 & OB2 & M2 & E2 & C2).
  set (st2 := after_event st1 o1 e1) in *. clearbody st2.
  assert (HO2 : nth_error (s_objs st2) r = Some o1) by (rewrite OB2; exact HO1).
  destruct (event_ok st2 refs bk r o1 cblock did (s "account") active_extra I2 HO2 eq_refl HD
     ltac:(intros q; split; reflexivity)) as (X2 & FR2 & I3).
  set (e2 := event_block did (s "account") (s_next st2) active_extra) in *.
  destruct (after_event_facts st2 o1 e2) as (N3 & B3 & OB3 & M3 & E3 & C3).
  set (st3 := after_event st2 o1 e2) in *. clearbody st3.
  assert (HO3 : nth_error (s_objs st3) r = Some o1) by (rewrite OB3; exact HO2).
  destruct (event_ok st3 refs bk r o1 cblock did (s "sync") (sync_extra cblock rev) I3 HO3 eq_refl HD
     ltac:(intros q; split; reflexivity)) as (X3 & FR3 & I4).
  set (e3 := event_block did (s "sync") (s_next st3) (sync_extra cblock rev)) in *.
  destruct (after_event_facts st3 o1 e3) as (N4 & B4 & OB4 & M4 & E4 & C4).
  set (st4 := after_event st3 o1 e3) in *. clearbody st4.
  assert (HO4 : nth_error (s_objs st4) r = Some o1) by (rewrite OB4; exact HO3).
  set (st5 := match be with
              | Memory => set_mem (dset did r (s_mem st4)) st4
              | Datastore => set_ents (ent_put did (Entity handle (b_cid cblock) None key) (s_ents st4)) st4
              end).
  assert (X5 : create_repo be r st4 = (st5, Ok tt)).
  { unfold create_repo. rewrite (bindM_ok _ _ _ _ _ (obj_some _ _ _ HO4)).
    rewrite (bindM_ok _ _ _ _ _ (need_did_ok _ o1 cblock _ eq_refl HD)). unfold st5. rewrite <- ST.
    destruct be; reflexivity. }
  assert (F5 : s_next st5 = s_next st4 /\ s_blocks st5 = s_blocks st4 /\ s_objs st5 = s_objs st4 /\ s_calls st5 = s_calls st4 /\
    s_mem st5 = (match be with Memory => dset did r (s_mem st) | Datastore => s_mem st end) /\
    s_ents st5 = (match be with Memory => s_ents st | Datastore => ent_put did (Entity handle (b_cid cblock) None key) (s_ents st) end)).
  { assert (MM : s_mem st4 = s_mem st) by congruence. assert (EE : s_ents st4 = s_ents st) by congruence.
    unfold st5. clear - MM EE. destruct be; cbn; rewrite ?MM, ?EE; splits; auto. }
  destruct F5 as (F1 & F2 & F3 & F4 & F5 & F6).
  set (st6 := called o1 (CData (MCommit cd)) st5).
  assert (HO5 : nth_error (s_objs st5) r = Some o1) by (rewrite F3; exact HO4).
  assert (RUN : repo_create digest kdigest validate ecdsa now cb be did handle status has_callback key st = (st6, Ok r)).
  { unfold repo_create. etransitivity; [exact (START _)|]. cbv beta.
    rewrite (bindM_ok _ _ _ _ _ EX). rewrite (bindM_ok _ _ _ _ _ (obj_some _ _ _ HO1)).
    rewrite (bindM_ok _ _ _ _ _ (need_did_ok _ o1 cblock _ eq_refl HD)).
    rewrite (bindM_ok _ _ _ _ _ X1). rewrite (bindM_ok _ _ _ _ _ X2).
    assert (RV : item (s "rev") (b_val (cd_commit cd)) = Ok (IText rev)) by reflexivity.
    rewrite (bindM_ok (lift (item (s "rev") (b_val (cd_commit cd)))) _ st3 st3 (IText rev)) by (unfold lift; rewrite RV; exact eq_refl).
    change (cd_commit cd) with cblock.
    rewrite (bindM_ok _ _ _ _ _ X3). rewrite (bindM_ok _ _ _ _ _ X5).
    rewrite (bindM_ok _ _ _ _ _ (callback_ok cb quiet _ _ _ _ HO5)). reflexivity. }
  exists st6, cd.
  assert (S6 : s_next st6 = (seq + 4)%Z) by (unfold st6; rewrite called_next, F1, N4, N3, N2, N1; lia).
  assert (B6 : s_blocks st6 = bl ++ [(b_cid e1, e1); (b_cid e2, e2); (b_cid e3, e3)]).
  { unfold st6. rewrite called_blocks, F2, B4, B3, B2, B1, <- !app_assoc. reflexivity. }
  assert (EXT6 : extends bl (s_blocks st6)) by (rewrite B6; apply extends_app).
  assert (OB6 : s_objs st6 = s_objs st ++ [o1]) by (unfold st6; rewrite called_objs, F3, OB4, OB3, OB2; exact OB1).
  assert (O1E : o1 = first_repo handle has_callback key cblock) by (unfold o1, o; rewrite ST; reflexivity).
  assert (CHN6 : chain (s_blocks st6) did key cblock root []) by (eapply chain_mono; eauto).
  splits; [exact RUN| |].
  - split; auto.
    + exists rev. split; [exact REV|].
      fold seq. cbv zeta. replace (seq + 1)%Z with (s_next st1) by auto.
      replace (seq + 2)%Z with (s_next st2) by lia. replace (seq + 3)%Z with (s_next st3) by lia.
      change (cd_commit cd) with cblock. fold e1 e2 e3.
      change (cd_blocks cd) with new. rewrite <- BLE. split; [exact B6|]. split.
      * unfold st6. rewrite called_calls, F4, C4, C3, C2, C1. change (r_callback o1) with has_callback.
        destruct has_callback; reflexivity.
      * rewrite B1 in FR1. rewrite B2, B1, dget_app in FR2. rewrite B3, B2, B1, !dget_app in FR3.
        destruct (dget (b_cid e2) bl) eqn:G2; [discriminate|]. destruct (dget (b_cid e3) bl) eqn:G3; [discriminate|].
        cbn [dget] in FR2, FR3.
        destruct (str_eqb_spec (b_cid e2) (b_cid e1)) as [|NE21]; [discriminate|].
        destruct (str_eqb_spec (b_cid e3) (b_cid e1)) as [|NE31]; [discriminate|].
        destruct (str_eqb_spec (b_cid e3) (b_cid e2)) as [|NE32]; [discriminate|].
        split.
        -- repeat constructor; cbn [In]; intuition congruence.
        -- intros b [<-|[<-|[<-|[]]]]; auto.
    + rewrite OB6, O1E. reflexivity.
    + unfold st6. rewrite called_mem. exact F5.
    + unfold st6. rewrite called_ents. exact F6.
    + exists root. auto.
    + apply finish_keyed.
    + apply finish_nodup.
    + intros c b H. destruct (NK c b H) as (K1 & K2 & (_ & K3 & _) & K4). splits; auto.
      destruct K4 as [K4|[(K4 & K5)|(w & v & [] & _)]]; [left; auto|right; auto].
    + unfold cd. cbn [cd_commit cd_blocks]. unfold new, StoreProofs.finish_new. fold cblock. rewrite dget_dset, str_eqb_refl. auto.
    + eapply (commit_fresh digest kdigest inj ecdsa); eauto.
    + intros n' t' W' HN'. destruct (leaves t') as [|[k v] l] eqn:EL; auto. exfalso.
      assert (HK : In (k, v) (leaves t')) by (rewrite EL; left; reflexivity).
      pose proof (NL n' t' k v W' HN' HK) as X. discriminate X.
  - assert (G6 : good (s_blocks st6) did key [] o1).
    { exists cblock, root. splits; auto. eapply snapshot_mono; [|exact SN']. exact EXT6. }
    assert (SR : stored_repo st6 did = Some (match be with Memory => o1 | Datastore =>
        Repo (mst_load root) (Some cblock) handle None false key end)).
    { pose proof (i_ents _ _ _ I) as SS. assert (RDC : dget (b_cid cblock) (s_blocks st6) = Some cblock) by auto.
      assert (MM : s_mem st6 = s_mem st5) by (unfold st6; apply called_mem).
      assert (EE : s_ents st6 = s_ents st5) by (unfold st6; apply called_ents).
      pose proof (commit_of_data _ _ _ _ _ CO) as CD.
      clear - F5 F6 OB6 RDC SS MM EE CD. unfold stored_repo. rewrite MM, EE, F5, F6. clear F5 F6. destruct be.
      - rewrite dget_dset, str_eqb_refl, OB6. apply nth_app_last.
      - rewrite ent_put_get, str_eqb_refl by exact SS. cbn [e_head e_handle e_status e_key]. rewrite RDC, CD. reflexivity. }
    assert (EXTA : extends (s_blocks st) (s_blocks st6)) by (eapply extends_trans; eauto).
    assert (RGE : forall d, registered st6 d <-> d = did \/ registered st d).
    { pose proof (i_ents _ _ _ I) as SS.
      assert (MM : s_mem st6 = s_mem st5) by (unfold st6; apply called_mem).
      assert (EE : s_ents st6 = s_ents st5) by (unfold st6; apply called_ents).
      clear - F5 F6 SS MM EE. intros d. unfold registered. rewrite MM, EE, F5, F6. clear F5 F6. destruct be.
      - rewrite dget_dset. destruct (str_eqb_spec d did) as [->|NE]; [|tauto]. split; auto. discriminate.
      - rewrite ent_put_get by exact SS. destruct (str_eqb_spec d did) as [->|NE]; [|tauto]. split; auto. discriminate. }
    split.
    + rewrite S6. fold seq in POS. lia.
    + unfold st6. rewrite called_blocks, called_next, F1, F2. exact (i_store _ _ _ I4).
    + unfold st6. rewrite called_mem, F5. pose proof (i_mem _ _ _ I). clear F5 F6 SR. destruct be; auto using dset_NoDup.
    + unfold st6. rewrite called_ents, F6. pose proof (i_ents _ _ _ I). clear F5 F6 SR. destruct be; auto using ent_put_sorted.
    + intros r' HI. apply in_app_or in HI as [HI|[<-|[]]].
      * destruct (i_ref _ _ _ I r' HI) as (o' & d' & k' & rc' & A & G & D). exists o', d', k', rc'. splits.
        -- rewrite OB6. apply nth_app_some. exact A.
        -- eapply good_mono; eauto.
        -- rewrite dget_dset. destruct (str_eqb d' did); [discriminate|exact D].
      * exists o1, did, key, []. splits; auto.
        -- rewrite OB6. apply nth_app_last.
        -- rewrite dget_dset, str_eqb_refl. discriminate.
    + intros d k2 r2 E. rewrite dget_dset in E. destruct (str_eqb_spec d did) as [ED|NE].
      * subst d. injection E as <- <-. splits; auto; [apply RGE; auto|]. eexists. split; [exact SR|].
        clear - G6 HN CHN6 SN' EXT6 ID. destruct be.
        -- splits; auto.
        -- splits; auto. exists cblock, root. splits; auto. eapply snapshot_load. eapply snapshot_mono; [|exact SN']. exact EXT6.
      * destruct (i_book _ _ _ I _ _ _ E) as (A & B & o2 & HS2 & G2 & HK2). splits; auto; [apply RGE; auto|].
        exists o2. split; [|split; [eapply good_mono; eauto|auto]].
        assert (MM : s_mem st6 = s_mem st5) by (unfold st6; apply called_mem).
        assert (EE : s_ents st6 = s_ents st5) by (unfold st6; apply called_ents).
        pose proof (i_ents _ _ _ I) as SS.
        apply (stored_same st); auto.
        -- intros BE r' R. rewrite MM, F5, BE, dget_dset. destruct (str_eqb_spec d did); [contradiction|]. split; auto.
           unfold stored_repo in HS2. rewrite BE, R in HS2. rewrite OB6, HS2. apply nth_app_some. auto.
        -- intros BE. rewrite EE, F6, BE, ent_put_get by exact SS. destruct (str_eqb_spec d did); [contradiction|auto].
    + intros d E. rewrite dget_dset in E. destruct (str_eqb_spec d did) as [ED|NE]; [discriminate E|].
      rewrite RGE. intros [X|X]; [auto|]. exact (i_none _ _ _ I d E X).
Qed.

End Repo.
