(** Pointers of trees, whatever the storage has. *)
From Coq Require Import String List NArith ZArith Bool Lia.
From Verif Require Import Base Lists Ipld MstModel StorageModel StorageSpec RepoSpec CallbackProofs IsolateSpec IsolateProofs.
Import ListNotations.

Section Sane.
Variable digest : list N -> list N.
Variable kdigest : str -> list N.

(** A pointer that is not outdated is that of the entries. *)
Inductive sane : mst -> Prop :=
| sn_load p l o : sane (Mst None p l o)
| sn_new es p l : sane_all es -> sane (Mst (Some es) p l true)
| sn_kept es c l : sane_all es -> cid_for_entries digest es = Ok c -> sane (Mst (Some es) (Some c) l false)
with sane_all : list entry -> Prop :=
| sa_nil : sane_all []
| sa_leaf k v es : sane_all es -> sane_all (Leaf k v :: es)
| sa_sub m es : sane m -> sane_all es -> sane_all (Sub m :: es).

Lemma sane_app a b : sane_all a -> sane_all b -> sane_all (a ++ b).
Proof. induction a as [|[k v|m] a IH]; cbn [app]; intros A B; [exact B|..]; inversion A; subst; constructor; auto. Qed.
Lemma sane_firstn n : forall es, sane_all es -> sane_all (firstn n es).
Proof. induction n as [|n IH]; intros [|[k v|m] es] A; cbn [firstn]; try constructor; inversion A; subst; auto. Qed.
Lemma sane_skipn n : forall es, sane_all es -> sane_all (skipn n es).
Proof. induction n as [|n IH]; intros [|e es] A; cbn [skipn]; auto. inversion A; subst; auto. Qed.
Lemma sane_nth es : forall n m, sane_all es -> nth_error es n = Some (Sub m) -> sane m.
Proof. induction es as [|e es IH]; intros [|n] m A E; cbn in E; try discriminate; inversion A; subst; eauto; congruence. Qed.
Lemma sane_prev es n m : sane_all es -> at_prev es n = Some (Sub m) -> sane m.
Proof. destruct n; [discriminate|]. apply sane_nth. Qed.
Lemma sane_opt o : (forall m, o = Some m -> sane m) -> sane_all (opt_sub o).
Proof. destruct o as [m|]; intros H; cbn; repeat constructor. apply H. reflexivity. Qed.
Lemma sane_tree m es : sane_all es -> sane (new_tree m es).
Proof. destruct m. intros A. cbn. constructor. exact A. Qed.
Lemma sane_layer m l : sane m -> sane (set_layer m l).
Proof. intros H. destruct H; cbn; constructor; auto. Qed.
Lemma sane_create es l m : sane_all es -> mst_create digest es l = Ok m -> sane m.
Proof. unfold mst_create. destruct (cid_for_entries digest es) as [p|] eqn:E; cbn; [|discriminate]. intros A [= <-]. constructor; auto. Qed.
Lemma sane_outdated m : sane m -> sane (mark_outdated m).
Proof. intros H. destruct H; cbn; constructor; auto. Qed.
Lemma sane_leaf1 k v : sane_all [Leaf k v].
Proof. repeat constructor. Qed.
Lemma sane_sub1 m : sane m -> sane_all [Sub m].
Proof. repeat constructor. auto. Qed.

Section Rd.
Variable rd : cid -> option ipld.
Lemma sane_deser l : forall es k, sane_all (deser_entries l k es).
Proof. induction es as [|e es IH]; intros k; cbn [deser_entries]; constructor. apply sane_app; auto. destruct (ed_t e); repeat constructor. Qed.
Lemma sane_entries m es : sane m -> get_entries kdigest rd m = Ok es -> sane_all es.
Proof.
  intros H. destruct H as [p l o|es' p l A|es' c l A _]; cbn [get_entries]; try (intros [= <-]; exact A).
  destruct p as [p|]; [|discriminate]. destruct (rd p) as [v|]; [|discriminate]. destruct (ipld_ndata v) as [d|]; cbn; [|discriminate].
  intros [= <-]. unfold deserialize_node_data. destruct (nd_l d); cbn [app]; repeat constructor; apply sane_deser.
Qed.

Ltac bd := match goal with |- bind ?x _ = Ok _ -> _ => let E := fresh "E" in destruct x eqn:E; cbn [bind]; [|discriminate] end.

Lemma sane_split : forall fuel m k l r, sane m -> split_around kdigest rd fuel m k = Ok (l, r) ->
  (forall x, l = Some x -> sane x) /\ (forall x, r = Some x -> sane x).
Proof.
  induction fuel as [|f IH]; intros m k l r H; cbn [split_around]; [discriminate|]. bd. rename a into es.
  pose proof (sane_entries _ _ H E) as A. set (i := find_index k es).
  assert (G : forall p : list entry * list entry, sane_all (fst p) -> sane_all (snd p) -> Ok (if nonempty (fst p) then Some (new_tree m (fst p)) else None,
    if nonempty (snd p) then Some (new_tree m (snd p)) else None) = Ok (l, r) -> (forall x, l = Some x -> sane x) /\ (forall x, r = Some x -> sane x)).
  { intros [a b]. cbn [fst snd]. intros X Y [= <- <-]. split; intros x; [destruct (nonempty a)|destruct (nonempty b)]; try discriminate; intros [= <-]; apply sane_tree; auto. }
  destruct (at_prev es i) as [[? ?|last]|] eqn:P; cbn [bind].
  - apply G; [apply sane_firstn|apply sane_skipn]; exact A.
  - pose proof (sane_prev _ _ _ A P) as SL. destruct (split_around kdigest rd f last k) as [[a b]|] eqn:S; cbn [bind]; [|discriminate].
    destruct (IH _ _ _ _ SL S) as [IA IB]. apply G; cbn [fst snd]; apply sane_app; auto using sane_firstn, sane_skipn, sane_opt.
  - apply G; [apply sane_firstn|apply sane_skipn]; exact A.
Qed.
Lemma sane_merge : forall fuel a b m, sane a -> sane b -> append_merge kdigest rd fuel a b = Ok m -> sane m.
Proof.
  induction fuel as [|f IH]; intros a b m HA HB; cbn [append_merge]; [discriminate|]. bd. bd. destruct (_ =? _)%Z; [|discriminate]. bd. bd.
  pose proof (sane_entries _ _ (sane_layer _ _ HA) E1) as A1. pose proof (sane_entries _ _ HB E2) as A2.
  assert (G : forall x y m, sane_all x -> sane_all y -> @Ok mst (new_tree (set_layer a a0) (x ++ y)) = Ok m -> sane m).
  { intros x y m' X Y [= <-]. apply sane_tree, sane_app; auto. }
  destruct (at_prev a2 (length a2)) as [[? ?|x]|] eqn:P; [| |discriminate].
  - destruct a3 as [|[? ?|y] a3]; [discriminate|apply G; auto..].
  - destruct a3 as [|[? ?|y] a3]; [discriminate|apply G; auto|]. bd. inversion A2; subst. intros [= <-].
    apply sane_tree, sane_app; [apply sane_firstn; auto|]. cbn [app]. apply sa_sub; [|assumption]. eapply IH; [exact (sane_prev _ _ _ A1 P)| |exact E3]. assumption.
Qed.
Lemma sane_parents fuel : forall k o o', (forall m, o = Some m -> sane m) -> wrap_parents digest kdigest rd fuel k o = Ok o' -> forall m, o' = Some m -> sane m.
Proof.
  induction k as [|k IH]; intros [m|] o' H; cbn [wrap_parents].
  1,2: intros [= <-]; exact H.
  2: intros [= <-]; discriminate.
  unfold create_parent. destruct (get_layer kdigest rd fuel m) as [l|]; cbn [bind]; [|discriminate].
  destruct (mst_create digest [Sub m] (Some (l + 1)%Z)) as [p|] eqn:C; cbn [bind]; [|discriminate]. apply IH. intros m' [= <-].
  apply sane_outdated. eapply sane_create; [|exact C]. apply sane_sub1. apply H. reflexivity.
Qed.
Lemma sane_add : forall fuel m k v z m', sane m -> add digest kdigest rd fuel m k v z = Ok m' -> sane m'.
Proof.
  induction fuel as [|f IH]; intros m k v z m' H; cbn [add]; [discriminate|]. bd. cbv zeta. set (kz := match z with Some _ => _ | None => _ end). bd. rename a0 into layer.
  pose proof (sane_layer m layer H) as HL. set (ml := set_layer m layer) in *.
  destruct (_ =? _)%Z; [|destruct (_ <? _)%Z].
  - bd. rename a0 into es. pose proof (sane_entries _ _ HL E1) as A. set (i := find_index k es).
    set (sp := match at_prev es i with Some (Sub prev) => _ | _ => _ end).
    assert (G : sp = Ok m' -> sane m').
    { unfold sp. assert (S0 : @Ok mst (splice_in ml es (Leaf k v) i) = Ok m' -> sane m').
      { intros [= <-]. apply sane_tree, sane_app; [apply sane_firstn; auto|]. apply (sane_app [_]); [apply sane_leaf1|apply sane_skipn; auto]. }
      destruct (at_prev es i) as [[? ?|prev]|] eqn:P; auto. destruct (split_around kdigest rd f prev k) as [[sl sr]|] eqn:S; cbn [bind]; [|discriminate].
      destruct (sane_split _ _ _ _ _ (sane_prev _ _ _ A P) S) as [X Y]. intros [= <-]. apply sane_tree.
      apply sane_app; [apply sane_firstn; auto|]. apply sane_app; [apply sane_opt; auto|]. apply (sane_app [_]); [apply sane_leaf1|]. apply sane_app; [apply sane_opt; auto|apply sane_skipn; auto]. }
    destruct (at_index es i) as [[k' ?|?]|]; auto. destruct (str_eqb k' k); [discriminate|auto].
  - bd. rename a0 into es. pose proof (sane_entries _ _ HL E1) as A. set (i := find_index k es).
    assert (S0 : bind (create_child digest kdigest rd (S f) ml) (fun child => bind (add digest kdigest rd f child k v (Some kz)) (fun sub => Ok (splice_in ml es (Sub sub) i))) = Ok m' -> sane m').
    { bd. bd. intros [= <-]. apply sane_tree. apply sane_app; [apply sane_firstn; auto|]. apply (sane_app [_]); [|apply sane_skipn; auto]. apply sane_sub1.
      eapply IH; [|exact E3]. unfold create_child in E2. revert E2. bd. apply sane_create. constructor. }
    destruct (at_prev es i) as [[? ?|prev]|] eqn:P; auto. bd. intros [= <-]. apply sane_tree.
    apply sane_app; [apply sane_firstn; auto|]. apply (sane_app [_]); [|apply sane_skipn; auto]. apply sane_sub1. eapply IH; [|exact E2]. eapply sane_prev; eauto.
  - destruct (split_around kdigest rd (S f) ml k) as [[sl sr]|] eqn:S; cbn [bind]; [|discriminate]. destruct (sane_split _ _ _ _ _ HL S) as [X Y]. cbn [fst snd].
    bd. bd. bd. intros [= <-]. apply sane_outdated. eapply sane_create; [|exact E3].
    apply sane_app; [apply sane_opt; exact (sane_parents _ _ _ _ X E1)|]. apply (sane_app [_]); [apply sane_leaf1|]. apply sane_opt. exact (sane_parents _ _ _ _ Y E2).
Qed.
Lemma sane_update : forall fuel m k v m', sane m -> update kdigest rd fuel m k v = Ok m' -> sane m'.
Proof.
  induction fuel as [|f IH]; intros m k v m' H; cbn [update]; [discriminate|]. bd. bd. rename a0 into es. pose proof (sane_entries _ _ H E0) as A. set (i := find_index k es).
  assert (G : match at_prev es i with Some (Sub prev) => bind (update kdigest rd f prev k v) (fun sub => Ok (update_entry m es (i - 1) (Sub sub))) | _ => Err KeyError end = Ok m' -> sane m').
  { destruct (at_prev es i) as [[? ?|prev]|] eqn:P; try discriminate. bd. intros [= <-]. apply sane_tree.
    apply sane_app; [apply sane_firstn; auto|]. apply (sane_app [_]); [|apply sane_skipn; auto]. apply sane_sub1. eapply IH; [|exact E1]. exact (sane_prev _ _ _ A P). }
  destruct (at_index es i) as [[k' ?|?]|]; auto. destruct (str_eqb k' k); auto. intros [= <-]. apply sane_tree.
  apply sane_app; [apply sane_firstn; auto|]. apply (sane_app [_]); [apply sane_leaf1|apply sane_skipn; auto].
Qed.
Lemma sane_delete_recurse : forall fuel m k m', sane m -> delete_recurse kdigest rd fuel m k = Ok m' -> sane m'.
Proof.
  induction fuel as [|f IH]; intros m k m' H; cbn [delete_recurse]; [discriminate|]. bd. rename a into es. pose proof (sane_entries _ _ H E) as A. set (i := find_index k es).
  set (ds := match at_prev es i with
    | Some (Sub prev) => bind (delete_recurse kdigest rd f prev k) (fun sub => bind (get_entries kdigest rd sub) (fun ses =>
        if nonempty ses then Ok (update_entry m es (i - 1) (Sub sub)) else Ok (remove_entry m es (i - 1))))
    | _ => Err KeyError
    end).
  assert (RM : forall j, sane (remove_entry m es j)).
  { intros j. apply sane_tree, sane_app; [apply sane_firstn; auto|apply sane_skipn; auto]. }
  assert (G : ds = Ok m' -> sane m').
  { unfold ds. destruct (at_prev es i) as [[? ?|prev]|] eqn:P; try discriminate. bd. destruct (get_entries kdigest rd a) as [ses|]; cbn [bind]; [|discriminate]. destruct (nonempty ses); intros [= <-]; [|apply RM]. apply sane_tree.
    apply sane_app; [apply sane_firstn; auto|]. apply (sane_app [_]); [|apply sane_skipn; auto]. apply sane_sub1. eapply IH; [|exact E0]. exact (sane_prev _ _ _ A P). }
  clearbody ds. destruct (at_index es i) as [[k' ?|?]|]; auto. destruct (str_eqb k' k); auto.
  assert (R0 : @Ok mst (remove_entry m es i) = Ok m' -> sane m') by (intros [= <-]; apply RM).
  destruct (at_prev es i) as [[? ?|prev]|] eqn:P; auto. destruct (at_index es (S i)) as [[? ?|next]|] eqn:Q; auto. bd. intros [= <-]. apply sane_tree.
  apply sane_app; [apply sane_firstn; auto|]. apply (sane_app [_]); [|apply sane_skipn; auto]. apply sane_sub1. eapply sane_merge; [| |exact E0]; [exact (sane_prev _ _ _ A P)|exact (sane_nth _ _ _ A Q)].
Qed.
Lemma sane_trim : forall fuel m m', sane m -> trim_top kdigest rd fuel m = Ok m' -> sane m'.
Proof.
  induction fuel as [|f IH]; intros m m' H; cbn [trim_top]; [discriminate|]. bd. rename a into es. pose proof (sane_entries _ _ H E) as A.
  assert (R0 : @Ok mst m = Ok m' -> sane m') by (intros [= <-]; exact H).
  destruct es as [|[? ?|x] [|? ?]]; auto. inversion A; subst. apply IH. assumption.
Qed.
Lemma sane_delete fuel m k m' : sane m -> delete kdigest rd fuel m k = Ok m' -> sane m'.
Proof. unfold delete. intros H. bd. apply sane_trim. eapply sane_delete_recurse; eauto. Qed.

(** The blocks to store are nodes, and the root is stored or among them. *)
Definition nodes (l : list (cid * ipld)) : Prop := forall c v, In (c, v) l -> exists d, v = ndata_ipld d.
Lemma unstored_nodes : forall fuel m p l, get_unstored_blocks digest kdigest rd fuel m = Ok (p, l) -> nodes l.
Proof.
  assert (F : forall l acc, nodes l -> nodes acc -> nodes (fold_left (fun d kv => dset (fst kv) (snd kv) d) l acc)).
  { induction l as [|[k v] l IH]; intros acc A B; cbn [fold_left]; [exact B|]. apply IH.
    - intros c x I. apply (A c). right. exact I.
    - cbn [fst snd]. intros c x I. apply In_dset in I as [I|I]; [injection I as -> ->; eapply A; left; reflexivity|eapply B, I]. }
  induction fuel as [|f IH]; intros m p l; cbn [get_unstored_blocks]; [discriminate|]. bd. destruct (rd a); [intros [= _ <-] ? ? []|]. bd. bd. bd. rename a2 into d.
  match goal with |- context [bind (?g a0 ?a) _] => set (go := g); set (acc := a) end.
  assert (G : forall es acc l, nodes acc -> go es acc = Ok l -> nodes l).
  { clear - IH F. induction es as [|[k v|m'] es IHe]; intros acc l W H.
    - cbn in H. injection H as <-. exact W.
    - apply (IHe acc l W). exact H.
    - cbn in H. destruct (get_unstored_blocks digest kdigest rd f m') as [[p' l']|] eqn:E; cbn in H; [|discriminate].
      apply (IHe _ l) in H; [exact H|]. apply F; [|exact W]. eapply IH; eauto. }
  destruct (go a0 acc) as [bs|] eqn:EG; cbn [bind]; [|discriminate]. intros [= _ <-]. apply (G a0 acc bs); [|exact EG]. intros c v [[= <- <-]|[]]. eauto.
Qed.
Lemma unstored_root fuel m p l : sane m -> get_unstored_blocks digest kdigest rd fuel m = Ok (p, l) -> (exists v, rd p = Some v) \/ In p (keys l).
Proof.
  destruct fuel as [|f]; cbn [get_unstored_blocks]; [discriminate|]. intros H. destruct (get_pointer digest m) as [q|] eqn:GP; cbn [bind]; [|discriminate].
  destruct (rd q) as [v|] eqn:R; [intros [= <- _]; left; eauto|]. destruct (get_entries kdigest rd m) as [es|] eqn:GE; cbn [bind]; [|discriminate].
  destruct (pentries digest es) as [pes|] eqn:PE; cbn [bind]; [|discriminate]. destruct (serialize_node_data pes) as [d|] eqn:SD; cbn [bind]; [|discriminate].
  match goal with |- context [bind (?g es ?a) _] => set (go := g); set (acc := a) end.
  assert (KD : forall k (v : ipld) x l, In x (keys l) -> In x (keys (dset k v l))).
  { intros k v x. induction l0 as [|[k' v'] l0 IH]; cbn [keys map dset]; [intros []|]. intros I. destruct (str_eqb k k') eqn:EK; cbn [keys map In fst] in *; [apply str_eqb_eq in EK; subst k'|]; destruct I as [I|I]; auto. }
  assert (F : forall x (l acc : list (cid * ipld)), In x (keys acc) -> In x (keys (fold_left (fun d kv => dset (fst kv) (snd kv) d) l acc))).
  { intros x. induction l0 as [|[k v] l0 IH]; intros ac I; cbn [fold_left]; [exact I|]. apply IH. cbn [fst snd]. apply KD. exact I. }
  assert (G : forall es acc l, go es acc = Ok l -> forall x, In x (keys acc) -> In x (keys l)).
  { clear - F. induction es as [|[k v|m'] es IHe]; intros acc l H x I.
    - cbn in H. injection H as <-. exact I.
    - apply (IHe acc l H). exact I.
    - cbn in H. destruct (get_unstored_blocks digest kdigest rd f m') as [[p' l']|] eqn:E; cbn in H; [|discriminate]. apply (IHe _ l H). apply F. exact I. }
  assert (Q : q = cid_of digest (ndata_ipld d)).
  { destruct H as [q' lr o|es' q' lr A|es' c lr A CE]; cbn [get_entries] in GE.
    - exfalso. destruct q' as [q'|]; [|discriminate]. assert (q' = q) by (cbn [get_pointer] in GP; destruct o; congruence). subst q'. rewrite R in GE. discriminate.
    - injection GE as ->. assert (GP' : cid_for_entries digest es = Ok q).
      { revert GP. cbn [get_pointer]. unfold cid_for_entries. match goal with |- bind (?g es) _ = _ -> _ => assert (X : forall es, g es = pentries digest es) end.
        { induction es0 as [|[k v|m'] es0 IH]; [reflexivity|..]; cbn [pentries]; rewrite <- IH; reflexivity. }
        rewrite X. auto. }
      unfold cid_for_entries, cid_for_pentries in GP'. rewrite PE in GP'. cbn [bind] in GP'. rewrite SD in GP'. cbn [bind] in GP'. congruence.
    - injection GE as ->. cbn [get_pointer] in GP. injection GP as ->. unfold cid_for_entries, cid_for_pentries in CE. rewrite PE in CE. cbn [bind] in CE. rewrite SD in CE. cbn [bind] in CE. congruence. }
  destruct (go es acc) as [bs|] eqn:EG; cbn [bind]; [|discriminate]. intros [= <- <-]. right. apply (G es acc bs EG). left. symmetry. exact Q.
Qed.
End Rd.
End Sane.
