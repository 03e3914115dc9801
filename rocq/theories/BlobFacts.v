(** Facts about remote blobs. *)
From Coq Require Import String List NArith ZArith Bool Lia Sorted Permutation.
From Verif Require Import Base Lists CodecModel UriModel BlobModel BlobSpec BlobProofs.
Import ListNotations.
Local Open Scope Z_scope.

Section Facts.
Variable cf : blob_config.
Notation key_of := (key_of cf).

(** *** Sequences of requests *)

Lemma later_settled st st' : later cf readable st st' -> all_settled cf st -> all_settled cf st'.
Proof.
  intros L A. induction L as [st|st st' now url repo get max accept L IH D|st st' now get c L IH D]; auto.
  - specialize (IH A). destruct (get_or_create cf now url repo get max accept st') as [st1 out] eqn:E.
    eapply (create_settled cf) in E; [apply E|exact D|exact IH].
  - specialize (IH A). destruct (get_blob cf now get c st') as [st1 out] eqn:E. unfold get_blob in E. eapply (try_settled cf) in E; [exact E|exact D|exact IH].
Qed.

Lemma has_cid_later st now url repo get max accept b : 0 <= max_bytes cf -> later cf readable [] st -> (forall u, readable (get u)) ->
  snd (get_or_create cf now url repo get max accept st) = Ok b -> exists id, b_cid b = Some id.
Proof.
  intros Z L D E. apply later_settled in L; [|split; constructor].
  destruct (get_or_create cf now url repo get max accept st) as [st' out] eqn:Q. eapply (create_settled cf) in Q; [|exact D|exact L].
  destruct Q as [_ Q]. cbn in E. specialize (Q b Z E). destruct (b_cid b); [eauto|easy].
Qed.

Lemma newer_perm x l : Permutation (newer x l) (x :: l).
Proof.
  induction l as [|y l IH]; cbn; [constructor; constructor|]. destruct (_ <? _); [apply Permutation_refl|].
  rewrite IH. apply perm_swap.
Qed.
Lemma by_age_perm l : Permutation (by_age l) l.
Proof.
  unfold by_age. rewrite <- (app_nil_r l) at 2. generalize (@nil (str * blob)). induction l as [|x l IH]; cbn; intros acc; [apply Permutation_refl|].
  rewrite IH. rewrite newer_perm. symmetry. apply Permutation_middle.
Qed.

(** [get_blob] and [get_or_create] do not forget repos. *)
Definition keeps_repos (st st' : store) : Prop := ssorted (keys st') /\ forall k did, lists_repo k did st -> lists_repo k did st'.

Lemma try_repos now get : forall l st st' out, ssorted (keys st) -> NoDup (keys l) ->
  (forall k b, In (k, b) l -> forall did, lists_repo k did st -> In did (b_repos b)) ->
  try_blobs cf now get l st = (st', out) -> keeps_repos st st'.
Proof.
  induction l as [|[k b] l IH]; cbn [try_blobs]; intros st st' out O N H E.
  - injection E as <- <-. split; auto.
  - assert (N' : NoDup (keys l)) by (now inversion N). assert (K : ~ In k (keys l)) by (now inversion N).
    destruct (b_inactive b); [eapply IH; try eassumption; intros; eapply H; [right; eassumption|eassumption]|].
    destruct (maybe_fetch cf now k b get st) as [st1 r] eqn:M.
    assert (S : forall k', k' <> k -> dget k' st1 = dget k' st).
    { intros k' D. apply maybe_cases in M. destruct M as [(_ & -> & _)|(_ & p & -> & _)]; [reflexivity|]. unfold put. rewrite insert_get by assumption.
      apply str_eqb_neq in D. rewrite D. reflexivity. }
    destruct (maybe_repos cf now k b get st st1 r O (H k b (or_introl eq_refl)) M) as [O1 K1].
    assert (R : keeps_repos st1 st' -> keeps_repos st st') by (intros [A B]; split; auto).
    assert (H1 : forall k' b', In (k', b') l -> forall did, lists_repo k' did st1 -> In did (b_repos b')).
    { intros k' b' I did (b1 & Q & W). rewrite S in Q; [|intros ->; apply K; apply in_map_iff; exists (k, b'); auto].
      eapply H; [right; exact I|]. exists b1. auto. }
    destruct r as [b'|e].
    + destruct (b_inactive b'); [apply R; eapply IH; eassumption|]. injection E as <- <-. split; auto.
    + destruct (request_error e); [apply R; eapply IH; eassumption|]. injection E as <- <-. split; auto.
Qed.
Lemma keys_filter {A} (f : str * A -> bool) l : NoDup (keys l) -> NoDup (keys (filter f l)).
Proof.
  induction l as [|x l IH]; cbn; intros N; [constructor|]. inversion N; subst. destruct (f x); cbn; auto. constructor; auto.
  intros I. apply in_map_iff in I. destruct I as (y & E & I). apply filter_In in I. apply H1. apply in_map_iff. exists y. tauto.
Qed.
Lemma get_repos now get c st : ssorted (keys st) -> keeps_repos st (fst (get_blob cf now get c st)).
Proof.
  intros O. destruct (get_blob cf now get c st) as [st' out] eqn:E. unfold get_blob in E. eapply try_repos; [exact O| | |exact E].
  - apply (Permutation_NoDup (l := keys (filter (has_cid c) st))); [apply Permutation_map, Permutation_sym, by_age_perm|].
    apply keys_filter. now apply ssorted_NoDup.
  - intros k b I did (b' & D & W). apply (Permutation_in _ (by_age_perm _)) in I. apply filter_In in I. destruct I as [I _].
    apply In_dget in I; [|now apply ssorted_NoDup]. congruence.
Qed.
Lemma create_repos now url repo get max accept st : ssorted (keys st) ->
  keeps_repos st (fst (get_or_create cf now url repo get max accept st)) /\
  (url <> [] -> forall did, repo = Some did -> lists_repo (key_of url) did (fst (get_or_create cf now url repo get max accept st))).
Proof.
  intros O. unfold get_or_create. destruct url as [|x u]; [cbn; split; [split; auto|easy]|]. set (url := x :: u) in *.
  pose proof (load_repos cf now url repo st O) as L. destruct (load cf now url repo st) as [st1 b]. destruct L as (O1 & L1 & L2 & L3).
  destruct (b_inactive b); [cbn; split; [split; auto|auto]|].
  destruct (maybe_fetch cf now (key_of url) b get st1) as [st2 r] eqn:M. apply maybe_repos in M; auto. destruct M as [O2 M].
  cbn [fst]. split; [split; auto|auto].
Qed.
Lemma later_repos P st st' : later cf P st st' -> ssorted (keys st) -> keeps_repos st st'.
Proof.
  intros L O. induction L as [st|st st' now url repo get max accept L IH D|st st' now get c L IH D].
  - split; auto.
  - destruct (IH O) as [O1 K]. destruct (create_repos now url repo get max accept st' O1) as [[O2 K2] _]. split; auto.
  - destruct (IH O) as [O1 K]. destruct (get_repos now get c st' O1) as [O2 K2]. split; auto.
Qed.

Lemma remembered st st' now url did get max accept : later cf (fun _ => True) [] st -> url <> [] ->
  later cf (fun _ => True) (fst (get_or_create cf now url (Some did) get max accept st)) st' ->
  exists b, dget (firstn (max_key cf) url) st' = Some b /\ In did (b_repos b).
Proof.
  intros L U L'. destruct (later_repos _ _ _ L) as [O _]; [constructor|].
  destruct (create_repos now url (Some did) get max accept st O) as [[O1 _] K]. destruct (later_repos _ _ _ L' O1) as [_ K']. apply K', K; auto.
Qed.
Lemma later_sorted P st : later cf P [] st -> ssorted (keys st).
Proof. intros L. apply (later_repos _ _ _ L). constructor. Qed.

(** *** What is fetched now *)

Lemma create_fresh now url repo get max accept st b : 0 <= refetch_age cf ->
  snd (get_or_create cf now url repo get max accept st) = Ok b ->
  (In (major (b_mime b)) (refetch_types cf) -> exists t, b_last b = Some t /\ now - refetch_age cf <= t) /\
  (dget (key_of url) st = None -> exists r content, get url = Answer r /\ r_body r = Ok content /\ (r_code r < 400 \/ 600 <= r_code r)%N /\
     b_cid b = Some (s "b" ++ map lower (b32_encode ([1; 85; 18; 32]%N ++ digest cf content))) /\ b_last b = Some now).
Proof.
  intros Z E. unfold get_or_create in E. destruct url as [|x u]; [discriminate|]. set (url := x :: u) in *.
  assert (L : b_url (snd (load cf now url repo st)) = Some url /\
              (dget (key_of url) st = None -> b_cid (snd (load cf now url repo st)) = None /\ b_last (snd (load cf now url repo st)) = None)).
  { unfold load, ndb_get_or_insert. destruct (dget (key_of url) st) as [b0|].
    - split; [|discriminate]. destruct repo; [destruct (existsb _ _)|]; reflexivity.
    - split; [|intros _]; destruct repo; try (destruct (existsb _ _)); cbn; auto. }
  destruct (load cf now url repo st) as [st1 b1]. cbn [snd] in L. destruct L as [L1 L2].
  destruct (b_inactive b1); [discriminate|]. destruct (maybe_fetch cf now (key_of url) b1 get st1) as [st2 r] eqn:M. cbn [snd] in E.
  destruct r as [b'|e]; [|discriminate]. cbn in E. destruct (validate cf b' max accept); [|discriminate]. injection E as <-.
  apply maybe_cases in M. destruct M as [(F & -> & Q)|(F & p & _ & _ & Lp & _ & -> & _ & r & y & G & O & Y & C & _)].
  - injection Q as ->. unfold must_fetch in F. split.
    + intros I. assert (X : existsb (str_eqb (major (b_mime b1))) (refetch_types cf) = true).
      { apply existsb_exists. eexists. split; [exact I|]. apply str_eqb_refl. }
      rewrite X in F. rewrite andb_false_r in F. destruct (b_last b1) as [t|]; [|discriminate]. exists t. split; [reflexivity|].
      apply negb_false_iff in F. now apply Z.leb_le.
    + intros D. destruct (L2 D) as [A B]. rewrite A, B in F. discriminate.
  - split.
    + intros _. exists now. split; [assumption|lia].
    + intros _. unfold url_of in G. rewrite L1 in G. cbn in G. exists r, y. split; [exact G|]. split; [assumption|]. split; [|auto].
      unfold ok in O. apply orb_prop in O. destruct O as [O|O]; [left; now apply N.ltb_lt|right; now apply N.leb_le].
Qed.

(** *** getBlob *)

Lemma try_found now get : forall l st st' url, try_blobs cf now get l st = (st', Ok url) ->
  exists k b, In (k, b) l /\ b_inactive b = false /\ url = url_of k b /\
    (must_fetch cf now b = false \/
     must_fetch cf now b = true /\ exists r content, get url = Answer r /\ ok r = true /\ r_body r = Ok content).
Proof.
  induction l as [|[k b] l IH]; cbn [try_blobs]; intros st st' url E; [discriminate|].
  assert (R : forall st1, try_blobs cf now get l st1 = (st', Ok url) -> exists k0 b0, In (k0, b0) ((k, b) :: l) /\ b_inactive b0 = false /\ url = url_of k0 b0 /\
    (must_fetch cf now b0 = false \/ must_fetch cf now b0 = true /\ exists r content, get url = Answer r /\ ok r = true /\ r_body r = Ok content)).
  { intros st1 Q. destruct (IH _ _ _ Q) as (k0 & b0 & I & W). exists k0, b0. split; [now right|exact W]. }
  destruct (b_inactive b) eqn:A; [eauto|]. destruct (maybe_fetch cf now k b get st) as [st1 [b'|e]] eqn:M.
  - destruct (b_inactive b') eqn:A'; [eauto|]. assert (U : url = url_of k b') by congruence.
    exists k, b. split; [now left|]. split; [assumption|].
    apply maybe_cases in M. destruct M as [(F & _ & Q)|(F & p & _ & _ & _ & P & -> & _ & r & y & G & O & Y & _)].
    + injection Q as ->. auto.
    + assert (U' : url = url_of k b) by (rewrite U; unfold url_of; rewrite P; reflexivity).
      split; [assumption|]. right. split; [assumption|]. rewrite U'. exists r, y. auto.
  - destruct (request_error e); [eauto|discriminate].
Qed.
Lemma get_found now get c st st' url : get_blob cf now get c st = (st', Ok url) ->
  exists k b, In (k, b) st /\ b_cid b = Some c /\ b_inactive b = false /\ url = url_of k b /\
    (must_fetch cf now b = false \/
     must_fetch cf now b = true /\ exists r content, get url = Answer r /\ ok r = true /\ r_body r = Ok content).
Proof.
  intros E. apply try_found in E. destruct E as (k & b & I & A & U & W). exists k, b.
  apply (Permutation_in _ (by_age_perm _)) in I. apply filter_In in I. destruct I as [I H]. unfold has_cid in H. cbn in H.
  destruct (b_cid b) as [c'|]; [|discriminate]. apply str_eqb_eq in H. subst c'. auto.
Qed.

(** *** listBlobs *)

Definition of_repo (did : str) (x : str * blob) : bool := existsb (str_eqb did) (b_repos (snd x)).
Definition cid_list (l : store) : list str := flat_map (fun x => match b_cid (snd x) with Some c => [c] | None => [] end) l.

Lemma cid_app l l' : cid_list (l ++ l') = cid_list l ++ cid_list l'.
Proof. unfold cid_list. apply flat_map_app. Qed.

Lemma filter_later : forall (l p r : store) x, ssorted (keys l) -> l = p ++ x :: r -> filter (fun y => str_ltb (fst x) (fst y)) l = r.
Proof.
  intros l p r x. revert p. induction l as [|y l IH]; intros p O E; [destruct p; discriminate|].
  unfold keys in O. cbn in O. inversion O as [|? ? O' F]; subst. destruct p as [|y' p]; cbn in E; injection E as <- E.
  - cbn. assert (H : str_ltb (fst y) (fst y) = false). { unfold str_ltb. rewrite str_cmp_refl. reflexivity. }
    rewrite H. subst r. rewrite Forall_forall in F.
    assert (G : forall z, In z l -> str_ltb (fst y) (fst z) = true) by (intros z I; apply str_ltb_lt, F; apply in_map_iff; eauto).
    clear -G. induction l as [|z l IH]; cbn; auto. rewrite (G z (or_introl eq_refl)). f_equal. apply IH. intros w I. apply G. now right.
  - cbn. assert (H : str_ltb (fst x) (fst y) = false).
    { rewrite Forall_forall in F. assert (I : slt (fst y) (fst x)) by (apply F; subst l; apply in_map_iff; exists x; split; auto; apply in_or_app; right; now left).
      destruct (str_ltb (fst x) (fst y)) eqn:Q; auto. apply str_ltb_lt in Q.
      exfalso. unfold slt in *. rewrite str_cmp_antisym, I in Q. discriminate. }
    rewrite H. eapply IH; [exact O'|exact E].
Qed.

Lemma filter_filter {A} (f g : A -> bool) l : filter f (filter g l) = filter g (filter f l).
Proof. induction l as [|x l IH]; cbn; auto. destruct (g x) eqn:G, (f x) eqn:F; cbn; rewrite ?G, ?F, ?IH; auto. Qed.
Lemma sorted_filter {A} (f : str * A -> bool) l : ssorted (keys l) -> ssorted (keys (filter f l)).
Proof.
  induction l as [|x l IH]; intros O; cbn; [constructor|]. unfold keys in O. cbn in O. inversion O as [|? ? O' F]; subst.
  destruct (f x); [|auto]. unfold keys. cbn. constructor; [apply IH; assumption|]. apply Forall_forall. intros k I. apply in_map_iff in I.
  destruct I as (y & <- & I). apply filter_In in I. rewrite Forall_forall in F. apply F. apply in_map_iff. exists y. tauto.
Qed.

Lemma page_from loads did limit st : ssorted (keys st) -> (0 < limit)%nat -> (forall k b, In (k, b) st -> k <> []) -> loads did = Ok tt ->
  forall n r p c, (length r <= n)%nat -> filter (of_repo did) st = p ++ r ->
    match rev p with x :: _ => c = Some (fst x) | [] => c = None end ->
    blob_pages loads did limit st c (cid_list r).
Proof.
  intros O Z K Ld. induction n as [|n IH]; intros r p c Len E C.
  - destruct r; [|cbn in Len; lia]. apply bp_last. unfold list_blobs. cbn. rewrite Ld. cbn [bind].
    assert (L : (match c with Some ((_ :: _) as c0) => filter (fun x => str_ltb c0 (fst x)) (filter (fun x => existsb (str_eqb did) (b_repos (snd x))) st)
                 | _ => filter (fun x => existsb (str_eqb did) (b_repos (snd x))) st end) = []).
    { fold (of_repo did). change (fun x : str * blob => existsb (str_eqb did) (b_repos (snd x))) with (of_repo did). rewrite E, app_nil_r.
      destruct (rev p) as [|x q] eqn:R.
      - subst c. apply (f_equal (@rev _)) in R. rewrite rev_involutive in R. exact R.
      - subst c. assert (P : p = rev q ++ [x]) by (rewrite <- (rev_involutive p), R; reflexivity).
        destruct (fst x) as [|a u] eqn:X.
        + exfalso. destruct x as [k b]. cbn in X. apply (K k b); auto. assert (I : In (k, b) (filter (of_repo did) st)).
          { rewrite E, P. apply in_or_app. left. apply in_or_app. right. now left. } apply filter_In in I. tauto.
        + rewrite <- X. rewrite app_nil_r in E. eapply filter_later; [rewrite <- E; apply sorted_filter, O|exact P]. }
    rewrite L. destruct limit; [lia|]. cbn. reflexivity.
  - assert (L : (match c with Some ((_ :: _) as c0) => filter (fun x => str_ltb c0 (fst x)) (filter (fun x => existsb (str_eqb did) (b_repos (snd x))) st)
                 | _ => filter (fun x => existsb (str_eqb did) (b_repos (snd x))) st end) = r).
    { change (fun x : str * blob => existsb (str_eqb did) (b_repos (snd x))) with (of_repo did). rewrite E.
      destruct (rev p) as [|x q] eqn:R.
      - subst c. apply (f_equal (@rev _)) in R. rewrite rev_involutive in R. subst p. reflexivity.
      - subst c. assert (P : p = rev q ++ [x]) by (rewrite <- (rev_involutive p), R; reflexivity).
        destruct (fst x) as [|a u] eqn:X.
        + exfalso. destruct x as [k b]. cbn in X. apply (K k b); auto. assert (I : In (k, b) (filter (of_repo did) st)).
          { rewrite E, P. apply in_or_app. left. apply in_or_app. right. now left. } apply filter_In in I. tauto.
        + rewrite <- X. eapply filter_later; [rewrite <- E; apply sorted_filter, O|]. rewrite P, <- app_assoc. reflexivity. }
    destruct (Nat.eqb (length (firstn limit r)) limit) eqn:Q.
    + apply Nat.eqb_eq in Q. destruct (rev (firstn limit r)) as [|x q] eqn:R.
      { apply (f_equal (@length _)) in R. rewrite rev_length in R. cbn in R. lia. }
      assert (F : firstn limit r = rev q ++ [x]) by (rewrite <- (rev_involutive (firstn limit r)), R; reflexivity).
      rewrite <- (firstn_skipn limit r) at 1. rewrite cid_app. apply bp_more with (c' := fst x).
      * unfold list_blobs. cbn [bind]. rewrite Ld. cbn [bind]. rewrite L, Q, Nat.eqb_refl, R. reflexivity.
      * apply IH with (p := p ++ firstn limit r).
        -- rewrite skipn_length. rewrite firstn_length in Q. lia.
        -- rewrite <- app_assoc, firstn_skipn. exact E.
        -- rewrite rev_app_distr, R. reflexivity.
    + assert (F : firstn limit r = r) by (apply firstn_all2; rewrite firstn_length in Q; apply Nat.eqb_neq in Q; lia).
      apply bp_last. unfold list_blobs. rewrite Ld. cbn [bind]. rewrite L, Q. rewrite F. reflexivity.
Qed.

Lemma pages_exact loads did limit st : ssorted (keys st) -> (0 < limit)%nat -> (forall k b, In (k, b) st -> k <> []) -> loads did = Ok tt ->
  exists l bs, blob_pages loads did limit st None l /\ ssorted (keys bs) /\ map (fun x => b_cid (snd x)) bs = map Some l /\
    forall k b, In (k, b) bs <-> In (k, b) st /\ In did (b_repos b) /\ b_cid b <> None.
Proof.
  intros O Z K Ld. exists (cid_list (filter (of_repo did) st)), (filter (fun x => is_some (b_cid (snd x))) (filter (of_repo did) st)).
  split; [apply (page_from loads did limit st O Z K Ld (length (filter (of_repo did) st)) _ [] None); reflexivity || auto|]. split; [apply sorted_filter, sorted_filter, O|]. split.
  - induction (filter (of_repo did) st) as [|[k b] l IH]; cbn; auto. destruct (b_cid b) eqn:C; cbn; rewrite ?IH; auto. rewrite C. reflexivity.
  - intros k b. rewrite !filter_In. unfold of_repo. cbn. rewrite existsb_exists. split.
    + intros [[I (x & J & E)] S]. apply str_eqb_eq in E. subst x. repeat split; auto. destruct (b_cid b); easy.
    + intros (I & J & C). repeat split; auto; [exists did; split; auto; apply str_eqb_refl|]. destruct (b_cid b); easy.
Qed.
Lemma pages_fun loads did limit st c l l' : blob_pages loads did limit st c l -> blob_pages loads did limit st c l' -> l = l'.
Proof.
  intros P. revert l'. induction P as [c l E|c l c' r E P IH]; intros l' Q; inversion Q; subst; try congruence.
  rewrite E in H. injection H as -> ->. f_equal. auto.
Qed.

(** Keys are not empty. *)
Lemma try_keys now get : forall l st st' out, (forall k, In k (keys l) -> k <> []) -> (forall k, In k (keys st) -> k <> []) ->
  try_blobs cf now get l st = (st', out) -> forall k, In k (keys st') -> k <> [].
Proof.
  induction l as [|[k b] l IH]; cbn [try_blobs]; intros st st' out L S E; [injection E as <- <-; exact S|].
  assert (L' : forall k0, In k0 (keys l) -> k0 <> []) by (intros k0 I; apply L; now right).
  destruct (b_inactive b); [exact (IH _ _ _ L' S E)|]. destruct (maybe_fetch cf now k b get st) as [st1 r] eqn:M.
  assert (S1 : forall k0, In k0 (keys st1) -> k0 <> []).
  { apply maybe_cases in M. destruct M as [(_ & -> & _)|(_ & p & -> & _)]; [assumption|]. intros k0 I. apply in_map_iff in I.
    destruct I as (x & <- & I). apply insert_In in I. destruct I as [->|I]; [apply L; now left|]. apply S, in_map_iff. eauto. }
  destruct r as [b'|e].
  - destruct (b_inactive b'); [exact (IH _ _ _ L' S1 E)|injection E as <- <-; exact S1].
  - destruct (request_error e); [exact (IH _ _ _ L' S1 E)|injection E as <- <-; exact S1].
Qed.
Lemma put_keys now k b st : k <> [] -> (forall k, In k (keys st) -> k <> []) -> forall k', In k' (keys (put now k b st)) -> k' <> [].
Proof.
  intros N S k' I. apply in_map_iff in I. destruct I as (x & <- & I). apply insert_In in I. destruct I as [->|I]; [exact N|]. apply S, in_map_iff. eauto.
Qed.
Lemma later_keys P st : (0 < max_key cf)%nat -> later cf P [] st -> forall k, In k (keys st) -> k <> [].
Proof.
  intros Z L. remember [] as st0 eqn:E0. induction L as [st|st st' now url repo get max accept L IH D|st st' now get c L IH D]; [subst; intros k []| |].
  - specialize (IH E0). unfold get_or_create. destruct url as [|x u]; [exact IH|]. set (url := x :: u) in *.
    assert (N : key_of url <> []) by (apply key_nonempty; [discriminate|assumption]).
    assert (LK : forall k, In k (keys (fst (load cf now url repo st'))) -> k <> []).
    { unfold load, ndb_get_or_insert. destruct (dget (key_of url) st'); destruct repo; try (destruct (existsb _ _)); cbn [fst];
        repeat apply put_keys; auto. }
    destruct (load cf now url repo st') as [st1 b]. cbn [fst] in LK. destruct (b_inactive b); [exact LK|].
    destruct (maybe_fetch cf now (key_of url) b get st1) as [st2 r] eqn:M. cbn [fst].
    apply maybe_cases in M. destruct M as [(_ & -> & _)|(_ & p & -> & _)]; [assumption|]. now apply put_keys.
  - specialize (IH E0). destruct (get_blob cf now get c st') as [st1 out] eqn:E. unfold get_blob in E. refine (try_keys _ _ _ _ _ _ _ IH E).
    intros k I. apply (Permutation_in _ (Permutation_map fst (by_age_perm _))) in I. apply in_map_iff in I. destruct I as (x & <- & I).
    apply filter_In in I. apply IH, in_map_iff. exists x. tauto.
Qed.

Lemma pages_later P loads did limit st : (0 < max_key cf)%nat -> later cf P [] st -> (0 < limit)%nat -> loads did = Ok tt ->
  exists l bs, blob_pages loads did limit st None l /\ ssorted (keys bs) /\ map (fun x => b_cid (snd x)) bs = map Some l /\
    forall k b, In (k, b) bs <-> In (k, b) st /\ In did (b_repos b) /\ b_cid b <> None.
Proof.
  intros Z L Zl Ld. apply pages_exact; auto; [eapply later_sorted; exact L|]. intros k b I. apply (later_keys P st Z L). apply in_map_iff. exists (k, b). auto.
Qed.
End Facts.
