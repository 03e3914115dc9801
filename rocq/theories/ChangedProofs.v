(** Which keys a diff says have changed. *)
From Coq Require Import String List NArith ZArith Bool Lia.
From Verif Require Import Base Lists Ipld IpldProofs MstModel MstTree MstTreeProofs MstRep MstTrav MstClient MstSpec
  MstHist MstFacts DiffModel DiffSpec DiffProofs DiffFacts ChangedModel.
Import ListNotations.

Lemma dict_or_get {V} k (b : list (str * V)) : forall a, NoDup (keys b) -> dget k (dict_or a b) = match dget k b with Some v => Some v | None => dget k a end.
Proof.
  unfold dict_or. induction b as [|[k1 v1] b IH]; intros a ND; cbn [fold_left dget]; [reflexivity|]. inversion ND as [|? ? NI ND1]; subst.
  rewrite IH by exact ND1. cbn [fst snd]. rewrite dget_dset. destruct (str_eqb_spec k k1) as [->|NE].
  - destruct (dget k1 b) as [v|] eqn:E; [|reflexivity]. destruct NI. apply dget_In in E. exact (in_map fst _ _ E).
  - reflexivity.
Qed.
Lemma dict_or_nodup {V} (b : list (str * V)) : forall a, NoDup (keys a) -> NoDup (keys (dict_or a b)).
Proof. unfold dict_or. induction b as [|[k v] b IH]; intros a ND; cbn [fold_left]; [exact ND|]. apply IH, dset_NoDup, ND. Qed.

Lemma changed_exact a b d : dicts d -> exact_diff a b d -> NoDup (keys (updated_keys d)) /\ forall k,
  dget k (updated_keys d) = match dget k a, dget k b with
    | Some x, Some y => if str_eqb x y then None else Some (Change k y (Some x))
    | Some x, None => Some (Change k x None)
    | None, Some y => Some (Change k y None)
    | None, None => None
    end.
Proof.
  intros (D1 & D2 & D3) E. split; [unfold updated_keys; apply dict_or_nodup, dict_or_nodup, D1|]. intros k. unfold updated_keys.
  rewrite dict_or_get by exact D3. rewrite dict_or_get by exact D2. destruct (E k) as (-> & -> & ->).
  destruct (dget k a) as [x|], (dget k b) as [y|]; try reflexivity. destruct (str_eqb x y); reflexivity.
Qed.

Lemma c14_changed : forall digest kdigest, (forall k, length (kdigest k) = 32) -> collision_free digest ->
  forall ops1 ops2 d1 d2 o1 o2, dict_run [] ops1 d1 o1 -> dict_run [] ops2 d2 o2 ->
  let c1 := fst (crun digest kdigest (cinit digest) ops1) in
  let c2 := fst (crun digest kdigest (cinit digest) ops2) in
  forall rdl rdr hint, finds rdl (cl_store c1) -> finds rdr (cl_store c2) ->
  exists n, forall fuel, n <= fuel ->
  exists d, mst_diff digest kdigest rdl rdr hint fuel (cl_tree c2) (Some (cl_tree c1)) = Ok d /\
    NoDup (keys (updated_keys d)) /\
    (forall k, In k (keys (updated_keys d)) <-> dget k d1 <> dget k d2) /\
    forall k c, dget k (updated_keys d) = Some c -> ch_key c = k /\ Some (ch_cid c) = match dget k d2 with Some y => Some y | None => dget k d1 end.
Proof.
  intros digest kdigest kl cf ops1 ops2 d1 d2 o1 o2 R1 R2 c1 c2 rdl rdr hint F1 F2.
  destruct (c14 digest kdigest kl cf ops1 ops2 d1 d2 o1 o2 R1 R2 rdl rdr hint F1 F2) as (n & H). exists n. intros fuel L.
  destruct (H fuel L) as ((d & E & D & X & _) & _). exists d. split; [exact E|]. destruct (changed_exact _ _ _ D X) as [ND G]. split; [exact ND|]. split.
  - intros k. assert (Y : In k (keys (updated_keys d)) <-> dget k (updated_keys d) <> None).
    { split; intros Z.
      - apply in_map_iff in Z as ([k1 v] & K1 & Z). cbn in K1. subst k1. apply In_dget in Z; [|exact ND]. congruence.
      - destruct (dget k (updated_keys d)) as [v|] eqn:Q; [|congruence]. apply dget_In in Q. exact (in_map fst _ _ Q). }
    rewrite Y, G. destruct (dget k d1) as [x|], (dget k d2) as [y|]; try (split; congruence).
    destruct (str_eqb_spec x y) as [->|NE]; split; congruence.
  - intros k c. rewrite G. destruct (dget k d1) as [x|], (dget k d2) as [y|]; try discriminate; [destruct (str_eqb x y); [discriminate|]|..];
      intros Q; injection Q as <-; auto.
Qed.
