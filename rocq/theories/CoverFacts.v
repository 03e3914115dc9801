(** Covering proofs of stored trees. *)
From Coq Require Import String List NArith ZArith Bool Lia.
From Verif Require Import Base Lists Ipld IpldProofs MstModel MstTree MstTreeProofs MstRep MstTrav MstClient MstSpec
  MstHist MstFacts BlockModel CarModel StorageModel StorageSpec StoreProofs EventsModel DiffSpec CoverModel CoverSpec CoverProofs.
Import ListNotations.

Lemma stored_available digest st t : stored digest (rd st) t -> available digest st t.
Proof.
  intros ST x SX. induction SX as [[es]|x t es HI _ IH].
  - inversion ST as [? R _]; subst. unfold rd in R. rewrite dget_vals in R.
    unfold read. destruct (dget (tcid digest (Node es)) (s_blocks st)) as [b|]; [|discriminate].
    injection R as R. eauto.
  - inversion ST; subst. auto.
Qed.

Lemma spath_subtree key : forall t x, In x (spath key t) -> subtree x t.
Proof.
  induction t as [es IH] using tree_ind'. intros x. rewrite spath_node. intros [<-|HX]; [constructor|].
  assert (X : forall es' cand, (forall e, In e es' -> In e es) -> (forall y, In y cand -> exists z, In (TSub z) es /\ In y (spath key z)) ->
    In x (spath_go key es' cand) -> exists z, In (TSub z) es /\ In x (spath key z)).
  { induction es' as [|[k v|z] es' IH']; intros cand HS HC HI; cbn [spath_go] in HI.
    - auto.
    - destruct (str_eqb key k); [destruct HI|]. destruct (str_ltb key k); [auto|].
      apply (IH' [] ltac:(intros e HE; apply HS; right; exact HE)); [intros y []|exact HI].
    - apply (IH' (spath key z) ltac:(intros e HE; apply HS; right; exact HE)); [|exact HI].
      intros y HY. exists z. split; [apply HS; left; reflexivity|exact HY]. }
  destruct (X es [] (fun e HE => HE) ltac:(intros y []) HX) as (z & HZ & HI). econstructor; [exact HZ|]. eapply IH; eauto.
Qed.

Lemma tree_cover digest kdigest st n t ops blocks : let root := tcid digest t in
  rep digest (rd st) n (mst_load root) t -> wf kdigest n t -> sorted_tree t -> n <= 128 -> stored digest (rd st) t ->
  from_storage st blocks ->
  exists out, add_covering_proofs st max_depth root (Some ops) blocks = Ok out /\
    covers digest st t (map op_path ops) blocks out /\ from_storage st out /\
    forall path, In path (map op_path ops) -> get kdigest (consumer out) max_depth (mst_load root) path = Ok (dget path (leaves t)).
Proof.
  intros root R W S LE ST FS. pose proof md as MD. pose proof (stored_available _ _ _ ST) as AV.
  destruct (ops_ok digest kdigest st n max_depth t ltac:(lia) W S AV (map op_path ops) blocks FS) as (out & E & [G1 G2] & F & IN).
  assert (PATH : forall path x, In path (map op_path ops) -> In x (spath path t) ->
     exists b, dget (tcid digest x) out = Some (Some b) /\ read st (tcid digest x) = Some b /\ b_val b = tnode digest x).
  { intros path x HP HX. pose proof (IN path x HP HX) as D. destruct (AV x (spath_subtree path t x HX)) as (b & RB & VB).
    exists b. rewrite RB in D. auto. }
  exists out. split; [exact E|]. split; [|split; [exact F|]].
  - split; [exact G1|]. split; [|exact PATH].
    intros c ob N D. destruct (G2 c N) as (x & SX & ->); [congruence|]. split; [exists x; auto|].
    destruct (AV x SX) as (b & RB & VB). exists b. split; auto. apply F in D. congruence.
  - intros path HP. unfold mst_load, root.
    rewrite (get_path digest kdigest (rd st) (consumer out) path n max_depth None t R W S).
    + apply (get_ok digest kdigest (rd st) n); auto. lia.
    + intros x HX. destruct (PATH path x HP HX) as (b & D & _ & VB). unfold consumer. rewrite D, VB. reflexivity.
Qed.

Lemma snapshot_cover digest kdigest st m root d ops blocks :
  snapshot digest kdigest (s_blocks st) m root d -> from_storage st blocks ->
  exists t out, expand kdigest (rd st) max_depth (mst_load root) = Ok t /\
    add_covering_proofs st max_depth root (Some ops) blocks = Ok out /\
    covers digest st t (map op_path ops) blocks out /\ from_storage st out /\
    forall path, In path (map op_path ops) -> get kdigest (consumer out) max_depth (mst_load root) path = Ok (dget path d).
Proof.
  intros SN FS. apply snapshot_load in SN as (n & t & R & W & S & LE & ST & <- & SM & _). pose proof md as MD.
  destruct (tree_cover digest kdigest st n t ops blocks R W S LE ST FS) as (out & A & B & C & D).
  exists t, out. split; [eapply expand_ok; eauto; lia|]. split; [exact A|]. split; [exact B|]. split; [exact C|].
  intros path HP. rewrite (D path HP), SM. reflexivity.
Qed.

Lemma c12 digest kdigest : (forall k, length (kdigest k) = 32) -> collision_free digest ->
  forall mops d outs root c' st, dict_run [] mops d outs ->
  persist digest kdigest (fst (crun digest kdigest (cinit digest) mops)) = Ok (root, c') ->
  (forall k v, dget k (cl_store c') = Some v -> exists b, read st k = Some b /\ b_val b = v) ->
  forall ops blocks, from_storage st blocks ->
  exists t out, expand kdigest (rd st) max_depth (mst_load root) = Ok t /\
    add_covering_proofs st max_depth root (Some ops) blocks = Ok out /\
    covers digest st t (map op_path ops) blocks out /\
    forall path, In path (map op_path ops) -> get kdigest (consumer out) max_depth (mst_load root) path = Ok (dget path d).
Proof.
  intros klen inj mops d outs root c' st DR PE RD ops blocks FS.
  destruct (reach_cs digest kdigest klen mops inj) as (d' & A & B & CL).
  destruct (dict_run_fun _ _ _ _ _ _ DR A) as [<- _].
  destruct (persist_ok digest kdigest inj _ _ _ B CL) as (root' & c2 & PE' & _ & _ & _ & _ & _ & RL).
  rewrite PE in PE'. injection PE' as <- <-.
  destruct RL as (n & t & R & W & S & LE & SM & ND & _). cbn [cl_tree] in R.
  assert (FI : forall (k : cid) v, dget k (cl_store c') = Some v -> rd st k = Some v).
  { intros k v H. destruct (RD k v H) as (b & RB & VB). unfold rd, read in *. rewrite dget_vals, RB. cbn. congruence. }
  apply (rep_mono _ _ (rd st) n FI) in R. destruct t as [es].
  assert (RT : tcid digest (Node es) = root /\ stored digest (rd st) (Node es)).
  { unfold mst_load in R. apply rep_eq in R as (_ & _ & P & _ & ST). split; auto. specialize (P eq_refl). congruence. }
  destruct RT as [<- ST]. pose proof md as MD.
  destruct (tree_cover digest kdigest st n (Node es) ops blocks R W S LE ST FS) as (out & X & Y & _ & Z).
  exists (Node es), out. split; [eapply expand_ok; eauto; lia|]. split; [exact X|]. split; [exact Y|].
  intros path HP. rewrite (Z path HP), SM. reflexivity.
Qed.
