(** Properties of tree diffs (arroba/diff.py). *)
From Coq Require Import String List NArith ZArith Bool Lia.
From Verif Require Import Base Lists Ipld IpldProofs MstModel MstTree MstTreeProofs MstRep MstTrav MstClient MstSpec
  MstHist MstFacts MstProps DiffModel DiffSpec DiffProofs DiffFacts.
Import ListNotations.

(** For the examples: a second history, and a diff of the two. *)
Definition sample2 : list mop :=
  sample ++ [ODelete (s "a/x1"); OUpdate (s "b/x2") [8%N]; OAdd (s "d/x0") [9%N]; OAdd (s "e/x3") [1%N]; OReload].
Definition sample2_dict : list (str * cid) :=
  [(s "a/x0", [5%N]); (s "b/x2", [8%N]); (s "d/x0", [9%N]); (s "e/x3", [1%N])].
Definition cl1 : client := fst (crun idd toy (cinit idd) sample).
Definition cl2 : client := fst (crun idd toy (cinit idd) sample2).
Definition nohint : nat -> bool -> mst -> Z := fun _ _ _ => 0%Z.
Definition the_diff : res diff := mst_diff idd toy (rdc cl1) (rdc cl2) nohint 100 (cl_tree cl2) (Some (cl_tree cl1)).

(** ** C14 *)

(** The diff of two trees, however their layers are cached and from whatever stores
    they are read, exists and lists exactly the key changes; so does the diff against
    no tree. *)
Theorem C14_diff_exact : forall digest kdigest, (forall k, length (kdigest k) = 32) -> collision_free digest ->
  forall ops1 ops2 d1 d2 o1 o2, dict_run [] ops1 d1 o1 -> dict_run [] ops2 d2 o2 ->
  let c1 := fst (crun digest kdigest (cinit digest) ops1) in
  let c2 := fst (crun digest kdigest (cinit digest) ops2) in
  forall rdl rdr hint, finds rdl (cl_store c1) -> finds rdr (cl_store c2) ->
  exists n, forall fuel, n <= fuel ->
  (exists d, mst_diff digest kdigest rdl rdr hint fuel (cl_tree c2) (Some (cl_tree c1)) = Ok d /\ dicts d /\
    exact_diff d1 d2 d /\ forall k, patched d d1 k = dget k d2) /\
  (exists d, mst_diff digest kdigest rdl rdr hint fuel (cl_tree c2) None = Ok d /\ dicts d /\
    exact_diff [] d2 d /\ forall k, patched d [] k = dget k d2).
Proof. exact c14. Qed.
Print Assumptions C14_diff_exact.

Example C14_example :
  mst_leaves toy (rdc cl1) max_depth (cl_tree cl1) = Ok [(s "a/x0", [5%N]); (s "a/x1", [1%N]); (s "b/x2", [3%N])] /\
  mst_leaves toy (rdc cl2) max_depth (cl_tree cl2) = Ok sample2_dict /\
  match the_diff with
  | Ok d => df_adds d = [(s "d/x0", Change (s "d/x0") [9%N] None); (s "e/x3", Change (s "e/x3") [1%N] None)] /\
            df_updates d = [(s "b/x2", Change (s "b/x2") [8%N] (Some [3%N]))] /\
            df_deletes d = [(s "a/x1", Change (s "a/x1") [1%N] None)]
  | Err _ => False
  end.
Proof. vm_compute. auto 10. Qed.

(** ** C15 *)

(** Node CIDs of the current tree that are not of the previous one are new, so are
    record CIDs at keys that had not the same CID (unless a node of the previous tree
    has that CID); nothing removed is a node of the current tree. *)
Theorem C15_diff_blocks : forall digest kdigest, (forall k, length (kdigest k) = 32) -> collision_free digest ->
  forall ops1 ops2 d1 d2 o1 o2, dict_run [] ops1 d1 o1 -> dict_run [] ops2 d2 o2 ->
  let c1 := fst (crun digest kdigest (cinit digest) ops1) in
  let c2 := fst (crun digest kdigest (cinit digest) ops2) in
  forall rdl rdr hint, finds rdl (cl_store c1) -> finds rdr (cl_store c2) ->
  exists t1 t2, expand kdigest rdl max_depth (cl_tree c1) = Ok t1 /\ expand kdigest rdr max_depth (cl_tree c2) = Ok t2 /\
  exists n, forall fuel d, n <= fuel -> mst_diff digest kdigest rdl rdr hint fuel (cl_tree c2) (Some (cl_tree c1)) = Ok d ->
  (forall c, node_cid digest t2 c -> ~ node_cid digest t1 c -> In c (df_new d)) /\
  (forall k c, dget k d2 = Some c -> dget k d1 <> Some c -> ~ node_cid digest t1 c -> In c (df_new d)) /\
  (forall c, In c (df_removed d) -> ~ node_cid digest t2 c) /\
  (forall c, In c (df_removed d) -> node_cid digest t1 c) /\
  (forall c, In c (df_new d) -> node_cid digest t1 c \/ node_cid digest t2 c \/ exists k, dget k d2 = Some c /\ dget k d1 <> Some c).
Proof. exact c15. Qed.
Print Assumptions C15_diff_blocks.

(** When no record of the current tree has the CID of a node, the sets are exact. *)
Theorem C15_diff_blocks_exact : forall digest kdigest, (forall k, length (kdigest k) = 32) -> collision_free digest ->
  forall ops1 ops2 d1 d2 o1 o2, dict_run [] ops1 d1 o1 -> dict_run [] ops2 d2 o2 ->
  let c1 := fst (crun digest kdigest (cinit digest) ops1) in
  let c2 := fst (crun digest kdigest (cinit digest) ops2) in
  forall rdl rdr hint, finds rdl (cl_store c1) -> finds rdr (cl_store c2) ->
  exists t1 t2, expand kdigest rdl max_depth (cl_tree c1) = Ok t1 /\ expand kdigest rdr max_depth (cl_tree c2) = Ok t2 /\
  ((forall k c, dget k d2 = Some c -> ~ node_cid digest t1 c /\ ~ node_cid digest t2 c) ->
  exists n, forall fuel d, n <= fuel -> mst_diff digest kdigest rdl rdr hint fuel (cl_tree c2) (Some (cl_tree c1)) = Ok d -> forall c,
  (In c (df_new d) <-> (node_cid digest t2 c /\ ~ node_cid digest t1 c) \/ exists k, dget k d2 = Some c /\ dget k d1 <> Some c) /\
  (In c (df_removed d) <-> node_cid digest t1 c /\ ~ node_cid digest t2 c)).
Proof. exact c15_exact. Qed.
Print Assumptions C15_diff_blocks_exact.

(** Against no tree, everything is new. *)
Theorem C15_null_blocks : forall digest kdigest, (forall k, length (kdigest k) = 32) -> collision_free digest ->
  forall ops d2 o2, dict_run [] ops d2 o2 ->
  let c2 := fst (crun digest kdigest (cinit digest) ops) in
  forall rdl rdr hint, finds rdr (cl_store c2) ->
  exists t, expand kdigest rdr max_depth (cl_tree c2) = Ok t /\
  forall fuel d, max_depth <= fuel -> mst_diff digest kdigest rdl rdr hint fuel (cl_tree c2) None = Ok d ->
  df_removed d = [] /\ forall c, In c (df_new d) <-> node_cid digest t c \/ exists k, dget k d2 = Some c.
Proof. exact c15_null. Qed.
Print Assumptions C15_null_blocks.

(** Three new records and five new nodes; two nodes gone. *)
Example C15_example : match the_diff with
  | Ok d => length (df_new d) = 8 /\ length (df_removed d) = 2 /\
      forallb (fun c => set_in c (df_new d)) [[9%N]; [1%N]; [8%N]] = true
  | Err _ => False
  end.
Proof. vm_compute. auto. Qed.

(** ** C16 *)

(** Merging diffs and applying the result to A gives C.
    Missing for the full claim: that the merged diff classifies the changes rightly;
    it does not, see C16_refuted. *)
Theorem C16_compose_partial : forall a b c d1 d2, dicts d1 -> dicts d2 -> exact_diff a b d1 -> exact_diff b c d2 ->
  forall k, patched (add_diff d1 d2) a k = dget k c.
Proof. exact c16_patched. Qed.
Print Assumptions C16_compose_partial.

(** The merged diff is the exact one when every key is changed by only one of the
    two, or deleted by the first, or added and deleted again. *)
Theorem C16_exact_partial : forall a b c d1 d2, dicts d1 -> dicts d2 -> exact_diff a b d1 -> exact_diff b c d2 ->
  (forall k, dget k a = dget k b \/ dget k b = dget k c \/ dget k b = None \/ (dget k a = None /\ dget k c = None)) ->
  exact_diff a c (add_diff d1 d2).
Proof. exact c16_exact. Qed.
Print Assumptions C16_exact_partial.

(** For the examples: dictionaries in which x is changed once or twice. *)
Definition dA : list (str * cid) := [(s "a/u", [1%N]); (s "a/w", [2%N]); (s "a/z", [3%N])].
Definition dB : list (str * cid) := [(s "a/u", [1%N]); (s "a/v", [4%N]); (s "a/z", [5%N])].
Definition dC : list (str * cid) := [(s "a/w", [6%N]); (s "a/z", [5%N])].
Definition dAB : diff :=
  Diff [(s "a/v", Change (s "a/v") [4%N] None)] [(s "a/z", Change (s "a/z") [5%N] (Some [3%N]))]
       [(s "a/w", Change (s "a/w") [2%N] None)] [[4%N]; [5%N]] [].
Definition dBC : diff :=
  Diff [(s "a/w", Change (s "a/w") [6%N] None)] []
       [(s "a/u", Change (s "a/u") [1%N] None); (s "a/v", Change (s "a/v") [4%N] None)] [[6%N]] [].

(** Decides [exact_diff] key by key. *)
Ltac by_key k := unfold exact_diff; intros k; cbn [dget df_adds df_updates df_deletes];
  repeat match goal with |- context [str_eqb k ?x] => let E := fresh in destruct (str_eqb k x) eqn:E; [apply str_eqb_eq in E; subst k|] end;
  vm_compute; auto.

(** Deleted after being added, added after being deleted, and single changes: the
    merged diff is exact. *)
Example C16_example : dicts dAB /\ dicts dBC /\
  (forall k, dget k dA = dget k dB \/ dget k dB = dget k dC \/ dget k dB = None \/ (dget k dA = None /\ dget k dC = None)) /\
  (let d := add_diff dAB dBC in df_adds d = [] /\
    df_updates d = [(s "a/z", Change (s "a/z") [5%N] (Some [3%N])); (s "a/w", Change (s "a/w") [6%N] (Some [2%N]))] /\
    df_deletes d = [(s "a/u", Change (s "a/u") [1%N] None)]).
Proof.
  split; [unfold dicts; splits; repeat constructor; cbn; intuition discriminate|].
  split; [unfold dicts; splits; repeat constructor; cbn; intuition discriminate|].
  split; [|vm_compute; auto]. intros k. unfold dA, dB, dC. cbn [dget].
  repeat match goal with |- context [str_eqb k ?x] => let E := fresh in destruct (str_eqb k x) eqn:E; [apply str_eqb_eq in E; subst k|] end;
  vm_compute; auto.
Qed.
Example C16_example_exact : exact_diff dA dB dAB /\ exact_diff dB dC dBC.
Proof. unfold dA, dB, dC, dAB, dBC. split; by_key k. Qed.

(** The full claim is false: a key added and then updated is reported as an update (of
    a key A never had), one updated twice with the wrong old CID, and one updated and
    then deleted as a delete of a CID it never had in A. *)
Definition rA : list (str * cid) := [(s "a/u", [1%N]); (s "a/w", [2%N])].
Definition rB : list (str * cid) := [(s "a/u", [3%N]); (s "a/v", [4%N]); (s "a/w", [7%N])].
Definition rC : list (str * cid) := [(s "a/v", [5%N]); (s "a/w", [8%N])].
Definition rAB : diff :=
  Diff [(s "a/v", Change (s "a/v") [4%N] None)]
       [(s "a/u", Change (s "a/u") [3%N] (Some [1%N])); (s "a/w", Change (s "a/w") [7%N] (Some [2%N]))] [] [[3%N]; [4%N]; [7%N]] [].
Definition rBC : diff :=
  Diff [] [(s "a/v", Change (s "a/v") [5%N] (Some [4%N])); (s "a/w", Change (s "a/w") [8%N] (Some [7%N]))]
       [(s "a/u", Change (s "a/u") [3%N] None)] [[5%N]; [8%N]] [].
Theorem C16_refuted : exists a b c d1 d2, dicts d1 /\ dicts d2 /\ exact_diff a b d1 /\ exact_diff b c d2 /\
  (exists k x y, dget k a = None /\ dget k c = Some x /\ dget k (df_adds (add_diff d1 d2)) = None /\
     dget k (df_updates (add_diff d1 d2)) = Some y) /\
  (exists k x y u, dget k a = Some x /\ dget k c = Some y /\ dget k (df_updates (add_diff d1 d2)) = Some u /\ ch_prev u <> Some x) /\
  (exists k x u, dget k a = Some x /\ dget k c = None /\ dget k (df_deletes (add_diff d1 d2)) = Some u /\ ch_cid u <> x).
Proof.
  exists rA, rB, rC, rAB, rBC.
  split; [unfold dicts; splits; repeat constructor; cbn; intuition discriminate|].
  split; [unfold dicts; splits; repeat constructor; cbn; intuition discriminate|].
  split; [unfold rA, rB, rAB; by_key k|]. split; [unfold rB, rC, rBC; by_key k|].
  split; [exists (s "a/v"); eexists _, _; vm_compute; auto|].
  split; [exists (s "a/w"); eexists _, _, _; vm_compute; splits; [reflexivity..|discriminate]|].
  exists (s "a/u"); eexists _, _; vm_compute; splits; [reflexivity..|discriminate].
Qed.
Print Assumptions C16_refuted.
