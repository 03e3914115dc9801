(** Properties of comparing and counting trees (arroba/mst.py). *)
From Coq Require Import String List NArith ZArith Bool Lia.
From Verif Require Import Base Lists Ipld Sha256 MstModel MstTree MstClient MstSpec MstFacts MstProps ExportSpec
  EqualModel EqualFacts.
Import ListNotations.

(** ** C77 *)

(** Trees of any two histories can be compared, and equal trees hold the same records. *)
Theorem C77_sound : forall digest kdigest, (forall k, length (kdigest k) = 32) ->
  collision_free digest -> forall ops1 ops2 d1 d2 outs1 outs2,
  dict_run [] ops1 d1 outs1 -> dict_run [] ops2 d2 outs2 ->
  exists b, mst_equal digest (cl_tree (fst (crun digest kdigest (cinit digest) ops1)))
                             (cl_tree (fst (crun digest kdigest (cinit digest) ops2))) = Ok b /\
    (b = true -> same_items d1 d2).
Proof. exact equal_sound. Qed.
Print Assumptions C77_sound.

(** Trees that hold the same records are equal.
    Missing for the full claim: histories in which a tree emptied by deletes is added to
    before it is reloaded; for those it is false, see C77_refuted. *)
Theorem C77_complete_partial : forall digest kdigest, (forall k, length (kdigest k) = 32) ->
  collision_free digest -> forall ops1 ops2 d1 d2 outs1 outs2,
  no_add_after_emptying false [] ops1 -> no_add_after_emptying false [] ops2 ->
  dict_run [] ops1 d1 outs1 -> dict_run [] ops2 d2 outs2 -> same_items d1 d2 ->
  mst_equal digest (cl_tree (fst (crun digest kdigest (cinit digest) ops1)))
                   (cl_tree (fst (crun digest kdigest (cinit digest) ops2))) = Ok true.
Proof. exact equal_complete. Qed.
Print Assumptions C77_complete_partial.

(** Two in-memory histories, with the real hash, that end in the same records and in
    trees that are not equal. *)
Theorem C77_refuted : exists ops1 ops2 d outs1 outs2, in_memory ops1 /\ in_memory ops2 /\
  dict_run [] ops1 d outs1 /\ dict_run [] ops2 d outs2 /\
  mst_equal sha256 (cl_tree (fst (crun sha256 sha256 (cinit sha256) ops1)))
    (cl_tree (fst (crun sha256 sha256 (cinit sha256) ops2))) = Ok false.
Proof. exact equal_by_history. Qed.
Print Assumptions C77_refuted.

(** The histories of C02's example meet the hypotheses; here one more record on one
    side makes the trees unequal. *)
Example C77_equal_example :
  let t ops := cl_tree (fst (crun idd toy (cinit idd) ops)) in
  let ops := [OAdd (s "a/x1") [1%N]; OAdd (s "b/x3") [2%N]; ODelete (s "b/x3"); OAdd (s "c/x0") [3%N]] in
  let ops' := [OAdd (s "c/x0") [3%N]; OAdd (s "a/x1") [1%N]; OReload] in
  mst_equal idd (t ops) (t ops') = Ok true /\
  mst_equal idd (t ops) (t (OAdd (s "d/x0") [4%N] :: ops')) = Ok false /\
  mst_equal idd (t ops) (t [OAdd (s "c/x0") [3%N]; OAdd (s "a/x1") [2%N]]) = Ok false.
Proof. vm_compute. auto. Qed.

(** leaf_count is the number of records. *)
Theorem C77_count : forall digest kdigest, (forall k, length (kdigest k) = 32) ->
  forall ops, hash_ok digest ops ->
  exists d, dict_run [] ops d (snd (crun digest kdigest (cinit digest) ops)) /\ NoDup (keys d) /\
    let c := fst (crun digest kdigest (cinit digest) ops) in
    leaf_count kdigest (rdc c) max_depth (cl_tree c) = Ok (length d).
Proof. exact count_ok. Qed.
Print Assumptions C77_count.

Example C77_count_example : hash_ok idd sample /\
  let c := fst (crun idd toy (cinit idd) sample) in
  leaf_count toy (rdc c) max_depth (cl_tree c) = Ok 3.
Proof. split; [left; exact sample_mem|vm_compute; reflexivity]. Qed.

(** all_nodes gives the tree itself, then every record exactly once in key order, and
    every node of the tree exactly once: the CIDs of its nodes are those of the blocks
    that are reachable from the root once the tree is written out. *)
Theorem C77_nodes : forall digest kdigest, (forall k, length (kdigest k) = 32) ->
  forall ops, collision_free digest ->
  let c := fst (crun digest kdigest (cinit digest) ops) in
  exists d root c', dict_run [] ops d (snd (crun digest kdigest (cinit digest) ops)) /\
    persist digest kdigest c = Ok (root, c') /\
    exists w cs, all_nodes kdigest (rdc c) max_depth (cl_tree c) = Ok (Sub (cl_tree c) :: w) /\
      (ssorted (keys (only_leaves w)) /\ forall k v, In (k, v) (only_leaves w) <-> dget k d = Some v) /\
      map (get_pointer digest) (cl_tree c :: only_nodes w) = map Ok cs /\
      NoDup cs /\ forall x, In x cs <-> node_of (rdc c') root x.
Proof. exact nodes_ok. Qed.
Print Assumptions C77_nodes.

(** The sample's tree has three nodes, one per layer. *)
Example C77_nodes_example : collision_free idd /\
  let c := fst (crun idd toy (cinit idd) sample) in
  exists w, all_nodes toy (rdc c) max_depth (cl_tree c) = Ok w /\ length w = 6 /\ length (only_nodes w) = 3.
Proof. split; [exact idd_free|]. eexists. split; [vm_compute; reflexivity|vm_compute; auto]. Qed.
