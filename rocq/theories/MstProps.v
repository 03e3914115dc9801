(** Properties of the Merkle search tree (arroba/mst.py). *)
From Coq Require Import String List NArith ZArith Bool Lia.
From Verif Require Import Base Lists Ipld IpldProofs Sha256 MstModel MstTree MstTreeProofs MstRep MstTrav MstClient
  MstSpec MstShape MstHist MstFacts.
Import ListNotations.

(** Block reader of a client. *)
Notation rdc c := (fun k : str => dget k (cl_store c)).

(** For the examples: a collision free "hash" and a key hash with 32 bytes whose
    height is the last digit of the key. *)
Definition idd (b : list N) : list N := b.
Definition toy (k : str) : list N :=
  let h := N.to_nat ((last k 48 - 48) mod 8)%N in
  firstn 32 (repeat 0%N (Nat.div h 4) ++ nth (Nat.modulo h 4) [255; 63; 15; 3]%N 255%N :: repeat 255%N 32).
Lemma toy_len k : length (toy k) = 32.
Proof.
  unfold toy. rewrite firstn_length, app_length, repeat_length. cbn [length]. rewrite repeat_length.
  apply Nat.min_l. lia.
Qed.
Lemma idd_free : collision_free idd. Proof. intros a b H. exact H. Qed.

Definition sample : list mop :=
  [OAdd (s "a/x1") [1%N]; OAdd (s "a/x0") [2%N]; OAdd (s "b/x2") [3%N]; OAdd (s "a/x0") [4%N];
   OUpdate (s "a/x0") [5%N]; OAdd (s "c/x5") [6%N]; ODelete (s "c/x5"); ODelete (s "zz/z");
   OUpdate (s "bad key") [7%N]; OGet (s "a/x0"); OGet (s "c/x5")].
Lemma sample_mem : in_memory sample.
Proof. intros o H. simpl in H. intuition; subst; discriminate. Qed.
Definition sample_dict : list (str * cid) := [(s "a/x1", [1%N]); (s "a/x0", [5%N]); (s "b/x2", [3%N])].

(** ** C01 *)

(** Every history behaves as on a dictionary. *)
Theorem C01_mst_is_a_map : forall digest kdigest, (forall k, length (kdigest k) = 32) ->
  forall ops, hash_ok digest ops ->
  exists d, dict_run [] ops d (snd (crun digest kdigest (cinit digest) ops)) /\
    let c := fst (crun digest kdigest (cinit digest) ops) in
    forall k, get kdigest (rdc c) max_depth (cl_tree c) k = Ok (dget k d).
Proof. exact mst_is_a_map. Qed.
Print Assumptions C01_mst_is_a_map.

Example C01_example : hash_ok idd sample /\
  snd (crun idd toy (cinit idd) sample)
  = [Ok Done; Ok Done; Ok Done; Err ValueError; Ok Done; Ok Done; Ok Done; Err KeyError; Err ValueError;
     Ok (Got (Some [5%N])); Ok (Got None)].
Proof. split; [left; exact sample_mem|vm_compute; reflexivity]. Qed.

(** ** C02 *)

(** Two histories that end in the same mapping end in the same root CID, which is the
    CID of the canonical tree of the mapping.
    Missing for the full claim: histories in which a tree emptied by deletes is added
    to before it is reloaded; for those the claim is false, see C02_refuted. *)
Theorem C02_root_by_contents_partial : forall digest kdigest, (forall k, length (kdigest k) = 32) ->
  collision_free digest -> forall ops1 ops2 d1 d2 outs1 outs2,
  no_add_after_emptying false [] ops1 -> no_add_after_emptying false [] ops2 ->
  dict_run [] ops1 d1 outs1 -> dict_run [] ops2 d2 outs2 -> same_items d1 d2 ->
  get_pointer digest (cl_tree (fst (crun digest kdigest (cinit digest) ops1)))
  = get_pointer digest (cl_tree (fst (crun digest kdigest (cinit digest) ops2))) /\
  forall l, listing d1 l ->
    get_pointer digest (cl_tree (fst (crun digest kdigest (cinit digest) ops1)))
    = Ok (tcid digest (canonical kdigest l)).
Proof. exact root_by_contents'. Qed.
Print Assumptions C02_root_by_contents_partial.

(** Two different histories with deletes, one of them emptying the tree before a
    reload, end in the same mapping and the same root. *)
Example C02_example :
  let ops1 := [OAdd (s "a/x1") [1%N]; OAdd (s "b/x3") [2%N]; ODelete (s "b/x3"); OAdd (s "c/x0") [3%N]] in
  let ops2 := [OAdd (s "b/x3") [2%N]; ODelete (s "b/x3"); OReload; OAdd (s "c/x0") [3%N]; OAdd (s "a/x1") [1%N]] in
  no_add_after_emptying false [] ops1 /\ no_add_after_emptying false [] ops2 /\
  get_pointer idd (cl_tree (fst (crun idd toy (cinit idd) ops1)))
  = get_pointer idd (cl_tree (fst (crun idd toy (cinit idd) ops2))).
Proof.
  assert (K : repo_key (s "a/x1") /\ repo_key (s "b/x3") /\ repo_key (s "c/x0")).
  { splits; apply valid_key_spec; vm_compute; reflexivity. }
  destruct K as (K1 & K2 & K3). cbv zeta. splits; [| |vm_compute; reflexivity].
  - eapply na_add; [apply d_add; [exact K1|reflexivity]|auto|].
    eapply na_add; [apply d_add; [exact K2|reflexivity]|auto|].
    eapply na_delete; [eapply d_delete; vm_compute; reflexivity|].
    eapply na_add; [apply d_add; [exact K3|vm_compute; reflexivity]|auto|]. constructor.
  - eapply na_add; [apply d_add; [exact K2|reflexivity]|auto|].
    eapply na_delete; [eapply d_delete; vm_compute; reflexivity|].
    apply na_reload.
    eapply na_add; [apply d_add; [exact K3|vm_compute; reflexivity]|auto|].
    eapply na_add; [apply d_add; [exact K1|vm_compute; reflexivity]|auto|]. constructor.
Qed.

(** An add, a delete of the only key and another add, with the real hash functions:
    the root differs from that of the second add alone. *)
Theorem C02_refuted : exists ops1 ops2 d outs1 outs2, in_memory ops1 /\ in_memory ops2 /\
  dict_run [] ops1 d outs1 /\ dict_run [] ops2 d outs2 /\
  get_pointer sha256 (cl_tree (fst (crun sha256 sha256 (cinit sha256) ops1)))
  <> get_pointer sha256 (cl_tree (fst (crun sha256 sha256 (cinit sha256) ops2))).
Proof. exact root_depends_on_history. Qed.
Print Assumptions C02_refuted.

(** ** C03 *)

(** [leaves()] lists exactly the dictionary, keys strictly ascending. *)
Theorem C03_leaves : forall digest kdigest, (forall k, length (kdigest k) = 32) ->
  forall ops, hash_ok digest ops ->
  exists d l, dict_run [] ops d (snd (crun digest kdigest (cinit digest) ops)) /\
    let c := fst (crun digest kdigest (cinit digest) ops) in
    mst_leaves kdigest (rdc c) max_depth (cl_tree c) = Ok l /\
    ssorted (keys l) /\ (forall k v, In (k, v) l <-> dget k d = Some v).
Proof. exact leaves_listing. Qed.
Print Assumptions C03_leaves.

Example C03_example : let c := fst (crun idd toy (cinit idd) sample) in
  mst_leaves toy (rdc c) max_depth (cl_tree c)
  = Ok [(s "a/x0", [5%N]); (s "a/x1", [1%N]); (s "b/x2", [3%N])].
Proof. vm_compute. reflexivity. Qed.

(** ** C04 *)

(** The bounds of [list]: a missing [after] or [before] is no bound, and neither is
    an empty [before]. *)
Definition within (after before : option str) (k : str) : Prop :=
  match after with Some a => slt a k | None => True end /\
  match before with Some [] => True | Some b => slt k b | None => True end.

Theorem C04_ranges : forall digest kdigest, (forall k, length (kdigest k) = 32) ->
  forall ops, hash_ok digest ops ->
  exists d, dict_run [] ops d (snd (crun digest kdigest (cinit digest) ops)) /\
    let c := fst (crun digest kdigest (cinit digest) ops) in
    (forall key, exists l, walk_leaves_from kdigest (rdc c) max_depth (cl_tree c) key = Ok l /\
       ssorted (keys l) /\ forall k v, In (k, v) l <-> dget k d = Some v /\ ~ slt k key) /\
    (forall after before, exists l, mst_list kdigest (rdc c) max_depth (cl_tree c) after before = Ok l /\
       ssorted (keys l) /\ forall k v, In (k, v) l <-> dget k d = Some v /\ within after before k) /\
    (forall p, exists l, list_with_prefix kdigest (rdc c) max_depth (cl_tree c) p = Ok l /\
       ssorted (keys l) /\ forall k v, In (k, v) l <-> dget k d = Some v /\ exists r, k = p ++ r).
Proof. exact ranges. Qed.
Print Assumptions C04_ranges.

Example C04_example : let c := fst (crun idd toy (cinit idd) sample) in
  walk_leaves_from toy (rdc c) max_depth (cl_tree c) (s "a/x1") = Ok [(s "a/x1", [1%N]); (s "b/x2", [3%N])] /\
  mst_list toy (rdc c) max_depth (cl_tree c) (Some (s "a/x0")) (Some (s "b")) = Ok [(s "a/x1", [1%N])] /\
  list_with_prefix toy (rdc c) max_depth (cl_tree c) (s "a/")
  = Ok [(s "a/x0", [5%N]); (s "a/x1", [1%N])].
Proof. vm_compute. auto. Qed.

(** ** C05 *)

(** Serialization succeeds exactly on entries with valid keys and no two adjacent
    subtrees; reading the block back gives the same entries (subtrees unloaded), also
    through the DAG-CBOR bytes. *)
Theorem C05_node_round_trip : forall pes,
  ((exists d, serialize_node_data pes = Ok d) <->
   (forall k v, In (PLeaf k v) pes -> repo_key k) /\
   (forall l a b r, pes <> l ++ PSub a :: PSub b :: r)) /\
  forall d, serialize_node_data pes = Ok d ->
    decode (dag_cbor_encode (ndata_ipld d)) = Some (ndata_ipld d) /\
    ipld_ndata (ndata_ipld d) = Ok d /\
    deserialize_node_data d None
    = map (fun p => match p with PLeaf k v => Leaf k v | PSub c => Sub (mst_load c) end) pes.
Proof. exact node_round_trip. Qed.
Print Assumptions C05_node_round_trip.

(** Distinct entries give distinct blocks. *)
Theorem C05_node_injective : forall pes1 pes2 d1 d2,
  serialize_node_data pes1 = Ok d1 -> serialize_node_data pes2 = Ok d2 ->
  dag_cbor_encode (ndata_ipld d1) = dag_cbor_encode (ndata_ipld d2) -> pes1 = pes2.
Proof. exact node_injective. Qed.
Print Assumptions C05_node_injective.

Example C05_example :
  serialize_node_data [PSub [9%N]; PLeaf (s "coll/abc") [1%N]; PLeaf (s "coll/abd") [2%N]; PSub [8%N]]
  = Ok (Ndata (Some [9%N]) [Edata 0 (s "coll/abc") [1%N] None; Edata 7 (s "d") [2%N] (Some [8%N])]).
Proof. vm_compute. reflexivity. Qed.

(** ** C06 *)

(** The tree behind the object, read through its entries, has the shape of a Merkle
    search tree, and its CID is the object's pointer. *)
Theorem C06_shape : forall digest kdigest, (forall k, length (kdigest k) = 32) ->
  forall ops, hash_ok digest ops ->
  let c := fst (crun digest kdigest (cinit digest) ops) in
  exists n t, expand kdigest (rdc c) max_depth (cl_tree c) = Ok t /\ node_at kdigest n t /\
    ssorted (keys (leaves t)) /\ get_pointer digest (cl_tree c) = Ok (tcid digest t).
Proof. exact tree_shape. Qed.
Print Assumptions C06_shape.

Example C06_example : let c := fst (crun idd toy (cinit idd) sample) in
  expand toy (rdc c) max_depth (cl_tree c)
  = Ok (Node [TSub (Node [TSub (Node [TLeaf (s "a/x0") [5%N]]); TLeaf (s "a/x1") [1%N]]);
              TLeaf (s "b/x2") [3%N]]).
Proof. vm_compute. reflexivity. Qed.

(** ** C07 *)

(** Writing the unstored blocks and loading the returned root gives a tree with the
    same leaves, on which every later history gives the same results. *)
Theorem C07_persist_reload : forall digest kdigest, (forall k, length (kdigest k) = 32) ->
  forall ops, collision_free digest ->
  let c := fst (crun digest kdigest (cinit digest) ops) in
  exists root c', persist digest kdigest c = Ok (root, c') /\
    get_pointer digest (cl_tree c) = Ok root /\
    (forall ops', snd (crun digest kdigest (Client (cl_store c') (mst_load root)) ops')
                  = snd (crun digest kdigest c ops')) /\
    mst_leaves kdigest (rdc c') max_depth (mst_load root) = mst_leaves kdigest (rdc c) max_depth (cl_tree c).
Proof. exact persist_reload. Qed.
Print Assumptions C07_persist_reload.

Example C07_example : snd (crun idd toy (cinit idd) (sample ++ [OReload; OGet (s "a/x0"); ODelete (s "b/x2");
    OPersist; OAdd (s "b/x2") [3%N]; OReload; OGet (s "b/x2")]))
  = snd (crun idd toy (cinit idd) sample)
    ++ [Ok Done; Ok (Got (Some [5%N])); Ok Done; Ok Done; Ok Done; Ok Done; Ok (Got (Some [3%N]))].
Proof. vm_compute. reflexivity. Qed.

(** ** C08 *)

Theorem C08_root_commits : forall digest kdigest, (forall k, length (kdigest k) = 32) ->
  forall ops1 ops2 d1 d2 outs1 outs2, collision_free digest ->
  dict_run [] ops1 d1 outs1 -> dict_run [] ops2 d2 outs2 ->
  get_pointer digest (cl_tree (fst (crun digest kdigest (cinit digest) ops1)))
  = get_pointer digest (cl_tree (fst (crun digest kdigest (cinit digest) ops2))) ->
  same_items d1 d2.
Proof. exact root_commits. Qed.
Print Assumptions C08_root_commits.

Example C08_example :
  get_pointer idd (cl_tree (fst (crun idd toy (cinit idd) [OAdd (s "a/x1") [1%N]; OAdd (s "b/x0") [2%N]])))
  = get_pointer idd (cl_tree (fst (crun idd toy (cinit idd)
      [OAdd (s "b/x0") [3%N]; OReload; OAdd (s "a/x1") [1%N]; OUpdate (s "b/x0") [2%N]]))).
Proof. vm_compute. reflexivity. Qed.

(** ** C09 *)

(** The key check alone, and as seen by callers of [add] and [update]. *)
Theorem C09_key_validation : forall k, (ensure_valid_key k = Ok tt <-> repo_key k) /\
  (ensure_valid_key k = Err ValueError <-> ~ repo_key k).
Proof. exact key_validation. Qed.
Print Assumptions C09_key_validation.

Theorem C09_add_accepts : forall digest kdigest, (forall k, length (kdigest k) = 32) ->
  forall ops, hash_ok digest ops -> forall k v,
  let c := fst (crun digest kdigest (cinit digest) ops) in
  get kdigest (rdc c) max_depth (cl_tree c) k = Ok None ->
  ((exists m, add digest kdigest (rdc c) max_depth (cl_tree c) k v None = Ok m) <-> repo_key k).
Proof. exact add_accepts. Qed.
Print Assumptions C09_add_accepts.

Example C09_example : repo_key (s "app.bsky.feed.post/3jt5:a_-B") /\ ~ repo_key (s "a/b/c") /\
  ~ repo_key (s "a/") /\ ~ repo_key (s "a b/c") /\ ~ repo_key (s "abc").
Proof.
  splits; try (apply valid_key_spec; vm_compute; reflexivity);
    apply valid_key_false; vm_compute; reflexivity.
Qed.

(** ** C10 *)

Theorem C10_key_height : forall kdigest k,
  leading_zeros_on_hash kdigest k = Z.of_nat (height (kdigest k)) /\
  height (kdigest k) <= 4 * length (kdigest k).
Proof. exact key_height. Qed.
Print Assumptions C10_key_height.

Example C10_example : leading_zeros_on_hash (fun _ => [0; 0; 3; 255]%N) [] = 11%Z.
Proof. vm_compute. reflexivity. Qed.

(** ** C11 *)

(** The CIDs of the nodes on the search path from the root down, each a child of the
    previous one, then the value if the key is stored. *)
Theorem C11_cids_for_path : forall digest kdigest, (forall k, length (kdigest k) = 32) ->
  forall ops, hash_ok digest ops ->
  exists d, dict_run [] ops d (snd (crun digest kdigest (cinit digest) ops)) /\
    let c := fst (crun digest kdigest (cinit digest) ops) in
    exists t, expand kdigest (rdc c) max_depth (cl_tree c) = Ok t /\
    forall key, exists p, spath key t = t :: p /\ descending (t :: p) /\
      cids_for_path digest kdigest (rdc c) max_depth (cl_tree c) key
      = Ok (map (tcid digest) (t :: p) ++ match dget key d with Some v => [v] | None => [] end).
Proof. exact path_cids. Qed.
Print Assumptions C11_cids_for_path.

Example C11_example : let c := fst (crun idd toy (cinit idd) sample) in
  match cids_for_path idd toy (rdc c) max_depth (cl_tree c) (s "a/x0") with
  | Ok p => length p = 4 /\ last p [] = [5%N]
  | Err _ => False
  end.
Proof. vm_compute. auto. Qed.

(** ** C13 *)

(** Whatever is done later, the leaves under an old root are what they were when it
    was written. *)
Theorem C13_old_roots : forall digest kdigest, (forall k, length (kdigest k) = 32) ->
  forall ops root c' ops' extra, collision_free digest ->
  let c := fst (crun digest kdigest (cinit digest) ops) in
  persist digest kdigest c = Ok (root, c') ->
  let later := fold_left dsetdefault extra (cl_store (fst (crun digest kdigest c' ops'))) in
  mst_leaves kdigest (fun k : str => dget k later) max_depth (mst_load root)
  = mst_leaves kdigest (rdc c) max_depth (cl_tree c).
Proof. exact old_root_readable. Qed.
Print Assumptions C13_old_roots.

Example C13_example :
  let c := fst (crun idd toy (cinit idd) sample) in
  match persist idd toy c with
  | Ok (root, c') =>
      let c2 := fst (crun idd toy c' [ODelete (s "a/x0"); OReload; OUpdate (s "b/x2") [77%N]; OReload]) in
      mst_leaves toy (rdc c2) max_depth (mst_load root)
      = Ok [(s "a/x0", [5%N]); (s "a/x1", [1%N]); (s "b/x2", [3%N])] /\
      mst_leaves toy (rdc c2) max_depth (cl_tree c2) = Ok [(s "a/x1", [1%N]); (s "b/x2", [77%N])]
  | Err _ => False
  end.
Proof. vm_compute. auto. Qed.
