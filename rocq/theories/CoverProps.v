(** Properties of covering proofs (arroba/mst.py:871-949). *)
From Coq Require Import String List NArith ZArith Bool.
From Verif Require Import Base Lists Ipld MstModel MstTree MstTrav MstClient MstSpec MstFacts MstProps
  CarModel StorageModel EventsModel DiffSpec DiffProps CoverModel CoverSpec CoverProofs CoverFacts.
Import ListNotations.

(** ** C12 *)

(** Take any tree that was built and persisted, a storage with its blocks, any operations and any
    stored blocks to start from. The covering proofs exist; they are the given blocks, nodes of the
    tree, and among them all nodes on the search paths of the operations; and a consumer who has
    nothing else finds at each of these paths what the tree has. *)
Theorem C12_covering_proofs : forall digest kdigest, (forall k, length (kdigest k) = 32) -> collision_free digest ->
  forall mops d outs root c' st, dict_run [] mops d outs ->
  persist digest kdigest (fst (crun digest kdigest (cinit digest) mops)) = Ok (root, c') ->
  (forall k v, dget k (cl_store c') = Some v -> exists b, read st k = Some b /\ b_val b = v) ->
  forall ops blocks, from_storage st blocks ->
  exists t out, expand kdigest (rd st) max_depth (mst_load root) = Ok t /\
    add_covering_proofs st max_depth root (Some ops) blocks = Ok out /\
    covers digest st t (map op_path ops) blocks out /\
    forall path, In path (map op_path ops) -> get kdigest (consumer out) max_depth (mst_load root) path = Ok (dget path d).
Proof. exact c12. Qed.
Print Assumptions C12_covering_proofs.

(** A storage with the blocks of the sample tree, and more operations on it than there are nodes to
    send: the proof for one stored and one absent key leaves nodes out, yet answers for both. *)
Definition ex_mops : list mop := sample2 ++ [OAdd (s "f/x1") [3%N]; OAdd (s "g/x0") [4%N]; OAdd (s "h/x2") [5%N]; OAdd (s "i/x0") [6%N]].
Definition ex_persist : res (cid * client) := persist idd toy (fst (crun idd toy (cinit idd) ex_mops)).
Definition ex_state (c : client) : state :=
  State 2 (map (fun kv => (fst kv, Block (fst kv) (snd kv) 1 None None)) (cl_store c)) [] [] [] [].
Definition ex_ops : list commit_op :=
  [CommitOp UPDATE (s "a/x0") (Some [5%N]) (Some [5%N]); CommitOp DELETE (s "a/x1") None (Some [1%N])].
Example C12_example :
  match ex_persist with
  | Ok (root, c) =>
      match add_covering_proofs (ex_state c) max_depth root (Some ex_ops) [] with
      | Ok out =>
          get toy (consumer out) max_depth (mst_load root) (s "a/x0") = Ok (Some [5%N]) /\
          get toy (consumer out) max_depth (mst_load root) (s "a/x1") = Ok None /\
          get toy (consumer out) max_depth (mst_load root) (s "i/x0") = Err AttributeError /\
          length out = 6
      | Err _ => False
      end
  | Err _ => False
  end.
Proof. vm_compute. auto. Qed.
