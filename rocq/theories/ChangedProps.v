(** C14: the keys that a diff says have changed. *)
From Coq Require Import String List NArith ZArith Bool.
From Verif Require Import Base Lists Ipld MstModel MstClient MstSpec MstHist MstProps DiffModel DiffSpec DiffFacts DiffProps ChangedModel ChangedProofs.
Import ListNotations.

(** The keys of [updated_keys] of the diff of two trees are exactly the keys whose values differ, each once; its
    value for a key names the key and the new CID, or the old one if the key is gone. *)
Theorem C14_changed digest kdigest : (forall k, length (kdigest k) = 32) -> collision_free digest ->
  forall ops1 ops2 d1 d2 o1 o2, dict_run [] ops1 d1 o1 -> dict_run [] ops2 d2 o2 ->
  let c1 := fst (crun digest kdigest (cinit digest) ops1) in
  let c2 := fst (crun digest kdigest (cinit digest) ops2) in
  forall rdl rdr hint, finds rdl (cl_store c1) -> finds rdr (cl_store c2) ->
  exists n, forall fuel, n <= fuel ->
  exists d, mst_diff digest kdigest rdl rdr hint fuel (cl_tree c2) (Some (cl_tree c1)) = Ok d /\
    NoDup (keys (updated_keys d)) /\
    (forall k, In k (keys (updated_keys d)) <-> dget k d1 <> dget k d2) /\
    forall k c, dget k (updated_keys d) = Some c -> ch_key c = k /\ Some (ch_cid c) = match dget k d2 with Some y => Some y | None => dget k d1 end.
Proof. exact (c14_changed digest kdigest). Qed.
Print Assumptions C14_changed.

(** The diff of the example of C14: two keys are new, one has another value and one is gone. *)
Example C14_changed_case : match the_diff with
  | Ok d => map (fun kc => (fst kc, ch_cid (snd kc))) (updated_keys d) = [(s "d/x0", [9%N]); (s "e/x3", [1%N]); (s "b/x2", [8%N]); (s "a/x1", [1%N])]
  | Err _ => False
  end.
Proof. vm_compute. reflexivity. Qed.
