(** A slow datastore, and an export from it while someone writes. *)
From Coq Require Import String List NArith ZArith Bool Lia.
From Verif Require Import Base Lists Ipld MstModel MstRep CarModel StorageModel StorageSpec RepoSpec RepoExamples RepoProps MessageExamples EventsModel
  UriModel ServerModel ServerSpec ServerExamples ServerProps ExportExamples LiveSpec LiveExamples RawModel RawSpec.
Import ListNotations.

(** Here blocks have their CIDs as names. *)
Definition xname (c : cid) : str := c.

(** It answers the last of the keys, and defers the others, in reverse order. *)
Definition slow (st : state) (n : nat) (ks : list str) : response :=
  match rev ks with
  | [] => ([], [])
  | k :: r => (match read st k with Some b => [(k, (encode (b_val b), b_seq b))] | None => [] end, r)
  end.

Lemma slow_advances st : advances (slow st).
Proof.
  intros n ks NE. unfold slow. destruct (rev ks) as [|k r] eqn:E.
  - exfalso. apply NE. apply (f_equal (@rev str)) in E. rewrite rev_involutive in E. exact E.
  - rewrite <- (rev_length ks), E. cbn. lia.
Qed.

Lemma slow_honest st st' : later st st' -> honest xname st st' (slow st').
Proof.
  intros LA. split.
  - intros n ks name x HI. unfold slow in HI. destruct (rev ks) as [|k r] eqn:E; [destruct HI|]. cbn [fst] in HI.
    destruct (read st' k) as [b|] eqn:RB; [|destruct HI]. destruct HI as [[= <- <-]|[]].
    split; [apply in_rev; rewrite E; cbn; auto|]. exists k, b. auto.
  - intros n ks name HI. unfold slow in HI. destruct (rev ks) as [|k r] eqn:E; [destruct HI|]. cbn [snd] in HI. apply in_rev. rewrite E. cbn. auto.
  - intros n ks c b HI RB. unfold xname in *. apply LA in RB. unfold slow. apply in_rev in HI. destruct (rev ks) as [|k r]; [destruct HI|].
    destruct HI as [->|HI]; [|right; exact HI]. left. rewrite RB. cbn. auto.
Qed.

Lemma prefix_later st st' : firstn (length (s_blocks st)) (s_blocks st') = s_blocks st -> later st st'.
Proof.
  intros E c b. unfold read. intros D. rewrite <- (firstn_skipn (length (s_blocks st)) (s_blocks st')), E.
  revert D. generalize (skipn (length (s_blocks st)) (s_blocks st')) as t. generalize (s_blocks st) as l. clear.
  induction l as [|[k v] l IH]; intros t D; [discriminate D|]. cbn [app dget] in *. destruct (str_eqb c k); auto.
Qed.

(** Alice's repo before and after her last record. *)
Definition rbefore : vstate := vrun Datastore (firstn 4 ystory).
Definition rafter : vstate := vrun Datastore ystory.
Definition rlater : state := w_state (v_world rafter).

Lemma rbefore_hosts : lhosts Datastore (v_world rbefore) (v_book rbefore).
Proof. apply vsteps_hosts; [apply h_new, lproper|]. vm_compute. reflexivity. Qed.

Lemma rbefore_later : later (w_state (v_world rbefore)) rlater.
Proof. apply prefix_later. vm_compute. reflexivity. Qed.

(** The keys of the blocks in the CAR. *)
Definition car_cids (x : res (list N)) : option (list cid) :=
  match x with Ok car => option_map (fun rb => keys (snd rb)) (read_car car) | Err _ => None end.
Definition rquick : option (list cid) := car_cids (snd (on_get_repo wdigest (lserver Datastore) alice None (w_state (v_world rbefore)))).
Definition rslow (rounds : nat) : res (list N) := snd (ds_get_repo (slow rlater) xname rounds wdigest vnetloc false alice None (w_state (v_world rbefore))).
