(** C28: what callbacks hear of a new repo. *)
From Coq Require Import String List NArith ZArith Bool.
From Verif Require Import Base Lists Ipld MstModel StorageModel StorageSpec RepoSpec RepoExamples IsolateProps ChainProps TellProps UriModel ServerModel
  ServerExamples AnySpec SteadySpec SteadyProps BirthSpec BirthProofs.
Import ListNotations.

(** On every server, whatever operations and requests it took and whatever failed: creating a repo stores
    the first commit and its three events with consecutive numbers and tells the callback of exactly what is
    stored, or stores nothing and tells that the number is lost. *)
Theorem C28_create_any digest kdigest validate ecdsa now cb be l did handle status hc key : (forall a b, digest a = digest b -> a = b) ->
  Forall no_import l -> is_did did -> handle_ok handle ->
  let w := arun digest kdigest validate ecdsa now cb be init_world l in
  let '(w', out) := sstep digest kdigest validate ecdsa now cb be w (SCreate did handle status hc key) in
  birth digest now cb did handle hc (w_state w) (w_state w') (exists e, out = Err e).
Proof. exact (fun inj => birth_steady digest kdigest validate ecdsa now cb be inj l did handle status hc key). Qed.
Print Assumptions C28_create_any.

(** A second repo on a server with one: nothing raises; the callback raises at each of its five calls; and
    a repo that is made inactive. *)
Definition birth_acts : list act := [AStorage (SCreate alice None None false 1); ARequest vnetloc vcfg (vput alice (s "k1") 2)].
Definition birth_one (cb : nat -> option exn) (be : backend) (status : option str) :=
  let w := arun xdigest xkdigest xvalidate xecdsa xnow cb be init_world birth_acts in
  let r := sstep xdigest xkdigest xvalidate xecdsa xnow cb be w (SCreate bob (Some (s "b.c")) status true 2) in
  let st := w_state w in let st' := w_state (fst r) in
  (match snd r with Ok _ => true | Err _ => false end, (s_next st' - s_next st)%Z,
   map tell_call (firstn (length (s_calls st') - length (s_calls st)) (s_calls st'))).
Definition raise_at (k n : nat) : option exn := if Nat.eqb k n then Some RuntimeError else None.
Example C28_create_any_case : (forall a b, xdigest a = xdigest b -> a = b) /\ Forall no_import birth_acts /\ forall be,
  birth_one (fun _ => None) be None = (true, 4%Z, [inr true; inr false; inr false; inr false; inr true]) /\
  birth_one (raise_at 0) be None = (false, 1%Z, [inl 6%Z; inr true]) /\
  birth_one (raise_at 1) be None = (false, 2%Z, [inr false; inr true]) /\
  birth_one (raise_at 2) be None = (false, 3%Z, [inr false; inr false; inr true]) /\
  birth_one (raise_at 3) be None = (false, 4%Z, [inr false; inr false; inr false; inr true]) /\
  birth_one (raise_at 4) be None = (false, 4%Z, [inr true; inr false; inr false; inr false; inr true]) /\
  birth_one (fun _ => None) be (Some (s "deactivated")) = (false, 1%Z, [inl 6%Z]).
Proof.
  split; [exact (fun a b H => H)|]. split; [repeat constructor; discriminate|]. intros be. destruct be; vm_compute; repeat split; reflexivity.
Qed.
