(** Servers that take storage operations and XRPC requests, from one state on. *)
From Coq Require Import String List NArith ZArith Bool.
From Verif Require Import Base Lists Ipld MstModel StorageModel StorageSpec RepoSpec UriModel ServerModel ServerSpec.
Import ListNotations.

Section Goes.
Variable digest : list N -> list N.
Variable kdigest : str -> list N.
Variable validate : ipld -> res unit.
Variable ecdsa : N -> Z -> list N -> list N.
Variable now : Z -> str.
Variable cb : nat -> option exn.
Variable be : backend.
Variable netloc_ok : str -> bool.
Variable cfg : config.

(** From the world [w], in which the repos have the keys and records of the book [bk], a server gets to
    [w'] and [bk']. The conditions are those of [ServerSpec.serves]. *)
Inductive goes_on (w : world) (bk : book) : world -> book -> Prop :=
| g_here : goes_on w bk w bk
| g_storage w1 bk1 op w' out : goes_on w bk w1 bk1 -> op_named op -> (be = Memory -> clean_step w1 op out) ->
    sstep digest kdigest validate ecdsa now cb be w1 op = (w', out) -> goes_on w bk w' (book_step bk1 op out)
| g_request w1 bk1 q st' out : goes_on w bk w1 bk1 -> (be = Memory -> (s_next (w_state w1) < 2 ^ 55)%Z) ->
    serve digest kdigest validate ecdsa cb be netloc_ok cfg q (w_state w1) = (st', out) ->
    goes_on w bk (World st' (w_refs w1)) (request_book be netloc_ok (w_state w1) bk1 q out).
End Goes.

(** What a request may do to the storage: load repos, and commit single writes. *)
Definition request_op (o : sop) : Prop :=
  match o with SLoad _ => True | SCommit _ ws => length ws = 1%nat | _ => False end.
Definition is_commit (o : sop) : bool := match o with SCommit _ _ => true | _ => false end.

(** The same state of the storage, and every reference that is held in [w] is held in [w']. *)
Definition covers (w w' : world) : Prop := w_state w' = w_state w /\ forall r, In r (w_refs w) -> In r (w_refs w').

(** What the commit of an answered write says it did; [old] and [new] are the CIDs of the record before
    and after it. *)
Definition request_ops (path : str) (old new : option cid) : list commit_op :=
  match old, new with
  | None, None => []
  | None, Some c => [CommitOp CREATE path (Some c) None]
  | Some c0, Some c => if str_eqb c0 c then [] else [CommitOp UPDATE path (Some c) (Some c0)]
  | Some c0, None => [CommitOp DELETE path None (Some c0)]
  end.
