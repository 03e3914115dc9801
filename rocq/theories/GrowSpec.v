(** How the commits of a repo follow each other. *)
From Coq Require Import String List NArith ZArith Bool.
From Verif Require Import Base Lists Ipld MstModel StorageModel StorageSpec RepoSpec UriModel ServerModel ServerSpec.
Import ListNotations.

(** Following prev from the commit [h] leads to the commit [c], through commits that are all stored, with ever
    lower sequence numbers and revs. *)
Inductive descends (st : state) (c : block) : block -> Prop :=
| de_same : descends st c c
| de_next p h x y : descends st c p -> read st (b_cid p) = Some p -> item (s "prev") (b_val h) = Ok (ILink (b_cid p)) ->
    (b_seq p < b_seq h)%Z -> item_text (s "rev") (b_val p) = Ok x -> item_text (s "rev") (b_val h) = Ok y -> slt x y -> descends st c h.

Section Stays.
Variable digest : list N -> list N.
Variable kdigest : str -> list N.
Variable validate : ipld -> res unit.
Variable ecdsa : N -> Z -> list N -> list N.
Variable now : Z -> str.
Variable cb : nat -> option exn.
Variable be : backend.
Variable netloc_ok : str -> bool.
Variable cfg : config.

(** [RequestSpec.goes_on] without [Repo.create] for [did]. *)
Inductive stays (did : str) (w : world) (bk : book) : world -> book -> Prop :=
| t_here : stays did w bk w bk
| t_storage w1 bk1 op w' out : stays did w bk w1 bk1 -> op_named op -> (be = Memory -> clean_step w1 op out) ->
    (forall handle status has_callback key, op <> SCreate did handle status has_callback key) ->
    sstep digest kdigest validate ecdsa now cb be w1 op = (w', out) -> stays did w bk w' (book_step bk1 op out)
| t_request w1 bk1 q st' out : stays did w bk w1 bk1 -> (be = Memory -> (s_next (w_state w1) < 2 ^ 55)%Z) ->
    serve digest kdigest validate ecdsa cb be netloc_ok cfg q (w_state w1) = (st', out) ->
    stays did w bk (World st' (w_refs w1)) (request_book be netloc_ok (w_state w1) bk1 q out).
End Stays.
