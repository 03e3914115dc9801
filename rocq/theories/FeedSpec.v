(** The event log of servers that also take requests and imports. *)
From Coq Require Import String List NArith ZArith Bool.
From Verif Require Import Base Lists Ipld MstModel CarModel StorageModel StorageSpec RepoSpec EventsModel EventsSpec UriModel ServerModel ServerSpec LogSpec AnySpec.
Import ListNotations.

(** The signing key that an act brings. *)
Definition act_key (a : act) : option N := match a with AStorage op => op_key op | AImport _ _ _ _ _ _ _ key => Some key | ARequest _ _ _ => None end.

Section Feed.
Variable digest : list N -> list N.
Variable kdigest : str -> list N.
Variable validate : ipld -> res unit.
Variable ecdsa : N -> Z -> list N -> list N.
Variable now : Z -> str.
Variable cb : nat -> option exn.
Variable be : backend.

(** A value is neither an event nor a commit that was signed with one of the keys. *)
Definition foreign (keys : N -> Prop) (v : ipld) : Prop :=
  (forall t, item_text (s "$type") v <> Ok (s "com.atproto.sync.subscribeRepos#" ++ t)) /\
  forall b did key prev root, keys key -> b_val b = v -> ~ commit_of ecdsa b did key prev root.

(** Imported CARs have neither events nor commits of the server that imports them. *)
Definition unforged (l : list act) : Prop :=
  forall cfg resolve signing_key verify handle_of header car key roots bl c data v,
  In (AImport cfg resolve signing_key verify handle_of header car key) l ->
  read_car car = Some (roots, bl) -> In (c, data) bl -> decode data = Some v ->
  foreign (fun k => exists a, In a l /\ act_key a = Some k) v.

Definition imports (a : act) : Prop := match a with AImport _ _ _ _ _ _ _ _ => True | _ => False end.

(** The server before the [n]-th act. *)
Definition world_at (l : list act) (n : nat) : world := arun digest kdigest validate ecdsa now cb be init_world (firstn n l).

(** [items] tell of the operations on the storage in [l] that were successful. *)
Definition tells_operations (st : state) (start : Z) (repo : option str) (l : list act) (items : list eitem) : Prop :=
  forall n op e, nth_error l n = Some (AStorage op) ->
  In e (log_entries (world_at l n) op (snd (sstep digest kdigest validate ecdsa now cb be (world_at l n) op))) -> entry_selected start repo e = true ->
  exists i, In i items /\ entry_item ecdsa now st i e.

(** [items] tell of the requests that were answered: each has a commit of the repo that it names, with the
    operation for the record and the number that was next. Deletes of records that are not there have none. *)
Definition tells_requests (start : Z) (repo : option str) (l : list act) (items : list eitem) : Prop :=
  forall n netloc_ok cfg q x coll rkey v ans, nth_error l n = Some (ARequest netloc_ok cfg q) -> request_write q = Some (x, coll, rkey, v) ->
  snd (serve digest kdigest validate ecdsa cb be netloc_ok cfg q (w_state (world_at l n))) = Ok ans ->
  let st0 := w_state (world_at l n) in
  v = None /\ s_blocks (w_state (world_at l (S n))) = s_blocks st0 \/
  exists did, named_did be netloc_ok st0 x = Some did /\
    ((start <= s_next st0)%Z -> match repo with Some ((_ :: _) as d) => d = did | _ => True end ->
     exists cd action ops, In (ECommit cd) items /\ b_seq (cd_commit cd) = s_next st0 /\ b_repo (cd_commit cd) = Some did /\
       b_ops (cd_commit cd) = Some ops /\ made digest [Write action coll rkey v] ops).
End Feed.
