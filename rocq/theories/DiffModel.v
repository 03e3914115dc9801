(** Model of arroba/diff.py and of Walker in arroba/mst.py. *)
From Coq Require Import String List NArith ZArith Bool.
From Verif Require Import Base Ipld MstModel.
Import ListNotations.

(** ** Diff *)

(** [Change] (diff.py:169-173). *)
Record change := Change { ch_key : str; ch_cid : cid; ch_prev : option cid }.

(** [Diff] (diff.py:176-193): three dicts by key and two sets, here lists
    without repetitions. *)
Record diff := Diff {
  df_adds : list (str * change);
  df_updates : list (str * change);
  df_deletes : list (str * change);
  df_new : list cid;
  df_removed : list cid }.

Definition empty_diff : diff := Diff [] [] [] [] [].

(** [x in set], [set.add], [set.remove]. *)
Definition set_in (c : cid) (l : list cid) : bool := existsb (str_eqb c) l.
Definition set_add (c : cid) (l : list cid) : list cid := if set_in c l then l else l ++ [c].
Definition set_remove (c : cid) (l : list cid) : list cid := filter (fun x => negb (str_eqb c x)) l.

(** [record_add], [record_update], [record_delete] (diff.py:206-231). *)
Definition record_add (d : diff) (k : str) (c : cid) : diff :=
  Diff (dset k (Change k c None) (df_adds d)) (df_updates d) (df_deletes d) (set_add c (df_new d)) (df_removed d).
Definition record_update (d : diff) (k : str) (prev c : cid) : diff :=
  Diff (df_adds d) (dset k (Change k c (Some prev)) (df_updates d)) (df_deletes d) (set_add c (df_new d)) (df_removed d).
Definition record_delete (d : diff) (k : str) (c : cid) : diff :=
  Diff (df_adds d) (df_updates d) (dset k (Change k c None) (df_deletes d)) (df_new d) (df_removed d).

(** [record_new_cid], [record_removed_cid] (diff.py:233-251). *)
Definition record_new_cid (d : diff) (c : cid) : diff :=
  if set_in c (df_removed d)
  then Diff (df_adds d) (df_updates d) (df_deletes d) (df_new d) (set_remove c (df_removed d))
  else Diff (df_adds d) (df_updates d) (df_deletes d) (set_add c (df_new d)) (df_removed d).
Definition record_removed_cid (d : diff) (c : cid) : diff :=
  if set_in c (df_new d)
  then Diff (df_adds d) (df_updates d) (df_deletes d) (set_remove c (df_new d)) (df_removed d)
  else Diff (df_adds d) (df_updates d) (df_deletes d) (df_new d) (set_add c (df_removed d)).

(** [dict.pop(key, None)] on each of the dicts. *)
Definition pop_add (d : diff) (k : str) : diff :=
  Diff (ddel k (df_adds d)) (df_updates d) (df_deletes d) (df_new d) (df_removed d).
Definition pop_update (d : diff) (k : str) : diff :=
  Diff (df_adds d) (ddel k (df_updates d)) (df_deletes d) (df_new d) (df_removed d).
Definition pop_delete (d : diff) (k : str) : diff :=
  Diff (df_adds d) (df_updates d) (ddel k (df_deletes d)) (df_new d) (df_removed d).

(** The three loop bodies of [add_diff] (diff.py:258-276). *)
Definition merge_add (d : diff) (a : change) : diff :=
  match dget (ch_key a) (df_deletes d) with
  | Some x =>
      pop_delete (if str_eqb (ch_cid x) (ch_cid a) then d
                  else record_update d (ch_key a) (ch_cid x) (ch_cid a)) (ch_key a)
  | None => record_add d (ch_key a) (ch_cid a)
  end.
(** [update.prev] of an update is never None here. *)
Definition merge_update (d : diff) (u : change) : diff :=
  let d1 := Diff (df_adds d) (dset (ch_key u) (Change (ch_key u) (ch_cid u) (ch_prev u)) (df_updates d))
                 (df_deletes d) (set_add (ch_cid u) (df_new d)) (df_removed d) in
  pop_delete (pop_add d1 (ch_key u)) (ch_key u).
Definition merge_delete (d : diff) (x : change) : diff :=
  match dget (ch_key x) (df_adds d) with
  | Some _ => pop_add d (ch_key x)
  | None => record_delete (pop_update d (ch_key x)) (ch_key x) (ch_cid x)
  end.

(** [add_diff] (diff.py:253-278). *)
Definition add_diff (d e : diff) : diff :=
  let d1 := fold_left merge_add (map snd (df_adds e)) d in
  let d2 := fold_left merge_update (map snd (df_updates e)) d1 in
  let d3 := fold_left merge_delete (map snd (df_deletes e)) d2 in
  Diff (df_adds d3) (df_updates d3) (df_deletes d3) (fold_left (fun l c => set_add c l) (df_new e) (df_new d3)) (df_removed d3).

(** ** Walker *)

(** [WalkStatus] of a walk that is not done (mst.py:1108-1113). *)
Record status := Status { st_cur : entry; st_walking : option mst; st_index : nat }.

(** [Walker] (mst.py:1116-1138); the status is [None] when done. *)
Record walker := Walker { wk_stack : list status; wk_status : option status }.

Definition walker_of (m : mst) : walker := Walker [] (Some (Status (Sub m) None 0)).

Section Walk.
Variable kdigest : str -> list N.
Variable rd : cid -> option ipld.

(** [step_over] (mst.py:1154-1174). *)
Fixpoint step_over_from (stack : list status) (st : status) : res walker :=
  match st_walking st with
  | None => Ok (Walker stack None)
  | Some m =>
      do es <- get_entries kdigest rd m;
      match nth_error es (S (st_index st)) with
      | Some e => Ok (Walker stack (Some (Status e (Some m) (S (st_index st)))))
      | None => match stack with
                | [] => Ok (Walker [] None)
                | st' :: stack' => step_over_from stack' st'
                end
      end
  end.
Definition step_over (w : walker) : res walker :=
  match wk_status w with
  | None => Ok w
  | Some st => step_over_from (wk_stack w) st
  end.

(** [step_into] (mst.py:1176-1213). *)
Definition step_into (w : walker) : res walker :=
  match wk_status w with
  | None => Ok w
  | Some st =>
      match st_walking st, st_cur st with
      | None, Leaf _ _ => Err AssertionError
      | None, Sub m =>
          do es <- get_entries kdigest rd m;
          match es with
          | [] => Ok (Walker (wk_stack w) None)
          | e :: _ => Ok (Walker (wk_stack w) (Some (Status e (Some m) 0)))
          end
      | Some _, Leaf _ _ => Err RuntimeError
      | Some _, Sub m =>
          do es <- get_entries kdigest rd m;
          match es with
          | [] => Err AssertionError
          | e :: _ => Ok (Walker (st :: wk_stack w) (Some (Status e (Some m) 0)))
          end
      end
  end.

(** [advance] (mst.py:1215-1226). *)
Definition advance (w : walker) : res walker :=
  match wk_status w with
  | None => Ok w
  | Some st => match st_cur st with Leaf _ _ => step_over w | Sub _ => step_into w end
  end.

End Walk.

(** [layer] (mst.py:1140-1151). [hint m] is [m.layer or 0]. *)
Definition walker_layer (hint : mst -> Z) (st : status) : res Z :=
  match st_walking st, st_cur st with
  | Some m, _ => Ok (hint m)
  | None, Sub m => Ok (hint m + 1)%Z
  | None, Leaf _ _ => Err RuntimeError
  end.

(** ** mst_diff *)

Section MstDiff.
Variable digest : list N -> list N.
Variable kdigest : str -> list N.

(** The storages of [prev] (left) and [cur] (right). *)
Variable rdl rdr : cid -> option ipld.

(** The [layer] attributes are caches that any earlier call may have filled or not, so they are left
    open: [hint f left m] is the value for a node [m] of the left or right tree when [f] steps of fuel remain. *)
Variable hint : nat -> bool -> mst -> Z.

(** Logging a node or leaf that is only in [cur], or only in [prev]. [node.pointer] is
    up to date since [get_pointer] of both roots is called first (diff.py:27, 31), and that goes
    through all loaded nodes; the model does not write caches back, so it calls get_pointer here. *)
Definition log_new (d : diff) (e : entry) : res diff :=
  match e with
  | Leaf k v => Ok (record_add d k v)
  | Sub m => do p <- get_pointer digest m; Ok (record_new_cid d p)
  end.
Definition log_removed (d : diff) (e : entry) : res diff :=
  match e with
  | Leaf k v => Ok (record_delete d k v)
  | Sub m => do p <- get_pointer digest m; Ok (record_removed_cid d p)
  end.

(** The loop of [mst_diff] (diff.py:36-144). *)
Fixpoint diff_loop (fuel : nat) (l r : walker) (d : diff) : res diff :=
  match fuel with
  | O => Err OutOfFuel
  | S f =>
      match wk_status l, wk_status r with
      | None, None => Ok d
      | None, Some rs => do d' <- log_new d (st_cur rs); do r' <- advance kdigest rdr r; diff_loop f l r' d'
      | Some ls, None => do d' <- log_removed d (st_cur ls); do l' <- advance kdigest rdl l; diff_loop f l' r d'
      | Some ls, Some rs =>
          match st_cur ls, st_cur rs with
          | Leaf lk lv, Leaf rk rv =>
              if str_eqb lk rk then
                let d' := if str_eqb lv rv then d else record_update d lk lv rv in
                do l' <- advance kdigest rdl l; do r' <- advance kdigest rdr r; diff_loop f l' r' d'
              else if str_ltb lk rk then
                do l' <- advance kdigest rdl l; diff_loop f l' r (record_delete d lk lv)
              else
                do r' <- advance kdigest rdr r; diff_loop f l r' (record_add d rk rv)
          | lc, rc =>
              do ll <- walker_layer (hint f true) ls;
              do rl <- walker_layer (hint f false) rs;
              if (rl <? ll)%Z then
                match lc with
                | Leaf _ _ => do d' <- log_new d rc; do r' <- advance kdigest rdr r; diff_loop f l r' d'
                | Sub _ => do d' <- log_removed d lc; do l' <- step_into kdigest rdl l; diff_loop f l' r d'
                end
              else if (ll <? rl)%Z then
                match rc with
                | Leaf _ _ => do d' <- log_removed d lc; do l' <- advance kdigest rdl l; diff_loop f l' r d'
                | Sub _ => do d' <- log_new d rc; do r' <- step_into kdigest rdr r; diff_loop f l r' d'
                end
              else
                match lc, rc with
                | Sub lm, Sub rm =>
                    do lp <- get_pointer digest lm;
                    do rp <- get_pointer digest rm;
                    if str_eqb lp rp then
                      do l' <- step_over kdigest rdl l; do r' <- step_over kdigest rdr r; diff_loop f l' r' d
                    else
                      do l' <- step_into kdigest rdl l; do r' <- step_into kdigest rdr r;
                      diff_loop f l' r' (record_removed_cid (record_new_cid d rp) lp)
                | Leaf _ _, Sub rm =>
                    do d' <- log_new d rc; do r' <- step_into kdigest rdr r; diff_loop f l r' d'
                | Sub lm, Leaf _ _ =>
                    do d' <- log_removed d lc; do l' <- step_into kdigest rdl l; diff_loop f l' r d'
                | Leaf _ _, Leaf _ _ => Err RuntimeError
                end
          end
      end
  end.

(** [null_diff] (diff.py:149-166). *)
Fixpoint null_loop (es : list entry) (d : diff) : res diff :=
  match es with
  | [] => Ok d
  | e :: r => do d' <- log_new d e; null_loop r d'
  end.
Definition null_diff (fuel : nat) (m : mst) : res diff :=
  do w <- walk kdigest rdr fuel m; null_loop w empty_diff.

(** [mst_diff] (diff.py:17-146). *)
Definition mst_diff (fuel : nat) (cur : mst) (prev : option mst) : res diff :=
  do _ <- get_pointer digest cur;
  match prev with
  | None => null_diff fuel cur
  | Some prev =>
      do _ <- get_pointer digest prev;
      diff_loop fuel (walker_of prev) (walker_of cur) empty_diff
  end.

End MstDiff.
