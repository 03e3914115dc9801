(** Model of arroba/mst.py: Merkle search trees. *)
From Coq Require Import String List NArith ZArith Bool.
From Verif Require Import Base Ipld.
Import ListNotations.
Open Scope res_scope.

(** An [MST] object (arroba/mst.py:83-97) with its lazily loaded [entries], cached
    [pointer], [layer] hint and [outdated_pointer] flag, and its entries, which
    are [Leaf] tuples (mst.py:77-80) or subtrees. The [storage] attribute is the
    [rd] argument of the functions below.

    Python fills caches in place ([entries] in get_entries, [pointer] in
    get_pointer, [layer] in get_layer). The model does not write them back,
    except where the filled value is copied to another object: add,
    append_merge and create_child call get_layer before new_tree, and there the
    model sets the layer explicitly. Recomputing gives the same values. *)
Inductive mst :=
| Mst (entries : option (list entry)) (pointer : option cid) (layer : option Z) (outdated : bool)
with entry :=
| Leaf (k : str) (v : cid)
| Sub (m : mst).

Definition m_pointer (m : mst) : option cid := match m with Mst _ p _ _ => p end.
Definition m_layer (m : mst) : option Z := match m with Mst _ _ l _ => l end.
Definition set_layer (m : mst) (l : Z) : mst := match m with Mst e p _ o => Mst e p (Some l) o end.

(** ** Keys *)

(** Character class of [_VALID_KEY_RE] (mst.py:63): [[a-zA-Z0-9_\-:.]]. *)
Definition key_char (c : N) : bool :=
  ((97 <=? c) && (c <=? 122) || (65 <=? c) && (c <=? 90) || (48 <=? c) && (c <=? 57)
   || (c =? 95) || (c =? 45) || (c =? 58) || (c =? 46))%N.

(** Python's [x.split(sep)] for a one character separator. *)
Fixpoint split_on (sep : N) (x : str) : list str :=
  match x with
  | [] => [[]]
  | c :: x' =>
      if N.eqb c sep then [] :: split_on sep x'
      else match split_on sep x' with
           | [] => [[c]]
           | seg :: segs => (c :: seg) :: segs
           end
  end.

Definition nonempty {A} (l : list A) : bool := match l with [] => false | _ => true end.

(** [ensure_valid_key] (mst.py:1089-1105), as a boolean. [len(key)] counts
    characters, here bytes: the two agree on every key whose characters pass. *)
Definition valid_key (key : str) : bool :=
  match split_on 47 key with
  | [a; b] => Nat.leb (length key) 256 && nonempty a && nonempty b
              && forallb key_char a && forallb key_char b
  | _ => false
  end.

Definition ensure_valid_key (key : str) : res unit :=
  if valid_key key then Ok tt else Err ValueError.

Section Mst.

(** SHA-256, once as the CID hash, once as the key hash. Parameters. *)
Variable digest : list N -> list N.
Variable kdigest : str -> list N.

(** [leading_zeros_on_hash] (mst.py:952-977), on the digest bytes. *)
Fixpoint zeros_of_digest (d : list N) : nat :=
  match d with
  | [] => 0
  | b :: d' =>
      (if N.ltb b 64 then 1 else 0) + (if N.ltb b 16 then 1 else 0)
      + (if N.ltb b 4 then 1 else 0)
      + (if N.eqb b 0 then 1 + zeros_of_digest d' else 0)
  end.

Definition leading_zeros_on_hash (key : str) : Z := Z.of_nat (zeros_of_digest (kdigest key)).

(** ** Node data *)

(** [Entry] and [Data] (mst.py:65-75). *)
Record edata := Edata { ed_p : nat; ed_k : str; ed_v : cid; ed_t : option cid }.
Record ndata := Ndata { nd_l : option cid; nd_e : list edata }.

Definition link_opt (c : option cid) : ipld := match c with Some c => ILink c | None => INull end.

(** [data._asdict()] with its entry dicts (mst.py:277, 1054-1059, 1086), keys in
    canonical DAG-CBOR order. *)
Definition edata_ipld (e : edata) : ipld :=
  IMap [(s "k", IBytes (ed_k e)); (s "p", IInt (Z.of_nat (ed_p e)));
        (s "t", link_opt (ed_t e)); (s "v", ILink (ed_v e))].
Definition ndata_ipld (d : ndata) : ipld :=
  IMap [(s "e", IList (map edata_ipld (nd_e d))); (s "l", link_opt (nd_l d))].

Definition opt_link (v : ipld) : res (option cid) :=
  match v with
  | ILink c => Ok (Some c)
  | INull => Ok None
  | _ => Err TypeError
  end.

(** [Entry( **e )] and [Data( **decoded )] (mst.py:179, 834, 902, 905, 1011).
    Simplified: any shape other than the exact dicts is a TypeError. *)
Definition ipld_edata (v : ipld) : res edata :=
  match v with
  | IMap m =>
      match Nat.eqb (length m) 4, dget (s "p") m, dget (s "k") m, dget (s "v") m, dget (s "t") m with
      | true, Some (IInt p), Some (IBytes k), Some (ILink c), Some t =>
          if (p <? 0)%Z then Err TypeError
          else do t' <- opt_link t; Ok (Edata (Z.to_nat p) k c t')
      | _, _, _, _, _ => Err TypeError
      end
  | _ => Err TypeError
  end.

Fixpoint mapM {A B} (f : A -> res B) (l : list A) : res (list B) :=
  match l with
  | [] => Ok []
  | a :: l' => do b <- f a; do bs <- mapM f l'; Ok (b :: bs)
  end.

Definition ipld_ndata (v : ipld) : res ndata :=
  match v with
  | IMap m =>
      match Nat.eqb (length m) 2, dget (s "l") m, dget (s "e") m with
      | true, Some l, Some (IList es) =>
          do l' <- opt_link l; do es' <- mapM ipld_edata es; Ok (Ndata l' es')
      | _, _, _ => Err TypeError
      end
  | _ => Err TypeError
  end.

(** [common_prefix_len] (mst.py:1066-1075). *)
Fixpoint common_prefix_len (a b : str) : nat :=
  match a, b with
  | x :: a', y :: b' => if N.eqb x y then S (common_prefix_len a' b') else 0
  | _, _ => 0
  end.

(** Entries with subtrees replaced by their pointers: what serialization sees. *)
Inductive pentry := PLeaf (k : str) (v : cid) | PSub (c : cid).

(** Loop of [serialize_node_data] (mst.py:1039-1061). *)
Fixpoint ser_entries (last_key : str) (es : list pentry) : res (list edata) :=
  match es with
  | [] => Ok []
  | PSub _ :: _ => Err ValueError
  | PLeaf k v :: rest =>
      match rest with
      | PSub c :: rest' =>
          do _ <- ensure_valid_key k;
          do r <- ser_entries k rest';
          let p := common_prefix_len last_key k in
          Ok (Edata p (skipn p k) v (Some c) :: r)
      | _ =>
          do _ <- ensure_valid_key k;
          do r <- ser_entries k rest;
          let p := common_prefix_len last_key k in
          Ok (Edata p (skipn p k) v None :: r)
      end
  end.

(** [serialize_node_data] (mst.py:1023-1063). *)
Definition serialize_node_data (es : list pentry) : res ndata :=
  match es with
  | PSub c :: rest => do e <- ser_entries [] rest; Ok (Ndata (Some c) e)
  | _ => do e <- ser_entries [] es; Ok (Ndata None e)
  end.

(** [cid_for_entries] (mst.py:1078-1086), given the entries' pointers. *)
Definition cid_for_pentries (es : list pentry) : res cid :=
  do d <- serialize_node_data es; Ok (cid_of digest (ndata_ipld d)).

(** Loop of [deserialize_node_data] (mst.py:1009-1018). *)
Fixpoint deser_entries (layer : option Z) (last_key : str) (es : list edata) : list entry :=
  match es with
  | [] => []
  | e :: es' =>
      let key := firstn (ed_p e) last_key ++ ed_k e in
      Leaf key (ed_v e) ::
      match ed_t e with
      | Some c => [Sub (Mst None (Some c) layer false)]
      | None => []
      end ++ deser_entries layer key es'
  end.

(** [deserialize_node_data] (mst.py:993-1020). *)
Definition deserialize_node_data (d : ndata) (layer : option Z) : list entry :=
  let child := match layer with Some l => Some (l - 1)%Z | None => None end in
  match nd_l d with
  | Some c => [Sub (Mst None (Some c) child false)]
  | None => []
  end ++ deser_entries child [] (nd_e d).

(** ** Getters *)

(** [storage.read(cid).decoded]; [None] when there is no such block. *)
Variable rd : cid -> option ipld.

(** [get_entries] (mst.py:167-188). *)
Definition get_entries (m : mst) : res (list entry) :=
  match m with
  | Mst (Some es) _ _ _ => Ok es
  | Mst None (Some p) _ _ =>
      match rd p with
      | None => Err AttributeError
      | Some v =>
          do d <- ipld_ndata v;
          let layer := match nd_e d with
                       | [] => None
                       | e :: _ => Some (leading_zeros_on_hash (ed_k e))
                       end in
          Ok (deserialize_node_data d layer)
      end
  | Mst None None _ _ => Err RuntimeError
  end.

(** [get_pointer] (mst.py:190-215). A subtree of a node just loaded from storage
    has a pointer, so only nodes with [entries] set recurse. A missing pointer
    would be returned as None; no constructor leaves it unset. *)
Fixpoint get_pointer (m : mst) : res cid :=
  match m with
  | Mst oes p _ outdated =>
      if outdated then
        match oes with
        | Some es =>
            do pes <-
              (fix go (es : list entry) : res (list pentry) :=
                 match es with
                 | [] => Ok []
                 | Leaf k v :: r => do r' <- go r; Ok (PLeaf k v :: r')
                 | Sub m' :: r => do c <- get_pointer m'; do r' <- go r; Ok (PSub c :: r')
                 end) es;
            cid_for_pentries pes
        | None => match p with Some c => Ok c | None => Err RuntimeError end
        end
      else match p with Some c => Ok c | None => Err RuntimeError end
  end.

Fixpoint pentries (es : list entry) : res (list pentry) :=
  match es with
  | [] => Ok []
  | Leaf k v :: r => do r' <- pentries r; Ok (PLeaf k v :: r')
  | Sub m' :: r => do c <- get_pointer m'; do r' <- pentries r; Ok (PSub c :: r')
  end.

Definition cid_for_entries (es : list entry) : res cid :=
  do pes <- pentries es; cid_for_pentries pes.

(** [layer_for_entries] (mst.py:980-990). *)
Fixpoint layer_for_entries (es : list entry) : option Z :=
  match es with
  | [] => None
  | Leaf k _ :: _ => Some (leading_zeros_on_hash k)
  | Sub _ :: r => layer_for_entries r
  end.

(** [attempt_get_layer] (mst.py:235-257). *)
Fixpoint attempt_get_layer (fuel : nat) (m : mst) : res (option Z) :=
  match fuel with
  | O => Err OutOfFuel
  | S f =>
      match m_layer m with
      | Some l => Ok (Some l)
      | None =>
          do es <- get_entries m;
          match layer_for_entries es with
          | Some l => Ok (Some l)
          | None =>
              (fix go (es : list entry) : res (option Z) :=
                 match es with
                 | [] => Ok None
                 | Leaf _ _ :: r => go r
                 | Sub m' :: r =>
                     do l <- attempt_get_layer f m';
                     match l with
                     | Some l => Ok (Some (l + 1)%Z)
                     | None => go r
                     end
                 end) es
          end
      end
  end.

(** [get_layer] (mst.py:217-233). *)
Definition get_layer (fuel : nat) (m : mst) : res Z :=
  do l <- attempt_get_layer fuel m;
  Ok (match l with Some l => l | None => 0%Z end).

(** ** Construction *)

(** [MST.load] (mst.py:116-118). *)
Definition mst_load (c : cid) : mst := Mst None (Some c) None false.

(** [MST.create] (mst.py:120-135). *)
Definition mst_create (es : list entry) (layer : option Z) : res mst :=
  do p <- cid_for_entries es; Ok (Mst (Some es) (Some p) layer false).

(** [new_tree] (mst.py:149-161). *)
Definition new_tree (m : mst) (es : list entry) : mst :=
  match m with Mst _ p l _ => Mst (Some es) p l true end.

Definition mark_outdated (m : mst) : mst := match m with Mst e p l _ => Mst e p l true end.

(** [create_child] (mst.py:645-651). *)
Definition create_child (fuel : nat) (m : mst) : res mst :=
  do l <- get_layer fuel m; mst_create [] (Some (l - 1)%Z).

(** [create_parent] (mst.py:653-661). *)
Definition create_parent (fuel : nat) (m : mst) : res mst :=
  do l <- get_layer fuel m;
  do p <- mst_create [Sub m] (Some (l + 1)%Z);
  Ok (mark_outdated p).

(** ** Finding and slicing *)

(** [find_gt_or_equal_leaf_index] (mst.py:667-682), on the entries. *)
Fixpoint find_index (key : str) (es : list entry) : nat :=
  match es with
  | [] => 0
  | Leaf k _ :: r => if str_leb key k then 0 else S (find_index key r)
  | Sub _ :: r => S (find_index key r)
  end.

(** [at_index(index)] and [at_index(index - 1)] (mst.py:505-516). *)
Definition at_index (es : list entry) (i : nat) : option entry := nth_error es i.
Definition at_prev (es : list entry) (i : nat) : option entry :=
  match i with O => None | S j => nth_error es j end.

Definition opt_sub (m : option mst) : list entry :=
  match m with Some m => [Sub m] | None => [] end.

(** [update_entry], [remove_entry], [splice_in], [replace_with_split]
    (mst.py:459-481, 530-561). *)
Definition update_entry (m : mst) (es : list entry) (i : nat) (e : entry) : mst :=
  new_tree m (firstn i es ++ [e] ++ skipn (S i) es).
Definition remove_entry (m : mst) (es : list entry) (i : nat) : mst :=
  new_tree m (firstn i es ++ skipn (S i) es).
Definition splice_in (m : mst) (es : list entry) (e : entry) (i : nat) : mst :=
  new_tree m (firstn i es ++ [e] ++ skipn i es).
Definition replace_with_split (m : mst) (es : list entry) (i : nat)
    (left : option mst) (leaf : entry) (right : option mst) : mst :=
  new_tree m (firstn i es ++ opt_sub left ++ [leaf] ++ opt_sub right ++ skipn (S i) es).

(** ** Splits and merges *)

(** [split_around] (mst.py:582-612). [left.append], [right.prepend] (483-503)
    and [left.remove_entry] only rebuild the entry list of a new tree. *)
Fixpoint split_around (fuel : nat) (m : mst) (key : str) : res (option mst * option mst) :=
  match fuel with
  | O => Err OutOfFuel
  | S f =>
      do es <- get_entries m;
      let i := find_index key es in
      let left := firstn i es in
      let right := skipn i es in
      do lr <-
        match at_prev es i with
        | Some (Sub last) =>
            do sp <- split_around f last key;
            Ok (firstn (i - 1) es ++ opt_sub (fst sp), opt_sub (snd sp) ++ right)
        | _ => Ok (left, right)
        end;
      Ok (if nonempty (fst lr) then Some (new_tree m (fst lr)) else None,
          if nonempty (snd lr) then Some (new_tree m (snd lr)) else None)
  end.

(** [append_merge] (mst.py:614-639). *)
Fixpoint append_merge (fuel : nat) (m to_merge : mst) : res mst :=
  match fuel with
  | O => Err OutOfFuel
  | S f =>
      do l1 <- get_layer (S f) m;
      do l2 <- get_layer (S f) to_merge;
      if (l1 =? l2)%Z then
        let m := set_layer m l1 in
        do es1 <- get_entries m;
        do es2 <- get_entries to_merge;
        match at_prev es1 (length es1), es2 with
        | None, _ => Err IndexError
        | _, [] => Err IndexError
        | Some (Sub a), Sub b :: es2' =>
            do merged <- append_merge f a b;
            Ok (new_tree m (firstn (length es1 - 1) es1 ++ [Sub merged] ++ es2'))
        | _, _ => Ok (new_tree m (es1 ++ es2))
        end
      else Err AssertionError
  end.

(** ** Map operations *)

(** The loop of add that wraps a split half in structural parents
    (mst.py:344-348). *)
Fixpoint wrap_parents (fuel : nat) (k : nat) (m : option mst) : res (option mst) :=
  match k, m with
  | O, _ => Ok m
  | S _, None => Ok None
  | S k', Some m' => do p <- create_parent fuel m'; wrap_parents fuel k' (Some p)
  end.

(** [add] (mst.py:287-359). *)
Fixpoint add (fuel : nat) (m : mst) (key : str) (value : cid) (known_zeros : option Z) : res mst :=
  match fuel with
  | O => Err OutOfFuel
  | S f =>
      do _ <- ensure_valid_key key;
      let key_zeros := match known_zeros with
                       | Some z => if (z =? 0)%Z then leading_zeros_on_hash key else z
                       | None => leading_zeros_on_hash key
                       end in
      do layer <- get_layer (S f) m;
      let m := set_layer m layer in
      let new_leaf := Leaf key value in
      if (key_zeros =? layer)%Z then
        do es <- get_entries m;
        let i := find_index key es in
        let splice :=
          match at_prev es i with
          | Some (Sub prev) =>
              do sp <- split_around f prev key;
              Ok (replace_with_split m es (i - 1) (fst sp) new_leaf (snd sp))
          | _ => Ok (splice_in m es new_leaf i)
          end in
        match at_index es i with
        | Some (Leaf k _) => if str_eqb k key then Err ValueError else splice
        | _ => splice
        end
      else if (key_zeros <? layer)%Z then
        do es <- get_entries m;
        let i := find_index key es in
        match at_prev es i with
        | Some (Sub prev) =>
            do sub <- add f prev key value (Some key_zeros);
            Ok (update_entry m es (i - 1) (Sub sub))
        | _ =>
            do child <- create_child (S f) m;
            do sub <- add f child key value (Some key_zeros);
            Ok (splice_in m es (Sub sub) i)
        end
      else
        do sp <- split_around (S f) m key;
        let extra := Z.to_nat (key_zeros - layer - 1) in
        do lft <- wrap_parents (S f) extra (fst sp);
        do rgt <- wrap_parents (S f) extra (snd sp);
        do root <- mst_create (opt_sub lft ++ [new_leaf] ++ opt_sub rgt) (Some key_zeros);
        Ok (mark_outdated root)
  end.

(** [get] (mst.py:361-377). *)
Fixpoint get (fuel : nat) (m : mst) (key : str) : res (option cid) :=
  match fuel with
  | O => Err OutOfFuel
  | S f =>
      do es <- get_entries m;
      let i := find_index key es in
      let descend := match at_prev es i with
                     | Some (Sub prev) => get f prev key
                     | _ => Ok None
                     end in
      match at_index es i with
      | Some (Leaf k v) => if str_eqb k key then Ok (Some v) else descend
      | _ => descend
      end
  end.

(** [update] (mst.py:379-404). *)
Fixpoint update (fuel : nat) (m : mst) (key : str) (value : cid) : res mst :=
  match fuel with
  | O => Err OutOfFuel
  | S f =>
      do _ <- ensure_valid_key key;
      do es <- get_entries m;
      let i := find_index key es in
      let descend := match at_prev es i with
                     | Some (Sub prev) =>
                         do sub <- update f prev key value;
                         Ok (update_entry m es (i - 1) (Sub sub))
                     | _ => Err KeyError
                     end in
      match at_index es i with
      | Some (Leaf k _) =>
          if str_eqb k key then Ok (update_entry m es i (Leaf key value)) else descend
      | _ => descend
      end
  end.

(** [delete_recurse] (mst.py:420-453). *)
Fixpoint delete_recurse (fuel : nat) (m : mst) (key : str) : res mst :=
  match fuel with
  | O => Err OutOfFuel
  | S f =>
      do es <- get_entries m;
      let i := find_index key es in
      let descend := match at_prev es i with
                     | Some (Sub prev) =>
                         do sub <- delete_recurse f prev key;
                         do ses <- get_entries sub;
                         if nonempty ses then Ok (update_entry m es (i - 1) (Sub sub))
                         else Ok (remove_entry m es (i - 1))
                     | _ => Err KeyError
                     end in
      match at_index es i with
      | Some (Leaf k _) =>
          if str_eqb k key then
            match at_prev es i, at_index es (S i) with
            | Some (Sub prev), Some (Sub next) =>
                do merged <- append_merge f prev next;
                Ok (new_tree m (firstn (i - 1) es ++ [Sub merged] ++ skipn (i + 2) es))
            | _, _ => Ok (remove_entry m es i)
            end
          else descend
      | _ => descend
      end
  end.

(** [trim_top] (mst.py:563-576). *)
Fixpoint trim_top (fuel : nat) (m : mst) : res mst :=
  match fuel with
  | O => Err OutOfFuel
  | S f =>
      do es <- get_entries m;
      match es with
      | [Sub m'] => trim_top f m'
      | _ => Ok m
      end
  end.

(** [delete] (mst.py:406-418). *)
Definition delete (fuel : nat) (m : mst) (key : str) : res mst :=
  do m' <- delete_recurse fuel m key; trim_top fuel m'.

(** ** Traversal *)

(** [walk] (mst.py:757-770): nodes and leaves in depth first order. *)
Fixpoint walk (fuel : nat) (m : mst) : res (list entry) :=
  match fuel with
  | O => Err OutOfFuel
  | S f =>
      do es <- get_entries m;
      do sub <-
        (fix go (es : list entry) : res (list entry) :=
           match es with
           | [] => Ok []
           | Leaf k v :: r => do r' <- go r; Ok (Leaf k v :: r')
           | Sub m' :: r => do a <- walk f m'; do r' <- go r; Ok (a ++ r')
           end) es;
      Ok (Sub m :: sub)
  end.

Fixpoint only_leaves (es : list entry) : list (str * cid) :=
  match es with
  | [] => []
  | Leaf k v :: r => (k, v) :: only_leaves r
  | Sub _ :: r => only_leaves r
  end.

(** [leaves] (mst.py:780-786). *)
Definition mst_leaves (fuel : nat) (m : mst) : res (list (str * cid)) :=
  do w <- walk fuel m; Ok (only_leaves w).

(** [walk_leaves_from] (mst.py:688-713), as the full list it generates. *)
Fixpoint walk_leaves_from (fuel : nat) (m : mst) (key : str) : res (list (str * cid)) :=
  match fuel with
  | O => Err OutOfFuel
  | S f =>
      do es <- get_entries m;
      let i := find_index key es in
      do before <- match at_prev es i with
                   | Some (Sub prev) => walk_leaves_from f prev key
                   | _ => Ok []
                   end;
      do after <-
        (fix go (es : list entry) : res (list (str * cid)) :=
           match es with
           | [] => Ok []
           | Leaf k v :: r => do r' <- go r; Ok ((k, v) :: r')
           | Sub m' :: r => do a <- walk_leaves_from f m' key; do r' <- go r; Ok (a ++ r')
           end) (skipn i es);
      Ok (before ++ after)
  end.

(** Loop of [list] (mst.py:727-732). [after] and [before] are None or a string;
    an empty [before] counts as missing. *)
Fixpoint list_loop (after before : option str) (ls : list (str * cid)) : list (str * cid) :=
  match ls with
  | [] => []
  | (k, v) :: r =>
      if match after with Some a => str_eqb k a | None => false end then list_loop after before r
      else if match before with
              | Some b => nonempty b && str_leb b k
              | None => false
              end then []
      else (k, v) :: list_loop after before r
  end.

(** [list] (mst.py:715-734). *)
Definition mst_list (fuel : nat) (m : mst) (after before : option str) : res (list (str * cid)) :=
  do ls <- walk_leaves_from fuel m (match after with Some a => a | None => [] end);
  Ok (list_loop after before ls).

Fixpoint prefix_loop (p : str) (ls : list (str * cid)) : list (str * cid) :=
  match ls with
  | [] => []
  | (k, v) :: r => if starts_with p k then (k, v) :: prefix_loop p r else []
  end.

(** [list_with_prefix] (mst.py:736-752). *)
Definition list_with_prefix (fuel : nat) (m : mst) (p : str) : res (list (str * cid)) :=
  do ls <- walk_leaves_from fuel m p; Ok (prefix_loop p ls).

(** [cids_for_path] (mst.py:849-869). *)
Fixpoint cids_for_path (fuel : nat) (m : mst) (key : str) : res (list cid) :=
  match fuel with
  | O => Err OutOfFuel
  | S f =>
      do c <- get_pointer m;
      do es <- get_entries m;
      let i := find_index key es in
      let descend := match at_prev es i with
                     | Some (Sub prev) => do r <- cids_for_path f prev key; Ok (c :: r)
                     | _ => Ok [c]
                     end in
      match at_index es i with
      | Some (Leaf k v) => if str_eqb k key then Ok [c; v] else descend
      | _ => descend
      end
  end.

(** ** Persistence *)

(** [get_unstored_blocks] (mst.py:263-285): the root pointer and the blocks, a
    dict from CID to the node's decoded value. [storage.has] is [rd] succeeding. *)
Fixpoint get_unstored_blocks (fuel : nat) (m : mst) : res (cid * list (cid * ipld)) :=
  match fuel with
  | O => Err OutOfFuel
  | S f =>
      do p <- get_pointer m;
      match rd p with
      | Some _ => Ok (p, [])
      | None =>
          do es <- get_entries m;
          do pes <- pentries es;
          do d <- serialize_node_data pes;
          let v := ndata_ipld d in
          do bs <-
            (fix go (es : list entry) (acc : list (cid * ipld)) : res (list (cid * ipld)) :=
               match es with
               | [] => Ok acc
               | Leaf _ _ :: r => go r acc
               | Sub m' :: r =>
                   do pb <- get_unstored_blocks f m';
                   go r (fold_left (fun d kv => dset (fst kv) (snd kv) d) (snd pb) acc)
               end) es [(cid_of digest v, v)];
          Ok (p, bs)
      end
  end.

End Mst.

(** Fuel used for whole trees. A 32 byte hash has at most 128 leading zero bit
    pairs, so no tree built by the API is deeper than 129 nodes. *)
Definition max_depth : nat := 130.
