(** The caches of did.py: [@cached(TTLCache(maxsize=CACHE_SIZE, ttl=CACHE_TTL.total_seconds()),
    lock=threading.Lock())] around resolve_plc (did.py:73-75), resolve_web (did.py:453-455) and
    resolve_handle (did.py:485-487). cachetools itself is not in the repository; this follows its
    version 5. Simplified: every call passes the same get_fn, which is part of the key. *)
From Coq Require Import String List NArith ZArith Bool.
From Verif Require Import Base.
Import ListNotations.

(** [CACHE_SIZE] and [CACHE_TTL] in seconds (did.py:42-43). *)
Definition cache_size : N := 5000.
Definition cache_ttl : Z := 21600.

Section Cache.
Variable V : Type.
Variable size : N.
Variable ttl : Z.
(** What the function without its cache gives when it ends at a time. *)
Variable body : str -> Z -> res V.

(** ** [TTLCache] *)

(** The entries, least recently used first. *)
Record entry := Entry { en_key : str; en_value : V; en_expires : Z }.
Definition cache := list entry.
Definition live (t : Z) (e : entry) : bool := (t <? en_expires e)%Z.
Definition has (k : str) (e : entry) : bool := str_eqb k (en_key e).
Definition hasnt (k : str) (e : entry) : bool := negb (has k e).

(** [cache[k]]: an entry that is there becomes the most recently used one, also if it has expired;
    then it is a KeyError. *)
Definition lookup (t : Z) (k : str) (c : cache) : option V * cache :=
  match find (has k) c with
  | Some e => (if live t e then Some (en_value e) else None, filter (hasnt k) c ++ [e])
  | None => (None, c)
  end.
(** [cache[k] = v]: expired entries go, then the least recently used ones until there is room. Time
    does not go back, so that expired entries are those that were set first. *)
Definition set (t : Z) (k : str) (v : V) (c : cache) : cache :=
  let c := filter (hasnt k) (filter (live t) c) in
  skipn (N.to_nat (N.of_nat (length c) + 1 - size)) c ++ [Entry k v (t + ttl)].
(** [cache.setdefault(k, v)]; time stands still meanwhile. *)
Definition setdefault (t : Z) (k : str) (v : V) (c : cache) : V * cache :=
  match lookup t k c with
  | (Some v', c') => (v', c')
  | (None, _) => (v, set t k v c)
  end.

(** ** [cached] *)

(** A call looks into the cache, runs the function and stores its value; the first and the last are
    done while it has the lock. [flight] are the calls that have not returned yet, by thread, with
    the value once there is one. *)
Record state := State { st_cache : cache; flight : list (nat * (str * option V)) }.
Definition init : state := State [] [].
Inductive event := Call (i : nat) (k : str) (t : Z) | Answer (i : nat) (t : Z) | Store (i : nat) (t : Z).
Record outcome := Outcome { oc_thread : nat; oc_key : str; oc_time : Z; oc_result : res V }.

Definition flying (i : nat) (st : state) : option (str * option V) :=
  option_map snd (find (fun p => Nat.eqb i (fst p)) (flight st)).
Definition landed (i : nat) (l : list (nat * (str * option V))) := filter (fun p => negb (Nat.eqb i (fst p))) l.

(** [None]: this cannot happen next. An exception of the function is not stored. *)
Definition step (st : state) (e : event) : option (state * list outcome) :=
  match e with
  | Call i k t =>
      match flying i st with
      | Some _ => None
      | None =>
          match lookup t k (st_cache st) with
          | (Some v, c) => Some (State c (flight st), [Outcome i k t (Ok v)])
          | (None, c) => Some (State c ((i, (k, None)) :: flight st), [])
          end
      end
  | Answer i t =>
      match flying i st with
      | Some (k, None) =>
          match body k t with
          | Ok v => Some (State (st_cache st) ((i, (k, Some v)) :: landed i (flight st)), [])
          | Err x => Some (State (st_cache st) (landed i (flight st)), [Outcome i k t (Err x)])
          end
      | _ => None
      end
  | Store i t =>
      match flying i st with
      | Some (k, Some v) =>
          let '(v', c) := setdefault t k v (st_cache st) in
          Some (State c (landed i (flight st)), [Outcome i k t (Ok v')])
      | _ => None
      end
  end.

Fixpoint run (st : state) (es : list event) : option (state * list outcome) :=
  match es with
  | [] => Some (st, [])
  | e :: r =>
      match step st e with
      | Some (st1, o1) =>
          match run st1 r with
          | Some (st2, o2) => Some (st2, o1 ++ o2)
          | None => None
          end
      | None => None
      end
  end.
End Cache.
Arguments Entry {V}. Arguments State {V}. Arguments Outcome {V}.
Arguments st_cache {V}. Arguments flight {V}. Arguments init {V}.
Arguments oc_thread {V}. Arguments oc_key {V}. Arguments oc_time {V}. Arguments oc_result {V}.
