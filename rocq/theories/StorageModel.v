(** Repos and block storage (arroba/repo.py, arroba/storage.py and the repo part of
    arroba/datastore_storage.py).

    Python objects of class Repo live on a heap and are passed by reference, since
    commit changes the object of the caller and, with MemoryStorage, the object that
    the storage itself holds. Code that can raise is written in a state and exception
    monad: effects before the exception remain.

    Simplified: a dict is kept in canonical key order (Python's [==] on dicts ignores
    the order); the time of a Block and the created and rotation_key attributes of a
    Repo are left out; there is one NSID, so one sequence. *)
From Coq Require Import String List NArith ZArith Bool.
From Verif Require Import Base Ipld MstModel MstClient TidModel BlockModel CarModel.
Import ListNotations.

(** ** Data *)

(** [Action] (storage.py:35-42), [Write] (repo.py:28-33), [CommitOp] and [CommitData]
    (storage.py:46-57). *)
Inductive action := CREATE | UPDATE | DELETE.

Record write := Write { w_action : action; w_collection : str; w_rkey : str; w_record : option ipld }.

Record commit_op := CommitOp { op_action : action; op_path : str; op_cid : option cid; op_prev : option cid }.

(** [Block] (storage.py:72-142) with all its lazy attributes. *)
Record block := Block { b_cid : cid; b_val : ipld; b_seq : Z; b_ops : option (list commit_op); b_repo : option str }.

Record commit_data := CommitData { cd_commit : block; cd_blocks : list (cid * block); cd_prev : option cid }.

(** [Repo] (repo.py:36-108). The key is a name for the private key; callback is only
    whether there is one. *)
Record repo := Repo {
  r_mst : mst;
  r_head : option block;
  r_handle : option str;
  r_status : option str;
  r_callback : bool;
  r_key : N
}.

(** [AtpRepo] (datastore_storage.py:75-121). *)
Record entity := Entity { e_handle : option str; e_head : cid; e_status : option str; e_key : N }.

(** What callbacks are called with (repo.py:50-56). *)
Inductive message := MCommit (cd : commit_data) | MEvent (v : ipld).
Inductive call := CData (m : message) | CLost (seq : Z).

(** The two storages. *)
Inductive backend := Memory | Datastore.

(** [s_mem] is MemoryStorage.repos with references; [s_ents] are the AtpRepo entities
    in key order; [s_calls] lists the callback calls so far, last first. *)
Record state := State {
  s_next : Z;
  s_blocks : list (cid * block);
  s_objs : list repo;
  s_mem : list (str * nat);
  s_ents : list (str * entity);
  s_calls : list call
}.

Definition init_state : state := State 1 [] [] [] [] [].

(** ** The monad *)

Definition M (A : Type) := state -> state * res A.
Definition ret {A} (a : A) : M A := fun st => (st, Ok a).
Definition throw {A} (e : exn) : M A := fun st => (st, Err e).
Definition bindM {A B} (m : M A) (f : A -> M B) : M B :=
  fun st => match m st with
            | (st', Ok a) => f a st'
            | (st', Err e) => (st', Err e)
            end.
Definition lift {A} (r : res A) : M A := fun st => (st, r).
Definition reads {A} (f : state -> A) : M A := fun st => (st, Ok (f st)).
Definition modify (f : state -> state) : M unit := fun st => (f st, Ok tt).
Definition assert (b : bool) : M unit := if b then ret tt else throw AssertionError.
(** [try: m except BaseException: h; raise] *)
Definition on_exception {A} (m : M A) (h : M unit) : M A :=
  fun st => match m st with
            | (st', Ok a) => (st', Ok a)
            | (st', Err e) => match h st' with
                              | (st'', Ok _) => (st'', Err e)
                              | (st'', Err e') => (st'', Err e')
                              end
            end.

Declare Scope m_scope.
Notation "'let!' x := m 'in' f" := (bindM m (fun x => f))
  (at level 200, x pattern, m at level 100, f at level 200) : m_scope.
Notation "m ;; f" := (bindM m (fun _ => f)) (at level 100, right associativity) : m_scope.
Local Open Scope m_scope.

Definition set_next (z : Z) (st : state) := State z (s_blocks st) (s_objs st) (s_mem st) (s_ents st) (s_calls st).
Definition set_blocks (b : list (cid * block)) (st : state) :=
  State (s_next st) b (s_objs st) (s_mem st) (s_ents st) (s_calls st).
Definition set_objs (o : list repo) (st : state) :=
  State (s_next st) (s_blocks st) o (s_mem st) (s_ents st) (s_calls st).
Definition set_mem (m : list (str * nat)) (st : state) :=
  State (s_next st) (s_blocks st) (s_objs st) m (s_ents st) (s_calls st).
Definition set_ents (e : list (str * entity)) (st : state) :=
  State (s_next st) (s_blocks st) (s_objs st) (s_mem st) e (s_calls st).
Definition add_call (c : call) (st : state) :=
  State (s_next st) (s_blocks st) (s_objs st) (s_mem st) (s_ents st) (c :: s_calls st).

(** ** Objects *)

Fixpoint replace_nth {A} (n : nat) (a : A) (l : list A) : list A :=
  match n, l with
  | _, [] => []
  | O, _ :: r => a :: r
  | S n', x :: r => x :: replace_nth n' a r
  end.

(** Dereferencing; there are no dangling references in Python. *)
Definition obj (r : nat) : M repo :=
  fun st => match nth_error (s_objs st) r with
            | Some o => (st, Ok o)
            | None => (st, Err (OtherError (s "dangling reference")))
            end.
Definition new_obj (o : repo) : M nat :=
  fun st => (set_objs (s_objs st ++ [o]) st, Ok (length (s_objs st))).
Definition put_obj (r : nat) (o : repo) : M unit := modify (fun st => set_objs (replace_nth r o (s_objs st)) st).

Definition with_mst (m : mst) (o : repo) := Repo m (r_head o) (r_handle o) (r_status o) (r_callback o) (r_key o).
Definition with_head (h : option block) (o : repo) :=
  Repo (r_mst o) h (r_handle o) (r_status o) (r_callback o) (r_key o).
Definition with_status (x : option str) (o : repo) :=
  Repo (r_mst o) (r_head o) (r_handle o) x (r_callback o) (r_key o).
Definition with_callback (x : bool) (o : repo) :=
  Repo (r_mst o) (r_head o) (r_handle o) (r_status o) x (r_key o).

Definition set_attr (r : nat) (f : repo -> repo) : M unit := let! o := obj r in put_obj r (f o).

(** Item of a decoded block, [block.decoded[name]]. *)
Definition item (name : str) (v : ipld) : res ipld :=
  match v with
  | IMap m => match dget name m with Some x => Ok x | None => Err KeyError end
  | _ => Err TypeError
  end.
Definition item_text (name : str) (v : ipld) : res str :=
  do x <- item name v; match x with IText t => Ok t | _ => Err TypeError end.
Definition item_link (name : str) (v : ipld) : res cid :=
  do x <- item name v; match x with ILink c => Ok c | _ => Err TypeError end.

(** [Repo.did] (repo.py:100-103). *)
Definition repo_did (o : repo) : res (option str) :=
  match r_head o with
  | None => Ok None
  | Some h => do d <- item_text (s "did") (b_val h); Ok (Some d)
  end.

Definition opt_str_eqb (x : str) (y : option str) : bool :=
  match y with Some y' => str_eqb x y' | None => false end.

Definition is_some {A} (x : option A) : bool := match x with Some _ => true | None => false end.

(** Entities are kept in key order. *)
Fixpoint ent_put (k : str) (e : entity) (l : list (str * entity)) : list (str * entity) :=
  match l with
  | [] => [(k, e)]
  | (k', e') :: r =>
      match str_cmp k k' with
      | Lt => (k, e) :: l
      | Eq => (k, e) :: r
      | Gt => (k', e') :: ent_put k e r
      end
  end.

Section Storage.
Variable digest : list N -> list N.
Variable kdigest : str -> list N.
(** [server.validate] on a record, lexrpc (storage.py:571). *)
Variable validate : ipld -> res unit.
(** ECDSA over SHA-256 with low S: key, randomness, message (util.py:300-302). *)
Variable ecdsa : N -> Z -> list N -> list N.
(** [webutil.util.now().isoformat()] at the time of the event with this number. *)
Variable now : Z -> str.
(** Whether the n-th call of a callback raises. *)
Variable cb : nat -> option exn.
Variable be : backend.

(** A block made from a decoded object, [Block(decoded=v, ...)] (storage.py:97-123). *)
Definition mk_block (v : ipld) (repo : option str) (seq : Z) (ops : option (list commit_op)) : block :=
  Block (cid_of digest (norm v)) (norm v) seq ops repo.

(** [Storage.read] (storage.py:712-713, datastore_storage.py:732-737). *)
Definition read (st : state) (c : cid) : option block := dget c (s_blocks st).

(** What the MST sees of the storage: [storage.read(cid).decoded]. *)
Definition vals (bl : list (cid * block)) : list (cid * ipld) := map (fun cb => (fst cb, b_val (snd cb))) bl.
Definition rd (st : state) : cid -> option ipld := fun c : str => dget c (vals (s_blocks st)).

(** [Sequences.allocate] (storage.py:656-661). *)
Definition allocate_seq : M Z := fun st => (set_next (s_next st + 1) st, Ok (s_next st)).

(** [if repo.callback: repo.callback(...)] *)
Definition callback (r : nat) (c : call) : M unit :=
  let! o := obj r in
  if r_callback o then
    fun st => (add_call c st, match cb (length (s_calls st)) with Some e => Err e | None => Ok tt end)
  else ret tt.

(** [write_blocks] (storage.py:741-743, datastore_storage.py:877-884). Simplified: if
    several of the given blocks have the same CID then the first counts, as in
    MemoryStorage; callers never give DatastoreStorage such a list. *)
Definition write_blocks (bs : list block) : M unit :=
  modify (fun st => set_blocks (fold_left dsetdefault (map (fun b => (b_cid b, b)) bs) (s_blocks st)) st).

(** [write] with a sequence number (storage.py:733-739; datastore_storage.py:868-873,
    154-179). MemoryStorage returns the new Block object, DatastoreStorage the
    stored one. *)
Definition write_obj (did : option str) (v : ipld) (seq : Z) : M block :=
  let b := mk_block v did seq None in
  match be with
  | Memory => assert (truthy v);; write_blocks [b];; ret b
  | Datastore =>
      assert (0 <? seq)%Z;;
      write_blocks [b];;
      let! stored := reads (fun st => read st (b_cid b)) in
      match stored with
      | Some x => assert (b_seq x <=? seq)%Z;; ret x
      | None => throw KeyError
      end
  end.

(** ** Loading and storing repos *)

(** [Repo.load] (repo.py:178-195). *)
Definition repo_load (c : cid) (handle status : option str) (key : N) : M nat :=
  let! b := reads (fun st => read st c) in
  match b with
  | None => throw AttributeError
  | Some b =>
      let! data := lift (item_link (s "data") (b_val b)) in
      new_obj (Repo (mst_load data) (Some b) handle status false key)
  end.

(** [MemoryStorage.load_repo] (storage.py:691-696): the first repo object whose DID
    or handle matches. *)
Fixpoint mem_find (x : str) (l : list (str * nat)) : M (option nat) :=
  match l with
  | [] => ret None
  | (_, r) :: l' =>
      let! o := obj r in
      let! d := lift (repo_did o) in
      if opt_str_eqb x d || opt_str_eqb x (r_handle o) then ret (Some r) else mem_find x l'
  end.

(** [DatastoreStorage.load_repo] (datastore_storage.py:664-680): by key, then the
    first in key order by handle. *)
Definition ent_find (x : str) (l : list (str * entity)) : option (str * entity) :=
  match dget x l with
  | Some e => Some (x, e)
  | None => find (fun ke => opt_str_eqb x (e_handle (snd ke))) l
  end.

Definition load_repo (x : str) : M (option nat) :=
  assert (nonempty x);;
  match be with
  | Memory => let! l := reads s_mem in mem_find x l
  | Datastore =>
      let! e := reads (fun st => ent_find x (s_ents st)) in
      match e with
      | None => ret None
      | Some (_, e) => let! r := repo_load (e_head e) (e_handle e) (e_status e) (e_key e) in ret (Some r)
      end
  end.

Definition need_did (o : repo) : M str :=
  let! d := lift (repo_did o) in
  match d with Some d => ret d | None => throw AssertionError end.

(** [create_repo] (storage.py:688-689, datastore_storage.py:636-662). *)
Definition create_repo (r : nat) : M unit :=
  let! o := obj r in
  let! d := need_did o in
  match be with
  | Memory => modify (fun st => set_mem (dset d r (s_mem st)) st)
  | Datastore =>
      match r_head o with
      | None => throw AssertionError
      | Some h =>
          modify (fun st => set_ents (ent_put d (Entity (r_handle o) (b_cid h) (r_status o) (r_key o)) (s_ents st)) st)
      end
  end.

(** [store_repo] (storage.py:698-699, datastore_storage.py:720-730). *)
Definition store_repo (r : nat) : M unit :=
  let! o := obj r in
  let! d := need_did o in
  match be with
  | Memory => modify (fun st => set_mem (dset d r (s_mem st)) st)
  | Datastore =>
      let! e := reads (fun st => dget d (s_ents st)) in
      match e, r_head o with
      | Some e, Some h =>
          modify (fun st => set_ents (ent_put d (Entity (r_handle o) (b_cid h) (r_status o) (e_key e)) (s_ents st)) st)
      | _, _ => throw AttributeError
      end
  end.

(** [_set_repo_status] (storage.py:709-710, datastore_storage.py:708-718). *)
Definition set_repo_status (r : nat) (x : option str) : M unit :=
  set_attr r (with_status x);;
  match be with
  | Memory => ret tt
  | Datastore =>
      let! o := obj r in
      let! d := lift (repo_did o) in
      let! e := reads (fun st => match d with Some d => dget d (s_ents st) | None => None end) in
      match d, e with
      | Some d, Some e =>
          modify (fun st => set_ents (ent_put d (Entity (e_handle e) (e_head e) x (e_key e)) (s_ents st)) st)
      | _, _ => throw AttributeError
      end
  end.

(** ** Commits *)

Definition max_record_size : N := 1000000.
Definition max_operations : N := 200.

(** One round of the loop in [_commit] (storage.py:554-602), on the object [r]. The
    accumulators are commit_blocks and ops. *)
Definition path_of (w : write) : str := w_collection w ++ 47%N :: w_rkey w.

Definition commit_write (r : nat) (did : str) (seq : Z) (acc : list (cid * block) * list commit_op) (w : write)
  : M (list (cid * block) * list commit_op) :=
  let '(blocks, ops) := acc in
  let path := path_of w in
  let! prev :=
    match w_action w with
    | CREATE => ret None
    | _ =>
        let! o := obj r in
        let! v := (fun st => (st, get kdigest (rd st) max_depth (r_mst o) path)) in
        match v with
        | None => throw ValueError
        | Some v => if nonempty v then ret (Some v) else throw ValueError
        end
    end in
  match w_action w with
  | DELETE =>
      let! o := obj r in
      let! m := (fun st => (st, delete kdigest (rd st) max_depth (r_mst o) path)) in
      set_attr r (with_mst m);;
      ret (blocks, ops ++ [CommitOp DELETE path None prev])
  | a =>
      match w_record w with
      | None => throw AssertionError
      | Some v =>
          (match v with IMap _ => ret tt | _ => throw AttributeError end);;
          lift (validate v);;
          assert (truthy v);;
          let b := mk_block v (Some did) seq None in
          (if (max_record_size <? len (encode (b_val b)))%N then throw ValueError else ret tt);;
          let blocks := dset (b_cid b) b blocks in
          let op := CommitOp a path (Some (b_cid b)) prev in
          let! o := obj r in
          match a with
          | CREATE =>
              let! m := (fun st => (st, add digest kdigest (rd st) max_depth (r_mst o) path (b_cid b) None)) in
              set_attr r (with_mst m);;
              ret (blocks, ops ++ [op])
          | _ =>
              let! orig := lift (get_pointer digest (r_mst o)) in
              let! m := (fun st => (st, update kdigest (rd st) max_depth (r_mst o) path (b_cid b))) in
              set_attr r (with_mst m);;
              let! pointer := lift (get_pointer digest m) in
              ret (blocks, if str_eqb pointer orig then ops else ops ++ [op])
          end
      end
  end.

Fixpoint foldM {A B} (f : A -> B -> M A) (acc : A) (l : list B) : M A :=
  match l with
  | [] => ret acc
  | x :: r => let! acc' := f acc x in foldM f acc' r
  end.

(** [util.sign] (util.py:281-302) of a commit without a sig. *)
Definition sign (key : N) (nonce : Z) (m : list (str * ipld)) : list (str * ipld) :=
  m ++ [(s "sig", IBytes (ecdsa key nonce (dag_cbor_encode (IMap m))))].

Definition unsigned_commit (did rev : str) (prev : option cid) (data : cid) : list (str * ipld) :=
  [(s "did", IText did); (s "version", IInt 3); (s "rev", IText rev); (s "prev", link_opt prev); (s "data", ILink data)].

(** First part of [_commit] (storage.py:528-549): the DID, the object to work on and
    prev. [first] is the repo_did argument. *)
Definition commit_target (r0 : nat) (first : option str) : M (str * nat * option cid) :=
  let! o0 := obj r0 in
  (if is_some (r_status o0) then throw InactiveRepo else ret tt);;
  match first with
  | Some ((_ :: _) as d) =>
      match r_head o0 with
      | Some h =>
          let! hd := lift (item_text (s "did") (b_val h)) in
          assert (str_eqb hd d);;
          let! p := lift (item (s "prev") (b_val h)) in
          assert (negb (truthy p));;
          set_attr r0 (with_head None)
      | None => ret tt
      end;;
      ret (d, r0, None)
  | _ =>
      let! d := need_did o0 in
      let! x := load_repo d in
      match x with
      | None => throw AttributeError
      | Some r =>
          let! o := obj r in
          match r_head o with
          | None => throw AttributeError
          | Some h => ret (d, r, Some (b_cid h))
          end
      end
  end.

(** The commit object (storage.py:613-623). *)
Definition commit_value (key : N) (seq : Z) (did rev : str) (prev : option cid) (root : cid) : ipld :=
  IMap (sign key seq (unsigned_commit did rev prev root)).

(** [commit_blocks.update(unstored_blocks)] (storage.py:607-610). *)
Definition add_nodes (did : str) (seq : Z) (unstored : list (cid * ipld)) (blocks : list (cid * block)) :=
  fold_left (fun d cv => dset (fst cv) (Block (fst cv) (snd cv) seq None (Some did)) d) unstored blocks.

(** The rest of [_commit] after the loop (storage.py:604-644). *)
Definition commit_finish (r0 r : nat) (did : str) (prev : option cid) (seq : Z)
  (bo : list (cid * block) * list commit_op) : M commit_data :=
  let! o := obj r in
  let! ru := (fun st => (st, get_unstored_blocks digest kdigest (rd st) max_depth (r_mst o))) in
  let! rev := lift (int_to_tid seq 0) in
  let cblock := mk_block (commit_value (r_key o) seq did rev prev (fst ru)) (Some did) seq (Some (snd bo)) in
  let blocks := dset (b_cid cblock) cblock (add_nodes did seq (snd ru) (fst bo)) in
  write_blocks (map snd blocks);;
  (if is_some (r_head o) then set_attr r (with_head (Some cblock));; store_repo r else ret tt);;
  set_attr r0 (with_mst (r_mst o));;
  set_attr r0 (with_head (Some cblock));;
  ret (CommitData cblock blocks prev).

(** [_commit] (storage.py:526-644). *)
Definition commit_ (r0 : nat) (ws : list write) (seq : Z) (first : option str) : M commit_data :=
  assert (negb (seq =? 0)%Z);;
  let! drp := commit_target r0 first in
  let '(did, r, prev) := drp in
  (if (max_operations <? len ws)%N then throw ValueError else ret tt);;
  let! bo := foldM (commit_write r did seq) ([], []) ws in
  commit_finish r0 r did prev seq bo.

(** [commit] (storage.py:495-524). *)
Definition commit (r : nat) (ws : list write) (first : option str) : M commit_data :=
  let! seq := allocate_seq in
  on_exception
    (let! cd := commit_ r ws seq first in
     callback r (CData (MCommit cd));;
     ret cd)
    (callback r (CLost seq)).

(** ** Events *)

Definition nsid_hash : str := s "com.atproto.sync.subscribeRepos#".
Definition opt_text (x : option str) : ipld := match x with Some t => IText t | None => INull end.

Definition event (type : str) (seq : Z) (did : option str) (extra : list (str * ipld)) : ipld :=
  IMap ([(s "$type", IText (nsid_hash ++ type)); (s "seq", IInt seq); (s "did", opt_text did);
         (s "time", IText (now seq))] ++ extra).

(** [write_event] (storage.py:456-483). *)
Definition write_event (r : nat) (type : str) (extra : list (str * ipld)) : M block :=
  let! seq := allocate_seq in
  let! o := obj r in
  let! d := lift (repo_did o) in
  let! b := write_obj d (event type seq d extra) seq in
  callback r (CData (MEvent (b_val b)));;
  ret b.

(** [deactivate_repo], [activate_repo], [tombstone_repo] (storage.py:256-308). *)
Definition deactivate_repo (r : nat) : M unit :=
  set_repo_status r (Some (s "deactivated"));;
  write_event r (s "account") [(s "active", IBool false); (s "status", IText (s "deactivated"))];;
  ret tt.
Definition activate_repo (r : nat) : M unit :=
  set_repo_status r None;;
  write_event r (s "account") [(s "active", IBool true)];;
  ret tt.
Definition tombstone_repo (r : nat) : M unit :=
  set_repo_status r (Some (s "tombstoned"));;
  write_event r (s "tombstone") [];;
  ret tt.

(** [Repo.create] (repo.py:139-176). *)
Definition repo_create (did : str) (handle status : option str) (has_callback : bool) (key : N) : M nat :=
  let! m := lift (mst_create digest [] None) in
  let! r := new_obj (Repo m None handle status has_callback key) in
  let! cd := commit r [] (Some did) in
  let! o := obj r in
  let! _ := need_did o in
  write_event r (s "identity") [(s "handle", opt_text handle)];;
  write_event r (s "account") [(s "active", IBool true)];;
  let c := cd_commit cd in
  let! rev := lift (item (s "rev") (b_val c)) in
  write_event r (s "sync") [(s "blocks", IBytes (write_car [b_cid c] [(b_cid c, encode (b_val c))])); (s "rev", rev)];;
  create_repo r;;
  callback r (CData (MCommit cd));;
  ret r.

(** ** Reading *)

(** [Repo.get_record] (repo.py:110-122). *)
Definition get_record (st : state) (o : repo) (collection rkey : str) : res (option ipld) :=
  do c <- get kdigest (rd st) max_depth (r_mst o) (collection ++ 47%N :: rkey);
  match c with
  | None => Ok None
  | Some c =>
      if nonempty c then
        match read st c with
        | Some b => Ok (Some (b_val b))
        | None => Err AttributeError
        end
      else Ok None
  end.

(** Loop of [Repo.get_contents] (repo.py:124-137). *)
Fixpoint contents_loop (st : state) (acc : list (str * list (str * ipld))) (es : list (str * cid))
  : res (list (str * list (str * ipld))) :=
  match es with
  | [] => Ok acc
  | (k, c) :: r =>
      match split_on 47%N k with
      | [collection; rkey] =>
          match read st c with
          | Some b =>
              let d := match dget collection acc with Some d => d | None => [] end in
              contents_loop st (dset collection (dset rkey (b_val b) d) acc) r
          | None => Err AttributeError
          end
      | _ => Err ValueError
      end
  end.
Definition get_contents (st : state) (o : repo) : res (list (str * list (str * ipld))) :=
  do es <- mst_list kdigest (rd st) max_depth (r_mst o) None None;
  contents_loop st [] es.

(** ** Histories *)

(** A caller holds references to repos; [h] are positions in the list of the
    references it has received so far. [SLoadAt] is [Repo.load(storage, repo.head.cid)],
    [SCallback] sets the callback attribute. *)
Inductive sop :=
| SCreate (did : str) (handle status : option str) (has_callback : bool) (key : N)
| SLoad (did_or_handle : str)
| SLoadAt (h : nat) (key : N)
| SCallback (h : nat) (has_callback : bool)
| SCommit (h : nat) (ws : list write)
| SDeactivate (h : nat)
| SActivate (h : nat)
| STombstone (h : nat).

Inductive sout :=
| OutRepo
| OutNone
| OutDone
| OutCommit (cd : commit_data).

Record world := World { w_state : state; w_refs : list nat }.

Definition on_ref (w : world) (h : nat) (f : nat -> M sout) : world * res sout :=
  match nth_error (w_refs w) h with
  | Some r => let '(st, out) := f r (w_state w) in (World st (w_refs w), out)
  | None => (w, Err (OtherError (s "no such reference")))
  end.

Definition on_new (w : world) (m : M (option nat)) : world * res sout :=
  match m (w_state w) with
  | (st, Ok (Some r)) => (World st (w_refs w ++ [r]), Ok OutRepo)
  | (st, Ok None) => (World st (w_refs w), Ok OutNone)
  | (st, Err e) => (World st (w_refs w), Err e)
  end.

Definition sstep (w : world) (o : sop) : world * res sout :=
  match o with
  | SCreate did handle status has_callback key =>
      on_new w (let! r := repo_create did handle status has_callback key in ret (Some r))
  | SLoad x => on_new w (load_repo x)
  | SLoadAt h key =>
      match nth_error (w_refs w) h with
      | Some r => on_new w (let! o := obj r in
                            match r_head o with
                            | Some b => let! r' := repo_load (b_cid b) None None key in ret (Some r')
                            | None => throw AttributeError
                            end)
      | None => (w, Err (OtherError (s "no such reference")))
      end
  | SCallback h x => on_ref w h (fun r => set_attr r (with_callback x);; ret OutDone)
  | SCommit h ws => on_ref w h (fun r => let! cd := commit r ws None in ret (OutCommit cd))
  | SDeactivate h => on_ref w h (fun r => deactivate_repo r;; ret OutDone)
  | SActivate h => on_ref w h (fun r => activate_repo r;; ret OutDone)
  | STombstone h => on_ref w h (fun r => tombstone_repo r;; ret OutDone)
  end.

Fixpoint srun (w : world) (ops : list sop) : world * list (res sout) :=
  match ops with
  | [] => (w, [])
  | o :: r => let '(w1, out) := sstep w o in let '(w2, outs) := srun w1 r in (w2, out :: outs)
  end.

Definition init_world : world := World init_state [].

End Storage.
