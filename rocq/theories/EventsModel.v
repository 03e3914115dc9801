(** Reading blocks and events by sequence number (arroba/storage.py:354-425, 724-728 and
    arroba/datastore_storage.py:816-861). *)
From Coq Require Import String List NArith ZArith Bool.
From Verif Require Import Base Ipld StorageModel.
Import ListNotations.

(** ** Blocks by sequence number *)

(** [b.seq >= start and (not repo or b.repo == repo)] (storage.py:726-727, the query in
    datastore_storage.py:830-832). *)
Definition in_range (start : Z) (repo : option str) (b : block) : bool :=
  (start <=? b_seq b)%Z &&
  match repo with
  | Some ((_ :: _) as d) => opt_str_eqb d (b_repo b)
  | _ => true
  end.

(** [sorted(..., key=lambda b: b.seq)] is stable. *)
Fixpoint seq_insert (b : block) (l : list block) : list block :=
  match l with
  | [] => [b]
  | x :: r => if (b_seq b <? b_seq x)%Z then b :: l else x :: seq_insert b r
  end.
Definition seq_sort (l : list block) : list block := fold_left (fun acc b => seq_insert b acc) l [].

(** [MemoryStorage.read_blocks_by_seq] (storage.py:724-728). *)
Definition mem_blocks_by_seq (st : state) (start : Z) (repo : option str) : res (list block) :=
  if (start <? 0)%Z then Err AssertionError
  else Ok (seq_sort (filter (in_range start repo) (map snd (s_blocks st)))).

(** [DatastoreStorage.read_blocks_by_seq] (datastore_storage.py:816-861). [query i cur] are
    the rows of the i-th query, for blocks from [cur] on; the order of rows with the same
    number may differ between queries. [fails] tells after how many rows each query
    dies with a ContextError; the query after those finishes. Other errors, among
    them timeouts, are in StopModel.v. Rows of later queries may be of later storages
    (ScanSpec.v).

    [scan_rows] is the inner loop: current number, CIDs yielded for it, blocks yielded. *)
Fixpoint mem_str (x : str) (l : list str) : bool :=
  match l with [] => false | y :: r => str_eqb x y || mem_str x r end.

Fixpoint scan_rows (cur : Z) (cids : list str) (rows : list block) : Z * list str * list block :=
  match rows with
  | [] => (cur, cids, [])
  | b :: r =>
      let cids1 := if (b_seq b =? cur)%Z then cids else [] in
      if mem_str (b_cid b) cids1 then scan_rows (b_seq b) cids1 r
      else let '(cur', cids', out) := scan_rows (b_seq b) (cids1 ++ [b_cid b]) r in (cur', cids', b :: out)
  end.

Fixpoint scan_loop (query : nat -> Z -> list block) (i : nat) (fails : list nat) (cur : Z) (cids : list str) : list block :=
  match fails with
  | [] => snd (scan_rows cur cids (query i cur))
  | n :: r =>
      let '(cur', cids', out) := scan_rows cur cids (firstn n (query i cur)) in
      out ++ scan_loop query (S i) r cur' cids'
  end.

Definition scan (query : nat -> Z -> list block) (fails : list nat) (start : Z) : res (list block) :=
  if (start <? 0)%Z then Err AssertionError else Ok (scan_loop query 0 fails start []).

(** ** Events *)

(** What [read_events_by_seq] yields: the decoded event, or CommitData. *)
Inductive eitem := EEvent (v : ipld) | ECommit (cd : commit_data).

(** [block.decoded.get('$type', '').startswith('com.atproto.sync.subscribeRepos#')]
    (storage.py:412-413). *)
Definition event_block_value (v : ipld) : res bool :=
  match v with
  | IMap m => match dget (s "$type") m with
              | None => Ok false
              | Some (IText t) => Ok (starts_with nsid_hash t)
              | Some _ => Err AttributeError
              end
  | _ => Err AttributeError
  end.

(** [block.decoded.keys() == set(commit_fields)] (storage.py:418-419). *)
Definition commit_fields : list str := [s "version"; s "did"; s "rev"; s "prev"; s "data"; s "sig"].
Definition commit_keys (v : ipld) : bool :=
  match v with
  | IMap m => forallb (fun k => mem_str k commit_fields) (map fst m) && forallb (fun k => mem_str k (map fst m)) commit_fields
  | _ => false
  end.

(** [make_commit] (storage.py:385-398). Simplified: a tree root that is not stored is an
    error here; Python would put None into the blocks. *)
Fixpoint add_op_blocks (st : state) (blocks : list (cid * block)) (ops : list commit_op) : res (list (cid * block)) :=
  match ops with
  | [] => Ok blocks
  | op :: r =>
      match op_action op, op_cid op with
      | DELETE, _ => add_op_blocks st blocks r
      | _, None => Err AssertionError
      | _, Some c =>
          match dget c blocks with
          | Some _ => add_op_blocks st blocks r
          | None => match read st c with
                    | Some b => add_op_blocks st (dset c b blocks) r
                    | None => Err AssertionError
                    end
          end
      end
  end.

Definition make_commit (st : state) (cb : block) (blocks : list (cid * block)) : res commit_data :=
  match b_ops cb with
  | None => Err TypeError
  | Some ops =>
      do blocks <- add_op_blocks st blocks ops;
      do root <- item_link (s "data") (b_val cb);
      do blocks <- match dget root blocks with
                   | Some _ => Ok blocks
                   | None => match read st root with
                             | Some b => Ok (dset root b blocks)
                             | None => Err (OtherError (s "None block"))
                             end
                   end;
      Ok (CommitData cb blocks (match item_link (s "prev") (b_val cb) with Ok c => Some c | Err _ => None end))
  end.

(** A generator: what it yields, and the exception it ends with. *)
Definition gen := (list eitem * option exn)%type.
Definition yield (i : res eitem) (g : gen) : gen :=
  match i with Ok x => (x :: fst g, snd g) | Err e => ([], Some e) end.
Definition as_commit (r : res commit_data) : res eitem := do cd <- r; Ok (ECommit cd).

(** The loop of [read_events_by_seq] (storage.py:383, 400-425) with its variables seq,
    commit_block and blocks. *)
Fixpoint events_loop (st : state) (seq : option Z) (cb : option block) (blocks : list (cid * block)) (bs : list block) : gen :=
  match bs with
  | [] =>
      match blocks with
      | [] => ([], None)
      | _ => match cb with
             | None => ([], Some AssertionError)
             | Some c => yield (as_commit (make_commit st c blocks)) ([], None)
             end
      end
  | b :: r =>
      if (b_seq b =? 0)%Z then ([], Some AssertionError)
      else
        (* one round after the switch to the number of the block *)
        let body := fun cb blocks =>
          match event_block_value (b_val b) with
          | Err e => ([], Some e)
          | Ok true => yield (Ok (EEvent (b_val b))) (events_loop st (Some (b_seq b)) cb blocks r)
          | Ok false =>
              events_loop st (Some (b_seq b)) (if commit_keys (b_val b) then Some b else cb) (dset (b_cid b) b blocks) r
          end in
        if match seq with Some n => negb (b_seq b =? n)%Z | None => true end then
          match cb with
          | Some c => yield (as_commit (make_commit st c blocks)) (body None [])
          | None => match blocks with [] => body None [] | _ => ([], Some AssertionError) end
          end
        else body cb blocks
  end.

(** [read_events_by_seq] on the blocks that [read_blocks_by_seq] gives. *)
Definition read_events (st : state) (blocks : res (list block)) : gen :=
  match blocks with
  | Err e => ([], Some e)
  | Ok bs => events_loop st None None [] bs
  end.

(** ** Reading and writing blocks *)

(** [has] (storage.py:730-731, datastore_storage.py:863-866). *)
Definition has (st : state) (c : cid) : bool := is_some (read st c).

(** [read_many] (storage.py:715-718, datastore_storage.py:739-747): a dict. *)
Definition read_many (st : state) (cids : list cid) : list (cid * option block) :=
  fold_left (fun d c => dset c (read st c) d) cids [].

(** [read_many_raw] (storage.py:720-722, datastore_storage.py:751-812). MemoryStorage fails if
    a block is missing; DatastoreStorage leaves it out. Here it answers at once, in the order
    of the argument; RawModel.v has the lookups, whose order and deferred keys are up to the datastore. *)
Fixpoint read_many_raw (be : backend) (st : state) (acc : list (cid * (list N * Z))) (cids : list cid)
  : res (list (cid * (list N * Z))) :=
  match cids with
  | [] => Ok acc
  | c :: r =>
      match read st c, be with
      | Some b, _ => read_many_raw be st (dset c (encode (b_val b), b_seq b) acc) r
      | None, Memory => Err AttributeError
      | None, Datastore => read_many_raw be st acc r
      end
  end.

(** Uses of the block store: [write], with or without a sequence number (storage.py:733-739,
    datastore_storage.py:868-873), [write_blocks], and another allocation of a number. *)
Inductive bop :=
| BWrite (did : option str) (v : ipld) (seq : option Z)
| BWriteBlocks (bs : list block)
| BAllocate.

Local Open Scope m_scope.
Section Write.
Variable digest : list N -> list N.
Variable be : backend.

Definition write_value (did : option str) (v : ipld) (seq : option Z) : M block :=
  let! n := match seq with Some n => ret n | None => allocate_seq end in
  write_obj digest be did v n.

Definition bstep (st : state) (o : bop) : state * res (option block) :=
  match o with
  | BWrite did v seq => (let! b := write_value did v seq in ret (Some b)) st
  | BWriteBlocks bs => (write_blocks bs;; ret None) st
  | BAllocate => (let! n := allocate_seq in ret None) st
  end.

Fixpoint brun (st : state) (ops : list bop) : state :=
  match ops with [] => st | o :: r => brun (fst (bstep st o)) r end.
End Write.
