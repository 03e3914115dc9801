(** A consumer of the firehose that keeps copies of the repos, with nothing to go by but the messages.
    It is not part of arroba; it does what a relay or an AppView is expected to do. *)
From Coq Require Import String List NArith ZArith Bool.
From Verif Require Import Base Lists Ipld MstModel CarModel StorageModel StorageSpec RepoSpec EventsModel MessageModel MessageSpec.
Import ListNotations.

(** The tree root and the records of a repo, so far. *)
Record copy := Copy { cp_root : cid; cp_recs : records }.
Definition copies := list (str * copy).

Section Replica.
Variable digest : list N -> list N.
Variable kdigest : str -> list N.

(** One op with the blocks of the message: the record has to be among them, and the previous
    record has to be the one that is there. *)
Definition take_op (bl : list (cid * list N)) (d : records) (op : ipld) : option records :=
  match op with
  | IMap m =>
      match dget (s "path") m, dget (s "action") m with
      | Some (IText p), Some (IText a) =>
          let record := match dget (s "cid") m with Some (ILink c) => car_reader bl c | _ => None end in
          let fits := match dget (s "prev") m, dget p d with Some (ILink q), Some old => str_eqb q (cid_of digest old) | _, _ => false end in
          if str_eqb a (s "create") then
            match dget p d, record with None, Some v => Some (dset p v d) | _, _ => None end
          else if str_eqb a (s "update") then
            match record with Some v => if fits then Some (dset p v d) else None | None => None end
          else if str_eqb a (s "delete") then if fits then Some (ddel p d) else None
          else None
      | _, _ => None
      end
  | _ => None
  end.
Fixpoint take_ops (bl : list (cid * list N)) (d : records) (ops : list ipld) : option records :=
  match ops with
  | [] => Some d
  | op :: r => match take_op bl d op with Some d' => take_ops bl d' r | None => None end
  end.

(** At the path of the op the tree under [root] has the record of [d]; shown by the blocks [bl]. *)
Definition proved (bl : list (cid * list N)) (root : cid) (d : records) (op : ipld) : bool :=
  match item_text (s "path") op with
  | Ok p => match get kdigest (car_reader bl) max_depth (mst_load root) p with
            | Ok c => match c, option_map (cid_of digest) (dget p d) with
                      | Some x, Some y => str_eqb x y
                      | None, None => true
                      | _, _ => false
                      end
            | Err _ => false
            end
  | Err _ => false
  end.

(** The copy that a commit applies to: none if the message has no prevData, the one at hand if its root is
    prevData. *)
Definition base_copy (cs : copies) (did : str) (prev_data : option ipld) : option records :=
  match prev_data with
  | None => Some []
  | Some (ILink p) => match dget did cs with
                      | Some cp => if str_eqb p (cp_root cp) then Some (cp_recs cp) else None
                      | None => None
                      end
  | Some _ => None
  end.

(** A message: None if anything about a commit is wrong, no change if it is not a commit. *)
Definition take (cs : copies) (msg : message_parts) : option copies :=
  let '(header, payload) := msg in
  match dget (s "t") header with
  | Some (IText t) =>
      if negb (str_eqb t (s "#commit")) then Some cs
      else match dget (s "repo") payload, dget (s "commit") payload, dget (s "ops") payload, dget (s "blocks") payload with
           | Some (IText did), Some (ILink c), Some (IList ops), Some (IBytes car) =>
               match read_car car with
               | Some ([r], bl) =>
                   if str_eqb r c && forallb (fun kx => str_eqb (fst kx) ([1; 113; 18; 32]%N ++ digest (snd kx))) bl then
                     match car_reader bl c with
                     | Some v =>
                         match item_text (s "did") v, item_link (s "data") v, base_copy cs did (dget (s "prevData") payload) with
                         | Ok d', Ok root, Some recs =>
                             match take_ops bl recs ops with
                             | Some recs' => if str_eqb d' did && forallb (proved bl root recs') ops
                                             then Some (dset did (Copy root recs') cs) else None
                             | None => None
                             end
                         | _, _, _ => None
                         end
                     | None => None
                     end
                   else None
               | _ => None
               end
           | _, _, _, _ => None
           end
  | _ => None
  end.
Fixpoint take_all (cs : copies) (msgs : list message_parts) : option copies :=
  match msgs with
  | [] => Some cs
  | m :: r => match take cs m with Some cs' => take_all cs' r | None => None end
  end.
End Replica.

(** The copies have what the repos of the storage have: for every repo of the book the tree root of
    its stored head and its records, as they are stored, and nothing else. *)
Definition copied (be : backend) (st : state) (bk : book) (cs : copies) : Prop :=
  forall did, match dget did bk with
  | Some (_, recs) => exists cp o h, dget did cs = Some cp /\ seen be st did = Some o /\ r_head o = Some h /\
      item_link (s "data") (b_val h) = Ok (cp_root cp) /\ NoDup (keys (cp_recs cp)) /\
      forall p, dget p (cp_recs cp) = option_map norm (dget p recs)
  | None => dget did cs = None
  end.
