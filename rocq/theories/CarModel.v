(** CAR v1 files, as written by carbox.car.write_car and read by carbox.car.read_car
    (called in arroba/repo.py:168-169, firehose.py:415, xrpc_sync.py:64, 186, 226 and
    xrpc_repo.py:212). carbox is an external library; this is the format of
    https://ipld.io/specs/transport/car/carv1/ that it implements. *)
From Coq Require Import String List NArith ZArith Bool.
From Verif Require Import Base Ipld.
Import ListNotations.
Local Open Scope N_scope.

(** Unsigned LEB128. The fuel is the number of bits. *)
Fixpoint varint_loop (fuel : nat) (n : N) : list N :=
  match fuel with
  | O => [n]
  | S f => if n <? 128 then [n] else (128 + n mod 128) :: varint_loop f (n / 128)
  end.
Definition varint (n : N) : list N := varint_loop (N.to_nat (N.size n)) n.

Fixpoint read_varint (l : list N) : option (N * list N) :=
  match l with
  | [] => None
  | b :: r =>
      if b <? 128 then Some (b, r)
      else match read_varint r with
           | Some (n, r') => Some ((b - 128) + 128 * n, r')
           | None => None
           end
  end.

Definition frame (x : list N) : list N := varint (len x) ++ x.

(** A block is its CID and its bytes. *)
Definition write_car (roots : list cid) (blocks : list (cid * list N)) : list N :=
  frame (dag_cbor_encode (IMap [(s "version", IInt 1); (s "roots", IList (map ILink roots))]))
  ++ flat_map (fun b => frame (fst b ++ snd b)) blocks.

(** CIDs are CIDv1 dag-cbor sha2-256: 4 bytes of prefix and 32 of digest. *)
Definition cid_length : nat := 36.

Fixpoint read_frames (fuel : nat) (l : list N) : option (list (list N)) :=
  match fuel with
  | O => None
  | S f =>
      match l with
      | [] => Some []
      | _ =>
          match read_varint l with
          | Some (n, r) =>
              match takeN n r with
              | Some (x, r') => match read_frames f r' with
                                | Some xs => Some (x :: xs)
                                | None => None
                                end
              | None => None
              end
          | None => None
          end
      end
  end.

Definition links (v : ipld) : option (list cid) :=
  match v with
  | IList l => fold_right (fun x acc => match x, acc with
                                        | ILink c, Some r => Some (c :: r)
                                        | _, _ => None
                                        end) (Some []) l
  | _ => None
  end.

Definition read_car (l : list N) : option (list cid * list (cid * list N)) :=
  match read_frames (S (length l)) l with
  | Some (h :: bs) =>
      match decode h with
      | Some (IMap m) =>
          match dget (s "roots") m with
          | Some r => match links r with
                      | Some roots => Some (roots, map (fun b => (firstn cid_length b, skipn cid_length b)) bs)
                      | None => None
                      end
          | None => None
          end
      | _ => None
      end
  | _ => None
  end.
