(** Encodings of bytes as text that the DID code uses: base58btc, base32, base64url, and the variable
    length numbers of multicodec. They are those of the libraries multiformats (with [bases]) and
    base64. *)
From Coq Require Import String List NArith ZArith Bool.
From Verif Require Import Base Ipld.
Import ListNotations.
Local Open Scope N_scope.

(** Digits of a number to base [b], most significant first, none for zero. *)
Fixpoint digits_aux (b : N) (fuel : nat) (x : N) (acc : list N) : list N :=
  match fuel with
  | O => acc
  | S f => if x =? 0 then acc else digits_aux b f (x / b) (x mod b :: acc)
  end.
Definition digits (b x : N) : list N := digits_aux b (N.size_nat x) x [].
Definition number (b : N) (l : list N) : N := fold_left (fun a d => a * b + d) l 0.

(** How many times [z] is at the beginning. *)
Fixpoint leading (z : N) (l : list N) : nat :=
  match l with
  | x :: r => if x =? z then S (leading z r) else O
  | [] => O
  end.

Fixpoint index_of (c : N) (l : list N) : option N :=
  match l with
  | [] => None
  | x :: r => if x =? c then Some 0 else match index_of c r with Some i => Some (i + 1) | None => None end
  end.
Definition char_at (alphabet : str) (d : N) : N := nth (N.to_nat d) alphabet 0.

Fixpoint values (alphabet : str) (l : str) : option (list N) :=
  match l with
  | [] => Some []
  | c :: r => match index_of c alphabet, values alphabet r with Some d, Some ds => Some (d :: ds) | _, _ => None end
  end.

(** base58btc: leading zero bytes are written as leading zero digits. *)
Definition alphabet58 : str := s "123456789ABCDEFGHJKLMNPQRSTUVWXYZabcdefghijkmnopqrstuvwxyz".
Definition b58_encode (b : list N) : str :=
  map (char_at alphabet58) (repeat 0 (leading 0 b) ++ digits 58 (number 256 b)).
Definition b58_decode (x : str) : res (list N) :=
  match values alphabet58 x with
  | Some v => Ok (repeat 0 (leading 0 v) ++ digits 256 (number 58 v))
  | None => Err ValueError
  end.

(** Bits, most significant first, in groups. *)
Fixpoint bits (k : nat) (x : N) : list bool :=
  match k with O => [] | S k' => N.testbit x (N.of_nat k') :: bits k' x end.
Fixpoint of_bits (acc : N) (l : list bool) : N :=
  match l with [] => acc | x :: r => of_bits (2 * acc + (if x then 1 else 0)) r end.
(** Groups of [k] bits, the last filled up with zeros. *)
Fixpoint groups (k fuel : nat) (l : list bool) : list N :=
  match fuel with
  | O => []
  | S f => match l with
           | [] => []
           | _ => of_bits 0 (firstn k l ++ repeat false (k - length l)) :: groups k f (skipn k l)
           end
  end.
Definition regroup (k : nat) (b : list N) : list N := let l := flat_map (bits 8) b in groups k (length l) l.

(** [base64.b32encode(x)] and [base64.urlsafe_b64encode(x).rstrip(b'=')], without the padding. *)
Definition alphabet32 : str := s "ABCDEFGHIJKLMNOPQRSTUVWXYZ234567".
Definition alphabet64 : str := s "ABCDEFGHIJKLMNOPQRSTUVWXYZabcdefghijklmnopqrstuvwxyz0123456789-_".
Definition b32_encode (b : list N) : str := map (char_at alphabet32) (regroup 5 b).
Definition b64_encode (b : list N) : str := map (char_at alphabet64) (regroup 6 b).

(** [x.lower()] *)
Definition lower (c : N) : N := if (65 <=? c) && (c <=? 90) then c + 32 else c.

(** [varint.encode] and [varint.decode] of multiformats: at most nine bytes, no more than needed. *)
Fixpoint varint_aux (fuel : nat) (x : N) : list N :=
  match fuel with
  | O => []
  | S f => if x <? 128 then [x] else x mod 128 + 128 :: varint_aux f (x / 128)
  end.
Definition varint (x : N) : list N := varint_aux (S (N.size_nat x)) x.

Fixpoint unvarint (fuel : nat) (shift acc : N) (l : list N) : res (N * list N) :=
  match fuel, l with
  | O, _ | _, [] => Err ValueError
  | S f, c :: r =>
      if c <? 128 then
        if (c =? 0) && negb (shift =? 0) then Err ValueError else Ok (acc + c * 2 ^ shift, r)
      else unvarint f (shift + 7) (acc + (c - 128) * 2 ^ shift) r
  end.
