(** Bytes written as text, said with arithmetic. *)
From Coq Require Import String List NArith ZArith Bool.
From Verif Require Import Base Ipld.
Import ListNotations.
Local Open Scope N_scope.

(** The number with the digits [l] to base [b], most significant first. *)
Fixpoint poly (b : N) (l : list N) : N :=
  match l with
  | [] => 0
  | x :: r => x * b ^ N.of_nat (length r) + poly b r
  end.

Definition between (a b c : N) : bool := (a <=? c) && (c <=? b).
(** Digits, capitals and small letters, without 0, I, O and l (base58btc). *)
Definition base58_value (c : N) : option N :=
  if between 49 57 c then Some (c - 49)
  else if between 65 72 c then Some (c - 65 + 9)
  else if between 74 78 c then Some (c - 74 + 17)
  else if between 80 90 c then Some (c - 80 + 22)
  else if between 97 107 c then Some (c - 97 + 33)
  else if between 109 122 c then Some (c - 109 + 44)
  else None.
(** RFC 4648 section 5 *)
Definition base64url_value (c : N) : option N :=
  if between 65 90 c then Some (c - 65)
  else if between 97 122 c then Some (c - 97 + 26)
  else if between 48 57 c then Some (c - 48 + 52)
  else if c =? 45 then Some 62
  else if c =? 95 then Some 63
  else None.
(** RFC 4648 section 6, in small letters *)
Definition base32_value (c : N) : option N :=
  if between 97 122 c then Some (c - 97)
  else if between 50 55 c then Some (c - 50 + 26)
  else None.

(** [text] has the bits of [bytes], [k] in each character, filled up with less than [k] zeros. *)
Definition spells (k : N) (value : N -> option N) (text : str) (bytes : list N) : Prop :=
  exists ds pad, map value text = map Some ds /\ pad < k /\ k * len ds = 8 * len bytes + pad /\ poly (2 ^ k) ds = poly 256 bytes * 2 ^ pad.
