(** The algebra behind ECDSA. *)
From Coq Require Import List NArith ZArith Znumtheory Bool.
From Verif Require Import Base Ipld.
Import ListNotations.
Local Open Scope Z_scope.

(** A group of prime order that fits into 32 bytes. Inverses are inverses, and two points other than zero
    have the same x coordinate modulo [n] exactly when they are equal or opposite. On actual curves
    the last holds but for points whose x coordinates differ by the order, which no one has found. *)
Record curve (n : Z) (xc inv : Z -> Z) : Prop := {
  c_prime : prime n;
  c_odd : 2 < n;
  c_size : n <= 2 ^ 256;
  c_inv : forall a, a mod n <> 0 -> (a * inv a) mod n = 1;
  c_x : forall a b, a mod n <> 0 -> b mod n <> 0 -> (xc a mod n = xc b mod n <-> a mod n = b mod n \/ (a + b) mod n = 0) }.
