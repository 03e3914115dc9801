(** Signatures (arroba/util.py:281-362 and the end of [service_jwt], 393-406).

    ECDSA is modelled by its algebra. The points of the curve's group of prime order [n] are given by
    their multiple of the base point, so a public key is the number of its private key, and
    [xc] gives the x coordinate of a point. The library picks the nonce, here it is an argument; it takes
    another one if a signature would have a zero. The DER form of signatures, which the code takes
    apart right away, is left out. *)
From Coq Require Import String List NArith ZArith Bool.
From Verif Require Import Base Ipld.
Import ListNotations.
Local Open Scope Z_scope.

Section Sign.
Variable n : Z.                (* group order of the curve *)
Variable xc : Z -> Z.          (* x coordinates *)
Variable inv : Z -> Z.         (* inverses modulo n *)
Variable hash : list N -> Z.   (* SHA-256, as a number *)

(** ECDSA as in [private_key.sign] and [public_key.verify]. *)
Definition ecdsa_sign (d k z : Z) : option (Z * Z) :=
  let r := xc k mod n in
  let s := (inv k * (z + r * d)) mod n in
  if (k mod n =? 0) || (r =? 0) || (s =? 0) then None else Some (r, s).

Definition ecdsa_verify (q z r s : Z) : bool :=
  (1 <=? r) && (r <? n) && (1 <=? s) && (s <? n) &&
  let p := (inv s * z + inv s * r * q) mod n in
  negb (p =? 0) && (xc p mod n =? r).

(** [apply_low_s_mitigation] (util.py:310-331). *)
Definition low_s (s : Z) : Z := if n / 2 <? s then n - s else s.

(** [x.to_bytes(32, 'big')] and [int.from_bytes(x, 'big')]. *)
Definition to_bytes32 (x : Z) : res (list N) :=
  if (0 <=? x) && (x <? 2 ^ 256) then Ok (be 32 (Z.to_N x)) else Err OverflowError.
Definition from_bytes (b : list N) : Z := Z.of_N (of_be 0 b).

Definition sig_key : str := Base.s "sig".

(** [sign] (util.py:281-302): a new nonce gives a new signature, [None] is an unlucky nonce. *)
Definition sign (d k : Z) (obj : list (str * ipld)) : option (res (list (str * ipld))) :=
  match ecdsa_sign d k (hash (dag_cbor_encode (IMap obj))) with
  | None => None
  | Some (r, s) =>
      Some (do rb <- to_bytes32 r; do sb <- to_bytes32 (low_s s); Ok (dset sig_key (IBytes (rb ++ sb)) obj))
  end.

(** [len(x)]: of text, the number of characters. *)
Definition py_len (v : ipld) : option nat :=
  match v with
  | IBytes b => Some (length b)
  | IText t => Some (length (filter (fun c => negb (N.land c 192 =? 128)%N) t))
  | IList l => Some (length l)
  | IMap m => Some (length m)
  | _ => None
  end.

(** [verify_sig] (util.py:334-362). Simplified: a list of 64 numbers, which [int.from_bytes] takes
    too, is an error. *)
Definition verify_sig (q : Z) (obj : list (str * ipld)) : res bool :=
  match dget sig_key obj with
  | None => Err KeyError
  | Some v =>
      match py_len v with
      | None => Err TypeError
      | Some l =>
          if negb (l =? 64)%nat then Ok false
          else match v with
               | IBytes b => Ok (ecdsa_verify q (hash (dag_cbor_encode (IMap (ddel sig_key obj)))) (from_bytes (firstn 32 b)) (from_bytes (skipn 32 b)))
               | _ => Err TypeError
               end
      end
  end.

(** What [service_jwt] does to the signature of its token (util.py:397-405), given as bytes. *)
Definition jwt_low_s (sig : list N) : res (list N) :=
  do rb <- to_bytes32 (from_bytes (firstn 32 sig)); do sb <- to_bytes32 (low_s (from_bytes (skipn 32 sig))); Ok (rb ++ sb).
End Sign.
