(** C47: signing and verifying (arroba/util.py:281-406). *)
From Coq Require Import String List NArith ZArith Bool.
From Verif Require Import Base Ipld BlockSpec SignModel SignSpec SignProofs.
Import ListNotations.
Local Open Scope Z_scope.

(** An object without a signature, once signed, passes with the same key. The signature has a low S, and no
    other field has changed. *)
Theorem C47_signed : forall n xc inv hash d k obj r, curve n xc inv -> dget sig_key obj = None ->
  sign n xc inv hash d k obj = Some r ->
  exists obj' rb sb, r = Ok obj' /\ verify_sig n xc inv hash d obj' = Ok true /\
    dget sig_key obj' = Some (IBytes (rb ++ sb)) /\ length rb = 32%nat /\ length sb = 32%nat /\
    0 < from_bytes sb /\ 2 * from_bytes sb <= n /\
    forall key, key <> sig_key -> dget key obj' = dget key obj.
Proof. exact c47_signed. Qed.
Print Assumptions C47_signed.

Example C47_signed_case : curve 7 xc7 inv7 /\ dget sig_key [(Base.s "a", IInt 1)] = None /\
  exists obj', sign 7 xc7 inv7 from_bytes 3 4 [(Base.s "a", IInt 1)] = Some (Ok obj') /\ obj' <> [(Base.s "a", IInt 1)].
Proof. exact c47_case. Qed.

(** Any object with this signature that passes has the same other fields, but for collisions of the hash: it
    has to be the same number modulo the group order, or the one other number for which a signature holds. *)
Theorem C47_changed : forall n xc inv hash d k obj obj' obj2, curve n xc inv ->
  py_value (IMap obj) -> py_value (IMap (ddel sig_key obj2)) ->
  sign n xc inv hash d k obj = Some (Ok obj') ->
  (let x := dag_cbor_encode (IMap obj) in let y := dag_cbor_encode (IMap (ddel sig_key obj2)) in hash x mod n = hash y mod n -> x = y) ->
  dget sig_key obj2 = dget sig_key obj' -> verify_sig n xc inv hash d obj2 = Ok true ->
  py_eq (IMap obj) (IMap (ddel sig_key obj2)) \/
  (hash (dag_cbor_encode (IMap (ddel sig_key obj2))) + hash (dag_cbor_encode (IMap obj)) + 2 * (xc k mod n) * d) mod n = 0.
Proof. exact sign_same. Qed.
Print Assumptions C47_changed.

(** A changed field is noticed here. *)
Example C47_changed_case : exists obj' obj2, sign 7 xc7 inv7 from_bytes 3 4 [(Base.s "a", IInt 1)] = Some (Ok obj') /\
  dget sig_key obj2 = dget sig_key obj' /\ dget (Base.s "a") obj2 = Some (IInt 2) /\ verify_sig 7 xc7 inv7 from_bytes 3 obj2 = Ok false /\
  from_bytes (dag_cbor_encode (IMap [(Base.s "a", IInt 1)])) mod 7 <> from_bytes (dag_cbor_encode (IMap (ddel sig_key obj2))) mod 7.
Proof. exact c47_changed_case. Qed.

(** So with any other key, but for the one key for which the signature happens to hold. *)
Theorem C47_other_key : forall n xc inv hash d k obj obj' q, curve n xc inv -> dget sig_key obj = None ->
  sign n xc inv hash d k obj = Some (Ok obj') -> verify_sig n xc inv hash q obj' = Ok true ->
  q mod n = d mod n \/ (2 * hash (dag_cbor_encode (IMap obj)) + (xc k mod n) * (q + d)) mod n = 0.
Proof. exact (fun n xc inv hash d k obj obj' q C => sign_other_key n xc inv hash C d k obj obj' q). Qed.
Print Assumptions C47_other_key.

(** What fails, fails with False, unless there is no signature or none that could be one. *)
Theorem C47_total : forall n xc inv hash q obj b, dget sig_key obj = Some (IBytes b) ->
  exists v, verify_sig n xc inv hash q obj = Ok v /\ (length b <> 64%nat -> v = false).
Proof. exact c47_total. Qed.
Print Assumptions C47_total.

(** What passes has a signature of 64 bytes that is good for the rest; what has none raises. *)
Theorem C47_accepts : forall n xc inv hash q obj, verify_sig n xc inv hash q obj = Ok true ->
  exists rb sb, dget sig_key obj = Some (IBytes (rb ++ sb)) /\ length rb = 32%nat /\ length sb = 32%nat /\
    ecdsa_verify n xc inv q (hash (dag_cbor_encode (IMap (ddel sig_key obj)))) (from_bytes rb) (from_bytes sb) = true.
Proof. exact c47_accepts. Qed.
Print Assumptions C47_accepts.
Theorem C47_unsigned : forall n xc inv hash q obj, dget sig_key obj = None -> verify_sig n xc inv hash q obj = Err KeyError.
Proof. exact c47_unsigned. Qed.
Print Assumptions C47_unsigned.

(** Full statement, first part: also for objects that have a signature already. It is signed too, but
    not taken into account when verifying. *)
Theorem C47_refuted : exists n xc inv hash d k obj obj', curve n xc inv /\
  sign n xc inv hash d k obj = Some (Ok obj') /\ verify_sig n xc inv hash d obj' = Ok false.
Proof. exact c47_refuted. Qed.
Print Assumptions C47_refuted.

(** Signatures with high S pass as well. *)
Theorem C47_high_s : forall n xc inv q z r s, curve n xc inv -> 0 < r < n -> 0 < s < n ->
  ecdsa_verify n xc inv q z r s = true -> ecdsa_verify n xc inv q z r (n - s) = true.
Proof. exact (fun n xc inv q z r s C => verify_negated n xc inv C q z r s). Qed.
Print Assumptions C47_high_s.

(** The signature of a service token stays valid and gets a low S. *)
Theorem C47_jwt : forall n xc inv q z rb sb, curve n xc inv -> length rb = 32%nat -> length sb = 32%nat ->
  ecdsa_verify n xc inv q z (from_bytes rb) (from_bytes sb) = true ->
  exists rb' sb', jwt_low_s n (rb ++ sb) = Ok (rb' ++ sb') /\ length rb' = 32%nat /\ length sb' = 32%nat /\
    ecdsa_verify n xc inv q z (from_bytes rb') (from_bytes sb') = true /\ from_bytes rb' = from_bytes rb /\ 2 * from_bytes sb' <= n.
Proof. exact jwt_low. Qed.
Print Assumptions C47_jwt.

Example C47_jwt_case : ecdsa_verify 7 xc7 inv7 3 5 (from_bytes (be 32 2)) (from_bytes (be 32 5)) = true /\ jwt_low_s 7 (be 32 2 ++ be 32 5) = Ok (be 32 2 ++ be 32 2).
Proof. exact c47_jwt_case. Qed.
