(** What a receiver of a service token does with it. *)
From Coq Require Import String List NArith ZArith Bool.
From Verif Require Import Base Ipld MstModel CodecModel SignModel JwtModel.
Import ListNotations.
Local Open Scope Z_scope.

(** The three parts of [tok] decode to [hd], [payload] and a signature in 64 bytes with numbers [r] and [t],
    which the key [q] verifies for the text [x] of the first two parts. *)
Definition received (n : Z) (xc inv : Z -> Z) (hash : list N -> Z) (q : Z) (tok : str) (hd payload : list N) (x : str) (r t : Z) : Prop :=
  exists h p g rb sb, split_on 46 tok = [h; p; g] /\ x = h ++ s "." ++ p /\ b64_decode h = Ok hd /\ b64_decode p = Ok payload /\
    b64_decode g = Ok (rb ++ sb) /\ length rb = 32%nat /\ length sb = 32%nat /\ from_bytes rb = r /\ from_bytes sb = t /\
    ecdsa_verify n xc inv q (hash x) r t = true.
