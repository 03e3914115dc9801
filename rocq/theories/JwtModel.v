(** Service tokens ([service_jwt], arroba/util.py:365-406).

    JSON is an oracle: [dumps] gives the bytes of a dictionary, [header] the bytes of the header that PyJWT
    writes. Times are in microseconds since 1970; the timestamp, a float in Python, is exact. Checks PyJWT does
    on the types of claims are left out. *)
From Coq Require Import String List NArith ZArith Bool.
From Verif Require Import Base Ipld MstModel CodecModel SignModel.
Import ListNotations.
Local Open Scope Z_scope.

(** Whole bytes of a list of bits, what is left over is padding. *)
Fixpoint whole (fuel : nat) (l : list bool) : list N :=
  match fuel with
  | O => []
  | S f => if (length l <? 8)%nat then [] else of_bits 0 (firstn 8 l) :: whole f (skipn 8 l)
  end.
(** [base64.urlsafe_b64decode(x + '=' * (-len(x) % 4))] (util.py:398). Simplified: Python skips other
    characters, and fails for one left over digit. *)
Definition b64_decode (x : str) : res (list N) :=
  match values alphabet64 x with
  | None => Err ValueError
  | Some ds => let l := flat_map (bits 6) ds in Ok (whole (length l) l)
  end.

(** [x.rpartition(c)], the parts before and after *)
Fixpoint rsplit (c : N) (x : str) : option (str * str) :=
  match x with
  | [] => None
  | a :: r => match rsplit c r with
              | Some (p, q) => Some (a :: p, q)
              | None => if (a =? c)%N then Some ([], r) else None
              end
  end.
Definition rpartition (c : N) (x : str) : str * str := match rsplit c x with Some pq => pq | None => ([], x) end.

Section Jwt.
Variable n : Z.
Variable xc : Z -> Z.
Variable inv : Z -> Z.
Variable hash : list N -> Z.
Variable header : list N.
Variable dumps : list (str * ipld) -> list N.

(** [jwt.encode(data, privkey, algorithm='ES256K')]: [None] is an unlucky nonce *)
Definition jwt_encode (d k : Z) (data : list (str * ipld)) : option (res str) :=
  let signing_input := b64_encode header ++ s "." ++ b64_encode (dumps data) in
  match ecdsa_sign n xc inv d k (hash signing_input) with
  | None => None
  | Some (r, t) => Some (do rb <- to_bytes32 r; do sb <- to_bytes32 t; Ok (signing_input ++ s "." ++ b64_encode (rb ++ sb)))
  end.

(** The dictionary (util.py:386-392): [{..., **claims}]. *)
Definition jwt_data (host did : str) (aud : option str) (now expiration : Z) (claims : list (str * ipld)) : list (str * ipld) :=
  fold_left (fun d kv => dset (fst kv) (snd kv) d) claims
    [(s "iss", IText did);
     (s "aud", IText (match aud with Some ((_ :: _) as a) => a | _ => s "did:web:" ++ host end));
     (s "alg", IText (s "ES256K"));
     (s "exp", IInt (Z.quot (now + expiration) 1000000))].

(** [service_jwt] (util.py:365-406) with the time and the nonce. *)
Definition service_jwt (d k : Z) (host did : str) (aud : option str) (now expiration : Z) (claims : list (str * ipld)) : option (res str) :=
  if negb (nonempty host) then Some (Err AssertionError)
  else if negb (nonempty did) then Some (Err AssertionError)
  else if expiration =? 0 then Some (Err AssertionError)
  else
    match jwt_encode d k (jwt_data host did aud now expiration claims) with
    | None => None
    | Some token => Some (
        do token <- token;
        let '(signing_input, encoded_sig) := rpartition 46 token in
        do sig <- b64_decode encoded_sig;
        do sig <- jwt_low_s n sig;
        Ok (signing_input ++ s "." ++ b64_encode sig))
    end.
End Jwt.
