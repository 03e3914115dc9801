(** Properties of service tokens (arroba/util.py). *)
From Coq Require Import String List NArith ZArith Bool.
From Verif Require Import Base Lists Ipld MstModel SignModel SignSpec SignProofs JwtModel JwtSpec JwtProofs.
Import ListNotations.
Local Open Scope Z_scope.

(** ** C64 *)

(** A token that [service_jwt] makes has three parts, which decode to the header, the claims, and a signature of
    both that verifies with the repo's key and has a low S. The claims are those passed in; iss, aud, alg and
    exp, unless passed in, are as documented; there are no others. *)
Theorem C64_received : forall n xc inv hash header dumps d k host did aud now expiration claims tok,
  curve n xc inv -> Forall (fun c => (c < 256)%N) header -> (forall data, Forall (fun c => (c < 256)%N) (dumps data)) ->
  NoDup (keys claims) ->
  service_jwt n xc inv hash header dumps d k host did aud now expiration claims = Some (Ok tok) ->
  exists data x r t, received n xc inv hash d tok header (dumps data) x r t /\ 0 < t /\ 2 * t <= n /\
    (forall key v, dget key claims = Some v -> dget key data = Some v) /\
    (forall key, dget key claims = None ->
       (key = s "iss" -> dget key data = Some (IText did)) /\
       (key = s "aud" -> forall a, aud = Some a -> a <> [] -> dget key data = Some (IText a)) /\
       (key = s "aud" -> aud = None \/ aud = Some [] -> dget key data = Some (IText (s "did:web:" ++ host))) /\
       (key = s "alg" -> dget key data = Some (IText (s "ES256K"))) /\
       (key = s "exp" -> 0 <= now + expiration ->
          exists e, dget key data = Some (IInt e) /\ 1000000 * e <= now + expiration < 1000000 * (e + 1)) /\
       (~ In key [s "iss"; s "aud"; s "alg"; s "exp"] -> dget key data = None)).
Proof. exact c64_received. Qed.
Print Assumptions C64_received.

(** Unless the host, the DID or the expiration is missing, there is a token. *)
Theorem C64_made : forall n xc inv hash header dumps d k host did aud now expiration claims r, curve n xc inv ->
  service_jwt n xc inv hash header dumps d k host did aud now expiration claims = Some r ->
  (host <> [] /\ did <> [] /\ expiration <> 0 /\ exists tok, r = Ok tok) \/
  ((host = [] \/ did = [] \/ expiration = 0) /\ r = Err AssertionError).
Proof. exact c64_made. Qed.
Print Assumptions C64_made.

(** Whoever puts the signature under another header or other claims does not get a valid token, unless
    the hashes of the two texts are the same, or happen to add up. *)
Theorem C64_tampered : forall n xc inv hash header dumps d k host did aud now expiration claims tok hd pl x r t tok' hd' pl' x',
  curve n xc inv -> Forall (fun c => (c < 256)%N) header -> (forall data, Forall (fun c => (c < 256)%N) (dumps data)) ->
  service_jwt n xc inv hash header dumps d k host did aud now expiration claims = Some (Ok tok) ->
  received n xc inv hash d tok hd pl x r t -> received n xc inv hash d tok' hd' pl' x' r t ->
  (hd' = hd /\ pl' = pl) \/ (x' <> x /\ hash x' mod n = hash x mod n) \/ (hash x' + hash x + 2 * r * d) mod n = 0.
Proof. exact c64_tampered. Qed.
Print Assumptions C64_tampered.

(** A token, over a small group. *)
Example C64_case : curve 7 xc7 inv7 /\
  service_jwt 7 xc7 inv7 small_hash (s "{}") small_dumps 3 2 (s "h") (s "did:x") None 5000000 600000000 [(s "lxm", IText (s "m"))]
  = Some (Ok (s "e30.aXNzZGlkOnhhdWRkaWQ6d2ViOmhhbGdFUzI1NktleHBseG1t.AAAAAAAAAAAAAAAAAAAAAAAAAAAAAAAAAAAAAAAAAAIAAAAAAAAAAAAAAAAAAAAAAAAAAAAAAAAAAAAAAAAAAg")) /\
  received 7 xc7 inv7 small_hash 3
    (s "e30.aXNzZGlkOnhhdWRkaWQ6d2ViOmhhbGdFUzI1NktleHBseG1t.AAAAAAAAAAAAAAAAAAAAAAAAAAAAAAAAAAAAAAAAAAIAAAAAAAAAAAAAAAAAAAAAAAAAAAAAAAAAAAAAAAAAAg")
    (s "{}") (s "issdid:xauddid:web:halgES256Kexplxmm") (s "e30.aXNzZGlkOnhhdWRkaWQ6d2ViOmhhbGdFUzI1NktleHBseG1t") 2 2.
Proof. exact c64_case. Qed.
