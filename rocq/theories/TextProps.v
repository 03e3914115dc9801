(** C48, C50, C54, C64, C67: the texts that keys, DIDs, CIDs and tokens are written as. *)
From Coq Require Import String List NArith ZArith Bool.
From Verif Require Import Base Lists Ipld CodecModel CodecProofs Sha256 DidModel DidSpec DidProofs DidFacts DidExamples BlobModel BlobExamples RowModel SignModel SignSpec SignProofs JwtModel JwtSpec JwtProofs TextSpec TextProofs.
Import ListNotations.
Local Open Scope N_scope.

(** ** C48 *)

(** A did:key is z and the base58btc number whose bytes are the code of the curve and the point. *)
Theorem C48_text pub curve_of point (k : pub) x : encode_did_key pub curve_of point k = Ok x -> Forall (fun c => c < 256) (point k) ->
  exists text ds code, x = s "did:key:z" ++ text /\ map base58_value text = map Some ds /\ hd 1 ds <> 0 /\ poly 58 ds = poly 256 (code ++ point k) /\
    (curve_of k = K256 /\ code = [0xe7; 1] \/ curve_of k = P256 /\ code = [0x80; 0x24]).
Proof. exact (key_text pub curve_of point k x). Qed.
Print Assumptions C48_text.
Example C48_text_case : encode_did_key (list N) (fun _ => K256) (fun k => k) [2; 200; 100] = Ok (s "did:key:zT4cHfTR") /\ Forall (fun c => c < 256) [2; 200; 100].
Proof. split; [vm_compute; reflexivity|repeat constructor]. Qed.

(** ** C50 *)

(** The DID that is created has the first 15 bytes of the hash, in base32. *)
Theorem C50_text pub curve_of point priv public sign_bytes digest plc_host pds_host (fs fr : priv) post handle a url body :
  (forall x, length (digest x) = 32%nat) -> (forall x, Forall (fun c => c < 256) (digest x)) ->
  In (Post url body) (fst (create_plc pub curve_of point priv public sign_bytes digest fs fr plc_host pds_host post handle a)) ->
  exists text ds, url = s "https://" ++ plc_host ++ s "/" ++ s "did:plc:" ++ text /\ map base32_value text = map Some ds /\ length ds = 24%nat /\
    poly 32 ds = poly 256 (firstn 15 (digest (dag_cbor_encode (IMap body)))).
Proof. exact (plc_url pub curve_of point priv public sign_bytes digest plc_host pds_host fs fr post handle a url body). Qed.
Print Assumptions C50_text.
Example C50_text_case : (forall x, length (sha256 x) = 32%nat) /\ (forall x, Forall (fun c => c < 256) (sha256 x)) /\
  In (Post (s "https://" ++ plc ++ s "/" ++ the_did) (body_of run1)) (fst run1).
Proof. split; [exact sha_length|]. split; [exact sha_bytes|]. apply posted_In. exact run1_posts. Qed.

(** ** C54, C67 *)

(** CIDs are written as b and their bytes in base32. *)
Theorem C54_text cf content : Forall (fun c => c < 256) (digest cf content) ->
  exists text, raw_cid cf content = s "b" ++ text /\ spells 5 base32_value text ([1; 0x55; 0x12; 0x20] ++ digest cf content).
Proof. exact (raw_text cf content). Qed.
Print Assumptions C54_text.

Example C54_text_case : (forall content, Forall (fun c => c < 256) (digest bcf content)) /\
  raw_cid bcf (s "abc") = s "bafkreif2pall7dybz7vecqka3zo24irdwabwdi4wc55jznaq75q7eaavvu".
Proof. split; [exact sha_bytes|vm_compute; reflexivity]. Qed.

Theorem C67_text c : Forall (fun x => x < 256) c -> exists text, cid_text c = s "b" ++ text /\ spells 5 base32_value text c.
Proof. exact (cid_spells c). Qed.
Print Assumptions C67_text.
Example C67_text_case : cid_text [1; 0x71; 0x12; 0x20; 255] = s "bafyreih7".
Proof. vm_compute. reflexivity. Qed.

(** ** C64 *)

(** The parts of a token are the header, claims and signature in base64url without padding. *)
Theorem C64_text n xc inv hash header dumps d k host did aud now expiration claims tok : SignSpec.curve n xc inv -> Forall (fun c => c < 256) header ->
  (forall data, Forall (fun c => c < 256) (dumps data)) ->
  service_jwt n xc inv hash header dumps d k host did aud now expiration claims = Some (Ok tok) ->
  exists h p g data sig, tok = h ++ s "." ++ p ++ s "." ++ g /\ spells 6 base64url_value h header /\ spells 6 base64url_value p (dumps data) /\
    spells 6 base64url_value g sig /\ length sig = 64%nat.
Proof. exact (token_text n xc inv hash header dumps d k host did aud now expiration claims tok). Qed.
Print Assumptions C64_text.
Example C64_text_case : SignSpec.curve 7 xc7 inv7 /\ Forall (fun c => c < 256) (s "{}") /\
  service_jwt 7 xc7 inv7 small_hash (s "{}") (fun d => map (fun c => c mod 256) (small_dumps d)) 3 2 (s "h") (s "did:x") None 5000000 600000000 [(s "lxm", IText (s "m"))]
  = Some (Ok (s "e30.aXNzZGlkOnhhdWRkaWQ6d2ViOmhhbGdFUzI1NktleHBseG1t.AAAAAAAAAAAAAAAAAAAAAAAAAAAAAAAAAAAAAAAAAAIAAAAAAAAAAAAAAAAAAAAAAAAAAAAAAAAAAAAAAAAAAg")).
Proof. split; [exact curve7|]. split; [repeat constructor|]. vm_compute. reflexivity. Qed.
