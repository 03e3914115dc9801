(** Properties of AT URIs (arroba/util.py:223-260). *)
From Coq Require Import String List NArith ZArith Bool.
From Verif Require Import Base Lists Ipld UriModel UriSpec UriProofs.
Import ListNotations.
Local Open Scope N_scope.

(** ** C46 *)

(** The parts of a URI are found again, when they are made of the characters that DIDs, collections
    and record keys may have, or at least have none that is special in URLs. *)
Theorem C46_round_trip : forall netloc_ok did collection rkey,
  did <> [] -> collection <> [] -> rkey <> [] ->
  (forall c, In c did -> c < 128 /\ ~ In c (s "/?#[]") /\ ~ In c [9; 10; 13]) ->
  (forall c, In c collection -> ~ In c (s "/?#") /\ ~ In c [9; 10; 13]) ->
  (forall c, In c rkey -> ~ In c (s "?#") /\ ~ In c [9; 10; 13]) -> last rkey 0 <> ch "/" ->
  exists uri, at_uri did collection rkey = Ok uri /\ parse_at_uri netloc_ok uri = Ok (did, collection, rkey).
Proof. exact round_trip. Qed.
Print Assumptions C46_round_trip.

Theorem C46_valid : forall netloc_ok did collection rkey, valid_did did -> valid_nsid collection -> valid_rkey rkey ->
  exists uri, at_uri did collection rkey = Ok uri /\ parse_at_uri netloc_ok uri = Ok (did, collection, rkey).
Proof. exact valid_round_trip. Qed.
Print Assumptions C46_valid.

Example C46_example : valid_did (s "did:plc:abc%3A_x") /\ valid_nsid (s "app.bsky.feed.post") /\ valid_rkey (s "3k~2-a_:.") /\
  at_uri (s "did:plc:abc%3A_x") (s "app.bsky.feed.post") (s "3k~2-a_:.") = Ok (s "at://did:plc:abc%3A_x/app.bsky.feed.post/3k~2-a_:.").
Proof. repeat split; try reflexivity; discriminate. Qed.

(** A URI is made exactly if no part is empty, whatever the parts contain. *)
Theorem C46_made : forall did collection rkey, match at_uri did collection rkey with
  | Ok uri => did <> [] /\ collection <> [] /\ rkey <> [] /\ uri = s "at://" ++ did ++ s "/" ++ collection ++ s "/" ++ rkey
  | Err e => e = AssertionError /\ (did = [] \/ collection = [] \/ rkey = [])
  end.
Proof. exact made. Qed.
Print Assumptions C46_made.
Example C46_made_case : at_uri (s "did:x") [] (s "r") = Err AssertionError /\ at_uri (s "did:x") (s "c") [] = Err AssertionError /\
  at_uri (s "did:x") (s "c") (s "r") = Ok (s "at://did:x/c/r").
Proof. repeat split; reflexivity. Qed.

(** Different parts have different URIs. *)
Theorem C46_injective : forall did collection rkey did' collection' rkey' uri,
  valid_did did -> valid_nsid collection -> valid_rkey rkey -> valid_did did' -> valid_nsid collection' -> valid_rkey rkey' ->
  at_uri did collection rkey = Ok uri -> at_uri did' collection' rkey' = Ok uri -> did = did' /\ collection = collection' /\ rkey = rkey'.
Proof. exact injective. Qed.
Print Assumptions C46_injective.

(** Strings without the scheme are rejected. *)
Theorem C46_rejects_partial : forall netloc_ok uri, (forall r, uri <> s "at://" ++ r) -> parse_at_uri netloc_ok uri = Err ValueError.
Proof. exact rejects. Qed.
Print Assumptions C46_rejects_partial.
Example C46_rejects_example : (forall r, s "https://x/y/z" <> s "at://" ++ r) /\ (forall r, [] <> s "at://" ++ r).
Proof. split; discriminate. Qed.

(** What is parsed has no separators, queries or fragments in its parts. *)
Theorem C46_parts : forall netloc_ok uri did collection rkey, parse_at_uri netloc_ok uri = Ok (did, collection, rkey) ->
  (forall c, In c did -> ~ In c (s "/?#") /\ ~ In c [9; 10; 13]) /\
  (forall c, In c collection -> ~ In c (s "/?#") /\ ~ In c [9; 10; 13]) /\
  (forall c, In c rkey -> ~ In c (s "?#") /\ ~ In c [9; 10; 13]) /\ (rkey <> [] -> last rkey 0 <> ch "/").
Proof. exact (fun n u d c r P => proj2 (parsed n u d c r P)). Qed.
Print Assumptions C46_parts.

(** Three parts that come out of some string make an AT URI from which they come out again. *)
Theorem C46_canonical : forall netloc_ok uri did collection rkey, parse_at_uri netloc_ok uri = Ok (did, collection, rkey) ->
  did <> [] -> collection <> [] -> rkey <> [] ->
  exists uri', at_uri did collection rkey = Ok uri' /\ parse_at_uri netloc_ok uri' = Ok (did, collection, rkey).
Proof. exact canonical. Qed.
Print Assumptions C46_canonical.
Example C46_canonical_case : let u := s "at://did:x//c/r/#/z" in
  parse_at_uri (fun _ => false) u = Ok (s "did:x", s "c", s "r") /\ at_uri (s "did:x") (s "c") (s "r") = Ok (s "at://did:x/c/r").
Proof. split; reflexivity. Qed.

(** But strings that have it are not: neither the parts nor their characters are checked, what
    follows a question mark is dropped, and so are newlines. *)
Theorem C46_refuted : forall netloc_ok,
  parse_at_uri netloc_ok (s "at://") = Ok ([], [], []) /\
  parse_at_uri netloc_ok (s "at://did:x") = Ok (s "did:x", [], []) /\
  parse_at_uri netloc_ok (s "at://!/ /\?x") = Ok (s "!", s " ", s "\") /\
  parse_at_uri netloc_ok (s "at://did" ++ [10] ++ s ":x/c/r") = Ok (s "did:x", s "c", s "r").
Proof. repeat split; reflexivity. Qed.
Print Assumptions C46_refuted.
