(** AT URIs (arroba/util.py:223-260). *)
From Coq Require Import String List NArith ZArith Bool.
From Verif Require Import Base Ipld.
Import ListNotations.
Local Open Scope N_scope.

(** [at_uri] (util.py:223-239). *)
Definition at_uri (did collection rkey : str) : res str :=
  match did, collection, rkey with
  | _ :: _, _ :: _, _ :: _ => Ok (s "at://" ++ did ++ s "/" ++ collection ++ s "/" ++ rkey)
  | _, _, _ => Err AssertionError
  end.

(** [x.partition(c)]: what is before the first character of [p], and what is from there on. *)
Fixpoint cut (p : N -> bool) (x : str) : str * str :=
  match x with
  | [] => ([], [])
  | c :: r => if p c then ([], x) else let '(a, b) := cut p r in (c :: a, b)
  end.

Definition ch (x : string) : N := match s x with c :: _ => c | [] => 0 end.
Definition is_ch (x : string) (c : N) : bool := c =? ch x.

(** [x.lstrip('/')], [x.strip('/')] *)
Fixpoint lstrip_slash (x : str) : str :=
  match x with c :: r => if is_ch "/" c then lstrip_slash r else x | [] => [] end.
Definition strip_slash (x : str) : str := rev (lstrip_slash (rev (lstrip_slash x))).

(** Tab, carriage return and newline, which [urlsplit] removes everywhere. *)
Definition removed (c : N) : bool := (c =? 9) || (c =? 10) || (c =? 13).

Section Uri.
(** The checks of the standard library's [urlsplit] that are not modelled: of an address in brackets,
    and of the NFKC form of a netloc with other than ASCII characters. *)
Variable netloc_ok : str -> bool.

(** [urlparse(uri)] for a URI with the scheme at, which takes no parameters: netloc and path. *)
Definition urlparse_at (uri : str) : res (str * str) :=
  let url := filter (fun c => negb (removed c)) (skipn 5 uri) in
  let '(netloc, rest) := cut (fun c => is_ch "/" c || is_ch "?" c || is_ch "#" c) url in
  let '(rest, _) := cut (is_ch "#") rest in
  let '(path, _) := cut (is_ch "?") rest in
  let lb := existsb (is_ch "[") netloc in
  let rb := existsb (is_ch "]") netloc in
  if xorb lb rb then Err ValueError
  else if lb || existsb (fun c => 128 <=? c) netloc
       then if netloc_ok netloc then Ok (netloc, path) else Err ValueError
       else Ok (netloc, path).

(** [parse_at_uri] (util.py:242-260). *)
Definition parse_at_uri (uri : str) : res (str * str * str) :=
  if negb (starts_with (s "at://") uri) then Err ValueError
  else
    do np <- urlparse_at uri;
    let '(netloc, path) := np in
    let '(a, b) := cut (is_ch "/") (strip_slash path) in
    Ok (netloc, a, match b with _ :: rkey => rkey | [] => [] end).
End Uri.
