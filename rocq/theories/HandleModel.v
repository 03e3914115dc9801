(** Handle resolution (arroba/did.py:45-47, 487-537). *)
From Coq Require Import String List NArith ZArith Bool.
From Verif Require Import Base Ipld UriModel DidModel.
Import ListNotations.
Local Open Scope N_scope.

(** Regular expressions, as far as the one for handles needs them. *)
Inductive re :=
| Nothing
| Empty
| Class (p : N -> bool)
| Cat (a b : re)
| Alt (a b : re)
| Star (a : re).

(** [x?], [x{0,n}] and [x+] *)
Definition Opt (a : re) : re := Alt Empty a.
Fixpoint Upto (n : nat) (a : re) : re := match n with O => Empty | S m => Opt (Cat a (Upto m a)) end.
Definition Plus (a : re) : re := Cat a (Star a).

(** [re.fullmatch], by derivatives. *)
Fixpoint nullable (r : re) : bool :=
  match r with
  | Nothing | Class _ => false
  | Empty | Star _ => true
  | Cat a b => nullable a && nullable b
  | Alt a b => nullable a || nullable b
  end.
(** Expressions that match nothing are left out, to keep derivatives small. *)
Definition cat (a b : re) : re := match a, b with Nothing, _ | _, Nothing => Nothing | Empty, b => b | a, b => Cat a b end.
Definition alt (a b : re) : re := match a, b with Nothing, b => b | a, Nothing => a | a, b => Alt a b end.
Fixpoint deriv (c : N) (r : re) : re :=
  match r with
  | Nothing | Empty => Nothing
  | Class p => if p c then Empty else Nothing
  | Cat a b => if nullable a then alt (cat (deriv c a) b) (deriv c b) else cat (deriv c a) b
  | Alt a b => alt (deriv c a) (deriv c b)
  | Star a => cat (deriv c a) (Star a)
  end.
Fixpoint fullmatch (r : re) (x : str) : bool :=
  match x with [] => nullable r | c :: y => fullmatch (deriv c r) y end.

(** [HANDLE_RE] (did.py:46-47):
    [^([a-zA-Z0-9]([a-zA-Z0-9-]{0,61}[a-zA-Z0-9])?\.)+[a-zA-Z]([a-zA-Z0-9-]{0,61}[a-zA-Z0-9])?$]; the anchors
    add nothing to [fullmatch]. *)
Definition range (a b : string) (c : N) : bool := (ch a <=? c) && (c <=? ch b).
Definition az (c : N) : bool := range "a" "z" c || range "A" "Z" c.
Definition az09 (c : N) : bool := az c || range "0" "9" c.
Definition az09_ (c : N) : bool := az09 c || is_ch "-" c.
Definition rest_re : re := Opt (Cat (Upto 61 (Class az09_)) (Class az09)).
Definition handle_re : re :=
  Cat (Plus (Cat (Class az09) (Cat rest_re (Class (is_ch "."))))) (Cat (Class az) rest_re).

(** [x.strip(c)] for one of the characters [p]. *)
Fixpoint lstrip (p : N -> bool) (x : str) : str := match x with c :: r => if p c then lstrip p r else x | [] => [] end.
Definition strip (p : N -> bool) (x : str) : str := rev (lstrip p (rev (lstrip p x))).
(** White space. Simplified: in ASCII. *)
Definition space (c : N) : bool := ((9 <=? c) && (c <=? 13)) || ((28 <=? c) && (c <=? 32)).

Inductive query := Dns (name : str) | Http (url : str).
(** A DNS answer: the canonical name, and for each record whether it is of type TXT and its text. *)
Record answer := { canonical : str; rdata : list (bool * str) }.

Section Handle.
(** What DNS and HTTP answer; [None] is a [DNSException] or a [RequestException]. *)
Variable dns : str -> option answer.
Variable http : str -> option (bool * str).

Definition quote : N := 34.
Fixpoint dns_did (l : list (bool * str)) : option str :=
  match l with
  | [] => None
  | (txt, t) :: r =>
      if txt && starts_with (quote :: s "did=did:") t then Some (remove_prefix (s "did=") (strip (N.eqb quote) t)) else dns_did r
  end.

(** [resolve_handle] (did.py:487-537). *)
Definition resolve_handle (handle : str) : list query * res (option str) :=
  if match handle with [] => true | _ => negb (fullmatch handle_re handle) end then ([], Err ValueError)
  else
    let name := s "_atproto." ++ handle ++ s "." in
    let by_dns := match dns name with
                  | Some a => if str_eqb (canonical a) name then dns_did (rdata a) else None
                  | None => None
                  end in
    match by_dns with
    | Some did => ([Dns name], Ok (Some did))
    | None =>
        let url := s "https://" ++ handle ++ s "/.well-known/atproto-did" in
        ([Dns name; Http url],
         Ok (match http url with
             | Some (true, body) => let did := strip space body in if starts_with (s "did:") did then Some did else None
             | _ => None
             end))
    end.
End Handle.
