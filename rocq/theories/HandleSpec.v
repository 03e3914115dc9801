(** What the theorems about handles speak of. *)
From Coq Require Import String List NArith ZArith Bool.
From Verif Require Import Base Ipld UriModel HandleModel.
Import ListNotations.
Local Open Scope N_scope.

(** The strings that a regular expression matches. *)
Inductive matches : re -> str -> Prop :=
| m_empty : matches Empty []
| m_class p c : p c = true -> matches (Class p) [c]
| m_cat a b x y : matches a x -> matches b y -> matches (Cat a b) (x ++ y)
| m_alt1 a b x : matches a x -> matches (Alt a b) x
| m_alt2 a b x : matches b x -> matches (Alt a b) x
| m_star0 a : matches (Star a) []
| m_star1 a x y : matches a x -> matches (Star a) y -> matches (Star a) (x ++ y).

Definition letter (c : N) : Prop := (97 <= c <= 122) \/ (65 <= c <= 90).
Definition digit (c : N) : Prop := 48 <= c <= 57.
Definition hyphen : N := 45.
Definition dot : N := 46.

(** A label of a domain name. *)
Definition label (l : str) : Prop :=
  (1 <= length l <= 63)%nat /\ Forall (fun c => letter c \/ digit c \/ c = hyphen) l /\
  hd 0 l <> hyphen /\ last l 0 <> hyphen.

(** Handles: at least two labels with dots between them, and the last begins with a letter
    (https://atproto.com/specs/handle). *)
Definition handle_syntax (h : str) : Prop :=
  exists labels tld, labels <> [] /\ Forall label labels /\ label tld /\ letter (hd 0 tld) /\
    h = concat (map (fun l => l ++ [dot]) labels) ++ tld.

(** White space in ASCII, as Python has it. *)
Definition white (c : N) : Prop := 9 <= c <= 13 \/ 28 <= c <= 32.

(** A TXT record that names a DID: its text starts with a quote and
    [did=did:], the quote being as dnspython prints it. *)
Definition names_did (x : bool * str) : Prop := fst x = true /\ exists r, snd x = s """did=did:" ++ r.
