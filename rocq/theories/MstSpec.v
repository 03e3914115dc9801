(** What a Merkle search tree is supposed to do, without trees: a dictionary. *)
From Coq Require Import String List NArith ZArith Bool Sorted.
From Verif Require Import Base Lists Ipld MstClient.
Import ListNotations.
Local Open Scope N_scope.

(** ** Keys: "collection/rkey" *)

Definition letter_or_digit (c : N) : Prop :=
  (97 <= c <= 122) \/ (65 <= c <= 90) \/ (48 <= c <= 57).

(** Letters, digits, underscore (95), dash (45), colon (58), dot (46). *)
Definition segment_char (c : N) : Prop :=
  letter_or_digit c \/ c = 95 \/ c = 45 \/ c = 58 \/ c = 46.

Definition segment (x : str) : Prop := x <> [] /\ Forall segment_char x.

(** At most 256 characters, two segments, one slash (47) between them. *)
Definition repo_key (k : str) : Prop :=
  (length k <= 256)%nat /\ exists a b, k = a ++ 47 :: b /\ segment a /\ segment b.

(** ** The dictionary *)

(** What each call does to the dictionary and what it returns or raises. *)
Inductive dict_step : list (str * cid) -> mop -> list (str * cid) -> res mout -> Prop :=
| d_add d k v : repo_key k -> dget k d = None -> dict_step d (OAdd k v) (dset k v d) (Ok Done)
| d_add_present d k v x : dget k d = Some x -> dict_step d (OAdd k v) d (Err ValueError)
| d_add_invalid d k v : ~ repo_key k -> dict_step d (OAdd k v) d (Err ValueError)
| d_update d k v x : repo_key k -> dget k d = Some x -> dict_step d (OUpdate k v) (dset k v d) (Ok Done)
| d_update_absent d k v : repo_key k -> dget k d = None -> dict_step d (OUpdate k v) d (Err KeyError)
| d_update_invalid d k v : ~ repo_key k -> dict_step d (OUpdate k v) d (Err ValueError)
| d_delete d k x : dget k d = Some x -> dict_step d (ODelete k) (ddel k d) (Ok Done)
| d_delete_absent d k : dget k d = None -> dict_step d (ODelete k) d (Err KeyError)
| d_get d k : dict_step d (OGet k) d (Ok (Got (dget k d)))
| d_persist d : dict_step d OPersist d (Ok Done)
| d_reload d : dict_step d OReload d (Ok Done).

Inductive dict_run : list (str * cid) -> list mop -> list (str * cid) -> list (res mout) -> Prop :=
| dr_nil d : dict_run d [] d []
| dr_cons d o d1 out ops d2 outs :
    dict_step d o d1 out -> dict_run d1 ops d2 outs -> dict_run d (o :: ops) d2 (out :: outs).

(** Two dictionaries with the same items. *)
Definition same_items (d1 d2 : list (str * cid)) : Prop := forall k, dget k d1 = dget k d2.

(** Histories that do not touch the block store. *)
Definition in_memory (ops : list mop) : Prop := forall o, In o ops -> o <> OPersist /\ o <> OReload.

(** Histories in which no add succeeds on a tree that a delete has emptied since the
    tree was last loaded. [emptied] tells whether it has. *)
Inductive no_add_after_emptying : bool -> list (str * cid) -> list mop -> Prop :=
| na_nil e d : no_add_after_emptying e d []
| na_delete e d d1 k out ops : dict_step d (ODelete k) d1 out ->
    no_add_after_emptying (match out, d1 with Ok _, [] => true | _, _ => e end) d1 ops ->
    no_add_after_emptying e d (ODelete k :: ops)
| na_add e d d1 k v out ops : dict_step d (OAdd k v) d1 out -> (out = Ok Done -> e = false) ->
    no_add_after_emptying e d1 ops -> no_add_after_emptying e d (OAdd k v :: ops)
| na_reload e d ops : no_add_after_emptying false d ops -> no_add_after_emptying e d (OReload :: ops)
| na_update e d d1 k v out ops : dict_step d (OUpdate k v) d1 out ->
    no_add_after_emptying e d1 ops -> no_add_after_emptying e d (OUpdate k v :: ops)
| na_get e d k ops : no_add_after_emptying e d ops -> no_add_after_emptying e d (OGet k :: ops)
| na_persist e d ops : no_add_after_emptying e d ops -> no_add_after_emptying e d (OPersist :: ops).

(** ** Heights and shape *)

(** The two-bit groups of a byte, most significant first. *)
Definition bit_pairs (b : N) : list N := [b / 64; (b / 16) mod 4; (b / 4) mod 4; b mod 4].

Fixpoint leading_zeros_of (l : list N) : nat :=
  match l with
  | 0 :: r => S (leading_zeros_of r)
  | _ => O
  end.

(** The number of leading zero bit pairs of a digest. *)
Definition height (d : list N) : nat := leading_zeros_of (flat_map bit_pairs d).

(** ** Hashes *)

Definition collision_free (digest : list N -> list N) : Prop := forall a b, digest a = digest b -> a = b.

(** Histories that write to the block store rely on CIDs being collision free. *)
Definition hash_ok (digest : list N -> list N) (ops : list mop) : Prop :=
  in_memory ops \/ collision_free digest.
