(** Model of Diff.updated_keys in arroba/diff.py. *)
From Coq Require Import List.
From Verif Require Import Base Lists MstModel DiffModel.
Import ListNotations.

(** [a | b] of dicts: the values of [b] win, keys of [a] come first. *)
Definition dict_or {V} (a b : list (str * V)) : list (str * V) := fold_left (fun d kv => dset (fst kv) (snd kv) d) b a.

(** [updated_keys] (diff.py:280-281), which returns a dict. *)
Definition updated_keys (d : diff) : list (str * change) := dict_or (dict_or (df_adds d) (df_updates d)) (df_deletes d).
