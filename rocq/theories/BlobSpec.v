(** What the properties of remote blobs are phrased with. *)
From Coq Require Import String List NArith ZArith Bool.
From Verif Require Import Base Lists BlobModel.
Import ListNotations.
Local Open Scope Z_scope.

Section Spec.
Variable cf : blob_config.

(** A request brings an answer that can be read, or an error that tells that there is none. *)
Definition readable (o : outcome) : Prop := match o with NoAnswer _ os => os = true | Answer r => exists content, r_body r = Ok content end.

(** One request after the other; all that is fetched meets [P]. *)
Inductive later (P : outcome -> Prop) : store -> store -> Prop :=
| later_same st : later P st st
| later_create st st' now url repo get max accept : later P st st' -> (forall u, P (get u)) ->
    later P st (fst (get_or_create cf now url repo get max accept st'))
| later_get st st' now get c : later P st st' -> (forall u, P (get u)) -> later P st (fst (get_blob cf now get c st')).

(** Following the cursors of listBlobs. *)
Inductive blob_pages (loads : str -> res unit) (did : str) (limit : nat) (st : store) : option str -> list str -> Prop :=
| bp_last c l : list_blobs loads did None limit c st = Ok (l, None) -> blob_pages loads did limit st c l
| bp_more c l c' l' : list_blobs loads did None limit c st = Ok (l, Some c') -> blob_pages loads did limit st (Some c') l' ->
    blob_pages loads did limit st c (l ++ l').
End Spec.
