(** Imports of CARs that hold every record they name. *)
From Coq Require Import String List NArith ZArith Bool Sorted.
From Verif Require Import Base Ipld MstModel CarModel StorageModel MessageModel MessageSpec UriModel ServerModel AnySpec.
Import ListNotations.

(** With every MST node the CAR has the records it names. *)
Definition full_car (car : list N) : Prop :=
  forall roots bl, read_car car = Some (roots, bl) ->
  forall p v d e, car_reader bl p = Some v -> ipld_ndata v = Ok d -> In e (nd_e d) -> car_reader bl (ed_v e) <> None.
Definition full_import (a : act) : Prop := match a with AImport _ _ _ _ _ _ car _ => full_car car | _ => True end.

(** A tree can be read throughout: it has the leaves [lv], in ascending order, and [get] finds just those. *)
Definition readable (kdigest : str -> list N) (rd : cid -> option ipld) (m : mst) (lv : list (str * cid)) : Prop :=
  mst_leaves kdigest rd max_depth m = Ok lv /\ StronglySorted slt (map fst lv) /\
  forall k : str, get kdigest rd max_depth m k = Ok (dget k lv).
