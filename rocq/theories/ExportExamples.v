(** Exports that leave out blocks their consumers need. *)
From Coq Require Import String List NArith ZArith Bool Lia.
From Verif Require Import Base Lists Ipld MstModel BlockModel CarModel StorageModel StorageSpec RepoSpec RepoExamples MessageSpec MessageExamples
  UriModel ServerModel ServerSpec ServerExamples ExportSpec.
Import ListNotations.

(** The blocks of the CAR of a repo. *)
Definition exported (be : backend) (since : option str) (x : str) (st : state) : option (cid * list (cid * list N)) :=
  match snd (get_repo wdigest be vnetloc false x since st) with
  | Ok car => match read_car car with Some ([c], bl) => Some (c, bl) | _ => None end
  | Err _ => None
  end.
Lemma exported_ok be since x st c bl : exported be since x st = Some (c, bl) ->
  exists car, snd (get_repo wdigest be vnetloc false x since st) = Ok car /\ read_car car = Some ([c], bl).
Proof.
  unfold exported. destruct (snd _) as [car|]; [|discriminate]. destruct (read_car car) as [[[|c' [|]] bl']|] eqn:E; try discriminate.
  intros [= <- <-]. eauto.
Qed.

(** The head of a repo, its rev and its root. *)
Definition tip (be : backend) (x : str) (st : state) : option (repo * block * str * cid) :=
  match seen be st x with
  | Some o => match r_head o with
              | Some h => match item_text (s "rev") (b_val h), item_link (s "data") (b_val h) with Ok r, Ok c => Some (o, h, r, c) | _, _ => None end
              | None => None
              end
  | None => None
  end.
Lemma tip_ok be x st o h r c : tip be x st = Some (o, h, r, c) ->
  seen be st x = Some o /\ r_head o = Some h /\ item_text (s "rev") (b_val h) = Ok r /\ item_link (s "data") (b_val h) = Ok c.
Proof.
  unfold tip. destruct (seen be st x) as [o'|]; [|discriminate]. destruct (r_head o') as [h'|] eqn:H; [|discriminate].
  destruct (item_text _ _) eqn:T; [|discriminate]. destruct (item_link _ _) eqn:L; [|discriminate]. intros [= <- <- <- <-]. auto.
Qed.

(** Alice has the record bob writes, at the same path, before bob's repo exists. *)
Definition xstory1 : list vcall :=
  [inl (SCreate alice None None false 1); inr (vput alice (s "k1") 1); inl (SCreate bob None None false 2)].
Definition xstory2 : list vcall := xstory1 ++ [inr (vput bob (s "k1") 1)].
Definition xrecs : records := [(s "app.post/k1", post 1)].
Definition xbad (be : backend) : bool :=
  let st1 := w_state (v_world (vrun be xstory1)) in
  let st2 := w_state (v_world (vrun be xstory2)) in
  match tip be bob st1, tip be bob st2 with
  | Some (o1, h1, r1, _), Some (o2, h2, _, root) =>
      match exported be None bob st1, exported be (Some r1) bob st2 with
      | Some (c1, bl1), Some (c2, bl2) =>
          str_eqb c1 (b_cid h1) && str_eqb c2 (b_cid h2) &&
          match r_status o1, r_status o2 with None, None => true | _, _ => false end &&
          match get xkdigest (with_car bl2 (car_reader bl1)) max_depth (mst_load root) (s "app.post/k1") with Ok _ => false | Err _ => true end
      | _, _ => false
      end
  | _, _ => false
  end.

Lemma c40_consumer : exists digest kdigest validate ecdsa now cb netloc_ok cfg, setting digest kdigest validate cb /\ (forall x, length (digest x) = 32%nat) /\
  forall be, exists w1 bk1 q w2 bk2 x did key recs o1 h1 rev o2 h2 root car1 bl1 car2 bl2,
  serves digest kdigest validate ecdsa now cb be netloc_ok cfg w1 bk1 /\ seen be (w_state w1) did = Some o1 /\ r_status o1 = None /\ r_head o1 = Some h1 /\
  item_text (s "rev") (b_val h1) = Ok rev /\
  snd (get_repo digest be netloc_ok false did None (w_state w1)) = Ok car1 /\ read_car car1 = Some ([b_cid h1], bl1) /\
  w_state w2 = fst (serve digest kdigest validate ecdsa cb be netloc_ok cfg q (w_state w1)) /\
  serves digest kdigest validate ecdsa now cb be netloc_ok cfg w2 bk2 /\ seen be (w_state w2) did = Some o2 /\ r_status o2 = None /\ r_head o2 = Some h2 /\
  item_link (s "data") (b_val h2) = Ok root /\ dget did bk2 = Some (key, recs) /\ dget x recs <> None /\
  snd (get_repo digest be netloc_ok false did (Some rev) (w_state w2)) = Ok car2 /\ read_car car2 = Some ([b_cid h2], bl2) /\
  get kdigest (with_car bl2 (car_reader bl1)) max_depth (mst_load root) x <> Ok (option_map (rcid digest) (dget x recs)).
Proof.
  exists wdigest, xkdigest, xvalidate, xecdsa, xnow, xcb, vnetloc, vcfg. split; [exact wsetting|]. split; [exact wdigest_length|]. intros be.
  assert (X : xbad be = true) by (destruct be; vm_compute; reflexivity).
  assert (F1 : v_fine (vrun be xstory1) = true) by (destruct be; vm_compute; reflexivity).
  assert (F2 : v_fine (vrun be xstory2) = true) by (destruct be; vm_compute; reflexivity).
  assert (B2 : dget bob (v_book (vrun be xstory2)) = Some (2%N, xrecs)) by (destruct be; vm_compute; reflexivity).
  apply vrun_serves in F1. apply vrun_serves in F2. unfold xbad in X.
  assert (W : w_state (v_world (vrun be xstory2)) = fst (vserve be (vput bob (s "k1") 1) (w_state (v_world (vrun be xstory1))))).
  { unfold vrun, xstory2. rewrite fold_left_app. reflexivity. }
  destruct (tip be bob (w_state (v_world (vrun be xstory1)))) as [[[[o1 h1] r1] root1]|] eqn:T1; [|discriminate].
  destruct (tip be bob (w_state (v_world (vrun be xstory2)))) as [[[[o2 h2] r2] root]|] eqn:T2; [|discriminate].
  destruct (exported be None bob _) as [[c1 bl1]|] eqn:E1; [|discriminate].
  destruct (exported be (Some r1) bob _) as [[c2 bl2]|] eqn:E2; [|discriminate].
  apply andb_prop in X as [X G]. apply andb_prop in X as [X R]. apply andb_prop in X as [C1 C2].
  apply str_eqb_eq in C1. apply str_eqb_eq in C2. subst c1 c2.
  apply tip_ok in T1 as (A1 & A2 & A3 & _). apply tip_ok in T2 as (B3 & B4 & _ & B5).
  apply exported_ok in E1 as (car1 & E1 & L1). apply exported_ok in E2 as (car2 & E2 & L2).
  destruct (r_status o1) eqn:R1; [discriminate|]. destruct (r_status o2) eqn:R2; [discriminate|].
  exists (v_world (vrun be xstory1)), (v_book (vrun be xstory1)), (vput bob (s "k1") 1), (v_world (vrun be xstory2)), (v_book (vrun be xstory2)),
    (s "app.post/k1"), bob, 2%N, xrecs, o1, h1, r1, o2, h2, root, car1, bl1, car2, bl2.
  do 17 (split; [first [assumption|discriminate]|]).
  intros Q. rewrite Q in G. discriminate.
Qed.

(** The record is not among the nodes on the way to its collection. *)
Definition ystory : list vcall := [inl (SCreate alice None None false 1); inr (vput alice (s "k2") 1); inr (vput alice (s "l0") 4); inr (vput alice (s "m2") 2); inr (vput alice (s "n0") 3)].
Definition yrecs : records := [(s "app.post/k2", post 1); (s "app.post/l0", post 4); (s "app.post/m2", post 2); (s "app.post/n0", post 3)].
Definition proved (be : backend) (x coll rkey : str) (st : state) : option (cid * list (cid * list N)) :=
  match snd (sync_get_record wdigest xkdigest be vnetloc x coll rkey st) with
  | Ok car => match read_car car with Some ([c], bl) => Some (c, bl) | _ => None end
  | Err _ => None
  end.
Definition ybad (be : backend) : bool :=
  let st := w_state (v_world (vrun be ystory)) in
  match tip be alice st with
  | Some (o, h, _, root) =>
      match proved be alice (s "app.post") (s "n0") st with
      | Some (c, bl) =>
          str_eqb c (b_cid h) && match r_status o with None => true | _ => false end &&
          match get xkdigest (car_reader bl) max_depth (mst_load root) (s "app.post/n0") with Ok _ => false | Err _ => true end
      | None => false
      end
  | None => false
  end.

Lemma c41_collection : exists digest kdigest validate ecdsa now cb netloc_ok cfg, setting digest kdigest validate cb /\ (forall x, length (digest x) = 32%nat) /\
  forall be, exists w bk did key recs o coll rkey h root car bl,
  serves digest kdigest validate ecdsa now cb be netloc_ok cfg w bk /\ seen be (w_state w) did = Some o /\ r_status o = None /\ r_head o = Some h /\
  item_link (s "data") (b_val h) = Ok root /\ dget did bk = Some (key, recs) /\ dget (record_path coll rkey) recs <> None /\
  snd (sync_get_record digest kdigest be netloc_ok did coll rkey (w_state w)) = Ok car /\ read_car car = Some ([b_cid h], bl) /\
  forall y, get kdigest (car_reader bl) max_depth (mst_load root) (record_path coll rkey) <> Ok y.
Proof.
  exists wdigest, xkdigest, xvalidate, xecdsa, xnow, xcb, vnetloc, vcfg. split; [exact wsetting|]. split; [exact wdigest_length|]. intros be.
  assert (X : ybad be = true) by (destruct be; vm_compute; reflexivity).
  assert (F : v_fine (vrun be ystory) = true) by (destruct be; vm_compute; reflexivity).
  assert (B : dget alice (v_book (vrun be ystory)) = Some (1%N, yrecs)) by (destruct be; vm_compute; reflexivity).
  apply vrun_serves in F. unfold ybad, proved in X.
  destruct (tip be alice (w_state (v_world (vrun be ystory)))) as [[[[o h] r] root]|] eqn:T; [|discriminate].
  destruct (snd (sync_get_record _ _ _ _ _ _ _ _)) as [car|] eqn:E; [|discriminate].
  destruct (read_car car) as [[[|c [|]] bl]|] eqn:L; try discriminate.
  apply andb_prop in X as [X G]. apply andb_prop in X as [C R].
  apply str_eqb_eq in C. subst c. apply tip_ok in T as (A1 & A2 & _ & A3). destruct (r_status o) eqn:R1; [discriminate|].
  exists (v_world (vrun be ystory)), (v_book (vrun be ystory)), alice, 1%N, yrecs, o, (s "app.post"), (s "n0"), h, root, car, bl.
  do 9 (split; [first [assumption|discriminate]|]).
  intros y Q. change (record_path (s "app.post") (s "n0")) with (s "app.post/n0") in Q. rewrite Q in G. discriminate.
Qed.
