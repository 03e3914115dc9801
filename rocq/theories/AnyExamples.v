(** An import that spoils a later write to another repo. *)
From Coq Require Import String List NArith ZArith Bool.
From Verif Require Import Base Lists Ipld MstModel CarModel StorageModel StorageSpec RepoSpec RepoExamples MessageSpec MessageExamples
  UriModel ServerModel ServerSpec ServerExamples ExportExamples ImportFacts AnySpec.
Import ListNotations.

Definition honest_carb (digest : list N -> list N) (car : list N) : bool :=
  match read_car car with
  | Some (_, bl) => forallb (fun cd => match decode (snd cd) with Some v => str_eqb (fst cd) (cid_of digest v) | None => true end) bl
  | None => true
  end.
Lemma honest_carb_ok digest car : honest_carb digest car = true -> honest_car digest car.
Proof.
  unfold honest_carb. intros H roots bl c data v R HI D. rewrite R in H. rewrite forallb_forall in H. specialize (H _ HI).
  cbn [fst snd] in H. rewrite D in H. apply str_eqb_eq in H. exact H.
Qed.

Definition aresolve (x : str) : res ipld := if starts_with (s "did:") x then Ok idoc else Err ValueError.
Lemma aresolve_ok x doc : aresolve x = Ok doc -> is_did x /\ handle_ok (ihandle doc).
Proof. unfold aresolve, is_did. destruct (starts_with (s "did:") x); [|discriminate]. intros _. split; [reflexivity|discriminate]. Qed.
Definition aimport (car : list N) : act := AImport vcfg aresolve ikey iverify ihandle vtoken car 7.
Lemma aimport_ok digest car : honest_carb digest car = true -> act_ok digest (aimport car).
Proof. intros H. split; [apply honest_carb_ok, H|exact aresolve_ok]. Qed.

Notation aworld be := (arun wdigest xkdigest xvalidate xecdsa xnow xcb be init_world).
Notation adoes be := (astep wdigest xkdigest xvalidate xecdsa xnow xcb be).
Fixpoint smoothb (be : backend) (w : world) (l : list act) : bool :=
  match l with
  | [] => true
  | a :: r => match adoes be w a with (w', None) => smoothb be w' r | (_, Some _) => false end
  end.
Lemma smoothb_ok be l : forall w, smoothb be w l = true -> smooth wdigest xkdigest xvalidate xecdsa xnow xcb be w l.
Proof.
  induction l as [|a l IH]; intros w H n x E; [destruct n; discriminate|]. cbn [smoothb] in H.
  destruct (adoes be w a) as [w' [e|]] eqn:S; [discriminate|]. destruct n as [|n]; cbn [nth_error firstn] in E |- *.
  - injection E as <-. unfold arun. cbn [fold_left]. rewrite S. reflexivity.
  - specialize (IH w' H n x E). unfold arun in *. cbn [fold_left]. rewrite S. exact IH.
Qed.
Definition azone : list vcall := [inl (SCreate alice None None false 1); inr (vput alice (s "a0") 1); inr (vput alice (s "b2") 2)].
Definition arev (be : backend) : option str := option_map (fun t => snd (fst t)) (tip be alice (w_state (v_world (vrun be azone)))).
Definition acar (be : backend) : option (list N) :=
  match arev be with
  | Some rev => match snd (get_repo wdigest be vnetloc false alice (Some rev) (w_state (v_world (vrun be azone)))) with Ok car => Some car | Err _ => None end
  | None => None
  end.
Definition abob : list act := [AStorage (SCreate bob None None false 2)].
Definition aboth : act := AStorage (SCommit 0 [wcreate (s "a0") 1; wcreate (s "b2") 2]).

Definition has (be : backend) (st : state) (did path : str) : option ipld :=
  match seen be st did with
  | Some o =>
      match r_head o with
      | Some h =>
          match item_link (s "data") (b_val h), snd (get_repo wdigest be vnetloc false did None st) with
          | Ok root, Ok car =>
              match read_car car with
              | Some ([c], bl) =>
                  if str_eqb c (b_cid h) then
                    match get xkdigest (car_reader bl) max_depth (mst_load root) path with
                    | Ok (Some c) => match dget c bl with Some data => decode data | None => None end
                    | _ => None
                    end
                  else None
              | _ => None
              end
          | _, _ => None
          end
      | None => None
      end
  | None => None
  end.
Lemma has_ok be st did path v : has be st did path = Some v <-> export_has wdigest xkdigest be vnetloc st did path v.
Proof.
  unfold has, export_has. split.
  - destruct (seen be st did) as [o|]; [|discriminate]. destruct (r_head o) as [h|] eqn:H; [|discriminate].
    destruct (item_link _ _) as [root|] eqn:IL; [|discriminate]. destruct (snd (get_repo _ _ _ _ _ _ _)) as [car|] eqn:G; [|discriminate].
    destruct (read_car car) as [[[|c [|]] bl]|] eqn:R; try discriminate. destruct (str_eqb_spec c (b_cid h)) as [->|]; [|discriminate].
    destruct (get _ _ _ _ _) as [[c|]|] eqn:X; try discriminate. destruct (dget c bl) as [data|] eqn:D; [|discriminate]. intros V.
    exists o, h, root, car, bl, c, data. auto 10.
  - intros (o & h & root & car & bl & c & data & -> & H & IL & G & R & X & D & V). rewrite H, IL, G, R, str_eqb_refl, X, D. exact V.
Qed.

Definition abad (be : backend) : bool :=
  match acar be with
  | None => false
  | Some car =>
     honest_carb wdigest car &&
     match snd (adoes be (aworld be abob) (aimport car)) with None => true | _ => false end &&
     match snd (adoes be (aworld be (abob ++ [aimport car])) aboth) with None => true | _ => false end &&
     match has be (w_state (aworld be (abob ++ [aimport car; aboth]))) bob (s "app.post/a0") with None => true | _ => false end &&
     match has be (w_state (aworld be (abob ++ [aboth]))) bob (s "app.post/a0") with Some _ => true | _ => false end
  end.

(** A whole repo goes to a new server, is activated there and gets a record. *)
Definition wcar (be : backend) : option (list N) :=
  match snd (get_repo wdigest be vnetloc false alice None (w_state (v_world (vrun be azone)))) with Ok car => Some car | Err _ => None end.
Definition amoved (car : list N) : list act := [aimport car; AStorage (SLoad alice); AStorage (SActivate 0)].
Definition amore : act := AStorage (SCommit 0 [wcreate (s "c0") 3]).
Definition atip (be : backend) (w : world) : option str := option_map (fun t => snd (fst t)) (tip be alice (w_state w)).

Lemma c72_others : exists digest kdigest validate ecdsa now cb netloc_ok cfg, setting digest kdigest validate cb /\ (forall x, length (digest x) = 32%nat) /\
  forall be, exists w0 bk0 did0 o0 rev car l imp a did path v,
  let run := arun digest kdigest validate ecdsa now cb be init_world in
  let step := astep digest kdigest validate ecdsa now cb be in
  serves digest kdigest validate ecdsa now cb be netloc_ok cfg w0 bk0 /\ seen be (w_state w0) did0 = Some o0 /\ r_status o0 = None /\
  snd (get_repo digest be netloc_ok false did0 (Some rev) (w_state w0)) = Ok car /\
  Forall (act_ok digest) (l ++ [imp; a]) /\ (exists c r k vf h hd n, imp = AImport c r k vf h hd car n) /\
  act_did be (run l) imp = Some did0 /\ act_did be (run (l ++ [imp])) a = Some did /\ did <> did0 /\
  snd (step (run l) imp) = None /\ snd (step (run (l ++ [imp])) a) = None /\
  export_has digest kdigest be netloc_ok (w_state (run (l ++ [a]))) did path v /\
  forall v, ~ export_has digest kdigest be netloc_ok (w_state (run (l ++ [imp; a]))) did path v.
Proof.
  exists wdigest, xkdigest, xvalidate, xecdsa, xnow, xcb, vnetloc, vcfg. split; [exact wsetting|]. split; [exact wdigest_length|]. intros be.
  assert (X : abad be = true) by (destruct be; vm_compute; reflexivity).
  assert (F : v_fine (vrun be azone) = true) by (destruct be; vm_compute; reflexivity).
  assert (D : forall car, acar be = Some car -> car_did car = Some alice).
  { assert (Y : match acar be with Some car => car_did car = Some alice | None => True end) by (destruct be; vm_compute; reflexivity).
    intros car E. rewrite E in Y. exact Y. }
  assert (N : bob <> alice) by discriminate.
  assert (AB : forall car, acar be = Some car -> act_did be (aworld be (abob ++ [aimport car])) aboth = Some bob).
  { assert (Y : match acar be with Some car => act_did be (aworld be (abob ++ [aimport car])) aboth = Some bob | None => True end) by (destruct be; vm_compute; reflexivity).
    intros car E. rewrite E in Y. exact Y. }
  apply vrun_serves in F. unfold abad in X. destruct (acar be) as [car|] eqn:E; [|discriminate].
  apply andb_prop in X as [X H5]. apply andb_prop in X as [X H4]. apply andb_prop in X as [X H3]. apply andb_prop in X as [H1 H2].
  assert (S : exists o rev, seen be (w_state (v_world (vrun be azone))) alice = Some o /\ r_status o = None /\
    snd (get_repo wdigest be vnetloc false alice (Some rev) (w_state (v_world (vrun be azone)))) = Ok car).
  { assert (Y : match seen be (w_state (v_world (vrun be azone))) alice with Some o => r_status o = None | None => False end) by (destruct be; vm_compute; reflexivity).
    destruct (seen be (w_state (v_world (vrun be azone))) alice) as [o|]; [|contradiction].
    unfold acar in E. destruct (arev be) as [rev|]; [|discriminate]. exists o, rev. split; [reflexivity|]. split; [exact Y|].
    destruct (snd (get_repo _ _ _ _ _ _ _)) as [car'|]; [|discriminate]. injection E as ->. reflexivity. }
  destruct S as (o & rev & S1 & S2 & S3).
  destruct (has be (w_state (aworld be (abob ++ [aboth]))) bob (s "app.post/a0")) as [v|] eqn:HV; [|discriminate].
  exists (v_world (vrun be azone)), (v_book (vrun be azone)), alice, o, rev, car, abob, (aimport car), aboth, bob, (s "app.post/a0"), v.
  cbv zeta. do 4 (split; [assumption|]). split.
  { apply Forall_app. split; [repeat constructor; discriminate|]. constructor; [apply aimport_ok, H1|]. repeat constructor; discriminate. }
  split; [unfold aimport; eauto 10|]. split; [exact (D car eq_refl)|]. split; [exact (AB car eq_refl)|]. split; [exact N|].
  split; [destruct (snd _); [discriminate|reflexivity]|]. split; [destruct (snd (adoes be _ aboth)); [discriminate|reflexivity]|].
  split; [apply has_ok, HV|]. intros v' HE. apply has_ok in HE. rewrite HE in H4. discriminate.
Qed.

Definition amov (be : backend) : bool :=
  match wcar be with
  | None => false
  | Some car =>
      honest_carb wdigest car && smoothb be init_world (amoved car ++ [amore]) &&
      match atip be (aworld be (amoved car)), atip be (aworld be (amoved car ++ [amore])) with Some r1, Some r2 => str_ltb r2 r1 | _, _ => false end &&
      match snd (list_repos be 10 None (w_state (aworld be (amoved car)))), atip be (aworld be (amoved car)) with
      | Ok ([x], None), Some r => str_eqb (l_did x) alice && negb (str_eqb (l_rev x) r)
      | _, _ => false
      end
  end.

Lemma atip_ok be w r : atip be w = Some r -> rev_of be w alice r.
Proof.
  unfold atip. destruct (tip be alice (w_state w)) as [[[[o h] r'] c]|] eqn:T; [|discriminate]. intros [= <-].
  apply tip_ok in T as (A & B & C & _). exists o, h. auto.
Qed.

Lemma c72_revs : exists digest kdigest validate ecdsa now cb netloc_ok cfg, setting digest kdigest validate cb /\ (forall x, length (digest x) = 32%nat) /\
  forall be, exists w0 bk0 did o0 car imp l a r r' x,
  let run := arun digest kdigest validate ecdsa now cb be init_world in
  serves digest kdigest validate ecdsa now cb be netloc_ok cfg w0 bk0 /\ seen be (w_state w0) did = Some o0 /\ r_status o0 = None /\
  snd (get_repo digest be netloc_ok false did None (w_state w0)) = Ok car /\
  Forall (act_ok digest) (imp :: l ++ [a]) /\ (exists c r k vf h hd n, imp = AImport c r k vf h hd car n) /\
  smooth digest kdigest validate ecdsa now cb be init_world (imp :: l ++ [a]) /\ act_did be (run (imp :: l)) a = Some did /\
  rev_of be (run (imp :: l)) did r /\ rev_of be (run (imp :: l ++ [a])) did r' /\ slt r' r /\
  snd (list_repos be 10 None (w_state (run (imp :: l)))) = Ok ([x], None) /\ l_did x = did /\ l_rev x <> r.
Proof.
  exists wdigest, xkdigest, xvalidate, xecdsa, xnow, xcb, vnetloc, vcfg. split; [exact wsetting|]. split; [exact wdigest_length|]. intros be.
  assert (X : amov be = true) by (destruct be; vm_compute; reflexivity).
  assert (F : v_fine (vrun be azone) = true) by (destruct be; vm_compute; reflexivity).
  assert (AB : forall car, wcar be = Some car -> act_did be (aworld be (amoved car)) amore = Some alice).
  { assert (Y : match wcar be with Some car => act_did be (aworld be (amoved car)) amore = Some alice | None => True end) by (destruct be; vm_compute; reflexivity).
    intros car E. rewrite E in Y. exact Y. }
  apply vrun_serves in F. unfold amov in X. destruct (wcar be) as [car|] eqn:E; [|discriminate].
  apply andb_prop in X as [X H4]. apply andb_prop in X as [X H3]. apply andb_prop in X as [H1 H2].
  assert (S : exists o, seen be (w_state (v_world (vrun be azone))) alice = Some o /\ r_status o = None /\
    snd (get_repo wdigest be vnetloc false alice None (w_state (v_world (vrun be azone)))) = Ok car).
  { assert (Y : match seen be (w_state (v_world (vrun be azone))) alice with Some o => r_status o = None | None => False end) by (destruct be; vm_compute; reflexivity).
    destruct (seen be (w_state (v_world (vrun be azone))) alice) as [o|]; [|contradiction].
    unfold wcar in E. exists o. split; [reflexivity|]. split; [exact Y|].
    destruct (snd (get_repo _ _ _ _ _ _ _)) as [car'|]; [|discriminate]. injection E as ->. reflexivity. }
  destruct S as (o & S1 & S2 & S3).
  destruct (atip be (aworld be (amoved car))) as [r|] eqn:T1; [|discriminate].
  destruct (atip be (aworld be (amoved car ++ [amore]))) as [r'|] eqn:T2; [|discriminate].
  destruct (snd (list_repos be 10 None (w_state (aworld be (amoved car))))) as [[[|x [|]] [|]]|] eqn:LR; try discriminate.
  apply andb_prop in H4 as [H4 H5]. apply str_eqb_eq in H4. apply negb_true_iff, str_eqb_neq in H5.
  exists (v_world (vrun be azone)), (v_book (vrun be azone)), alice, o, car, (aimport car), [AStorage (SLoad alice); AStorage (SActivate 0)], amore, r, r', x.
  cbv zeta. do 4 (split; [assumption|]). split.
  { constructor; [apply aimport_ok, H1|]. repeat constructor; discriminate. }
  split; [unfold aimport; eauto 10|]. split.
  { exact (smoothb_ok be _ _ H2). }
  split; [exact (AB car eq_refl)|]. split; [apply atip_ok, T1|]. split; [apply atip_ok, T2|]. split; [apply str_ltb_lt, H3|].
  split; [exact LR|]. split; assumption.
Qed.
