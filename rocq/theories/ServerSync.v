(** Reading repos through the server: getRecord, getBlocks. *)
From Coq Require Import String List NArith ZArith Bool Lia Sorted.
From Coq Require Import ZifyBool ZifyNat ZifyN.
From Verif Require Import Base Lists Ipld IpldProofs MstModel MstTree MstTreeProofs MstRep MstTrav
  MstClient MstSpec MstHist MstFacts TidModel TidProofs BlockModel BlockSpec BlockProofs
  CarModel CarProofs StorageModel StorageSpec CommitProofs StoreProofs ExecProofs RepoSpec RepoProofs RepoHist RepoSteps RepoFacts
  UriModel EventsModel EventsFacts MessageSpec ServerModel ServerSpec ServerProofs ServerFacts.
Import ListNotations.

Section Server.
Variable digest : list N -> list N.
Variable kdigest : str -> list N.
Variable validate : ipld -> res unit.
Variable ecdsa : N -> Z -> list N -> list N.
Variable now : Z -> str.
Variable cb : nat -> option exn.
Variable be : backend.
Variable netloc_ok : str -> bool.
Variable cfg : config.
Notation rcid := (rcid digest).
Notation inv := (inv digest kdigest validate ecdsa be).
Notation stored_repo := (stored_repo be).
Notation names := (names be netloc_ok).
Notation named_did := (named_did be netloc_ok).
Notation serve := (serve digest kdigest validate ecdsa cb be netloc_ok cfg).
Notation serves := (serves digest kdigest validate ecdsa now cb be netloc_ok cfg).
Notation found := (found digest kdigest validate ecdsa now be netloc_ok).
Hypothesis SET : setting digest kdigest validate cb.

(** The repo that a parameter names can be loaded. *)
Lemma names_found w bk x did o : serves w bk -> names (w_state w) x did o -> r_status o = None ->
  exists st1 r key recs, found (w_state w) (w_refs w) bk x did o st1 r key recs.
Proof.
  intros S NM R. destruct (serves_inv digest kdigest validate ecdsa now cb be netloc_ok cfg SET _ _ S) as [I ST].
  destruct (load_cases digest kdigest validate ecdsa now cb be netloc_ok SET _ _ _ x I ST) as [(d2 & o2 & st1 & r & k2 & rc2 & F)|(e & st1 & extra & _ & _ & _ & NN)].
  - destruct (names_fun be netloc_ok _ _ _ _ _ _ NM (f_names _ _ _ _ _ _ _ _ _ _ _ _ _ _ _ _ _ F)) as [<- <-]. eauto 6.
  - exfalso. exact (NN _ _ NM R).
Qed.

(** ** C39: a record that is not there *)

Lemma c39_not_found w bk x did o key recs coll rkey : serves w bk -> names (w_state w) x did o -> r_status o = None -> x <> [] ->
  supported cfg coll -> dget did bk = Some (key, recs) ->
  (snd (serve (RGet (Some x) (Some coll) (Some rkey) None) (w_state w)) = Err (XrpcError (s "RecordNotFound"))
   <-> dget (record_path coll rkey) recs = None).
Proof.
  intros S NM R NX SU B. destruct (serves_inv digest kdigest validate ecdsa now cb be netloc_ok cfg SET _ _ S) as [I ST].
  destruct (serve (RGet (Some x) (Some coll) (Some rkey) None) (w_state w)) as [st2 out] eqn:G. cbn [snd].
  destruct (get_outcome digest kdigest validate ecdsa now cb be netloc_ok cfg SET _ _ _ _ _ _ _ _ _ I ST G) as ((_ & O) & _ & NF).
  split; [|intros D; eapply NF; eauto].
  intros ->. destruct (dget (record_path coll rkey) recs) as [v|] eqn:D; [|reflexivity]. exfalso.
  destruct O as [(_ & a & X & _)|(NO & _)]; [discriminate|]. apply NO. cbn. split; auto. split; [intros c [= <-]; auto|].
  exists x, coll, rkey, did, o, key, recs. splits; auto. congruence.
Qed.

(** ** C42: getBlocks *)

Lemma mem_str_true c l : In c l -> mem_str c l = true.
Proof.
  clear. induction l as [|a l IH]; cbn; [tauto|]. intros [->|H]; [rewrite str_eqb_refl; auto|]. rewrite IH by auto. apply orb_true_r.
Qed.

Lemma pick_ok st cs all : (forall c, In c cs -> In c all) ->
  (forall c, In c cs -> read st c <> None) ->
  exists l, pick_blocks (read_many st all) cs = Ok l /\
    Forall2 (fun c x => exists b, read st c = Some b /\ x = (b_cid b, encode (b_val b))) cs l.
Proof.
  clear. induction cs as [|c cs IH]; intros SUB H; cbn [pick_blocks]; [eauto|].
  rewrite read_many_ok, mem_str_true by (apply SUB; cbn; auto).
  destruct (read st c) as [b|] eqn:R; [|exfalso; apply (H c); cbn; auto].
  destruct IH as (l & E & F); [intros; apply SUB; cbn; auto|intros; apply H; cbn; auto|].
  rewrite E. cbn. eexists. split; [reflexivity|]. constructor; eauto.
Qed.

Lemma pick_missing st cs all : (forall c, In c cs -> In c all) ->
  (exists c, In c cs /\ read st c = None) -> pick_blocks (read_many st all) cs = Err (XrpcError (s "BlockNotFound")).
Proof.
  clear. induction cs as [|c cs IH]; intros SUB (c' & H & N); cbn [pick_blocks]; [destruct H|].
  rewrite read_many_ok, mem_str_true by (apply SUB; cbn; auto).
  destruct (read st c) as [b|] eqn:R; [|reflexivity]. rewrite IH; [reflexivity|intros; apply SUB; cbn; auto|].
  destruct H as [->|H]; [congruence|eauto].
Qed.

Lemma c42_blocks w bk x did o cid_decode cids cs : serves w bk -> names (w_state w) x did o -> r_status o = None ->
  mapM cid_decode cids = Ok cs ->
  ((forall c, In c cs -> read (w_state w) c <> None) -> (forall a, length (digest a) = 32%nat) ->
     exists h car blocks, r_head o = Some h /\ snd (get_blocks be netloc_ok cid_decode x cids (w_state w)) = Ok car /\
       read_car car = Some ([b_cid h], blocks) /\ map fst blocks = cs /\
       forall c data, In (c, data) blocks -> exists v, c = cid_of digest v /\ data = encode v /\ exists b, read (w_state w) c = Some b /\ b_val b = v) /\
  ((exists c, In c cs /\ read (w_state w) c = None) ->
     snd (get_blocks be netloc_ok cid_decode x cids (w_state w)) = Err (XrpcError (s "BlockNotFound"))).
Proof.
  intros S NM R DC. destruct (serves_inv digest kdigest validate ecdsa now cb be netloc_ok cfg SET _ _ S) as [I ST].
  destruct (names_found _ _ _ _ _ S NM R) as (st1 & r & key & recs & F).
  set (st := w_state w) in *.
  pose proof (f_same _ _ _ _ _ _ _ _ _ _ _ _ _ _ _ _ _ F) as (_ & BL & _).
  assert (RD : forall c, read st1 c = read st c) by (intros c; unfold read; rewrite BL; reflexivity).
  unfold get_blocks. rewrite (bindM_ok _ _ _ _ _ (f_load _ _ _ _ _ _ _ _ _ _ _ _ _ _ _ _ _ F)), DC, bind_lift, bind_reads, bind_lift.
  split.
  - intros H D32. destruct (pick_ok st1 cs cs ltac:(auto)) as (l & E & FA); [intros c HC; rewrite RD; auto|]. rewrite E.
    rewrite (bindM_ok _ _ _ _ _ (obj_some _ _ _ (f_obj _ _ _ _ _ _ _ _ _ _ _ _ _ _ _ _ _ F))).
    destruct (f_good _ _ _ _ _ _ _ _ _ _ _ _ _ _ _ _ _ F) as (h & root & HH & CH & _). unfold head_of. rewrite HH.
    pose proof (i_store _ _ _ _ _ _ _ _ I) as SO.
    assert (FC : forall c y, In c cs -> (exists b, read st1 c = Some b /\ y = (b_cid b, encode (b_val b))) ->
       exists v, fst y = c /\ c = cid_of digest v /\ snd y = encode v /\ exists b, read st c = Some b /\ b_val b = v).
    { intros c y _ (b & RB & ->). rewrite RD in RB. destruct (so_block _ _ _ _ SO _ _ RB) as (C1 & C2 & _).
      exists (b_val b). cbn [fst snd]. splits; auto. eauto. }
    assert (X : map fst l = cs /\ forall c data, In (c, data) l -> exists v, c = cid_of digest v /\ data = encode v /\ exists b, read st c = Some b /\ b_val b = v).
    { clear - FA FC. assert (FC' : forall c y, (exists b, read st1 c = Some b /\ y = (b_cid b, encode (b_val b))) ->
        In c cs -> exists v, fst y = c /\ c = cid_of digest v /\ snd y = encode v /\ exists b, read st c = Some b /\ b_val b = v) by eauto. clear FC.
      induction FA as [|c y cs l H FA IH]; [cbn; tauto|]. destruct (FC' c y H (or_introl eq_refl)) as (v & A & B & C & D).
      destruct IH as [IH1 IH2]; [intros c' y' P Q; apply FC'; cbn; auto|]. split; [cbn; congruence|].
      intros c' data [E|HI]; [|eauto]. subst y. cbn [fst snd] in *. subst c'. eauto. }
    exists h, (write_car [b_cid h] l), l. splits; try apply X; auto. apply read_write_car.
    intros [c data] HI. cbn [fst]. destruct (proj2 X _ _ HI) as (v & -> & _). unfold cid_of. rewrite app_length, D32. reflexivity.
  - intros (c & HC & RN). rewrite (pick_missing st1 cs cs); [reflexivity|auto|]. exists c. rewrite RD. auto.
Qed.

Lemma c42_malformed w bk x did o cid_decode cids e : serves w bk -> names (w_state w) x did o -> r_status o = None ->
  mapM cid_decode cids = Err e ->
  snd (get_blocks be netloc_ok cid_decode x cids (w_state w)) = Err (if multibase_error e then XrpcError (s "BlockNotFound") else e).
Proof.
  intros S NM R DC. destruct (names_found _ _ _ _ _ S NM R) as (st1 & r & key & recs & F).
  unfold get_blocks. rewrite (bindM_ok _ _ _ _ _ (f_load _ _ _ _ _ _ _ _ _ _ _ _ _ _ _ _ _ F)), DC, bind_lift.
  destruct (multibase_error e); reflexivity.
Qed.

End Server.
