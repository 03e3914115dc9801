(** C85: the commits of a repo only grow. *)
From Coq Require Import String List NArith ZArith Bool.
From Verif Require Import Base Lists Ipld MstModel StorageModel StorageSpec RepoSpec RepoExamples UriModel ServerModel ServerSpec ServerExamples MessageExamples RequestSpec RequestExamples
  GrowSpec GrowProofs GrowExamples.
Import ListNotations.

(** ** C85 *)

(** Whatever storage operations and requests a server takes, short of creating the repo again: the head that
    a repo had is found by following prev from the head that it has, through stored commits with ever
    lower numbers and revs. *)
Theorem C85_stays_partial digest kdigest validate ecdsa now cb be netloc_ok cfg w1 bk1 w bk did key recs o1 h1 : setting digest kdigest validate cb ->
  serves digest kdigest validate ecdsa now cb be netloc_ok cfg w1 bk1 -> stays digest kdigest validate ecdsa now cb be netloc_ok cfg did w1 bk1 w bk ->
  dget did bk1 = Some (key, recs) -> seen be (w_state w1) did = Some o1 -> r_head o1 = Some h1 ->
  exists o h, seen be (w_state w) did = Some o /\ r_head o = Some h /\ descends (w_state w) h1 h.
Proof. exact (fun SET => stays_grows digest kdigest validate ecdsa now cb be netloc_ok cfg SET w1 bk1 w bk did key recs o1 h1). Qed.
Print Assumptions C85_stays_partial.

(** alice's commits after four calls of the story, and after all of them. *)
Example C85_stays_case : forall be, setting wdigest xkdigest xvalidate xcb /\
  (let x := vrun be (firstn 4 vstory) in let y := vrun be (firstn 4 vstory ++ skipn 4 vstory) in
   vserves be (v_world x) (v_book x) /\ vstays be alice (v_world x) (v_book x) (v_world y) (v_book y)) /\
  vnumbers be (firstn 4 vstory) = [10; 9; 1]%Z /\ vnumbers be vstory = [14; 13; 12; 11; 10; 9; 1]%Z.
Proof.
  intros be. split; [exact wsetting|]. split; [|split; [apply vnumbers4|apply vnumbers_all]].
  split; [apply vrun_serves, vfine4|apply vrun_stays; [reflexivity|apply vfine]].
Qed.

(** In general the commits of a repo go back to that head, or to a first commit made since then. *)
Theorem C85_again digest kdigest validate ecdsa now cb be netloc_ok cfg w1 bk1 w bk did key recs o1 h1 : setting digest kdigest validate cb ->
  serves digest kdigest validate ecdsa now cb be netloc_ok cfg w1 bk1 -> goes_on digest kdigest validate ecdsa now cb be netloc_ok cfg w1 bk1 w bk ->
  dget did bk1 = Some (key, recs) -> seen be (w_state w1) did = Some o1 -> r_head o1 = Some h1 ->
  exists o h, seen be (w_state w) did = Some o /\ r_head o = Some h /\
    (descends (w_state w) h1 h \/
     exists c0, item (s "prev") (b_val c0) = Ok INull /\ (s_next (w_state w1) <= b_seq c0)%Z /\ descends (w_state w) c0 h).
Proof. exact (fun SET => goes_grows digest kdigest validate ecdsa now cb be netloc_ok cfg SET w1 bk1 w bk did key recs o1 h1). Qed.
Print Assumptions C85_again.

(** [Repo.create] for a DID that has a repo starts it anew (storage.py:205 says that it should update it). *)
Theorem C85_refuted : exists digest kdigest validate ecdsa now cb netloc_ok cfg did, setting digest kdigest validate cb /\
  forall be, exists w1 bk1 w bk key recs o1 h1 o h,
    serves digest kdigest validate ecdsa now cb be netloc_ok cfg w1 bk1 /\ goes_on digest kdigest validate ecdsa now cb be netloc_ok cfg w1 bk1 w bk /\
    dget did bk1 = Some (key, recs) /\ seen be (w_state w1) did = Some o1 /\ r_head o1 = Some h1 /\
    seen be (w_state w) did = Some o /\ r_head o = Some h /\ ~ descends (w_state w) h1 h.
Proof.
  exists wdigest, xkdigest, xvalidate, xecdsa, xnow, xcb, vnetloc, vcfg, alice. split; [exact wsetting|]. intros be.
  destruct (anew be) as (o1 & h1 & o & h & key & recs & H). do 4 eexists. exists key, recs, o1, h1, o, h. exact H.
Qed.
Print Assumptions C85_refuted.
