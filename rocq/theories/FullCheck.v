(** Deciding whether a CAR has all the records it names, and the cases for C78. *)
From Coq Require Import String List NArith ZArith Bool Lia.
From Verif Require Import Base Lists Ipld MstModel CarModel StorageModel StorageSpec RepoSpec RepoExamples MessageExamples MessageModel MessageSpec
  UriModel ServerModel ServerSpec LogSpec LogProps AnySpec AnyExamples FeedSpec FeedProps WholeSpec WholeCheck FullSpec.
Import ListNotations.

Definition full_carb (car : list N) : bool :=
  match read_car car with
  | Some (_, bl) => forallb (fun cd => match decode (snd cd) with
      | Some v => match ipld_ndata v with Ok d => forallb (fun e => is_some (car_reader bl (ed_v e))) (nd_e d) | Err _ => true end
      | None => true end) bl
  | None => true
  end.
Lemma full_carb_ok car : full_carb car = true -> full_car car.
Proof.
  unfold full_carb. intros H roots bl R p v d e C D I. rewrite R in H. rewrite forallb_forall in H. unfold car_reader in C. destruct (dget p bl) as [data|] eqn:G; [|discriminate C].
  apply dget_In in G. specialize (H _ G). cbn [snd] in H. rewrite C, D in H. rewrite forallb_forall in H. specialize (H e I). intros E. rewrite E in H. discriminate H.
Qed.
Definition named (be : backend) (st : state) (x : str) : option (list (str * bool)) :=
  match seen be st x with
  | Some o => match mst_leaves xkdigest (rd st) max_depth (r_mst o) with Ok lv => Some (map (fun kc => (fst kc, is_some (read st (snd kc)))) lv) | Err _ => None end
  | None => None
  end.

(** The CAR without its records. *)
Definition stripped (car : list N) : option (list N) :=
  match read_car car with
  | Some (roots, bl) => Some (write_car roots (filter (fun cd => match decode (snd cd) with
      | Some v => match ipld_ndata v with Ok _ => true | Err _ => match item (s "sig") v with Ok _ => true | Err _ => false end end
      | None => false end) bl))
  | None => None
  end.

Definition post_key (k : str) : str := s "app.post/" ++ k.
Lemma full_case : exists car, Forall (act_ok wdigest) (feed_story car) /\ Forall (whole_import wdigest xkdigest) (feed_story car) /\ Forall full_import (feed_story car) /\
  smooth wdigest xkdigest xvalidate xecdsa xnow xcb Datastore init_world (feed_story car) /\
  let st := w_state (aworld Datastore (feed_story car)) in
  named Datastore st alice = Some [(post_key (s "a0"), true); (post_key (s "b2"), true); (post_key (s "c0"), true)] /\
  named Datastore st bob = Some [(post_key (s "k0"), true); (post_key (s "k1"), true)].
Proof.
  assert (X : match wcar Datastore with
    | Some car => honest_carb wdigest car = true /\ whole_carb wdigest xkdigest car = true /\ full_carb car = true /\ smoothb Datastore init_world (feed_story car) = true /\
        let st := w_state (aworld Datastore (feed_story car)) in
        named Datastore st alice = Some [(post_key (s "a0"), true); (post_key (s "b2"), true); (post_key (s "c0"), true)] /\
        named Datastore st bob = Some [(post_key (s "k0"), true); (post_key (s "k1"), true)]
    | None => False end).
  { vm_compute; repeat (split; [reflexivity|]); reflexivity. }
  destruct (wcar Datastore) as [car|]; [|contradiction]. destruct X as (H1 & H2 & H3 & H4 & H5). exists car. split.
  { apply Forall_app. split; [repeat constructor; discriminate|]. constructor; [apply aimport_ok, H1|]. repeat constructor; discriminate. }
  split; [apply Forall_app; split; [repeat constructor|]; constructor; [apply whole_carb_ok, H2|]; repeat constructor|].
  split; [apply Forall_app; split; [repeat constructor|]; constructor; [apply full_carb_ok, H3|]; repeat constructor|].
  split; [exact (smoothb_ok Datastore _ _ H4)|exact H5].
Qed.
Lemma stripped_case be : exists car, Forall (act_ok wdigest) (abob ++ [aimport car]) /\ Forall (whole_import wdigest xkdigest) (abob ++ [aimport car]) /\
  smooth wdigest xkdigest xvalidate xecdsa xnow xcb be init_world (abob ++ [aimport car]) /\
  let st := w_state (aworld be (abob ++ [aimport car])) in
  exists o, seen be st alice = Some o /\ named be st alice = Some [(post_key (s "a0"), false); (post_key (s "b2"), false)] /\ get_record xkdigest st o (s "app.post") (s "a0") = Err AttributeError.
Proof.
  assert (X : match wcar be with
    | Some car0 => match stripped car0 with
      | Some car => honest_carb wdigest car = true /\ whole_carb wdigest xkdigest car = true /\ smoothb be init_world (abob ++ [aimport car]) = true /\
        let st := w_state (aworld be (abob ++ [aimport car])) in
        named be st alice = Some [(post_key (s "a0"), false); (post_key (s "b2"), false)] /\
        match seen be st alice with Some o => get_record xkdigest st o (s "app.post") (s "a0") = Err AttributeError | None => False end
      | None => False end
    | None => False end).
  { destruct be; vm_compute; repeat (split; [reflexivity|]); reflexivity. }
  destruct (wcar be) as [car0|]; [|contradiction]. destruct (stripped car0) as [car|]; [|contradiction]. destruct X as (H1 & H2 & H3 & H4 & H5). exists car. split.
  { apply Forall_app. split; [repeat constructor; discriminate|]. constructor; [apply aimport_ok, H1|constructor]. }
  split; [apply Forall_app; split; [repeat constructor|]; constructor; [apply whole_carb_ok, H2|constructor]|].
  split; [exact (smoothb_ok be _ _ H3)|]. destruct (seen be _ alice) as [o|] eqn:S; [|contradiction]. exists o. split; [exact S|]. split; [exact H4|exact H5].
Qed.
Lemma torn_case be : exists car, Forall (act_ok wdigest) (abob ++ [aimport car]) /\
  smooth wdigest xkdigest xvalidate xecdsa xnow xcb be init_world (abob ++ [aimport car]) /\
  let st := w_state (aworld be (abob ++ [aimport car])) in
  exists o, seen be st alice = Some o /\ mst_leaves xkdigest (rd st) max_depth (r_mst o) = Err AttributeError /\ get_record xkdigest st o (s "app.post") (s "a0") = Err AttributeError.
Proof.
  assert (X : match acar be with
    | Some car => honest_carb wdigest car = true /\ smoothb be init_world (abob ++ [aimport car]) = true /\
        let st := w_state (aworld be (abob ++ [aimport car])) in
        match seen be st alice with Some o => mst_leaves xkdigest (rd st) max_depth (r_mst o) = Err AttributeError /\ get_record xkdigest st o (s "app.post") (s "a0") = Err AttributeError | None => False end
    | None => False end).
  { destruct be; vm_compute; repeat (split; [reflexivity|]); reflexivity. }
  destruct (acar be) as [car|]; [|contradiction]. destruct X as (H1 & H3 & H5). exists car. split.
  { apply Forall_app. split; [repeat constructor; discriminate|]. constructor; [apply aimport_ok, H1|constructor]. }
  split; [exact (smoothb_ok be _ _ H3)|]. cbv zeta in *. destruct (seen be _ alice) as [o|] eqn:S; [|contradiction]. exists o. split; [reflexivity|exact H5].
Qed.
