(** C25 for servers that also take requests and imports. *)
From Coq Require Import String List NArith ZArith Bool.
From Verif Require Import Base Lists Ipld MstModel CarModel StorageModel StorageSpec RepoSpec RepoExamples MessageExamples StoreProofs EventsModel EventsSpec
  UriModel ServerModel ServerSpec ServerExamples ExportExamples ImportFacts LogSpec LogProps AnySpec AnyExamples AnyProps FeedSpec FeedProofs.
Import ListNotations.

(** ** C25 *)

(** Whatever operations, requests and imports a server has taken: reading the events of a MemoryStorage
    never raises, and gives one item for each commit and event in the storage from [start] on, for [repo] if given,
    in the order of their numbers. Each operation and each request that was successful has its items. Imported
    blocks have the number 0, so with imports [start] has to be positive (see [C25_import_refuted]). *)
Theorem C25_feed_memory digest kdigest validate ecdsa now cb l start repo :
  (forall a b, digest a = digest b -> a = b) -> (forall v, validate v = Ok tt -> plain v) ->
  Forall (act_ok digest) l -> unforged ecdsa l -> (0 < start)%Z \/ start = 0%Z /\ Forall (fun a => ~ imports a) l ->
  let st := w_state (arun digest kdigest validate ecdsa now cb Memory init_world l) in
  exists items lg, read_events st (mem_blocks_by_seq st start repo) = (items, None) /\
    logged ecdsa st start repo lg /\ Forall2 (item_for ecdsa st) items lg /\
    tells_operations digest kdigest validate ecdsa now cb Memory st start repo l items /\
    tells_requests digest kdigest validate ecdsa now cb Memory start repo l items.
Proof. exact (fun inj pl => c25_feed_memory digest kdigest validate ecdsa now cb inj pl l start repo). Qed.
Print Assumptions C25_feed_memory.

(** The same for DatastoreStorage, whatever order the queries give to blocks with the same number,
    and however often they die. *)
Theorem C25_feed_datastore digest kdigest validate ecdsa now cb l start repo query fails :
  (forall a b, digest a = digest b -> a = b) -> (forall v, validate v = Ok tt -> plain v) ->
  Forall (act_ok digest) l -> unforged ecdsa l -> (0 < start)%Z \/ start = 0%Z /\ Forall (fun a => ~ imports a) l ->
  let st := w_state (arun digest kdigest validate ecdsa now cb Datastore init_world l) in
  (forall i cur, enumerates st cur repo (query i cur)) ->
  exists items lg, read_events st (scan query fails start) = (items, None) /\
    logged ecdsa st start repo lg /\ Forall2 (item_for ecdsa st) items lg /\
    tells_operations digest kdigest validate ecdsa now cb Datastore st start repo l items /\
    tells_requests digest kdigest validate ecdsa now cb Datastore start repo l items.
Proof. exact (fun inj pl => c25_feed_datastore digest kdigest validate ecdsa now cb inj pl l start repo query fails). Qed.
Print Assumptions C25_feed_datastore.

(** Bob's repo is created and written to, with a batch and a request; Alice's repo comes with an import, is activated
    and gets a record. The log has the items 1 to 8, among them the commits of both. *)
Definition foreignb (keys : list N) (v : ipld) : bool :=
  match v with
  | IMap m =>
      match dget (s "$type") m with Some (IText t) => negb (starts_with (s "com.atproto.sync.subscribeRepos#") t) | _ => true end &&
      match dget (s "sig") m with Some (IBytes (k :: _)) => negb (existsb (N.eqb k) keys) | _ => true end
  | _ => true
  end.
Lemma starts_app a b : starts_with a (a ++ b) = true.
Proof. induction a as [|x a IH]; cbn; [reflexivity|]. rewrite N.eqb_refl. exact IH. Qed.
Lemma foreignb_ok ks v (P : N -> Prop) : (forall k, P k -> In k ks) -> foreignb ks v = true -> foreign xecdsa P v.
Proof.
  intros HP H. split.
  - intros t E. unfold item_text, item in E. destruct v as [| | | | | |m|]; try discriminate E. cbn [foreignb] in H.
    destruct (dget (s "$type") m) as [[| | | |x| | |]|]; try discriminate E. assert (EX : x = s "com.atproto.sync.subscribeRepos#" ++ t) by (injection E; intros; assumption). rewrite EX, starts_app in H. discriminate H.
  - intros b did key prev root K E C. destruct C as (rev & _ & _ & C). rewrite E in C. clear E.
    assert (X : exists m r, v = IMap m /\ dget (s "$type") m = None /\ dget (s "sig") m = Some (IBytes (key :: r))).
    { rewrite C. destruct prev; eexists; eexists; (split; [reflexivity|split; reflexivity]). }
    destruct X as (m & r & -> & T & S). cbn [foreignb] in H. rewrite T, S in H. cbn [andb] in H. apply HP in K.
    apply negb_true_iff in H. assert (Y : existsb (N.eqb key) ks = true) by (apply existsb_exists; exists key; split; [exact K|apply N.eqb_refl]). congruence.
Qed.
Definition foreign_carb (keys : list N) (car : list N) : bool :=
  match read_car car with Some (_, bl) => forallb (fun cd => match decode (snd cd) with Some v => foreignb keys v | None => true end) bl | None => true end.

Definition feed_story (car : list N) : list act := c71_story ++ [aimport car; AStorage (SLoad alice); AStorage (SActivate 1); AStorage (SCommit 1 [wcreate (s "c0") 3])].
Lemma feed_unforged car : foreign_carb [2; 7]%N car = true -> unforged xecdsa (feed_story car).
Proof.
  intros H. unfold unforged. intros cfg r k vf h hd car' key roots bl c data v I R IN D.
  assert (E : car' = car) by (unfold feed_story, c71_story, aimport in I; cbn [app In] in I; repeat (destruct I as [I|I]; [try discriminate I; injection I; congruence|]); contradiction).
  subst car'. unfold foreign_carb in H. rewrite R in H. rewrite forallb_forall in H. specialize (H _ IN). cbn [snd] in H. rewrite D in H.
  apply (foreignb_ok [2; 7]%N); [|exact H]. intros x (a & IA & K).
  unfold feed_story, c71_story, aimport in IA; cbn [app In] in IA. repeat (destruct IA as [<-|IA]; [cbn in K; try discriminate K; injection K as <-; cbn; auto|]). contradiction.
Qed.
Example C25_feed_case be : exists car, Forall (act_ok wdigest) (feed_story car) /\ unforged xecdsa (feed_story car) /\
  smooth wdigest xkdigest xvalidate xecdsa xnow xcb be init_world (feed_story car) /\
  let st := w_state (aworld be (feed_story car)) in
  map item_seq (fst (read_events st (mem_blocks_by_seq st 1 None))) = map Some [1; 2; 3; 4; 5; 6; 7; 8]%Z /\
  map item_seq (fst (read_events st (mem_blocks_by_seq st 1 (Some alice)))) = map Some [7; 8]%Z.
Proof.
  assert (X : match acar be with
    | Some car => honest_carb wdigest car = true /\ foreign_carb [2; 7]%N car = true /\ smoothb be init_world (feed_story car) = true /\
        let st := w_state (aworld be (feed_story car)) in
        map item_seq (fst (read_events st (mem_blocks_by_seq st 1 None))) = map Some [1; 2; 3; 4; 5; 6; 7; 8]%Z /\
        map item_seq (fst (read_events st (mem_blocks_by_seq st 1 (Some alice)))) = map Some [7; 8]%Z
    | None => False end).
  { destruct be; vm_compute; repeat (split; [reflexivity|]); reflexivity. }
  destruct (acar be) as [car|]; [|contradiction]. destruct X as (H1 & H2 & H3 & H4). exists car. split.
  { apply Forall_app. split; [repeat constructor; discriminate|]. constructor; [apply aimport_ok, H1|]. repeat constructor; discriminate. }
  split; [apply feed_unforged, H2|]. split; [exact (smoothb_ok be _ _ H3)|exact H4].
Qed.
