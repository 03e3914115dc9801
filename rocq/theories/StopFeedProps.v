(** C25 when the storage fails, for servers that also take requests and imports. *)
From Coq Require Import String List NArith ZArith Bool.
From Verif Require Import Base Lists Ipld MstModel CarModel StorageModel StorageSpec RepoSpec RepoExamples MessageExamples StoreProofs EventsModel EventsSpec EventsFacts EventsProps
  UriModel ServerModel ServerSpec ServerExamples ExportExamples ImportFacts LogSpec LogProps AnySpec AnyExamples AnyProps FeedSpec FeedProofs FeedProps ScanFacts StopModel StopFeed ResumeProofs.
Import ListNotations.

(** ** C25 *)

(** Whatever operations, requests and imports a server has taken: if the scan ends with an error, the reading gives the
    items of the first of the stored commits and events, each whole, and then raises the error. All commits and events
    whose number is lower than that of a block of the scan have been given. *)
Theorem C25_feed_stopped digest kdigest validate ecdsa now cb l start repo query fails k e :
  (forall a b, digest a = digest b -> a = b) -> (forall v, validate v = Ok tt -> plain v) ->
  Forall (act_ok digest) l -> unforged ecdsa l -> (0 < start)%Z \/ start = 0%Z /\ Forall (fun a => ~ imports a) l ->
  let st := w_state (arun digest kdigest validate ecdsa now cb Datastore init_world l) in
  (forall i cur, enumerates st cur repo (query i cur)) ->
  exists bs items lg1 lg2, scan_stopped query fails k e start = (bs, e) /\ read_events_stopped st (bs, e) = (items, Some e) /\
    logged ecdsa st start repo (lg1 ++ lg2) /\ Forall2 (item_for ecdsa st) items lg1 /\
    forall h b, In h lg2 -> In b bs -> (b_seq b <= b_seq h)%Z.
Proof. exact (feed_stopped digest kdigest validate ecdsa now cb l start repo query fails k e). Qed.
Print Assumptions C25_feed_stopped.

(** Whoever then reads on, from the number after the last item, gets the items of the remaining commits and events: together
    with those from before the error, each once. *)
Theorem C25_resumed digest kdigest validate ecdsa now cb l start repo query fails k e :
  (forall a b, digest a = digest b -> a = b) -> (forall v, validate v = Ok tt -> plain v) ->
  Forall (act_ok digest) l -> unforged ecdsa l -> (0 < start)%Z \/ start = 0%Z /\ Forall (fun a => ~ imports a) l ->
  let st := w_state (arun digest kdigest validate ecdsa now cb Datastore init_world l) in
  (forall i cur, enumerates st cur repo (query i cur)) ->
  exists items lg1 lg2, read_events_stopped st (scan_stopped query fails k e start) = (items, Some e) /\
    logged ecdsa st start repo (lg1 ++ lg2) /\ Forall2 (item_for ecdsa st) items lg1 /\
    forall query' fails', (forall i cur, enumerates st cur repo (query' i cur)) ->
    exists items', read_events st (scan query' fails' (match rev lg1 with h :: _ => b_seq h + 1 | [] => start end)) = (items', None) /\
      Forall2 (item_for ecdsa st) items' lg2.
Proof. exact (resumed digest kdigest validate ecdsa now cb l start repo query fails k e). Qed.
Print Assumptions C25_resumed.

(** The story of C25_feed_case: after a lost context, the second query takes too long within the blocks of number 6,
    and reading from there on gives the rest. *)
Example C25_feed_stopped_case : exists car, Forall (act_ok wdigest) (feed_story car) /\ unforged xecdsa (feed_story car) /\
  let st := w_state (aworld Datastore (feed_story car)) in
  (forall i cur, enumerates st cur None (flip_query st None i cur)) /\
  let out := scan_stopped (flip_query st None) [5] 6 RuntimeError 1 in
  map b_seq (fst out) = [1; 1; 2; 3; 4; 5; 5; 5; 6; 6]%Z /\ map item_seq (fst (read_events_stopped st out)) = map Some [1; 2; 3; 4; 5]%Z /\ snd (read_events_stopped st out) = Some RuntimeError /\
  map item_seq (fst (read_events st (scan (flip_query st None) [2] 6))) = map Some [6; 7; 8]%Z.
Proof.
  assert (X : match acar Datastore with
    | Some car => honest_carb wdigest car = true /\ foreign_carb [2; 7]%N car = true /\
        let st := w_state (aworld Datastore (feed_story car)) in
        no_dup (Lists.keys (s_blocks st)) && forallb (fun cb => str_eqb (b_cid (snd cb)) (fst cb)) (s_blocks st) = true /\ let out := scan_stopped (flip_query st None) [5] 6 RuntimeError 1 in
        map b_seq (fst out) = [1; 1; 2; 3; 4; 5; 5; 5; 6; 6]%Z /\ map item_seq (fst (read_events_stopped st out)) = map Some [1; 2; 3; 4; 5]%Z /\ snd (read_events_stopped st out) = Some RuntimeError /\
  map item_seq (fst (read_events st (scan (flip_query st None) [2] 6))) = map Some [6; 7; 8]%Z
    | None => False end).
  { vm_compute. repeat (split; [reflexivity|]). reflexivity. }
  destruct (acar Datastore) as [car|]; [|contradiction]. destruct X as (H1 & H2 & H3 & H4). exists car. split.
  { apply Forall_app. split; [repeat constructor; discriminate|]. constructor; [apply aimport_ok, H1|]. repeat constructor; discriminate. }
  split; [apply feed_unforged, H2|]. cbv zeta. split; [intros i cur; apply flip_enumerates, keyedb_ok, H3|exact H4].
Qed.
