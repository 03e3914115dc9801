(** C74: the caches of did.py. *)
From Coq Require Import String List NArith ZArith Bool Lia.
From Verif Require Import Base Lists Ipld DidModel HandleModel CacheModel CacheSpec CacheProofs.
Import ListNotations.

(** What the functions give at a time, when DNS and HTTP answer as [get], [dns] and [http] say. *)
Definition plc_at (host : str) (get : Z -> str -> res (bool * ipld)) (did : str) (t : Z) : res ipld := snd (resolve_plc host (get t) did).
Definition web_at (repair : str -> str) (get : Z -> str -> res (bool * ipld)) (did : str) (t : Z) : res ipld := snd (resolve_web (get t) repair did).
Definition handle_at (dns : Z -> str -> option answer) (http : Z -> str -> option (bool * str)) (h : str) (t : Z) : res (option str) :=
  snd (resolve_handle (dns t) (http t) h).

(** ** C74 *)

(** Every result is what the function gave a thread for the very same argument, and that thread
    stored it less than six hours before, possibly just now. *)
Theorem C74_age : forall V body es st outs i k t (v : V), run V cache_size cache_ttl body init es = Some (st, outs) -> in_order es ->
  In (Outcome i k t (Ok v)) outs ->
  exists j ta ts, served es j k ta ts /\ body k ta = Ok v /\ (ta <= ts <= t)%Z /\ (t < ts + 6 * 60 * 60)%Z.
Proof. exact (fun V body es st outs i k t v R O => c74_age V cache_size cache_ttl body es st outs i k t v R O eq_refl). Qed.
Print Assumptions C74_age.

(** For a did:plc: the document that the directory had for it then. *)
Theorem C74_document : forall host get es st outs i did t doc,
  run ipld cache_size cache_ttl (plc_at host get) init es = Some (st, outs) -> in_order es -> In (Outcome i did t (Ok doc)) outs ->
  exists j ta ts, served es j did ta ts /\ get ta (s "https://" ++ host ++ s "/" ++ did) = Ok (true, doc) /\ (ta <= ts <= t)%Z /\ (t < ts + 6 * 60 * 60)%Z.
Proof.
  intros host get es st outs i did t doc R O J. destruct (C74_age _ _ _ _ _ _ _ _ _ R O J) as (j & ta & ts & S & B & X). exists j, ta, ts.
  split; [exact S|]. split; [|exact X]. unfold plc_at, resolve_plc, fetch in B. destruct (starts_with (s "did:plc:") did); [|discriminate B].
  cbn [snd] in B. destruct (get ta (s "https://" ++ host ++ s "/" ++ did)) as [[[|] d]|e]; cbn in B; try discriminate B. injection B as ->. reflexivity.
Qed.
Print Assumptions C74_document.

(** An exception is raised in the call that got it. Others get it only if they run into it
    themselves. *)
Theorem C74_errors : forall V body es st outs i k t e, run V cache_size cache_ttl body init es = Some (st, outs) ->
  In (Outcome i k t (Err e)) outs ->
  exists a t0 b c, es = a ++ Call i k t0 :: b ++ Answer i t :: c /\ (forall x, In x b -> thread_of x <> i) /\ body k t = Err e.
Proof. exact (fun V => c74_errors V cache_size cache_ttl). Qed.
Print Assumptions C74_errors.

(** At most 5000 entries. *)
Theorem C74_size : forall V body es st outs, run V cache_size cache_ttl body init es = Some (st, outs) ->
  (N.of_nat (length (st_cache st)) <= 5000)%N.
Proof. exact (fun V body es st outs => c74_size V cache_size cache_ttl body es st outs eq_refl). Qed.
Print Assumptions C74_size.

(** Once a call has asked and stored its value, no call for the same argument within six hours of its
    beginning asks again, if no more than 5000 arguments are ever used. *)
Theorem C74_hit : forall V body a j k t0 b ta c ts d i t ks st outs,
  let es := a ++ Call j k t0 :: b ++ Answer j ta :: c ++ Store j ts :: d ++ [Call i k t] in
  run V cache_size cache_ttl body init es = Some (st, outs) -> in_order es -> (forall e, In e (b ++ c) -> thread_of e <> j) ->
  (forall e x, In e es -> In x (asked e) -> In x ks) -> (N.of_nat (length ks) <= 5000)%N -> (t < t0 + 6 * 60 * 60)%Z ->
  exists v outs', outs = outs' ++ [Outcome i k t (Ok v)].
Proof. exact (fun V => c74_hit V cache_size cache_ttl). Qed.
Print Assumptions C74_hit.

(** Two threads ask for a DID at the same time, the directory fails for one of them, and changes the
    document afterwards. Both ask again later. *)
Definition plc_x : str := s "did:plc:x".
Definition doc_of (n : Z) : ipld := IMap [(s "version", IInt n)].
Definition xget (t : Z) (url : str) : res (bool * ipld) :=
  if str_eqb url (s "https://plc.directory/did:plc:x") then
    if (t =? 3)%Z then Ok (false, INull) else Ok (true, doc_of (if (t <? 5)%Z then 1 else 2))
  else Ok (false, INull).
Definition xevents : list event :=
  [Call 0 plc_x 1; Call 1 plc_x 2; Answer 1 3; Answer 0 4; Store 0 5; Call 1 plc_x 6; Call 2 plc_x 21600;
   Call 0 plc_x 21605; Call 1 plc_x 21605; Answer 0 21606; Answer 1 21607; Store 1 21608; Store 0 21609].
Definition xrun : option (list (nat * Z * res ipld)) :=
  option_map (fun r => map (fun o => (oc_thread o, oc_time o, oc_result o)) (snd r)) (run ipld cache_size cache_ttl (plc_at (s "plc.directory") xget) init xevents).
Example C74_case : in_order xevents /\
  xrun = Some [(1, 3%Z, Err (HttpError 0)); (0, 5%Z, Ok (doc_of 1)); (1, 6%Z, Ok (doc_of 1)); (2, 21600%Z, Ok (doc_of 1));
               (1, 21608%Z, Ok (doc_of 2)); (0, 21609%Z, Ok (doc_of 2))].
Proof. split; [|vm_compute; reflexivity]. cbn. repeat (split; [intros e H; repeat destruct H as [<-|H]; try contradiction; cbn; lia|]). exact I. Qed.
Example C74_hit_case : firstn 7 xevents = [] ++ Call 0 plc_x 1 :: [Call 1 plc_x 2; Answer 1 3] ++ Answer 0 4 :: [] ++ Store 0 5 :: [Call 1 plc_x 6] ++ [Call 2 plc_x 21600] /\
  (forall e, In e ([Call 1 plc_x 2; Answer 1 3] ++ []) -> thread_of e <> 0) /\
  (forall e x, In e (firstn 7 xevents) -> In x (asked e) -> In x [plc_x]) /\ (21600 < 1 + 6 * 60 * 60)%Z.
Proof.
  split; [reflexivity|]. split; [intros e H; repeat destruct H as [<-|H]; try discriminate; contradiction|]. split; [|lia].
  intros e x H. repeat destruct H as [<-|H]; cbn; tauto.
Qed.

(** A failure is remembered: the network is down for a moment while a handle is resolved, and for
    the next six hours the handle does not resolve although the network gives its DID all the time. *)
Theorem C74_refuted : exists dns http h did,
  (forall t, (2 <= t)%Z -> handle_at dns http h t = Ok (Some did)) /\
  (forall t, (2 <= t < 21600)%Z -> exists st, run (option str) cache_size cache_ttl (handle_at dns http) init
     [Call 0 h 0; Answer 0 0; Store 0 0; Call 0 h t] = Some (st, [Outcome 0 h 0 (Ok None); Outcome 0 h t (Ok None)])).
Proof.
  exists (fun _ _ => None), (fun t _ => if (t <? 2)%Z then None else Some (true, s "did:plc:x")), (s "han.dle"), (s "did:plc:x"). split.
  - intros t H. unfold handle_at, resolve_handle. assert (F : fullmatch handle_re (s "han.dle") = true) by (vm_compute; reflexivity).
    cbn [s]. rewrite F. cbn [negb snd]. replace (t <? 2)%Z with false by (symmetry; apply Z.ltb_ge; lia). vm_compute. reflexivity.
  - intros t H. eexists. cbn [run]. assert (S1 : handle_at (fun _ _ => None) (fun t _ => if (t <? 2)%Z then None else Some (true, s "did:plc:x")) (s "han.dle") 0 = Ok None) by (vm_compute; reflexivity).
    unfold step at 1. cbn [flying option_map find flight init lookup st_cache]. unfold step at 1. cbn [flying option_map find flight snd fst Nat.eqb]. rewrite S1.
    unfold step at 1. cbn [flying option_map find flight snd fst Nat.eqb landed filter negb st_cache].
    unfold setdefault, lookup. cbn [find]. unfold set. cbn [filter length]. replace (N.to_nat (N.of_nat 0 + 1 - cache_size)) with 0 by reflexivity. cbn [skipn app].
    unfold step. cbn [flying option_map find flight st_cache]. unfold lookup. cbn [find]. unfold has at 1. cbn [en_key]. rewrite str_eqb_refl.
    unfold live. cbn [en_expires en_value]. replace (t <? 0 + cache_ttl)%Z with true by (symmetry; apply Z.ltb_lt; unfold cache_ttl; lia). reflexivity.
Qed.
Print Assumptions C74_refuted.

(** After the directory has changed a document, calls give the old one for up to six hours more. *)
Example C74_stale : (forall t, (5 <= t)%Z -> plc_at (s "plc.directory") xget plc_x t = Ok (doc_of 2)) /\
  exists o, xrun = Some o /\ In (2, 21600%Z, Ok (doc_of 1)) o.
Proof.
  split.
  - intros t H. unfold plc_at, resolve_plc, fetch, xget. replace (t =? 3)%Z with false by (symmetry; apply Z.eqb_neq; lia).
    replace (t <? 5)%Z with false by (symmetry; apply Z.ltb_ge; lia). vm_compute. reflexivity.
  - eexists. split; [apply C74_case|]. cbn. auto 6.
Qed.
