(** The story of ServerExamples, for a consumer of the firehose. *)
From Coq Require Import String List NArith ZArith Bool Lia.
From Verif Require Import Base Lists Ipld MstModel CarModel StorageModel StorageSpec RepoSpec RepoExamples UriModel ServerModel ServerSpec EventsModel EventsSpec
  MessageModel MessageSpec MessageExamples ServerExamples ReplicaSpec WarySpec WaryProofs RequestSpec.
Import ListNotations.

Notation vgoes be := (goes_on wdigest xkdigest xvalidate xecdsa xnow xcb be vnetloc vcfg).

Lemma vstep_goes be w bk x c : vgoes be w bk (v_world x) (v_book x) -> v_fine (vstep be x c) = true -> vgoes be w bk (v_world (vstep be x c)) (v_book (vstep be x c)).
Proof.
  intros S F. destruct c as [op|q]; cbn [vstep v_world v_book v_fine] in *.
  - apply andb_prop in F as [F C]. apply andb_prop in F as [F N]. eapply g_storage; eauto.
    + assert (FA : Forall op_named [op]) by (apply op_namedb_ok; cbn; rewrite N; reflexivity). inversion FA; auto.
    + intros _. apply clean_stepb_ok. exact C.
    + destruct (sstep _ _ _ _ _ _ _ _ _); reflexivity.
  - apply andb_prop in F as [F C]. eapply g_request; eauto.
    + intros _. apply Z.ltb_lt. exact C.
    + destruct (serve _ _ _ _ _ _ _ _ _ _); reflexivity.
Qed.
Lemma vfine_before be c x : v_fine (vstep be x c) = true -> v_fine x = true.
Proof. destruct c; cbn [vstep v_fine]; intros H; apply andb_prop in H as [H _]; [apply andb_prop in H as [H _]|]; exact H. Qed.
Lemma vfine_all be cs : forall x, v_fine (fold_left (vstep be) cs x) = true -> v_fine x = true.
Proof. induction cs as [|c cs IH]; intros x H; cbn [fold_left] in H; [exact H|]. exact (vfine_before be c x (IH _ H)). Qed.
Lemma vrun_goes be a b : v_fine (vrun be (a ++ b)) = true -> vgoes be (v_world (vrun be a)) (v_book (vrun be a)) (v_world (vrun be (a ++ b))) (v_book (vrun be (a ++ b))).
Proof.
  unfold vrun. rewrite fold_left_app. generalize (fold_left (vstep be) a (VState init_world [] true [])) as x0. intros x0.
  assert (X : forall cs x, vgoes be (v_world x0) (v_book x0) (v_world x) (v_book x) -> v_fine (fold_left (vstep be) cs x) = true ->
    vgoes be (v_world x0) (v_book x0) (v_world (fold_left (vstep be) cs x)) (v_book (fold_left (vstep be) cs x))).
  { induction cs as [|c cs IH]; intros x G F; cbn [fold_left] in *; [exact G|]. apply IH; [|exact F]. apply vstep_goes; [exact G|]. exact (vfine_all be cs _ F). }
  intros F. apply X; [constructor|exact F].
Qed.
Lemma vfine be : v_fine (vrun be (firstn 4 vstory ++ skipn 4 vstory)) = true.
Proof. destruct be; vm_compute; reflexivity. Qed.
Lemma vfine4 be : v_fine (vrun be (firstn 4 vstory)) = true.
Proof. destruct be; vm_compute; reflexivity. Qed.

(** What a consumer makes of the messages from [start] on, as they are after [cs]. *)
Definition vtaken (be : backend) (cs : list vcall) (start : Z) (cp : option copies) : option copies :=
  let st := w_state (v_world (vrun be cs)) in
  match cp with
  | Some cp => take_all wdigest xkdigest cp (flat_map (fun i => match process_event (fun _ => s "now") st i None with Ok m => [m] | Err _ => [] end)
                 (fst (read_events st (mem_blocks_by_seq st start None))))
  | None => None
  end.
Definition vrecords (cs : option copies) : option (list (str * records)) := option_map (map (fun dc => (fst dc, cp_recs (snd dc)))) cs.
Definition vfirst (be : backend) : option copies := vtaken be (firstn 4 vstory) 0 (Some []).
Lemma vfirst_records be : vrecords (vfirst be) = Some [(alice, [(s "app.post/k0", norm (post 1)); (s "app.post/k1", norm (post 2))]); (bob, [])].
Proof. destruct be; vm_compute; reflexivity. Qed.
Lemma vthen_records be : vrecords (vtaken be vstory (s_next (w_state (v_world (vrun be (firstn 4 vstory))))) (vfirst be)) =
  Some [(alice, [(s "app.post/k1", norm (post 3)); (s "app.post/k2", norm (post 4)); (s "app.post/k3", norm (post 5))]); (bob, [])].
Proof. destruct be; vm_compute; reflexivity. Qed.

(** The operations that putRecord of the story's fourth call comes down to. *)
Definition vput_ops (refs : nat) : list sop := [SLoad alice; SCommit refs [Write CREATE (s "app.post") (s "k1") (Some (post 2))]].
Definition vbefore (be : backend) : world := v_world (vrun be (firstn 3 vstory)).
Lemma vput_run be : let w := vbefore be in
  w_state (fst (srun wdigest xkdigest xvalidate xecdsa xnow xcb be w (vput_ops (length (w_refs w))))) = fst (vserve be (vput alice (s "k1") 2) (w_state w)).
Proof. destruct be; vm_compute; reflexivity. Qed.

(** A request with a wrong token is refused and changes nothing. *)
Definition vwrong : request := RPut (Some (s "Bearer wrong")) (Input (Some alice) (Some (s "app.post")) (Some (s "k9")) (Some (post 2)) false).
Lemma vrefused w bk w' bk' : vgoes Datastore w bk w' bk' -> vgoes Datastore w bk w' bk'.
Proof.
  intros G. assert (E : vserve Datastore vwrong (w_state w') = (w_state w', Err ValueError)) by reflexivity.
  pose proof (g_request _ _ _ _ _ _ _ _ _ _ _ _ _ _ _ _ G (fun X => ltac:(discriminate X)) E) as X.
  destruct w' as [st refs]. exact X.
Qed.

(** The operations of alice's latest commit after the first [n] calls of the story. *)
Definition vops (be : backend) (n : nat) : option (list (action * str)) :=
  match seen be (w_state (v_world (vrun be (firstn n vstory)))) alice with
  | Some o => match r_head o with Some h => option_map (map (fun p => (op_action p, op_path p))) (b_ops h) | None => None end
  | None => None
  end.
Lemma vops_all be : map (vops be) [3; 4; 5; 9]%nat =
  [Some [(CREATE, s "app.post/k0")]; Some [(CREATE, s "app.post/k1")]; Some [(UPDATE, s "app.post/k1")]; Some [(DELETE, s "app.post/k0")]].
Proof. destruct be; vm_compute; reflexivity. Qed.
Lemma vdel_twice be : s_next (w_state (v_world (vrun be (firstn 10 vstory)))) = s_next (w_state (v_world (vrun be (firstn 9 vstory)))).
Proof. destruct be; vm_compute; reflexivity. Qed.

(** The last message after the first [n] calls: repo, path of the only op, number of blocks. *)
Definition vmessage (be : backend) (n : nat) : option (ipld * ipld * nat) :=
  let st := w_state (v_world (vrun be (firstn n vstory))) in
  match rev (fst (read_events st (mem_blocks_by_seq st 0 None))) with
  | i :: _ => match process_event (fun _ => s "now") st i None with
              | Ok (_, p) => match dget (s "repo") p, dget (s "ops") p, dget (s "blocks") p with
                             | Some r, Some (IList [IMap m]), Some (IBytes car) =>
                                 match dget (s "path") m, read_car car with Some x, Some (_, bl) => Some (r, x, length bl) | _, _ => None end
                             | _, _, _ => None
                             end
              | Err _ => None
              end
  | [] => None
  end.
Lemma vmessages be : map (vmessage be) [4; 5; 9]%nat =
  [Some (IText alice, IText (s "app.post/k1"), 4%nat); Some (IText alice, IText (s "app.post/k1"), 4%nat); Some (IText alice, IText (s "app.post/k0"), 4%nat)].
Proof. destruct be; vm_compute; reflexivity. Qed.

Lemma vnames_alice be : named_repo be alice alice None = true.
Proof. destruct be; vm_compute; reflexivity. Qed.
Lemma vwary be : exists o0 h car st o, seen be (vst be) alice = Some o0 /\ r_head o0 = Some h /\ wary_client wdigest (b_cid h) car = Some (st, o) /\
  shows xkdigest st o [(s "app.post/k1", post 3); (s "app.post/k2", post 4); (s "app.post/k3", post 5)].
Proof.
  destruct (named_repo_ok _ _ _ _ (vnames_alice be)) as (o0 & NM & ST).
  destruct (wary_enough wdigest xkdigest xvalidate xecdsa xnow xcb be wsetting vnetloc vcfg (vend be) vbook alice alice o0 1%N
    [(s "app.post/k1", post 3); (s "app.post/k2", post 4); (s "app.post/k3", post 5)] None wdigest_length (vstory_serves be) NM ST eq_refl (or_introl eq_refl))
    as (h & car & st & o & HH & _ & WC & SH).
  destruct NM as (y & RN & SN & _). exists o0, h, car, st, o. assert (RA : repo_name vnetloc alice = Ok alice) by (vm_compute; reflexivity). rewrite RA in RN. injection RN as <-. auto.
Qed.
