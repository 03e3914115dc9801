(** Deciding whether a CAR is whole, and the cases for C75. *)
From Coq Require Import String List NArith ZArith Bool Lia Sorting.
From Verif Require Import Base Lists Ipld MstModel MstTree CarModel StorageModel StorageSpec RepoSpec RepoExamples MessageSpec MessageModel MessageExamples EventsModel EventsSpec
  UriModel ServerModel ServerSpec ServerExamples ExportExamples ImportFacts LogSpec LogProps AnySpec AnyExamples FeedSpec FeedProps PreloadModel WholeSpec.
Import ListNotations.

Section Check.
Variable digest : list N -> list N.
Variable kdigest : str -> list N.
Notation wf := (wf kdigest).

Definition opt_list {A} (x : option A) : list A := match x with Some a => [a] | None => [] end.
Definition link_list (d : ndata) : list cid := opt_list (nd_l d) ++ flat_map (fun e => opt_list (ed_t e)) (nd_e d).
Lemma link_list_In d c : links d c -> In c (link_list d).
Proof.
  intros [E|(e & I & E)]; unfold link_list; apply in_or_app; [left; rewrite E; left; reflexivity|right]. apply in_flat_map. exists e. split; [exact I|]. rewrite E. left. reflexivity.
Qed.
Fixpoint noadjb (es : list tentry) : bool :=
  match es with
  | [] => true
  | TSub _ :: ((TSub _ :: _) as r) => false
  | _ :: r => noadjb r
  end.
Lemma noadjb_ok es : noadjb es = true -> noadj es.
Proof. induction es as [|[k v|t] es IH]; [exact (fun _ => I)|exact IH|]. destruct es as [|[k v|t'] es]; [exact IH|exact IH|discriminate]. Qed.
Definition is_nil (t : tree) : bool := match t with Node [] => true | _ => false end.
Fixpoint wfb (n : nat) (t : tree) : bool :=
  match t with
  | Node es => noadjb es && forallb (fun e => match e with
      | TLeaf k _ => Nat.eqb (MstTree.zeros kdigest k) n && valid_key k
      | TSub t' => match n with O => false | S n' => wfb n' t' && negb (is_nil t') end
      end) es
  end.
Lemma wfb_ok n : forall t, wfb n t = true -> wf n t.
Proof.
  induction n as [|n IH]; intros [es] H; cbn [wfb] in H; apply andb_true_iff in H as [A B]; (split; [apply noadjb_ok; exact A|]); apply Forall_forall; rewrite forallb_forall in B;
    intros [k v|t] I; specialize (B _ I); cbn beta iota in B; try discriminate B; apply andb_true_iff in B as [B1 B2].
  - apply Nat.eqb_eq in B1. auto.
  - apply Nat.eqb_eq in B1. auto.
  - split; [apply IH; exact B1|]. intros ->. discriminate B2.
Qed.
Fixpoint sortedb (l : list str) : bool := match l with [] => true | x :: r => forallb (str_ltb x) r && sortedb r end.
Lemma sortedb_ok l : sortedb l = true -> ssorted l.
Proof.
  induction l as [|x r IH]; cbn [sortedb]; intros H; [constructor|]. apply andb_true_iff in H as [A B]. constructor; [apply IH; exact B|]. apply Forall_forall. rewrite forallb_forall in A.
  intros y I. apply A in I. apply str_ltb_lt. exact I.
Qed.
Definition treeb (bl : list (cid * list N)) (v : ipld) : bool :=
  match item_link (s "data") v with
  | Ok root =>
      match expand kdigest (car_reader bl) 20 (mst_load root) with
      | Ok t => existsb (fun n => wfb n t) (seq 0 20) && sortedb (keys (leaves t)) && str_eqb (tcid digest t) root && is_some (car_reader bl root)
      | Err _ => false
      end
  | Err _ => false
  end.
Definition whole_carb (car : list N) : bool :=
  match read_car car with
  | Some (h :: _, bl) =>
      forallb (fun cd => match decode (snd cd) with
        | Some v => match ipld_ndata v with Ok d => forallb (fun c => is_some (car_reader bl c)) (link_list d) | Err _ => true end
        | None => true end) bl &&
      match car_reader bl h with Some v => treeb bl v | None => false end
  | _ => true
  end.
Lemma whole_carb_ok car : whole_carb car = true -> whole_car digest kdigest car.
Proof.
  unfold whole_carb. intros H h roots bl R. rewrite R in H. apply andb_true_iff in H as [A B]. split.
  - intros p v d c C D L0. rewrite forallb_forall in A. unfold car_reader in C. destruct (dget p bl) as [data|] eqn:G; [|discriminate C]. apply dget_In in G. specialize (A _ G). cbn [snd] in A. rewrite C, D in A.
    rewrite forallb_forall in A. specialize (A c (link_list_In _ _ L0)). intros E. rewrite E in A. discriminate A.
  - destruct (car_reader bl h) as [v|]; [|discriminate B]. unfold treeb in B. destruct (item_link (s "data") v) as [root|] eqn:IL; [|discriminate B].
    destruct (expand _ _ _ _) as [t|]; [|discriminate B]. repeat (apply andb_true_iff in B as [B ?]). apply existsb_exists in B as (n & I & W). apply in_seq in I.
    match goal with X : str_eqb _ _ = true |- _ => apply str_eqb_eq in X; subst root end.
    exists v, n, t. split; [reflexivity|]. split; [exact IL|]. split; [apply wfb_ok; exact W|]. split; [apply sortedb_ok; assumption|]. split; [lia|].
    intros E. match goal with X : is_some _ = true |- _ => rewrite E in X; discriminate X end.
Qed.
End Check.

(** The story of C25: all its messages. *)
Definition btime0 : block -> str := fun _ => s "2024-01-01T00:00:00Z".
Definition message_seq (p : message_parts) : option Z := match dget (s "seq") (snd p) with Some (IInt z) => Some z | _ => None end.
Definition loaded (st : state) (start : Z) : option (list (option Z)) :=
  match preload btime0 st 10 (read_events st (mem_blocks_by_seq st start None)) with Ok l => Some (map message_seq l) | Err _ => None end.
Lemma whole_case be : exists car, Forall (act_ok wdigest) (feed_story car) /\ unforged xecdsa (feed_story car) /\ Forall (whole_import wdigest xkdigest) (feed_story car) /\
  smooth wdigest xkdigest xvalidate xecdsa xnow xcb be init_world (feed_story car) /\
  let st := w_state (aworld be (feed_story car)) in preload_start (last_seq st) 8 = 1%Z /\
  loaded st 1 = Some (map Some [1; 2; 3; 4; 5; 6; 7; 8]%Z).
Proof.
  assert (X : match wcar be with
    | Some car => honest_carb wdigest car = true /\ foreign_carb [2; 7]%N car = true /\ whole_carb wdigest xkdigest car = true /\ smoothb be init_world (feed_story car) = true /\
        let st := w_state (aworld be (feed_story car)) in preload_start (last_seq st) 8 = 1%Z /\ loaded st 1 = Some (map Some [1; 2; 3; 4; 5; 6; 7; 8]%Z)
    | None => False end).
  { destruct be; vm_compute; repeat (split; [reflexivity|]); reflexivity. }
  destruct (wcar be) as [car|]; [|contradiction]. destruct X as (H1 & H2 & H3 & H4 & H5). exists car. split.
  { apply Forall_app. split; [repeat constructor; discriminate|]. constructor; [apply aimport_ok, H1|]. repeat constructor; discriminate. }
  split; [apply feed_unforged, H2|]. split.
  { apply Forall_app. split; [repeat constructor|]. constructor; [apply whole_carb_ok, H3|]. repeat constructor. }
  split; [exact (smoothb_ok be _ _ H4)|exact H5].
Qed.

(** ** What goes wrong *)
Lemma unnumbered_stop btime st rb bs : (exists c b, read st c = Some b /\ b_seq b = 0%Z) -> enumerates st 0 None bs ->
  read_events st (Ok bs) = ([], Some AssertionError) /\ preload btime st rb (read_events st (Ok bs)) = Err AssertionError.
Proof.
  intros (c & b & R & Z0) (_ & SO & EN). assert (E : read_events st (Ok bs) = ([], Some AssertionError)).
  { assert (I : In b bs) by (apply EN; split; [eauto|]; unfold in_range; rewrite Z0; reflexivity). destruct bs as [|x bs]; [destruct I|]. cbn [read_events events_loop].
    assert (Z1 : b_seq x = 0%Z).
    { assert (IX : In x (x :: bs)) by (left; reflexivity). apply EN in IX as [_ IR]. unfold in_range in IR. apply andb_true_iff in IR as [IR _]. apply Z.leb_le in IR.
      destruct I as [->|I]; [exact Z0|]. inversion SO as [|? ? _ F]; subst. rewrite Forall_forall in F. specialize (F _ I). cbn beta in F. lia. }
    rewrite Z1. reflexivity. }
  split; [exact E|]. rewrite E. reflexivity.
Qed.

Lemma aimport_whole be : exists car, Forall (act_ok wdigest) (abob ++ [aimport car]) /\ Forall (whole_import wdigest xkdigest) (abob ++ [aimport car]) /\
  smooth wdigest xkdigest xvalidate xecdsa xnow xcb be init_world (abob ++ [aimport car]) /\
  let st := w_state (aworld be (abob ++ [aimport car])) in preload_start (last_seq st) 4000 = 0%Z /\ exists c b, read st c = Some b /\ b_seq b = 0%Z.
Proof.
  assert (X : match wcar be with
    | Some car => honest_carb wdigest car = true /\ whole_carb wdigest xkdigest car = true /\ smoothb be init_world (abob ++ [aimport car]) = true /\
        let st := w_state (aworld be (abob ++ [aimport car])) in preload_start (last_seq st) 4000 = 0%Z /\ existsb (fun cb => Z.eqb (b_seq (snd cb)) 0 && match read st (fst cb) with Some b => Z.eqb (b_seq b) 0 | None => false end) (s_blocks st) = true
    | None => False end).
  { destruct be; vm_compute; repeat (split; [reflexivity|]); reflexivity. }
  destruct (wcar be) as [car|]; [|contradiction]. destruct X as (H1 & H2 & H3 & H4 & H5). exists car. split.
  { apply Forall_app. split; [repeat constructor; discriminate|]. constructor; [apply aimport_ok, H1|constructor]. }
  split; [apply Forall_app; split; [repeat constructor|]; constructor; [apply whole_carb_ok, H2|constructor]|].
  split; [exact (smoothb_ok be _ _ H3)|]. split; [exact H4|]. apply existsb_exists in H5 as ([c b] & _ & H5). cbn [fst snd] in H5. apply andb_true_iff in H5 as [_ H5].
  destruct (read _ c) as [x|] eqn:R; [|discriminate H5]. exists c, x. split; [exact R|]. apply Z.eqb_eq. exact H5.
Qed.

Definition hole_story (car : list N) : list act := abob ++ [aimport car; aboth].
Lemma hole_case be : exists car, Forall (act_ok wdigest) (hole_story car) /\ unforged xecdsa (hole_story car) /\
  smooth wdigest xkdigest xvalidate xecdsa xnow xcb be init_world (hole_story car) /\
  let st := w_state (aworld be (hole_story car)) in
  let query := read_events st (mem_blocks_by_seq st 1 None) in
  map (fun i => match process_event btime0 st i None with Ok _ => None | Err e => Some e end) (fst query) = [None; None; None; None; Some AttributeError] /\
  map item_seq (fst query) = map Some [1; 2; 3; 4; 5]%Z /\
  preload btime0 st 10 query = Err AttributeError.
Proof.
  assert (X : match acar be with
    | Some car => honest_carb wdigest car = true /\ foreign_carb [2; 7]%N car = true /\ smoothb be init_world (hole_story car) = true /\
      let st := w_state (aworld be (hole_story car)) in
      let query := read_events st (mem_blocks_by_seq st 1 None) in
      map (fun i => match process_event btime0 st i None with Ok _ => None | Err e => Some e end) (fst query) = [None; None; None; None; Some AttributeError] /\
      map item_seq (fst query) = map Some [1; 2; 3; 4; 5]%Z /\ preload btime0 st 10 query = Err AttributeError
    | None => False end).
  { destruct be; vm_compute; repeat (split; [reflexivity|]); reflexivity. }
  destruct (acar be) as [car|]; [|contradiction]. destruct X as (H1 & H2 & H3 & H4 & H5 & H6). exists car. split.
  { apply Forall_app. split; [repeat constructor; discriminate|]. constructor; [apply aimport_ok, H1|]. repeat constructor; discriminate. }
  split.
  { intros cfg r k vf h hd car' key roots bl c data v I R IN D.
    assert (E : car' = car) by (unfold hole_story, abob, aboth, aimport in I; cbn [app In] in I; repeat (destruct I as [I|I]; [try discriminate I; injection I; congruence|]); contradiction).
    subst car'. unfold foreign_carb in H2. rewrite R in H2. rewrite forallb_forall in H2. specialize (H2 _ IN). cbn [snd] in H2. rewrite D in H2.
    apply (foreignb_ok [2; 7]%N); [|exact H2]. intros x (a & IA & K).
    unfold hole_story, abob, aboth, aimport in IA; cbn [app In] in IA. repeat (destruct IA as [<-|IA]; [cbn in K; try discriminate K; injection K as <-; cbn; auto|]). contradiction. }
  split; [exact (smoothb_ok be _ _ H3)|]. cbv zeta. split; [exact H4|]. split; [exact H5|exact H6].
Qed.
Lemma restart_case be : exists l, Forall (act_ok wdigest) l /\ Forall (whole_import wdigest xkdigest) l /\ smooth wdigest xkdigest xvalidate xecdsa xnow xcb be init_world l /\
  let st := w_state (aworld be l) in
  (exists c b, read st c = Some b /\ b_seq b = 0%Z) /\ preload_start (last_seq st) 4000 = 0%Z /\
  forall btime rb bs, enumerates st (preload_start (last_seq st) 4000) None bs -> preload btime st rb (read_events st (Ok bs)) = Err AssertionError.
Proof.
  destruct (aimport_whole be) as (car & H1 & H2 & H3 & H4 & H5). exists (abob ++ [aimport car]). split; [exact H1|]. split; [exact H2|]. split; [exact H3|]. cbv zeta in *.
  split; [exact H5|]. split; [exact H4|]. intros btime rb bs EN. apply unnumbered_stop; [exact H5|]. rewrite <- H4. exact EN.
Qed.
