(** A scan that stops has given a beginning of what it would have given. *)
From Coq Require Import String List NArith ZArith Bool Lia Sorted.
From Verif Require Import Base Lists Ipld StorageModel StorageSpec EventsModel EventsSpec EventsProofs ScanSpec ScanFacts StopModel.
Import ListNotations.

Lemma rows_front a : forall cur cids b, exists rest, snd (scan_rows cur cids (a ++ b)) = snd (scan_rows cur cids a) ++ rest.
Proof.
  induction a as [|x a IH]; intros cur cids b; cbn [app scan_rows snd]; [eexists; reflexivity|].
  set (c1 := if (b_seq x =? cur)%Z then cids else []). destruct (mem_str (b_cid x) c1); [apply IH|].
  destruct (IH (b_seq x) (c1 ++ [b_cid x]) b) as [rest E].
  destruct (scan_rows (b_seq x) (c1 ++ [b_cid x]) (a ++ b)) as [[u v] o]. destruct (scan_rows (b_seq x) (c1 ++ [b_cid x]) a) as [[u' v'] o'].
  cbn [snd] in *. exists rest. rewrite E. reflexivity.
Qed.
Lemma stop_front query fails k : forall i cur cids, exists rest, scan_loop query i fails cur cids = stop_loop query i fails k cur cids ++ rest.
Proof.
  induction fails as [|n r IH]; intros i cur cids; cbn [scan_loop stop_loop].
  - destruct (rows_front (firstn k (query i cur)) cur cids (skipn k (query i cur))) as [rest E]. rewrite firstn_skipn in E. exists rest. exact E.
  - destruct (scan_rows cur cids (firstn n (query i cur))) as [[c' d'] out]. destruct (IH (S i) c' d') as [rest E]. exists rest. rewrite E. apply app_assoc.
Qed.
Lemma order_app (a b : list block) : in_order (a ++ b) -> in_order a /\ forall x y, In x a -> In y b -> (b_seq x <= b_seq y)%Z.
Proof.
  unfold in_order. induction a as [|u a IH]; cbn [app]; intros H; [split; [constructor|intros x y []]|].
  inversion H as [|u0 l0 SS FA]; subst. destruct (IH SS) as [A B]. rewrite Forall_forall in FA. split.
  - constructor; [exact A|]. apply Forall_forall. intros z Z. apply FA, in_or_app. auto.
  - intros x y [<-|X] Y; [apply FA, in_or_app; auto|exact (B x y X Y)].
Qed.

(** Every row is given, or was before. *)
Lemma rows_all rows : forall cur cids,
  let out := snd (scan_rows cur cids rows) in
  (forall b, In b rows -> In (b_cid b) (map b_cid out) \/ In (b_cid b) cids) /\
  (forall c, In c (snd (fst (scan_rows cur cids rows))) -> In c (map b_cid out) \/ In c cids) /\
  (fst (fst (scan_rows cur cids rows)) = cur \/ exists b, In b rows /\ b_seq b = fst (fst (scan_rows cur cids rows))).
Proof.
  induction rows as [|x r IH]; intros cur cids; cbn [scan_rows fst snd map]; [split; [intros b []|]; split; auto|].
  set (c1 := if (b_seq x =? cur)%Z then cids else []). assert (SUB : forall c, In c c1 -> In c cids) by (unfold c1; destruct (b_seq x =? cur)%Z; [auto|intros c []]).
  destruct (mem_str (b_cid x) c1) eqn:M.
  - destruct (IH (b_seq x) c1) as (A & B & C). cbv zeta. split; [|split].
    + intros b [<-|I]; [right; apply SUB, EventsProofs.mem_str_In, M|]. destruct (A b I); auto.
    + intros c I. destruct (B c I); auto.
    + right. destruct C as [C|(b & I & C)]; [exists x; rewrite C|exists b]; cbn [In]; auto.
  - destruct (IH (b_seq x) (c1 ++ [b_cid x])) as (A & B & C). destruct (scan_rows (b_seq x) (c1 ++ [b_cid x]) r) as [[u v] o]. cbn [fst snd map In] in *.
    assert (W : forall c, In c (c1 ++ [b_cid x]) -> (b_cid x = c \/ In c (map b_cid o)) \/ In c cids).
    { intros c I. apply in_app_or in I. destruct I as [I|[I|[]]]; auto. }
    split; [|split].
    + intros b [<-|I]; [auto|]. destruct (A b I) as [I'|I']; [auto|exact (W _ I')].
    + intros c I. destruct (B c I) as [I'|I']; [auto|exact (W _ I')].
    + right. destruct C as [C|(b & I & C)]; [exists x; rewrite C|exists b]; auto.
Qed.
Lemma stop_all query fails k : forall i cur cids, exists cur',
  let bs := stop_loop query i fails k cur cids in
  (forall b, In b (firstn k (query (i + length fails) cur')) -> In (b_cid b) (map b_cid bs) \/ In (b_cid b) cids) /\
  (cur' = cur \/ exists b, b_seq b = cur' /\ (In (b_cid b) (map b_cid bs) \/ In (b_cid b) cids)).
Proof.
  induction fails as [|n r IH]; intros i cur cids; cbn [stop_loop length].
  - rewrite Nat.add_0_r. exists cur. split; [exact (proj1 (rows_all _ cur cids))|auto].
  - destruct (rows_all (firstn n (query i cur)) cur cids) as (A & B & C). destruct (scan_rows cur cids (firstn n (query i cur))) as [[u v] o]. cbn [fst snd] in *.
    destruct (IH (S i) u v) as (cur' & D & E). exists cur'. cbv zeta in *. rewrite map_app, <- plus_n_Sm. rewrite Nat.add_succ_l in D.
    assert (W : forall c, In c (map b_cid (stop_loop query (S i) r k u v)) \/ In c v -> In c (map b_cid o ++ map b_cid (stop_loop query (S i) r k u v)) \/ In c cids).
    { intros c [I|I]; [left; apply in_or_app; auto|]. destruct (B c I); [left; apply in_or_app; auto|auto]. }
    split; [intros b I; exact (W _ (D b I))|]. destruct E as [->|(b & Q & I)]; [|right; exists b; split; [exact Q|exact (W _ I)]].
    destruct C as [C|(b & I & C)]; [auto|]. right. exists b. split; [exact C|]. destruct (A b I); [left; apply in_or_app; auto|auto].
Qed.

Lemma stopped_scan states start repo query fails k e :
  (forall i c b, read (states i) c = Some b -> b_cid b = c) ->
  (forall i c b, read (states i) c = Some b -> read (states (S i)) c = Some b) ->
  (forall i cur, queried (states i) (states (S i)) cur repo (query i cur)) -> (0 <= start)%Z ->
  exists bs rest, scan_stopped query fails k e start = (bs, e) /\ scan query fails start = Ok (bs ++ rest) /\ NoDup (map b_cid bs) /\ in_order bs /\
    (forall b, In b bs -> (exists c, read (states (S (length fails))) c = Some b) /\ in_range start repo b = true) /\
    (forall b, (exists c, read (states 0) c = Some b) -> in_range start repo b = true -> In b bs \/ forall b', In b' bs -> (b_seq b' <= b_seq b)%Z) /\
    exists cur, (forall b, In b (firstn k (query (length fails) cur)) -> In (b_cid b) (map b_cid bs)) /\
      (cur = start \/ exists b, b_seq b = cur /\ In (b_cid b) (map b_cid bs)).
Proof.
  intros CK GR Q S0. destruct (scan_grown states repo start CK GR query Q fails S0) as (full & E & ND & OR & SO & CO & _).
  unfold scan_stopped, scan in *. destruct (Z.ltb_spec start 0) as [L|_]; [lia|]. injection E as E.
  destruct (stop_front query fails k 0 start []) as [rest F]. rewrite F in E. rewrite <- E in *. clear E full.
  set (bs := stop_loop query 0 fails k start []) in *. exists bs, rest. destruct (order_app _ _ OR) as [OB LE]. rewrite map_app in ND.
  split; [reflexivity|]. split; [rewrite F; reflexivity|]. split; [clear - ND; induction (map b_cid bs) as [|z l IH]; [constructor|]; inversion ND as [|z0 l0 NI N1]; constructor; [intros HI; apply NI, in_or_app; auto|exact (IH N1)]|]. split; [exact OB|]. split; [|split].
  - intros b B. apply SO, in_or_app. auto.
  - intros b R I. destruct (in_app_or _ _ _ (CO b R I)) as [B|B]; [left; exact B|right]. intros b' B'. exact (LE b' b B' B).
  - destruct (stop_all query fails k 0 start []) as (cur & A & B). exists cur. fold bs in A, B. cbn [Nat.add] in A. split.
    + intros b I. destruct (A b I) as [I'|[]]. exact I'.
    + destruct B as [B|(b & B & [I|[]])]; [auto|]. right. exists b. auto.
Qed.

Lemma range_means start repo b : in_range start repo b = true <-> (start <= b_seq b)%Z /\ (repo = None \/ repo = Some [] \/ repo = b_repo b).
Proof.
  unfold in_range. rewrite andb_true_iff, Z.leb_le. split; intros [H R]; (split; [exact H|]).
  - destruct repo as [[|x d]|]; auto. right. right. unfold opt_str_eqb in R. destruct (b_repo b) as [y|]; [|discriminate R]. apply str_eqb_eq in R. rewrite R. reflexivity.
  - destruct R as [ -> | [ -> | -> ] ]; try reflexivity. destruct (b_repo b) as [[|x d]|]; try reflexivity. unfold opt_str_eqb. apply str_eqb_refl.
Qed.
