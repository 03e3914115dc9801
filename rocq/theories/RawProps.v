(** C79: blocks are read right from a datastore that defers, answers in any order, and is written to meanwhile. *)
From Coq Require Import String List NArith ZArith Bool Permutation.
From Verif Require Import Base Lists Ipld MstModel CarModel StorageModel StorageSpec RepoSpec RepoExamples MessageExamples EventsModel
  UriModel ServerModel ServerSpec ServerExamples MessageSpec ExportSpec ExportExamples LiveSpec LiveExamples RawModel RawSpec RawProofs RawFacts RawCheck.
Import ListNotations.

(** ** C79 *)

(** [read_many_raw] gives every block it is asked for that is there from the start, with its number, and only blocks
    that it is asked for and that are there. It ends if the datastore never defers everything, and raises nothing. *)
Theorem C79_read st st' ds name_of cids rounds n : (forall a b, name_of a = name_of b -> a = b) -> later st st' -> honest name_of st st' ds ->
  (ds_read_many_raw ds name_of rounds n cids = Err OutOfFuel /\ ~ (advances ds /\ length cids <= rounds)) \/
  exists d n', ds_read_many_raw ds name_of rounds n cids = Ok (d, n') /\ NoDup (map fst d) /\
    (forall c b, In c cids -> read st c = Some b -> dget c d = Some (encode (b_val b), b_seq b)) /\
    forall c x, dget c d = Some x -> In c cids /\ exists b, read st' c = Some b /\ x = (encode (b_val b), b_seq b).
Proof. exact (fun NI LA HO => raw_any st st' ds LA name_of NI HO cids rounds n). Qed.
Print Assumptions C79_read.

(** getRepo, for any repo of a server, also with since, gives the blocks that it would give from a datastore that
    answers at once and that nobody writes to, in some order. It raises the same. *)
Theorem C79_same digest kdigest name_of sv w bk x since st' ds : (forall a, length (digest a) = 32) -> (forall a b, name_of a = name_of b -> a = b) ->
  hosts digest kdigest sv w bk -> p_be sv = Datastore -> later (w_state w) st' -> honest name_of (w_state w) st' ds ->
  exists enough, forall rounds,
  let out := snd (ds_get_repo ds name_of rounds digest (p_netloc sv) false x since (w_state w)) in
  match snd (on_get_repo digest sv x since (w_state w)) with
  | Err e => out = Err e
  | Ok car => exists roots bl, read_car car = Some (roots, bl) /\
      ((out = Err OutOfFuel /\ ~ (advances ds /\ enough <= rounds)) \/
       exists car' bl', out = Ok car' /\ read_car car' = Some (roots, bl') /\ Permutation bl bl')
  end.
Proof. exact (fun D32 NI => same_export digest kdigest D32 name_of NI sv w bk x since st' ds). Qed.
Print Assumptions C79_same.

(** So it gives each active repo as it was when getRepo was called: exactly the blocks of its head commit, and the
    reading methods give its records from them. *)
Theorem C79_whole digest kdigest name_of sv w bk x did o key recs since st' ds : (forall a, length (digest a) = 32) -> (forall a b, name_of a = name_of b -> a = b) ->
  hosts digest kdigest sv w bk -> p_be sv = Datastore -> later (w_state w) st' -> honest name_of (w_state w) st' ds -> advances ds ->
  names Datastore (p_netloc sv) (w_state w) x did o -> r_status o = None -> dget did bk = Some (key, recs) -> since = None \/ since = Some [] ->
  exists enough h root, r_head o = Some h /\ item_link (s "data") (b_val h) = Ok root /\ forall rounds, enough <= rounds ->
  exists car bl, snd (ds_get_repo ds name_of rounds digest (p_netloc sv) false x since (w_state w)) = Ok car /\ read_car car = Some ([b_cid h], bl) /\
    genuine digest (w_state w) bl /\ (forall c, In c (keys bl) <-> block_of digest (w_state w) h root recs c) /\
    readable digest kdigest (car_reader bl) h root recs.
Proof. exact (fun D32 NI => whole_export digest kdigest D32 name_of NI sv w bk x did o key recs since st' ds). Qed.
Print Assumptions C79_whole.

(** Alice gets another record while her repo with three is exported from a datastore that answers one key at a time.
    The CAR has the seven blocks of before, in another order than it would have from a quick one. *)
Example C79_case : lhosts Datastore (v_world rbefore) (v_book rbefore) /\ later (w_state (v_world rbefore)) rlater /\
  honest xname (w_state (v_world rbefore)) rlater (slow rlater) /\ advances (slow rlater) /\
  option_map (fun kr => map fst (snd kr)) (dget alice (v_book rbefore)) = Some [s "app.post/k2"; s "app.post/l0"; s "app.post/m2"] /\
  (s_next (w_state (v_world rbefore)) < s_next rlater)%Z /\ rslow 2 = Err OutOfFuel /\
  match rquick, car_cids (rslow 3) with
  | Some [a; b; c; d; x; y; z], Some l => l = [a; b; c; d; z; x; y] /\ str_eqb x z = false
  | _, _ => False
  end.
Proof.
  split; [exact rbefore_hosts|]. split; [exact rbefore_later|]. split; [exact (slow_honest _ _ rbefore_later)|]. split; [apply slow_advances|].
  split; [vm_compute; reflexivity|]. split; [vm_compute; reflexivity|]. split; [vm_compute; reflexivity|]. vm_compute. split; reflexivity.
Qed.
