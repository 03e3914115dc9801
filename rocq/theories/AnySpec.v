(** Servers that do everything: operations on the storage, XRPC requests and imports. *)
From Coq Require Import String List NArith ZArith Bool.
From Verif Require Import Base Lists Ipld MstModel CarModel StorageModel StorageSpec RepoSpec UriModel ServerModel ServerSpec MessageSpec ExportSpec.
Import ListNotations.

(** What may happen. An import comes with the answers it gets: the DID document, the signing key in
    it, the check of the signature and the handle. *)
Inductive act :=
| AStorage (op : sop)
| ARequest (netloc_ok : str -> bool) (cfg : config) (q : request)
| AImport (cfg : config) (resolve : str -> res ipld) (signing_key : ipld -> option (list N)) (verify : ipld -> list N -> bool)
    (handle_of : ipld -> option str) (header : option str) (car : list N) (key : N).

(** Blocks have the CIDs they are under. *)
Definition honest_car (digest : list N -> list N) (car : list N) : Prop :=
  forall roots bl c data v, read_car car = Some (roots, bl) -> In (c, data) bl -> decode data = Some v -> c = cid_of digest v.

(** DIDs look like DIDs, handles do not, and CARs are honest. *)
Definition act_ok (digest : list N -> list N) (a : act) : Prop :=
  match a with
  | AStorage op => op_named op
  | ARequest _ _ _ => True
  | AImport _ resolve _ _ handle_of _ car _ =>
      honest_car digest car /\ forall x doc, resolve x = Ok doc -> is_did x /\ handle_ok (handle_of doc)
  end.

(** The DID in the head commit of a CAR. *)
Definition car_did (car : list N) : option str :=
  match read_car car with
  | Some (c :: _, bl) =>
      match dget c bl with
      | Some data => match decode data with
                     | Some v => match item_text (s "did") v with Ok d => Some d | Err _ => None end
                     | None => None
                     end
      | None => None
      end
  | _ => None
  end.

Definition request_repo (q : request) : option str :=
  match q with
  | RCreate _ i _ | RPut _ i | RDelete _ i => i_repo i
  | RGet repo _ _ _ => repo
  end.

(** The repo it is about. *)
Definition act_did (be : backend) (w : world) (a : act) : option str :=
  match a with
  | AStorage op => op_did w op
  | ARequest netloc_ok _ q => match request_repo q with Some x => named_did be netloc_ok (w_state w) x | None => None end
  | AImport _ _ _ _ _ _ car _ => car_did car
  end.

Section Any.
Variable digest : list N -> list N.
Variable kdigest : str -> list N.
Variable validate : ipld -> res unit.
Variable ecdsa : N -> Z -> list N -> list N.
Variable now : Z -> str.
Variable cb : nat -> option exn.
Variable be : backend.

(** What happens then, and whether there was an exception. *)
Definition astep (w : world) (a : act) : world * option exn :=
  let failed {A} (out : res A) := match out with Ok _ => None | Err e => Some e end in
  match a with
  | AStorage op => let '(w', out) := sstep digest kdigest validate ecdsa now cb be w op in (w', failed out)
  | ARequest netloc_ok cfg q =>
      let '(st, out) := serve digest kdigest validate ecdsa cb be netloc_ok cfg q (w_state w) in (World st (w_refs w), failed out)
  | AImport cfg resolve signing_key verify handle_of header car key =>
      let '(st, out) := import_repo be cfg resolve signing_key verify handle_of header car key (w_state w) in (World st (w_refs w), failed out)
  end.
Definition arun (w : world) (l : list act) : world := fold_left (fun w a => fst (astep w a)) l w.

(** Nothing raises. *)
Definition smooth (w : world) (l : list act) : Prop := forall n a, nth_error l n = Some a -> snd (astep (arun w (firstn n l)) a) = None.
End Any.

(** The rev of a repo's head. *)
Definition rev_of (be : backend) (w : world) (did rev : str) : Prop :=
  exists o h, seen be (w_state w) did = Some o /\ r_head o = Some h /\ item_text (s "rev") (b_val h) = Ok rev.

(** What [getRepo] gives for a repo has a record: the tree of the head commit, read from the blocks of
    the CAR, has the path, and the record is there too. *)
Definition export_has (digest : list N -> list N) (kdigest : str -> list N) (be : backend) (netloc_ok : str -> bool) (st : state) (did path : str) (v : ipld) : Prop :=
  exists o h root car bl c data, seen be st did = Some o /\ r_head o = Some h /\ item_link (s "data") (b_val h) = Ok root /\
  snd (get_repo digest be netloc_ok false did None st) = Ok car /\ read_car car = Some ([b_cid h], bl) /\
  get kdigest (car_reader bl) max_depth (mst_load root) path = Ok (Some c) /\ dget c bl = Some data /\ decode data = Some v.
