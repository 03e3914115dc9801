(** Properties of remote blobs (arroba/datastore_storage.py, arroba/xrpc_sync.py). *)
From Coq Require Import String List NArith ZArith Bool.
From Verif Require Import Base Lists Sha256 CodecModel BlobModel BlobSpec BlobProofs BlobFacts BlobExamples.
Import ListNotations.
Local Open Scope Z_scope.

(** ** C54: get_or_create *)

(** However requests interleave, a blob that is returned has passed the checks, whether it was fetched
    for this request or before, and its CID, size and type are those of one response for the URL.
    Missing: the blob may have no CID (C54_refuted), and URLs longer than keys may be confused
    (C54_url_refuted). *)
Theorem C54_partial : forall cf acts w i c b,
  0 <= max_bytes cf -> run cf (World [] [] []) acts = Some w -> nth_error (w_threads w) i = Some (TDone (Some c) (Ok b)) ->
  (length (c_url c) < max_key cf)%nat ->
  accepts cf (b_mime b) (c_accept c) = true /\ b_inactive b = false /\
  (forall n, b_size b = Some n -> n <= max_bytes cf /\ forall m, c_max c = Some m -> 0 < m -> n <= m) /\
  (forall d, b_duration b = Some d -> d <= max_duration cf \/ d = 0) /\
  (forall id, b_cid b = Some id -> exists r content, In (c_url c, r) (w_fetched w) /\ ok r = true /\ r_body r = Ok content /\
     id = s "b" ++ map lower (b32_encode ([1; 85; 18; 32]%N ++ digest cf content)) /\
     b_size b = Some (Z.of_nat (length content)) /\ b_mime b = type_of cf (c_url c) r).
Proof. exact returned. Qed.
Print Assumptions C54_partial.
Example C54_example : 0 <= max_bytes bcf /\ (length (c_url call1) < max_key bcf)%nat /\
  match run bcf (World [] [] []) race with
  | Some w => match nth_error (w_threads w) 0 with Some (TDone (Some c) (Ok b)) => c = call1 /\ b_cid b = Some (raw_cid bcf [1; 2; 3]%N) | _ => False end
  | None => False
  end.
Proof. split; [apply bcf_values|]. split; [apply Nat.ltb_lt; reflexivity|]. vm_compute. split; reflexivity. Qed.

(** One request after the other, if no body fails to be read, there is a CID. *)
Theorem C54_cid_partial : forall cf st now url repo get max accept b,
  0 <= max_bytes cf -> later cf readable [] st -> (forall u, readable (get u)) ->
  snd (get_or_create cf now url repo get max accept st) = Ok b -> exists id, b_cid b = Some id.
Proof. exact has_cid_later. Qed.
Print Assumptions C54_cid_partial.
Example C54_cid_example : later bcf readable [] st3 /\ (forall u, readable (always image u)) /\
  match snd (get_or_create bcf 1003 url1 None (always image) (Some 10) None st3) with Ok b => b_repos b = [alice; bob] | Err _ => False end.
Proof. split; [apply st3_later; [exact image_readable|exact changed_readable]|]. split; [intros u; exact image_readable|]. vm_compute. reflexivity. Qed.

(** A blob that is not known is fetched, and what is to be fetched again after some time was tried
    within that time. *)
Theorem C54_fresh : forall cf now url repo get max accept st b, 0 <= refetch_age cf ->
  snd (get_or_create cf now url repo get max accept st) = Ok b ->
  (In (major (b_mime b)) (refetch_types cf) -> exists t, b_last b = Some t /\ now - refetch_age cf <= t) /\
  (dget (firstn (max_key cf) url) st = None -> exists r content, get url = Answer r /\ r_body r = Ok content /\ (r_code r < 400 \/ 600 <= r_code r)%N /\
     b_cid b = Some (s "b" ++ map lower (b32_encode ([1; 85; 18; 32]%N ++ digest cf content))) /\ b_last b = Some now).
Proof. exact create_fresh. Qed.
Print Assumptions C54_fresh.
Example C54_fresh_example :
  match snd (get_or_create bcf 5000000 url1 None (always changed) None None st3) with
  | Ok b => b_cid b = Some (raw_cid bcf [4]%N) /\ In (major (b_mime b)) (refetch_types bcf) /\ b_last b = Some 5000000
  | Err _ => False
  end.
Proof. vm_compute. split; [reflexivity|]. split; [now left|reflexivity]. Qed.

(** A blob may be returned without CID: after a body that could not be read, or to one of two requests
    at the same time. *)
Theorem C54_refuted :
  (exists st b, later bcf (fun _ => True) [] st /\ snd (get_or_create bcf 5000000 url1 None (always image) None None st) = Ok b /\ b_cid b = None) /\
  (exists acts w c b, run bcf (World [] [] []) acts = Some w /\ nth_error (w_threads w) 1 = Some (TDone (Some c) (Ok b)) /\ b_cid b = None /\
    Forall (fun a => match a with AFetch _ _ o => readable o | _ => True end) acts).
Proof. exact no_cid. Qed.
Print Assumptions C54_refuted.

(** Two URLs with the same first 1500 bytes are taken for one: the blob returned for the second has the
    CID of what was fetched from the first, and the second is never fetched. *)
Theorem C54_url_refuted : exists acts w c b content, run bcf (World [] [] []) acts = Some w /\
  nth_error (w_threads w) 1 = Some (TDone (Some c) (Ok b)) /\ b_cid b = Some (raw_cid bcf content) /\
  map fst (w_fetched w) = [long1] /\ c_url c = long2 /\ long1 <> long2.
Proof. exact confused. Qed.
Print Assumptions C54_url_refuted.

(** ** C61: getBlob *)

(** The URL belongs to an active blob that was stored with the CID, and it has been checked to be
    there if it was time to. Missing: that it still has the content (C61_refuted). *)
Theorem C61_partial : forall cf now get c st st' url, get_blob cf now get c st = (st', Ok url) ->
  exists k b, In (k, b) st /\ b_cid b = Some c /\ b_inactive b = false /\ url = url_of k b /\
    (must_fetch cf now b = false \/
     must_fetch cf now b = true /\ exists r content, get url = Answer r /\ ok r = true /\ r_body r = Ok content).
Proof. exact get_found. Qed.
Print Assumptions C61_partial.
Example C61_example : snd (get_blob bcf 2000 (always broken) (raw_cid bcf [1; 2; 3]%N) st3) = Ok url1 /\
  snd (get_blob bcf 2000 (always broken) (raw_cid bcf [9]%N) st3) = Err ValueError.
Proof. split; vm_compute; reflexivity. Qed.

(** Even if the content has just been found to have changed, the old CID is redirected there. *)
Theorem C61_refuted : exists now get c st st' url r content, later bcf readable [] st /\
  get_blob bcf now get c st = (st', Ok url) /\ get url = Answer r /\ r_body r = Ok content /\ raw_cid bcf content <> c /\
  exists b, dget url st' = Some b /\ b_cid b = Some (raw_cid bcf content).
Proof. exact redirected. Qed.
Print Assumptions C61_refuted.

(** ** C62: listBlobs *)

(** Following the cursors gives the CID of every blob of the repo that has one, once for each URL, in
    the order of the URLs, and nothing else. *)
Theorem C62_pages : forall cf P loads did limit st, (0 < max_key cf)%nat -> later cf P [] st -> (0 < limit)%nat -> loads did = Ok tt ->
  exists l bs, blob_pages loads did limit st None l /\ ssorted (keys bs) /\ map (fun x => b_cid (snd x)) bs = map Some l /\
    forall k b, In (k, b) bs <-> In (k, b) st /\ In did (b_repos b) /\ b_cid b <> None.
Proof. exact pages_later. Qed.
Print Assumptions C62_pages.
Theorem C62_pages_unique : forall loads did limit st c l l', blob_pages loads did limit st c l -> blob_pages loads did limit st c l' -> l = l'.
Proof. exact pages_fun. Qed.
Print Assumptions C62_pages_unique.
Example C62_example : let c1 := raw_cid bcf [1; 2; 3]%N in let c2 := raw_cid bcf [4]%N in
  list_blobs (fun _ => Ok tt) alice None 1 None st3 = Ok ([c1], Some url1) /\
  list_blobs (fun _ => Ok tt) alice None 1 (Some url1) st3 = Ok ([c2], Some url2) /\
  list_blobs (fun _ => Ok tt) alice None 1 (Some url2) st3 = Ok ([], None) /\
  list_blobs (fun _ => Ok tt) bob None 5 None st3 = Ok ([c1], None).
Proof. vm_compute. repeat split. Qed.

(** One request after the other, a repo that asked for a blob stays with it. *)
Theorem C62_kept : forall cf st st' now url did get max accept, later cf (fun _ => True) [] st -> url <> [] ->
  later cf (fun _ => True) (fst (get_or_create cf now url (Some did) get max accept st)) st' ->
  exists b, dget (firstn (max_key cf) url) st' = Some b /\ In did (b_repos b).
Proof. exact remembered. Qed.
Print Assumptions C62_kept.
Example C62_kept_example : later bcf (fun _ => True) (fst (get_or_create bcf 1000 url1 (Some alice) (always image) None (Some [s "image/*"]) [])) st3.
Proof. apply later_create; [|easy]. apply later_create; [|easy]. constructor. Qed.

(** But of two requests at the same time, the first one's second write may undo what the other one
    wrote, and a repo gets a blob that is never listed for it. *)
Theorem C62_refuted : exists acts w c b e, run bcf (World [] [] []) acts = Some w /\
  nth_error (w_threads w) 1 = Some (TDone (Some c) (Ok b)) /\ c_repo c = Some bob /\ In bob (b_repos b) /\
  Forall (fun t => match t with TDone _ _ => True | _ => False end) (w_threads w) /\
  w_store w = [(c_url c, e)] /\ b_cid e <> None /\ ~ In bob (b_repos e).
Proof. exact forgotten. Qed.
Print Assumptions C62_refuted.
