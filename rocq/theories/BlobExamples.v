(** Runs with remote blobs. *)
From Coq Require Import String List NArith ZArith Bool.
From Verif Require Import Base Lists Sha256 CodecModel BlobModel BlobSpec.
Import ListNotations.
Local Open Scope Z_scope.

Definition decimal (x : str) : option Z :=
  match x with
  | [] => None
  | _ => fold_left (fun acc c => match acc with Some n => if (48 <=? c)%N && (c <=? 57)%N then Some (10 * n + (Z.of_N c - 48)) else None | None => None end) x (Some 0)
  end.
(** The values that the code has by default; times in seconds. *)
Definition bcf : blob_config := BlobConfig 100000000 604800 [s "image"] 180000 1500
  (fun m a => match a with None => true | Some l => existsb (str_eqb m) l || existsb (str_eqb (major m ++ s "/*")) l end)
  (fun _ => None) decimal (fun _ => None) sha256.
Lemma bcf_values : 0 <= max_bytes bcf /\ (0 < max_key bcf)%nat /\ 0 <= refetch_age bcf.
Proof. split; [discriminate|]. split; [apply Nat.ltb_lt; reflexivity|discriminate]. Qed.

Definition alice : str := s "did:plc:alice".
Definition bob : str := s "did:plc:bob".
Definition url1 : str := s "https://a.example/1.png".
Definition url2 : str := s "https://a.example/2".
Definition image : outcome := Answer (Response 200 (Some (s "image/png")) (Some (s "3")) (Ok [1; 2; 3]%N)).
Definition changed : outcome := Answer (Response 200 (Some (s "image/png")) None (Ok [4]%N)).
Definition broken : outcome := Answer (Response 200 (Some (s "image/png")) (Some (s "3")) (Err (OtherError (s "requests.ConnectionError")))).
Definition always (o : outcome) : str -> outcome := fun _ => o.

Definition st1 : store := fst (get_or_create bcf 1000 url1 (Some alice) (always image) None (Some [s "image/*"]) []).
Definition st2 : store := fst (get_or_create bcf 1001 url2 (Some alice) (always changed) None None st1).
Definition st3 : store := fst (get_or_create bcf 1002 url1 (Some bob) (always image) None None st2).
Lemma image_readable : readable image. Proof. cbn. eauto. Qed.
Lemma changed_readable : readable changed. Proof. cbn. eauto. Qed.
Lemma st3_later (P : outcome -> Prop) : P image -> P changed -> later bcf P [] st3.
Proof. intros A B. apply later_create; [apply later_create; [apply later_create; [constructor|]|]|]; unfold always; auto. Qed.

(** A body that cannot be read, then another request for the same URL. *)
Definition failed : store * res blob := get_or_create bcf 1000 url1 None (always broken) None None [].
Lemma failed_then : snd failed = Err (OtherError (s "requests.ConnectionError")) /\
  exists b, snd (get_or_create bcf 5000000 url1 None (always image) None None (fst failed)) = Ok b /\ b_cid b = None.
Proof. split; [vm_compute; reflexivity|]. eexists. split; vm_compute; reflexivity. Qed.

(** Two requests for the same URL at the same time. *)
Definition call1 : call := Call url1 (Some alice) None None.
Definition call2 : call := Call url1 (Some bob) None None.
Definition race : list act := [ACall 1000 call1; AFetch 0 1000 image; ACall 1000 call2; AFetch 1 1000 image; ARead 0 1000].
Lemma race_runs : match run bcf (World [] [] []) race with
  | Some w =>
      match nth_error (w_threads w) 0, nth_error (w_threads w) 1, dget url1 (w_store w) with
      | Some (TDone (Some c) (Ok b)), Some (TDone (Some c') (Ok b')), Some e =>
          c = call1 /\ b_cid b <> None /\ c' = call2 /\ b_cid b' = None /\ In bob (b_repos b') /\ b_repos e = [alice]
      | _, _, _ => False
      end
  | None => False
  end.
Proof.
  vm_compute. split; [reflexivity|]. split; [discriminate|]. split; [reflexivity|]. split; [reflexivity|]. split; [|reflexivity]. right. now left.
Qed.

(** Two long URLs. *)
Definition long1 : str := s "https://a.example/" ++ repeat 97%N 1500 ++ s "1".
Definition long2 : str := s "https://a.example/" ++ repeat 97%N 1500 ++ s "2".
Definition longs : list act := [ACall 1000 (Call long1 None None None); AFetch 0 1000 image; ARead 0 1000; ACall 1001 (Call long2 None None None); AFetch 1 1001 changed].
Lemma longs_run : match run bcf (World [] [] []) longs with
  | Some w =>
      match nth_error (w_threads w) 1 with
      | Some (TDone (Some c) (Ok b)) => c_url c = long2 /\ b_cid b = Some (raw_cid bcf [1; 2; 3]%N) /\ map fst (w_fetched w) = [long1]
      | _ => False
      end
  | None => False
  end.
Proof. vm_compute. split; [reflexivity|]. split; reflexivity. Qed.

(** The content has changed when the blob is asked for. *)
Lemma moved : dget url1 st1 <> None /\
  snd (get_blob bcf 5000000 (always changed) (raw_cid bcf [1; 2; 3]%N) st1) = Ok url1 /\
  raw_cid bcf [4]%N <> raw_cid bcf [1; 2; 3]%N /\
  option_map b_cid (dget url1 (fst (get_blob bcf 5000000 (always changed) (raw_cid bcf [1; 2; 3]%N) st1))) = Some (Some (raw_cid bcf [4]%N)).
Proof. split; [vm_compute; discriminate|]. split; [vm_compute; reflexivity|]. split; [vm_compute; discriminate|]. vm_compute. reflexivity. Qed.

Lemma no_cid :
  (exists st b, later bcf (fun _ => True) [] st /\ snd (get_or_create bcf 5000000 url1 None (always image) None None st) = Ok b /\ b_cid b = None) /\
  (exists acts w c b, run bcf (World [] [] []) acts = Some w /\ nth_error (w_threads w) 1 = Some (TDone (Some c) (Ok b)) /\ b_cid b = None /\
    Forall (fun a => match a with AFetch _ _ o => readable o | _ => True end) acts).
Proof.
  split.
  - destruct failed_then as (_ & b & E & C). exists (fst failed), b. split; [|auto]. apply later_create; [constructor|easy].
  - exists race. eexists _, _, _. split; [vm_compute; reflexivity|]. split; [vm_compute; reflexivity|]. split; [reflexivity|].
    unfold race. constructor; [exact I|]. constructor; [exact image_readable|]. constructor; [exact I|]. constructor; [exact image_readable|].
    constructor; [exact I|constructor].
Qed.
Lemma confused : exists acts w c b content, run bcf (World [] [] []) acts = Some w /\
  nth_error (w_threads w) 1 = Some (TDone (Some c) (Ok b)) /\ b_cid b = Some (raw_cid bcf content) /\
  map fst (w_fetched w) = [long1] /\ c_url c = long2 /\ long1 <> long2.
Proof.
  exists longs. eexists _, _, _, [1; 2; 3]%N. split; [vm_compute; reflexivity|]. split; [vm_compute; reflexivity|]. split; [vm_compute; reflexivity|].
  split; [vm_compute; reflexivity|]. split; [vm_compute; reflexivity|].
  unfold long1, long2. intros Q. apply app_inv_head in Q. apply app_inv_head in Q. discriminate.
Qed.
Lemma redirected : exists now get c st st' url r content, later bcf readable [] st /\
  get_blob bcf now get c st = (st', Ok url) /\ get url = Answer r /\ r_body r = Ok content /\ raw_cid bcf content <> c /\
  exists b, dget url st' = Some b /\ b_cid b = Some (raw_cid bcf content).
Proof.
  destruct moved as (_ & A & B & C). destruct (get_blob bcf 5000000 (always changed) (raw_cid bcf [1; 2; 3]%N) st1) as [st' out] eqn:E.
  cbn [fst snd] in A, C. subst out. exists 5000000, (always changed), (raw_cid bcf [1; 2; 3]%N), st1, st', url1. eexists _, [4]%N.
  split; [apply later_create; [constructor|intros u; exact image_readable]|]. split; [exact E|]. split; [reflexivity|]. split; [reflexivity|].
  split; [exact B|]. destruct (dget url1 st') as [b|]; [|discriminate]. exists b. split; [reflexivity|]. cbn [option_map] in C. congruence.
Qed.
Lemma forgotten : exists acts w c b e, run bcf (World [] [] []) acts = Some w /\
  nth_error (w_threads w) 1 = Some (TDone (Some c) (Ok b)) /\ c_repo c = Some bob /\ In bob (b_repos b) /\
  Forall (fun t => match t with TDone _ _ => True | _ => False end) (w_threads w) /\
  w_store w = [(c_url c, e)] /\ b_cid e <> None /\ ~ In bob (b_repos e).
Proof.
  exists race. eexists _, _, _, _. split; [vm_compute; reflexivity|]. split; [vm_compute; reflexivity|]. split; [vm_compute; reflexivity|].
  split; [vm_compute; right; now left|]. split; [vm_compute; repeat constructor|]. split; [vm_compute; reflexivity|].
  split; [vm_compute; discriminate|]. vm_compute. intros [H|[]]. discriminate.
Qed.
