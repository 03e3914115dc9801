(** Lookups that fail make the call raise what they raised, and nothing else. *)
From Coq Require Import String List NArith ZArith Bool Lia Permutation.
From Verif Require Import Base Ipld MstModel TidModel CarModel StorageModel UriModel ServerModel RawModel FaultModel.
Import ListNotations.

Section F.
Variable fails : nat -> list str -> option exn.
Variable ds : nat -> list str -> response.
Variable name_of : cid -> str.
Variable rounds : nat.

(** [y] is [x], or what a lookup raised. *)
Definition or_fails {A} (x y : res A) : Prop := y = x \/ exists n keys e, fails n keys = Some e /\ y = Err e.

Lemma or_refl {A} (x : res A) : or_fails x x.
Proof. left. reflexivity. Qed.
Lemma or_bind {A B} (x y : res A) (f g : A -> res B) : or_fails x y -> (forall a, x = Ok a -> or_fails (f a) (g a)) -> or_fails (bind x f) (bind y g).
Proof.
  intros [->|(n & k & e & F & ->)] H; [|right; exists n, k, e; auto]. destruct x as [a|e]; [exact (H a eq_refl)|left; reflexivity].
Qed.

Lemma take_app kc a : forall b d, take_found kc (a ++ b) d = bind (take_found kc a d) (take_found kc b).
Proof. induction a as [|[nm x] a IH]; intros b d; cbn [app take_found]; [reflexivity|]. destruct (dget nm kc); [apply IH|reflexivity]. Qed.
Lemma futures_take kc bs : forall n d p, or_fails
  (bind (take_found kc (flat_map fst (lookups ds n bs)) d) (fun d' => Ok (d', p ++ flat_map snd (lookups ds n bs))))
  (take_futures kc (futures fails ds n bs) d p).
Proof.
  induction bs as [|b bs IH]; intros n d p; cbn [lookups futures flat_map take_futures].
  - cbn [take_found bind]. rewrite app_nil_r. apply or_refl.
  - destruct (fails n b) as [e|] eqn:F; [right; exists n, b, e; auto|]. cbn [bind]. rewrite take_app. destruct (take_found kc (fst (ds n b)) d) as [d1|e]; cbn [bind]; [|apply or_refl].
    rewrite app_assoc. apply IH.
Qed.
Lemma rounds_or kc k : forall n p d, or_fails (raw_rounds ds k n kc p d) (fault_rounds fails ds k n kc p d).
Proof.
  induction k as [|k IH]; intros n p d; destruct p as [|x p]; cbn [raw_rounds fault_rounds]; try apply or_refl. set (bs := batches (length (x :: p)) (x :: p)).
  pose proof (futures_take kc bs n d []) as H. cbn [app] in H. destruct H as [->|(m & q & e & F & ->)]; [|right; exists m, q, e; auto].
  destruct (take_found kc (flat_map fst (lookups ds n bs)) d) as [d1|e]; cbn [bind fst snd]; [apply IH|apply or_refl].
Qed.
Lemma read_or n cids : or_fails (ds_read_many_raw ds name_of rounds n cids) (fault_read_many_raw fails ds name_of rounds n cids).
Proof. apply rounds_or. Qed.
Lemma nodes_or fuel : forall n start l, or_fails (ds_load_nodes ds name_of rounds fuel n start l) (fault_load_nodes fails ds name_of rounds fuel n start l).
Proof.
  induction fuel as [|f IH]; intros n start l; destruct l as [|c l]; cbn [ds_load_nodes fault_load_nodes]; try apply or_refl.
  apply or_bind; [apply read_or|]. intros bn _. apply or_bind; [apply or_refl|]. intros [[out leaves] next] _. apply or_bind; [apply IH|]. intros [[out' leaves'] n'] _. apply or_refl.
Qed.
Lemma all_or digest m start : or_fails (ds_load_all ds name_of rounds digest m start) (fault_load_all fails ds name_of rounds digest m start).
Proof.
  unfold ds_load_all, fault_load_all. apply or_bind; [apply or_refl|]. intros root _. apply or_bind; [apply nodes_or|]. intros [[out leaves] n] _.
  apply or_bind; [apply read_or|]. intros bn _. apply or_refl.
Qed.
Lemma repo_or digest ok disabled did since st :
  or_fails (snd (ds_get_repo ds name_of rounds digest ok disabled did since st)) (snd (fault_get_repo fails ds name_of rounds digest ok disabled did since st)).
Proof.
  unfold ds_get_repo, fault_get_repo. assert (B : forall A B (m : M A) (f g : A -> M B) st, (forall a st', or_fails (snd (f a st')) (snd (g a st'))) ->
    or_fails (snd (bindM m f st)) (snd (bindM m g st))).
  { intros A B m f g st0 H. unfold bindM. destruct (m st0) as [st1 [a|e]]; [apply H|apply or_refl]. }
  repeat (apply B; clear st; intros ? st). unfold bindM, lift. cbn [fst snd].
  destruct (all_or digest (r_mst a2) a1) as [->|(n & k & e & F & ->)]; [apply or_refl|]. right. exists n, k, e. auto.
Qed.
End F.
