(** An executable SHA-256 (FIPS 180-4), used only to run the model against the
    fixtures of the test suite and in concrete examples. No theorem depends on
    its properties. *)
From Coq Require Import List NArith.
From Verif Require Import Ipld.
Import ListNotations.
Local Open Scope N_scope.

Definition w32 (x : N) : N := N.land x 4294967295.
Definition rotr (k x : N) : N := N.lor (N.shiftr x k) (w32 (N.shiftl x (32 - k))).
Definition not32 (x : N) : N := N.lxor x 4294967295.

Definition k256 : list N := [
  1116352408; 1899447441; 3049323471; 3921009573; 961987163; 1508970993; 2453635748; 2870763221;
  3624381080; 310598401; 607225278; 1426881987; 1925078388; 2162078206; 2614888103; 3248222580;
  3835390401; 4022224774; 264347078; 604807628; 770255983; 1249150122; 1555081692; 1996064986;
  2554220882; 2821834349; 2952996808; 3210313671; 3336571891; 3584528711; 113926993; 338241895;
  666307205; 773529912; 1294757372; 1396182291; 1695183700; 1986661051; 2177026350; 2456956037;
  2730485921; 2820302411; 3259730800; 3345764771; 3516065817; 3600352804; 4094571909; 275423344;
  430227734; 506948616; 659060556; 883997877; 958139571; 1322822218; 1537002063; 1747873779;
  1955562222; 2024104815; 2227730452; 2361852424; 2428436474; 2756734187; 3204031479; 3329325298
].

Definition h256 : list N := [1779033703; 3144134277; 1013904242; 2773480762; 1359893119; 2600822924; 528734635; 1541459225].

(** Padding: 0x80, zeros up to 56 mod 64, then the bit length in 8 bytes. *)
Definition pad (m : list N) : list N :=
  let l := len m in
  m ++ 128 :: repeat 0 (N.to_nat ((119 - l mod 64) mod 64)) ++ be 8 (8 * l).

Fixpoint words (fuel : nat) (l : list N) : list N :=
  match fuel with
  | O => []
  | S f => match l with
           | a :: b :: c :: d :: r => (a * 16777216 + b * 65536 + c * 256 + d) :: words f r
           | _ => []
           end
  end.

(** Message schedule, kept as the reversed list of words so far. *)
Fixpoint schedule (k : nat) (rev : list N) : list N :=
  match k with
  | O => rev
  | S k' =>
      let w2 := nth 1 rev 0 in let w7 := nth 6 rev 0 in
      let w15 := nth 14 rev 0 in let w16 := nth 15 rev 0 in
      let s0 := N.lxor (N.lxor (rotr 7 w15) (rotr 18 w15)) (N.shiftr w15 3) in
      let s1 := N.lxor (N.lxor (rotr 17 w2) (rotr 19 w2)) (N.shiftr w2 10) in
      schedule k' (w32 (w16 + s0 + w7 + s1) :: rev)
  end.

Fixpoint rounds (kw : list (N * N)) (a b c d e f g h : N) : list N :=
  match kw with
  | [] => [a; b; c; d; e; f; g; h]
  | (k, w) :: r =>
      let s1 := N.lxor (N.lxor (rotr 6 e) (rotr 11 e)) (rotr 25 e) in
      let ch := N.lxor (N.land e f) (N.land (not32 e) g) in
      let t1 := h + s1 + ch + k + w in
      let s0 := N.lxor (N.lxor (rotr 2 a) (rotr 13 a)) (rotr 22 a) in
      let mj := N.lxor (N.lxor (N.land a b) (N.land a c)) (N.land b c) in
      rounds r (w32 (t1 + s0 + mj)) a b c (w32 (d + t1)) e f g
  end.

Definition block (h w : list N) : list N :=
  match h with
  | [a; b; c; d; e; f; g; i] =>
      map (fun xy => w32 (fst xy + snd xy))
        (combine h (rounds (combine k256 (rev (schedule 48 (rev w)))) a b c d e f g i))
  | _ => []
  end.

Fixpoint blocks (fuel : nat) (h ws : list N) : list N :=
  match fuel, ws with
  | O, _ => h
  | _, [] => h
  | S f, _ => blocks f (block h (firstn 16 ws)) (skipn 16 ws)
  end.

Definition sha256 (m : list N) : list N :=
  let ws := words (length m + 100) (pad m) in
  flat_map (be 4) (blocks (length ws) h256 ws).
