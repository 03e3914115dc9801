(** IPLD values, their DAG-CBOR encoding and CIDs. *)
From Coq Require Import List NArith ZArith Bool.
From Verif Require Import Base.
Import ListNotations.
Local Open Scope N_scope.

(** A CID in binary form: version, codec and multihash bytes.
    [multiformats.CID] as used throughout the code base. *)
Definition cid := list N.

(** Values of the IPLD data model, as passed to and returned by [dag_cbor] and
    [libipld] (arroba/storage.py:72-142, arroba/util.py:67-78).
    Simplified: no floats (the AT Protocol data model forbids them), and text is
    not checked for UTF-8 validity. A Python dict is an association list. *)
Inductive ipld :=
| INull
| IBool (b : bool)
| IInt (z : Z)
| IBytes (b : list N)
| IText (t : str)
| IList (l : list ipld)
| IMap (m : list (str * ipld))
| ILink (c : cid).

(** Big endian bytes of [n], [k] of them. *)
Fixpoint be (k : nat) (n : N) : list N :=
  match k with
  | O => []
  | S k' => be k' (n / 256) ++ [n mod 256]
  end.

Fixpoint pos_bits (p : positive) : list N :=
  match p with xH => [2] | xO p' => 0 :: pos_bits p' | xI p' => 1 :: pos_bits p' end.

(** CBOR item head: major type and argument, shortest form.
    Simplified: [dag_cbor] raises for arguments of 2^64 or more, which no real
    object reaches. The model continues with an otherwise unused head byte, so
    that the function is total and still injective. *)
Definition head (major n : N) : list N :=
  if n <? 24 then [32 * major + n]
  else if n <? 256 then 32 * major + 24 :: be 1 n
  else if n <? 65536 then 32 * major + 25 :: be 2 n
  else if n <? 4294967296 then 32 * major + 26 :: be 4 n
  else if n <? 18446744073709551616 then 32 * major + 27 :: be 8 n
  else 32 * major + 28 :: match n with 0 => [] | Npos p => pos_bits p end.

Definition len {A} (l : list A) : N := N.of_nat (length l).

(** DAG-CBOR encoding, map entries in the order given ([dag_cbor.encode]). *)
Fixpoint encode (v : ipld) : list N :=
  match v with
  | INull => [246]
  | IBool false => [244]
  | IBool true => [245]
  | IInt z => if (0 <=? z)%Z then head 0 (Z.to_N z) else head 1 (Z.to_N (-1 - z))
  | IBytes b => head 2 (len b) ++ b
  | IText t => head 3 (len t) ++ t
  | IList l => head 4 (len l) ++ flat_map encode l
  | IMap m => head 5 (len m) ++
      flat_map (fun kv => match kv with (k, w) => head 3 (len k) ++ k ++ encode w end) m
  | ILink c => head 6 42 ++ head 2 (1 + len c) ++ 0 :: c
  end.

(** DAG-CBOR orders map keys by length first, then bytewise. *)
Definition key_leb (a b : str) : bool :=
  match N.compare (len a) (len b) with
  | Lt => true
  | Gt => false
  | Eq => str_leb a b
  end.

Fixpoint insert_key {V} (kv : str * V) (m : list (str * V)) : list (str * V) :=
  match m with
  | [] => [kv]
  | kv' :: m' => if key_leb (fst kv) (fst kv') then kv :: m else kv' :: insert_key kv m'
  end.

Definition sort_keys {V} (m : list (str * V)) : list (str * V) := fold_right insert_key [] m.

(** The canonical representative of a value: all maps in DAG-CBOR key order. *)
Fixpoint norm (v : ipld) : ipld :=
  match v with
  | IList l => IList (map norm l)
  | IMap m => IMap (sort_keys (map (fun kv => match kv with (k, w) => (k, norm w) end) m))
  | _ => v
  end.

(** [dag_cbor.encode(v)]: sorts map keys, then encodes. *)
Definition dag_cbor_encode (v : ipld) : list N := encode (norm v).

(** ** Decoding ([dag_cbor.decode], [libipld.decode_dag_cbor]) *)

Fixpoint of_be (acc : N) (l : list N) : N :=
  match l with [] => acc | b :: l' => of_be (acc * 256 + b) l' end.

Fixpoint take (k : nat) (l : list N) : option (list N * list N) :=
  match k, l with
  | O, _ => Some ([], l)
  | S _, [] => None
  | S k', b :: l' => match take k' l' with Some (x, r) => Some (b :: x, r) | None => None end
  end.

(** [take] with the count as a binary number, not expanded beyond the input. *)
Definition takeN (n : N) (l : list N) : option (list N * list N) :=
  if len l <? n then None else take (N.to_nat n) l.

Fixpoint read_bits (l : list N) : option (positive * list N) :=
  match l with
  | [] => None
  | b :: l' =>
      if b =? 2 then Some (xH, l')
      else match read_bits l' with
           | Some (p, r) => if b =? 0 then Some (xO p, r)
                            else if b =? 1 then Some (xI p, r) else None
           | None => None
           end
  end.

Definition dec_head (l : list N) : option (N * N * list N) :=
  match l with
  | [] => None
  | b :: l' =>
      let major := b / 32 in
      let info := b mod 32 in
      let ext k := match take k l' with Some (x, r) => Some (major, of_be 0 x, r) | None => None end in
      if info <? 24 then Some (major, info, l')
      else if info =? 24 then ext 1%nat
      else if info =? 25 then ext 2%nat
      else if info =? 26 then ext 4%nat
      else if info =? 27 then ext 8%nat
      else if info =? 28 then
        match read_bits l' with Some (p, r) => Some (major, Npos p, r) | None => None end
      else None
  end.

(** Decoder. The fuel bounds the nesting depth plus the item index; [decode]
    supplies twice the input length, which always suffices for encoded values. *)
Fixpoint dec (f : nat) (l : list N) {struct f} : option (ipld * list N) :=
  match f with
  | O => None
  | S f' =>
      match dec_head l with
      | None => None
      | Some (major, n, r) =>
          if major =? 0 then Some (IInt (Z.of_N n), r)
          else if major =? 1 then Some (IInt (-1 - Z.of_N n), r)
          else if major =? 2 then
            match takeN n r with Some (b, r') => Some (IBytes b, r') | None => None end
          else if major =? 3 then
            match takeN n r with Some (b, r') => Some (IText b, r') | None => None end
          else if major =? 4 then
            match dec_items f' n r with Some (x, r') => Some (IList x, r') | None => None end
          else if major =? 5 then
            match dec_pairs f' n r with Some (x, r') => Some (IMap x, r') | None => None end
          else if major =? 6 then
            match dec_head r with
            | Some (2, k, r') =>
                match takeN k r' with
                | Some (0 :: c, r'') => Some (ILink c, r'')
                | _ => None
                end
            | _ => None
            end
          else if n =? 20 then Some (IBool false, r)
          else if n =? 21 then Some (IBool true, r)
          else if n =? 22 then Some (INull, r)
          else None
      end
  end
with dec_items (f : nat) (n : N) (l : list N) {struct f} : option (list ipld * list N) :=
  match f with
  | O => None
  | S f' =>
      if n =? 0 then Some ([], l)
      else match dec f' l with
           | None => None
           | Some (v, r) =>
               match dec_items f' (n - 1) r with
               | None => None
               | Some (vs, r') => Some (v :: vs, r')
               end
           end
  end
with dec_pairs (f : nat) (n : N) (l : list N) {struct f} : option (list (str * ipld) * list N) :=
  match f with
  | O => None
  | S f' =>
      if n =? 0 then Some ([], l)
      else match dec_head l with
           | Some (3, k, r0) =>
               match takeN k r0 with
               | None => None
               | Some (key, r1) =>
                   match dec f' r1 with
                   | None => None
                   | Some (v, r) =>
                       match dec_pairs f' (n - 1) r with
                       | None => None
                       | Some (vs, r') => Some ((key, v) :: vs, r')
                       end
                   end
               end
           | _ => None
           end
  end.

Definition decode (l : list N) : option ipld :=
  match dec (2 * length l) l with
  | Some (v, []) => Some v
  | _ => None
  end.

(** ** CIDs *)

(** [util.dag_cbor_cid] (arroba/util.py:67-78): CIDv1 (1), codec dag-cbor
    (0x71), multihash sha2-256 (0x12) of 32 bytes (0x20). The hash function is a
    parameter. [cid_of] takes a value whose maps are already in canonical order;
    [dag_cbor_cid] sorts first, as the code does. *)
Definition cid_of (digest : list N -> list N) (v : ipld) : cid :=
  [1; 113; 18; 32] ++ digest (encode v).

Definition dag_cbor_cid (digest : list N -> list N) (v : ipld) : cid :=
  cid_of digest (norm v).
