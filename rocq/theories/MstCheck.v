(** Runs of the model against the fixtures in /repo/arroba/tests, with a real
    SHA-256. These are tests of the model's fidelity, not claims. *)
From Coq Require Import String List NArith ZArith Bool.
From Verif Require Import Base Ipld Sha256 MstModel.
Import ListNotations.
Local Open Scope N_scope.

(** Multibase base32 (prefix b) to bytes. *)
Definition b32val (c : N) : N := if 97 <=? c then c - 97 else c - 24.
Fixpoint b32bits (l : list N) (acc nbits : N) : list N :=
  match l with
  | [] => []
  | c :: r =>
      let acc := acc * 32 + b32val c in
      let nbits := nbits + 5 in
      if 8 <=? nbits
      then acc / 2 ^ (nbits - 8) :: b32bits r (acc mod 2 ^ (nbits - 8)) (nbits - 8)
      else b32bits r acc nbits
  end.
Definition b32 (x : string) : cid := b32bits (tl (s x)) 0 0.
Arguments b32 x%string.

Definition norm_rd : cid -> option ipld := fun _ => None.
Definition empty_mst : res mst := mst_create sha256 [] None.
Definition adds (ks : list string) (v : cid) (m : res mst) : res mst :=
  fold_left (fun m k => do m' <- m; add sha256 sha256 norm_rd max_depth m' (s k) v None) ks m.
Definition dels (ks : list string) (m : res mst) : res mst :=
  fold_left (fun m k => do m' <- m; delete sha256 norm_rd max_depth m' (s k)) ks m.
Definition root (m : res mst) : res cid := do m' <- m; get_pointer sha256 m'.

Example cid_foo_bar :
  dag_cbor_cid sha256 (IMap [(s "foo", IText (s "bar"))])
  = b32 "bafyreiblaotetvwobe7cu2uqvnddr6ew2q3cu75qsoweulzku2egca4dxq".
Proof. vm_compute. reflexivity. Qed.

Example key_height_0 : leading_zeros_on_hash sha256 (s "") = 0%Z.
Proof. vm_compute. reflexivity. Qed.
Example key_height_1 : leading_zeros_on_hash sha256 (s "asdf") = 0%Z.
Proof. vm_compute. reflexivity. Qed.
Example key_height_2 : leading_zeros_on_hash sha256 (s "blue") = 1%Z.
Proof. vm_compute. reflexivity. Qed.
Example key_height_3 : leading_zeros_on_hash sha256 (s "2653ae71") = 0%Z.
Proof. vm_compute. reflexivity. Qed.
Example key_height_4 : leading_zeros_on_hash sha256 (s "88bfafc7") = 2%Z.
Proof. vm_compute. reflexivity. Qed.
Example key_height_5 : leading_zeros_on_hash sha256 (s "2a92d355") = 4%Z.
Proof. vm_compute. reflexivity. Qed.
Example key_height_6 : leading_zeros_on_hash sha256 (s "884976f5") = 6%Z.
Proof. vm_compute. reflexivity. Qed.
Example key_height_7 : leading_zeros_on_hash sha256 (s "app.bsky.feed.post/454397e440ec") = 4%Z.
Proof. vm_compute. reflexivity. Qed.
Example key_height_8 : leading_zeros_on_hash sha256 (s "app.bsky.feed.post/9adeb165882c") = 8%Z.
Proof. vm_compute. reflexivity. Qed.
Example common_prefix_0 : common_prefix_len [] [] = 0%nat.
Proof. vm_compute. reflexivity. Qed.
Example common_prefix_1 : common_prefix_len [97; 98; 99] [97; 98; 99] = 3%nat.
Proof. vm_compute. reflexivity. Qed.
Example common_prefix_2 : common_prefix_len [] [97; 98; 99] = 0%nat.
Proof. vm_compute. reflexivity. Qed.
Example common_prefix_3 : common_prefix_len [97; 98; 99] [] = 0%nat.
Proof. vm_compute. reflexivity. Qed.
Example common_prefix_4 : common_prefix_len [97; 98] [97; 98; 99] = 2%nat.
Proof. vm_compute. reflexivity. Qed.
Example common_prefix_5 : common_prefix_len [97; 98; 99] [97; 98] = 2%nat.
Proof. vm_compute. reflexivity. Qed.
Example common_prefix_6 : common_prefix_len [97; 98; 99; 100; 101] [97; 98; 99] = 3%nat.
Proof. vm_compute. reflexivity. Qed.
Example common_prefix_7 : common_prefix_len [97; 98; 99] [97; 98; 99; 100; 101] = 3%nat.
Proof. vm_compute. reflexivity. Qed.
Example common_prefix_8 : common_prefix_len [97; 98; 99; 100; 101] [97; 98; 99; 49] = 3%nat.
Proof. vm_compute. reflexivity. Qed.
Example common_prefix_9 : common_prefix_len [97; 98; 99; 100; 101] [97; 98; 98] = 2%nat.
Proof. vm_compute. reflexivity. Qed.
Example common_prefix_10 : common_prefix_len [97; 98; 99; 100; 101] [113; 98; 98] = 0%nat.
Proof. vm_compute. reflexivity. Qed.
Example common_prefix_11 : common_prefix_len [97; 98; 99] [97; 98; 99; 0] = 3%nat.
Proof. vm_compute. reflexivity. Qed.
Example common_prefix_12 : common_prefix_len [97; 98; 99; 0] [97; 98; 99] = 3%nat.
Proof. vm_compute. reflexivity. Qed.
Definition cid1 : cid := b32 "bafyreie5cvv4h45feadgeuwhbcutmh6t2ceseocckahdoe6uat64zmz454".
Example empty_root : root empty_mst = Ok (b32 "bafyreie5737gdxlw5i64vzichcalba3z2v5n6icifvx5xytvske7mr3hpm").
Proof. vm_compute. reflexivity. Qed.
Example trivial_root :
  root (adds ["com.example.record/3jqfcqzm3fo2j"%string] cid1 empty_mst)
  = Ok (b32 "bafyreibj4lsc3aqnrvphp5xmrnfoorvru4wynt6lwidqbm2623a6tatzdu").
Proof. vm_compute. reflexivity. Qed.
Example single_layer2 :
  root (adds ["com.example.record/3jqfcqzm3fx2j"%string] cid1 empty_mst)
  = Ok (b32 "bafyreih7wfei65pxzhauoibu3ls7jgmkju4bspy4t2ha2qdjnzqvoy33ai").
Proof. vm_compute. reflexivity. Qed.
Example simple_tree :
  root (adds ["com.example.record/3jqfcqzm3fp2j"%string; "com.example.record/3jqfcqzm3fr2j"%string; "com.example.record/3jqfcqzm3fs2j"%string; "com.example.record/3jqfcqzm3ft2j"%string; "com.example.record/3jqfcqzm4fc2j"%string] cid1 empty_mst)
  = Ok (b32 "bafyreicmahysq4n6wfuxo522m6dpiy7z7qzym3dzs756t5n7nfdgccwq7m").
Proof. vm_compute. reflexivity. Qed.
Example test_trims_top_of_tree_on_delete_0 :
  root (adds ["com.example.record/3jqfcqzm3fu2j"%string] cid1 (adds ["com.example.record/3jqfcqzm3ft2j"%string] cid1 (adds ["com.example.record/3jqfcqzm3fs2j"%string] cid1 (adds ["com.example.record/3jqfcqzm3fp2j"%string] cid1 (adds ["com.example.record/3jqfcqzm3fo2j"%string] cid1 (adds ["com.example.record/3jqfcqzm3fn2j"%string] cid1 empty_mst))))))
  = Ok (b32 "bafyreifnqrwbk6ffmyaz5qtujqrzf5qmxf7cbxvgzktl4e3gabuxbtatv4").
Proof. vm_compute. reflexivity. Qed.
Example test_trims_top_of_tree_on_delete_1 :
  root (dels ["com.example.record/3jqfcqzm3fs2j"%string] (adds ["com.example.record/3jqfcqzm3fu2j"%string] cid1 (adds ["com.example.record/3jqfcqzm3ft2j"%string] cid1 (adds ["com.example.record/3jqfcqzm3fs2j"%string] cid1 (adds ["com.example.record/3jqfcqzm3fp2j"%string] cid1 (adds ["com.example.record/3jqfcqzm3fo2j"%string] cid1 (adds ["com.example.record/3jqfcqzm3fn2j"%string] cid1 empty_mst)))))))
  = Ok (b32 "bafyreie4kjuxbwkhzg2i5dljaswcroeih4dgiqq6pazcmunwt2byd725vi").
Proof. vm_compute. reflexivity. Qed.
Example test_handles_insertion_that_splits_two_layers_down_0 :
  root (adds ["com.example.record/3jqfcqzm4fh2j"%string] cid1 (adds ["com.example.record/3jqfcqzm4fg2j"%string] cid1 (adds ["com.example.record/3jqfcqzm4ff2j"%string] cid1 (adds ["com.example.record/3jqfcqzm4fd2j"%string] cid1 (adds ["com.example.record/3jqfcqzm4fc2j"%string] cid1 (adds ["com.example.record/3jqfcqzm3fz2j"%string] cid1 (adds ["com.example.record/3jqfcqzm3ft2j"%string] cid1 (adds ["com.example.record/3jqfcqzm3fs2j"%string] cid1 (adds ["com.example.record/3jqfcqzm3fr2j"%string] cid1 (adds ["com.example.record/3jqfcqzm3fp2j"%string] cid1 (adds ["com.example.record/3jqfcqzm3fo2j"%string] cid1 empty_mst)))))))))))
  = Ok (b32 "bafyreiettyludka6fpgp33stwxfuwhkzlur6chs4d2v4nkmq2j3ogpdjem").
Proof. vm_compute. reflexivity. Qed.
Example test_handles_insertion_that_splits_two_layers_down_1 :
  root (adds ["com.example.record/3jqfcqzm3fx2j"%string] cid1 (adds ["com.example.record/3jqfcqzm4fh2j"%string] cid1 (adds ["com.example.record/3jqfcqzm4fg2j"%string] cid1 (adds ["com.example.record/3jqfcqzm4ff2j"%string] cid1 (adds ["com.example.record/3jqfcqzm4fd2j"%string] cid1 (adds ["com.example.record/3jqfcqzm4fc2j"%string] cid1 (adds ["com.example.record/3jqfcqzm3fz2j"%string] cid1 (adds ["com.example.record/3jqfcqzm3ft2j"%string] cid1 (adds ["com.example.record/3jqfcqzm3fs2j"%string] cid1 (adds ["com.example.record/3jqfcqzm3fr2j"%string] cid1 (adds ["com.example.record/3jqfcqzm3fp2j"%string] cid1 (adds ["com.example.record/3jqfcqzm3fo2j"%string] cid1 empty_mst))))))))))))
  = Ok (b32 "bafyreid2x5eqs4w4qxvc5jiwda4cien3gw2q6cshofxwnvv7iucrmfohpm").
Proof. vm_compute. reflexivity. Qed.
Example test_handles_insertion_that_splits_two_layers_down_2 :
  root (dels ["com.example.record/3jqfcqzm3fx2j"%string] (adds ["com.example.record/3jqfcqzm3fx2j"%string] cid1 (adds ["com.example.record/3jqfcqzm4fh2j"%string] cid1 (adds ["com.example.record/3jqfcqzm4fg2j"%string] cid1 (adds ["com.example.record/3jqfcqzm4ff2j"%string] cid1 (adds ["com.example.record/3jqfcqzm4fd2j"%string] cid1 (adds ["com.example.record/3jqfcqzm4fc2j"%string] cid1 (adds ["com.example.record/3jqfcqzm3fz2j"%string] cid1 (adds ["com.example.record/3jqfcqzm3ft2j"%string] cid1 (adds ["com.example.record/3jqfcqzm3fs2j"%string] cid1 (adds ["com.example.record/3jqfcqzm3fr2j"%string] cid1 (adds ["com.example.record/3jqfcqzm3fp2j"%string] cid1 (adds ["com.example.record/3jqfcqzm3fo2j"%string] cid1 empty_mst)))))))))))))
  = Ok (b32 "bafyreiettyludka6fpgp33stwxfuwhkzlur6chs4d2v4nkmq2j3ogpdjem").
Proof. vm_compute. reflexivity. Qed.
Example test_handles_new_layers_that_are_two_higher_than_existing_0 :
  root (adds ["com.example.record/3jqfcqzm3fz2j"%string] cid1 (adds ["com.example.record/3jqfcqzm3ft2j"%string] cid1 empty_mst))
  = Ok (b32 "bafyreidfcktqnfmykz2ps3dbul35pepleq7kvv526g47xahuz3rqtptmky").
Proof. vm_compute. reflexivity. Qed.
Example test_handles_new_layers_that_are_two_higher_than_existing_1 :
  root (adds ["com.example.record/3jqfcqzm3fx2j"%string] cid1 (adds ["com.example.record/3jqfcqzm3fz2j"%string] cid1 (adds ["com.example.record/3jqfcqzm3ft2j"%string] cid1 empty_mst)))
  = Ok (b32 "bafyreiavxaxdz7o7rbvr3zg2liox2yww46t7g6hkehx4i4h3lwudly7dhy").
Proof. vm_compute. reflexivity. Qed.
Example test_handles_new_layers_that_are_two_higher_than_existing_2 :
  root (dels ["com.example.record/3jqfcqzm3fx2j"%string] (adds ["com.example.record/3jqfcqzm3fx2j"%string] cid1 (adds ["com.example.record/3jqfcqzm3fz2j"%string] cid1 (adds ["com.example.record/3jqfcqzm3ft2j"%string] cid1 empty_mst))))
  = Ok (b32 "bafyreidfcktqnfmykz2ps3dbul35pepleq7kvv526g47xahuz3rqtptmky").
Proof. vm_compute. reflexivity. Qed.
Example test_handles_new_layers_that_are_two_higher_than_existing_3 :
  root (adds ["com.example.record/3jqfcqzm4fd2j"%string] cid1 (adds ["com.example.record/3jqfcqzm3fx2j"%string] cid1 (dels ["com.example.record/3jqfcqzm3fx2j"%string] (adds ["com.example.record/3jqfcqzm3fx2j"%string] cid1 (adds ["com.example.record/3jqfcqzm3fz2j"%string] cid1 (adds ["com.example.record/3jqfcqzm3ft2j"%string] cid1 empty_mst))))))
  = Ok (b32 "bafyreig4jv3vuajbsybhyvb7gggvpwh2zszwfyttjrj6qwvcsp24h6popu").
Proof. vm_compute. reflexivity. Qed.
Example test_handles_new_layers_that_are_two_higher_than_existing_4 :
  root (dels ["com.example.record/3jqfcqzm4fd2j"%string] (adds ["com.example.record/3jqfcqzm4fd2j"%string] cid1 (adds ["com.example.record/3jqfcqzm3fx2j"%string] cid1 (dels ["com.example.record/3jqfcqzm3fx2j"%string] (adds ["com.example.record/3jqfcqzm3fx2j"%string] cid1 (adds ["com.example.record/3jqfcqzm3fz2j"%string] cid1 (adds ["com.example.record/3jqfcqzm3ft2j"%string] cid1 empty_mst)))))))
  = Ok (b32 "bafyreiavxaxdz7o7rbvr3zg2liox2yww46t7g6hkehx4i4h3lwudly7dhy").
Proof. vm_compute. reflexivity. Qed.
Example commit_fixture_0_before :
  root (adds ["A0/501344"%string; "B1/293486"%string; "C0/535043"%string; "E0/922708"%string; "F1/415452"%string; "G0/714257"%string] cid1 empty_mst)
  = Ok (b32 "bafyreibthlzzn3rwvmomwf4dz6utt7yeh5eyn6qwbumvjfv35gwanh7ovq").
Proof. vm_compute. reflexivity. Qed.
Example commit_fixture_0_after :
  root (adds ["D2/915466"%string] cid1 (adds ["A0/501344"%string; "B1/293486"%string; "C0/535043"%string; "E0/922708"%string; "F1/415452"%string; "G0/714257"%string] cid1 empty_mst))
  = Ok (b32 "bafyreidb6bxxylhmlzs4a6ruhcunv3fd32o6i5phlzkmjk6arletj2ua6a").
Proof. vm_compute. reflexivity. Qed.
Example commit_fixture_1_before :
  root (adds ["A0/501344"%string; "B0/436099"%string; "D0/360671"%string; "E0/922708"%string] cid1 empty_mst)
  = Ok (b32 "bafyreid7jnvjg7mr4akmyf7rtaz47duex2l47rz36nvs4i7yjnpuhfmehe").
Proof. vm_compute. reflexivity. Qed.
Example commit_fixture_1_after :
  root (adds ["C2/953910"%string] cid1 (adds ["A0/501344"%string; "B0/436099"%string; "D0/360671"%string; "E0/922708"%string] cid1 empty_mst))
  = Ok (b32 "bafyreih2ry5gae5r4m47unhhuw4w2qjdhe6oprw3w2uico2tzbflwi74eu").
Proof. vm_compute. reflexivity. Qed.
Example commit_fixture_2_before :
  root (adds ["A0/501344"%string; "B2/303249"%string; "C0/535043"%string] cid1 empty_mst)
  = Ok (b32 "bafyreifoy7ierkqljk37wozudqhqjuuahjnubqvd3qprx5ocwcfrx5v3hm").
Proof. vm_compute. reflexivity. Qed.
Example commit_fixture_2_after :
  root (adds ["D2/915466"%string] cid1 (adds ["A0/501344"%string; "B2/303249"%string; "C0/535043"%string] cid1 empty_mst))
  = Ok (b32 "bafyreid2i3nxmsvv3ifb53nlkjh3qaymygrrxuno6z22gctzdme5lbptky").
Proof. vm_compute. reflexivity. Qed.
Example commit_fixture_3_before :
  root (adds ["A0/501344"%string; "B2/303249"%string; "D2/915466"%string; "E0/922708"%string] cid1 empty_mst)
  = Ok (b32 "bafyreielnllkafudlseizljjx32rkkivlgxziqayhctgbxncw2srrox7ny").
Proof. vm_compute. reflexivity. Qed.
Example commit_fixture_3_after :
  root (dels ["B2/303249"%string; "D2/915466"%string] (adds ["C2/953910"%string] cid1 (adds ["A0/501344"%string; "B2/303249"%string; "D2/915466"%string; "E0/922708"%string] cid1 empty_mst)))
  = Ok (b32 "bafyreih6464tr7ue67qgllhiekgfmwiz45zuthrv72gwi2tjpuu5dbxt3a").
Proof. vm_compute. reflexivity. Qed.
Example commit_fixture_4_before :
  root (adds ["B0/436099"%string; "C2/953910"%string; "D0/360671"%string; "E2/413113"%string; "F0/606463"%string; "H0/740256"%string] cid1 empty_mst)
  = Ok (b32 "bafyreiej4jqggfhidabjfrjgogdwed5eglhnboepxscbwfrss4uclnrrmi").
Proof. vm_compute. reflexivity. Qed.
Example commit_fixture_4_after :
  root (dels ["C2/953910"%string] (adds ["A2/239654"%string; "G2/536869"%string] cid1 (adds ["B0/436099"%string; "C2/953910"%string; "D0/360671"%string; "E2/413113"%string; "F0/606463"%string; "H0/740256"%string] cid1 empty_mst)))
  = Ok (b32 "bafyreifykpu67c4w4ynkx4lvjfjwxdofax6gx7j2wxrl6ewt3yslezcb6i").
Proof. vm_compute. reflexivity. Qed.
Example commit_fixture_5_before :
  root (adds ["app.bsky.feed.post/3lo3kqqljmfe2"%string; "app.bsky.feed.post/3log4547dm6h2"%string; "app.bsky.feed.post/3log45inogon2"%string; "app.bsky.feed.post/3logaodrh74d2"%string; "app.bsky.feed.post/3logteazog2n2"%string; "app.bsky.feed.post/3lon5cqsbwrj2"%string; "app.bsky.feed.repost/3l6sjhvqonco2"%string] cid1 empty_mst)
  = Ok (b32 "bafyreigfcsro2up7qi7l3rxdpg7n6gjtteotkmgrrqztl5oy2tf4ncl4ji").
Proof. vm_compute. reflexivity. Qed.
Example commit_fixture_5_after :
  root (adds ["app.bsky.feed.post/3lon5dzeaihj2"%string] cid1 (adds ["app.bsky.feed.post/3lo3kqqljmfe2"%string; "app.bsky.feed.post/3log4547dm6h2"%string; "app.bsky.feed.post/3log45inogon2"%string; "app.bsky.feed.post/3logaodrh74d2"%string; "app.bsky.feed.post/3logteazog2n2"%string; "app.bsky.feed.post/3lon5cqsbwrj2"%string; "app.bsky.feed.repost/3l6sjhvqonco2"%string] cid1 empty_mst))
  = Ok (b32 "bafyreig33hsjiplaixvmccy65n7rn3in5nsbtcittzx6k3w5wjfhk2sg3a").
Proof. vm_compute. reflexivity. Qed.
Definition abc : res mst := adds ["A0/501344"; "B2/303249"; "C0/535043"]%string cid1 empty_mst.
Example cids_for_path_a :
  (do m <- abc; cids_for_path sha256 sha256 norm_rd max_depth m (s "A0/501344"))
  = Ok [b32 "bafyreifoy7ierkqljk37wozudqhqjuuahjnubqvd3qprx5ocwcfrx5v3hm";
        b32 "bafyreihexby6fnhajsjzzqkmegqpqt2lrr3rpesyl6kt3t3xppid7tuvfy";
        b32 "bafyreiciix65xuk62hu6ew6jdy3m2swqstvnuhuwcwffidk3nduf7eaoh4"; cid1].
Proof. vm_compute. reflexivity. Qed.
Example cids_for_path_b :
  (do m <- abc; cids_for_path sha256 sha256 norm_rd max_depth m (s "B2/303249"))
  = Ok [b32 "bafyreifoy7ierkqljk37wozudqhqjuuahjnubqvd3qprx5ocwcfrx5v3hm"; cid1].
Proof. vm_compute. reflexivity. Qed.
Example cids_for_path_c :
  (do m <- abc; cids_for_path sha256 sha256 norm_rd max_depth m (s "C0/535043"))
  = Ok [b32 "bafyreifoy7ierkqljk37wozudqhqjuuahjnubqvd3qprx5ocwcfrx5v3hm";
        b32 "bafyreiagiwrefvm27hvgryirykp7reqcpz56v6txzksgbargjlibtpsqwu";
        b32 "bafyreiewdvzcopoza6bdntvhmvdfqeolql6sckkiu75jpvfnwwnfi57jia"; cid1].
Proof. vm_compute. reflexivity. Qed.
