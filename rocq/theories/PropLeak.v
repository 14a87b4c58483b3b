(** C74, C75: what the machine lets an observer learn while a block is encrypted. *)
From Verif Require Import Base Text MagmaModel KuzModel LeakModel SpecLeak Lib SpecText SpecMagma
  SpecKuz TestVectors KuzProofs LeakProofs.
Local Open Scope N_scope.

(** ** The functions that record events compute the values of the model *)

Theorem C74_same_magma (kd : keydata) (sbt : tsbox) (sb : sbox) (x : N * N) :
  (forall v, fst (sbt v) = sb v) ->
  fst (BlkEncrypted_t kd sbt (tret x)) = BlkEncrypted (Ok x) (Some (LazyKey kd sb)) /\
  fst (BlkDecrypted_t kd sbt (tret x)) = BlkDecrypted (Ok x) (Some (LazyKey kd sb)).
Proof. intros H. split; [apply (Encrypted_same kd sbt sb H)|apply (Decrypted_same kd sbt sb H)]. Qed.

Theorem C74_same_tables (p0 p1 p2 p3 p4 p5 p6 p7 : list Z) (uz : list N) (v : N) :
  fst (SboxR3412_t v) = SboxR3412 v /\
  fst (SboxNibble_t p0 p1 p2 p3 p4 p5 p6 p7 v) = SboxNibble p0 p1 p2 p3 p4 p5 p6 p7 v /\
  fst (SboxByte_t uz v) = SboxByte uz v.
Proof. split; [apply SboxR3412_same|split; [apply SboxNibble_same|apply SboxByte_same]]. Qed.

Theorem C74_same_kuznyechik (k : kkey) (x : N * N) :
  fst (Key_encrypt_t k (tret x)) = Key_encrypt k (Ok x).
Proof. apply Key_encrypt_same. Qed.

(** ** C74: refuted. Whoever sees the table accesses of one known block has the key *)

Theorem C74_magma_refuted (s s' : str) (x : N * N) :
  Forall hex_digit s -> List.length s = 64%nat -> Forall hex_digit s' -> List.length s' = 64%nat ->
  lookups (snd (BlkEncrypted_t (key_data (LazyKey_string s)) SboxR3412_t (tret x))) =
  lookups (snd (BlkEncrypted_t (key_data (LazyKey_string s')) SboxR3412_t (tret x))) \/
  lookups (snd (BlkDecrypted_t (key_data (LazyKey_string s)) SboxR3412_t (tret x))) =
  lookups (snd (BlkDecrypted_t (key_data (LazyKey_string s')) SboxR3412_t (tret x))) ->
  number s = number s'.
Proof.
  intros Hs Hl Hs' Hl' H. apply key_words_number.
  - now apply (number_lt_bits s 64).
  - now apply (number_lt_bits s' 64).
  - eapply magma_key_revealed; [apply R3412_reveals|now apply words_string..|exact H].
Qed.

(** With any other tables of the two table classes: *)
Theorem C74_nibbles_refuted (p0 p1 p2 p3 p4 p5 p6 p7 : list Z) (ws ws' : list N) (x : N * N) :
  Forall (fun p => 16 <= List.length p)%nat [p0; p1; p2; p3; p4; p5; p6; p7] ->
  List.length ws = 8%nat -> Forall u32 ws -> List.length ws' = 8%nat -> Forall u32 ws' ->
  let sb := SboxTwisted_t (SboxNibble_t p0 p1 p2 p3 p4 p5 p6 p7) in
  lookups (snd (BlkEncrypted_t (KeyDataNative ws) sb (tret x))) =
  lookups (snd (BlkEncrypted_t (KeyDataNative ws') sb (tret x))) -> ws = ws'.
Proof.
  intros Hp Hl Hw Hl' Hw' sb H.
  eapply (magma_key_revealed sb); [apply twisted_reveals, nibble_reveals, Hp
    |now apply words_native..|left; exact H].
Qed.

Theorem C74_bytes_refuted (uz : list N) (ws ws' : list N) (x : N * N) :
  (64 <= List.length uz)%nat ->
  List.length ws = 8%nat -> Forall u32 ws -> List.length ws' = 8%nat -> Forall u32 ws' ->
  let sb := SboxTwisted_t (SboxByte_t uz) in
  lookups (snd (BlkEncrypted_t (KeyDataNative ws) sb (tret x))) =
  lookups (snd (BlkEncrypted_t (KeyDataNative ws') sb (tret x))) -> ws = ws'.
Proof.
  intros Hp Hl Hw Hl' Hw' sb H.
  eapply (magma_key_revealed sb); [apply twisted_reveals, byte_reveals, Hp
    |now apply words_native..|left; exact H].
Qed.

Theorem C74_kuznyechik_refuted (s s' : str) (k k' : kkey) (x : N) :
  Forall hex_digit s -> List.length s = 64%nat -> Forall hex_digit s' -> List.length s' = 64%nat ->
  Key_string s = Ok k -> Key_string s' = Ok k' -> x < 2 ^ 128 ->
  lookups (snd (Key_encrypt_t k (tret (kpair x)))) = lookups (snd (Key_encrypt_t k' (tret (kpair x)))) ->
  number s = number s'.
Proof. apply kuz_strings_lookups. Qed.

(** ** C75: refuted for Kuznyechik and for the MAC, true of Magma encryption *)

(** The multiplications of BlkR branch on the bits of their argument. *)
Theorem C75_kuznyechik_refuted (s s' : str) (k k' : kkey) (x : N) :
  Forall hex_digit s -> List.length s = 64%nat -> Forall hex_digit s' -> List.length s' = 64%nat ->
  Key_string s = Ok k -> Key_string s' = Ok k' -> x < 2 ^ 128 ->
  branches (snd (Key_encrypt_t k (tret (kpair x)))) = branches (snd (Key_encrypt_t k' (tret (kpair x)))) ->
  number s = number s'.
Proof. apply kuz_strings_branches. Qed.

(** The final key of magma::Imit branches on the highest bit of the encrypted zero block. *)
Theorem C75_imit_branch (s : str) (m : mode) (lo hi : N) :
  Forall hex_digit s -> List.length s = 64%nat ->
  BlkEncrypted BlkRaw0 (Some (LazyKey_string s)) = Ok (lo, hi) ->
  branches (snd (BlkImitFinalKey_t (key_data (LazyKey_string s)) SboxR3412_t m)) =
  [Branch (N.land hi 0x80000000 =? 0)].
Proof. apply imit_branch. Qed.

Theorem C75_imit_refuted : exists s s',
  Forall hex_digit s /\ List.length s = 64%nat /\ Forall hex_digit s' /\ List.length s' = 64%nat /\
  forall m,
  branches (snd (BlkImitFinalKey_t (key_data (LazyKey_string s)) SboxR3412_t m)) <>
  branches (snd (BlkImitFinalKey_t (key_data (LazyKey_string s')) SboxR3412_t m)).
Proof. apply imit_two_branches. Qed.

Theorem C75_magma_partial (s s' : str) (x x' : N * N) :
  Forall hex_digit s -> List.length s = 64%nat -> Forall hex_digit s' -> List.length s' = 64%nat ->
  let e := snd (BlkEncrypted_t (key_data (LazyKey_string s)) SboxR3412_t (tret x)) in
  let e' := snd (BlkEncrypted_t (key_data (LazyKey_string s')) SboxR3412_t (tret x')) in
  let d := snd (BlkDecrypted_t (key_data (LazyKey_string s)) SboxR3412_t (tret x)) in
  let d' := snd (BlkDecrypted_t (key_data (LazyKey_string s')) SboxR3412_t (tret x')) in
  branches e = [] /\ tables e = tables e' /\ branches d = [] /\ tables d = tables d' /\
  List.length (tables e) = 256%nat.
Proof. apply magma_flow. Qed.

(** ** Examples *)

(** All accesses of the key of test/magma to the tables while the block of
    test/magma/BlkEncryptedTest.cpp is encrypted: 32 steps, 8 accesses each. *)
Example C74_example_magma :
  let e := BlkEncrypted_t (key_data mkey) SboxR3412_t (tret (0x76543210, 0xfedcba98)) in
  fst e = BlkEncrypted (Ok (0x76543210, 0xfedcba98)) (Some mkey) /\
  List.length (lookups (snd e)) = 256%nat /\
  firstn 8 (lookups (snd e)) = [Lookup 0 12; Lookup 1 13; Lookup 2 15; Lookup 3 0;
    Lookup 4 3; Lookup 5 4; Lookup 6 6; Lookup 7 7].
Proof. vm_compute. repeat split. Qed.

(** Two keys of C74_magma_refuted that do differ: the accesses differ. *)
Example C74_example_keys :
  lookups (snd (BlkEncrypted_t (key_data (LazyKey_string zeros_key)) SboxR3412_t (tret (0, 0)))) <>
  lookups (snd (BlkEncrypted_t (key_data (LazyKey_string one_key)) SboxR3412_t (tret (0, 0)))).
Proof.
  intros H. enough (E : number zeros_key = number one_key) by (vm_compute in E; discriminate E).
  apply (C74_magma_refuted zeros_key one_key (0, 0)); [repeat constructor; discriminate|reflexivity
    |unfold one_key; repeat constructor; discriminate|reflexivity|left; exact H].
Qed.

(** The first round of the Kuznyechik test vector: 16 accesses to Pi, at the bytes of
    plaintext xor key, and 16 * 16 multiplications of 8 steps with two branches each. *)
Example C74_example_kuznyechik :
  let e := encryptStep_t (tret (0xffeeddccbbaa9988, 0x1122334455667700)) (Ok (0x0011223344556677, 0x8899aabbccddeeff)) in
  lookups (snd e) = map (Lookup 0) (repeat 0xff 9 ++
    [0x99; 0xbb; 0x99; 0xff; 0x99; 0xbb; 0x99]) /\
  List.length (branches (snd e)) = 4096%nat.
Proof. vm_compute. split; reflexivity. Qed.

Print Assumptions C74_same_magma.
Print Assumptions C74_same_tables.
Print Assumptions C74_same_kuznyechik.
Print Assumptions C74_magma_refuted.
Print Assumptions C74_nibbles_refuted.
Print Assumptions C74_bytes_refuted.
Print Assumptions C74_kuznyechik_refuted.
Print Assumptions C75_kuznyechik_refuted.
Print Assumptions C75_imit_branch.
Print Assumptions C75_imit_refuted.
Print Assumptions C75_magma_partial.
