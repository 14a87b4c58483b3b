(** Properties of the Magma block cipher, its keys and tables: C01-C07, C44, C45. *)
From Verif Require Import Base Text MagmaModel KuzModel SpecText SpecMagma SpecModes.
From Verif Require Import MagmaProofs SboxProofs MagmaSpecProofs BlockProofs TestVectors.
From Coq Require Import Permutation.
Local Open Scope N_scope.

(** ** C01 *)

Theorem C01_decrypt_inverts_encrypt (k : lazykey) (b c : N * N) :
  BlkEncrypted (Ok b) (Some k) = Ok c -> BlkDecrypted (Ok c) (Some k) = Ok b.
Proof. destruct b, c. apply decrypted_encrypted. Qed.

Theorem C01_encrypt_inverts_decrypt (k : lazykey) (b c : N * N) :
  BlkDecrypted (Ok b) (Some k) = Ok c -> BlkEncrypted (Ok c) (Some k) = Ok b.
Proof. destruct b, c. apply encrypted_decrypted. Qed.

(** The hypotheses above can be met: a key whose words and table lookups never fail
    encrypts and decrypts every block. *)
Theorem C01_total (k : lazykey) (b : N * N) :
  (forall v i, (0 <= i <= 7)%Z -> exists t, lazy_transform k v i = Ok t) ->
  (exists c, BlkEncrypted (Ok b) (Some k) = Ok c /\ BlkDecrypted (Ok c) (Some k) = Ok b) /\
  (exists c, BlkDecrypted (Ok b) (Some k) = Ok c /\ BlkEncrypted (Ok c) (Some k) = Ok b).
Proof.
  intros H. split.
  - destruct (BlkEncrypted_total k b H) as [c E]. exists c. split; [exact E|].
    now apply C01_decrypt_inverts_encrypt.
  - destruct (BlkDecrypted_total k b H) as [c E]. exists c. split; [exact E|].
    now apply C01_encrypt_inverts_decrypt.
Qed.

(** A substitution that is not a permutation (squaring modulo 2^32). *)
Example C01_example :
  let k := LazyKey_native [1; 2; 3; 4; 5; 6; 7; 8] (fun v => Ok (v * v)) in
  BlkEncrypted (Ok (5, 6)) (Some k) = Ok (4286925879, 2676997929) /\
  BlkDecrypted (Ok (4286925879, 2676997929)) (Some k) = Ok (5, 6).
Proof. split; vm_compute; reflexivity. Qed.

(** ** C02 *)

Theorem C02_encrypted_is_Magma (s : str) (x : N) :
  List.length s = 64%nat -> Forall hex_digit s -> x < 2 ^ 64 ->
  BlkEncrypted (BlkRaw64 x) (Some (LazyKey_string s)) = Ok (halves (Magma_E (number s) x)) /\
  Magma_E (number s) x < 2 ^ 64.
Proof. intros Hl Hs Hx. exact (BlkEncrypted_spec _ _ x (LazyKey_string_computes s Hl Hs) Hx). Qed.

Theorem C02_decrypted_is_Magma (s : str) (x : N) :
  List.length s = 64%nat -> Forall hex_digit s -> x < 2 ^ 64 ->
  BlkDecrypted (BlkRaw64 x) (Some (LazyKey_string s)) = Ok (halves (Magma_D (number s) x)) /\
  Magma_D (number s) x < 2 ^ 64.
Proof. intros Hl Hs Hx. exact (BlkDecrypted_spec _ _ x (LazyKey_string_computes s Hl Hs) Hx). Qed.

(** The standard's example (RFC 8891, A.2), evaluated on both sides. *)
Example C02_example :
  let s := str_of "ffeeddccbbaa99887766554433221100f0f1f2f3f4f5f6f7f8f9fafbfcfdfeff" in
  BlkEncrypted (BlkRaw64 0xfedcba9876543210) (Some (LazyKey_string s)) =
    Ok (0xc2d8ca3d, 0x4ee901e5) /\
  Magma_E (number s) 0xfedcba9876543210 = 0x4ee901e5c2d8ca3d.
Proof. split; vm_compute; reflexivity. Qed.

(** ** C03 *)

Theorem C03_EncryptionBase_is_BlkEncrypted (k : lazykey) (x : N) :
  EncryptionBase_transform (KLazy k) x =
  '(low, high) <- BlkEncrypted (BlkRaw64 x) (Some k) ;; Ok (high * 2 ^ 32 + low).
Proof. apply EncryptionBase_BlkEncrypted. Qed.

Example C03_example :
  EncryptionBase_transform (KLazy (LazyKey_string
    (str_of "ffeeddccbbaa99887766554433221100f0f1f2f3f4f5f6f7f8f9fafbfcfdfeff")))
    0xfedcba9876543210 = Ok 0x4ee901e5c2d8ca3d.
Proof. vm_compute. reflexivity. Qed.

(** ** C04 *)

Theorem C04_SboxR3412_value (v : N) :
  SboxR3412 v = Ok (rotl11 (subst_digits Pi v)) /\ rotl11 (subst_digits Pi v) < 2 ^ 32.
Proof. apply SboxR3412_total. Qed.

Theorem C04_SboxR3412_permutation (y : N) :
  y < 2 ^ 32 -> exists x, x < 2 ^ 32 /\ SboxR3412 x = Ok y /\
                          forall x', x' < 2 ^ 32 -> SboxR3412 x' = Ok y -> x' = x.
Proof. apply SboxR3412_bijective. Qed.

Example C04_example : SboxR3412 0xfdb97531 = Ok (rotl11 0x2a196f34).
Proof. vm_compute. reflexivity. Qed.

(** ** C05 *)

Theorem C05_packed_tables (uz t0 t1 t2 t3 t4 t5 t6 t7 : list N) (v : N) :
  packed uz [t0; t1; t2; t3; t4; t5; t6; t7] ->
  Forall nibble_table [t0; t1; t2; t3; t4; t5; t6; t7] -> v < 2 ^ 32 ->
  SboxByte uz v =
    SboxNibble (map Z.of_N t0) (map Z.of_N t1) (map Z.of_N t2) (map Z.of_N t3)
               (map Z.of_N t4) (map Z.of_N t5) (map Z.of_N t6) (map Z.of_N t7) v /\
  SboxByte uz v = Ok (subst_digits [t0; t1; t2; t3; t4; t5; t6; t7] v).
Proof.
  intros Hp Ht Hv. pose proof (SboxByte_ok uz _ v Hp Ht eq_refl Hv) as E. split; [|exact E].
  rewrite E. symmetry.
  apply SboxNibble_ok; (rewrite Forall_forall in Ht; apply Ht; cbn; tauto).
Qed.

Theorem C05_container_table (v : N) :
  v < 2 ^ 32 -> SboxTwisted (SboxByte Pi_packed) v = SboxR3412 v.
Proof.
  intros Hv. rewrite SboxR3412_ok. apply SboxTwisted_ok.
  - apply SboxByte_ok; [exact Pi_packed_ok|exact Pi_tables|reflexivity|exact Hv].
  - apply (subst_digits_lt Pi v Pi_tables).
Qed.

Example C05_example : SboxByte Pi_packed 0xfdb97531 = Ok 0x2a196f34.
Proof. vm_compute. reflexivity. Qed.

(** ** C06 *)

Theorem C06_hex_key_words (s : str) (i : nat) :
  List.length s = 64%nat -> Forall hex_digit s -> (i < 8)%nat ->
  KeyDataString s (Z.of_nat i) = Ok (number (firstn 8 (skipn (8 * i) s))) /\
  number (firstn 8 (skipn (8 * i) s)) = key_word (number s) i.
Proof. intros Hl Hs Hi. split; [now apply KeyDataString_hex|now apply number_slice]. Qed.

Theorem C06_wrong_size (s : str) (i : Z) :
  List.length s <> 64%nat -> KeyDataString s i = Throw (RuntimeError "Wrong key size").
Proof. apply KeyDataString_wrong_size. Qed.

Theorem C06_wrong_index (s : str) (i : Z) :
  List.length s = 64%nat -> ~ (0 <= i <= 7)%Z ->
  KeyDataString s i = Throw (RuntimeError "Wrong key index").
Proof. apply KeyDataString_wrong_index. Qed.

Example C06_example :
  let s := str_of "FfEeddccbbaa99887766554433221100f0f1f2f3f4f5f6f7f8f9fafbfcfdfeff" in
  KeyDataString s 0%Z = Ok 0xffeeddcc /\ KeyDataString s 7%Z = Ok 0xfcfdfeff.
Proof. split; vm_compute; reflexivity. Qed.

(** ** C07: refuted. No 64-character string is ever rejected. *)

Theorem C07_nothing_rejected (s : str) (i : Z) (e : exn) :
  List.length s = 64%nat -> (0 <= i <= 7)%Z -> KeyDataString s i <> Throw e.
Proof. apply KeyDataString_never_throws. Qed.

(** A key with a letter that is not a digit is used with the word cut at that
    letter, and a blank word is read uninitialised. *)
Theorem C07_refuted :
  (exists s w, List.length s = 64%nat /\ ~ Forall hex_digit s /\ KeyDataString s 0%Z = Ok w) /\
  (exists s, List.length s = 64%nat /\ ~ Forall hex_digit s /\ KeyDataString s 0%Z = Undef Uninit).
Proof.
  split.
  - exists (str_of "ffgeddccbbaa99887766554433221100f0f1f2f3f4f5f6f7f8f9fafbfcfdfeff"), 0xff.
    split; [reflexivity|]. split; [|vm_compute; reflexivity].
    intros H. rewrite Forall_forall in H. apply (H 103); [vm_compute; tauto|reflexivity].
  - exists (str_of "        bbaa99887766554433221100f0f1f2f3f4f5f6f7f8f9fafbfcfdfeff").
    split; [reflexivity|]. split; [|vm_compute; reflexivity].
    intros H. rewrite Forall_forall in H. apply (H 32); [vm_compute; tauto|reflexivity].
Qed.

(** ** C44 *)

(** Refuted as stated: the behaviour is undefined for every count. *)
Theorem C44_refuted (b : N * N) (n : Z) : BlkShifted ISO (Ok b) n = Undef WideShift.
Proof. apply BlkShifted_iso_undef. Qed.

(** With the shift counts the x86 processor uses, the value is right for 1..31. *)
Theorem C44_x86_value (g : list N -> nat -> N) (lo hi : N) (n : Z) :
  lo < 2 ^ 32 -> hi < 2 ^ 32 -> (1 <= n <= 31)%Z ->
  exists lo' hi', BlkShifted (X86 g) (Ok (lo, hi)) n = Ok (lo', hi') /\
    lo' < 2 ^ 32 /\ hi' < 2 ^ 32 /\
    hi' * 2 ^ 32 + lo' = ((hi * 2 ^ 32 + lo) * 2 ^ Z.to_N n) mod 2 ^ 64.
Proof. apply BlkShifted_x86_ok. Qed.

(** ... and wrong for 0. *)
Theorem C44_x86_zero_wrong :
  exists lo hi lo' hi', lo < 2 ^ 32 /\ hi < 2 ^ 32 /\
    (forall g, BlkShifted (X86 g) (Ok (lo, hi)) 0 = Ok (lo', hi')) /\
    hi' * 2 ^ 32 + lo' <> hi * 2 ^ 32 + lo.
Proof. exists 1, 0, 1, 1. repeat split; try reflexivity. intros H; vm_compute in H; discriminate. Qed.

Example C44_example :
  BlkShifted (X86 (fun _ _ => 0)) (Ok (0x80000001, 0x40000000)) 1 = Ok (2, 0x80000001).
Proof. vm_compute. reflexivity. Qed.

(** ** C45 *)

Theorem C45_xored_magma (a b a' b' : N * N) (l l' : list (N * N)) :
  Permutation (a :: b :: l) (a' :: b' :: l') ->
  BlkXored_n (Ok a) (Ok b) (map Ok l) = Ok (xor_all (a :: b :: l)) /\
  BlkXored_n (Ok a') (Ok b') (map Ok l') = BlkXored_n (Ok a) (Ok b) (map Ok l).
Proof.
  intros H. rewrite !BlkXored_n_ok. split; [reflexivity|]. f_equal. symmetry. now apply xor_all_perm.
Qed.

Theorem C45_xored_kuznyechik (a b a' b' : N * N) (l l' : list (N * N)) :
  Permutation (a :: b :: l) (a' :: b' :: l') ->
  KXored_n (Ok a) (Ok b) (map Ok l) = Ok (xor_all (a :: b :: l)) /\
  KXored_n (Ok a') (Ok b') (map Ok l') = KXored_n (Ok a) (Ok b) (map Ok l).
Proof.
  intros H. rewrite !KXored_n_ok. split; [reflexivity|]. f_equal. symmetry. now apply xor_all_perm.
Qed.

(** Grouping: the exclusive or of two groups is the exclusive or of all. *)
Theorem C45_grouping (a b c d : N * N) (l r : list (N * N)) :
  BlkXored (BlkXored_n (Ok a) (Ok b) (map Ok l)) (BlkXored_n (Ok c) (Ok d) (map Ok r)) =
    BlkXored_n (Ok a) (Ok b) (map Ok (l ++ c :: d :: r)) /\
  KXored (KXored_n (Ok a) (Ok b) (map Ok l)) (KXored_n (Ok c) (Ok d) (map Ok r)) =
    KXored_n (Ok a) (Ok b) (map Ok (l ++ c :: d :: r)).
Proof.
  split.
  - rewrite !BlkXored_n_ok, BlkXored_ok, <- xor_all_app. reflexivity.
  - rewrite !KXored_n_ok, KXored_ok, <- xor_all_app. reflexivity.
Qed.

Example C45_example :
  BlkXored_n (Ok (1, 2)) (Ok (4, 8)) (map Ok [(16, 32); (64, 2)]) = Ok (85, 40).
Proof. reflexivity. Qed.

Print Assumptions C01_decrypt_inverts_encrypt.
Print Assumptions C01_encrypt_inverts_decrypt.
Print Assumptions C01_total.
Print Assumptions C02_encrypted_is_Magma.
Print Assumptions C02_decrypted_is_Magma.
Print Assumptions C03_EncryptionBase_is_BlkEncrypted.
Print Assumptions C04_SboxR3412_value.
Print Assumptions C04_SboxR3412_permutation.
Print Assumptions C05_packed_tables.
Print Assumptions C05_container_table.
Print Assumptions C06_hex_key_words.
Print Assumptions C06_wrong_size.
Print Assumptions C06_wrong_index.
Print Assumptions C07_nothing_rejected.
Print Assumptions C07_refuted.
Print Assumptions C44_refuted.
Print Assumptions C44_x86_value.
Print Assumptions C44_x86_zero_wrong.
Print Assumptions C45_xored_magma.
Print Assumptions C45_xored_kuznyechik.
Print Assumptions C45_grouping.
