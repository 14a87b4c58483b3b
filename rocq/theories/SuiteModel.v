(** Model of the project's own test program and of the example of the conan package:
    test/goost_test.cpp with every test it runs, and test_package/example.cpp.

    A test is an action that yields whether it passed. The 2out library is not part of the
    project; it is taken to run every test, to count a test whose text does not match as a
    failure and one that throws as an error; MatchTest with a string and EqualMatch compare
    for equality, StartsWithMatch looks at the beginning only. The report that is printed is
    left out. What the constructors of the tests already do (an expected text, the key of an
    ECBSource) is done here when the test is run. The world [W] is that of the two random generators, whatever they give. *)
From Verif Require Import Base Text MagmaModel Streams KuzModel CacheModel HarnessModel.
Local Open Scope N_scope.

(** ** Running tests *)

(** SuiteTest and NamedTest with the counts of goost_test.cpp:27-30: nothing failed and
    nothing threw. *)
Fixpoint all_pass {W} (tests : list (M W bool)) : M W bool :=
  match tests with
  | [] => mret true
  | t :: rest => fun w =>
      match t w with
      | (Ok b, w') => (r <-- all_pass rest ;; mret (andb b r)) w'
      | (Throw _, w') => (_ <-- all_pass rest ;; mret false) w'
      | (Undef u, w') => (Undef u, w')
      | (OutOfFuel, w') => (OutOfFuel, w')
      end
  end.

(** MatchTest of a text with EqualMatch *)
Definition EqualTest (text : res str) (expected : string) : res bool :=
  x <- text ;; Ok (same_text x (str_of expected)).

(** StartsWithMatch *)
Definition StartsWithTest (text : res str) (expected : string) : res bool :=
  x <- text ;; Ok (same_text (firstn (List.length (str_of expected)) x) (str_of expected)).

(** TestBlockEqual of a block and a string, test/magma/TestBlockEqual.cpp:27-30 and
    test/kuznyechik/TestBlockEqual.cpp:29-32 *)
Definition BlockTest (b : block) (expected : string) : res bool := EqualTest (ReprBlock b) expected.
Definition KBlockTest (b : kblock) (expected : string) : res bool := EqualTest (KReprBlock b) expected.

(** The bound on the number of reads of a source; each source here has 4 blocks at most. *)
Definition fuel : positive := 16.

(** The tests are written for the interface; to say what they leave open, the functions of
    the library that they call on blocks, data and streams are parameters: [goost] below are
    those of the library. *)
Record versions (W : Type) : Type := Versions {
  v_encrypt : block -> option lazykey -> block;                              (* magma::BlkEncrypted *)
  v_decrypt : block -> option lazykey -> block;                              (* magma::BlkDecrypted *)
  v_base : key -> N -> res N;                                                (* EncryptionBase::transform *)
  v_ecb_write : ecb_sink bytes -> bytes -> M W (ecb_sink bytes);             (* ECBSink::write *)
  v_ecb_read : ecb_source str -> N -> M W (bytes * ecb_source str);          (* ECBSource::read *)
  v_cfb_write : magma_cfb_sink bytes -> bytes -> M W (magma_cfb_sink bytes); (* magma::CFBSink::write *)
  v_cfb_finalize : magma_cfb_sink bytes -> M W bytes;                        (* magma::CFBSink::finalize *)
  v_imit : str -> option lazykey -> M W (N * N);                             (* magma::Imit::value *)
  v_kencrypt : kblock -> kkey -> kblock;                                     (* kuznyechik::BlkEncrypted *)
  v_kimit : list N -> kkey -> kblock;                                        (* kuznyechik::Imit over StMemory *)
  v_dataimit : bytes -> option lazykey -> res bytes }.                       (* DataImit *)
Arguments Versions {W}.
Arguments v_encrypt {W}.
Arguments v_decrypt {W}.
Arguments v_base {W}.
Arguments v_ecb_write {W}.
Arguments v_ecb_read {W}.
Arguments v_cfb_write {W}.
Arguments v_cfb_finalize {W}.
Arguments v_imit {W}.
Arguments v_kencrypt {W}.
Arguments v_kimit {W}.
Arguments v_dataimit {W}.

(** The library *)
Definition goost {W} (m : mode) : versions W := {|
  v_encrypt := BlkEncrypted;
  v_decrypt := BlkDecrypted;
  v_base := EncryptionBase_transform;
  v_ecb_write := ECBSink_write TestSink_write;
  v_ecb_read := ECBSource_read Hex64Source_read m;
  v_cfb_write := magma_CFBSink_write TestSink_write m;
  v_cfb_finalize := magma_CFBSink_finalize TestSink_write m;
  v_imit := magma_Imit Hex64Source_read m fuel;
  v_kencrypt := KEncrypted;
  v_kimit := fun data k => KImit 8 m (ItMemory_ops (Some data)) (StMemory_iter true data) k;
  v_dataimit := DataImit |}.

Section Suite.
Context {W : Type} (m : mode) (v : versions W).

(** ** test/Hex64SourceTest.cpp:14-31 *)
Definition Hex64SourceTest : list (M W bool) :=
  [t <-- SourceText Hex64Source_read fuel (str_of "92def06b3c130a59db54c704f8189d20") ;;
   mret (same_text t (str_of "590a133c6bf0de92209d18f804c754db"))].

(** ** test/gost89 *)

(** TestSbox, test/gost89/TestSbox.cpp:14-37, and the same table in
    test/magma/BlkEncryptedTest.cpp:34-43 *)
Definition test_table : list N :=
  [0xc4; 0xed; 0x83; 0xc9; 0x92; 0x98; 0xfe; 0x6b; 0xff; 0xbe; 0x65; 0x5c; 0xe5; 0x2c; 0xb9; 0x20;
   0x89; 0x57; 0x16; 0xb3; 0x11; 0xf3; 0x98; 0x06; 0x30; 0x79; 0xc0; 0x97; 0xa8; 0x1a; 0x5d; 0xd5;
   0x2e; 0x01; 0xda; 0x34; 0x73; 0xd5; 0x3b; 0xe8; 0x4b; 0xc2; 0x77; 0x7e; 0xdc; 0x64; 0xac; 0xaf;
   0x6d; 0xa6; 0x02; 0xf1; 0x07; 0x4f; 0xe1; 0x4a; 0xba; 0x30; 0x2f; 0x12; 0x56; 0x8b; 0x44; 0x8d].
Definition TestSbox : sbox := SboxTwisted (SboxByte test_table).

(** The words of the key in test/gost89/BlkEncryptedTest.cpp:26-35, CFBSinkTest.cpp:31-40,
    CFBSourceTest.cpp:28-37, test/magma/BlkEncryptedTest.cpp:28-31 and
    KeyDataNativeTest.cpp:25-34 *)
Definition native_words : list N :=
  [0xE0F67504; 0xFAFB3850; 0x90C3C7D2; 0x3DCAB3ED; 0x42124715; 0x8A1EAE91; 0x9ECD792F; 0xBDEFBCD2].
Definition native_key : lazykey := LazyKey_native native_words TestSbox.

(** test/gost89/BlkEncryptedTest.cpp:19-43 *)
Definition gost_BlkEncryptedTest : list (M W bool) :=
  [lift (t <- ReprBlock (v_encrypt v (BlkRaw2 0x04050607 0x00010203) (Some native_key)) ;;
         HexMatch m (str_of "EA4AF215984C8C4B") t)].

(** test/gost89/CFBSinkTest.cpp:23-53 *)
Definition gost_CFBSinkTest : list (M W bool) :=
  [t <-- TestSinkText Hex64Source_read (gost_CFBSink_write TestSink_write m) (gost_CFBSink_finalize TestSink_write m)
           (gost_CFBSink_init [] (KLazy native_key) 0x47E3A8FFC3A7802A)
           (str_of "33333333CCCCCCCCCCCCCCCC33333333") ;;
   SourceMatch m Hex64Source_read fuel (str_of "4B64BD1043224C3B0FAA6CD95548EB99") t].

(** test/gost89/CFBSourceTest.cpp:20-49 *)
Definition gost_CFBSourceTest : list (M W bool) :=
  [t <-- SourceText (gost_CFBSource_read Hex64Source_read m) fuel
           (gost_CFBSource_init (str_of "4B64BD1043224C3B0FAA6CD95548EB99") (KLazy native_key) 0x47E3A8FFC3A7802A) ;;
   SourceMatch m Hex64Source_read fuel (str_of "33333333CCCCCCCCCCCCCCCC33333333") t].

(** test/gost89/Test.cpp:16-24 *)
Definition gost_tests : list (M W bool) := gost_BlkEncryptedTest ++ gost_CFBSinkTest ++ gost_CFBSourceTest.

(** ** test/magma *)
Definition standard_key : lazykey :=
  LazyKey_string (str_of "ffeeddccbbaa99887766554433221100f0f1f2f3f4f5f6f7f8f9fafbfcfdfeff").
Definition standard_text : str := str_of "92def06b3c130a59db54c704f8189d204a98fb2e67a8024c8912409b17b57e41".
Definition standard_cfb : str := str_of "db37e0e266903c830d46644c1f9a089c24bdd2035315d38bbcc0321421075505".
Definition standard_ecb : str := str_of "2b073f0494f372a0de70e715d3556e4811d8d9e9eacfbc1e7c68260996c67efb".

(** test/magma/BlkDecryptedTest.cpp:18-38 *)
Definition BlkDecryptedTest : list (M W bool) :=
  [lift (TestBlockEqual (v_decrypt v (BlkString (str_of "4ee901e5c2d8ca3d")) (Some standard_key))
                        (BlkString (str_of "fedcba9876543210")))].

(** test/magma/BlkEncryptedTest.cpp:20-129 *)
Definition BlkEncryptedTest : list (M W bool) :=
  [lift (BlockTest (v_encrypt v (BlkRaw_bytes [0x10; 0x32; 0x54; 0x76; 0x98; 0xba; 0xdc; 0xfe]) (Some standard_key))
                   "4ee901e5c2d8ca3d");
   lift (BlockTest (v_encrypt v (BlkRaw64 0x92def06b3c130a59) (Some standard_key)) "2b073f0494f372a0");
   lift (BlockTest (v_encrypt v (BlkRaw64 0xf053f8006cebef80) (Some standard_key)) "c89ed814fd5e18e9");
   lift (BlockTest (v_encrypt v (BlkRaw64 0x8206233a9af61aa5) (Some standard_key)) "f739b18d34289b00");
   lift (BlockTest (v_encrypt v (BlkRaw64 0x216e6a2561cff165) (Some standard_key)) "154e72102030c5bb");
   lift (BlockTest (v_encrypt v (BlkRaw64 0x0001020304050607) (Some native_key)) "ea4af215984c8c4b");
   lift (BlockTest (v_encrypt v (BlkRaw64 0x08090a0b0c0d0e0f) (Some native_key)) "d12ebcb30957c31e")].

(** test/magma/BlkStringTest.cpp:16-30 *)
Definition BlkStringTest : list (M W bool) := [lift (BlockTest (BlkString (str_of "1")) "0000000000000001")].

(** test/magma/BlkSwappedTest.cpp:17-33 *)
Definition BlkSwappedTest : list (M W bool) :=
  [lift (BlockTest (BlkSwapped (BlkString (str_of "aaaaaaaa55555555"))) "55555555aaaaaaaa")].

(** test/magma/CFBSinkTest.cpp:20-52 *)
Definition magma_CFBSinkTest : list (M W bool) :=
  [t <-- TestSinkText Hex64Source_read (v_cfb_write v) (v_cfb_finalize v)
           (magma_CFBSink_init [] (KLazy standard_key) 0x1234567890abcdef 0x234567890abcdef1) standard_text ;;
   SourceMatch m Hex64Source_read fuel standard_cfb t].

(** test/magma/CFBSourceTest.cpp:18-49 *)
Definition magma_CFBSourceTest : list (M W bool) :=
  [t <-- SourceText (magma_CFBSource_read Hex64Source_read m) fuel
           (magma_CFBSource_init standard_cfb (KLazy standard_key) 0x1234567890abcdef 0x234567890abcdef1) ;;
   SourceMatch m Hex64Source_read fuel standard_text t].

(** test/magma/ECBSinkTest.cpp:19-49 *)
Definition ECBSinkTest : list (M W bool) :=
  [t <-- TestSinkText Hex64Source_read (v_ecb_write v) ECBSink_finalize
           (ECBSink [] (KLazy standard_key)) standard_text ;;
   SourceMatch m Hex64Source_read fuel standard_ecb t].

(** test/magma/ECBSourceTest.cpp:18-47 *)
Definition ECBSourceTest : list (M W bool) :=
  [s <-- lift (ECBSource_container m standard_ecb
           (HexContainer (str_of "ffeeddccbbaa99887766554433221100f0f1f2f3f4f5f6f7f8f9fafbfcfdfeff"))) ;;
   t <-- SourceText (v_ecb_read v) fuel s ;;
   SourceMatch m Hex64Source_read fuel standard_text t].

(** EncryptionBaseText::asString, test/magma/EncryptionBaseTest.cpp:25-34, and
    test/magma/EncryptionBaseTest.cpp:39-69 *)
Definition base_text (blk : N) : res str := x <- v_base v (KLazy standard_key) blk ;; Ok (put_hex 16 x).
Definition EncryptionBaseTest : list (M W bool) :=
  [lift (EqualTest (base_text 0xfedcba9876543210) "4ee901e5c2d8ca3d");
   lift (EqualTest (base_text 0x92def06b3c130a59) "2b073f0494f372a0");
   lift (EqualTest (base_text 0xf053f8006cebef80) "c89ed814fd5e18e9");
   lift (EqualTest (base_text 0x8206233a9af61aa5) "f739b18d34289b00");
   lift (EqualTest (base_text 0x216e6a2561cff165) "154e72102030c5bb")].

(** test/magma/ImitTest.cpp:18-43 *)
Definition magma_ImitTest : list (M W bool) :=
  [fun w => let (r, w') := v_imit v standard_text (Some standard_key) w in
            (BlockTest r "154e72102030c5bb", w')].

(** The loop of ReprKeyData::asString over an object with state,
    test/magma/ReprKeyData.cpp:24-26 *)
Fixpoint repr_calls {V} (call : Z -> M V N) (n : nat) (i : Z) : M V str :=
  match n with
  | O => mret []
  | Datatypes.S n' =>
      v <-- call i ;;
      r <-- repr_calls call n' (i + 1)%Z ;;
      mret (put_hex 8 (htonl v) ++ r)
  end.

(** test/magma/KeyCachedDataTest.cpp:19-53: [engine] is the call at line 28, converted to
    uint32_t. The expected text is made first (line 47), then the text (line 46), both from
    the one cached object. *)
Definition KeyCachedDataTest (engine : M W N) : list (M W bool) :=
  [fun w =>
     let random : Z -> M W N := fun _ => v <-- engine ;; mret (w32 v) in
     let run := expected <-- repr_calls (kc_call random) 8 0 ;;
                text <-- repr_calls (kc_call random) 8 0 ;;
                mret (same_text text expected) in
     let (r, cw) := run (kcache_init, w) in (r, snd cw)].

(** test/magma/KeyDataNativeTest.cpp:16-44 *)
Definition KeyDataNativeTest : list (M W bool) :=
  [lift (EqualTest (ReprKeyData (KeyDataNative native_words))
     "0475f6e05038fbfad2c7c390edb3ca3d1547124291ae1e8a2f79cd9ed2bcefbd")].

(** test/magma/KeyDataStringTest.cpp:16-39 *)
Definition KeyDataStringTest : list (M W bool) :=
  [lift (EqualTest (ReprKeyData (KeyDataString
       (str_of "ffeeddccbbaa99887766554433221100f0f1f2f3f4f5f6f7f8f9fafbfcfdfeff")))
     "ccddeeff8899aabb4455667700112233f3f2f1f0f7f6f5f4fbfaf9f8fffefdfc")].

(** The table in test/magma/SboxNibbleTest.cpp:19-26 and SboxTwistedTest.cpp:21-28 *)
Definition nibbles : sbox := (SboxNibble
  [12; 4; 6; 2; 10; 5; 11; 9; 14; 8; 13; 7; 0; 3; 15; 1]
  [6; 8; 2; 3; 9; 10; 5; 12; 1; 14; 4; 7; 11; 13; 0; 15]
  [11; 3; 5; 8; 2; 15; 10; 13; 14; 1; 7; 4; 12; 9; 6; 0]
  [12; 8; 2; 1; 13; 4; 15; 6; 7; 0; 10; 5; 3; 14; 9; 11]
  [7; 15; 5; 10; 8; 1; 6; 13; 0; 9; 3; 14; 11; 4; 2; 12]
  [5; 13; 15; 6; 9; 2; 12; 10; 11; 7; 8; 1; 4; 3; 14; 0]
  [8; 14; 2; 5; 6; 9; 1; 12; 15; 4; 11; 0; 13; 10; 3; 7]
  [1; 7; 14; 13; 0; 5; 8; 3; 4; 15; 10; 6; 9; 12; 11; 2])%Z.

(** test/magma/SboxNibbleTest.cpp:16-63 *)
Definition SboxNibbleTest : list (M W bool) :=
  [lift (EqualTest (ReprTransformed nibbles 0xfdb97531) "2a196f34");
   lift (EqualTest (ReprTransformed nibbles 0x2a196f34) "ebd9f03a");
   lift (EqualTest (ReprTransformed nibbles 0xebd9f03a) "b039bb3d");
   lift (EqualTest (ReprTransformed nibbles 0xb039bb3d) "68695433")].

(** test/magma/SboxTwistedTest.cpp:17-66; the sums are of unsigned int. *)
Definition SboxTwistedTest : list (M W bool) :=
  [lift (EqualTest (ReprTransformed (SboxTwisted nibbles) (w32 (0x87654321 + 0xfedcba98))) "fdcbc20c");
   lift (EqualTest (ReprTransformed (SboxTwisted nibbles) (w32 (0xfdcbc20c + 0x87654321))) "7e791a4b");
   lift (EqualTest (ReprTransformed (SboxTwisted nibbles) (w32 (0x7e791a4b + 0xfdcbc20c))) "c76549ec");
   lift (EqualTest (ReprTransformed (SboxTwisted nibbles) (w32 (0xc76549ec + 0x7e791a4b))) "9791c849")].

(** test/magma/Test.cpp:30-52 *)
Definition magma_tests (engine : M W N) : list (M W bool) :=
  BlkDecryptedTest ++ BlkEncryptedTest ++ BlkStringTest ++ BlkSwappedTest ++ magma_CFBSinkTest ++
  magma_CFBSourceTest ++ ECBSinkTest ++ ECBSourceTest ++ EncryptionBaseTest ++ magma_ImitTest ++
  KeyCachedDataTest engine ++ KeyDataNativeTest ++ KeyDataStringTest ++ SboxNibbleTest ++ SboxTwistedTest.

(** ** test/kuznyechik *)

(** kuznyechik ReprBlock of an object with state, test/kuznyechik/ReprBlock.cpp:20-26 *)
Definition repr_call {V} (call : M V (N * N)) : M V str :=
  '(first, second) <-- call ;; mret (put_hex 16 second ++ put_hex 16 first).

(** test/kuznyechik/BlkCachedTest.cpp:17-42: [device] is the call at line 22, an unsigned
    int; the two calls are in order, being in braces. *)
Definition BlkCachedTest (device : M W N) : list (M W bool) :=
  [fun w =>
     let random : M W (N * N) := a <-- device ;; b <-- device ;; mret (w32 a, w32 b) in
     let run := expected <-- repr_call (bc_call random) ;;
                text <-- repr_call (bc_call random) ;;
                mret (same_text text expected) in
     let (r, cw) := run (bcache_init, w) in (r, snd cw)].

Definition kuz_text : str := str_of "8899aabbccddeeff0011223344556677fedcba98765432100123456789abcdef".

(** test/kuznyechik/BlkEncryptedTest.cpp:17-73 *)
Definition kuz_encrypted (b expected : string) : M W bool :=
  lift (k <- Key_string kuz_text ;; KBlockTest (v_kencrypt v (KString (str_of b)) k) expected).
Definition kuz_BlkEncryptedTest : list (M W bool) :=
  [kuz_encrypted "1122334455667700ffeeddccbbaa9988" "7f679d90bebc24305a468d42b9d4edcd";
   kuz_encrypted "00112233445566778899aabbcceeff0a" "b429912c6e0032f9285452d76718d08b";
   kuz_encrypted "112233445566778899aabbcceeff0a00" "f0ca33549d247ceef3f5a5313bd4b157";
   kuz_encrypted "2233445566778899aabbcceeff0a0011" "d0b09ccde830b9eb3a02c4c5aa8ada98"].

(** test/kuznyechik/BlkIncrementedTest.cpp:17-33 *)
Definition BlkIncrementedTest : list (M W bool) :=
  [lift (KBlockTest (KIncremented (KString (str_of "ffffffffffffffff"))) "00000000000000010000000000000000")].

(** test/kuznyechik/BlkIterKeyTest.cpp:18-80; the caches change no value here. *)
Definition iter_keys : res (list kblock) :=
  k1 <- KeyDataString_high kuz_text ;;
  k2 <- KeyDataString_low kuz_text ;;
  let k3 := KIterKey k1 k2 1 8 in
  let k4 := KIterKey k1 k2 1 7 in
  let k5 := KIterKey k3 k4 9 16 in
  let k6 := KIterKey k3 k4 9 15 in
  let k7 := KIterKey k5 k6 17 24 in
  let k8 := KIterKey k5 k6 17 23 in
  let k9 := KIterKey k7 k8 25 32 in
  let k10 := KIterKey k7 k8 25 31 in
  Ok [k1; k2; k3; k4; k5; k6; k7; k8; k9; k10].
Definition iter_key_test (i : nat) (expected : string) : M W bool :=
  lift (l <- iter_keys ;; KBlockTest (nth i l OutOfFuel) expected).
Definition BlkIterKeyTest : list (M W bool) :=
  [iter_key_test 0 "8899aabbccddeeff0011223344556677";
   iter_key_test 1 "fedcba98765432100123456789abcdef";
   iter_key_test 2 "db31485315694343228d6aef8cc78c44";
   iter_key_test 3 "3d4553d8e9cfec6815ebadc40a9ffd04";
   iter_key_test 4 "57646468c44a5e28d3e59246f429f1ac";
   iter_key_test 5 "bd079435165c6432b532e82834da581b";
   iter_key_test 6 "51e640757e8745de705727265a0098b1";
   iter_key_test 7 "5a7925017b9fdd3ed72a91a22286f984";
   iter_key_test 8 "bb44e25378c73123a5f32f73cdb6e517";
   iter_key_test 9 "72e9dd7416bcf45b755dbaa88e4a4043"].

(** test/kuznyechik/BlkLTest.cpp:17-68 *)
Definition BlkLTest : list (M W bool) :=
  [lift (KBlockTest (KL (KString (str_of "64a59400000000000000000000000000"))) "d456584dd0e3e84cc3166e4b7fa2890d");
   lift (KBlockTest (KL (KString (str_of "d456584dd0e3e84cc3166e4b7fa2890d"))) "79d26221b87b584cd42fbc4ffea5de9a");
   lift (KBlockTest (KL (KString (str_of "79d26221b87b584cd42fbc4ffea5de9a"))) "0e93691a0cfc60408b7b68f66b513c13");
   lift (KBlockTest (KL (KString (str_of "0e93691a0cfc60408b7b68f66b513c13"))) "e6a8094fee0aa204fd97bcb0b44b8580")].

(** test/kuznyechik/BlkRawTest.cpp:16-30 *)
Definition BlkRawTest : list (M W bool) := [lift (KBlockTest (KRaw1 1) "00000000000000000000000000000001")].

(** test/kuznyechik/BlkRTest.cpp:17-66 *)
Definition BlkRTest : list (M W bool) :=
  [lift (KBlockTest (KR (KString (str_of "100"))) "94000000000000000000000000000001");
   lift (KBlockTest (KR (KString (str_of "94000000000000000000000000000001"))) "a5940000000000000000000000000000");
   lift (KBlockTest (KR (KString (str_of "a5940000000000000000000000000000"))) "64a59400000000000000000000000000");
   lift (KBlockTest (KR (KString (str_of "64a59400000000000000000000000000"))) "0d64a594000000000000000000000000")].

(** test/kuznyechik/BlkShiftedTest.cpp:17-44 *)
Definition BlkShiftedTest : list (M W bool) :=
  [lift (KBlockTest (KShifted m (KString (str_of "1")) 4) "00000000000000000000000000000010");
   lift (KBlockTest (KShifted m (KString (str_of "ffffffff00000000")) 16) "000000000000ffffffff000000000000")].

(** test/kuznyechik/BlkSTest.cpp:17-68 *)
Definition BlkSTest : list (M W bool) :=
  [lift (KBlockTest (KS (KString (str_of "ffeeddccbbaa99881122334455667700"))) "b66cd8887d38e8d77765aeea0c9a7efc");
   lift (KBlockTest (KS (KString (str_of "b66cd8887d38e8d77765aeea0c9a7efc"))) "559d8dd7bd06cbfe7e7b262523280d39");
   lift (KBlockTest (KS (KString (str_of "559d8dd7bd06cbfe7e7b262523280d39"))) "0c3322fed531e4630d80ef5c5a81c50b");
   lift (KBlockTest (KS (KString (str_of "0c3322fed531e4630d80ef5c5a81c50b"))) "23ae65633f842d29c5df529c13f5acda")].

(** test/kuznyechik/BlkXoredTest.cpp:17-38 *)
Definition BlkXoredTest : list (M W bool) :=
  [lift (KBlockTest (KXored (KString (str_of "0000000000000000ffffffffffffffff"))
                            (KString (str_of "ffffffffffffffff0000000000000000"))) "ffffffffffffffffffffffffffffffff")].

(** The data of test/kuznyechik/ImitTest.cpp:29-38, StCTREncryptedTest.cpp:46-51 and
    test_package/example.cpp:19-28 *)
Definition memory : list N :=
  [0xffeeddccbbaa9988; 0x1122334455667700; 0x8899aabbcceeff0a; 0x0011223344556677;
   0x99aabbcceeff0a00; 0x1122334455667788; 0xaabbcceeff0a0011; 0x2233445566778899].
Definition imit_of_memory : kblock :=
  k <- Key_string kuz_text ;; v_kimit v memory k.

(** test/kuznyechik/ImitTest.cpp:19-52 *)
Definition kuz_ImitTest : list (M W bool) := [lift (StartsWithTest (KReprBlock imit_of_memory) "336f4d296059fbe3")].

(** test/kuznyechik/KeyDataStringTest.cpp:17-43 with BlkKeyData.cpp:17-20, 27-30 *)
Definition kuz_KeyDataStringTest : list (M W bool) :=
  [lift (b <- KeyDataString_high kuz_text ;; KBlockTest b "8899aabbccddeeff0011223344556677");
   lift (b <- KeyDataString_low kuz_text ;; KBlockTest b "fedcba98765432100123456789abcdef")].

(** BlkOfStream::value, test/kuznyechik/StCTREncryptedTest.cpp:28-35 *)
Fixpoint nth_next {I} (ops : iter_ops I) (n : nat) (it : option I) : res (option I) :=
  match n with
  | O => Ok it
  | Datatypes.S n' => i <- deref it ;; j <- it_next ops i ;; nth_next ops n' j
  end.
Definition BlkOfStream {I} (ops : iter_ops I) (iter : res (option I)) (n : nat) : kblock :=
  it <- iter ;; it <- nth_next ops n it ;; i <- deref it ;; it_value ops i.

(** test/kuznyechik/StCTREncryptedTest.cpp:42-93 *)
Definition ctr_test (n : nat) (expected : string) : M W bool :=
  lift (k <- Key_string kuz_text ;;
        KBlockTest (BlkOfStream (ItCTR_ops (ItMemory_ops (Some memory)) k)
                      (StCTR_iter (StMemory_iter true memory) 0x1234567890abcef0) n) expected).
Definition StCTREncryptedTest : list (M W bool) :=
  [ctr_test 0 "f195d8bec10ed1dbd57b5fa240bda1b8"; ctr_test 1 "85eee733f6a13e5df33ce4b33c45dee4";
   ctr_test 2 "a5eae88be6356ed3d5e877f13564a3a5"; ctr_test 3 "cb91fab1f20cbab6d1c6d15820bdba73"].

(** test/kuznyechik/Test.cpp:27-47 *)
Definition kuz_tests (device : M W N) : list (M W bool) :=
  BlkCachedTest device ++ kuz_BlkEncryptedTest ++ BlkIncrementedTest ++ BlkIterKeyTest ++ BlkLTest ++ BlkRawTest ++
  BlkRTest ++ BlkShiftedTest ++ BlkSTest ++ BlkXoredTest ++ kuz_ImitTest ++ kuz_KeyDataStringTest ++ StCTREncryptedTest.

(** ** main *)

(** test/goost_test.cpp:16-31: the exit status *)
Definition goost_test (engine device : M W N) : M W Z :=
  ok <-- all_pass (Hex64SourceTest ++ gost_tests ++ kuz_tests device ++ magma_tests engine) ;;
  mret (if ok : bool then 0 else -1)%Z.

(** test_package/example.cpp:15-41 *)
Definition example_main : res Z :=
  '(first, second) <- imit_of_memory ;;
  let os := put_hex 16 second ++ put_hex 16 first in
  Ok (if same_text os (str_of "336f4d296059fbe34ddeb35b37749c67") then 0 else -1)%Z.
End Suite.
