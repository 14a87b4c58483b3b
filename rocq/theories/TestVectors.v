(** Validation of the model against every test vector in /repo/test (these are
    tests of the model, not proofs of properties). *)
From Verif Require Import Base Text MagmaModel Streams KuzModel SpecMagma.
Local Open Scope N_scope.

Definition X : mode := X86 (fun _ _ => 0).

(** The 64-bit number of a magma block, the 128-bit number of a Kuznyechik block:
    what test/*/ReprBlock.cpp prints. *)
Definition n64 (b : block) : res N := '(lo, hi) <- b ;; Ok (hi * 2 ^ 32 + lo).
Definition n128 (b : kblock) : res N := '(lo, hi) <- b ;; Ok (hi * 2 ^ 64 + lo).

(** Hex64Source / HexContainer inputs: 64-bit numbers, little-endian bytes. *)
Definition le64s (l : list N) : bytes := flat_map (to_le 8) l.
(** Big-endian bytes of a number. *)
Definition be (n : nat) (x : N) : bytes := rev (to_le n x).

Definition magma_key_str : str :=
  str_of "ffeeddccbbaa99887766554433221100f0f1f2f3f4f5f6f7f8f9fafbfcfdfeff".
Definition mkey : lazykey := LazyKey_string magma_key_str.

Definition test_uz : list N := be 64
  0xc4ed83c99298fe6bffbe655ce52cb920895716b311f398063079c097a81a5dd52e01da3473d53be84bc2777edc64acaf6da602f1074fe14aba302f12568b448d.
Definition gkey : lazykey :=
  LazyKey_native [0xE0F67504; 0xFAFB3850; 0x90C3C7D2; 0x3DCAB3ED;
                  0x42124715; 0x8A1EAE91; 0x9ECD792F; 0xBDEFBCD2]
                 (SboxTwisted (SboxByte test_uz)).

(** test/magma *)
Example BlkDecryptedTest :
  n64 (BlkDecrypted (BlkString (str_of "4ee901e5c2d8ca3d")) (Some mkey)) = Ok 0xfedcba9876543210.
Proof. vm_compute. reflexivity. Qed.

Example BlkEncryptedTest :
  map (fun x => n64 (BlkEncrypted (BlkRaw64 x) (Some mkey)))
      [0xfedcba9876543210; 0x92def06b3c130a59; 0xf053f8006cebef80;
       0x8206233a9af61aa5; 0x216e6a2561cff165]
  = map Ok [0x4ee901e5c2d8ca3d; 0x2b073f0494f372a0; 0xc89ed814fd5e18e9;
            0xf739b18d34289b00; 0x154e72102030c5bb].
Proof. vm_compute. reflexivity. Qed.

Example BlkEncryptedTest_raw_bytes :
  n64 (BlkEncrypted (BlkRaw_bytes [0x10; 0x32; 0x54; 0x76; 0x98; 0xba; 0xdc; 0xfe]) (Some mkey))
  = Ok 0x4ee901e5c2d8ca3d.
Proof. vm_compute. reflexivity. Qed.

Example BlkEncryptedTest_sboxbyte :
  map (fun x => n64 (BlkEncrypted (BlkRaw64 x) (Some gkey))) [0x0001020304050607; 0x08090a0b0c0d0e0f]
  = map Ok [0xea4af215984c8c4b; 0xd12ebcb30957c31e].
Proof. vm_compute. reflexivity. Qed.

Example BlkStringTest : n64 (BlkString (str_of "1")) = Ok 1.
Proof. vm_compute. reflexivity. Qed.

Example BlkSwappedTest :
  n64 (BlkSwapped (BlkString (str_of "aaaaaaaa55555555"))) = Ok 0x55555555aaaaaaaa.
Proof. vm_compute. reflexivity. Qed.

Definition P4 : list N :=
  [0x92def06b3c130a59; 0xdb54c704f8189d20; 0x4a98fb2e67a8024c; 0x8912409b17b57e41].

Definition run {A} (x : M unit A) : res A := fst (x tt).

Example magma_CFBSinkTest :
  run (o <-- magma_CFBSink_write TestSink_write ISO
         (magma_CFBSink_init [] (KLazy mkey) 0x1234567890abcdef 0x234567890abcdef1)
         (le64s P4) ;;
       magma_CFBSink_finalize TestSink_write ISO o)
  = Ok (le64s [0xdb37e0e266903c83; 0x0d46644c1f9a089c; 0x24bdd2035315d38b; 0xbcc0321421075505]).
Proof. vm_compute. reflexivity. Qed.

Example magma_CFBSourceTest :
  run ('(b, s) <-- magma_CFBSource_read MemSource_read ISO
         (magma_CFBSource_init
            (le64s [0xdb37e0e266903c83; 0x0d46644c1f9a089c; 0x24bdd2035315d38b; 0xbcc0321421075505])
            (KLazy mkey) 0x1234567890abcdef 0x234567890abcdef1)
         (2 ^ 64 - 1) ;;
       '(b2, s) <-- magma_CFBSource_read MemSource_read ISO s (2 ^ 64 - 1) ;;
       mret (b, b2))
  = Ok (le64s P4, []).
Proof. vm_compute. reflexivity. Qed.

Example ECBSinkTest :
  run (o <-- ECBSink_write TestSink_write (ECBSink [] (KLazy mkey)) (le64s P4) ;;
       ECBSink_finalize o)
  = Ok (le64s [0x2b073f0494f372a0; 0xde70e715d3556e48; 0x11d8d9e9eacfbc1e; 0x7c68260996c67efb]).
Proof. vm_compute. reflexivity. Qed.

(** HexContainer, test/magma/HexContainer.cpp; its table is [Pi_packed]. *)
Definition hex_container : container := Container
  (Ok (be 32 0xffeeddccbbaa99887766554433221100f0f1f2f3f4f5f6f7f8f9fafbfcfdfeff))
  (Ok (repeat 0 32))
  (Ok Pi_packed).

Example ECBSourceTest :
  run (k <-- lift (makeKey ISO hex_container) ;;
       '(bs, _) <-- reads (ECBSource_read MemSource_read ISO)
         (ECBSource (le64s [0x2b073f0494f372a0; 0xde70e715d3556e48;
                            0x11d8d9e9eacfbc1e; 0x7c68260996c67efb]) k)
         (repeat (2 ^ 64 - 1) 5) ;;
       mret bs)
  = Ok (map (fun x => le64s [x]) P4 ++ [[]]).
Proof. vm_compute. reflexivity. Qed.

Example EncryptionBaseTest :
  map (EncryptionBase_transform (KLazy mkey))
      [0xfedcba9876543210; 0x92def06b3c130a59; 0xf053f8006cebef80;
       0x8206233a9af61aa5; 0x216e6a2561cff165]
  = map Ok [0x4ee901e5c2d8ca3d; 0x2b073f0494f372a0; 0xc89ed814fd5e18e9;
            0xf739b18d34289b00; 0x154e72102030c5bb].
Proof. vm_compute. reflexivity. Qed.

(** On x86 the test passes; by the language standard the run is undefined. *)
Example magma_ImitTest :
  n64 (run (magma_Imit MemSource_read X 10 (le64s P4) (Some mkey))) = Ok 0x154e72102030c5bb /\
  n64 (run (magma_Imit MemSource_read ISO 10 (le64s P4) (Some mkey))) = Undef WideShift.
Proof. vm_compute. split; reflexivity. Qed.

Example KeyDataNativeTest :
  mapM (KeyDataNative [0xE0F67504; 0xFAFB3850; 0x90C3C7D2; 0x3DCAB3ED;
                       0x42124715; 0x8A1EAE91; 0x9ECD792F; 0xBDEFBCD2]) [0;1;2;3;4;5;6;7]%Z
  = Ok [0xE0F67504; 0xFAFB3850; 0x90C3C7D2; 0x3DCAB3ED;
        0x42124715; 0x8A1EAE91; 0x9ECD792F; 0xBDEFBCD2].
Proof. vm_compute. reflexivity. Qed.

Example magma_KeyDataStringTest :
  mapM (KeyDataString magma_key_str) [0;1;2;3;4;5;6;7]%Z
  = Ok [0xffeeddcc; 0xbbaa9988; 0x77665544; 0x33221100;
        0xf0f1f2f3; 0xf4f5f6f7; 0xf8f9fafb; 0xfcfdfeff].
Proof. vm_compute. reflexivity. Qed.

Definition nib : sbox := (SboxNibble
  [12; 4; 6; 2; 10; 5; 11; 9; 14; 8; 13; 7; 0; 3; 15; 1]
  [6; 8; 2; 3; 9; 10; 5; 12; 1; 14; 4; 7; 11; 13; 0; 15]
  [11; 3; 5; 8; 2; 15; 10; 13; 14; 1; 7; 4; 12; 9; 6; 0]
  [12; 8; 2; 1; 13; 4; 15; 6; 7; 0; 10; 5; 3; 14; 9; 11]
  [7; 15; 5; 10; 8; 1; 6; 13; 0; 9; 3; 14; 11; 4; 2; 12]
  [5; 13; 15; 6; 9; 2; 12; 10; 11; 7; 8; 1; 4; 3; 14; 0]
  [8; 14; 2; 5; 6; 9; 1; 12; 15; 4; 11; 0; 13; 10; 3; 7]
  [1; 7; 14; 13; 0; 5; 8; 3; 4; 15; 10; 6; 9; 12; 11; 2])%Z.

Example SboxNibbleTest :
  map nib [0xfdb97531; 0x2a196f34; 0xebd9f03a; 0xb039bb3d]
  = map Ok [0x2a196f34; 0xebd9f03a; 0xb039bb3d; 0x68695433].
Proof. vm_compute. reflexivity. Qed.

Example SboxTwistedTest :
  map (fun x => SboxTwisted nib (w32 x))
      [0x87654321 + 0xfedcba98; 0xfdcbc20c + 0x87654321;
       0x7e791a4b + 0xfdcbc20c; 0xc76549ec + 0x7e791a4b]
  = map Ok [0xfdcbc20c; 0x7e791a4b; 0xc76549ec; 0x9791c849].
Proof. vm_compute. reflexivity. Qed.

(** test/gost89 *)
Example gost_BlkEncryptedTest :
  n64 (BlkEncrypted (BlkRaw2 0x04050607 0x00010203) (Some gkey)) = Ok 0xEA4AF215984C8C4B.
Proof. vm_compute. reflexivity. Qed.

Example gost_CFBSinkTest :
  run (o <-- gost_CFBSink_write TestSink_write ISO
         (gost_CFBSink_init [] (KLazy gkey) 0x47E3A8FFC3A7802A)
         (le64s [0x33333333CCCCCCCC; 0xCCCCCCCC33333333]) ;;
       gost_CFBSink_finalize TestSink_write ISO o)
  = Ok (le64s [0x4B64BD1043224C3B; 0x0FAA6CD95548EB99]).
Proof. vm_compute. reflexivity. Qed.

Example gost_CFBSourceTest :
  run ('(b, s) <-- gost_CFBSource_read MemSource_read ISO
         (gost_CFBSource_init (le64s [0x4B64BD1043224C3B; 0x0FAA6CD95548EB99])
                              (KLazy gkey) 0x47E3A8FFC3A7802A) (2 ^ 64 - 1) ;;
       '(b2, s) <-- gost_CFBSource_read MemSource_read ISO s (2 ^ 64 - 1) ;;
       mret (b, b2))
  = Ok (le64s [0x33333333CCCCCCCC; 0xCCCCCCCC33333333], []).
Proof. vm_compute. reflexivity. Qed.

(** test/kuznyechik *)
Definition kuz_key_str : str :=
  str_of "8899aabbccddeeff0011223344556677fedcba98765432100123456789abcdef".
Definition kuz_key : kkey :=
  match Key_string kuz_key_str with
  | Ok k => k
  | _ => Key_blocks OutOfFuel OutOfFuel
  end.

(** The same with the key schedule worked out, to keep the tests below cheap. *)
Definition kuz_key_value : kkey := KKey
  (Ok (0x0011223344556677, 0x8899aabbccddeeff)) (Ok (0x0123456789abcdef, 0xfedcba9876543210))
  (Ok (0x228d6aef8cc78c44, 0xdb31485315694343)) (Ok (0x15ebadc40a9ffd04, 0x3d4553d8e9cfec68))
  (Ok (0xd3e59246f429f1ac, 0x57646468c44a5e28)) (Ok (0xb532e82834da581b, 0xbd079435165c6432))
  (Ok (0x705727265a0098b1, 0x51e640757e8745de)) (Ok (0xd72a91a22286f984, 0x5a7925017b9fdd3e))
  (Ok (0xa5f32f73cdb6e517, 0xbb44e25378c73123)) (Ok (0x755dbaa88e4a4043, 0x72e9dd7416bcf45b)).

Lemma kuz_key_blocks :
  Key_blocks (Ok (0x0011223344556677, 0x8899aabbccddeeff)) (Ok (0x0123456789abcdef, 0xfedcba9876543210)) =
  kuz_key_value.
Proof. vm_compute. reflexivity. Qed.

Lemma kuz_key_eq : kuz_key = kuz_key_value.
Proof.
  rewrite <- kuz_key_blocks. unfold kuz_key, Key_string, Key_data.
  change (KeyDataString_high kuz_key_str) with
    (@Ok kblock (Ok (0x0011223344556677, 0x8899aabbccddeeff))).
  change (KeyDataString_low kuz_key_str) with
    (@Ok kblock (Ok (0x0123456789abcdef, 0xfedcba9876543210))).
  cbn [bind]. reflexivity.
Qed.

Example kuz_BlkEncryptedTest :
  map (fun s => n128 (KEncrypted (KString (str_of s)) kuz_key))
      ["1122334455667700ffeeddccbbaa9988"; "00112233445566778899aabbcceeff0a";
       "112233445566778899aabbcceeff0a00"; "2233445566778899aabbcceeff0a0011"]%string
  = map Ok [0x7f679d90bebc24305a468d42b9d4edcd; 0xb429912c6e0032f9285452d76718d08b;
            0xf0ca33549d247ceef3f5a5313bd4b157; 0xd0b09ccde830b9eb3a02c4c5aa8ada98].
Proof. rewrite !kuz_key_eq. vm_compute. reflexivity. Qed.

Example kuz_BlkIncrementedTest :
  n128 (KIncremented (KString (str_of "ffffffffffffffff"))) = Ok (2 ^ 64).
Proof. vm_compute. reflexivity. Qed.

Example kuz_BlkIterKeyTest :
  map (fun f : kkey -> kblock => n128 (f kuz_key)) [k1; k2; k3; k4; k5; k6; k7; k8; k9; k10]
  = map Ok [0x8899aabbccddeeff0011223344556677; 0xfedcba98765432100123456789abcdef;
            0xdb31485315694343228d6aef8cc78c44; 0x3d4553d8e9cfec6815ebadc40a9ffd04;
            0x57646468c44a5e28d3e59246f429f1ac; 0xbd079435165c6432b532e82834da581b;
            0x51e640757e8745de705727265a0098b1; 0x5a7925017b9fdd3ed72a91a22286f984;
            0xbb44e25378c73123a5f32f73cdb6e517; 0x72e9dd7416bcf45b755dbaa88e4a4043].
Proof. rewrite !kuz_key_eq. vm_compute. reflexivity. Qed.

Example kuz_BlkLTest :
  map (fun s => n128 (KL (KString (str_of s))))
      ["64a59400000000000000000000000000"; "d456584dd0e3e84cc3166e4b7fa2890d";
       "79d26221b87b584cd42fbc4ffea5de9a"; "0e93691a0cfc60408b7b68f66b513c13"]%string
  = map Ok [0xd456584dd0e3e84cc3166e4b7fa2890d; 0x79d26221b87b584cd42fbc4ffea5de9a;
            0x0e93691a0cfc60408b7b68f66b513c13; 0xe6a8094fee0aa204fd97bcb0b44b8580].
Proof. vm_compute. reflexivity. Qed.

Example kuz_BlkRTest :
  map (fun s => n128 (KR (KString (str_of s))))
      ["100"; "94000000000000000000000000000001"; "a5940000000000000000000000000000";
       "64a59400000000000000000000000000"]%string
  = map Ok [0x94000000000000000000000000000001; 0xa5940000000000000000000000000000;
            0x64a59400000000000000000000000000; 0x0d64a594000000000000000000000000].
Proof. vm_compute. reflexivity. Qed.

Example kuz_BlkRawTest : n128 (KRaw1 1) = Ok 1.
Proof. vm_compute. reflexivity. Qed.

Example kuz_BlkSTest :
  map (fun s => n128 (KS (KString (str_of s))))
      ["ffeeddccbbaa99881122334455667700"; "b66cd8887d38e8d77765aeea0c9a7efc";
       "559d8dd7bd06cbfe7e7b262523280d39"; "0c3322fed531e4630d80ef5c5a81c50b"]%string
  = map Ok [0xb66cd8887d38e8d77765aeea0c9a7efc; 0x559d8dd7bd06cbfe7e7b262523280d39;
            0x0c3322fed531e4630d80ef5c5a81c50b; 0x23ae65633f842d29c5df529c13f5acda].
Proof. vm_compute. reflexivity. Qed.

Example kuz_BlkShiftedTest :
  n128 (KShifted ISO (KString (str_of "1")) 4) = Ok 0x10 /\
  n128 (KShifted ISO (KString (str_of "ffffffff00000000")) 16) = Ok 0xffffffff000000000000.
Proof. vm_compute. split; reflexivity. Qed.

Example kuz_BlkXoredTest :
  n128 (KXored (KString (str_of "0000000000000000ffffffffffffffff"))
               (KString (str_of "ffffffffffffffff0000000000000000"))) = Ok (2 ^ 128 - 1).
Proof. vm_compute. reflexivity. Qed.

Definition kuz_data : list N :=
  [0xffeeddccbbaa9988; 0x1122334455667700; 0x8899aabbcceeff0a; 0x0011223344556677;
   0x99aabbcceeff0a00; 0x1122334455667788; 0xaabbcceeff0a0011; 0x2233445566778899].

Example kuz_ImitTest :
  ('(_, hi) <- KImit 10 ISO (ItMemory_ops (Some kuz_data)) (StMemory_iter true kuz_data) kuz_key ;;
   Ok hi)
  = Ok 0x336f4d296059fbe3.
Proof. rewrite !kuz_key_eq. vm_compute. reflexivity. Qed.

Example kuz_KeyDataStringTest :
  (b <- KeyDataString_high kuz_key_str ;; n128 b) = Ok 0x8899aabbccddeeff0011223344556677 /\
  (b <- KeyDataString_low kuz_key_str ;; n128 b) = Ok 0xfedcba98765432100123456789abcdef.
Proof. vm_compute. split; reflexivity. Qed.

Example StCTREncryptedTest :
  (i <- StCTR_iter (StMemory_iter true kuz_data) 0x1234567890abcef0 ;;
   vs <- stream_values 10 (ItCTR_ops (ItMemory_ops (Some kuz_data)) kuz_key) i ;;
   mapM (fun v => n128 (Ok v)) vs)
  = Ok [0xf195d8bec10ed1dbd57b5fa240bda1b8; 0x85eee733f6a13e5df33ce4b33c45dee4;
        0xa5eae88be6356ed3d5e877f13564a3a5; 0xcb91fab1f20cbab6d1c6d15820bdba73].
Proof. rewrite !kuz_key_eq. vm_compute. reflexivity. Qed.
