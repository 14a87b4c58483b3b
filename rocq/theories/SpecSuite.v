(** Vocabulary for C99 and C100: generators that answer, and what the tests look at. *)
From Verif Require Import Base Text MagmaModel Streams KuzModel HarnessModel SuiteModel.
Local Open Scope N_scope.

(** A random generator that gives some number whenever it is called. *)
Definition answers {W} (x : M W N) : Prop := forall w, exists v w', x w = (Ok v, w').

Definition passes {W} (t : M W bool) : Prop := forall w, exists w', t w = (Ok true, w').

(** The blocks, data and sizes the tests use. *)
Definition encrypted_blocks : list (N * N) :=
  map (fun x => (w32 x, N.shiftr x 32))
    [0xfedcba9876543210; 0x92def06b3c130a59; 0xf053f8006cebef80; 0x8206233a9af61aa5; 0x216e6a2561cff165;
     0x0001020304050607; 0x08090a0b0c0d0e0f].
Definition decrypted_blocks : list (N * N) := [(0xc2d8ca3d, 0x4ee901e5)].
Definition base_blocks : list N :=
  [0xfedcba9876543210; 0x92def06b3c130a59; 0xf053f8006cebef80; 0x8206233a9af61aa5; 0x216e6a2561cff165].
Definition stream_data : bytes :=
  flat_map (to_le 8) [0x92def06b3c130a59; 0xdb54c704f8189d20; 0x4a98fb2e67a8024c; 0x8912409b17b57e41].
Definition kuz_blocks : list (N * N) :=
  [(0xffeeddccbbaa9988, 0x1122334455667700); (0x8899aabbcceeff0a, 0x0011223344556677);
   (0x99aabbcceeff0a00, 0x1122334455667788); (0xaabbcceeff0a0011, 0x2233445566778899)].

(** [v] is the library [u] nearly everywhere: it may differ only on those few blocks and
    data, in reads of the largest size, and in a finalize with nothing left to do. *)
Definition nearly {W} (v u : versions W) : Prop :=
  (forall lo hi k, ~ In (lo, hi) encrypted_blocks -> v_encrypt v (Ok (lo, hi)) k = v_encrypt u (Ok (lo, hi)) k) /\
  (forall lo hi k, ~ In (lo, hi) decrypted_blocks -> v_decrypt v (Ok (lo, hi)) k = v_decrypt u (Ok (lo, hi)) k) /\
  (forall k x, ~ In x base_blocks -> v_base v k x = v_base u k x) /\
  (forall o d, d <> stream_data -> v_ecb_write v o d = v_ecb_write u o d) /\
  (forall o n, n <> 2 ^ 64 - 1 -> v_ecb_read v o n = v_ecb_read u o n) /\
  (forall o d, d <> stream_data -> v_cfb_write v o d = v_cfb_write u o d) /\
  (forall o, mcs_plain o <> [] -> v_cfb_finalize v o = v_cfb_finalize u o) /\
  (forall t k, t <> standard_text -> v_imit v t k = v_imit u t k) /\
  (forall lo hi k, ~ In (lo, hi) kuz_blocks -> v_kencrypt v (Ok (lo, hi)) k = v_kencrypt u (Ok (lo, hi)) k) /\
  (forall d k, d <> memory -> v_kimit v d k = v_kimit u d k) /\
  (forall d k, v_dataimit v d k = v_dataimit u d k).

(** The tests of goost_test.cpp before and behind that of magma::Imit. *)
Definition before_imit {W} m (v : versions W) (device : M W N) : list (M W bool) :=
  Hex64SourceTest ++ gost_tests m v ++ kuz_tests m v device ++
  BlkDecryptedTest v ++ BlkEncryptedTest v ++ BlkStringTest ++ BlkSwappedTest ++ magma_CFBSinkTest m v ++
  magma_CFBSourceTest m ++ ECBSinkTest m v ++ ECBSourceTest m v ++ EncryptionBaseTest v.
Definition after_imit {W} (engine : M W N) : list (M W bool) :=
  KeyCachedDataTest engine ++ KeyDataNativeTest ++ KeyDataStringTest ++ SboxNibbleTest ++ SboxTwistedTest.

(** The tests pass one after the other, each in the world that the ones before it leave. *)
Inductive pass_in_turn {W} : list (M W bool) -> W -> W -> Prop :=
| pass_none w : pass_in_turn [] w w
| pass_next t ts w w1 w2 : t w = (Ok true, w1) -> pass_in_turn ts w1 w2 -> pass_in_turn (t :: ts) w w2.
