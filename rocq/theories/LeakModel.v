(** What an observer of the machine sees while a block is being encrypted: the index of
    every table element that is read (through the data cache) and the outcome of every
    "if" on the way (through the branch predictor or the time it takes).

    The functions are those of MagmaModel.v and KuzModel.v once more, now writing down
    these events; LeakProofs.v proves that their results are the same. Simplifications:
    the key words and round keys are already loaded (second and later blocks of a
    message), so the accesses of KeyCachedData and BlkCached depend on nothing secret
    and are left out, as are the indices of loops with constant bounds. Where C++ leaves
    the order of operands open, it is left to right. A compiler may turn a branch into a
    conditional move; the model speaks of the source. *)
From Verif Require Import Base Text MagmaModel KuzModel.
Local Open Scope N_scope.

Inductive event : Type :=
| Lookup (table index : N)
| Branch (taken : bool).

(** A computation together with its events. *)
Definition T (A : Type) : Type := res A * list event.

Definition tlift {A} (r : res A) : T A := (r, []).
Definition tret {A} (a : A) : T A := tlift (Ok a).
Definition tbind {A B} (x : T A) (f : A -> T B) : T B :=
  match fst x with
  | Ok a => let y := f a in (fst y, snd x ++ snd y)
  | Throw e => (Throw e, snd x)
  | Undef u => (Undef u, snd x)
  | OutOfFuel => (OutOfFuel, snd x)
  end.
Notation "x <~ e ;; f" := (tbind e (fun x => f))
  (at level 61, e at level 60, f at level 200, right associativity).
Notation "' p <~ e ;; f" := (tbind e (fun x => match x with p => f end))
  (at level 61, p pattern, e at level 60, f at level 200, right associativity).

(** Reading element [index] of table number [table]. *)
Definition look {A} (table index : N) (r : res A) : T A := (r, [Lookup table index]).

(** [if (c)]: the event, then the branch. *)
Definition cond {A} (c : bool) (x y : T A) : T A :=
  let z := if c then x else y in (fst z, Branch c :: snd z).

(** ** goost/magma *)

Definition tsbox : Type := N -> T N.

(** SboxNibble::transformN, goost/magma/SboxNibble.cpp:30-34 *)
Definition nibble_transformN_t (value : N) (p : list Z) (nidx : N) : T N :=
  let i := N.land (N.shiftr value (nidx * 4)) 0xf in
  e <~ look nidx i (at_ p i) ;;
  tret (w32 (N.shiftl (u32_of_int e) (nidx * 4))).

(** SboxNibble::transform, goost/magma/SboxNibble.cpp:18-28 *)
Definition SboxNibble_t (p0 p1 p2 p3 p4 p5 p6 p7 : list Z) : tsbox := fun value =>
  t0 <~ nibble_transformN_t value p0 0 ;;
  t1 <~ nibble_transformN_t value p1 1 ;;
  t2 <~ nibble_transformN_t value p2 2 ;;
  t3 <~ nibble_transformN_t value p3 3 ;;
  t4 <~ nibble_transformN_t value p4 4 ;;
  t5 <~ nibble_transformN_t value p5 5 ;;
  t6 <~ nibble_transformN_t value p6 6 ;;
  t7 <~ nibble_transformN_t value p7 7 ;;
  tret (N.lor (N.lor (N.lor (N.lor (N.lor (N.lor (N.lor t0 t1) t2) t3) t4) t5) t6) t7).

(** SboxTwisted::transform, goost/magma/SboxTwisted.cpp:16-20 *)
Definition SboxTwisted_t (sb : tsbox) : tsbox := fun value =>
  tmp <~ sb value ;;
  tret (N.lor (w32 (N.shiftl tmp 11)) (N.land (N.shiftr tmp 21) 0x7ff)).

(** SboxByte64Tab::translate, goost/magma/SboxByte64Tab.cpp:16-20. The four tables
    share one vector. *)
Definition SboxByte64Tab_t (uz : list N) (offset : Z) (index : Z) : T N :=
  let i := (Z.land (Z.shiftr index 4) 0xf * 4 + offset)%Z in
  let j := (Z.land index 0xf * 4 + offset)%Z in
  hi <~ look 0 (Z.to_N i) (at_int uz i) ;;
  lo <~ look 0 (Z.to_N j) (at_int uz j) ;;
  tret (N.land hi 0xf0 + N.land lo 0x0f).

(** SboxByte::transform, goost/magma/SboxByte.cpp:32-38 *)
Definition SboxByte_t (uz : list N) : tsbox := fun v =>
  t1 <~ SboxByte64Tab_t uz 0 (int_of_u32 v) ;;
  t2 <~ SboxByte64Tab_t uz 1 (int_of_u32 (N.shiftr v 8)) ;;
  t3 <~ SboxByte64Tab_t uz 2 (int_of_u32 (N.shiftr v 16)) ;;
  t4 <~ SboxByte64Tab_t uz 3 (int_of_u32 (N.shiftr v 24)) ;;
  tret (N.lor (N.lor (N.lor t1 (w32 (N.shiftl t2 8)))
                     (w32 (N.shiftl t3 16))) (w32 (N.shiftl t4 24))).

(** SboxR3412, goost/magma/SboxR3412.cpp:14-35 *)
Definition SboxR3412_t : tsbox :=
  SboxTwisted_t (SboxNibble_t
    [12; 4; 6; 2; 10; 5; 11; 9; 14; 8; 13; 7; 0; 3; 15; 1]
    [6; 8; 2; 3; 9; 10; 5; 12; 1; 14; 4; 7; 11; 13; 0; 15]
    [11; 3; 5; 8; 2; 15; 10; 13; 14; 1; 7; 4; 12; 9; 6; 0]
    [12; 8; 2; 1; 13; 4; 15; 6; 7; 0; 10; 5; 3; 14; 9; 11]
    [7; 15; 5; 10; 8; 1; 6; 13; 0; 9; 3; 14; 11; 4; 2; 12]
    [5; 13; 15; 6; 9; 2; 12; 10; 11; 7; 8; 1; 4; 3; 14; 0]
    [8; 14; 2; 5; 6; 9; 1; 12; 15; 4; 11; 0; 13; 10; 3; 7]
    [1; 7; 14; 13; 0; 5; 8; 3; 4; 15; 10; 6; 9; 12; 11; 2])%Z.

(** LazyKey::transform, goost/magma/LazyKey.cpp:40-43, for loaded key words and a table
    object [sb]. *)
Definition lazy_transform_t (kd : keydata) (sb : tsbox) (v : N) (index : Z) : T N :=
  kw <~ tlift (kd index) ;;
  r <~ sb (w32 (w32 kw + v)) ;;
  tret (w32 r).

Section MagmaBlocks.
Context (kd : keydata) (sb : tsbox).
Let tr := lazy_transform_t kd sb.

(** BlkForwarded::value, goost/magma/BlkForwarded.cpp:18-34 *)
Definition BlkForwarded_t (blk : T (N * N)) : T (N * N) :=
  '(a, b) <~ blk ;;
  t <~ tr a 0 ;; let b := N.lxor b t in
  t <~ tr b 1 ;; let a := N.lxor a t in
  t <~ tr a 2 ;; let b := N.lxor b t in
  t <~ tr b 3 ;; let a := N.lxor a t in
  t <~ tr a 4 ;; let b := N.lxor b t in
  t <~ tr b 5 ;; let a := N.lxor a t in
  t <~ tr a 6 ;; let b := N.lxor b t in
  t <~ tr b 7 ;; let a := N.lxor a t in
  tret (a, b).

(** BlkBackwarded::value, goost/magma/BlkBackwarded.cpp:17-33 *)
Definition BlkBackwarded_t (blk : T (N * N)) : T (N * N) :=
  '(a, b) <~ blk ;;
  t <~ tr a 7 ;; let b := N.lxor b t in
  t <~ tr b 6 ;; let a := N.lxor a t in
  t <~ tr a 5 ;; let b := N.lxor b t in
  t <~ tr b 4 ;; let a := N.lxor a t in
  t <~ tr a 3 ;; let b := N.lxor b t in
  t <~ tr b 2 ;; let a := N.lxor a t in
  t <~ tr a 1 ;; let b := N.lxor b t in
  t <~ tr b 0 ;; let a := N.lxor a t in
  tret (a, b).

(** BlkSwapped::value, goost/magma/BlkSwapped.cpp:16-20 *)
Definition BlkSwapped_t (b : T (N * N)) : T (N * N) :=
  '(first, second) <~ b ;; tret (second, first).

(** BlkEncrypted, goost/magma/BlkEncrypted.cpp:14-38 *)
Definition BlkEncrypted_t (blk : T (N * N)) : T (N * N) :=
  BlkSwapped_t (BlkBackwarded_t (BlkForwarded_t (BlkForwarded_t (BlkForwarded_t blk)))).

(** BlkDecrypted, goost/magma/BlkDecrypted.cpp:14-38 *)
Definition BlkDecrypted_t (blk : T (N * N)) : T (N * N) :=
  BlkSwapped_t (BlkBackwarded_t (BlkBackwarded_t (BlkBackwarded_t (BlkForwarded_t blk)))).

(** BlkImitShifted::value, goost/magma/Imit.cpp:46-53: the block is evaluated for the
    condition and once more by the BlkShifted object. *)
Definition BlkImitShifted_t (m : mode) (b : T (N * N)) : T (N * N) :=
  '(_, second) <~ b ;;
  cond (N.land second 0x80000000 =? 0)
    (v <~ b ;; tlift (BlkShifted m (Ok v) 1))
    (v <~ b ;; tlift (BlkXored (BlkShifted m (Ok v) 1) (BlkRaw64 0x1b))).

(** K1 of BlkImitFinalKey::value, goost/magma/Imit.cpp:62-71, for a complete last block *)
Definition BlkImitFinalKey_t (m : mode) : T (N * N) :=
  BlkImitShifted_t m (BlkEncrypted_t (tlift BlkRaw0)).

End MagmaBlocks.

(** ** goost/kuznyechik *)

(** BlkR::gmul, goost/kuznyechik/BlkR.cpp:21-39; [n] iterations are left. *)
Fixpoint gmul_loop_t (n : nat) (a b p : N) : T N :=
  match n with
  | O => tret p
  | S k =>
      p <~ cond (N.land b 1 =? 1) (tret (N.lxor p a)) (tret p) ;;
      let hi_bit_set := N.land a 0x80 in
      let a := w8 (N.shiftl a 1) in
      a <~ cond (hi_bit_set =? 0x80) (tret (w8 (N.lxor a 0x1c3))) (tret a) ;;
      let b := N.shiftr b 1 in
      gmul_loop_t k a b p
  end.

Definition gmul_t (a b : N) : T N := gmul_loop_t 8 a b 0.

(** goost/kuznyechik/BlkR.cpp:50-53 *)
Fixpoint gmul_sum_t (data k : list N) (sum : N) : T N :=
  match data, k with
  | d :: ds, c :: cs => g <~ gmul_t d c ;; gmul_sum_t ds cs (N.lxor sum g)
  | _, _ => tret sum
  end.

(** BlkR::value, goost/kuznyechik/BlkR.cpp:41-56 *)
Definition KR_t (b : T (N * N)) : T (N * N) :=
  '(first, second) <~ b ;;
  let data := to_le 8 first ++ to_le 8 second in
  sum <~ gmul_sum_t data BlkR_k 0 ;;
  tlift (KRaw_bytes (skipn 1 data ++ [w8 sum])).

(** BlkL::transform, goost/kuznyechik/BlkL.cpp:22-29 *)
Fixpoint KL_transform_t (b : T (N * N)) (n : nat) : T (N * N) :=
  match n with
  | O => b
  | S k => KL_transform_t (KR_t b) k
  end.

(** BlkL::value, goost/kuznyechik/BlkL.cpp:17-20 *)
Definition KL_t (b : T (N * N)) : T (N * N) := KL_transform_t b 16.

(** The loop of BlkS::value, goost/kuznyechik/BlkS.cpp:40-42 *)
Fixpoint KS_loop_t (data : list N) : T (list N) :=
  match data with
  | [] => tret []
  | d :: ds =>
      s <~ look 0 d (at_ BlkS_sbox d) ;;
      ss <~ KS_loop_t ds ;;
      tret (s :: ss)
  end.

(** BlkS::value, goost/kuznyechik/BlkS.cpp:38-43 *)
Definition KS_t (b : T (N * N)) : T (N * N) :=
  '(first, second) <~ b ;;
  data <~ KS_loop_t (to_le 8 first ++ to_le 8 second) ;;
  tlift (KRaw_bytes data).

(** BlkXored::value, goost/kuznyechik/BlkXored.cpp:16-21 *)
Definition KXored_t (a b : T (N * N)) : T (N * N) :=
  '(a1, a2) <~ a ;; '(b1, b2) <~ b ;; tret (N.lxor a1 b1, N.lxor a2 b2).

(** Key::encryptStep, goost/kuznyechik/Key.cpp:51-57, with a loaded round key *)
Definition encryptStep_t (b : T (N * N)) (kn : kblock) : T (N * N) :=
  KL_t (KS_t (KXored_t b (tlift kn))).

(** Key::encrypt, goost/kuznyechik/Key.cpp:37-49, and the value of the returned block *)
Definition Key_encrypt_t (k : kkey) (b : T (N * N)) : T (N * N) :=
  let t1 := encryptStep_t b (k1 k) in
  let t2 := encryptStep_t t1 (k2 k) in
  let t3 := encryptStep_t t2 (k3 k) in
  let t4 := encryptStep_t t3 (k4 k) in
  let t5 := encryptStep_t t4 (k5 k) in
  let t6 := encryptStep_t t5 (k6 k) in
  let t7 := encryptStep_t t6 (k7 k) in
  let t8 := encryptStep_t t7 (k8 k) in
  let t9 := encryptStep_t t8 (k9 k) in
  KXored_t t9 (tlift (k10 k)).
