(** Model of goost/magma: substitution tables, keys and blocks.
    The stream classes are in Streams.v. *)
From Verif Require Import Base Text.
Local Open Scope N_scope.

(** ** Substitution boxes: Sbox::transform (goost/magma/Sbox.h:12-16) *)

(** A user-defined Sbox may be any function; the return type uint32_t is
    enforced where the result is used ([lazy_transform]). *)
Definition sbox : Type := N -> res N.

(** SboxNibble::transformN, goost/magma/SboxNibble.cpp:30-34 *)
Definition nibble_transformN (value : N) (p : list Z) (nidx : N) : res N :=
  let i := N.land (N.shiftr value (nidx * 4)) 0xf in
  e <- at_ p i ;;
  Ok (w32 (N.shiftl (u32_of_int e) (nidx * 4))).

(** SboxNibble::transform, goost/magma/SboxNibble.cpp:18-28 *)
Definition SboxNibble (p0 p1 p2 p3 p4 p5 p6 p7 : list Z) : sbox := fun value =>
  t0 <- nibble_transformN value p0 0 ;;
  t1 <- nibble_transformN value p1 1 ;;
  t2 <- nibble_transformN value p2 2 ;;
  t3 <- nibble_transformN value p3 3 ;;
  t4 <- nibble_transformN value p4 4 ;;
  t5 <- nibble_transformN value p5 5 ;;
  t6 <- nibble_transformN value p6 6 ;;
  t7 <- nibble_transformN value p7 7 ;;
  Ok (N.lor (N.lor (N.lor (N.lor (N.lor (N.lor (N.lor t0 t1) t2) t3) t4) t5) t6) t7).

(** SboxTwisted::transform, goost/magma/SboxTwisted.cpp:16-20 *)
Definition SboxTwisted (sb : sbox) : sbox := fun value =>
  tmp <- sb value ;;
  Ok (N.lor (w32 (N.shiftl tmp 11)) (N.land (N.shiftr tmp 21) 0x7ff)).

(** SboxByte::Tab::translate (goost/magma/SboxByte.h:18-22) *)
Definition tab : Type := Z -> res N.

(** SboxByte64Tab::translate, goost/magma/SboxByte64Tab.cpp:16-20 *)
Definition SboxByte64Tab (uz : list N) (offset : Z) : tab := fun index =>
  hi <- at_int uz (Z.land (Z.shiftr index 4) 0xf * 4 + offset)%Z ;;
  lo <- at_int uz (Z.land index 0xf * 4 + offset)%Z ;;
  Ok (N.land hi 0xf0 + N.land lo 0x0f).

(** SboxByte::transform, goost/magma/SboxByte.cpp:32-38.
    The uint32_t argument is converted to the [int] parameter of translate. *)
Definition SboxByte_tabs (tab1 tab2 tab3 tab4 : tab) : sbox := fun v =>
  t1 <- tab1 (int_of_u32 v) ;;
  t2 <- tab2 (int_of_u32 (N.shiftr v 8)) ;;
  t3 <- tab3 (int_of_u32 (N.shiftr v 16)) ;;
  t4 <- tab4 (int_of_u32 (N.shiftr v 24)) ;;
  Ok (N.lor (N.lor (N.lor t1 (w32 (N.shiftl t2 8)))
                   (w32 (N.shiftl t3 16))) (w32 (N.shiftl t4 24))).

(** SboxByte(const vector<uint8_t>&), goost/magma/SboxByte.cpp:12-20 *)
Definition SboxByte (uz : list N) : sbox :=
  SboxByte_tabs (SboxByte64Tab uz 0) (SboxByte64Tab uz 1)
                (SboxByte64Tab uz 2) (SboxByte64Tab uz 3).

(** SboxR3412, goost/magma/SboxR3412.cpp:14-35 *)
Definition SboxR3412 : sbox :=
  SboxTwisted (SboxNibble
    [12; 4; 6; 2; 10; 5; 11; 9; 14; 8; 13; 7; 0; 3; 15; 1]
    [6; 8; 2; 3; 9; 10; 5; 12; 1; 14; 4; 7; 11; 13; 0; 15]
    [11; 3; 5; 8; 2; 15; 10; 13; 14; 1; 7; 4; 12; 9; 6; 0]
    [12; 8; 2; 1; 13; 4; 15; 6; 7; 0; 10; 5; 3; 14; 9; 11]
    [7; 15; 5; 10; 8; 1; 6; 13; 0; 9; 3; 14; 11; 4; 2; 12]
    [5; 13; 15; 6; 9; 2; 12; 10; 11; 7; 8; 1; 4; 3; 14; 0]
    [8; 14; 2; 5; 6; 9; 1; 12; 15; 4; 11; 0; 13; 10; 3; 7]
    [1; 7; 14; 13; 0; 5; 8; 3; 4; 15; 10; 6; 9; 12; 11; 2])%Z.

(** ** Key material: KeyData::key(int) (goost/magma/KeyData.h:12-16) *)

Definition keydata : Type := Z -> res N.

(** KeyDataNative::key, goost/magma/KeyDataNative.cpp:16-19 *)
Definition KeyDataNative (key_data : list N) : keydata := fun index =>
  at_int key_data index.

(** KeyDataString::key, goost/magma/KeyDataString.cpp:18-31 *)
Definition KeyDataString (key_data : str) : keydata := fun index =>
  if negb (len key_data =? 64) then Throw (RuntimeError "Wrong key size")
  else if ((index <? 0) || (7 <? index))%Z then Throw (RuntimeError "Wrong key index")
  else s <- substr key_data (Z.to_N (index * 8)) 8 ;;
       extract_hex32 s.

(** KeyCachedData::key, goost/magma/KeyCachedData.cpp:16-25, for a wrapped object
    that always gives the same answers: the first call loads words 0..7, later ones
    only index the std::array. The mutable cache itself is modelled in
    CacheModel.v, where this definition is justified. *)
Definition KeyCachedData (kd : keydata) : keydata := fun index =>
  ks <- mapM kd [0; 1; 2; 3; 4; 5; 6; 7]%Z ;;
  at_int ks index.

(** ** Keys *)

(** LazyKey, goost/magma/LazyKey.h:33-35 *)
Record lazykey : Type := LazyKey { key_data : keydata; key_sbox : sbox }.

(** LazyKey(const string&, sbox), goost/magma/LazyKey.cpp:22-28 *)
Definition LazyKey_string_sbox (s : str) (sb : sbox) : lazykey :=
  LazyKey (KeyCachedData (KeyDataString s)) sb.

(** LazyKey(const string&), goost/magma/LazyKey.cpp:17-20 *)
Definition LazyKey_string (s : str) : lazykey := LazyKey_string_sbox s SboxR3412.

(** LazyKey(const vector<uint32_t>&, sbox), goost/magma/LazyKey.cpp:30-33 *)
Definition LazyKey_native (ws : list N) (sb : sbox) : lazykey :=
  LazyKey (KeyDataNative ws) sb.

(** LazyKey::transform, goost/magma/LazyKey.cpp:40-43; the results of the
    user-overridable key() and transform() are uint32_t. *)
Definition lazy_transform (k : lazykey) (v : N) (index : Z) : res N :=
  kw <- key_data k index ;;
  r <- key_sbox k (w32 (w32 kw + v)) ;;
  Ok (w32 r).

(** An object behind a shared_ptr<const Key> (goost/magma/Key.h:11-15): a LazyKey
    or some user-defined implementation. *)
Inductive key : Type :=
| KLazy (k : lazykey)
| KUser (f : N -> Z -> res N).

Definition key_transform (k : key) (v : N) (index : Z) : res N :=
  match k with
  | KLazy lk => lazy_transform lk v index
  | KUser f => r <- f v index ;; Ok (w32 r)
  end.

(** dynamic_pointer_cast<const LazyKey>(key): null for any other class. *)
Definition cast_lazy (k : key) : option lazykey :=
  match k with KLazy lk => Some lk | KUser _ => None end.

(** A member call through a possibly null shared_ptr<const LazyKey>. *)
Definition ptr_transform (k : option lazykey) (v : N) (index : Z) : res N :=
  match k with Some lk => lazy_transform lk v index | None => Undef NullDeref end.

(** ** Blocks: Block::value() (goost/magma/Block.h:13-19) *)

Definition block : Type := res (N * N).

(** Block::size, goost/magma/Block.h:18 *)
Definition block_size : nat := 8.

(** BlkRaw(uint32_t, uint32_t), goost/magma/BlkRaw.cpp:12-15,53-56 *)
Definition BlkRaw2 (low high : N) : block := Ok (low, high).

(** BlkRaw(uint64_t), goost/magma/BlkRaw.cpp:27-30 *)
Definition BlkRaw64 (x : N) : block := BlkRaw2 (w32 x) (w32 (N.shiftr x 32)).

(** BlkRaw(), goost/magma/BlkRaw.cpp:48-51 *)
Definition BlkRaw0 : block := BlkRaw64 0.

(** BlkRaw from a "const void" pointer, goost/magma/BlkRaw.cpp:40-46: two uint32_t read from the
    buffer that starts with [bytes] (the caller guarantees or fails to guarantee
    that there are 8 of them; see Streams.v). *)
Definition BlkRaw_bytes (bytes : list N) : block :=
  BlkRaw2 (of_le (firstn 4 bytes)) (of_le (firstn 4 (skipn 4 bytes))).

(** BlkSwapped::value, goost/magma/BlkSwapped.cpp:16-20 *)
Definition BlkSwapped (b : block) : block :=
  '(first, second) <- b ;; Ok (second, first).

(** BlkXored::value, goost/magma/BlkXored.cpp:16-21 *)
Definition BlkXored (a b : block) : block :=
  '(a1, a2) <- a ;; '(b1, b2) <- b ;; Ok (N.lxor a1 b1, N.lxor a2 b2).

(** The variadic constructor, goost/magma/BlkXored.h:17-25: BlkXored(a, b, c, d...)
    delegates to BlkXored(BlkXored(a, b), c, d...). *)
Fixpoint BlkXored_n (a b : block) (more : list block) : block :=
  match more with
  | [] => BlkXored a b
  | c :: d => BlkXored_n (BlkXored a b) c d
  end.

(** BlkShifted::value, goost/magma/BlkShifted.cpp:16-20 *)
Definition BlkShifted (m : mode) (b : block) (n : Z) : block :=
  '(first, second) <- b ;;
  lo <- shl32 m first n ;;
  h1 <- shl32 m second n ;;
  h2 <- shr32 m first (64 - n)%Z ;;
  Ok (lo, N.lor h1 h2).

(** BlkString::value, goost/magma/BlkString.cpp:16-24; stoull results are
    converted to uint32_t. *)
Definition BlkString (s : str) : block :=
  let value := pad_left s (block_size * 2) in
  s1 <- substr value 8 8 ;;
  v1 <- stoull16 s1 ;;
  s2 <- substr value 0 8 ;;
  v2 <- stoull16 s2 ;;
  Ok (w32 v1, w32 v2).

(** BlkForwarded::value, goost/magma/BlkForwarded.cpp:18-34; the key pointer may be
    null when it comes from a failed cast. *)
Definition BlkForwarded (blk : block) (k : option lazykey) : block :=
  '(a, b) <- blk ;;
  t <- ptr_transform k a 0 ;; let b := N.lxor b t in
  t <- ptr_transform k b 1 ;; let a := N.lxor a t in
  t <- ptr_transform k a 2 ;; let b := N.lxor b t in
  t <- ptr_transform k b 3 ;; let a := N.lxor a t in
  t <- ptr_transform k a 4 ;; let b := N.lxor b t in
  t <- ptr_transform k b 5 ;; let a := N.lxor a t in
  t <- ptr_transform k a 6 ;; let b := N.lxor b t in
  t <- ptr_transform k b 7 ;; let a := N.lxor a t in
  Ok (a, b).

(** BlkBackwarded::value, goost/magma/BlkBackwarded.cpp:17-33 *)
Definition BlkBackwarded (blk : block) (k : option lazykey) : block :=
  '(a, b) <- blk ;;
  t <- ptr_transform k a 7 ;; let b := N.lxor b t in
  t <- ptr_transform k b 6 ;; let a := N.lxor a t in
  t <- ptr_transform k a 5 ;; let b := N.lxor b t in
  t <- ptr_transform k b 4 ;; let a := N.lxor a t in
  t <- ptr_transform k a 3 ;; let b := N.lxor b t in
  t <- ptr_transform k b 2 ;; let a := N.lxor a t in
  t <- ptr_transform k a 1 ;; let b := N.lxor b t in
  t <- ptr_transform k b 0 ;; let a := N.lxor a t in
  Ok (a, b).

(** BlkEncrypted, goost/magma/BlkEncrypted.cpp:14-38 *)
Definition BlkEncrypted (blk : block) (k : option lazykey) : block :=
  BlkSwapped (BlkBackwarded (BlkForwarded (BlkForwarded (BlkForwarded blk k) k) k) k).

(** BlkDecrypted, goost/magma/BlkDecrypted.cpp:14-38 *)
Definition BlkDecrypted (blk : block) (k : option lazykey) : block :=
  BlkSwapped (BlkBackwarded (BlkBackwarded (BlkBackwarded (BlkForwarded blk k) k) k) k).

(** ** EncryptionBase::transform, goost/magma/EncryptionBase.cpp:17-59 *)
Definition EncryptionBase_transform (k : key) (blk : N) : res N :=
  let a := N.land blk 0xffffffff in
  let b := N.land (N.shiftr blk 32) 0xffffffff in
  (* lines 22-29 *)
  t <- key_transform k a 0 ;; let b := N.lxor b t in
  t <- key_transform k b 1 ;; let a := N.lxor a t in
  t <- key_transform k a 2 ;; let b := N.lxor b t in
  t <- key_transform k b 3 ;; let a := N.lxor a t in
  t <- key_transform k a 4 ;; let b := N.lxor b t in
  t <- key_transform k b 5 ;; let a := N.lxor a t in
  t <- key_transform k a 6 ;; let b := N.lxor b t in
  t <- key_transform k b 7 ;; let a := N.lxor a t in
  (* lines 31-38 *)
  t <- key_transform k a 0 ;; let b := N.lxor b t in
  t <- key_transform k b 1 ;; let a := N.lxor a t in
  t <- key_transform k a 2 ;; let b := N.lxor b t in
  t <- key_transform k b 3 ;; let a := N.lxor a t in
  t <- key_transform k a 4 ;; let b := N.lxor b t in
  t <- key_transform k b 5 ;; let a := N.lxor a t in
  t <- key_transform k a 6 ;; let b := N.lxor b t in
  t <- key_transform k b 7 ;; let a := N.lxor a t in
  (* lines 40-47 *)
  t <- key_transform k a 0 ;; let b := N.lxor b t in
  t <- key_transform k b 1 ;; let a := N.lxor a t in
  t <- key_transform k a 2 ;; let b := N.lxor b t in
  t <- key_transform k b 3 ;; let a := N.lxor a t in
  t <- key_transform k a 4 ;; let b := N.lxor b t in
  t <- key_transform k b 5 ;; let a := N.lxor a t in
  t <- key_transform k a 6 ;; let b := N.lxor b t in
  t <- key_transform k b 7 ;; let a := N.lxor a t in
  (* lines 49-56 *)
  t <- key_transform k a 7 ;; let b := N.lxor b t in
  t <- key_transform k b 6 ;; let a := N.lxor a t in
  t <- key_transform k a 5 ;; let b := N.lxor b t in
  t <- key_transform k b 4 ;; let a := N.lxor a t in
  t <- key_transform k a 3 ;; let b := N.lxor b t in
  t <- key_transform k b 2 ;; let a := N.lxor a t in
  t <- key_transform k a 1 ;; let b := N.lxor b t in
  t <- key_transform k b 0 ;; let a := N.lxor a t in
  Ok (N.lor (w64 (N.shiftl a 32)) b).

(** ** Building blocks of magma::Imit (the loop over the Source is in Streams.v) *)

(** BlkImitShifted::value, goost/magma/Imit.cpp:46-53 *)
Definition BlkImitShifted (m : mode) (b : block) : block :=
  let shifted := BlkShifted m b 1 in
  '(_, second) <- b ;;
  if N.land second 0x80000000 =? 0 then shifted
  else BlkXored shifted (BlkRaw64 0x1b).

(** BlkImitFinalKey::value, goost/magma/Imit.cpp:62-71 *)
Definition BlkImitFinalKey (m : mode) (k : option lazykey) (size : nat) : block :=
  let K1 := BlkImitShifted m (BlkEncrypted BlkRaw0 k) in
  if Nat.eqb size 8 then K1 else BlkImitShifted m K1.

(** ** gost89::ImitedBlock::value, goost/gost89/ImitedBlock.cpp:18-29 *)
Definition ImitedBlock (b : block) (k : option lazykey) : block :=
  BlkForwarded (BlkForwarded b k) k.
