(** Model of goost/kuznyechik. *)
From Verif Require Import Base Text.
Local Open Scope N_scope.

(** ** Blocks: Block::value() (goost/kuznyechik/Block.h:16), low half first *)

Definition kblock : Type := res (N * N).

(** Block::size, goost/kuznyechik/Block.h:18 *)
Definition kblock_size : N := 16.

(** BlkRaw(uint64_t, uint64_t), goost/kuznyechik/BlkRaw.cpp:11-14,44-47 *)
Definition KRaw (low high : N) : kblock := Ok (low, high).

(** BlkRaw(uint64_t), goost/kuznyechik/BlkRaw.cpp:34-37 *)
Definition KRaw1 (low : N) : kblock := KRaw low 0.

(** BlkRaw(), goost/kuznyechik/BlkRaw.cpp:39-42 *)
Definition KRaw0 : kblock := KRaw1 0.

(** BlkRaw from a pointer to 16 bytes, goost/kuznyechik/BlkRaw.cpp:26-32 *)
Definition KRaw_bytes (b : list N) : kblock :=
  KRaw (of_le (firstn 8 b)) (of_le (firstn 8 (skipn 8 b))).

(** BlkXored::value, goost/kuznyechik/BlkXored.cpp:16-21 *)
Definition KXored (a b : kblock) : kblock :=
  '(a1, a2) <- a ;; '(b1, b2) <- b ;; Ok (N.lxor a1 b1, N.lxor a2 b2).

(** The variadic constructor, goost/kuznyechik/BlkXored.h:17-25 *)
Fixpoint KXored_n (a b : kblock) (more : list kblock) : kblock :=
  match more with
  | [] => KXored a b
  | c :: d => KXored_n (KXored a b) c d
  end.

(** BlkShifted::value, goost/kuznyechik/BlkShifted.cpp:16-20 *)
Definition KShifted (m : mode) (b : kblock) (n : Z) : kblock :=
  '(first, second) <- b ;;
  lo <- shl64 m first n ;;
  h1 <- shl64 m second n ;;
  h2 <- shr64 m first (64 - n)%Z ;;
  Ok (lo, N.lor h1 h2).

(** BlkIncremented::value, goost/kuznyechik/BlkIncremented.cpp:17-24 *)
Definition KIncremented (b : kblock) : kblock :=
  '(first, second) <- b ;;
  if first =? 2 ^ 64 - 1 then Ok (0, w64 (second + 1))
  else Ok (w64 (first + 1), second).

(** BlkString::value, goost/kuznyechik/BlkString.cpp:16-24 *)
Definition KString (s : str) : kblock :=
  let value := pad_left s 32 in
  s1 <- substr value 16 16 ;;
  v1 <- stoull16 s1 ;;
  s2 <- substr value 0 16 ;;
  v2 <- stoull16 s2 ;;
  Ok (v1, v2).

(** BlkCached::value, goost/kuznyechik/BlkCached.cpp:18-25,37-40, for a wrapped block
    that always gives the same outcome; the mutable cache is in CacheModel.v. *)
Definition KCached (b : kblock) : kblock := b.

(** ** The transformations *)

(** BlkR::gmul, goost/kuznyechik/BlkR.cpp:21-39; [n] iterations are left. *)
Fixpoint gmul_loop (n : nat) (a b p : N) : N :=
  match n with
  | O => p
  | S k =>
      let p := if N.land b 1 =? 1 then N.lxor p a else p in
      let hi_bit_set := N.land a 0x80 in
      let a := w8 (N.shiftl a 1) in
      let a := if hi_bit_set =? 0x80 then w8 (N.lxor a 0x1c3) else a in
      let b := N.shiftr b 1 in
      gmul_loop k a b p
  end.

Definition gmul (a b : N) : N := gmul_loop 8 a b 0.

(** The coefficients, goost/kuznyechik/BlkR.cpp:43-45 *)
Definition BlkR_k : list N :=
  [1; 148; 32; 133; 16; 194; 192; 1; 251; 1; 192; 194; 16; 133; 32; 148].

(** [for (i < 16) sum ^= gmul(data[i], k[i])], goost/kuznyechik/BlkR.cpp:50-53 *)
Fixpoint gmul_sum (data k : list N) (sum : N) : N :=
  match data, k with
  | d :: ds, c :: cs => gmul_sum ds cs (N.lxor sum (gmul d c))
  | _, _ => sum
  end.

(** BlkR::value, goost/kuznyechik/BlkR.cpp:41-56 *)
Definition KR (b : kblock) : kblock :=
  '(first, second) <- b ;;
  let data := to_le 8 first ++ to_le 8 second in
  let sum := gmul_sum data BlkR_k 0 in
  KRaw_bytes (skipn 1 data ++ [w8 sum]).

(** BlkL::transform, goost/kuznyechik/BlkL.cpp:22-29 *)
Fixpoint KL_transform (b : kblock) (n : nat) : kblock :=
  match n with
  | O => b
  | S k => KL_transform (KR b) k
  end.

(** BlkL::value, goost/kuznyechik/BlkL.cpp:17-20 *)
Definition KL (b : kblock) : kblock := KL_transform b 16.

(** The table of BlkS::value, goost/kuznyechik/BlkS.cpp:20-36 *)
Definition BlkS_sbox : list N :=
  [252; 238; 221; 17; 207; 110; 49; 22; 251; 196; 250; 218; 35; 197; 4; 77; 233;
   119; 240; 219; 147; 46; 153; 186; 23; 54; 241; 187; 20; 205; 95; 193; 249; 24; 101;
   90; 226; 92; 239; 33; 129; 28; 60; 66; 139; 1; 142; 79; 5; 132; 2; 174; 227; 106;
   143; 160; 6; 11; 237; 152; 127; 212; 211; 31; 235; 52; 44; 81; 234; 200; 72; 171;
   242; 42; 104; 162; 253; 58; 206; 204; 181; 112; 14; 86; 8; 12; 118; 18; 191; 114;
   19; 71; 156; 183; 93; 135; 21; 161; 150; 41; 16; 123; 154; 199; 243; 145; 120; 111;
   157; 158; 178; 177; 50; 117; 25; 61; 255; 53; 138; 126; 109; 84; 198; 128; 195; 189;
   13; 87; 223; 245; 36; 169; 62; 168; 67; 201; 215; 121; 214; 246; 124; 34; 185; 3;
   224; 15; 236; 222; 122; 148; 176; 188; 220; 232; 40; 80; 78; 51; 10; 74; 167; 151;
   96; 115; 30; 0; 98; 68; 26; 184; 56; 130; 100; 159; 38; 65; 173; 69; 70; 146; 39;
   94; 85; 47; 140; 163; 165; 125; 105; 213; 149; 59; 7; 88; 179; 64; 134; 172; 29;
   247; 48; 55; 107; 228; 136; 217; 231; 137; 225; 27; 131; 73; 76; 63; 248; 254; 141;
   83; 170; 144; 202; 216; 133; 97; 32; 113; 103; 164; 45; 43; 9; 91; 203; 155; 37;
   208; 190; 229; 108; 82; 89; 166; 116; 210; 230; 244; 180; 192; 209; 102; 175; 194;
   57; 75; 99; 182].

(** BlkS::value, goost/kuznyechik/BlkS.cpp:38-43 *)
Definition KS (b : kblock) : kblock :=
  '(first, second) <- b ;;
  data <- mapM (at_ BlkS_sbox) (to_le 8 first ++ to_le 8 second) ;;
  KRaw_bytes data.

(** BlkIterKey::generate, goost/kuznyechik/BlkIterKey.cpp:28-47. The recursion runs
    from i to c2; [n] bounds its depth. *)
Fixpoint KIterKey_generate (n : nat) (a b : kblock) (i c2 : Z) : kblock :=
  if (c2 <? i)%Z then b
  else match n with
       | O => OutOfFuel
       | S k =>
           if (i =? 2 ^ 31 - 1)%Z then Undef IntOverflow
           else
             let cn := KL (KRaw1 (u64_of_int i)) in
             KIterKey_generate k b (KXored a (KL (KS (KXored b cn)))) (i + 1)%Z c2
       end.

(** BlkIterKey::value, goost/kuznyechik/BlkIterKey.cpp:23-26 *)
Definition KIterKey (ka kb : kblock) (c1 c2 : Z) : kblock :=
  KIterKey_generate (Z.to_nat (c2 - c1 + 1)) kb ka c1 c2.

(** ** Keys *)

(** The ten cached round keys, goost/kuznyechik/Key.h:28-37 *)
Record kkey : Type := KKey {
  k1 : kblock; k2 : kblock; k3 : kblock; k4 : kblock; k5 : kblock;
  k6 : kblock; k7 : kblock; k8 : kblock; k9 : kblock; k10 : kblock }.

(** Key(const shared_ptr<const Data>&), goost/kuznyechik/Key.cpp:23-35, from the blocks
    returned by high() and low(). *)
Definition Key_blocks (high low : kblock) : kkey :=
  let k1 := KCached high in
  let k2 := KCached low in
  let k3 := KCached (KIterKey k1 k2 1 8) in
  let k4 := KCached (KIterKey k1 k2 1 7) in
  let k5 := KCached (KIterKey k3 k4 9 16) in
  let k6 := KCached (KIterKey k3 k4 9 15) in
  let k7 := KCached (KIterKey k5 k6 17 24) in
  let k8 := KCached (KIterKey k5 k6 17 23) in
  let k9 := KCached (KIterKey k7 k8 25 32) in
  let k10 := KCached (KIterKey k7 k8 25 31) in
  KKey k1 k2 k3 k4 k5 k6 k7 k8 k9 k10.

(** The constructor itself: high() is called before low(). *)
Definition Key_data (high low : res kblock) : res kkey :=
  h <- high ;; l <- low ;; Ok (Key_blocks h l).

(** KeyDataString::high and ::low, goost/kuznyechik/KeyDataString.cpp:18-26 *)
Definition KeyDataString_high (s : str) : res kblock := t <- substr s 0 32 ;; Ok (KString t).
Definition KeyDataString_low (s : str) : res kblock := t <- substr s 32 32 ;; Ok (KString t).

(** Key(const string&), goost/kuznyechik/Key.cpp:18-21 *)
Definition Key_string (s : str) : res kkey :=
  Key_data (KeyDataString_high s) (KeyDataString_low s).

(** Key::encryptStep, goost/kuznyechik/Key.cpp:51-57 *)
Definition encryptStep (b kn : kblock) : kblock := KL (KS (KXored b kn)).

(** Key::encrypt, goost/kuznyechik/Key.cpp:37-49, and the value of the returned block *)
Definition Key_encrypt (k : kkey) (b : kblock) : kblock :=
  let t1 := encryptStep b (k1 k) in
  let t2 := encryptStep t1 (k2 k) in
  let t3 := encryptStep t2 (k3 k) in
  let t4 := encryptStep t3 (k4 k) in
  let t5 := encryptStep t4 (k5 k) in
  let t6 := encryptStep t5 (k6 k) in
  let t7 := encryptStep t6 (k7 k) in
  let t8 := encryptStep t7 (k8 k) in
  let t9 := encryptStep t8 (k9 k) in
  KXored t9 (k10 k).

(** BlkEncrypted::value, goost/kuznyechik/BlkEncrypted.cpp:17-20 *)
Definition KEncrypted (b : kblock) (k : kkey) : kblock := Key_encrypt k b.

(** ** Iterators and streams *)

(** The virtual methods of Iterator (goost/kuznyechik/Iterator.h:14-21) for objects of
    type [I]; a null shared_ptr is [None]. *)
Record iter_ops (I : Type) : Type := IterOps {
  it_value : I -> kblock;
  it_last : I -> res bool;
  it_size : I -> res N;
  it_next : I -> res (option I) }.
Arguments IterOps {I}.
Arguments it_value {I}.
Arguments it_last {I}.
Arguments it_size {I}.
Arguments it_next {I}.

(** Member access through a possibly null iterator pointer. *)
Definition deref {A : Type} (p : option A) : res A :=
  match p with Some x => Ok x | None => Undef NullDeref end.

(** ItMemory, goost/kuznyechik/StMemory.cpp:16-43: offset in bytes and the block it
    captured when it was made. The weak_ptr to the stream is a parameter of the
    methods, see [ItMemory_ops]. *)
Record it_memory : Type := ItMemory { im_offset : N; im_data : N * N }.

(** StMemory::next_iter, goost/kuznyechik/StMemory.cpp:76-86. [shared] says whether the
    StMemory object is owned by a shared_ptr; otherwise shared_from_this throws. *)
Definition StMemory_next_iter (shared : bool) (data : list N) (offset : N)
  : res (option it_memory) :=
  if len data <=? offset / 8 then Ok None
  else if negb shared then Throw BadWeakPtr
  else lo <- at_ data (offset / 8) ;;
       hi <- at_ data (offset / 8 + 1) ;;
       Ok (Some (ItMemory offset (lo, hi))).

(** StMemory::iter, goost/kuznyechik/StMemory.cpp:71-74 *)
Definition StMemory_iter (shared : bool) (data : list N) : res (option it_memory) :=
  StMemory_next_iter shared data 0.

(** ItMemory::next, goost/kuznyechik/StMemory.cpp:60-64. [stream] is what the weak_ptr
    locks to at the moment of the call: the data of the stream while it is alive,
    [None] afterwards. *)
Definition ItMemory_next (stream : option (list N)) (i : it_memory) : res (option it_memory) :=
  data <- deref stream ;;
  StMemory_next_iter true data (w64 (im_offset i + kblock_size)).

(** ItMemory::value, last, size: goost/kuznyechik/StMemory.cpp:45-58 *)
Definition ItMemory_ops (stream : option (list N)) : iter_ops it_memory := {|
  it_value := fun i => Ok (im_data i);
  it_last := fun i => n <- ItMemory_next stream i ;;
                      Ok (match n with None => true | Some _ => false end);
  it_size := fun _ => Ok kblock_size;
  it_next := ItMemory_next stream |}.

(** ItCTREncrypted, goost/kuznyechik/StCTREncrypted.cpp:16-41 *)
Record it_ctr (I : Type) : Type := ItCTR { ic_iter : option I; ic_ctr : kblock }.
Arguments ItCTR {I}.
Arguments ic_iter {I}.
Arguments ic_ctr {I}.

(** ItCTREncrypted::value, last, size, next: goost/kuznyechik/StCTREncrypted.cpp:43-61 *)
Definition ItCTR_ops {I} (ops : iter_ops I) (k : kkey) : iter_ops (it_ctr I) := {|
  it_value := fun c => i <- deref (ic_iter c) ;;
                       KXored (it_value ops i) (KEncrypted (ic_ctr c) k);
  it_last := fun c => i <- deref (ic_iter c) ;; it_last ops i;
  it_size := fun c => i <- deref (ic_iter c) ;; it_size ops i;
  it_next := fun c => i <- deref (ic_iter c) ;;
                      n <- it_next ops i ;;
                      Ok (Some (ItCTR n (KIncremented (ic_ctr c)))) |}.

(** StCTREncrypted::iter, goost/kuznyechik/StCTREncrypted.cpp:71-74, for an underlying
    stream whose iter() gives [i]. *)
Definition StCTR_iter {I} (i : res (option I)) (iv : N) : res (option (it_ctr I)) :=
  p <- i ;; Ok (Some (ItCTR p (KRaw 0 iv))).

(** ** kuznyechik::Imit, goost/kuznyechik/Imit.cpp *)

(** BlkXoredIfHighBit::value, lines 28-36 *)
Definition KXoredIfHighBit (m : mode) (a b : kblock) : kblock :=
  '(_, second) <- a ;;
  let a_shift := KShifted m a 1 in
  if N.land second 0x8000000000000000 =? 0 then a_shift
  else KXored a_shift b.

(** The loop at lines 56-62: iterator pointer and lazily evaluated block. *)
Fixpoint kimit_loop {I} (fuel : nat) (ops : iter_ops I) (k : kkey) (iter : option I)
    (blk : kblock) : res (option I * kblock) :=
  match fuel with
  | O => OutOfFuel
  | S f =>
      i <- deref iter ;;
      l <- it_last ops i ;;
      if l then Ok (iter, blk)
      else v <- it_value ops i ;;
           n <- it_next ops i ;;
           kimit_loop f ops k n (KEncrypted (KXored blk (Ok v)) k)
  end.

(** Imit::value, lines 51-79; [fuel] bounds the number of blocks of the model. *)
Definition KImit {I} (fuel : nat) (m : mode) (ops : iter_ops I) (iter : res (option I))
    (k : kkey) : kblock :=
  it <- iter ;;
  '(it, blk) <- kimit_loop fuel ops k it KRaw0 ;;
  let B := KRaw1 0x87 in
  let K1 := KXoredIfHighBit m (KEncrypted KRaw0 k) B in
  i <- deref it ;;
  v <- it_value ops i ;;
  let xblock := KXored blk (Ok v) in
  sz <- it_size ops i ;;
  if sz =? kblock_size then KEncrypted (KXored xblock K1) k
  else KEncrypted (KXored xblock (KXoredIfHighBit m K1 B)) k.

(** Reading a whole stream through its iterators, as test/kuznyechik/*Test.cpp do:
    the values from the given iterator up to the one that reports last(). *)
Fixpoint stream_values {I} (fuel : nat) (ops : iter_ops I) (iter : option I)
  : res (list (N * N)) :=
  match fuel with
  | O => OutOfFuel
  | S f =>
      i <- deref iter ;;
      v <- it_value ops i ;;
      l <- it_last ops i ;;
      if l then Ok [v]
      else n <- it_next ops i ;;
           vs <- stream_values f ops n ;;
           Ok (v :: vs)
  end.
