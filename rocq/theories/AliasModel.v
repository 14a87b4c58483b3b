(** Model of the code under the language's rules on access to objects.

    An object may only be read or changed through its own type or through char, unsigned
    char or std::byte ([basic.lval]); anything else is undefined whatever the machine. The
    rest of the model, PortModel.v included, takes a compiler that does what is written.
    Here the functions that look at storage through another type are written down again
    with [rules] as a parameter: whether the compiler may use these rules. Without them
    all is as in the rest of the model (C94_same_streams, C94_same_kuznyechik).

    The other rule that the code touches is that no member function may be called for an
    object whose base classes are not constructed yet ([class.base.init]).

    Not considered: that memcpy from or to the first member of a pair runs over the
    second one. *)
From Verif Require Import Base Text MagmaModel Streams KuzModel.
Local Open Scope N_scope.

(** Types of stored objects and of accesses; uint8_t (unsigned char) and std::byte are
    [Byte]. *)
Inductive ctype : Type := Byte | U32 | U64.

(** May an object of type [stored] be accessed through type [through]? *)
Definition may_access (stored through : ctype) : bool :=
  match through, stored with
  | Byte, _ => true
  | U32, U32 => true
  | U64, U64 => true
  | _, _ => false
  end.

Section Alias.
Context (rules : bool).

Definition view (stored through : ctype) : res unit :=
  if rules && negb (may_access stored through) then Undef Aliasing else Ok tt.

(** memcpy copies as if by unsigned char. *)
Definition copied (from to : ctype) : res unit :=
  _ <- view from Byte ;; view to Byte.

(** BlkRaw(const void* ptr), goost/magma/BlkRaw.cpp:40-46, and BlkRaw(const vector<uint8_t>&),
    goost/magma/BlkRaw.cpp:32-38, on objects of type [stored]. The constructor reads. *)
Definition BlkRaw_view (stored : ctype) (b : list N) : block :=
  _ <- view stored U32 ;;
  _ <- view stored U32 ;;
  BlkRaw_bytes b.

Section Sinks.
Context {W S : Type} (wr : writer W S) (m : mode).

(** ECBSink::write, goost/magma/ECBSink.cpp:22-43: the uint64_t at line 30 is read from a
    vector<byte>; memcpy at line 33. *)
Fixpoint ecb_write_loop_view (k : key) (data : bytes) (p : bytes) (s : S) : M W (bytes * S) :=
  match data with
  | [] => mret (p, s)
  | b :: rest =>
      let p := p ++ [b] in
      if Nat.eqb (List.length p) 8 then
        _ <-- lift (view Byte U64) ;;
        e <-- lift (EncryptionBase_transform k (of_le p)) ;;
        _ <-- lift (copied U64 Byte) ;;
        s <-- wr s (to_le 8 e) ;;
        ecb_write_loop_view k rest [] s
      else ecb_write_loop_view k rest p s
  end.

Definition ECBSink_write_view (o : ecb_sink S) (data : bytes) : M W (ecb_sink S) :=
  '(p, s) <-- ecb_write_loop_view (es_key o) data [] (es_sink o) ;;
  match p with
  | [] => mret (ECBSink s (es_key o))
  | _ :: _ => mthrow (RuntimeError "Unaligned ECB encryption")
  end.

(** magma CFBSink::write, goost/magma/CFBSink.cpp:36-63; memcpy at line 58 *)
Fixpoint magma_cfb_write_loop_view (k : key) (data : bytes) (p : bytes) (s : S) (rl rr : N)
  : M W (S * N * N * bytes) :=
  match data with
  | [] => mret (s, rl, rr, p)
  | b :: rest =>
      let p := p ++ [b] in
      if Nat.eqb (List.length p) block_size then
        '(first, second) <-- lift (BlkEncrypted (BlkRaw64 rl) (cast_lazy k)) ;;
        c <-- lift (sink_xor m p first second) ;;
        s <-- wr s c ;;
        _ <-- lift (copied Byte U64) ;;
        magma_cfb_write_loop_view k rest [] s rr (of_le (firstn 8 c))
      else magma_cfb_write_loop_view k rest p s rl rr
  end.

Definition magma_CFBSink_write_view (o : magma_cfb_sink S) (data : bytes) : M W (magma_cfb_sink S) :=
  '(s, rl, rr, p) <-- magma_cfb_write_loop_view (mcs_key o) data (mcs_plain o) (mcs_sink o)
                                                (mcs_ivl o) (mcs_ivr o) ;;
  mret (MagmaCFBSink s (mcs_key o) rl rr p).

(** gost89 CFBSink::write, goost/gost89/CFBSink.cpp:37-62; memcpy at line 57 *)
Fixpoint gost_cfb_write_loop_view (k : key) (data : bytes) (p : bytes) (s : S) (l : N)
  : M W (S * N * bytes) :=
  match data with
  | [] => mret (s, l, p)
  | b :: rest =>
      let p := p ++ [b] in
      if Nat.eqb (List.length p) block_size then
        '(first, second) <-- lift (BlkEncrypted (BlkRaw64 l) (cast_lazy k)) ;;
        c <-- lift (sink_xor m p first second) ;;
        s <-- wr s c ;;
        _ <-- lift (copied Byte U64) ;;
        gost_cfb_write_loop_view k rest [] s (of_le (firstn 8 c))
      else gost_cfb_write_loop_view k rest p s l
  end.

Definition gost_CFBSink_write_view (o : gost_cfb_sink S) (data : bytes) : M W (gost_cfb_sink S) :=
  '(s, l, p) <-- gost_cfb_write_loop_view (gcs_key o) data (gcs_plain o) (gcs_sink o) (gcs_iv o) ;;
  mret (GostCFBSink s (gcs_key o) l p).

End Sinks.

(** memcpy at goost/magma/CFBSource.cpp:64 and goost/gost89/CFBSource.cpp:61 *)
Definition load_reg_view (m : mode) (p : bytes) : res N :=
  _ <- copied Byte U64 ;; load_reg m p.

Section Sources.
Context {W St : Type} (rd : reader W St) (m : mode).

(** ECBSource::read, goost/magma/ECBSource.cpp:35-57: BlkRaw(&p[0]) of a vector<byte> at
    line 50, memcpy at line 54. *)
Definition ECBSource_read_view (o : ecb_source St) (size : N) : M W (bytes * ecb_source St) :=
  match o with
  | ECBBare s => '(p, s) <-- rd s size ;; mret (p, ECBBare s)
  | ECBSource s k =>
      if size <? N.of_nat block_size then mthrow (RuntimeError "Unaligned ECB decryption")
      else
        '(p, s) <-- rd s 8 ;;
        match p with
        | [] => mret (p, ECBBare s)
        | _ :: _ =>
            buf <-- lift (read8 m p) ;;
            raw <-- lift (BlkRaw_view Byte buf) ;;
            '(first, second) <-- lift (BlkDecrypted (Ok raw) (cast_lazy k)) ;;
            _ <-- lift (copied U32 Byte) ;;
            p' <-- lift (write8 m p (to_le 4 first ++ to_le 4 second)) ;;
            mret (p', ECBSource s k)
        end
  end.

(** magma CFBSource::read, goost/magma/CFBSource.cpp:35-77 *)
Definition magma_cfb_read_step_view (k : key) (size : N) (st : St * bytes * N * N * bytes)
  : M W ((St * bytes * N * N * bytes) + (St * bytes * N * N * bytes)) :=
  let '(s, p, rl, rr, res) := st in
  if len res <? size then
    let (res, p) := drain p res size in
    if len res =? size then mret (inr (s, p, rl, rr, res))
    else
      '(first, second) <-- lift (BlkEncrypted (BlkRaw64 rl) (cast_lazy k)) ;;
      '(p, s) <-- rd s 8 ;;
      match p with
      | [] => mret (inr (s, [], rl, rr, res))
      | _ :: _ =>
          let rl := rr in
          rr <-- lift (load_reg_view m p) ;;
          p <-- lift (source_xor m p first second) ;;
          mret (inl (s, p, rl, rr, res))
      end
  else mret (inr (s, p, rl, rr, res)).

Definition magma_CFBSource_read_view (o : magma_cfb_source St) (size : N)
  : M W (bytes * magma_cfb_source St) :=
  '(s, p, rl, rr, res) <--
     mloop (N.succ_pos size) (magma_cfb_read_step_view (mcr_key o) size)
           (mcr_source o, mcr_plain o, mcr_ivl o, mcr_ivr o, []) ;;
  mret (res, MagmaCFBSource s (mcr_key o) rl rr p).

(** gost89 CFBSource::read, goost/gost89/CFBSource.cpp:34-74 *)
Definition gost_cfb_read_step_view (k : key) (size : N) (st : St * bytes * N * bytes)
  : M W ((St * bytes * N * bytes) + (St * bytes * N * bytes)) :=
  let '(s, p, r, res) := st in
  if len res <? size then
    let (res, p) := drain p res size in
    if len res =? size then mret (inr (s, p, r, res))
    else
      '(first, second) <-- lift (BlkEncrypted (BlkRaw64 r) (cast_lazy k)) ;;
      '(p, s) <-- rd s 8 ;;
      match p with
      | [] => mret (inr (s, [], r, res))
      | _ :: _ =>
          r <-- lift (load_reg_view m p) ;;
          p <-- lift (source_xor m p first second) ;;
          mret (inl (s, p, r, res))
      end
  else mret (inr (s, p, r, res)).

Definition gost_CFBSource_read_view (o : gost_cfb_source St) (size : N)
  : M W (bytes * gost_cfb_source St) :=
  '(s, p, r, res) <--
     mloop (N.succ_pos size) (gost_cfb_read_step_view (gcr_key o) size)
           (gcr_source o, gcr_plain o, gcr_iv o, []) ;;
  mret (res, GostCFBSource s (gcr_key o) r p).

(** magma::Imit::value, goost/magma/Imit.cpp:79-103; memcpy at line 90 *)
Definition imit_step_view (k : option lazykey) (st : bytes * St * block)
  : M W ((bytes * St * block) + (block * block)) :=
  let '(b, s, blk) := st in
  let fk := BlkImitFinalKey m k (List.length b) in
  _ <-- lift (copied Byte U64) ;;
  v <-- lift (imit_load m b) ;;
  let blk := BlkXored blk (BlkRaw64 v) in
  if Nat.ltb (List.length b) block_size then mret (inr (fk, blk))
  else
    '(b, s) <-- rd s (N.of_nat block_size) ;;
    match b with
    | [] => mret (inr (fk, blk))
    | _ :: _ => mret (inl (b, s, BlkEncrypted blk k))
    end.

Definition magma_Imit_view (fuel : positive) (data : St) (k : option lazykey) : M W (N * N) :=
  '(b, s) <-- rd data (N.of_nat block_size) ;;
  '(fk, blk) <-- mloop fuel (imit_step_view k) (b, s, BlkRaw0) ;;
  lift (BlkEncrypted (BlkXored blk fk) k).

End Sources.

(** gost89::DataImit::value, goost/gost89/DataImit.cpp:18-38: BlkRaw(state) of a
    vector<uint8_t> at line 33, stores of uint32_t into it at lines 34-35. *)
Definition dataimit_block_view (k : option lazykey) (state : bytes) : res bytes :=
  buf <- read8 ISO state ;;
  raw <- BlkRaw_view Byte buf ;;
  '(first, second) <- ImitedBlock (Ok raw) k ;;
  _ <- view Byte U32 ;;
  _ <- view Byte U32 ;;
  write8 ISO state (to_le 4 first ++ to_le 4 second).

Fixpoint dataimit_loop_view (fuel : nat) (k : option lazykey) (state data : bytes) : res bytes :=
  match data with
  | [] => Ok state
  | _ :: _ =>
      match fuel with
      | O => OutOfFuel
      | Datatypes.S f =>
          '(state, rest) <- xor_bytes state data ;;
          state <- dataimit_block_view k state ;;
          dataimit_loop_view f k state rest
      end
  end.

Definition DataImit_view (data : bytes) (k : option lazykey) : res bytes :=
  let pdata := dataimit_pad data in
  dataimit_loop_view (List.length pdata) k (repeat 0 8) pdata.

(** ECBSource(source, container), goost/magma/ECBSource.cpp:28-33: a constructor that
    delegates to the other one and calls the member function makeKey(), declared without
    static in goost/magma/ECBSource.h:36-38, for its argument; until then nothing of the
    object exists. *)
Definition ECBSource_container_view {St} (m : mode) (source : St) (c : container)
  : res (ecb_source St) :=
  if rules then Undef EarlyCall else k <- makeKey m c ;; Ok (ECBSource source k).

(** ** kuznyechik *)

(** BlkRaw(const void* ptr), goost/kuznyechik/BlkRaw.cpp:26-32 *)
Definition KRaw_view (stored : ctype) (b : list N) : kblock :=
  _ <- view stored U64 ;;
  _ <- view stored U64 ;;
  KRaw_bytes b.

(** BlkR::value, goost/kuznyechik/BlkR.cpp:41-56: memcpy into an array<uint8_t, 17> at
    lines 48-49, BlkRaw(&data[1]) at line 55. *)
Definition KR_view (b : kblock) : kblock :=
  '(first, second) <- b ;;
  _ <- copied U64 Byte ;;
  _ <- copied U64 Byte ;;
  let data := to_le 8 first ++ to_le 8 second in
  let sum := gmul_sum data BlkR_k 0 in
  KRaw_view Byte (skipn 1 data ++ [w8 sum]).

(** BlkL, goost/kuznyechik/BlkL.cpp:17-29 *)
Fixpoint KL_transform_view (b : kblock) (n : nat) : kblock :=
  match n with
  | O => b
  | S k => KL_transform_view (KR_view b) k
  end.

Definition KL_view (b : kblock) : kblock := KL_transform_view b 16.

(** BlkS::value, goost/kuznyechik/BlkS.cpp:38-43: the pair of uint64_t is read and changed
    through uint8_t. *)
Definition KS_view (b : kblock) : kblock :=
  '(first, second) <- b ;;
  data <- mapM (fun x => _ <- view U64 Byte ;; y <- at_ BlkS_sbox x ;; _ <- view U64 Byte ;; Ok y)
               (to_le 8 first ++ to_le 8 second) ;;
  KRaw_bytes data.

(** BlkIterKey, goost/kuznyechik/BlkIterKey.cpp:23-47, see [KIterKey_generate]. *)
Fixpoint KIterKey_generate_view (n : nat) (a b : kblock) (i c2 : Z) : kblock :=
  if (c2 <? i)%Z then b
  else match n with
       | O => OutOfFuel
       | S k =>
           if (i =? 2 ^ 31 - 1)%Z then Undef IntOverflow
           else
             let cn := KL_view (KRaw1 (u64_of_int i)) in
             KIterKey_generate_view k b (KXored a (KL_view (KS_view (KXored b cn)))) (i + 1)%Z c2
       end.

Definition KIterKey_view (ka kb : kblock) (c1 c2 : Z) : kblock :=
  KIterKey_generate_view (Z.to_nat (c2 - c1 + 1)) kb ka c1 c2.

(** Key, goost/kuznyechik/Key.cpp:23-35 *)
Definition Key_blocks_view (high low : kblock) : kkey :=
  let k1 := KCached high in
  let k2 := KCached low in
  let k3 := KCached (KIterKey_view k1 k2 1 8) in
  let k4 := KCached (KIterKey_view k1 k2 1 7) in
  let k5 := KCached (KIterKey_view k3 k4 9 16) in
  let k6 := KCached (KIterKey_view k3 k4 9 15) in
  let k7 := KCached (KIterKey_view k5 k6 17 24) in
  let k8 := KCached (KIterKey_view k5 k6 17 23) in
  let k9 := KCached (KIterKey_view k7 k8 25 32) in
  let k10 := KCached (KIterKey_view k7 k8 25 31) in
  KKey k1 k2 k3 k4 k5 k6 k7 k8 k9 k10.

(** Key::encrypt, goost/kuznyechik/Key.cpp:37-57 *)
Definition encryptStep_view (b kn : kblock) : kblock := KL_view (KS_view (KXored b kn)).

Definition Key_encrypt_view (k : kkey) (b : kblock) : kblock :=
  let t1 := encryptStep_view b (k1 k) in
  let t2 := encryptStep_view t1 (k2 k) in
  let t3 := encryptStep_view t2 (k3 k) in
  let t4 := encryptStep_view t3 (k4 k) in
  let t5 := encryptStep_view t4 (k5 k) in
  let t6 := encryptStep_view t5 (k6 k) in
  let t7 := encryptStep_view t6 (k7 k) in
  let t8 := encryptStep_view t7 (k8 k) in
  let t9 := encryptStep_view t8 (k9 k) in
  KXored t9 (k10 k).

End Alias.
