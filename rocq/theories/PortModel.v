(** Model of the code on other machines: byte order and alignment.

    The rest of the model takes a little-endian machine that allows every access (as x86
    does). Here the functions that look at numbers as bytes in memory, or at bytes as
    numbers, are written down again with the machine as a parameter; everything else
    (rounds, tables, shifts) works on numbers and is used as it is. On the machine of the
    rest of the model both agree (C86_same_sinks, C86_same_sources, C86_same_macs, C86_same_kuznyechik).

    Addresses: storage of a vector begins at an address [heap] of which nothing is known
    here (the theorems assume what operator new guarantees); local arrays of bytes begin
    anywhere. An access of [n] bytes through a cast pointer at an address that is no
    multiple of [n] is undefined on a machine that insists on alignment. memcpy and
    accesses to single bytes are always allowed. That casts of byte pointers also break
    the rules on aliasing is left out here, see AliasModel.v. *)
From Verif Require Import Base Text MagmaModel Streams KuzModel.
Local Open Scope N_scope.

Record machine : Type := Machine {
  m_big : bool;       (* most significant byte first *)
  m_strict : bool     (* misaligned accesses are not allowed *) }.

(** The machine of the rest of the model. *)
Definition pc : machine := Machine false false.

Section Port.
Context (mc : machine).

(** The number in the bytes [l] of memory, and the [n] bytes of memory of a number. *)
Definition of_mem (l : list N) : N := if m_big mc then of_le (rev l) else of_le l.
Definition to_mem (n : nat) (x : N) : list N := if m_big mc then rev (to_le n x) else to_le n x.

(** Is an access of [n] bytes at address [a] allowed? *)
Definition access (a n : N) : res unit :=
  if m_strict mc && negb (a mod n =? 0) then Undef Misaligned else Ok tt.

(** ** magma *)

(** BlkRaw from a pointer, goost/magma/BlkRaw.cpp:40-46, and BlkRaw(const vector<uint8_t>&),
    goost/magma/BlkRaw.cpp:32-38, for the eight bytes [b] at address [a]: two uint32_t. *)
Definition BlkRaw_mem (a : N) (b : list N) : block :=
  _ <- access a 4 ;;
  _ <- access (a + 4) 4 ;;
  BlkRaw2 (of_mem (firstn 4 b)) (of_mem (firstn 4 (skipn 4 b))).

(** A pair of uint32_t in memory. *)
Definition pair_mem (first second : N) : list N := to_mem 4 first ++ to_mem 4 second.

Section Sinks.
Context {W S : Type} (wr : writer W S) (m : mode) (heap : N).

(** ECBSink::write, goost/magma/ECBSink.cpp:24-38: a uint64_t is read at the beginning of
    the vector, memcpy stores the result. *)
Fixpoint ecb_write_loop_on (k : key) (data : bytes) (p : bytes) (s : S) : M W (bytes * S) :=
  match data with
  | [] => mret (p, s)
  | b :: rest =>
      let p := p ++ [b] in
      if Nat.eqb (List.length p) 8 then
        _ <-- lift (access heap 8) ;;
        e <-- lift (EncryptionBase_transform k (of_mem p)) ;;
        s <-- wr s (to_mem 8 e) ;;
        ecb_write_loop_on k rest [] s
      else ecb_write_loop_on k rest p s
  end.

Definition ECBSink_write_on (o : ecb_sink S) (data : bytes) : M W (ecb_sink S) :=
  '(p, s) <-- ecb_write_loop_on (es_key o) data [] (es_sink o) ;;
  match p with
  | [] => mret (ECBSink s (es_key o))
  | _ :: _ => mthrow (RuntimeError "Unaligned ECB encryption")
  end.

(** magma CFBSink::write, goost/magma/CFBSink.cpp:36-63: memcpy into the register at
    line 58; the exclusive or of lines 51-54 takes bytes out of numbers by shifts. *)
Fixpoint magma_cfb_write_loop_on (k : key) (data : bytes) (p : bytes) (s : S) (rl rr : N)
  : M W (S * N * N * bytes) :=
  match data with
  | [] => mret (s, rl, rr, p)
  | b :: rest =>
      let p := p ++ [b] in
      if Nat.eqb (List.length p) block_size then
        '(first, second) <-- lift (BlkEncrypted (BlkRaw64 rl) (cast_lazy k)) ;;
        c <-- lift (sink_xor m p first second) ;;
        s <-- wr s c ;;
        magma_cfb_write_loop_on k rest [] s rr (of_mem (firstn 8 c))
      else magma_cfb_write_loop_on k rest p s rl rr
  end.

Definition magma_CFBSink_write_on (o : magma_cfb_sink S) (data : bytes) : M W (magma_cfb_sink S) :=
  '(s, rl, rr, p) <-- magma_cfb_write_loop_on (mcs_key o) data (mcs_plain o) (mcs_sink o)
                                              (mcs_ivl o) (mcs_ivr o) ;;
  mret (MagmaCFBSink s (mcs_key o) rl rr p).

(** gost89 CFBSink::write, goost/gost89/CFBSink.cpp:37-62; memcpy at line 57. *)
Fixpoint gost_cfb_write_loop_on (k : key) (data : bytes) (p : bytes) (s : S) (l : N)
  : M W (S * N * bytes) :=
  match data with
  | [] => mret (s, l, p)
  | b :: rest =>
      let p := p ++ [b] in
      if Nat.eqb (List.length p) block_size then
        '(first, second) <-- lift (BlkEncrypted (BlkRaw64 l) (cast_lazy k)) ;;
        c <-- lift (sink_xor m p first second) ;;
        s <-- wr s c ;;
        gost_cfb_write_loop_on k rest [] s (of_mem (firstn 8 c))
      else gost_cfb_write_loop_on k rest p s l
  end.

Definition gost_CFBSink_write_on (o : gost_cfb_sink S) (data : bytes) : M W (gost_cfb_sink S) :=
  '(s, l, p) <-- gost_cfb_write_loop_on (gcs_key o) data (gcs_plain o) (gcs_sink o) (gcs_iv o) ;;
  mret (GostCFBSink s (gcs_key o) l p).

End Sinks.

(** [memcpy(&r, &p[0], max(sizeof(r), p.size()))], goost/magma/CFBSource.cpp:64 and
    goost/gost89/CFBSource.cpp:61; see [load_reg]. *)
Definition load_reg_on (m : mode) (p : bytes) : res N :=
  if Nat.ltb 8 (List.length p) then Undef Overflow
  else b <- read8 m p ;; Ok (of_mem b).

Section Sources.
Context {W St : Type} (rd : reader W St) (m : mode) (heap : N).

(** ECBSource::read, goost/magma/ECBSource.cpp:35-57 *)
Definition ECBSource_read_on (o : ecb_source St) (size : N) : M W (bytes * ecb_source St) :=
  match o with
  | ECBBare s => '(p, s) <-- rd s size ;; mret (p, ECBBare s)
  | ECBSource s k =>
      if size <? N.of_nat block_size then mthrow (RuntimeError "Unaligned ECB decryption")
      else
        '(p, s) <-- rd s 8 ;;
        match p with
        | [] => mret (p, ECBBare s)
        | _ :: _ =>
            buf <-- lift (read8 m p) ;;
            '(first, second) <-- lift (BlkDecrypted (BlkRaw_mem heap buf) (cast_lazy k)) ;;
            p' <-- lift (write8 m p (pair_mem first second)) ;;
            mret (p', ECBSource s k)
        end
  end.

(** magma CFBSource::read, goost/magma/CFBSource.cpp:35-77 *)
Definition magma_cfb_read_step_on (k : key) (size : N) (st : St * bytes * N * N * bytes)
  : M W ((St * bytes * N * N * bytes) + (St * bytes * N * N * bytes)) :=
  let '(s, p, rl, rr, res) := st in
  if len res <? size then
    let (res, p) := drain p res size in
    if len res =? size then mret (inr (s, p, rl, rr, res))
    else
      '(first, second) <-- lift (BlkEncrypted (BlkRaw64 rl) (cast_lazy k)) ;;
      '(p, s) <-- rd s 8 ;;
      match p with
      | [] => mret (inr (s, [], rl, rr, res))
      | _ :: _ =>
          let rl := rr in
          rr <-- lift (load_reg_on m p) ;;
          p <-- lift (source_xor m p first second) ;;
          mret (inl (s, p, rl, rr, res))
      end
  else mret (inr (s, p, rl, rr, res)).

Definition magma_CFBSource_read_on (o : magma_cfb_source St) (size : N)
  : M W (bytes * magma_cfb_source St) :=
  '(s, p, rl, rr, res) <--
     mloop (N.succ_pos size) (magma_cfb_read_step_on (mcr_key o) size)
           (mcr_source o, mcr_plain o, mcr_ivl o, mcr_ivr o, []) ;;
  mret (res, MagmaCFBSource s (mcr_key o) rl rr p).

(** gost89 CFBSource::read, goost/gost89/CFBSource.cpp:34-74 *)
Definition gost_cfb_read_step_on (k : key) (size : N) (st : St * bytes * N * bytes)
  : M W ((St * bytes * N * bytes) + (St * bytes * N * bytes)) :=
  let '(s, p, r, res) := st in
  if len res <? size then
    let (res, p) := drain p res size in
    if len res =? size then mret (inr (s, p, r, res))
    else
      '(first, second) <-- lift (BlkEncrypted (BlkRaw64 r) (cast_lazy k)) ;;
      '(p, s) <-- rd s 8 ;;
      match p with
      | [] => mret (inr (s, [], r, res))
      | _ :: _ =>
          r <-- lift (load_reg_on m p) ;;
          p <-- lift (source_xor m p first second) ;;
          mret (inl (s, p, r, res))
      end
  else mret (inr (s, p, r, res)).

Definition gost_CFBSource_read_on (o : gost_cfb_source St) (size : N)
  : M W (bytes * gost_cfb_source St) :=
  '(s, p, r, res) <--
     mloop (N.succ_pos size) (gost_cfb_read_step_on (gcr_key o) size)
           (gcr_source o, gcr_plain o, gcr_iv o, []) ;;
  mret (res, GostCFBSource s (gcr_key o) r p).

(** magma::Imit::value, goost/magma/Imit.cpp:79-103: lines 89-90 copy up to eight bytes
    to the beginning of a zeroed uint64_t. *)
Definition imit_load_on (b : bytes) : res N :=
  if Nat.ltb 8 (List.length b) then Undef Overflow
  else match b, m with
       | [], ISO => Undef OutOfBounds
       | _, _ => Ok (of_mem (b ++ repeat 0 (8 - List.length b)))
       end.

Definition imit_step_on (k : option lazykey) (st : bytes * St * block)
  : M W ((bytes * St * block) + (block * block)) :=
  let '(b, s, blk) := st in
  let fk := BlkImitFinalKey m k (List.length b) in
  v <-- lift (imit_load_on b) ;;
  let blk := BlkXored blk (BlkRaw64 v) in
  if Nat.ltb (List.length b) block_size then mret (inr (fk, blk))
  else
    '(b, s) <-- rd s (N.of_nat block_size) ;;
    match b with
    | [] => mret (inr (fk, blk))
    | _ :: _ => mret (inl (b, s, BlkEncrypted blk k))
    end.

Definition magma_Imit_on (fuel : positive) (data : St) (k : option lazykey) : M W (N * N) :=
  '(b, s) <-- rd data (N.of_nat block_size) ;;
  '(fk, blk) <-- mloop fuel (imit_step_on k) (b, s, BlkRaw0) ;;
  lift (BlkEncrypted (BlkXored blk fk) k).

End Sources.

(** gost89::DataImit::value, goost/gost89/DataImit.cpp:18-38: BlkRaw(state) at line 33 and
    two stores of uint32_t at lines 34-35. *)
Definition dataimit_block_on (heap : N) (k : option lazykey) (state : bytes) : res bytes :=
  buf <- read8 ISO state ;;
  '(first, second) <- ImitedBlock (BlkRaw_mem heap buf) k ;;
  _ <- access heap 4 ;;
  _ <- access (heap + 4) 4 ;;
  write8 ISO state (pair_mem first second).

Fixpoint dataimit_loop_on (heap : N) (fuel : nat) (k : option lazykey) (state data : bytes)
  : res bytes :=
  match data with
  | [] => Ok state
  | _ :: _ =>
      match fuel with
      | O => OutOfFuel
      | Datatypes.S f =>
          '(state, rest) <- xor_bytes state data ;;
          state <- dataimit_block_on heap k state ;;
          dataimit_loop_on heap f k state rest
      end
  end.

Definition DataImit_on (heap : N) (data : bytes) (k : option lazykey) : res bytes :=
  let pdata := dataimit_pad data in
  dataimit_loop_on heap (List.length pdata) k (repeat 0 8) pdata.

(** htonl: the number whose bytes in memory are those of the argument, most significant
    first. *)
Definition htonl_on (x : N) : N := of_mem (rev (to_le 4 x)).

(** The loop of ECBSource::makeKey, goost/magma/ECBSource.cpp:62-67: memcpy into a vector
    of uint32_t, each of which is passed through htonl. *)
Fixpoint htonl_words_on (n : nat) (b : bytes) : list N :=
  match n with
  | O => []
  | Datatypes.S k => htonl_on (of_mem (firstn 4 b)) :: htonl_words_on k (skipn 4 b)
  end.

(** ECBSource::makeKey, goost/magma/ECBSource.cpp:59-74 *)
Definition makeKey_on (m : mode) (c : container) : res key :=
  ik <- cont_key c ;;
  kb <- copy_into m 32 ik ;;
  is_ <- cont_sbox c ;;
  sb <- copy_into m 64 is_ ;;
  Ok (KLazy (LazyKey_native (htonl_words_on 8 kb) (SboxTwisted (SboxByte sb)))).

(** ** kuznyechik *)

(** BlkRaw from a pointer, goost/kuznyechik/BlkRaw.cpp:26-32, at address [a]: two uint64_t *)
Definition KRaw_mem (a : N) (b : list N) : kblock :=
  _ <- access a 8 ;;
  _ <- access (a + 8) 8 ;;
  KRaw (of_mem (firstn 8 b)) (of_mem (firstn 8 (skipn 8 b))).

(** BlkR::value, goost/kuznyechik/BlkR.cpp:41-56; [a] is the address of the local array
    [data] of 17 bytes. The two uint64_t are read from its second byte on. *)
Definition KR_on (a : N) (b : kblock) : kblock :=
  '(first, second) <- b ;;
  let data := to_mem 8 first ++ to_mem 8 second in
  let sum := gmul_sum data BlkR_k 0 in
  KRaw_mem (a + 1) (skipn 1 data ++ [w8 sum]).

(** BlkL, goost/kuznyechik/BlkL.cpp:17-29. The sixteen BlkR objects may have their arrays
    at different places: [stack] gives the address by the depth of the call. *)
Fixpoint KL_transform_on (stack : nat -> N) (b : kblock) (n : nat) : kblock :=
  match n with
  | O => b
  | S k => KL_transform_on stack (KR_on (stack k) b) k
  end.

Definition KL_on (stack : nat -> N) (b : kblock) : kblock := KL_transform_on stack b 16.

(** BlkS::value, goost/kuznyechik/BlkS.cpp:38-43: replaces the bytes of the pair in place,
    one by one. *)
Definition KS_on (b : kblock) : kblock :=
  '(first, second) <- b ;;
  data <- mapM (at_ BlkS_sbox) (to_mem 8 first ++ to_mem 8 second) ;;
  KRaw (of_mem (firstn 8 data)) (of_mem (firstn 8 (skipn 8 data))).

(** BlkIterKey, goost/kuznyechik/BlkIterKey.cpp:23-47, see [KIterKey_generate]. *)
Fixpoint KIterKey_generate_on (stack : nat -> N) (n : nat) (a b : kblock) (i c2 : Z) : kblock :=
  if (c2 <? i)%Z then b
  else match n with
       | O => OutOfFuel
       | S k =>
           if (i =? 2 ^ 31 - 1)%Z then Undef IntOverflow
           else
             let cn := KL_on stack (KRaw1 (u64_of_int i)) in
             KIterKey_generate_on stack k b
               (KXored a (KL_on stack (KS_on (KXored b cn)))) (i + 1)%Z c2
       end.

Definition KIterKey_on (stack : nat -> N) (ka kb : kblock) (c1 c2 : Z) : kblock :=
  KIterKey_generate_on stack (Z.to_nat (c2 - c1 + 1)) kb ka c1 c2.

(** Key, goost/kuznyechik/Key.cpp:23-35 *)
Definition Key_blocks_on (stack : nat -> N) (high low : kblock) : kkey :=
  let k1 := KCached high in
  let k2 := KCached low in
  let k3 := KCached (KIterKey_on stack k1 k2 1 8) in
  let k4 := KCached (KIterKey_on stack k1 k2 1 7) in
  let k5 := KCached (KIterKey_on stack k3 k4 9 16) in
  let k6 := KCached (KIterKey_on stack k3 k4 9 15) in
  let k7 := KCached (KIterKey_on stack k5 k6 17 24) in
  let k8 := KCached (KIterKey_on stack k5 k6 17 23) in
  let k9 := KCached (KIterKey_on stack k7 k8 25 32) in
  let k10 := KCached (KIterKey_on stack k7 k8 25 31) in
  KKey k1 k2 k3 k4 k5 k6 k7 k8 k9 k10.

(** Key::encrypt, goost/kuznyechik/Key.cpp:37-57 *)
Definition encryptStep_on (stack : nat -> N) (b kn : kblock) : kblock :=
  KL_on stack (KS_on (KXored b kn)).

Definition Key_encrypt_on (stack : nat -> N) (k : kkey) (b : kblock) : kblock :=
  let t1 := encryptStep_on stack b (k1 k) in
  let t2 := encryptStep_on stack t1 (k2 k) in
  let t3 := encryptStep_on stack t2 (k3 k) in
  let t4 := encryptStep_on stack t3 (k4 k) in
  let t5 := encryptStep_on stack t4 (k5 k) in
  let t6 := encryptStep_on stack t5 (k6 k) in
  let t7 := encryptStep_on stack t6 (k7 k) in
  let t8 := encryptStep_on stack t7 (k8 k) in
  let t9 := encryptStep_on stack t8 (k9 k) in
  KXored t9 (k10 k).

End Port.
