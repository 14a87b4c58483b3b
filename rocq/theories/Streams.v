(** Model of the stream classes: goost::Source / goost::Sink and their
    implementations in goost/magma and goost/gost89, magma::Imit over a Source,
    and gost89::DataImit. *)
From Verif Require Import Base Text MagmaModel.
Local Open Scope N_scope.

Definition bytes : Type := list N.

(** ** Interfaces *)

(** Sink::write (goost/Sink.h:17) of an arbitrary underlying sink with state type
    [S]: a new sink or an exception, possibly acting on the world [W]. *)
Definition writer (W S : Type) : Type := S -> bytes -> M W S.

(** Source::read (goost/Source.h:18). *)
Definition reader (W St : Type) : Type := St -> N -> M W (bytes * St).

Definition mthrow {W A} (e : exn) : M W A := lift (Throw e).

(** A loop [while (true) { body }] left by [inr], at most [p] iterations. *)
Definition mloop {W S R : Type} (p : positive) (step : S -> M W (S + R)) (s : S) : M W R :=
  fun w =>
    match ploop p
            (fun sw : S * W =>
               let (s0, w0) := sw in
               match step s0 w0 with
               | (Ok (inl s1), w1) => inl (s1, w1)
               | (Ok (inr r), w1) => inr (Ok r, w1)
               | (Throw e, w1) => inr (Throw e, w1)
               | (Undef u, w1) => inr (Undef u, w1)
               | (OutOfFuel, w1) => inr (OutOfFuel, w1)
               end) (s, w)
    with
    | inl (_, w') => (OutOfFuel, w')
    | inr x => x
    end.

(** ** Raw memory operations on byte vectors *)

(** Byte [v ^= x] at position i of a list (i in range). *)
Fixpoint xor_nth (l : bytes) (i : nat) (x : N) : bytes :=
  match l, i with
  | [], _ => []
  | b :: r, O => N.lxor b x :: r
  | b :: r, Datatypes.S j => b :: xor_nth r j x
  end.

(** [c[i] ^= x] on a vector: out of bounds is undefined; on x86/glibc the write
    goes to the unused rest of the heap chunk. *)
Definition xor_at (m : mode) (c : bytes) (i : nat) (x : N) : res bytes :=
  if Nat.ltb i (List.length c) then Ok (xor_nth c i x)
  else match m with ISO => Undef OutOfBounds | X86 _ => Ok c end.

(** Eight bytes read from &v[0]. *)
Definition read8 (m : mode) (v : bytes) : res bytes :=
  if Nat.leb 8 (List.length v) then Ok (firstn 8 v)
  else match m with
       | ISO => Undef OutOfBounds
       | X86 g => Ok (v ++ map (fun i => w8 (g v i)) (seq (List.length v) (8 - List.length v)))
       end.

(** Eight bytes [d] written to &v[0]; the size of v does not change. *)
Definition write8 (m : mode) (v d : bytes) : res bytes :=
  if Nat.leb 8 (List.length v) then Ok (d ++ skipn 8 v)
  else match m with
       | ISO => Undef OutOfBounds
       | X86 _ => Ok (firstn (List.length v) d)
       end.

(** static_cast<byte>(e >> (i * 8)) *)
Definition byte_of (e : N) (i : nat) : N := w8 (N.shiftr e (N.of_nat i * 8)).

Fixpoint foldM {A B} (f : A -> B -> res A) (l : list B) (a : A) : res A :=
  match l with
  | [] => Ok a
  | b :: r => a' <- f a b ;; foldM f r a'
  end.

(** The loop at goost/magma/CFBSink.cpp:51-54 and goost/gost89/CFBSink.cpp:51-54;
    with the halves exchanged (first := e.second, second := e.first) it is the loop
    of the finalize methods (CFBSink.cpp:74-77 and gost89 CFBSink.cpp:73-76). *)
Definition sink_xor (m : mode) (c : bytes) (first second : N) : res bytes :=
  foldM (fun c i =>
           c <- xor_at m c (0 + i) (byte_of first i) ;;
           xor_at m c (4 + i) (byte_of second i))
        [0; 1; 2; 3]%nat c.

(** The loop at goost/magma/CFBSource.cpp:66-73 and goost/gost89/CFBSource.cpp:63-70,
    with its "size() >= index" guards. *)
Definition source_xor (m : mode) (p : bytes) (first second : N) : res bytes :=
  foldM (fun p i =>
           p <- (if Nat.leb (0 + i) (List.length p) then xor_at m p (0 + i) (byte_of first i)
                 else Ok p) ;;
           (if Nat.leb (4 + i) (List.length p) then xor_at m p (4 + i) (byte_of second i)
            else Ok p))
        [0; 1; 2; 3]%nat p.

(** [memcpy(&r, &p[0], max(sizeof(r), p.size()))] into a uint64_t,
    goost/magma/CFBSource.cpp:64 and goost/gost89/CFBSource.cpp:61: more than 8 bytes
    overrun the variable, fewer than 8 are read behind the vector. *)
Definition load_reg (m : mode) (p : bytes) : res N :=
  if Nat.ltb 8 (List.length p) then Undef Overflow
  else b <- read8 m p ;; Ok (of_le b).

Section Sinks.
Context {W S : Type} (wr : writer W S) (m : mode).

(** ** magma::ECBSink *)

Record ecb_sink : Type := ECBSink { es_sink : S; es_key : key }.

(** The loop of ECBSink::write, goost/magma/ECBSink.cpp:24-38 *)
Fixpoint ecb_write_loop (k : key) (data : bytes) (p : bytes) (s : S) : M W (bytes * S) :=
  match data with
  | [] => mret (p, s)
  | b :: rest =>
      let p := p ++ [b] in
      if Nat.eqb (List.length p) 8 then
        e <-- lift (EncryptionBase_transform k (of_le p)) ;;
        s <-- wr s (to_le 8 e) ;;
        ecb_write_loop k rest [] s
      else ecb_write_loop k rest p s
  end.

(** ECBSink::write, goost/magma/ECBSink.cpp:22-43 *)
Definition ECBSink_write (o : ecb_sink) (data : bytes) : M W ecb_sink :=
  '(p, s) <-- ecb_write_loop (es_key o) data [] (es_sink o) ;;
  match p with
  | [] => mret (ECBSink s (es_key o))
  | _ :: _ => mthrow (RuntimeError "Unaligned ECB encryption")
  end.

(** ECBSink::finalize, goost/magma/ECBSink.cpp:45-48 *)
Definition ECBSink_finalize (o : ecb_sink) : M W S := mret (es_sink o).

(** ** magma::CFBSink *)

Record magma_cfb_sink : Type := MagmaCFBSink {
  mcs_sink : S; mcs_key : key; mcs_ivl : N; mcs_ivr : N; mcs_plain : bytes }.

(** CFBSink(sink, key, ivl, ivr), goost/magma/CFBSink.cpp:27-34 *)
Definition magma_CFBSink_init (s : S) (k : key) (ivl ivr : N) : magma_cfb_sink :=
  MagmaCFBSink s k ivl ivr [].

(** The loop of CFBSink::write, goost/magma/CFBSink.cpp:42-61 *)
Fixpoint magma_cfb_write_loop (k : key) (data : bytes) (p : bytes) (s : S) (rl rr : N)
  : M W (S * N * N * bytes) :=
  match data with
  | [] => mret (s, rl, rr, p)
  | b :: rest =>
      let p := p ++ [b] in
      if Nat.eqb (List.length p) block_size then
        '(first, second) <-- lift (BlkEncrypted (BlkRaw64 rl) (cast_lazy k)) ;;
        c <-- lift (sink_xor m p first second) ;;
        s <-- wr s c ;;
        magma_cfb_write_loop k rest [] s rr (of_le (firstn 8 c))
      else magma_cfb_write_loop k rest p s rl rr
  end.

(** CFBSink::write, goost/magma/CFBSink.cpp:36-63 *)
Definition magma_CFBSink_write (o : magma_cfb_sink) (data : bytes) : M W magma_cfb_sink :=
  '(s, rl, rr, p) <-- magma_cfb_write_loop (mcs_key o) data (mcs_plain o) (mcs_sink o)
                                           (mcs_ivl o) (mcs_ivr o) ;;
  mret (MagmaCFBSink s (mcs_key o) rl rr p).

(** CFBSink::finalize, goost/magma/CFBSink.cpp:65-81 *)
Definition magma_CFBSink_finalize (o : magma_cfb_sink) : M W S :=
  match mcs_plain o with
  | [] => mret (mcs_sink o)
  | _ :: _ =>
      '(first, second) <-- lift (BlkEncrypted (BlkRaw64 (mcs_ivl o)) (cast_lazy (mcs_key o))) ;;
      c <-- lift (sink_xor m (mcs_plain o) second first) ;;
      s <-- wr (mcs_sink o) c ;;
      mret s
  end.

(** ** gost89::CFBSink *)

Record gost_cfb_sink : Type := GostCFBSink {
  gcs_sink : S; gcs_key : key; gcs_iv : N; gcs_plain : bytes }.

(** CFBSink(sink, key, iv), goost/gost89/CFBSink.cpp:29-35 *)
Definition gost_CFBSink_init (s : S) (k : key) (iv : N) : gost_cfb_sink :=
  GostCFBSink s k iv [].

(** The loop of CFBSink::write, goost/gost89/CFBSink.cpp:42-60 *)
Fixpoint gost_cfb_write_loop (k : key) (data : bytes) (p : bytes) (s : S) (l : N)
  : M W (S * N * bytes) :=
  match data with
  | [] => mret (s, l, p)
  | b :: rest =>
      let p := p ++ [b] in
      if Nat.eqb (List.length p) block_size then
        '(first, second) <-- lift (BlkEncrypted (BlkRaw64 l) (cast_lazy k)) ;;
        c <-- lift (sink_xor m p first second) ;;
        s <-- wr s c ;;
        gost_cfb_write_loop k rest [] s (of_le (firstn 8 c))
      else gost_cfb_write_loop k rest p s l
  end.

(** CFBSink::write, goost/gost89/CFBSink.cpp:37-62 *)
Definition gost_CFBSink_write (o : gost_cfb_sink) (data : bytes) : M W gost_cfb_sink :=
  '(s, l, p) <-- gost_cfb_write_loop (gcs_key o) data (gcs_plain o) (gcs_sink o) (gcs_iv o) ;;
  mret (GostCFBSink s (gcs_key o) l p).

(** CFBSink::finalize, goost/gost89/CFBSink.cpp:64-80 *)
Definition gost_CFBSink_finalize (o : gost_cfb_sink) : M W S :=
  match gcs_plain o with
  | [] => mret (gcs_sink o)
  | _ :: _ =>
      '(first, second) <-- lift (BlkEncrypted (BlkRaw64 (gcs_iv o)) (cast_lazy (gcs_key o))) ;;
      c <-- lift (sink_xor m (gcs_plain o) second first) ;;
      s <-- wr (gcs_sink o) c ;;
      mret s
  end.

End Sinks.

Arguments ecb_sink : clear implicits.
Arguments magma_cfb_sink : clear implicits.
Arguments gost_cfb_sink : clear implicits.

Section Sources.
Context {W St : Type} (rd : reader W St) (m : mode).

(** ** magma::ECBSource *)

(** The Source objects an ECBSource can turn into: an ECBSource again or, after
    end of data, the underlying source itself (goost/magma/ECBSource.cpp:46). *)
Inductive ecb_source : Type :=
| ECBSource (s : St) (k : key)
| ECBBare (s : St).

(** ECBSource::read, goost/magma/ECBSource.cpp:35-57 *)
Definition ECBSource_read (o : ecb_source) (size : N) : M W (bytes * ecb_source) :=
  match o with
  | ECBBare s => '(p, s) <-- rd s size ;; mret (p, ECBBare s)
  | ECBSource s k =>
      if size <? N.of_nat block_size then mthrow (RuntimeError "Unaligned ECB decryption")
      else
        '(p, s) <-- rd s 8 ;;
        match p with
        | [] => mret (p, ECBBare s)
        | _ :: _ =>
            buf <-- lift (read8 m p) ;;
            '(first, second) <-- lift (BlkDecrypted (BlkRaw_bytes buf) (cast_lazy k)) ;;
            p' <-- lift (write8 m p (to_le 4 first ++ to_le 4 second)) ;;
            mret (p', ECBSource s k)
        end
  end.

(** The inner loop of the CFBSource::read methods
    (goost/magma/CFBSource.cpp:44-47, goost/gost89/CFBSource.cpp:42-45):
    moves bytes from the front of p to the end of res; returns (res, p). *)
Fixpoint drain (p res : bytes) (size : N) : bytes * bytes :=
  match p with
  | [] => (res, [])
  | b :: p' => if len res <? size then drain p' (res ++ [b]) size else (res, p)
  end.

(** ** magma::CFBSource *)

Record magma_cfb_source : Type := MagmaCFBSource {
  mcr_source : St; mcr_key : key; mcr_ivl : N; mcr_ivr : N; mcr_plain : bytes }.

(** CFBSource(source, key, ivl, ivr), goost/magma/CFBSource.cpp:26-33 *)
Definition magma_CFBSource_init (s : St) (k : key) (ivl ivr : N) : magma_cfb_source :=
  MagmaCFBSource s k ivl ivr [].

(** One iteration of the loop at goost/magma/CFBSource.cpp:43-74;
    state (s, p, rl, rr, res). [inr] leaves the loop. *)
Definition magma_cfb_read_step (k : key) (size : N) (st : St * bytes * N * N * bytes)
  : M W ((St * bytes * N * N * bytes) + (St * bytes * N * N * bytes)) :=
  let '(s, p, rl, rr, res) := st in
  if len res <? size then
    let (res, p) := drain p res size in
    if len res =? size then mret (inr (s, p, rl, rr, res))
    else
      '(first, second) <-- lift (BlkEncrypted (BlkRaw64 rl) (cast_lazy k)) ;;
      '(p, s) <-- rd s 8 ;;
      match p with
      | [] => mret (inr (s, [], rl, rr, res))
      | _ :: _ =>
          let rl := rr in
          rr <-- lift (load_reg m p) ;;
          p <-- lift (source_xor m p first second) ;;
          mret (inl (s, p, rl, rr, res))
      end
  else mret (inr (s, p, rl, rr, res)).

(** CFBSource::read, goost/magma/CFBSource.cpp:35-77. The loop budget size+1 is
    never exhausted (Termination theorems). *)
Definition magma_CFBSource_read (o : magma_cfb_source) (size : N)
  : M W (bytes * magma_cfb_source) :=
  '(s, p, rl, rr, res) <--
     mloop (N.succ_pos size) (magma_cfb_read_step (mcr_key o) size)
           (mcr_source o, mcr_plain o, mcr_ivl o, mcr_ivr o, []) ;;
  mret (res, MagmaCFBSource s (mcr_key o) rl rr p).

(** ** gost89::CFBSource *)

Record gost_cfb_source : Type := GostCFBSource {
  gcr_source : St; gcr_key : key; gcr_iv : N; gcr_plain : bytes }.

(** CFBSource(source, key, iv), goost/gost89/CFBSource.cpp:26-32 *)
Definition gost_CFBSource_init (s : St) (k : key) (iv : N) : gost_cfb_source :=
  GostCFBSource s k iv [].

(** One iteration of the loop at goost/gost89/CFBSource.cpp:41-71. *)
Definition gost_cfb_read_step (k : key) (size : N) (st : St * bytes * N * bytes)
  : M W ((St * bytes * N * bytes) + (St * bytes * N * bytes)) :=
  let '(s, p, r, res) := st in
  if len res <? size then
    let (res, p) := drain p res size in
    if len res =? size then mret (inr (s, p, r, res))
    else
      '(first, second) <-- lift (BlkEncrypted (BlkRaw64 r) (cast_lazy k)) ;;
      '(p, s) <-- rd s 8 ;;
      match p with
      | [] => mret (inr (s, [], r, res))
      | _ :: _ =>
          r <-- lift (load_reg m p) ;;
          p <-- lift (source_xor m p first second) ;;
          mret (inl (s, p, r, res))
      end
  else mret (inr (s, p, r, res)).

(** CFBSource::read, goost/gost89/CFBSource.cpp:34-74 *)
Definition gost_CFBSource_read (o : gost_cfb_source) (size : N)
  : M W (bytes * gost_cfb_source) :=
  '(s, p, r, res) <--
     mloop (N.succ_pos size) (gost_cfb_read_step (gcr_key o) size)
           (gcr_source o, gcr_plain o, gcr_iv o, []) ;;
  mret (res, GostCFBSource s (gcr_key o) r p).

(** ** magma::Imit::value over a Source, goost/magma/Imit.cpp:79-103 *)

(** [uint64_t v = 0; memcpy(&v, &b[0], b.size());] lines 89-90. *)
Definition imit_load (b : bytes) : res N :=
  if Nat.ltb 8 (List.length b) then Undef Overflow
  else match b, m with
       | [], ISO => Undef OutOfBounds      (* &b[0] on an empty vector *)
       | _, _ => Ok (of_le b)
       end.

(** One iteration of the loop at lines 87-100; state (b, s, block). Blocks are lazy
    objects: their outcomes are only combined at line 102. Leaving the loop yields
    (k, block). *)
Definition imit_step (k : option lazykey) (st : bytes * St * block)
  : M W ((bytes * St * block) + (block * block)) :=
  let '(b, s, blk) := st in
  let fk := BlkImitFinalKey m k (List.length b) in
  v <-- lift (imit_load b) ;;
  let blk := BlkXored blk (BlkRaw64 v) in
  if Nat.ltb (List.length b) block_size then mret (inr (fk, blk))
  else
    '(b, s) <-- rd s (N.of_nat block_size) ;;
    match b with
    | [] => mret (inr (fk, blk))
    | _ :: _ => mret (inl (b, s, BlkEncrypted blk k))
    end.

(** Imit::value; [fuel] bounds the number of blocks the model processes. *)
Definition magma_Imit (fuel : positive) (data : St) (k : option lazykey) : M W (N * N) :=
  '(b, s) <-- rd data (N.of_nat block_size) ;;
  '(fk, blk) <-- mloop fuel (imit_step k) (b, s, BlkRaw0) ;;
  lift (BlkEncrypted (BlkXored blk fk) k).

End Sources.

Arguments ecb_source : clear implicits.
Arguments magma_cfb_source : clear implicits.
Arguments gost_cfb_source : clear implicits.

(** ** gost89::DataImit::value, goost/gost89/DataImit.cpp:18-38 *)

(** Lines 21-27: zero bytes up to 16, then up to a multiple of 8. *)
Definition dataimit_pad (data : bytes) : bytes :=
  let p := data ++ repeat 0 (16 - List.length data) in
  p ++ repeat 0 ((8 - List.length p mod 8) mod 8).

(** Lines 29-36: [for (auto &s : state) s ^= *pi++;] for one block of 8 bytes, then
    two encryption passes over the state. Fails with OutOfBounds if fewer than 8
    bytes are left. *)
Fixpoint xor_bytes (state data : bytes) : res (bytes * bytes) :=
  match state with
  | [] => Ok ([], data)
  | s :: st =>
      match data with
      | [] => Undef OutOfBounds
      | d :: ds => '(r, rest) <- xor_bytes st ds ;; Ok (N.lxor s d :: r, rest)
      end
  end.

Definition dataimit_block (k : option lazykey) (state : bytes) : res bytes :=
  buf <- read8 ISO state ;;
  '(first, second) <- ImitedBlock (BlkRaw_bytes buf) k ;;
  write8 ISO state (to_le 4 first ++ to_le 4 second).

Fixpoint dataimit_loop (fuel : nat) (k : option lazykey) (state data : bytes) : res bytes :=
  match data with
  | [] => Ok state
  | _ :: _ =>
      match fuel with
      | O => OutOfFuel
      | Datatypes.S f =>
          '(state, rest) <- xor_bytes state data ;;
          state <- dataimit_block k state ;;
          dataimit_loop f k state rest
      end
  end.

Definition DataImit (data : bytes) (k : option lazykey) : res bytes :=
  let pdata := dataimit_pad data in
  dataimit_loop (List.length pdata) k (repeat 0 8) pdata.

(** ** ECBSource(source, container), goost/magma/ECBSource.cpp:28-33,59-74 *)

(** Container::key / mask / sbox, goost/magma/Container.h:15-24 *)
Record container : Type := Container {
  cont_key : res bytes; cont_mask : res bytes; cont_sbox : res bytes }.

(** memcpy(&dst[0], &src[0], src.size()) into a zeroed vector of n bytes. *)
Definition copy_into (m : mode) (n : nat) (src : bytes) : res bytes :=
  if Nat.ltb n (List.length src) then Undef Overflow
  else match src, m with
       | [], ISO => Undef OutOfBounds
       | _, _ => Ok (src ++ repeat 0 (n - List.length src))
       end.

(** The uint32_t words of a byte buffer, each passed through htonl (little-endian
    host: the byte order is reversed). *)
Fixpoint htonl_words (n : nat) (b : bytes) : list N :=
  match n with
  | O => []
  | Datatypes.S k => of_le (rev (firstn 4 b)) :: htonl_words k (skipn 4 b)
  end.

(** ECBSource::makeKey, goost/magma/ECBSource.cpp:59-74 *)
Definition makeKey (m : mode) (c : container) : res key :=
  ik <- cont_key c ;;
  kb <- copy_into m 32 ik ;;
  is_ <- cont_sbox c ;;
  sb <- copy_into m 64 is_ ;;
  Ok (KLazy (LazyKey_native (htonl_words 8 kb) (SboxTwisted (SboxByte sb)))).

(** ECBSource(source, container), goost/magma/ECBSource.cpp:28-33. That makeKey is a
    non-static member called before the base class is initialised is ignored here, see AliasModel.v. *)
Definition ECBSource_container {St} (m : mode) (source : St) (c : container) : res (ecb_source St) :=
  k <- makeKey m c ;; Ok (ECBSource source k).

(** ** Concrete objects used in examples and tests *)

(** TestSink, test/TestSink.cpp:23-31 *)
Definition TestSink_write {W} : writer W bytes := fun data d => mret (data ++ d).

(** A source over a byte vector that returns as much as asked for. Not part of the
    library, which has no Source of its own; it stands for a well-behaved one. *)
Definition MemSource_read {W} : reader W bytes := fun data n =>
  if len data <? n then mret (data, [])
  else mret (firstn (N.to_nat n) data, skipn (N.to_nat n) data).

(** Calls of one sink / source in sequence. *)
Fixpoint writes {W S} (write : S -> bytes -> M W S) (o : S) (chunks : list bytes) : M W S :=
  match chunks with
  | [] => mret o
  | c :: r => o' <-- write o c ;; writes write o' r
  end.

Fixpoint reads {W St} (read : St -> N -> M W (bytes * St)) (o : St) (sizes : list N)
  : M W (list bytes * St) :=
  match sizes with
  | [] => mret ([], o)
  | n :: r =>
      '(b, o') <-- read o n ;;
      '(bs, o'') <-- reads read o' r ;;
      mret (b :: bs, o'')
  end.
