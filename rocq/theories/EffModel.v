(** Model of the stream classes with keys that act on the world: a user-supplied KeyData,
    Sbox or Key may have state, talk to a device, run out of memory, or answer today and
    throw tomorrow. The rest of the model takes them for functions; here the calls to them
    are actions, in the order in which the code makes them. On functions both models agree
    (C92_same_keys, C92_same_sinks, C92_same_sources). *)
From Verif Require Import Base MagmaModel Streams.
Local Open Scope N_scope.

Section Keys.
Context {W : Type}.

(** KeyData::key (goost/magma/KeyData.h:15) and Sbox::transform (goost/magma/Sbox.h:15)
    of any implementation; LazyKey, goost/magma/LazyKey.h:33-35 *)
Record act_lazy : Type := ActLazy { al_data : Z -> M W N; al_sbox : N -> M W N }.

(** LazyKey::transform, goost/magma/LazyKey.cpp:40-43 *)
Definition act_lazy_transform (k : act_lazy) (v : N) (index : Z) : M W N :=
  kw <-- al_data k index ;;
  r <-- al_sbox k (w32 (w32 kw + v)) ;;
  mret (w32 r).

(** An object behind a shared_ptr<const Key> (goost/magma/Key.h:11-15). *)
Inductive act_key : Type :=
| AKLazy (k : act_lazy)
| AKUser (f : N -> Z -> M W N).

Definition act_key_transform (k : act_key) (v : N) (index : Z) : M W N :=
  match k with
  | AKLazy lk => act_lazy_transform lk v index
  | AKUser f => r <-- f v index ;; mret (w32 r)
  end.

(** dynamic_pointer_cast<const LazyKey>(key), and a call through the result. *)
Definition act_cast (k : act_key) : option act_lazy :=
  match k with AKLazy lk => Some lk | AKUser _ => None end.
Definition act_ptr_transform (k : option act_lazy) (v : N) (index : Z) : M W N :=
  match k with Some lk => act_lazy_transform lk v index | None => lift (Undef NullDeref) end.

(** Block::value() *)
Definition act_block : Type := M W (N * N).

(** BlkSwapped::value, goost/magma/BlkSwapped.cpp:16-20 *)
Definition act_BlkSwapped (b : act_block) : act_block :=
  '(first, second) <-- b ;; mret (second, first).

(** BlkForwarded::value, goost/magma/BlkForwarded.cpp:18-34 *)
Definition act_BlkForwarded (blk : act_block) (k : option act_lazy) : act_block :=
  '(a, b) <-- blk ;;
  t <-- act_ptr_transform k a 0 ;; let b := N.lxor b t in
  t <-- act_ptr_transform k b 1 ;; let a := N.lxor a t in
  t <-- act_ptr_transform k a 2 ;; let b := N.lxor b t in
  t <-- act_ptr_transform k b 3 ;; let a := N.lxor a t in
  t <-- act_ptr_transform k a 4 ;; let b := N.lxor b t in
  t <-- act_ptr_transform k b 5 ;; let a := N.lxor a t in
  t <-- act_ptr_transform k a 6 ;; let b := N.lxor b t in
  t <-- act_ptr_transform k b 7 ;; let a := N.lxor a t in
  mret (a, b).

(** BlkBackwarded::value, goost/magma/BlkBackwarded.cpp:17-33 *)
Definition act_BlkBackwarded (blk : act_block) (k : option act_lazy) : act_block :=
  '(a, b) <-- blk ;;
  t <-- act_ptr_transform k a 7 ;; let b := N.lxor b t in
  t <-- act_ptr_transform k b 6 ;; let a := N.lxor a t in
  t <-- act_ptr_transform k a 5 ;; let b := N.lxor b t in
  t <-- act_ptr_transform k b 4 ;; let a := N.lxor a t in
  t <-- act_ptr_transform k a 3 ;; let b := N.lxor b t in
  t <-- act_ptr_transform k b 2 ;; let a := N.lxor a t in
  t <-- act_ptr_transform k a 1 ;; let b := N.lxor b t in
  t <-- act_ptr_transform k b 0 ;; let a := N.lxor a t in
  mret (a, b).

(** BlkEncrypted, goost/magma/BlkEncrypted.cpp:14-38 *)
Definition act_BlkEncrypted (blk : act_block) (k : option act_lazy) : act_block :=
  act_BlkSwapped (act_BlkBackwarded (act_BlkForwarded (act_BlkForwarded (act_BlkForwarded blk k) k) k) k).

(** BlkDecrypted, goost/magma/BlkDecrypted.cpp:14-38 *)
Definition act_BlkDecrypted (blk : act_block) (k : option act_lazy) : act_block :=
  act_BlkSwapped (act_BlkBackwarded (act_BlkBackwarded (act_BlkBackwarded (act_BlkForwarded blk k) k) k) k).

(** EncryptionBase::transform, goost/magma/EncryptionBase.cpp:17-59 *)
Definition act_EncryptionBase (k : act_key) (blk : N) : M W N :=
  let a := N.land blk 0xffffffff in
  let b := N.land (N.shiftr blk 32) 0xffffffff in
  t <-- act_key_transform k a 0 ;; let b := N.lxor b t in
  t <-- act_key_transform k b 1 ;; let a := N.lxor a t in
  t <-- act_key_transform k a 2 ;; let b := N.lxor b t in
  t <-- act_key_transform k b 3 ;; let a := N.lxor a t in
  t <-- act_key_transform k a 4 ;; let b := N.lxor b t in
  t <-- act_key_transform k b 5 ;; let a := N.lxor a t in
  t <-- act_key_transform k a 6 ;; let b := N.lxor b t in
  t <-- act_key_transform k b 7 ;; let a := N.lxor a t in
  t <-- act_key_transform k a 0 ;; let b := N.lxor b t in
  t <-- act_key_transform k b 1 ;; let a := N.lxor a t in
  t <-- act_key_transform k a 2 ;; let b := N.lxor b t in
  t <-- act_key_transform k b 3 ;; let a := N.lxor a t in
  t <-- act_key_transform k a 4 ;; let b := N.lxor b t in
  t <-- act_key_transform k b 5 ;; let a := N.lxor a t in
  t <-- act_key_transform k a 6 ;; let b := N.lxor b t in
  t <-- act_key_transform k b 7 ;; let a := N.lxor a t in
  t <-- act_key_transform k a 0 ;; let b := N.lxor b t in
  t <-- act_key_transform k b 1 ;; let a := N.lxor a t in
  t <-- act_key_transform k a 2 ;; let b := N.lxor b t in
  t <-- act_key_transform k b 3 ;; let a := N.lxor a t in
  t <-- act_key_transform k a 4 ;; let b := N.lxor b t in
  t <-- act_key_transform k b 5 ;; let a := N.lxor a t in
  t <-- act_key_transform k a 6 ;; let b := N.lxor b t in
  t <-- act_key_transform k b 7 ;; let a := N.lxor a t in
  t <-- act_key_transform k a 7 ;; let b := N.lxor b t in
  t <-- act_key_transform k b 6 ;; let a := N.lxor a t in
  t <-- act_key_transform k a 5 ;; let b := N.lxor b t in
  t <-- act_key_transform k b 4 ;; let a := N.lxor a t in
  t <-- act_key_transform k a 3 ;; let b := N.lxor b t in
  t <-- act_key_transform k b 2 ;; let a := N.lxor a t in
  t <-- act_key_transform k a 1 ;; let b := N.lxor b t in
  t <-- act_key_transform k b 0 ;; let a := N.lxor a t in
  mret (N.lor (w64 (N.shiftl a 32)) b).
End Keys.
Arguments act_lazy : clear implicits.
Arguments act_key : clear implicits.

(** The objects hold the key and never change it, so it is a parameter here and the
    objects are written as tuples of their other members. *)
Section Sinks.
Context {W S : Type} (wr : writer W S) (m : mode) (k : act_key W).

(** ECBSink::write, goost/magma/ECBSink.cpp:22-43; the object is its sink. *)
Fixpoint act_ecb_loop (data : bytes) (p : bytes) (s : S) : M W (bytes * S) :=
  match data with
  | [] => mret (p, s)
  | b :: rest =>
      let p := p ++ [b] in
      if Nat.eqb (List.length p) 8 then
        e <-- act_EncryptionBase k (of_le p) ;;
        s <-- wr s (to_le 8 e) ;;
        act_ecb_loop rest [] s
      else act_ecb_loop rest p s
  end.

Definition act_ECBSink_write (o : S) (data : bytes) : M W S :=
  '(p, s) <-- act_ecb_loop data [] o ;;
  match p with
  | [] => mret s
  | _ :: _ => mthrow (RuntimeError "Unaligned ECB encryption")
  end.

(** CFBSink::write, goost/magma/CFBSink.cpp:36-63; the object is (sink, ivl, ivr, plain). *)
Fixpoint act_magma_loop (data : bytes) (p : bytes) (s : S) (rl rr : N) : M W (S * N * N * bytes) :=
  match data with
  | [] => mret (s, rl, rr, p)
  | b :: rest =>
      let p := p ++ [b] in
      if Nat.eqb (List.length p) block_size then
        '(first, second) <-- act_BlkEncrypted (lift (BlkRaw64 rl)) (act_cast k) ;;
        c <-- lift (sink_xor m p first second) ;;
        s <-- wr s c ;;
        act_magma_loop rest [] s rr (of_le (firstn 8 c))
      else act_magma_loop rest p s rl rr
  end.

Definition act_magma_CFBSink_write (o : S * N * N * bytes) (data : bytes) : M W (S * N * N * bytes) :=
  let '(s, rl, rr, p) := o in act_magma_loop data p s rl rr.

(** CFBSink::finalize, goost/magma/CFBSink.cpp:65-81 *)
Definition act_magma_CFBSink_finalize (o : S * N * N * bytes) : M W S :=
  let '(s, rl, rr, p) := o in
  match p with
  | [] => mret s
  | _ :: _ =>
      '(first, second) <-- act_BlkEncrypted (lift (BlkRaw64 rl)) (act_cast k) ;;
      c <-- lift (sink_xor m p second first) ;;
      wr s c
  end.

(** CFBSink::write, goost/gost89/CFBSink.cpp:37-62; the object is (sink, iv, plain). *)
Fixpoint act_gost_loop (data : bytes) (p : bytes) (s : S) (l : N) : M W (S * N * bytes) :=
  match data with
  | [] => mret (s, l, p)
  | b :: rest =>
      let p := p ++ [b] in
      if Nat.eqb (List.length p) block_size then
        '(first, second) <-- act_BlkEncrypted (lift (BlkRaw64 l)) (act_cast k) ;;
        c <-- lift (sink_xor m p first second) ;;
        s <-- wr s c ;;
        act_gost_loop rest [] s (of_le (firstn 8 c))
      else act_gost_loop rest p s l
  end.

Definition act_gost_CFBSink_write (o : S * N * bytes) (data : bytes) : M W (S * N * bytes) :=
  let '(s, l, p) := o in act_gost_loop data p s l.

(** CFBSink::finalize, goost/gost89/CFBSink.cpp:64-80 *)
Definition act_gost_CFBSink_finalize (o : S * N * bytes) : M W S :=
  let '(s, l, p) := o in
  match p with
  | [] => mret s
  | _ :: _ =>
      '(first, second) <-- act_BlkEncrypted (lift (BlkRaw64 l)) (act_cast k) ;;
      c <-- lift (sink_xor m p second first) ;;
      wr s c
  end.
End Sinks.

Section Sources.
Context {W St : Type} (rd : reader W St) (m : mode) (k : act_key W).

(** ECBSource::read, goost/magma/ECBSource.cpp:35-57; [inl s] is an ECBSource over [s],
    [inr s] the bare source returned after the end. *)
Definition act_ECBSource_read (o : St + St) (size : N) : M W (bytes * (St + St)) :=
  match o with
  | inr s => '(p, s) <-- rd s size ;; mret (p, inr s)
  | inl s =>
      if size <? N.of_nat block_size then mthrow (RuntimeError "Unaligned ECB decryption")
      else
        '(p, s) <-- rd s 8 ;;
        match p with
        | [] => mret (p, inr s)
        | _ :: _ =>
            buf <-- lift (read8 m p) ;;
            '(first, second) <-- act_BlkDecrypted (lift (BlkRaw_bytes buf)) (act_cast k) ;;
            p' <-- lift (write8 m p (to_le 4 first ++ to_le 4 second)) ;;
            mret (p', inl s)
        end
  end.

(** CFBSource::read, goost/magma/CFBSource.cpp:35-77; the object is (source, plain, ivl, ivr). *)
Definition act_magma_step (size : N) (st : St * bytes * N * N * bytes)
  : M W ((St * bytes * N * N * bytes) + (St * bytes * N * N * bytes)) :=
  let '(s, p, rl, rr, res) := st in
  if len res <? size then
    let (res, p) := drain p res size in
    if len res =? size then mret (inr (s, p, rl, rr, res))
    else
      '(first, second) <-- act_BlkEncrypted (lift (BlkRaw64 rl)) (act_cast k) ;;
      '(p, s) <-- rd s 8 ;;
      match p with
      | [] => mret (inr (s, [], rl, rr, res))
      | _ :: _ =>
          let rl := rr in
          rr <-- lift (load_reg m p) ;;
          p <-- lift (source_xor m p first second) ;;
          mret (inl (s, p, rl, rr, res))
      end
  else mret (inr (s, p, rl, rr, res)).

Definition act_magma_CFBSource_read (o : St * bytes * N * N) (size : N) : M W (bytes * (St * bytes * N * N)) :=
  let '(s, p, rl, rr) := o in
  '(s, p, rl, rr, res) <-- mloop (N.succ_pos size) (act_magma_step size) (s, p, rl, rr, []) ;;
  mret (res, (s, p, rl, rr)).

(** CFBSource::read, goost/gost89/CFBSource.cpp:34-74; the object is (source, plain, iv). *)
Definition act_gost_step (size : N) (st : St * bytes * N * bytes)
  : M W ((St * bytes * N * bytes) + (St * bytes * N * bytes)) :=
  let '(s, p, r, res) := st in
  if len res <? size then
    let (res, p) := drain p res size in
    if len res =? size then mret (inr (s, p, r, res))
    else
      '(first, second) <-- act_BlkEncrypted (lift (BlkRaw64 r)) (act_cast k) ;;
      '(p, s) <-- rd s 8 ;;
      match p with
      | [] => mret (inr (s, [], r, res))
      | _ :: _ =>
          r <-- lift (load_reg m p) ;;
          p <-- lift (source_xor m p first second) ;;
          mret (inl (s, p, r, res))
      end
  else mret (inr (s, p, r, res)).

Definition act_gost_CFBSource_read (o : St * bytes * N) (size : N) : M W (bytes * (St * bytes * N)) :=
  let '(s, p, r) := o in
  '(s, p, r, res) <-- mloop (N.succ_pos size) (act_gost_step size) (s, p, r, []) ;;
  mret (res, (s, p, r)).
End Sources.
