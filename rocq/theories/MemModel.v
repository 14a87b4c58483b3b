(** Model of the stream classes with memory that may run out: wherever the code takes
    memory - a push_back, a copy of a vector, a make_shared - an action [alloc] comes first
    that may throw. Keys act as in EffModel.v. With an [alloc] that never throws this is
    EffModel.v (C98_same_sinks, C98_same_sources).

    Simplifications: every push_back may allocate, also when the vector still has room; the
    push_backs that fill the result of a read between two reads of the source are one
    point, and so are the five or six make_shared of one BlkEncrypted or BlkDecrypted,
    because nothing happens between them that could be seen. Destructors, moves and copies
    of shared_ptr take no memory. *)
From Verif Require Import Base MagmaModel Streams EffModel.
Local Open Scope N_scope.

Section Sinks.
Context {W S : Type} (alloc : M W unit) (wr : writer W S) (m : mode) (k : act_key W).

(** ECBSink::write, goost/magma/ECBSink.cpp:22-43: push_back at line 27; make_shared at line
    42; runtime_error at line 40 copies its text. *)
Fixpoint mem_ecb_loop (data : bytes) (p : bytes) (s : S) : M W (bytes * S) :=
  match data with
  | [] => mret (p, s)
  | b :: rest =>
      _ <-- alloc ;;
      let p := p ++ [b] in
      if Nat.eqb (List.length p) 8 then
        e <-- act_EncryptionBase k (of_le p) ;;
        s <-- wr s (to_le 8 e) ;;
        mem_ecb_loop rest [] s
      else mem_ecb_loop rest p s
  end.

Definition mem_ECBSink_write (o : S) (data : bytes) : M W S :=
  '(p, s) <-- mem_ecb_loop data [] o ;;
  _ <-- alloc ;;
  match p with
  | [] => mret s
  | _ :: _ => mthrow (RuntimeError "Unaligned ECB encryption")
  end.

(** CFBSink::write, goost/magma/CFBSink.cpp:36-63: the copy of plain at line 39, push_back at
    line 43, the blocks at lines 45-48, the copy at line 50, make_shared at line 62. *)
Fixpoint mem_magma_loop (data : bytes) (p : bytes) (s : S) (rl rr : N) : M W (S * N * N * bytes) :=
  match data with
  | [] => _ <-- alloc ;; mret (s, rl, rr, p)
  | b :: rest =>
      _ <-- alloc ;;
      let p := p ++ [b] in
      if Nat.eqb (List.length p) block_size then
        '(first, second) <-- (_ <-- alloc ;; act_BlkEncrypted (lift (BlkRaw64 rl)) (act_cast k)) ;;
        c <-- (_ <-- alloc ;; lift (sink_xor m p first second)) ;;
        s <-- wr s c ;;
        mem_magma_loop rest [] s rr (of_le (firstn 8 c))
      else mem_magma_loop rest p s rl rr
  end.

Definition mem_magma_CFBSink_write (o : S * N * N * bytes) (data : bytes) : M W (S * N * N * bytes) :=
  let '(s, rl, rr, p) := o in _ <-- alloc ;; mem_magma_loop data p s rl rr.

(** CFBSink::finalize, goost/magma/CFBSink.cpp:65-81: blocks at lines 69-72, copy at line 73. *)
Definition mem_magma_CFBSink_finalize (o : S * N * N * bytes) : M W S :=
  let '(s, rl, rr, p) := o in
  match p with
  | [] => mret s
  | _ :: _ =>
      '(first, second) <-- (_ <-- alloc ;; act_BlkEncrypted (lift (BlkRaw64 rl)) (act_cast k)) ;;
      c <-- (_ <-- alloc ;; lift (sink_xor m p second first)) ;;
      wr s c
  end.

(** CFBSink::write, goost/gost89/CFBSink.cpp:37-62: as above, lines 40, 43, 45-48, 50, 61. *)
Fixpoint mem_gost_loop (data : bytes) (p : bytes) (s : S) (l : N) : M W (S * N * bytes) :=
  match data with
  | [] => _ <-- alloc ;; mret (s, l, p)
  | b :: rest =>
      _ <-- alloc ;;
      let p := p ++ [b] in
      if Nat.eqb (List.length p) block_size then
        '(first, second) <-- (_ <-- alloc ;; act_BlkEncrypted (lift (BlkRaw64 l)) (act_cast k)) ;;
        c <-- (_ <-- alloc ;; lift (sink_xor m p first second)) ;;
        s <-- wr s c ;;
        mem_gost_loop rest [] s (of_le (firstn 8 c))
      else mem_gost_loop rest p s l
  end.

Definition mem_gost_CFBSink_write (o : S * N * bytes) (data : bytes) : M W (S * N * bytes) :=
  let '(s, l, p) := o in _ <-- alloc ;; mem_gost_loop data p s l.

(** CFBSink::finalize, goost/gost89/CFBSink.cpp:64-80: lines 68-71, 72. *)
Definition mem_gost_CFBSink_finalize (o : S * N * bytes) : M W S :=
  let '(s, l, p) := o in
  match p with
  | [] => mret s
  | _ :: _ =>
      '(first, second) <-- (_ <-- alloc ;; act_BlkEncrypted (lift (BlkRaw64 l)) (act_cast k)) ;;
      c <-- (_ <-- alloc ;; lift (sink_xor m p second first)) ;;
      wr s c
  end.
End Sinks.

Section Sources.
Context {W St : Type} (alloc : M W unit) (rd : reader W St) (m : mode) (k : act_key W).

(** ECBSource::read, goost/magma/ECBSource.cpp:35-57: runtime_error at line 38, blocks at
    lines 49-52, copy of p and make_shared at line 56. *)
Definition mem_ECBSource_read (o : St + St) (size : N) : M W (bytes * (St + St)) :=
  match o with
  | inr s => '(p, s) <-- rd s size ;; mret (p, inr s)
  | inl s =>
      if size <? N.of_nat block_size then _ <-- alloc ;; mthrow (RuntimeError "Unaligned ECB decryption")
      else
        '(p, s) <-- rd s 8 ;;
        match p with
        | [] => mret (p, inr s)
        | _ :: _ =>
            buf <-- lift (read8 m p) ;;
            '(first, second) <-- (_ <-- alloc ;; act_BlkDecrypted (lift (BlkRaw_bytes buf)) (act_cast k)) ;;
            p' <-- (_ <-- alloc ;; lift (write8 m p (to_le 4 first ++ to_le 4 second))) ;;
            mret (p', inl s)
        end
  end.

(** CFBSource::read, goost/magma/CFBSource.cpp:35-77: copy at line 38, push_back at line 45,
    blocks at lines 53-56, copy of res and make_shared at line 76. *)
Definition mem_magma_step (size : N) (st : St * bytes * N * N * bytes)
  : M W ((St * bytes * N * N * bytes) + (St * bytes * N * N * bytes)) :=
  let '(s, p, rl, rr, res) := st in
  if len res <? size then
    _ <-- alloc ;;
    let (res, p) := drain p res size in
    if len res =? size then mret (inr (s, p, rl, rr, res))
    else
      '(first, second) <-- (_ <-- alloc ;; act_BlkEncrypted (lift (BlkRaw64 rl)) (act_cast k)) ;;
      '(p, s) <-- rd s 8 ;;
      match p with
      | [] => mret (inr (s, [], rl, rr, res))
      | _ :: _ =>
          let rl := rr in
          rr <-- lift (load_reg m p) ;;
          p <-- lift (source_xor m p first second) ;;
          mret (inl (s, p, rl, rr, res))
      end
  else mret (inr (s, p, rl, rr, res)).

Definition mem_magma_CFBSource_read (o : St * bytes * N * N) (size : N) : M W (bytes * (St * bytes * N * N)) :=
  let '(s, p, rl, rr) := o in
  _ <-- alloc ;;
  '(s, p, rl, rr, res) <-- mloop (N.succ_pos size) (mem_magma_step size) (s, p, rl, rr, []) ;;
  _ <-- alloc ;;
  mret (res, (s, p, rl, rr)).

(** CFBSource::read, goost/gost89/CFBSource.cpp:34-74: lines 37, 43, 51-54, 73. *)
Definition mem_gost_step (size : N) (st : St * bytes * N * bytes)
  : M W ((St * bytes * N * bytes) + (St * bytes * N * bytes)) :=
  let '(s, p, r, res) := st in
  if len res <? size then
    _ <-- alloc ;;
    let (res, p) := drain p res size in
    if len res =? size then mret (inr (s, p, r, res))
    else
      '(first, second) <-- (_ <-- alloc ;; act_BlkEncrypted (lift (BlkRaw64 r)) (act_cast k)) ;;
      '(p, s) <-- rd s 8 ;;
      match p with
      | [] => mret (inr (s, [], r, res))
      | _ :: _ =>
          r <-- lift (load_reg m p) ;;
          p <-- lift (source_xor m p first second) ;;
          mret (inl (s, p, r, res))
      end
  else mret (inr (s, p, r, res)).

Definition mem_gost_CFBSource_read (o : St * bytes * N) (size : N) : M W (bytes * (St * bytes * N)) :=
  let '(s, p, r) := o in
  _ <-- alloc ;;
  '(s, p, r, res) <-- mloop (N.succ_pos size) (mem_gost_step size) (s, p, r, []) ;;
  _ <-- alloc ;;
  mret (res, (s, p, r)).
End Sources.
