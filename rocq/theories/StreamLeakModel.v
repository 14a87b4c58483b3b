(** What an observer of the machine sees while a message goes through a stream: the events of
    LeakModel.v for the sinks and for gost89::DataImit, with the outcomes of the loop
    conditions and of every "if" on the way.

    StreamLeakProofs.v proves that the results are those of Streams.v. Simplifications: as
    in LeakModel.v the key words are already loaded; the underlying sink [put] is a function
    without events of its own; loops with constant bounds (the XOR of a block, the rounds)
    and the growth of a vector within push_back give no events, both follow from lengths. *)
From Verif Require Import Base Text MagmaModel Streams LeakModel.
Local Open Scope N_scope.

(** A condition that has been evaluated. *)
Definition test (b : bool) : T unit := (Ok tt, [Branch b]).

Section Observed.
Context (kd : keydata) (sb : tsbox).
Let tr := lazy_transform_t kd sb.

(** EncryptionBase::transform, goost/magma/EncryptionBase.cpp:17-59 *)
Definition EncryptionBase_t (block : N) : T N :=
  let a := N.land block 0xffffffff in
  let b := N.land (N.shiftr block 32) 0xffffffff in
  (* lines 22-29 *)
  t <~ tr a 0 ;; let b := N.lxor b t in
  t <~ tr b 1 ;; let a := N.lxor a t in
  t <~ tr a 2 ;; let b := N.lxor b t in
  t <~ tr b 3 ;; let a := N.lxor a t in
  t <~ tr a 4 ;; let b := N.lxor b t in
  t <~ tr b 5 ;; let a := N.lxor a t in
  t <~ tr a 6 ;; let b := N.lxor b t in
  t <~ tr b 7 ;; let a := N.lxor a t in
  (* lines 31-38 *)
  t <~ tr a 0 ;; let b := N.lxor b t in
  t <~ tr b 1 ;; let a := N.lxor a t in
  t <~ tr a 2 ;; let b := N.lxor b t in
  t <~ tr b 3 ;; let a := N.lxor a t in
  t <~ tr a 4 ;; let b := N.lxor b t in
  t <~ tr b 5 ;; let a := N.lxor a t in
  t <~ tr a 6 ;; let b := N.lxor b t in
  t <~ tr b 7 ;; let a := N.lxor a t in
  (* lines 40-47 *)
  t <~ tr a 0 ;; let b := N.lxor b t in
  t <~ tr b 1 ;; let a := N.lxor a t in
  t <~ tr a 2 ;; let b := N.lxor b t in
  t <~ tr b 3 ;; let a := N.lxor a t in
  t <~ tr a 4 ;; let b := N.lxor b t in
  t <~ tr b 5 ;; let a := N.lxor a t in
  t <~ tr a 6 ;; let b := N.lxor b t in
  t <~ tr b 7 ;; let a := N.lxor a t in
  (* lines 49-56 *)
  t <~ tr a 7 ;; let b := N.lxor b t in
  t <~ tr b 6 ;; let a := N.lxor a t in
  t <~ tr a 5 ;; let b := N.lxor b t in
  t <~ tr b 4 ;; let a := N.lxor a t in
  t <~ tr a 3 ;; let b := N.lxor b t in
  t <~ tr b 2 ;; let a := N.lxor a t in
  t <~ tr a 1 ;; let b := N.lxor b t in
  t <~ tr b 0 ;; let a := N.lxor a t in
  tret (N.lor (w64 (N.shiftl a 32)) b).

(** The object that the sinks and sources ask, goost/magma/BlkEncrypted.cpp:14-38 *)
Definition block_t (x : N) : T (N * N) := BlkEncrypted_t kd sb (tlift (BlkRaw64 x)).

Section Sinks.
Context {S : Type} (put : S -> bytes -> res S) (m : mode).

(** The loop of ECBSink::write, goost/magma/ECBSink.cpp:26-38 *)
Fixpoint ecb_loop_t (data p : bytes) (s : S) : T (bytes * S) :=
  match data with
  | [] => _ <~ test false ;; tret (p, s)
  | b :: rest =>
      _ <~ test true ;;
      let p := p ++ [b] in
      let full := Nat.eqb (List.length p) 8 in
      _ <~ test full ;;
      if full then
        e <~ EncryptionBase_t (of_le p) ;;
        s <~ tlift (put s (to_le 8 e)) ;;
        ecb_loop_t rest [] s
      else ecb_loop_t rest p s
  end.

(** ECBSink::write, goost/magma/ECBSink.cpp:22-43: the sink behind the new object *)
Definition ECBSink_write_t (s : S) (data : bytes) : T S :=
  '(p, s) <~ ecb_loop_t data [] s ;;
  let rest := negb (Nat.eqb (List.length p) 0) in
  _ <~ test rest ;;
  if rest then tlift (Throw (RuntimeError "Unaligned ECB encryption")) else tret s.

(** CFBSink::write, goost/magma/CFBSink.cpp:36-63: the members of the new object *)
Fixpoint magma_cfb_write_t (data p : bytes) (s : S) (rl rr : N) : T (S * N * N * bytes) :=
  match data with
  | [] => _ <~ test false ;; tret (s, rl, rr, p)
  | b :: rest =>
      _ <~ test true ;;
      let p := p ++ [b] in
      let full := Nat.eqb (List.length p) block_size in
      _ <~ test full ;;
      if full then
        '(first, second) <~ block_t rl ;;
        c <~ tlift (sink_xor m p first second) ;;
        s <~ tlift (put s c) ;;
        magma_cfb_write_t rest [] s rr (of_le (firstn 8 c))
      else magma_cfb_write_t rest p s rl rr
  end.

(** CFBSink::write, goost/gost89/CFBSink.cpp:37-62 *)
Fixpoint gost_cfb_write_t (data p : bytes) (s : S) (l : N) : T (S * N * bytes) :=
  match data with
  | [] => _ <~ test false ;; tret (s, l, p)
  | b :: rest =>
      _ <~ test true ;;
      let p := p ++ [b] in
      let full := Nat.eqb (List.length p) block_size in
      _ <~ test full ;;
      if full then
        '(first, second) <~ block_t l ;;
        c <~ tlift (sink_xor m p first second) ;;
        s <~ tlift (put s c) ;;
        gost_cfb_write_t rest [] s (of_le (firstn 8 c))
      else gost_cfb_write_t rest p s l
  end.

(** CFBSink::finalize, goost/magma/CFBSink.cpp:65-81 ([l] is ivl) and
    goost/gost89/CFBSink.cpp:64-80 ([l] is iv) *)
Definition cfb_finalize_t (plain : bytes) (s : S) (l : N) : T S :=
  let rest := negb (Nat.eqb (List.length plain) 0) in
  _ <~ test rest ;;
  if rest then
    '(first, second) <~ block_t l ;;
    c <~ tlift (sink_xor m plain second first) ;;
    tlift (put s c)
  else tret s.
End Sinks.

(** DataImit::value, goost/gost89/DataImit.cpp:18-38. Lines 22-27, the two loops that pad: *)
Definition dataimit_pad_t (data : bytes) : T bytes :=
  let p := data ++ repeat 0 (16 - List.length data) in
  (Ok (dataimit_pad data),
   repeat (Branch true) (16 - List.length data) ++ [Branch false] ++
   repeat (Branch true) ((8 - List.length p mod 8) mod 8) ++ [Branch false]).

(** Lines 29-36 *)
Fixpoint dataimit_loop_t (fuel : nat) (state data : bytes) : T bytes :=
  match data with
  | [] => _ <~ test false ;; tret state
  | _ :: _ =>
      match fuel with
      | O => tlift OutOfFuel
      | Datatypes.S f =>
          _ <~ test true ;;
          '(state, rest) <~ tlift (xor_bytes state data) ;;
          buf <~ tlift (read8 ISO state) ;;
          '(first, second) <~ BlkForwarded_t kd sb (BlkForwarded_t kd sb (tlift (BlkRaw_bytes buf))) ;;
          state <~ tlift (write8 ISO state (to_le 4 first ++ to_le 4 second)) ;;
          dataimit_loop_t f state rest
      end
  end.

Definition DataImit_t (data : bytes) : T bytes :=
  pdata <~ dataimit_pad_t data ;;
  dataimit_loop_t (List.length pdata) (repeat 0 8) pdata.
End Observed.
