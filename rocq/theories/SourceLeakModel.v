(** What an observer of the machine sees while a message is read through ECBSource or one of
    the CFBSources: the events of LeakModel.v with the outcomes of the loop conditions and of
    every "if" on the way.

    SourceLeakProofs.v proves that the results are those of Streams.v. Simplifications: the
    key words are already loaded; the underlying source [get] is a function without events of
    its own; where the loop over the four bytes of a half has no defined outcome, all its
    conditions are written down nevertheless. *)
From Verif Require Import Base Text MagmaModel Streams LeakModel StreamLeakModel.
Local Open Scope N_scope.

(** A loop [while (true) { body }] left by [inr], at most [n] turns. *)
Fixpoint tloop {A R : Type} (n : nat) (step : A -> T (A + R)) (a : A) : T R :=
  match n with
  | O => tlift OutOfFuel
  | S n => x <~ step a ;; match x with inl a => tloop n step a | inr r => tret r end
  end.

(** The inner loop of the CFBSource::read methods, goost/magma/CFBSource.cpp:44-47 and
    goost/gost89/CFBSource.cpp:42-45; the second condition is evaluated if the first holds. *)
Fixpoint drain_t (p res : bytes) (size : N) : T (bytes * bytes) :=
  match p with
  | [] => _ <~ test false ;; tret (res, [])
  | b :: p' =>
      _ <~ test true ;;
      let room := len res <? size in
      _ <~ test room ;;
      if room then drain_t p' (res ++ [b]) size else tret (res, p)
  end.

(** The loop at goost/magma/CFBSource.cpp:66-73 and goost/gost89/CFBSource.cpp:63-70 *)
Definition source_xor_t (m : mode) (p : bytes) (first second : N) : T bytes :=
  (source_xor m p first second,
   flat_map (fun i => [Branch (Nat.leb (0 + i) (List.length p)); Branch (Nat.leb (4 + i) (List.length p))])
            [0; 1; 2; 3]%nat).

Section Observed.
Context (kd : keydata) (sb : tsbox) {St : Type} (get : St -> N -> res (bytes * St)) (m : mode).

(** ECBSource::read, goost/magma/ECBSource.cpp:35-57; the answer tells whether the new object
    is an ECBSource again. *)
Definition ECBSource_read_t (s : St) (size : N) : T (bytes * St * bool) :=
  let small := size <? N.of_nat block_size in
  _ <~ test small ;;
  if small then tlift (Throw (RuntimeError "Unaligned ECB decryption"))
  else
    '(p, s) <~ tlift (get s 8) ;;
    let done := Nat.eqb (List.length p) 0 in
    _ <~ test done ;;
    if done then tret (p, s, false)
    else
      buf <~ tlift (read8 m p) ;;
      '(first, second) <~ BlkDecrypted_t kd sb (tlift (BlkRaw_bytes buf)) ;;
      p' <~ tlift (write8 m p (to_le 4 first ++ to_le 4 second)) ;;
      tret (p', s, true).

(** One turn of the loop at goost/magma/CFBSource.cpp:43-74 *)
Definition magma_read_step_t (size : N) (st : St * bytes * N * N * bytes)
  : T ((St * bytes * N * N * bytes) + (St * bytes * N * N * bytes)) :=
  let '(s, p, rl, rr, res) := st in
  let more := len res <? size in
  _ <~ test more ;;
  if more then
    '(res, p) <~ drain_t p res size ;;
    let full := len res =? size in
    _ <~ test full ;;
    if full then tret (inr (s, p, rl, rr, res))
    else
      '(first, second) <~ block_t kd sb rl ;;
      '(p, s) <~ tlift (get s 8) ;;
      let done := Nat.eqb (List.length p) 0 in
      _ <~ test done ;;
      if done then tret (inr (s, [], rl, rr, res))
      else
        let rl := rr in
        rr <~ tlift (load_reg m p) ;;
        p <~ source_xor_t m p first second ;;
        tret (inl (s, p, rl, rr, res))
  else tret (inr (s, p, rl, rr, res)).

(** CFBSource::read, goost/magma/CFBSource.cpp:35-77: the data and the members of the new
    object *)
Definition magma_cfb_read_t (size : N) (s : St) (plain : bytes) (ivl ivr : N) : T (bytes * (St * N * N * bytes)) :=
  '(s, p, rl, rr, res) <~ tloop (Pos.to_nat (N.succ_pos size)) (magma_read_step_t size) (s, plain, ivl, ivr, []) ;;
  tret (res, (s, rl, rr, p)).

(** One turn of the loop at goost/gost89/CFBSource.cpp:41-71 *)
Definition gost_read_step_t (size : N) (st : St * bytes * N * bytes)
  : T ((St * bytes * N * bytes) + (St * bytes * N * bytes)) :=
  let '(s, p, r, res) := st in
  let more := len res <? size in
  _ <~ test more ;;
  if more then
    '(res, p) <~ drain_t p res size ;;
    let full := len res =? size in
    _ <~ test full ;;
    if full then tret (inr (s, p, r, res))
    else
      '(first, second) <~ block_t kd sb r ;;
      '(p, s) <~ tlift (get s 8) ;;
      let done := Nat.eqb (List.length p) 0 in
      _ <~ test done ;;
      if done then tret (inr (s, [], r, res))
      else
        r <~ tlift (load_reg m p) ;;
        p <~ source_xor_t m p first second ;;
        tret (inl (s, p, r, res))
  else tret (inr (s, p, r, res)).

(** CFBSource::read, goost/gost89/CFBSource.cpp:34-74 *)
Definition gost_cfb_read_t (size : N) (s : St) (plain : bytes) (iv : N) : T (bytes * (St * N * bytes)) :=
  '(s, p, r, res) <~ tloop (Pos.to_nat (N.succ_pos size)) (gost_read_step_t size) (s, plain, iv, []) ;;
  tret (res, (s, r, p)).
End Observed.
