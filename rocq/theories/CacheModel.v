(** Model of the two caching decorators with their mutable state, over wrapped
    objects that may themselves be stateful or throw. *)
From Verif Require Import Base.
Local Open Scope N_scope.

Section KeyCache.
(** The wrapped KeyData: key(int) may act on a world [W] and fail. *)
Context {W : Type} (inner : Z -> M W N).

(** KeyCachedData::CachedData, goost/magma/KeyCachedData.h:18-21; made by
    make_unique<CachedData>(), which zero-initialises it (KeyCachedData.cpp:12). *)
Record kcache : Type := KCache { kc_cached : bool; kc_key : list N }.
Definition kcache_init : kcache := KCache false (repeat 0 8).

(** key[i] = x for i in range *)
Fixpoint set_nth (l : list N) (i : nat) (x : N) : list N :=
  match l, i with
  | [], _ => []
  | _ :: r, O => x :: r
  | a :: r, S j => a :: set_nth r j x
  end.

(** The loop at KeyCachedData.cpp:19-21: [n] iterations starting with index [i].
    Words stored before an exception stay in the array. *)
Fixpoint kc_load (n i : nat) (key : list N) (w : W) : res unit * (list N * W) :=
  match n with
  | O => (Ok tt, (key, w))
  | S n' =>
      match inner (Z.of_nat i) w with
      | (Ok v, w') => kc_load n' (S i) (set_nth key i (w32 v)) w'
      | (Throw e, w') => (Throw e, (key, w'))
      | (Undef u, w') => (Undef u, (key, w'))
      | (OutOfFuel, w') => (OutOfFuel, (key, w'))
      end
  end.

(** KeyCachedData::key, goost/magma/KeyCachedData.cpp:16-25 *)
Definition kc_call (index : Z) : M (kcache * W) N := fun cw =>
  let (c, w) := cw in
  if kc_cached c then (at_int (kc_key c) index, (c, w))
  else match kc_load (List.length (kc_key c)) 0 (kc_key c) w with
       | (Ok _, (key, w')) => (at_int key index, (KCache true key, w'))
       | (Throw e, (key, w')) => (Throw e, (KCache false key, w'))
       | (Undef u, (key, w')) => (Undef u, (KCache false key, w'))
       | (OutOfFuel, (key, w')) => (OutOfFuel, (KCache false key, w'))
       end.

(** A history of calls of one object; the caller survives exceptions. *)
Fixpoint kc_calls (is_ : list Z) (cw : kcache * W) : list (res N) * (kcache * W) :=
  match is_ with
  | [] => ([], cw)
  | i :: r => let (x, cw1) := kc_call i cw in
              let (xs, cw2) := kc_calls r cw1 in (x :: xs, cw2)
  end.
End KeyCache.

Section BlockCache.
(** The wrapped Block: value() may act on a world [W] and fail. *)
Context {W : Type} (inner : M W (N * N)).

(** BlkCached::BlockCache, goost/kuznyechik/BlkCached.cpp:11-31 *)
Record bcache : Type := BCache { bc_loaded : bool; bc_state : N * N }.
Definition bcache_init : bcache := BCache false (0, 0).

(** BlockCache::value, goost/kuznyechik/BlkCached.cpp:18-25, and BlkCached::value,
    lines 38-41 *)
Definition bc_call : M (bcache * W) (N * N) := fun cw =>
  let (c, w) := cw in
  if bc_loaded c then (Ok (bc_state c), (c, w))
  else match inner w with
       | (Ok v, w') => (Ok v, (BCache true v, w'))
       | (Throw e, w') => (Throw e, (BCache false (bc_state c), w'))
       | (Undef u, w') => (Undef u, (BCache false (bc_state c), w'))
       | (OutOfFuel, w') => (OutOfFuel, (BCache false (bc_state c), w'))
       end.

Fixpoint bc_calls (n : nat) (cw : bcache * W) : list (res (N * N)) * (bcache * W) :=
  match n with
  | O => ([], cw)
  | S k => let (x, cw1) := bc_call cw in
           let (xs, cw2) := bc_calls k cw1 in (x :: xs, cw2)
  end.
End BlockCache.
