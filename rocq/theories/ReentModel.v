(** Model of the two caching decorators over wrapped objects that call them back.

    CacheModel.v has the same functions over wrapped objects that act on a world of their
    own. Here a wrapped object may also hold a pointer to the decorator around it and ask it
    while it is being asked itself. Nested calls are bounded by the stack. *)
From Verif Require Import Base CacheModel.
Local Open Scope N_scope.

(** What a wrapped object does when it is asked: it ends with an outcome, it reads and
    changes the world, or it calls the decorator with a question and goes on according to
    the answer or the exception. *)
Inductive script (W Q A : Type) : Type :=
| End_ (r : res A)
| Act (f : W -> W) (k : W -> script W Q A)
| Back (q : Q) (k : A + exn -> script W Q A).
Arguments End_ {W Q A}.
Arguments Act {W Q A}.
Arguments Back {W Q A}.

(** Running a script, given the method it can call. *)
Fixpoint run {W Q A C} (back : Q -> M (C * W) A) (s : script W Q A) (cw : C * W) : res A * (C * W) :=
  match s with
  | End_ r => (r, cw)
  | Act f k => run back (k (snd cw)) (fst cw, f (snd cw))
  | Back q k =>
      match back q cw with
      | (Ok v, cw) => run back (k (inl v)) cw
      | (Throw e, cw) => run back (k (inr e)) cw
      | (Undef u, cw) => (Undef u, cw)
      | (OutOfFuel, cw) => (OutOfFuel, cw)
      end
  end.

(** A wrapped object that does not call back. *)
Definition of_M {W Q A} (f : M W A) : script W Q A :=
  Act (fun w => snd (f w)) (fun w => End_ (fst (f w))).

Section KeyCache.
Context {W : Type} (inner : Z -> script W Z N).

(** The loop at goost/magma/KeyCachedData.cpp:19-21: the array, and the flag, may have been
    changed by nested calls when keydata->key(i) returns. *)
Fixpoint kr_load (back : Z -> M (kcache * W) N) (n i : nat) (cw : kcache * W) : res unit * (kcache * W) :=
  match n with
  | O => (Ok tt, cw)
  | S n' =>
      match run back (inner (Z.of_nat i)) cw with
      | (Ok v, (c, w)) => kr_load back n' (S i) (KCache (kc_cached c) (set_nth (kc_key c) i (w32 v)), w)
      | (Throw e, cw) => (Throw e, cw)
      | (Undef u, cw) => (Undef u, cw)
      | (OutOfFuel, cw) => (OutOfFuel, cw)
      end
  end.

(** KeyCachedData::key, goost/magma/KeyCachedData.cpp:16-25, with [d] nested calls left on
    the stack. *)
Fixpoint kr_call (d : nat) (index : Z) (cw : kcache * W) : res N * (kcache * W) :=
  match d with
  | O => (OutOfFuel, cw)
  | S d =>
      if kc_cached (fst cw) then (at_int (kc_key (fst cw)) index, cw)
      else match kr_load (kr_call d) 8 0 cw with
           | (Ok _, (c, w)) => (at_int (kc_key c) index, (KCache true (kc_key c), w))
           | (Throw e, cw) => (Throw e, cw)
           | (Undef u, cw) => (Undef u, cw)
           | (OutOfFuel, cw) => (OutOfFuel, cw)
           end
  end.

(** Calls from outside. *)
Fixpoint kr_calls (d : nat) (is_ : list Z) (cw : kcache * W) : list (res N) * (kcache * W) :=
  match is_ with
  | [] => ([], cw)
  | i :: r => let (x, cw1) := kr_call d i cw in
              let (xs, cw2) := kr_calls d r cw1 in (x :: xs, cw2)
  end.
End KeyCache.

Section BlockCache.
Context {W : Type} (inner : script W unit (N * N)).

(** BlockCache::value, goost/kuznyechik/BlkCached.cpp:18-25, and BlkCached::value, lines
    38-41. *)
Fixpoint br_call (d : nat) (q : unit) (cw : bcache * W) : res (N * N) * (bcache * W) :=
  match d with
  | O => (OutOfFuel, cw)
  | S d =>
      if bc_loaded (fst cw) then (Ok (bc_state (fst cw)), cw)
      else match run (br_call d) inner cw with
           | (Ok v, (_, w)) => (Ok v, (BCache true v, w))
           | (Throw e, cw) => (Throw e, cw)
           | (Undef u, cw) => (Undef u, cw)
           | (OutOfFuel, cw) => (OutOfFuel, cw)
           end
  end.
End BlockCache.
