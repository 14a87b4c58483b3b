(** Further vocabulary for the stream properties of PropMore.v. *)
From Verif Require Import Base MagmaModel Streams SpecModes.
Local Open Scope N_scope.

(** A source that gives blocks as long as it has data and then throws [e] instead of
    signalling the end. *)
Definition breaks {W St} (rd : reader W St) (R : St -> W -> bytes -> Prop) (e : exn) : Prop :=
  forall s w data, R s w data ->
    (data <> [] -> exists s' w', rd s 8 w = (Ok (firstn 8 data, s'), w') /\ R s' w' (skipn 8 data)) /\
    (data = [] -> exists w', rd s 8 w = (Throw e, w')).

(** A source that never returns more than it was asked for. *)
Definition modest {W St} (rd : reader W St) : Prop :=
  forall s n w b s' w', rd s n w = (Ok (b, s'), w') -> len b <= n.

(** Byte i of a 64-bit keystream block, and of the block with its halves exchanged. *)
Definition ks_byte (e : N) (i : nat) : N := (e / 2 ^ (8 * N.of_nat i)) mod 2 ^ 8.
Definition swap_halves (e : N) : N := e mod 2 ^ 32 * 2 ^ 32 + e / 2 ^ 32.

(** A byte string with a keystream block laid over it. *)
Definition overlay (t : bytes) (e : N) : bytes :=
  map (fun ib => N.lxor (snd ib) (ks_byte e (fst ib))) (combine (seq 0 (List.length t)) t).
