(** Specification: what messages and keys that are related in a simple way have to do
    with each other. *)
From Coq Require Import List NArith.
Import ListNotations.
Local Open Scope N_scope.

(** Element by element exclusive or, up to the end of the shorter list. *)
Definition xor2 (a b : list N) : list N := map (fun p => N.lxor (fst p) (snd p)) (combine a b).

(** The key 0x80000000 repeated eight times, and the block in which both halves have
    only their top bits set. *)
Definition top_key : N :=
  0x8000000080000000800000008000000080000000800000008000000080000000.
Definition top_block : N := 0x8000000080000000.

(** Both halves of a block with their top bits exchanged for the other value. *)
Definition flip_tops (p : N * N) : N * N := (N.lxor (fst p) (2 ^ 31), N.lxor (snd p) (2 ^ 31)).

(** The bytes of [top_block], least significant first. *)
Definition top_bytes : list N := [0; 0; 0; 0x80; 0; 0; 0; 0x80].
