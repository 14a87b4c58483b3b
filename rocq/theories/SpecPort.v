(** Vocabulary for machines with another byte order. *)
From Verif Require Import Base.
Local Open Scope N_scope.

(** A 64-bit number with its eight bytes in the opposite order. *)
Definition swap_bytes (x : N) : N := of_le (rev (to_le 8 x)).

(** A 64-bit number with the four bytes of each half in the opposite order. *)
Definition swap_in_halves (x : N) : N :=
  of_le (rev (to_le 4 (x / 2 ^ 32))) * 2 ^ 32 + of_le (rev (to_le 4 (x mod 2 ^ 32))).

(** The number written by up to eight bytes, most significant first; missing ones are
    zero. *)
Definition leading_bytes (b : list N) : N := of_le (rev (b ++ repeat 0 (8 - List.length b))).
