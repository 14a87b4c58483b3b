(** Specification: how the C++ library reads a hexadecimal number at the beginning of a text
    (strtoull with base 16, operator>> with hex). *)
From Verif Require Import Base Text SpecText.
Local Open Scope N_scope.

Definition space (c : N) : Prop := c = 32 \/ 9 <= c <= 13.

(** The text is white space, a sign or none, "0x", "0X" or nothing, at least one digit, and
    something that does not begin with a digit. "0x" is not read as the digit 0 if a digit
    follows. [reads s neg v]: the sign is a minus, the digits write [v]. *)
Inductive reads : str -> bool -> N -> Prop :=
| Reads w sign prefix digits rest neg :
    Forall space w ->
    (sign = [] /\ neg = false) \/ (sign = [43] /\ neg = false) \/ (sign = [45] /\ neg = true) ->
    prefix = [] \/ prefix = [48; 120] \/ prefix = [48; 88] ->
    digits <> [] -> Forall hex_digit digits ->
    (forall c r, rest = c :: r -> ~ hex_digit c) ->
    (prefix = [] -> digits = [48] ->
     forall x c r, rest = x :: c :: r -> x = 120 \/ x = 88 -> ~ hex_digit c) ->
    reads (w ++ sign ++ prefix ++ digits ++ rest) neg (number digits).

(** The unsigned number of [bits] bits that the text stands for; a minus sign negates. *)
Definition means (bits : N) (s : str) (n : N) : Prop :=
  exists neg v, reads s neg v /\ n = if neg : bool then (2 ^ bits - v) mod 2 ^ bits else v.
