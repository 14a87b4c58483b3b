(** Specification of hexadecimal text, independent of the parsers in Text.v. *)
From Verif Require Import Base Text.
From Coq Require Import Ascii.
Local Open Scope N_scope.

Fixpoint index_of (c : N) (l : list N) : option N :=
  match l with
  | [] => None
  | x :: r => if c =? x then Some 0
              else match index_of c r with Some i => Some (i + 1) | None => None end
  end.

(** The value of a character as a hexadecimal digit: its position in one of the
    two alphabets. *)
Definition digit (c : N) : option N :=
  match index_of c (str_of "0123456789abcdef") with
  | Some d => Some d
  | None => index_of c (str_of "0123456789ABCDEF")
  end.

Definition hex_digit (c : N) : Prop := digit c <> None.

Definition digit_value (c : N) : N := match digit c with Some d => d | None => 0 end.

(** The number a digit string denotes, most significant digit first. *)
Fixpoint number (s : list N) : N :=
  match s with
  | [] => 0
  | c :: r => digit_value c * 16 ^ len r + number r
  end.

(** [written bs s]: the string [s] writes the bytes [bs], two digits each. *)
Inductive written : list N -> list N -> Prop :=
| written_nil : written [] []
| written_cons b c d bs s :
    hex_digit c -> hex_digit d -> b = 16 * digit_value c + digit_value d ->
    written bs s -> written (b :: bs) (c :: d :: s).
