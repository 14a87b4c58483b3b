(** Specification of what the texts of the project's tests mean, independent of HarnessModel. *)
From Verif Require Import Base Text SpecText SpecModes Streams SpecStreams.
From Coq Require Import Ascii.
Local Open Scope N_scope.

(** Characters isxdigit and toupper may be asked about. *)
Definition ascii (s : str) : Prop := Forall (fun c => c < 128) s.

(** The digits of a text, the rest being layout. *)
Definition digits_of (s : str) : str :=
  filter (fun c => match digit c with Some _ => true | None => false end) s.

(** A text as a list of numbers of sixteen digits; digits that do not make up sixteen are lost. *)
Definition words16 (d : str) : list N :=
  map number (pieces 16 (firstn (16 * (List.length d / 16)) d)).
Definition text_words (s : str) : list N := words16 (digits_of s).
Definition text_bytes (s : str) : bytes := unblocks8 (text_words s).

(** Lower-case digits: two for a byte, most significant first; [n] for a number. *)
Definition lower_digit (d : N) : N := nth (N.to_nat d) (str_of "0123456789abcdef") 0.
Definition lower_hex (b : bytes) : str :=
  flat_map (fun x => [lower_digit (x / 16); lower_digit (x mod 16)]) b.
Fixpoint number_text (n : nat) (x : N) : str :=
  match n with
  | O => []
  | Datatypes.S k => lower_digit (x / 16 ^ N.of_nat k mod 16) :: number_text k x
  end.

(** The same digit, in upper or lower case. *)
Definition same_digit (a b : N) : Prop := hex_digit a /\ digit a = digit b.

(** A source that gives some of what it has whenever it is asked for something. *)
Definition keeps_giving {W St} (rd : reader W St) (R : St -> W -> bytes -> Prop) : Prop :=
  forall s w data n, R s w data -> 8 <= n ->
    exists k s' w', rd s n w = (Ok (firstn k data, s'), w') /\ (0 < k)%nat /\ R s' w' (skipn k data).

(** Multiples of eight, rounding up. *)
Definition round8 (n : N) : N := 8 * ((n + 7) / 8).
