(** Character strings and the standard-library number parsers the code calls:
    [std::stoull(s, &pos, 16)] and [istringstream >> hex >> uint32_t]. *)
From Verif Require Import Base.
From Coq Require Import Ascii.
Local Open Scope N_scope.

(** A std::string is the list of its character codes (0..255). *)
Definition str : Type := list N.

Definition str_of (s : string) : str := map N_of_ascii (list_ascii_of_string s).

(** isspace in the "C" locale: space, \t \n \v \f \r. *)
Definition isspace (c : N) : bool := (c =? 32) || ((9 <=? c) && (c <=? 13)).

(** Value of a hexadecimal digit. *)
Definition hexval (c : N) : option N :=
  if (48 <=? c) && (c <=? 57) then Some (c - 48)            (* '0'..'9' *)
  else if (97 <=? c) && (c <=? 102) then Some (c - 87)      (* 'a'..'f' *)
  else if (65 <=? c) && (c <=? 70) then Some (c - 55)       (* 'A'..'F' *)
  else None.

Fixpoint skip_ws (s : str) : str :=
  match s with
  | c :: r => if isspace c then skip_ws r else s
  | [] => []
  end.

(** Optional sign: (negative?, rest). *)
Definition take_sign (s : str) : bool * str :=
  match s with
  | c :: r => if c =? 45 then (true, r) else if c =? 43 then (false, r) else (false, s)
  | [] => (false, [])
  end.

(** The longest run of hex digits, accumulated; [None] if there is none. *)
Fixpoint scan_digits (acc : option N) (s : str) : option N :=
  match s with
  | c :: r =>
      match hexval c with
      | Some d => scan_digits (Some (match acc with Some a => a * 16 + d | None => d end)) r
      | None => acc
      end
  | [] => acc
  end.

(** Optional "0x"/"0X" prefix followed by digits. When the prefix is not followed
    by a digit the number is the "0" of the prefix (strtoull), the same value 0
    that operator>> stores on failure. *)
Definition scan_hex (s : str) : option N :=
  match s with
  | z :: x :: r =>
      if (z =? 48) && ((x =? 120) || (x =? 88))
      then match scan_digits None r with Some v => Some v | None => Some 0 end
      else scan_digits None s
  | _ => scan_digits None s
  end.

(** std::stoull(s, &pos, 16): skips white space, accepts a sign and a 0x prefix,
    ignores what follows the digits, throws invalid_argument without digits and
    out_of_range when the magnitude exceeds 64 bits; a minus sign negates modulo
    2^64 (strtoull). *)
Definition stoull16 (s : str) : res N :=
  let (neg, r) := take_sign (skip_ws s) in
  match scan_hex r with
  | None => Throw InvalidArgument
  | Some v => if 2 ^ 64 <=? v then Throw OutOfRange
              else Ok (if neg then w64 (2 ^ 64 - v) else v)
  end.

(** [uint32_t value; istringstream(s) >> hex >> value;] followed by a read of
    [value] (goost/magma/KeyDataString.cpp:27-30). If only white space is left the
    extraction does not happen and [value] stays uninitialised; if no digits follow,
    0 is stored and the error flag (never tested) is set; too large values store
    2^32-1 (libstdc++ num_get::_M_extract_int). *)
Definition extract_hex32 (s : str) : res N :=
  match skip_ws s with
  | [] => Undef Uninit
  | r0 =>
      let (neg, r) := take_sign r0 in
      match scan_hex r with
      | None => Ok 0
      | Some v => if 2 ^ 32 <=? v then Ok (2 ^ 32 - 1)
                  else Ok (if neg then w32 (2 ^ 32 - v) else v)
      end
  end.

(** std::string(s, pos, n): throws when pos is behind the end. *)
Definition substr (s : str) (pos n : N) : res str :=
  if len s <? pos then Throw OutOfRange
  else Ok (firstn (N.to_nat n) (skipn (N.to_nat pos) s)).

(** [while (value.size() < n) value.insert(0, 1, '0');] *)
Definition pad_left (s : str) (n : nat) : str := repeat 48 (n - List.length s) ++ s.
