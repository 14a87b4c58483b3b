(** Reading hexadecimal text in a program that has set another locale. A string stream
    takes the global locale of C++ when it is made (goost/magma/KeyDataString.cpp:28), and
    std::stoull the locale of C (goost/magma/BlkString.cpp:23,
    goost/kuznyechik/BlkString.cpp:23). The rest of the library does not ask for it.

    [num_get] is num_get<char>::_M_extract_int of libstdc++ (bits/locale_facets.tcc) for
    base 16 and uint32_t, statement by statement as far as the stored value is concerned;
    the error flags, and with them the check of the sizes of groups, are left out since
    KeyDataString::key never tests them. ctype<char>::widen is taken to be the identity. *)
From Verif Require Import Base Text MagmaModel KuzModel.
Local Open Scope N_scope.

Record cpp_locale := {
  classic : bool;            (* !_M_allocated: the "C" locale, which has a loop of its own *)
  use_grouping : bool;       (* numpunct::grouping() is not empty *)
  thousands_sep : N;
  decimal_point : N;
  space_in : N -> bool       (* ctype::is(space, c) *)
}.

Definition is_sep (L : cpp_locale) (c : N) : bool := use_grouping L && (c =? thousands_sep L).
Definition is_point (L : cpp_locale) (c : N) : bool := c =? decimal_point L.

(** The sign; __testeof is the empty rest. *)
Definition get_sign (L : cpp_locale) (s : str) : bool * str :=
  match s with
  | [] => (false, [])
  | c :: r =>
      let negative := c =? 45 in
      if (negative || (c =? 43)) && negb (is_sep L c) && negb (is_point L c)
      then (negative, r) else (negative, s)
  end.

(** The leading zero and the prefix: (__found_zero, __sep_pos, rest). *)
Fixpoint get_prefix (L : cpp_locale) (found_zero : bool) (sep_pos : N) (s : str) : bool * N * str :=
  match s with
  | [] => (found_zero, sep_pos, [])
  | c :: r =>
      if is_sep L c || is_point L c then (found_zero, sep_pos, s)
      else if (c =? 48) && negb found_zero then get_prefix L true (sep_pos + 1) r
      else if found_zero && ((c =? 120) || (c =? 88)) then (false, 0, r)
      else (found_zero, sep_pos, s)
  end.

Record gathered := {
  result : N; overflow : bool; sep_pos : N; found_grouping : bool; testfail : bool
}.

(** One digit, in uint32_t: __max = 2^32 - 1, __smax = __max / 16. *)
Definition add_digit (d : N) (st : gathered) : gathered :=
  if (2 ^ 32 - 1) / 16 <? result st
  then {| result := result st; overflow := true; sep_pos := sep_pos st;
          found_grouping := found_grouping st; testfail := testfail st |}
  else
    let r := w32 (result st * 16) in
    {| result := w32 (r + d); overflow := overflow st || (2 ^ 32 - 1 - d <? r);
       sep_pos := sep_pos st + 1;
       found_grouping := found_grouping st; testfail := testfail st |}.

(** The two loops that gather the digits. *)
Fixpoint gather_classic (s : str) (st : gathered) : gathered :=
  match s with
  | [] => st
  | c :: r => match hexval c with
              | None => st
              | Some d => gather_classic r (add_digit d st)
              end
  end.

Fixpoint gather (L : cpp_locale) (s : str) (st : gathered) : gathered :=
  match s with
  | [] => st
  | c :: r =>
      if is_sep L c then
        if sep_pos st =? 0
        then {| result := result st; overflow := overflow st; sep_pos := sep_pos st;
                found_grouping := found_grouping st; testfail := true |}
        else gather L r {| result := result st; overflow := overflow st; sep_pos := 0;
                           found_grouping := true; testfail := testfail st |}
      else if is_point L c then st
      else match hexval c with
           | None => st
           | Some d => gather L r (add_digit d st)
           end
  end.

Definition num_get (L : cpp_locale) (s : str) : N :=
  let '(negative, s1) := get_sign L s in
  let '(found_zero, pos, s2) := get_prefix L false 0 s1 in
  let st0 := {| result := 0; overflow := false; sep_pos := pos;
                found_grouping := false; testfail := false |} in
  let st := if classic L then gather_classic s2 st0 else gather L s2 st0 in
  if ((sep_pos st =? 0) && negb found_zero && negb (found_grouping st)) || testfail st then 0
  else if overflow st then 2 ^ 32 - 1
  else if negative then w32 (2 ^ 32 - result st) else result st.

Fixpoint skip_space (space : N -> bool) (s : str) : str :=
  match s with
  | c :: r => if space c then skip_space space r else s
  | [] => []
  end.

(** [uint32_t value; istringstream(s) >> hex >> value;]: the sentry skips white space; at
    the end of the text the extraction does not happen. *)
Definition extract_hex32_in (L : cpp_locale) (s : str) : res N :=
  match skip_space (space_in L) s with
  | [] => Undef Uninit
  | r => Ok (num_get L r)
  end.

(** KeyDataString::key, goost/magma/KeyDataString.cpp:18-31 *)
Definition KeyDataString_in (L : cpp_locale) (key_data : str) : keydata := fun index =>
  if negb (len key_data =? 64) then Throw (RuntimeError "Wrong key size")
  else if ((index <? 0) || (7 <? index))%Z then Throw (RuntimeError "Wrong key index")
  else s <- substr key_data (Z.to_N (index * 8)) 8 ;;
       extract_hex32_in L s.

(** std::stoull: strtoull asks the locale of C what white space is, and nothing else. *)
Definition stoull16_in (space : N -> bool) (s : str) : res N :=
  let (neg, r) := take_sign (skip_space space s) in
  match scan_hex r with
  | None => Throw InvalidArgument
  | Some v => if 2 ^ 64 <=? v then Throw OutOfRange
              else Ok (if neg then w64 (2 ^ 64 - v) else v)
  end.

(** BlkString::value, goost/magma/BlkString.cpp:16-24 *)
Definition BlkString_in (space : N -> bool) (s : str) : block :=
  let value := pad_left s (block_size * 2) in
  s1 <- substr value 8 8 ;;
  v1 <- stoull16_in space s1 ;;
  s2 <- substr value 0 8 ;;
  v2 <- stoull16_in space s2 ;;
  Ok (w32 v1, w32 v2).

(** BlkString::value, goost/kuznyechik/BlkString.cpp:16-24 *)
Definition KString_in (space : N -> bool) (s : str) : kblock :=
  let value := pad_left s 32 in
  s1 <- substr value 16 16 ;;
  v1 <- stoull16_in space s1 ;;
  s2 <- substr value 0 16 ;;
  v2 <- stoull16_in space s2 ;;
  Ok (v1, v2).

(** std::locale::classic(), and a locale as of English with groups of three digits. *)
Definition C_locale : cpp_locale :=
  {| classic := true; use_grouping := false; thousands_sep := 44; decimal_point := 46;
     space_in := isspace |}.
Definition english : cpp_locale :=
  {| classic := false; use_grouping := true; thousands_sep := 44; decimal_point := 46;
     space_in := isspace |}.
