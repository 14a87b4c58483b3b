(** Model of the classes the project's own tests are made of (/repo/test): the sources, sinks
    and containers that feed the library, and the texts and matches that judge its results. *)
From Verif Require Import Base Text MagmaModel KuzModel Streams.
Local Open Scope N_scope.

(** ** <cctype> and <iostream> *)

(** The argument of isxdigit and toupper must be EOF (-1) or fit an unsigned char. char is
    signed, so the characters 128..254 are negative and the table behind these functions is
    accessed in front of its beginning; 255 is EOF. *)
Definition ctype_domain (c : N) : bool := (c <? 128) || (c =? 255).

(** isxdigit in the "C" locale *)
Definition isxdigit (c : N) : res bool :=
  if ctype_domain c then Ok (match hexval c with Some _ => true | None => false end)
  else Undef OutOfBounds.

(** toupper in the "C" locale; EOF is returned as it is. *)
Definition toupper (c : N) : res N :=
  if ctype_domain c then Ok (if (97 <=? c) && (c <=? 122) then c - 32 else c)
  else Undef OutOfBounds.

(** The lower-case digit the stream inserters print for 0..15. *)
Definition hex_char (d : N) : N := if d <? 10 then 48 + d else 87 + d.

(** [out << hex << x] without a width: no leading zeros. At most [fuel] digits; 16 are enough
    for the 64-bit types printed here. *)
Fixpoint hex_digits (fuel : nat) (x : N) : str :=
  match fuel with
  | O => []
  | Datatypes.S f => if x <? 16 then [hex_char x] else hex_digits f (x / 16) ++ [hex_char (x mod 16)]
  end.

(** [out << hex << setfill('0') << setw(width) << x] *)
Definition put_hex (width : nat) (x : N) : str :=
  let d := hex_digits 16 x in repeat 48 (width - List.length d) ++ d.

(** ** Hex64Source *)

(** The inner loop of Hex64Source::read, test/Hex64Source.cpp:27-33: the pairs of digits
    [i], [i-1], .., 0 of sixteen. *)
Fixpoint hex64_bytes (i : nat) (hex : str) : res bytes :=
  match i with
  | O => Ok []
  | Datatypes.S j =>
      v <- stoull16 (firstn 2 (skipn (2 * j) hex)) ;;
      r <- hex64_bytes j hex ;;
      Ok (w8 v :: r)
  end.

(** The loop of Hex64Source::read, test/Hex64Source.cpp:22-37; [s] is the string from
    position [p] on. *)
Fixpoint hex64_loop (s : str) (size : N) (out : bytes) (hex : str) : res (bytes * str) :=
  if len out <? size then
    match s with
    | [] => Ok (out, [])
    | c :: r =>
        x <- isxdigit c ;;
        if x : bool then
          let hex := hex ++ [c] in
          if Nat.eqb (List.length hex) 16 then
            g <- hex64_bytes 8 hex ;;
            hex64_loop r size (out ++ g) []
          else hex64_loop r size out hex
        else hex64_loop r size out hex
    end
  else Ok (out, s).

(** Hex64Source::read, test/Hex64Source.cpp:17-39; a source is its string. *)
Definition Hex64Source_read {W} : reader W str := fun s size => lift (hex64_loop s size [] []).

(** ** Texts *)

(** The loops that print bytes, test/SourceText.cpp:31-33 and test/TestSink.cpp:38-40 *)
Definition print_bytes (b : bytes) : str := flat_map (put_hex 2) b.

(** numeric_limits<size_t>::max() *)
Definition size_max : N := 2 ^ 64 - 1.

(** The body of the loop of SourceText::asString, test/SourceText.cpp:25-34 *)
Definition source_text_step {W St} (rd : reader W St) (st : St * str) : M W ((St * str) + str) :=
  let (s, out) := st in
  '(b, s') <-- rd s size_max ;;
  match b with
  | [] => mret (inr out)
  | _ :: _ => mret (inl (s', out ++ print_bytes b))
  end.

(** SourceText::asString, test/SourceText.cpp:21-36 *)
Definition SourceText {W St} (rd : reader W St) (fuel : positive) (s : St) : M W str :=
  mloop fuel (source_text_step rd) (s, []).

(** TestSink::asHexString, test/TestSink.cpp:35-42; a TestSink is its bytes. *)
Definition TestSink_asHexString (data : bytes) : str := print_bytes data.

(** TestSinkText::asString, test/TestSinkText.cpp:22-27, for a sink of type [O] whose finalize
    returns a TestSink. (With any other sink the dynamic_pointer_cast gives a null pointer.) *)
Definition TestSinkText {W St O} (rd : reader W St) (write : O -> bytes -> M W O)
    (finalize : O -> M W bytes) (sink : O) (data : St) : M W str :=
  '(b, _) <-- rd data size_max ;;
  o <-- write sink b ;;
  t <-- finalize o ;;
  mret (TestSink_asHexString t).

(** magma ReprBlock::asString, test/magma/ReprBlock.cpp:20-26 *)
Definition ReprBlock (b : block) : res str :=
  '(first, second) <- b ;; Ok (put_hex 8 second ++ put_hex 8 first).

(** kuznyechik ReprBlock::asString, test/kuznyechik/ReprBlock.cpp:20-26 *)
Definition KReprBlock (b : kblock) : res str :=
  '(first, second) <- b ;; Ok (put_hex 16 second ++ put_hex 16 first).

(** htonl on a little-endian host *)
Definition htonl (x : N) : N := of_le (rev (to_le 4 x)).

(** The loop of ReprKeyData::asString from [i] on, test/magma/ReprKeyData.cpp:24-26 *)
Fixpoint repr_words (kd : keydata) (n : nat) (i : Z) : res str :=
  match n with
  | O => Ok []
  | Datatypes.S n' =>
      v <- kd i ;;
      r <- repr_words kd n' (i + 1)%Z ;;
      Ok (put_hex 8 (htonl v) ++ r)
  end.

(** ReprKeyData::asString, test/magma/ReprKeyData.cpp:21-29 *)
Definition ReprKeyData (kd : keydata) : res str := repr_words kd 8 0.

(** ReprTransformed::asString, test/magma/ReprTransformed.cpp:20-26 *)
Definition ReprTransformed (sb : sbox) (value : N) : res str :=
  v <- sb value ;; Ok (put_hex 8 v).

(** EncryptionBaseText::asString, test/magma/EncryptionBaseTest.cpp:25-34 *)
Definition EncryptionBaseText (k : key) (blk : N) : res str :=
  v <- EncryptionBase_transform k blk ;; Ok (put_hex 16 v).

(** ** Matches *)

(** std::equal(text.begin(), text.end(), origin.begin(), toupper(a) == toupper(b)),
    test/HexMatch.cpp:35-42: the second range has no end, what is behind [origin] is read.
    On the real machine that is the 0 behind every std::string first. *)
Fixpoint equal3 (m : mode) (text origin : str) : res bool :=
  match text with
  | [] => Ok true
  | a :: t =>
      match origin with
      | [] =>
          match m with
          | ISO => Undef OutOfBounds
          | X86 _ => x <- toupper a ;; if x =? 0 then Undef OutOfBounds else Ok false
          end
      | b :: o =>
          x <- toupper a ;;
          y <- toupper b ;;
          if x =? y then equal3 m t o else Ok false
      end
  end.

(** copy_if(.., isxdigit), test/HexMatch.cpp:25-30 *)
Fixpoint only_xdigits (s : str) : res str :=
  match s with
  | [] => Ok []
  | c :: r => x <- isxdigit c ;; d <- only_xdigits r ;; Ok (if x : bool then c :: d else d)
  end.

(** HexMatch::match, test/HexMatch.cpp:21-46: does the test pass? *)
Definition HexMatch (m : mode) (hex origin : str) : res bool :=
  text <- only_xdigits hex ;; equal3 m text origin.

(** SourceMatch::match, test/SourceMatch.cpp:21-40, against a source *)
Definition SourceMatch {W St} (m : mode) (rd : reader W St) (fuel : positive) (source : St) (origin : str)
  : M W bool :=
  text <-- SourceText rd fuel source ;; lift (equal3 m text origin).

(** TestBlockEqual, test/magma/TestBlockEqual.cpp:15-31, test/kuznyechik/TestBlockEqual.cpp:17-33:
    EqualMatch of the 2out library compares two strings for equality. *)
Definition same_text (a b : str) : bool := if list_eq_dec N.eq_dec a b then true else false.
Definition TestBlockEqual (a b : block) : res bool :=
  y <- ReprBlock b ;; x <- ReprBlock a ;; Ok (same_text x y).
Definition KTestBlockEqual (a b : kblock) : res bool :=
  y <- KReprBlock b ;; x <- KReprBlock a ;; Ok (same_text x y).

(** ** HexContainer *)

(** The loop of HexContainer::key, test/magma/HexContainer.cpp:27-31: [in >> c] skips white
    space and leaves [c] alone when nothing is left. *)
Fixpoint container_bytes (n : nat) (s : str) : res bytes :=
  match n with
  | O => Ok []
  | Datatypes.S n' =>
      match skip_ws s with
      | [] => Undef Uninit
      | c0 :: s1 =>
          match skip_ws s1 with
          | [] => Undef Uninit
          | c1 :: s2 =>
              v <- stoull16 [c0; c1] ;;
              r <- container_bytes n' s2 ;;
              Ok (w8 v :: r)
          end
      end
  end.

(** HexContainer::key, test/magma/HexContainer.cpp:19-33 *)
Definition HexContainer_key (hex : str) : res bytes :=
  if Nat.eqb (List.length hex) 64 then container_bytes 32 hex
  else Throw (RuntimeError "Wrong key size").

(** HexContainer::sbox, test/magma/HexContainer.cpp:40-55 *)
Definition HexContainer_sbox : bytes :=
  [0x6C; 0xCB; 0x57; 0x18; 0x84; 0x83; 0xDF; 0x7E;
   0x26; 0x25; 0xF5; 0xE2; 0x32; 0x18; 0x6A; 0xD5;
   0x9A; 0xD2; 0x98; 0x06; 0xA5; 0x4F; 0x21; 0x59;
   0x5B; 0xFA; 0xC6; 0x81; 0xC9; 0x6D; 0xAD; 0x3C;
   0x1E; 0x7E; 0xB0; 0x4F; 0xE8; 0x01; 0x79; 0xF4;
   0x4D; 0xA7; 0x83; 0xAB; 0x77; 0x54; 0x1E; 0x60;
   0xB0; 0x3C; 0x4B; 0x9D; 0xD3; 0xE9; 0x34; 0xCA;
   0x0F; 0x96; 0xE2; 0xB3; 0xF1; 0xB0; 0x0C; 0x27].

(** HexContainer, test/magma/HexContainer.cpp; mask() is 32 zeros (lines 35-38). *)
Definition HexContainer (hex : str) : container :=
  Container (HexContainer_key hex) (Ok (repeat 0 32)) (Ok HexContainer_sbox).
