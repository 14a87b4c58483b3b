(** Property C106: text read under other locales. *)
From Verif Require Import Base Text MagmaModel KuzModel SpecText SpecLocale LocaleModel.
From Verif Require Import Lib TextProofs LocaleProofs.
From Coq Require Import Lia.
Local Open Scope N_scope.

(** Under the "C" locale libstdc++'s loops compute what Text.v says, for every text. *)
Theorem C106_classic (s : str) (i : Z) :
  extract_hex32_in C_locale s = extract_hex32 s /\
  KeyDataString_in C_locale s i = KeyDataString s i.
Proof. exact (conj (extract_classic s) (KeyDataString_classic s i)). Qed.

(** A key of hexadecimal digits is the same key under every locale whose punctuation and
    white space are not hexadecimal digits. *)
Theorem C106_keys (L : cpp_locale) (s : str) (i : Z) :
  ~ hex_digit (decimal_point L) -> (use_grouping L = true -> ~ hex_digit (thousands_sep L)) ->
  (forall c, hex_digit c -> space_in L c = false) -> Forall hex_digit s ->
  KeyDataString_in L s i = KeyDataString s i.
Proof. exact (KeyDataString_hex_same L s i). Qed.

(** So is every other text, if the locale finds neither separators nor points of its own in
    it and has the same idea of its white space. *)
Theorem C106_any_text (L : cpp_locale) (s : str) (i : Z) :
  Forall (fun c => space_in L c = isspace c) s ->
  Forall (fun c => (use_grouping L = true -> c <> thousands_sep L) /\
                   (c = decimal_point L -> ~ hex_digit c /\ ~ In c (str_of "xX+-"))) s ->
  KeyDataString_in L s i = KeyDataString s i.
Proof.
  intros Hs Hp. apply KeyDataString_same; [exact Hs|]. revert Hp. apply Forall_impl.
  intros c [H1 H2]. split.
  - unfold is_sep. destruct (use_grouping L); [|reflexivity]. specialize (H1 eq_refl). cbn [andb]. lia.
  - unfold is_point. intros E. destruct H2 as [H2 H3]; [lia|]. split.
    + pose proof (hexval_digit c) as V. rewrite V. unfold hex_digit in H2.
      destruct (digit c); [exfalso; now apply H2|reflexivity].
    + repeat split; intros ->; apply H3; cbv; auto.
Qed.

(** The claim without these conditions is false: under a locale that groups digits, the
    words of this key are read over their commas. *)
Theorem C106_refuted :
  exists s i, List.length s = 64%nat /\
    KeyDataString_in english s i = Ok 0x123456 /\ KeyDataString s i = Ok 0x12.
Proof.
  exists (str_of "12,34,5612,34,5612,34,5612,34,5612,34,5612,34,5612,34,5612,34,56"), 0%Z.
  split; [reflexivity|]. split; vm_compute; reflexivity.
Qed.

(** In general the separators are left out, wherever they are, except in front and side by
    side; the sizes of the groups do not matter, as nobody looks at the flag. *)
Theorem C106_separators (L : cpp_locale) (key : str) (i : nat) (c : N) (s : str) :
  classic L = false -> use_grouping L = true ->
  ~ hex_digit (decimal_point L) -> decimal_point L <> thousands_sep L ->
  ~ hex_digit (thousands_sep L) -> thousands_sep L <> 120 -> thousands_sep L <> 88 ->
  space_in L c = false ->
  List.length key = 64%nat -> (i < 8)%nat -> firstn 8 (skipn (8 * i) key) = c :: s ->
  hex_digit c -> Forall (fun c => hex_digit c \/ c = thousands_sep L) s ->
  no_two (thousands_sep L) s ->
  KeyDataString_in L key (Z.of_nat i) = Ok (number (without (thousands_sep L) (c :: s))).
Proof. exact (KeyDataString_seps L key i c s). Qed.

(** A word with a separator in front, or with two side by side after a digit, is read as
    0, whatever else there is in it. *)
Theorem C106_misplaced (L : cpp_locale) (key : str) (i : nat) (c : N) (u rest : str) :
  classic L = false -> use_grouping L = true ->
  ~ hex_digit (decimal_point L) -> space_in L c = false ->
  List.length key = 64%nat -> (i < 8)%nat ->
  Forall (fun c => hex_digit c \/ c = thousands_sep L) u ->
  (firstn 8 (skipn (8 * i) key) = c :: rest /\ c = thousands_sep L \/
   firstn 8 (skipn (8 * i) key) = c :: u ++ thousands_sep L :: thousands_sep L :: rest /\ hex_digit c) ->
  KeyDataString_in L key (Z.of_nat i) = Ok 0.
Proof. exact (KeyDataString_misplaced L key i c u rest). Qed.

(** Under no locale is a text of 64 characters rejected. *)
Theorem C106_never_rejected (L : cpp_locale) (s : str) (i : Z) e :
  List.length s = 64%nat -> (0 <= i <= 7)%Z -> KeyDataString_in L s i <> Throw e.
Proof. intros H1 H2. exact (KeyDataString_never_rejects L s i H1 H2 e). Qed.

(** Blocks: only white space could be read otherwise. *)
Theorem C106_blocks (space : N -> bool) (s : str) :
  space 48 = false -> Forall (fun c => space c = isspace c) s ->
  BlkString_in space s = BlkString s /\ KString_in space s = KString s.
Proof. exact (blocks_same space s). Qed.

Example C106_example :
  let key := str_of "ffeeddccbbaa99887766554433221100f0f1f2f3f4f5f6f7f8f9fafbfcfdfeff" in
  Forall hex_digit key /\
  KeyDataString_in english key 0%Z = Ok 0xffeeddcc /\
  KeyDataString_in english key 7%Z = Ok 0xfcfdfeff.
Proof.
  cbv zeta. split; [|split; vm_compute; reflexivity].
  unfold str_of. cbn. repeat (constructor; [discriminate|]). constructor.
Qed.

Example C106_example_separators :
  let key := str_of "0,1,2,3,0,1,2,3,0,1,2,3,0,1,2,3,0,1,2,3,0,1,2,3,0,1,2,3,0,1,2,3," in
  KeyDataString_in english key 3%Z = Ok 0x0123 /\ KeyDataString key 3%Z = Ok 0.
Proof. split; vm_compute; reflexivity. Qed.

Example C106_example_misplaced :
  let key := str_of ",1234567123,,456ffffffffffffffffffffffffffffffffffffffffffffffff" in
  KeyDataString_in english key 0%Z = Ok 0 /\ KeyDataString_in english key 1%Z = Ok 0 /\
  KeyDataString key 1%Z = Ok 0x123 /\ KeyDataString_in english key 2%Z = Ok 0xffffffff.
Proof. repeat split; vm_compute; reflexivity. Qed.

(** The condition on the digits is needed: a user may define a locale with the separator '1'. *)
Example C106_example_needed :
  let L := {| classic := false; use_grouping := true; thousands_sep := 49; decimal_point := 46;
              space_in := isspace |} in
  let key := str_of "2121212121212121212121212121212121212121212121212121212121212121" in
  KeyDataString_in L key 0%Z = Ok 0x2222 /\ KeyDataString key 0%Z = Ok 0x21212121.
Proof. split; vm_compute; reflexivity. Qed.

Print Assumptions C106_classic.
Print Assumptions C106_keys.
Print Assumptions C106_any_text.
Print Assumptions C106_refuted.
Print Assumptions C106_separators.
Print Assumptions C106_misplaced.
Print Assumptions C106_never_rejected.
Print Assumptions C106_blocks.
