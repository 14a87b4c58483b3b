(** The project's own tests: C76, C77, C78. *)
From Verif Require Import Base Text MagmaModel KuzModel Streams HarnessModel Lib SpecText SpecMagma
  SpecModes SpecStreams SpecHarness TextProofs StreamFacts TestVectors HarnessProofs.
Local Open Scope N_scope.

(** ** C76: a matching test passes if and only if the output is the expected one: refuted *)

(** When HexMatch lets an output pass: when the output begins with the expected digits. *)
Theorem C76_exact (m : mode) (hex output : str) : ascii hex -> ascii output ->
  HexMatch m hex output = Ok true <->
  exists o1 o2, output = o1 ++ o2 /\ Forall2 same_digit (digits_of hex) o1.
Proof.
  intros Hh Ho. unfold HexMatch. rewrite only_xdigits_spec by exact Hh.
  now apply equal3_true; [apply digits_of_hex|].
Qed.

(** Anything may follow. *)
Theorem C76_refuted (m : mode) (hex output more : str) : ascii hex ->
  HexMatch m hex output = Ok true -> HexMatch m hex (output ++ more) = Ok true.
Proof. intros Hh. unfold HexMatch. rewrite only_xdigits_spec by exact Hh. apply equal3_more. Qed.

(** An output that ends too early is compared with what lies behind it. *)
Theorem C76_refuted_short (m : mode) (hex output rest : str) (c : N) : ascii hex ->
  digits_of hex = output ++ c :: rest ->
  HexMatch m hex output = match m with ISO => Undef OutOfBounds | X86 _ => Ok false end.
Proof.
  intros Hh E. unfold HexMatch. rewrite only_xdigits_spec by exact Hh. cbn [bind]. rewrite E.
  pose proof (digits_of_hex hex) as D. rewrite E in D. apply Forall_app in D. destruct D as [D1 D2].
  apply equal3_short; [now apply same_digit_refl|now inversion D2].
Qed.

(** The claim for outputs of the right length. *)
Theorem C76_partial (m : mode) (hex output : str) : ascii hex -> ascii output ->
  List.length output = List.length (digits_of hex) ->
  exists b, HexMatch m hex output = Ok b /\ (b = true <-> Forall2 same_digit (digits_of hex) output).
Proof.
  intros Hh Ho L. unfold HexMatch. rewrite only_xdigits_spec by exact Hh.
  now apply equal3_same_length; [apply digits_of_hex| |].
Qed.

(** SourceMatch, for an expected text and printed bytes: the bytes begin with the expected ones. *)
Theorem C76_source_exact {W} (m : mode) (fuel : positive) (expected : str) (b : bytes) (w : W) :
  ascii expected -> (List.length expected < Pos.to_nat fuel)%nat -> Forall u8 b ->
  fst (SourceMatch m Hex64Source_read fuel expected (lower_hex b) w) = Ok true <->
  exists more, b = text_bytes expected ++ more.
Proof.
  intros Ht Hf Hb. destruct (hex64_match m fuel expected (lower_hex b) w Ht Hf) as (w' & ->).
  apply equal3_bytes; [apply text_bytes_whole|exact Hb].
Qed.

(** An expected text of less than sixteen digits lets every output pass. *)
Theorem C76_source_refuted {W} (m : mode) (fuel : positive) (expected output : str) (w : W) :
  ascii expected -> (List.length expected < Pos.to_nat fuel)%nat ->
  (List.length (digits_of expected) < 16)%nat ->
  fst (SourceMatch m Hex64Source_read fuel expected output w) = Ok true.
Proof.
  intros Ht Hf Hs. destruct (hex64_match m fuel expected output w Ht Hf) as (w' & ->).
  unfold text_bytes, text_words. now rewrite words16_short by exact Hs.
Qed.

(** test/magma/CFBSinkTest.cpp with any key, registers, plaintext and expected text: it passes
    if and only if the ciphertext begins with the expected bytes. *)
Theorem C76_cfb_test {W} (m : mode) (fuel : positive) (k : key) (E : N -> N) (ivl ivr : N)
    (plain expected : str) (w : W) :
  enciphers k E -> ivl < 2 ^ 64 -> ivr < 2 ^ 64 -> ascii plain -> len plain < 2 ^ 64 - 1 ->
  ascii expected -> (List.length expected < Pos.to_nat fuel)%nat ->
  fst ((out <-- TestSinkText Hex64Source_read (magma_CFBSink_write TestSink_write m)
                 (magma_CFBSink_finalize TestSink_write m) (magma_CFBSink_init [] k ivl ivr) plain ;;
        SourceMatch m Hex64Source_read fuel expected out) w) = Ok true <->
  exists more, unblocks8 (cfb_encrypt E [ivl; ivr] (text_words plain)) = text_bytes expected ++ more.
Proof.
  intros HE H1 H2 Hp Hl He Hf. unfold mbind. rewrite (sink_text_magma m k E) by assumption.
  now apply C76_source_exact; [| |apply ByteProofs.unblocks8_u8].
Qed.

(** ** C77: the texts show exactly what was given and received *)

(** Hex64Source: the groups of sixteen digits as little-endian bytes, cut at multiples of
    eight bytes whatever is asked for. *)
Theorem C77_hex64 {W} (t : str) (sizes : list N) (w : W) : ascii t ->
  exists t', reads Hex64Source_read t sizes w = (Ok (served (text_bytes t) (map round8 sizes), t'), w).
Proof. apply hex64_reads. Qed.

(** It may be used under the library's sources. *)
Theorem C77_hex64_source {W} :
  block_source (@Hex64Source_read W) (fun t _ data => ascii t /\ data = text_bytes t).
Proof. apply hex64_blocks. Qed.

(** Text outside ASCII is not a text it can read. *)
Theorem C77_hex64_ascii {W} (c : N) (t : str) (size : N) (w : W) : 128 <= c < 255 -> 0 < size ->
  fst (Hex64Source_read (c :: t) size w) = Undef OutOfBounds.
Proof.
  intros Hc Hs. unfold Hex64Source_read, lift, fst. cbn [hex64_loop].
  change (len (@nil N)) with 0. rewrite (proj2 (N.ltb_lt _ _) Hs). unfold isxdigit, ctype_domain.
  replace (c <? 128) with false by lia. replace (c =? 255) with false by lia. reflexivity.
Qed.

(** SourceText prints every source that keeps giving. *)
Theorem C77_source_text {W St} (rd : reader W St) (R : St -> W -> bytes -> Prop) (fuel : positive)
    (s : St) (w : W) (data : bytes) :
  keeps_giving rd R -> R s w data -> (List.length data < Pos.to_nat fuel)%nat -> Forall u8 data ->
  exists w', SourceText rd fuel s w = (Ok (lower_hex data), w').
Proof. apply source_text. Qed.

(** Different bytes are printed differently. *)
Theorem C77_distinct (a b : bytes) : Forall u8 a -> Forall u8 b -> lower_hex a = lower_hex b -> a = b.
Proof. apply lower_hex_inj. Qed.

(** The encrypting sinks ... *)
Theorem C77_magma_sink {W} (m : mode) (k : key) (E : N -> N) (ivl ivr : N) (t : str) (w : W) :
  enciphers k E -> ivl < 2 ^ 64 -> ivr < 2 ^ 64 -> ascii t -> len t < 2 ^ 64 - 1 ->
  TestSinkText Hex64Source_read (magma_CFBSink_write TestSink_write m)
    (magma_CFBSink_finalize TestSink_write m) (magma_CFBSink_init [] k ivl ivr) t w =
  (Ok (lower_hex (unblocks8 (cfb_encrypt E [ivl; ivr] (text_words t)))), w).
Proof. apply sink_text_magma. Qed.

Theorem C77_gost_sink {W} (m : mode) (k : key) (E : N -> N) (iv : N) (t : str) (w : W) :
  enciphers k E -> iv < 2 ^ 64 -> ascii t -> len t < 2 ^ 64 - 1 ->
  TestSinkText Hex64Source_read (gost_CFBSink_write TestSink_write m)
    (gost_CFBSink_finalize TestSink_write m) (gost_CFBSink_init [] k iv) t w =
  (Ok (lower_hex (unblocks8 (cfb_encrypt E [iv] (text_words t)))), w).
Proof. apply sink_text_gost. Qed.

Theorem C77_ecb_sink {W} (k : key) (E : N -> N) (t : str) (w : W) :
  transforms k E -> ascii t -> len t < 2 ^ 64 - 1 ->
  TestSinkText Hex64Source_read (ECBSink_write TestSink_write) (@ECBSink_finalize W bytes) (ECBSink [] k) t w =
  (Ok (lower_hex (unblocks8 (ecb E (text_words t)))), w).
Proof. apply sink_text_ecb. Qed.

(** ... and the decrypting sources. *)
Theorem C77_magma_source {W} (m : mode) (k : key) (E : N -> N) (ivl ivr : N) (t : str) (w : W) (fuel : positive) :
  enciphers k E -> ivl < 2 ^ 64 -> ivr < 2 ^ 64 -> ascii t -> (List.length t < Pos.to_nat fuel)%nat ->
  exists w', SourceText (magma_CFBSource_read Hex64Source_read m) fuel (magma_CFBSource_init t k ivl ivr) w =
  (Ok (lower_hex (unblocks8 (cfb_decrypt E [ivl; ivr] (text_words t)))), w').
Proof. apply source_text_magma. Qed.

Theorem C77_gost_source {W} (m : mode) (k : key) (E : N -> N) (iv : N) (t : str) (w : W) (fuel : positive) :
  enciphers k E -> iv < 2 ^ 64 -> ascii t -> (List.length t < Pos.to_nat fuel)%nat ->
  exists w', SourceText (gost_CFBSource_read Hex64Source_read m) fuel (gost_CFBSource_init t k iv) w =
  (Ok (lower_hex (unblocks8 (cfb_decrypt E [iv] (text_words t)))), w').
Proof. apply source_text_gost. Qed.

Theorem C77_ecb_source {W} (m : mode) (k : key) (D : N -> N) (t : str) (w : W) (fuel : positive) :
  deciphers k D -> ascii t -> (List.length t < Pos.to_nat fuel)%nat ->
  exists w', SourceText (ECBSource_read Hex64Source_read m) fuel (ECBSource t k) w =
  (Ok (lower_hex (unblocks8 (ecb D (text_words t)))), w').
Proof. apply source_text_ecb. Qed.

(** Blocks: sixteen and thirty-two digits; two blocks have one text if and only if they are equal. *)
Theorem C77_magma_block (lo hi : N) : lo < 2 ^ 32 -> hi < 2 ^ 32 ->
  ReprBlock (Ok (lo, hi)) = Ok (number_text 16 (hi * 2 ^ 32 + lo)).
Proof. apply repr_block. Qed.

Theorem C77_kuznyechik_block (lo hi : N) : lo < 2 ^ 64 -> hi < 2 ^ 64 ->
  KReprBlock (Ok (lo, hi)) = Ok (number_text 32 (hi * 2 ^ 64 + lo)).
Proof. apply repr_kblock. Qed.

Theorem C77_magma_block_equal (a b a' b' : N) : a < 2 ^ 32 -> b < 2 ^ 32 -> a' < 2 ^ 32 -> b' < 2 ^ 32 ->
  TestBlockEqual (Ok (a, b)) (Ok (a', b')) = Ok true <-> (a, b) = (a', b').
Proof. apply block_equal. Qed.

Theorem C77_kuznyechik_block_equal (a b a' b' : N) : a < 2 ^ 64 -> b < 2 ^ 64 -> a' < 2 ^ 64 -> b' < 2 ^ 64 ->
  KTestBlockEqual (Ok (a, b)) (Ok (a', b')) = Ok true <-> (a, b) = (a', b').
Proof. apply kblock_equal. Qed.

(** Keys: the bytes of the eight words as they lie in memory. *)
Theorem C77_native_key (ws : list N) : List.length ws = 8%nat -> Forall u32 ws ->
  ReprKeyData (KeyDataNative ws) = Ok (lower_hex (flat_map (to_le 4) ws)).
Proof. apply repr_keydata_native. Qed.

Theorem C77_string_key (s : str) : Forall hex_digit s -> List.length s = 64%nat ->
  ReprKeyData (KeyDataString s) =
  Ok (lower_hex (flat_map (fun i => to_le 4 (key_word (number s) i)) (seq 0 8))).
Proof. apply repr_keydata_string. Qed.

(** ** C78: HexContainer takes 64 digits and nothing else: refuted *)

Theorem C78_digits_partial (hex : str) : Forall hex_digit hex -> List.length hex = 64%nat ->
  exists bs, HexContainer_key hex = Ok bs /\ written bs hex /\ List.length bs = 32%nat.
Proof. apply hex_container_key. Qed.

Theorem C78_key_partial (m : mode) (hex : str) : Forall hex_digit hex -> List.length hex = 64%nat ->
  exists k, makeKey m (HexContainer hex) = Ok k /\
    enciphers k (Magma_E (number hex)) /\ deciphers k (Magma_D (number hex)).
Proof. apply hex_container. Qed.

Theorem C78_size_partial (hex : str) : List.length hex <> 64%nat ->
  HexContainer_key hex = Throw (RuntimeError "Wrong key size").
Proof.
  intros H. unfold HexContainer_key. destruct (Nat.eqb_spec (List.length hex) 64); [contradiction|reflexivity].
Qed.

(** Digits with white space between them: uninitialised characters are read. *)
Theorem C78_refuted_space (hex : str) : List.length hex = 64%nat ->
  Forall (fun c => hex_digit c \/ isspace c = true) hex -> Exists (fun c => isspace c = true) hex ->
  HexContainer_key hex = Undef Uninit.
Proof.
  intros L F E. unfold HexContainer_key. rewrite L. apply (container_space 32 hex).
  - apply Forall_forall. intros c Hc. apply filter_In in Hc. destruct Hc as [Hc Hs].
    rewrite Forall_forall in F. destruct (F c Hc) as [H|H]; [exact H|]. now rewrite H in Hs.
  - change (2 * 32)%nat with 64%nat. rewrite <- L. clear L F. unfold printing.
    assert (G : forall s : str, (List.length (filter (fun c => negb (isspace c)) s) <= List.length s)%nat).
    { induction s as [|c s IH]; [apply le_n|]. cbn [filter]. destruct (isspace c); cbn [negb List.length]; lia. }
    induction E as [c s H|c s _ IH]; cbn [filter].
    + rewrite H. cbn [negb List.length]. specialize (G s). lia.
    + destruct (isspace c); cbn [negb List.length]; [specialize (G s); lia|lia].
Qed.

(** Signs, prefixes and trailing garbage are taken for digits. *)
Theorem C78_refuted_garbage : exists hex bs, List.length hex = 64%nat /\ ~ Forall hex_digit hex /\
  HexContainer_key hex = Ok bs /\ firstn 4 bs = [0xff; 0x05; 0x00; 0x0a].
Proof.
  exists (str_of "-1+50xaz" ++ repeat 48 56). eexists. split; [reflexivity|]. split.
  - intros H. inversion H as [|? ? A _]; subst. apply A. reflexivity.
  - split; [vm_compute; reflexivity|reflexivity].
Qed.

(** ** Examples *)

Definition gost_text : str := str_of "92def06b3c130a59 db54c704f8189d20 4a98fb2e67a8024c 8912409b17b57e41".
Definition cfb_text : str := str_of "db37e0e266903c830d46644c1f9a089c24bdd2035315d38bbcc0321421075505".

(** test/Hex64SourceTest.cpp, and how a source may give more than asked for *)
Example C77_example_hex64 :
  fst (SourceText Hex64Source_read 9 (str_of "92def06b3c130a59db54c704f8189d20") tt) =
  Ok (str_of "590a133c6bf0de92209d18f804c754db") /\
  match fst (reads Hex64Source_read (str_of "92def06b 3c130a59 db54c704f8189d20 123") [1; 0; 9; 8] tt) with
  | Ok (bs, _) => bs = [to_le 8 0x92def06b3c130a59; []; to_le 8 0xdb54c704f8189d20; []] | _ => False end.
Proof. split; vm_compute; reflexivity. Qed.

(** test/magma/CFBSinkTest.cpp, then with the last 64-bit block forgotten, then with one digit
    missing in the only block expected *)
Example C76_example :
  let out := TestSinkText Hex64Source_read (magma_CFBSink_write TestSink_write ISO)
     (magma_CFBSink_finalize TestSink_write ISO)
     (magma_CFBSink_init [] (KLazy mkey) 0x1234567890abcdef 0x234567890abcdef1) gost_text in
  let test expected := fst ((o <-- out ;; SourceMatch ISO Hex64Source_read 100 expected o) tt) in
  test cfb_text = Ok true /\ test (firstn 48 cfb_text) = Ok true /\ test (str_of "123456789abcdef") = Ok true /\
  test (str_of "db37e0e266903c84") = Ok false.
Proof. vm_compute. repeat split. Qed.

Example C76_example_hex :
  HexMatch ISO (str_of "db 37") (str_of "DB37e0") = Ok true /\ HexMatch ISO (str_of "db 37") (str_of "db") = Undef OutOfBounds /\
  HexMatch X (str_of "db 37") (str_of "db") = Ok false /\ HexMatch ISO (str_of "db 37") (str_of "dc37") = Ok false.
Proof. vm_compute. repeat split. Qed.

(** test/magma/CFBSourceTest.cpp *)
Example C77_example_source :
  fst ((o <-- SourceText (magma_CFBSource_read Hex64Source_read ISO) 100
          (magma_CFBSource_init cfb_text (KLazy mkey) 0x1234567890abcdef 0x234567890abcdef1) ;;
        SourceMatch ISO Hex64Source_read 100 gost_text o) tt) = Ok true.
Proof. vm_compute. reflexivity. Qed.

(** test/magma/KeyDataStringTest.cpp, test/magma/EncryptionBaseTest.cpp *)
Example C77_example_key :
  ReprKeyData (KeyDataString magma_key_str) =
  Ok (str_of "ccddeeff8899aabb4455667700112233f3f2f1f0f7f6f5f4fbfaf9f8fffefdfc") /\
  EncryptionBaseText (KLazy mkey) 0xfedcba9876543210 = Ok (str_of "4ee901e5c2d8ca3d") /\
  ReprBlock (Ok (0x3d, 0x1)) = Ok (str_of "000000010000003d").
Proof. vm_compute. repeat split. Qed.

(** test/magma/ECBSourceTest.cpp, and the key with a blank in front *)
Example C78_example :
  match makeKey ISO (HexContainer magma_key_str) with
  | Ok k => fst (SourceText (ECBSource_read Hex64Source_read ISO) 100
               (ECBSource (str_of "2b073f0494f372a0de70e715d3556e48") k) tt) =
            Ok (lower_hex (text_bytes (firstn 33 gost_text)))
  | _ => False
  end /\
  HexContainer_key (32 :: firstn 63 magma_key_str) = Undef Uninit.
Proof. vm_compute. split; reflexivity. Qed.

Print Assumptions C76_exact.
Print Assumptions C76_refuted.
Print Assumptions C76_refuted_short.
Print Assumptions C76_partial.
Print Assumptions C76_source_exact.
Print Assumptions C76_source_refuted.
Print Assumptions C76_cfb_test.
Print Assumptions C77_hex64.
Print Assumptions C77_hex64_source.
Print Assumptions C77_hex64_ascii.
Print Assumptions C77_source_text.
Print Assumptions C77_distinct.
Print Assumptions C77_magma_sink.
Print Assumptions C77_gost_sink.
Print Assumptions C77_ecb_sink.
Print Assumptions C77_magma_source.
Print Assumptions C77_gost_source.
Print Assumptions C77_ecb_source.
Print Assumptions C77_magma_block.
Print Assumptions C77_kuznyechik_block.
Print Assumptions C77_magma_block_equal.
Print Assumptions C77_kuznyechik_block_equal.
Print Assumptions C77_native_key.
Print Assumptions C77_string_key.
Print Assumptions C78_digits_partial.
Print Assumptions C78_key_partial.
Print Assumptions C78_size_partial.
Print Assumptions C78_refuted_space.
Print Assumptions C78_refuted_garbage.
