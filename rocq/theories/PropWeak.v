(** Properties C81-C85: related messages, related keys, keys with repeated words, and the
    MAC of what a source decrypts. *)
From Verif Require Import Base Text MagmaModel Streams SpecText SpecMagma SpecModes SpecStreams SpecMac SpecWeak
  StreamProofs StreamFacts SinkProofs WeakProofs TestVectors.
From Coq Require Import Lia.
Local Open Scope N_scope.

(** ** C81 *)

(** Two messages under one key and one iv. The ciphertexts show up to which block the
    messages agree, and from there on the exclusive or of the messages themselves, over as
    many blocks as the register has. *)
Theorem C81_magma {W S} (wr : writer W S) m (k : key) (E : N -> N) (ivl ivr : N) (s1 s2 : S)
    (chunks1 chunks2 : list bytes) (w1 w2 : W) (n : nat) :
  enciphers k E -> ivl < 2 ^ 64 -> ivr < 2 ^ 64 -> never_fails wr ->
  let d1 := List.concat chunks1 in let d2 := List.concat chunks2 in
  whole d1 -> whole d2 ->
  exists o1 o2 w1' w2' log1 log2,
    writes (magma_CFBSink_write (logged wr) m) (magma_CFBSink_init s1 k ivl ivr) chunks1 (w1, []) = (Ok o1, (w1', log1)) /\
    writes (magma_CFBSink_write (logged wr) m) (magma_CFBSink_init s2 k ivl ivr) chunks2 (w2, []) = (Ok o2, (w2', log2)) /\
    let c1 := List.concat log1 in let c2 := List.concat log2 in
    (firstn (8 * n) c1 = firstn (8 * n) c2 <-> firstn (8 * n) d1 = firstn (8 * n) d2) /\
    (firstn (8 * n) d1 = firstn (8 * n) d2 ->
     xor2 (firstn 16 (skipn (8 * n) c1)) (firstn 16 (skipn (8 * n) c2)) =
     xor2 (firstn 16 (skipn (8 * n) d1)) (firstn 16 (skipn (8 * n) d2))).
Proof.
  intros HE H1 H2 Hn d1 d2 Hw1 Hw2.
  destruct (magma_sink_blocks wr m k E ivl ivr s1 chunks1 w1 HE H1 H2 Hw1 Hn) as (o1 & _ & w1' & log1 & A1 & _ & -> & _).
  destruct (magma_sink_blocks wr m k E ivl ivr s2 chunks2 w2 HE H1 H2 Hw2 Hn) as (o2 & _ & w2' & log2 & A2 & _ & -> & _).
  eexists _, _, _, _, _, _. split; [exact A1|]. split; [exact A2|]. rewrite !concat_map_to_le.
  apply (cfb_same_start_bytes E [ivl; ivr]); try assumption; [exact (enciphers_lt _ _ HE)|now apply reg2_ok|discriminate].
Qed.

Theorem C81_gost {W S} (wr : writer W S) m (k : key) (E : N -> N) (iv : N) (s1 s2 : S)
    (chunks1 chunks2 : list bytes) (w1 w2 : W) (n : nat) :
  enciphers k E -> iv < 2 ^ 64 -> never_fails wr ->
  let d1 := List.concat chunks1 in let d2 := List.concat chunks2 in
  whole d1 -> whole d2 ->
  exists o1 o2 w1' w2' log1 log2,
    writes (gost_CFBSink_write (logged wr) m) (gost_CFBSink_init s1 k iv) chunks1 (w1, []) = (Ok o1, (w1', log1)) /\
    writes (gost_CFBSink_write (logged wr) m) (gost_CFBSink_init s2 k iv) chunks2 (w2, []) = (Ok o2, (w2', log2)) /\
    let c1 := List.concat log1 in let c2 := List.concat log2 in
    (firstn (8 * n) c1 = firstn (8 * n) c2 <-> firstn (8 * n) d1 = firstn (8 * n) d2) /\
    (firstn (8 * n) d1 = firstn (8 * n) d2 ->
     xor2 (firstn 8 (skipn (8 * n) c1)) (firstn 8 (skipn (8 * n) c2)) =
     xor2 (firstn 8 (skipn (8 * n) d1)) (firstn 8 (skipn (8 * n) d2))).
Proof.
  intros HE H1 Hn d1 d2 Hw1 Hw2.
  destruct (gost_sink_blocks wr m k E iv s1 chunks1 w1 HE H1 Hw1 Hn) as (o1 & _ & w1' & log1 & A1 & _ & -> & _).
  destruct (gost_sink_blocks wr m k E iv s2 chunks2 w2 HE H1 Hw2 Hn) as (o2 & _ & w2' & log2 & A2 & _ & -> & _).
  eexists _, _, _, _, _, _. split; [exact A1|]. split; [exact A2|]. rewrite !concat_map_to_le.
  apply (cfb_same_start_bytes E [iv]); try assumption; [exact (enciphers_lt _ _ HE)|now apply reg1_ok|discriminate].
Qed.

(** In the third block of two messages that differ from the second block on, one sees the
    exclusive or under magma::CFBSink and no longer under gost89::CFBSink. *)
Example C81_example :
  let d1 := le64s P4 in let d2 := le64s [nth 0 P4 0; 1; 2; 3] in
  let mc d := List.concat (snd (snd (writes (magma_CFBSink_write (logged TestSink_write) ISO)
                (magma_CFBSink_init [] (KLazy mkey) 0x1234567890abcdef 0x234567890abcdef1) [d] (tt, [])))) in
  let gc d := List.concat (snd (snd (writes (gost_CFBSink_write (logged TestSink_write) ISO)
                (gost_CFBSink_init [] (KLazy mkey) 0x1234567890abcdef) [d] (tt, [])))) in
  firstn 8 (mc d1) = firstn 8 (mc d2) /\ firstn 16 (mc d1) <> firstn 16 (mc d2) /\
  xor2 (firstn 16 (skipn 8 (mc d1))) (firstn 16 (skipn 8 (mc d2))) = xor2 (firstn 16 (skipn 8 d1)) (firstn 16 (skipn 8 d2)) /\
  xor2 (firstn 8 (skipn 8 (gc d1))) (firstn 8 (skipn 8 (gc d2))) = xor2 (firstn 8 (skipn 8 d1)) (firstn 8 (skipn 8 d2)) /\
  xor2 (firstn 16 (skipn 8 (gc d1))) (firstn 16 (skipn 8 (gc d2))) <> xor2 (firstn 16 (skipn 8 d1)) (firstn 16 (skipn 8 d2)).
Proof. vm_compute. repeat split; congruence. Qed.

(** ** C82 *)

(** The MACs (of GOST 28147-89) of two messages give that of a third. From a message [m] with MAC [t] and a message [b ++ r] with first block
    [b] one gets a third message with the MAC of the second. *)
Theorem C82_extension (k : lazykey) (f : nat -> N -> N) (m t b r : bytes) :
  round_functions k f -> Forall u8 m -> Forall u8 (b ++ r) ->
  (List.length m mod 8 = 0)%nat -> (16 <= List.length m)%nat ->
  List.length b = 8%nat -> (List.length r mod 8 = 0)%nat -> r <> [] ->
  DataImit m (Some k) = Ok t ->
  DataImit (m ++ xor2 t b ++ r) (Some k) = DataImit (b ++ r) (Some k).
Proof. apply dataimit_extend. Qed.

Example C82_example :
  let m := le64s P4 in let b := firstn 8 m in let r := skipn 8 m in
  let t := match DataImit m (Some mkey) with Ok t => t | _ => [] end in
  List.length t = 8%nat /\ List.length (m ++ xor2 t b ++ r) = 64%nat /\
  DataImit (m ++ xor2 t b ++ r) (Some mkey) = Ok t.
Proof. vm_compute. repeat split. Qed.

(** ** C83 *)

(** With key words that read the same backwards - eight equal words, for instance -
    encrypting twice is the identity, with any substitution. *)
Theorem C83_involution (k : lazykey) (b c : N * N) :
  (forall i, (0 <= i <= 7)%Z -> key_data k (7 - i)%Z = key_data k i) ->
  BlkEncrypted (Ok b) (Some k) = Ok c -> BlkEncrypted (Ok c) (Some k) = Ok b.
Proof. apply palindrome_involution. Qed.

(** Then the two directions are the same computation, failures included. *)
Theorem C83_same_directions (k : lazykey) (b : block) :
  (forall i, (0 <= i <= 7)%Z -> key_data k (7 - i)%Z = key_data k i) ->
  BlkEncrypted b (Some k) = BlkDecrypted b (Some k).
Proof. apply palindrome_directions. Qed.

(** Such keys can be written down: 2^128 of the keys of 64 hexadecimal digits. *)
Theorem C83_hex_keys (s : str) (b c : N * N) :
  List.length s = 64%nat -> Forall hex_digit s ->
  (forall i, (i < 8)%nat -> key_word (number s) (7 - i) = key_word (number s) i) ->
  BlkEncrypted (Ok b) (Some (LazyKey_string s)) = Ok c -> BlkEncrypted (Ok c) (Some (LazyKey_string s)) = Ok b.
Proof. intros Hl Hs P. apply palindrome_involution. now apply string_palindrome. Qed.

Example C83_example :
  let s := str_of "0123456789abcdef0f1e2d3cffffffffffffffff0f1e2d3c89abcdef01234567" in
  (forall i, (i < 8)%nat -> key_word (number s) (7 - i) = key_word (number s) i) /\
  exists c, BlkEncrypted (Ok (1, 2)) (Some (LazyKey_string s)) = Ok c /\ c <> (1, 2) /\
            BlkEncrypted (Ok c) (Some (LazyKey_string s)) = Ok (1, 2).
Proof.
  split.
  - intros i Hi. destruct i as [|[|[|[|[|[|[|[|i]]]]]]]]; try reflexivity. lia.
  - eexists. split; [vm_compute; reflexivity|]. split; [discriminate|vm_compute; reflexivity].
Qed.

(** ** C84 *)

(** Flip the top bit of every key word and of both halves of a block: the top bits of the halves of the result
    flip and nothing else changes, whatever the substitution is. *)
Theorem C84_top_bits (k k' : lazykey) (x : N * N) :
  (forall v, key_sbox k' v = key_sbox k v) ->
  (forall i, (0 <= i <= 7)%Z ->
     exists w, w < 2 ^ 32 /\ key_data k i = Ok w /\ key_data k' i = Ok (N.lxor w (2 ^ 31))) ->
  fst x < 2 ^ 32 -> snd x < 2 ^ 32 ->
  BlkEncrypted (Ok (flip_tops x)) (Some k') = (y <- BlkEncrypted (Ok x) (Some k) ;; Ok (flip_tops y)) /\
  BlkDecrypted (Ok (flip_tops x)) (Some k') = (y <- BlkDecrypted (Ok x) (Some k) ;; Ok (flip_tops y)).
Proof. intros Hs Hd H1 H2. apply encrypted_flip; split; assumption. Qed.

(** With keys written as hexadecimal digits. *)
Theorem C84_hex_keys (s s' : str) (x : N * N) :
  List.length s = 64%nat -> Forall hex_digit s -> List.length s' = 64%nat -> Forall hex_digit s' ->
  number s' = N.lxor (number s) top_key -> fst x < 2 ^ 32 -> snd x < 2 ^ 32 ->
  BlkEncrypted (Ok (flip_tops x)) (Some (LazyKey_string s')) =
  (y <- BlkEncrypted (Ok x) (Some (LazyKey_string s)) ;; Ok (flip_tops y)).
Proof. intros Hl Hs Hl' Hs' E H1 H2. apply encrypted_flip; [now apply string_flipped|now split]. Qed.

(** The same happens to the MAC of GOST 28147-89 when the first block of the message is
    changed so. *)
Theorem C84_mac (k k' : lazykey) (f f' : nat -> N -> N) (b r t : bytes) :
  (forall v, key_sbox k' v = key_sbox k v) ->
  (forall i, (0 <= i <= 7)%Z ->
     exists w, w < 2 ^ 32 /\ key_data k i = Ok w /\ key_data k' i = Ok (N.lxor w (2 ^ 31))) ->
  round_functions k f -> round_functions k' f' -> Forall u8 (b ++ r) -> List.length b = 8%nat ->
  DataImit (b ++ r) (Some k) = Ok t ->
  DataImit (xor2 b top_bytes ++ r) (Some k') = Ok (xor2 t top_bytes).
Proof. intros Hs Hd. apply (dataimit_flip k k' f f'). now split. Qed.

Example C84_example :
  let s := str_of "0123456789abcdef0f1e2d3cffffffffffffffff0f1e2d3c89abcdef01234567" in
  let s' := str_of "8123456709abcdef8f1e2d3c7fffffff7fffffff8f1e2d3c09abcdef81234567" in
  number s' = N.lxor (number s) top_key /\
  (exists y, BlkEncrypted (Ok (1, 2)) (Some (LazyKey_string s)) = Ok y /\
             BlkEncrypted (Ok (0x80000001, 0x80000002)) (Some (LazyKey_string s')) = Ok (flip_tops y)) /\
  exists t, DataImit [1; 2; 3; 4; 5; 6; 7; 8; 9] (Some (LazyKey_string s)) = Ok t /\
            DataImit [1; 2; 3; 0x84; 5; 6; 7; 0x88; 9] (Some (LazyKey_string s')) = Ok (xor2 t top_bytes).
Proof.
  split; [vm_compute; reflexivity|]. split; eexists; (split; [vm_compute; reflexivity|vm_compute; reflexivity]).
Qed.

(** ** C85 *)

(** magma::Imit over any tower of decrypting sources, over any source of the ciphertext
    that the tower of sinks has made of the data, gives what it gives over a source of the
    data (see C21 for what that is). *)
Theorem C85_mac_of_decrypted {W St W2 St2} (rd : reader W St) (R : St -> W -> bytes -> Prop)
    (rd2 : reader W2 St2) (R2 : St2 -> W2 -> bytes -> Prop) (m mi : mode) (xs : list known_layer)
    (k : lazykey) (E : N -> N) (data : bytes) (src : St) (w : W) (src2 : St2) (w2 : W2) (fuel : positive) :
  enciphers (KLazy k) E -> Forall known_ok xs -> block_source rd R -> delivers8 rd2 R2 ->
  whole data -> data <> [] -> (List.length data / 8 + 1 <= Pos.to_nat fuel)%nat ->
  R src w (unblocks8 (tower_encrypt xs (blocks8 data))) -> R2 src2 w2 data ->
  fst (magma_Imit (tower_read rd m (map kl xs)) mi fuel (source_tower_init src (map kl xs)) (Some k) w) =
  fst (magma_Imit rd2 mi fuel src2 (Some k) w2) /\
  fst (magma_Imit rd2 mi fuel src2 (Some k) w2) =
    match mi with ISO => Undef WideShift | X86 _ => Ok (halves (mac E 64 0x1b (blocks8 data))) end.
Proof. apply imit_tower. Qed.

Example C85_example :
  let ls := [LMagmaCFB (KLazy mkey) 1 2; LECB (KLazy gkey)] in
  let c := fst ((o <-- tower_write TestSink_write ISO ls (sink_tower_init [] ls) (le64s P4) ;;
                 tower_finalize TestSink_write ISO ls o) tt) in
  match c with
  | Ok cipher =>
      cipher <> le64s P4 /\
      fst (magma_Imit (tower_read MemSource_read ISO ls) X 10 (source_tower_init cipher ls) (Some mkey) tt)
        = Ok (halves 0x154e72102030c5bb)
  | _ => False
  end.
Proof. vm_compute. split; [discriminate|reflexivity]. Qed.

Print Assumptions C81_magma.
Print Assumptions C81_gost.
Print Assumptions C82_extension.
Print Assumptions C83_involution.
Print Assumptions C83_same_directions.
Print Assumptions C83_hex_keys.
Print Assumptions C84_top_bits.
Print Assumptions C84_hex_keys.
Print Assumptions C84_mac.
Print Assumptions C85_mac_of_decrypted.
