(** Properties C95-C97: messages with one MAC, blocks whose encryption is a step of the MAC,
    and blocks that encryption leaves alone. *)
From Verif Require Import Base Text MagmaModel Streams KuzModel SpecText SpecMagma SpecModes SpecStreams SpecMac SpecIter SpecKuz
  SpecWeak MacProofs WeakProofs KuzStreamProofs CollProofs ReflProofs TestVectors.
From Coq Require Import Lia.
Local Open Scope N_scope.

(** ** C95 *)

(** Two messages of whole blocks have one MAC exactly if they have one MAC after any bytes
    [t] are put behind both of them. Where there are MACs at all (see C21). *)
Theorem C95_magma_x86_partial {W St} (rd : reader W St) g (R : St -> W -> bytes -> Prop) (k : lazykey) (E : N -> N)
    (s1 s2 s1' s2' : St) (w1 w2 w1' w2' : W) (d1 d2 t : bytes) (fuel : positive) :
  enciphers (KLazy k) E -> delivers8 rd R -> whole d1 -> whole d2 -> Forall u8 t -> d1 <> [] -> d2 <> [] ->
  R s1 w1 d1 -> R s2 w2 d2 -> R s1' w1' (d1 ++ t) -> R s2' w2' (d2 ++ t) ->
  (List.length (d1 ++ t) / 8 + 1 <= Pos.to_nat fuel)%nat -> (List.length (d2 ++ t) / 8 + 1 <= Pos.to_nat fuel)%nat ->
  (fst (magma_Imit rd (X86 g) fuel s1 (Some k) w1) = fst (magma_Imit rd (X86 g) fuel s2 (Some k) w2) <->
   fst (magma_Imit rd (X86 g) fuel s1' (Some k) w1') = fst (magma_Imit rd (X86 g) fuel s2' (Some k) w2')).
Proof. apply imit_extend. Qed.

(** The same for Kuznyechik: blocks [ts] behind the blocks of both streams. The streams may
    be of different classes and may differ in length; only their last sizes must agree. *)
Theorem C95_kuznyechik {I1 I2 I3 I4} (o1 : iter_ops I1) (o2 : iter_ops I2) (o3 : iter_ops I3) (o4 : iter_ops I4)
    (s : str) (k : kkey) m (ps qs ts : list N) p q p' q' (fuel : nat) (sz sz' : N) :
  Forall hex_digit s -> List.length s = 64%nat -> Key_string s = Ok k ->
  Forall (fun x => x < 2 ^ 128) ps -> Forall (fun x => x < 2 ^ 128) qs -> Forall (fun x => x < 2 ^ 128) ts ->
  presents o1 p (map kpair ps) -> presents o2 q (map kpair qs) ->
  presents o3 p' (map kpair (ps ++ ts)) -> presents o4 q' (map kpair (qs ++ ts)) ->
  size_at o1 p (List.length ps - 1) = Ok sz -> size_at o2 q (List.length qs - 1) = Ok sz ->
  size_at o3 p' (List.length (ps ++ ts) - 1) = Ok sz' -> size_at o4 q' (List.length (qs ++ ts) - 1) = Ok sz' ->
  (List.length (ps ++ ts) <= fuel)%nat -> (List.length (qs ++ ts) <= fuel)%nat ->
  (KImit fuel m o1 p k = KImit fuel m o2 q k <-> KImit fuel m o3 p' k = KImit fuel m o4 q' k).
Proof. apply kimit_string_extend. Qed.

(** The same for the MAC of GOST 28147-89, from two blocks on. *)
Theorem C95_gost (k : lazykey) (f : nat -> N -> N) (d1 d2 t : bytes) :
  round_functions k f -> whole d1 -> whole d2 -> Forall u8 t ->
  (16 <= List.length d1)%nat -> (16 <= List.length d2)%nat ->
  DataImit d1 (Some k) = DataImit d2 (Some k) <-> DataImit (d1 ++ t) (Some k) = DataImit (d2 ++ t) (Some k).
Proof. apply dataimit_same_extend. Qed.

(** Who sees what ECBSink makes of one block [q] under the key of the MAC can write down, for
    every message, another one, longer by a block, with the same MAC. *)
Theorem C95_ecb_block_x86_partial {W St} (rd : reader W St) g (R : St -> W -> bytes -> Prop) (k : lazykey) (E : N -> N)
    (s1 s2 : St) (w1 w2 : W) (q p t c : bytes) o (w w' : W) (fuel : positive) :
  enciphers (KLazy k) E -> delivers8 rd R -> Forall u8 q -> Forall u8 p -> Forall u8 t ->
  List.length q = 8%nat -> List.length p = 8%nat ->
  ECBSink_write TestSink_write (ECBSink [] (KLazy k)) q w = (Ok o, w') -> es_sink o = c ->
  R s1 w1 (p ++ t) -> R s2 w2 (q ++ xor2 c p ++ t) ->
  (List.length (p ++ t) / 8 + 2 <= Pos.to_nat fuel)%nat ->
  exists v w1' w2', magma_Imit rd (X86 g) fuel s1 (Some k) w1 = (Ok v, w1') /\
                    magma_Imit rd (X86 g) fuel s2 (Some k) w2 = (Ok v, w2').
Proof. apply imit_collision. Qed.

Theorem C95_block_kuznyechik {I1 I2} (o1 : iter_ops I1) (o2 : iter_ops I2) (k : kkey) (E : N -> N) m (x y : N) (c : N * N)
    (ts : list N) p q (fuel : nat) (sz : N) :
  kuz_enciphers k E -> x < 2 ^ 128 -> y < 2 ^ 128 -> Forall (fun x => x < 2 ^ 128) ts ->
  KEncrypted (Ok (kpair x)) k = Ok c ->
  presents o1 p (map kpair (y :: ts)) ->
  presents o2 q (kpair x :: xor_pair c (kpair y) :: map kpair ts) ->
  size_at o1 p (List.length ts) = Ok sz -> size_at o2 q (1 + List.length ts) = Ok sz ->
  (2 + List.length ts <= fuel)%nat ->
  exists v, KImit fuel m o1 p k = Ok v /\ KImit fuel m o2 q k = Ok v.
Proof. apply kimit_collision. Qed.

Example C95_magma_example :
  let q := le64s [0x1122334455667788] in let p := firstn 8 (le64s P4) in
  let c := match fst (ECBSink_write TestSink_write (ECBSink [] (KLazy mkey)) q tt) with Ok o => es_sink o | _ => [] end in
  let mac d := fst (magma_Imit MemSource_read X 10 d (Some mkey) tt) in
  List.length c = 8%nat /\ mac p = mac (q ++ xor2 c p) /\
  mac (p ++ [1; 2; 3]) = mac (q ++ xor2 c p ++ [1; 2; 3]) /\ mac (p ++ [1; 2; 3]) <> mac p.
Proof. vm_compute. repeat split. discriminate. Qed.

Example C95_gost_example :
  let m := le64s P4 in let b := firstn 8 m in let r := skipn 8 m in
  let t := match DataImit m (Some mkey) with Ok t => t | _ => [] end in
  let d := m ++ xor2 t b ++ r in
  DataImit d (Some mkey) = DataImit m (Some mkey) /\
  DataImit (d ++ [1; 2; 3]) (Some mkey) = DataImit (m ++ [1; 2; 3]) (Some mkey) /\
  DataImit (m ++ [1; 2; 3]) (Some mkey) <> DataImit m (Some mkey).
Proof. vm_compute. repeat split. discriminate. Qed.

(** With the key of the standard's examples and the first block of its message. *)
Example C95_kuznyechik_example :
  let y := firstn 2 kuz_data in
  let c := match KEncrypted (Ok (7, 9)) kuz_key with Ok c => c | _ => (0, 0) end in
  let d := [7; 9; N.lxor (fst c) (nth 0 y 0); N.lxor (snd c) (nth 1 y 0)] in
  let mac d := KImit 10 ISO (ItMemory_ops (Some d)) (StMemory_iter true d) kuz_key in
  mac y = mac d /\ mac (y ++ [1; 2]) = mac (d ++ [1; 2]) /\ mac y <> mac (y ++ [1; 2]).
Proof. rewrite !kuz_key_eq. vm_compute. repeat split. discriminate. Qed.

(** ** C96 *)

(** For every key and substitution there are exactly 2^32 blocks which the 32 rounds of the
    encryption take where the 16 rounds of the MAC of GOST 28147-89 take them: [P] lists
    them without repetition. *)
Theorem C96_half_rounds (k : lazykey) (f : nat -> N -> N) :
  round_functions k f ->
  exists P : N -> N * N,
    (forall h, h < 2 ^ 32 -> fst (P h) < 2 ^ 32 /\ snd (P h) < 2 ^ 32 /\
       BlkEncrypted (Ok (P h)) (Some k) = ImitedBlock (Ok (P h)) (Some k)) /\
    (forall h h', h < 2 ^ 32 -> h' < 2 ^ 32 -> P h = P h' -> h = h') /\
    (forall x, fst x < 2 ^ 32 -> snd x < 2 ^ 32 ->
       BlkEncrypted (Ok x) (Some k) = ImitedBlock (Ok x) (Some k) -> exists h, h < 2 ^ 32 /\ x = P h).
Proof. apply reflection. Qed.

Example C96_example :
  let x := (3213846209, 2174342874) in
  BlkEncrypted (Ok x) (Some mkey) = ImitedBlock (Ok x) (Some mkey) /\
  BlkEncrypted (Ok x) (Some mkey) = Ok (3045564012, 32710740) /\
  BlkEncrypted (Ok (1, 2)) (Some mkey) <> ImitedBlock (Ok (1, 2)) (Some mkey).
Proof. vm_compute. repeat split. discriminate. Qed.

(** ** C97 *)

(** With key words that read the same backwards (C83) exactly 2^32 blocks are their own
    encryption: [P] lists them without repetition. *)
Theorem C97_fixed (k : lazykey) (f : nat -> N -> N) :
  round_functions k f -> (forall i, (0 <= i <= 7)%Z -> key_data k (7 - i)%Z = key_data k i) ->
  exists P : N -> N * N,
    (forall h, h < 2 ^ 32 -> fst (P h) < 2 ^ 32 /\ snd (P h) < 2 ^ 32 /\
       BlkEncrypted (Ok (P h)) (Some k) = Ok (P h)) /\
    (forall h h', h < 2 ^ 32 -> h' < 2 ^ 32 -> P h = P h' -> h = h') /\
    (forall x, fst x < 2 ^ 32 -> snd x < 2 ^ 32 ->
       BlkEncrypted (Ok x) (Some k) = Ok x -> exists h, h < 2 ^ 32 /\ x = P h).
Proof. intros Hk Pal. now apply (fixed_points k f). Qed.

(** For keys of 64 hexadecimal digits. *)
Theorem C97_hex_keys (s : str) :
  List.length s = 64%nat -> Forall hex_digit s ->
  (forall i, (i < 8)%nat -> key_word (number s) (7 - i) = key_word (number s) i) ->
  exists P : N -> N * N,
    (forall h, h < 2 ^ 32 -> fst (P h) < 2 ^ 32 /\ snd (P h) < 2 ^ 32 /\
       BlkEncrypted (Ok (P h)) (Some (LazyKey_string s)) = Ok (P h)) /\
    (forall h h', h < 2 ^ 32 -> h' < 2 ^ 32 -> P h = P h' -> h = h') /\
    (forall x, fst x < 2 ^ 32 -> snd x < 2 ^ 32 ->
       BlkEncrypted (Ok x) (Some (LazyKey_string s)) = Ok x -> exists h, h < 2 ^ 32 /\ x = P h).
Proof. apply string_fixed. Qed.

Example C97_example :
  let s := str_of "0123456789abcdef0f1e2d3cffffffffffffffff0f1e2d3c89abcdef01234567" in
  (forall i, (i < 8)%nat -> key_word (number s) (7 - i) = key_word (number s) i) /\
  BlkEncrypted (Ok (2503965877, 155365820)) (Some (LazyKey_string s)) = Ok (2503965877, 155365820) /\
  BlkEncrypted (Ok (1, 2)) (Some (LazyKey_string s)) <> Ok (1, 2).
Proof.
  split.
  - intros i Hi. destruct i as [|[|[|[|[|[|[|[|i]]]]]]]]; try reflexivity. lia.
  - split; [vm_compute; reflexivity|]. vm_compute. discriminate.
Qed.

Print Assumptions C95_magma_x86_partial.
Print Assumptions C95_kuznyechik.
Print Assumptions C95_gost.
Print Assumptions C95_ecb_block_x86_partial.
Print Assumptions C95_block_kuznyechik.
Print Assumptions C96_half_rounds.
Print Assumptions C97_fixed.
Print Assumptions C97_hex_keys.
