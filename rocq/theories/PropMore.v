(** Further properties of the streams, the keys and the MAC of GOST 28147-89: C51-C64, and
    the incomplete last block of C15 on x86. *)
From Verif Require Import Base Text MagmaModel Streams SpecText SpecMagma SpecModes SpecStreams SpecMac SpecMore.
From Verif Require Import Lib StreamMore KeyMore TailProofs OddReads TestVectors.
From Coq Require Import Lia.
Local Open Scope N_scope.

(** ** C15, the incomplete last block *)

(** Full claim: the data come back. With the stray accesses of finalize and read tolerated,
    the complete blocks do, and the tail comes back under the difference of the keystream
    block [e] and the same block with its halves exchanged. *)
Theorem C15_magma_tail_partial {W S} (wr : writer W S) g (k : key) (E : N -> N) (ivl ivr : N) (s : S)
    (chunks : list bytes) (w : W) :
  enciphers k E -> ivl < 2 ^ 64 -> ivr < 2 ^ 64 -> Forall u8 (List.concat chunks) ->
  (List.length (List.concat chunks) mod 8 <> 0)%nat -> never_fails wr ->
  let d := List.concat chunks in
  let cs := cfb_encrypt E [ivl; ivr] (blocks8 (complete d)) in
  let e := E (nth (List.length cs) ([ivl; ivr] ++ cs) 0) in
  exists o s' w' w'' log,
    writes (magma_CFBSink_write (logged wr) (X86 g)) (magma_CFBSink_init s k ivl ivr) chunks (w, [])
      = (Ok o, (w', log)) /\
    magma_CFBSink_finalize (logged wr) (X86 g) o (w', log) =
      (Ok s', (w'', log ++ [overlay (leftover d) (swap_halves e)])) /\
    forall W2 St (rd : reader W2 St) (R : St -> W2 -> bytes -> Prop) g2 src w2,
      delivers8 rd R -> R src w2 (List.concat log ++ overlay (leftover d) (swap_halves e)) ->
      exists o2 w3,
        magma_CFBSource_read rd (X86 g2) (magma_CFBSource_init src k ivl ivr) (len d) w2 =
        (Ok (complete d ++ overlay (overlay (leftover d) (swap_halves e)) e, o2), w3).
Proof. cbv zeta. rewrite <- hd_shifted. apply magma_tail. Qed.

Theorem C15_gost_tail_partial {W S} (wr : writer W S) g (k : key) (E : N -> N) (iv : N) (s : S)
    (chunks : list bytes) (w : W) :
  enciphers k E -> iv < 2 ^ 64 -> Forall u8 (List.concat chunks) ->
  (List.length (List.concat chunks) mod 8 <> 0)%nat -> never_fails wr ->
  let d := List.concat chunks in
  let cs := cfb_encrypt E [iv] (blocks8 (complete d)) in
  let e := E (nth (List.length cs) ([iv] ++ cs) 0) in
  exists o s' w' w'' log,
    writes (gost_CFBSink_write (logged wr) (X86 g)) (gost_CFBSink_init s k iv) chunks (w, [])
      = (Ok o, (w', log)) /\
    gost_CFBSink_finalize (logged wr) (X86 g) o (w', log) =
      (Ok s', (w'', log ++ [overlay (leftover d) (swap_halves e)])) /\
    forall W2 St (rd : reader W2 St) (R : St -> W2 -> bytes -> Prop) g2 src w2,
      delivers8 rd R -> R src w2 (List.concat log ++ overlay (leftover d) (swap_halves e)) ->
      exists o2 w3,
        gost_CFBSource_read rd (X86 g2) (gost_CFBSource_init src k iv) (len d) w2 =
        (Ok (complete d ++ overlay (overlay (leftover d) (swap_halves e)) e, o2), w3).
Proof. cbv zeta. rewrite <- hd_shifted. apply gost_tail. Qed.

(** So a tail comes back exactly when the two halves of the keystream block agree on it. *)
Theorem C15_tail_returns_iff (t : bytes) (e : N) :
  overlay (overlay t (swap_halves e)) e = t <->
  forall i, (i < List.length t)%nat -> ks_byte (swap_halves e) i = ks_byte e i.
Proof. apply overlay_twice. Qed.

Example C15_tail_example :
  let d := le64s P4 ++ [1; 2; 3] in
  (List.length d mod 8 <> 0)%nat /\ complete d = le64s P4 /\ leftover d = [1; 2; 3] /\
  ks_byte (swap_halves 0x2b073f0494f372a0) 0 <> ks_byte 0x2b073f0494f372a0 0 /\
  overlay [1; 2; 3] 0x2b073f0494f372a0 = [0xa1; 0x70; 0xf0].
Proof. vm_compute. repeat split; try reflexivity; discriminate. Qed.

(** ** C51 *)

(** Full claim: for every number of pending bytes. Below eight, the sink continues as a
    new one given the pending bytes first. *)
Theorem C51_magma_sink_partial {W S} (wr : writer W S) m (s : S) (k : key) (ivl ivr : N)
    (p data : bytes) (w : W) : (List.length p < 8)%nat ->
  magma_CFBSink_write wr m (MagmaCFBSink s k ivl ivr p) data w =
  magma_CFBSink_write wr m (magma_CFBSink_init s k ivl ivr) (p ++ data) w.
Proof. apply magma_resumes. Qed.

Theorem C51_gost_sink_partial {W S} (wr : writer W S) m (s : S) (k : key) (iv : N)
    (p data : bytes) (w : W) : (List.length p < 8)%nat ->
  gost_CFBSink_write wr m (GostCFBSink s k iv p) data w =
  gost_CFBSink_write wr m (gost_CFBSink_init s k iv) (p ++ data) w.
Proof. apply gost_resumes. Qed.

(** From eight on nothing is encrypted any more, whatever is written, *)
Theorem C51_magma_sink_refuted {W S} (wr : writer W S) m (s : S) (k : key) (ivl ivr : N)
    (p data : bytes) (w : W) : (8 <= List.length p)%nat ->
  magma_CFBSink_write wr m (MagmaCFBSink s k ivl ivr p) data w =
  (Ok (MagmaCFBSink s k ivl ivr (p ++ data)), w).
Proof. apply magma_stuck. Qed.

Theorem C51_gost_sink_refuted {W S} (wr : writer W S) m (s : S) (k : key) (iv : N)
    (p data : bytes) (w : W) : (8 <= List.length p)%nat ->
  gost_CFBSink_write wr m (GostCFBSink s k iv p) data w = (Ok (GostCFBSink s k iv (p ++ data)), w).
Proof. apply gost_stuck. Qed.

(** and finalize sends everything behind the first eight bytes in the clear. *)
Theorem C51_magma_leak_refuted {W S} (wr : writer W S) m (k : key) (E : N -> N) (s : S) (ivl ivr : N)
    (p : bytes) (w : W) :
  enciphers k E -> ivl < 2 ^ 64 -> (8 <= List.length p)%nat ->
  exists c, List.length c = 8%nat /\
    magma_CFBSink_finalize wr m (MagmaCFBSink s k ivl ivr p) w = wr s (c ++ skipn 8 p) w.
Proof. apply magma_leak. Qed.

Theorem C51_gost_leak_refuted {W S} (wr : writer W S) m (k : key) (E : N -> N) (s : S) (iv : N)
    (p : bytes) (w : W) :
  enciphers k E -> iv < 2 ^ 64 -> (8 <= List.length p)%nat ->
  exists c, List.length c = 8%nat /\
    gost_CFBSink_finalize wr m (GostCFBSink s k iv p) w = wr s (c ++ skipn 8 p) w.
Proof. apply gost_leak. Qed.

(** The sources serve any number of pending bytes first. *)
Theorem C51_magma_source {W St} (rd : reader W St) m (R : St -> W -> bytes -> Prop) (k : key) (E : N -> N)
    (ivl ivr : N) (p : bytes) (s : St) (w : W) (cipher : bytes) (sizes : list N) :
  enciphers k E -> delivers8 rd R -> ivl < 2 ^ 64 -> ivr < 2 ^ 64 -> R s w cipher -> whole cipher ->
  exists o' w',
    reads (magma_CFBSource_read rd m) (MagmaCFBSource s k ivl ivr p) sizes w =
    (Ok (served (p ++ unblocks8 (cfb_decrypt E [ivl; ivr] (blocks8 cipher))) sizes, o'), w').
Proof. apply magma_source_resumes. Qed.

Theorem C51_gost_source {W St} (rd : reader W St) m (R : St -> W -> bytes -> Prop) (k : key) (E : N -> N)
    (iv : N) (p : bytes) (s : St) (w : W) (cipher : bytes) (sizes : list N) :
  enciphers k E -> delivers8 rd R -> iv < 2 ^ 64 -> R s w cipher -> whole cipher ->
  exists o' w',
    reads (gost_CFBSource_read rd m) (GostCFBSource s k iv p) sizes w =
    (Ok (served (p ++ unblocks8 (cfb_decrypt E [iv] (blocks8 cipher))) sizes, o'), w').
Proof. apply gost_source_resumes. Qed.

Example C51_example :
  run (o <-- gost_CFBSink_write TestSink_write ISO (GostCFBSink [] (KLazy mkey) 5 [1; 2; 3]) [4; 5; 6; 7; 8] ;;
       gost_CFBSink_finalize TestSink_write ISO o) =
  run (o <-- gost_CFBSink_write TestSink_write ISO (gost_CFBSink_init [] (KLazy mkey) 5) [1; 2; 3; 4; 5; 6; 7; 8] ;;
       gost_CFBSink_finalize TestSink_write ISO o) /\
  (r <- run (o <-- gost_CFBSink_write TestSink_write ISO
                   (GostCFBSink [] (KLazy mkey) 5 (repeat 7 8)) (le64s P4) ;;
             gost_CFBSink_finalize TestSink_write ISO o) ;; Ok (skipn 8 r)) = Ok (le64s P4).
Proof. vm_compute. split; reflexivity. Qed.

(** ** C52 *)

Theorem C52_corruption {W St} (rd : reader W St) m (R : St -> W -> bytes -> Prop) (k : key) (E D : N -> N)
    (s1 s2 : St) (w1 w2 : W) (c1 c2 : bytes) (i n : nat) :
  enciphers k E -> deciphers k D -> block_source rd R ->
  R s1 w1 c1 -> R s2 w2 c2 -> differ_in_block i c1 c2 -> (List.length c1 <= 8 * n)%nat ->
  exists p1 p2 o1 o2 w1' w2',
    reads (ECBSource_read rd m) (ECBSource s1 k) (repeat 8 n) w1 = (Ok (p1, o1), w1') /\
    reads (ECBSource_read rd m) (ECBSource s2 k) (repeat 8 n) w2 = (Ok (p2, o2), w2') /\
    List.length (List.concat p1) = List.length c1 /\ List.length (List.concat p2) = List.length c2 /\
    (forall j, j <> i -> nth j (blocks8 (List.concat p1)) 0 = nth j (blocks8 (List.concat p2)) 0) /\
    (nth i (blocks8 c1) 0 <> nth i (blocks8 c2) 0 ->
     nth i (blocks8 (List.concat p1)) 0 <> nth i (blocks8 (List.concat p2)) 0).
Proof. apply ecb_corruption. Qed.

Definition ecb_plain (c : list N) : option (list N) :=
  match fst (reads (ECBSource_read MemSource_read ISO) (ECBSource (le64s c) (KLazy mkey)) [8; 8; 8] tt) with
  | Ok (bs, _) => Some (blocks8 (List.concat bs))
  | _ => None
  end.

Example C52_example :
  ecb_plain [0x2b073f0494f372a0; 0xde70e715d3556e48; 0x11d8d9e9eacfbc1e] =
    Some [0x92def06b3c130a59; 0xdb54c704f8189d20; 0x4a98fb2e67a8024c] /\
  match ecb_plain [0x2b073f0494f372a0; 0xde70e715d3556e49; 0x11d8d9e9eacfbc1e] with
  | Some [a; b; c] => a = 0x92def06b3c130a59 /\ b <> 0xdb54c704f8189d20 /\ c = 0x4a98fb2e67a8024c
  | _ => False
  end.
Proof. vm_compute. repeat split; discriminate. Qed.

(** ** C53 *)

Theorem C53_gost {W St} (rd : reader W St) m (R : St -> W -> bytes -> Prop) (k : key) (E : N -> N)
    (iv1 iv2 : N) (s1 s2 : St) (w1 w2 : W) (a1 a2 c : bytes) (size : N) :
  enciphers k E -> delivers8 rd R -> iv1 < 2 ^ 64 -> iv2 < 2 ^ 64 ->
  whole a1 -> whole a2 -> whole c -> R s1 w1 (a1 ++ c) -> R s2 w2 (a2 ++ c) ->
  len (a1 ++ c) <= size -> len (a2 ++ c) <= size ->
  exists p1 p2 o1 o2 w1' w2',
    gost_CFBSource_read rd m (gost_CFBSource_init s1 k iv1) size w1 = (Ok (p1, o1), w1') /\
    gost_CFBSource_read rd m (gost_CFBSource_init s2 k iv2) size w2 = (Ok (p2, o2), w2') /\
    List.length p1 = List.length (a1 ++ c) /\ List.length p2 = List.length (a2 ++ c) /\
    skipn (List.length a1 + 8) p1 = skipn (List.length a2 + 8) p2.
Proof. apply gost_resync. Qed.

Theorem C53_magma {W St} (rd : reader W St) m (R : St -> W -> bytes -> Prop) (k : key) (E : N -> N)
    (l1 r1 l2 r2 : N) (s1 s2 : St) (w1 w2 : W) (a1 a2 c : bytes) (size : N) :
  enciphers k E -> delivers8 rd R -> l1 < 2 ^ 64 -> r1 < 2 ^ 64 -> l2 < 2 ^ 64 -> r2 < 2 ^ 64 ->
  whole a1 -> whole a2 -> whole c -> R s1 w1 (a1 ++ c) -> R s2 w2 (a2 ++ c) ->
  len (a1 ++ c) <= size -> len (a2 ++ c) <= size ->
  exists p1 p2 o1 o2 w1' w2',
    magma_CFBSource_read rd m (magma_CFBSource_init s1 k l1 r1) size w1 = (Ok (p1, o1), w1') /\
    magma_CFBSource_read rd m (magma_CFBSource_init s2 k l2 r2) size w2 = (Ok (p2, o2), w2') /\
    List.length p1 = List.length (a1 ++ c) /\ List.length p2 = List.length (a2 ++ c) /\
    skipn (List.length a1 + 16) p1 = skipn (List.length a2 + 16) p2.
Proof. apply magma_resync. Qed.

(** The first block of the ciphertext is lost; what follows the second is intact. *)
Definition gost_plain (iv : N) (c : list N) : option (list N) :=
  match fst (gost_CFBSource_read MemSource_read ISO (gost_CFBSource_init (le64s c) (KLazy mkey) iv) 99 tt) with
  | Ok (b, _) => Some (blocks8 b)
  | _ => None
  end.
Definition magma_plain (l r : N) (c : list N) : option (list N) :=
  match fst (magma_CFBSource_read MemSource_read ISO
               (magma_CFBSource_init (le64s c) (KLazy mkey) l r) 99 tt) with
  | Ok (b, _) => Some (blocks8 b)
  | _ => None
  end.

Example C53_example :
  option_map (skipn 3) (magma_plain 1 2 [5; 6; 7; 8]) = option_map (skipn 2) (magma_plain 3 4 [6; 7; 8]) /\
  option_map (skipn 2) (magma_plain 1 2 [5; 6; 7; 8]) <> option_map (skipn 1) (magma_plain 3 4 [6; 7; 8]) /\
  option_map (skipn 2) (gost_plain 1 [5; 6; 7; 8]) = option_map (skipn 1) (gost_plain 3 [6; 7; 8]) /\
  option_map (@List.length N) (gost_plain 1 [5; 6; 7; 8]) = Some 4%nat.
Proof. vm_compute. repeat split; discriminate. Qed.

(** ** C54 *)

Theorem C54_gost {W St} (rd : reader W St) m (R : St -> W -> bytes -> Prop) (k : key) (E : N -> N)
    (iv1 iv2 : N) (s1 s2 : St) (w1 w2 : W) (c : bytes) (size : N) :
  enciphers k E -> delivers8 rd R -> iv1 < 2 ^ 64 -> iv2 < 2 ^ 64 ->
  whole c -> R s1 w1 c -> R s2 w2 c -> len c <= size -> 8 <= len c ->
  exists p1 p2 o1 o2 w1' w2',
    gost_CFBSource_read rd m (gost_CFBSource_init s1 k iv1) size w1 = (Ok (p1, o1), w1') /\
    gost_CFBSource_read rd m (gost_CFBSource_init s2 k iv2) size w2 = (Ok (p2, o2), w2') /\
    (nth 0 (blocks8 p1) 0 = nth 0 (blocks8 p2) 0 <-> iv1 = iv2) /\
    skipn 8 p1 = skipn 8 p2.
Proof. apply gost_wrong_register. Qed.

Theorem C54_magma {W St} (rd : reader W St) m (R : St -> W -> bytes -> Prop) (k : key) (E : N -> N)
    (l1 r1 l2 r2 : N) (s1 s2 : St) (w1 w2 : W) (c : bytes) (size : N) :
  enciphers k E -> delivers8 rd R -> l1 < 2 ^ 64 -> r1 < 2 ^ 64 -> l2 < 2 ^ 64 -> r2 < 2 ^ 64 ->
  whole c -> R s1 w1 c -> R s2 w2 c -> len c <= size -> 16 <= len c ->
  exists p1 p2 o1 o2 w1' w2',
    magma_CFBSource_read rd m (magma_CFBSource_init s1 k l1 r1) size w1 = (Ok (p1, o1), w1') /\
    magma_CFBSource_read rd m (magma_CFBSource_init s2 k l2 r2) size w2 = (Ok (p2, o2), w2') /\
    (nth 0 (blocks8 p1) 0 = nth 0 (blocks8 p2) 0 <-> l1 = l2) /\
    (nth 1 (blocks8 p1) 0 = nth 1 (blocks8 p2) 0 <-> r1 = r2) /\
    skipn 16 p1 = skipn 16 p2.
Proof. apply magma_wrong_register. Qed.

Example C54_example :
  match magma_plain 1 2 [5; 6; 7], magma_plain 1 3 [5; 6; 7], magma_plain 9 2 [5; 6; 7] with
  | Some [a; b; c], Some [a'; b'; c'], Some [a''; b''; c''] =>
      a = a' /\ b <> b' /\ c = c' /\ a <> a'' /\ b = b'' /\ c = c''
  | _, _, _ => False
  end.
Proof. vm_compute. repeat split; discriminate. Qed.

(** ** C56, C57 *)

Theorem C56_detects (k : lazykey) (f : nat -> N -> N) (d1 d2 : bytes) :
  round_functions k f -> Forall u8 d1 -> Forall u8 d2 ->
  List.length d1 = List.length d2 -> differ_once (blocks8 d1) (blocks8 d2) ->
  exists t1 t2, DataImit d1 (Some k) = Ok t1 /\ DataImit d2 (Some k) = Ok t2 /\ t1 <> t2.
Proof. apply DataImit_detects. Qed.

Example C56_example :
  differ_once (blocks8 (le64s [1; 2; 3])) (blocks8 (le64s [1; 7; 3])) /\
  DataImit (le64s [1; 2; 3]) (Some gkey) <> DataImit (le64s [1; 7; 3]) (Some gkey).
Proof.
  split; [|vm_compute; discriminate].
  exists [1], 2, 7, [3]. split; [reflexivity|]. split; [reflexivity|discriminate].
Qed.

(** Zero bytes can be appended up to the next block boundary, and up to sixteen. *)
Theorem C57_refuted (d : bytes) (n : nat) (k : option lazykey) :
  (List.length d + n <= List.length (pad89 d))%nat ->
  DataImit (d ++ repeat 0 n) k = DataImit d k.
Proof. apply DataImit_zeros. Qed.

Example C57_example :
  (List.length (le64s P4 ++ [1; 2; 3]%N) + 5 <= List.length (pad89 (le64s P4 ++ [1; 2; 3]%N)))%nat /\
  (List.length (@nil N) + 16 <= List.length (pad89 []))%nat.
Proof. split; vm_compute; lia. Qed.

(** ** C58 *)

(** No table is rejected: the substitution answers or reads outside of it. *)
Theorem C58_nibble_refuted (p0 p1 p2 p3 p4 p5 p6 p7 : list Z) (v : N) :
  (exists t, SboxNibble p0 p1 p2 p3 p4 p5 p6 p7 v = Ok t) \/
  SboxNibble p0 p1 p2 p3 p4 p5 p6 p7 v = Undef OutOfBounds.
Proof. apply nibble_outcomes. Qed.

Theorem C58_byte_refuted (uz : list N) (v : N) :
  (exists t, SboxByte uz v = Ok t) \/ SboxByte uz v = Undef OutOfBounds /\ len uz < 64.
Proof. apply byte_outcomes. Qed.

(** It never reads outside exactly when no table is too short; *)
Theorem C58_nibble_defined_iff (p0 p1 p2 p3 p4 p5 p6 p7 : list Z) :
  (forall v, v < 2 ^ 32 -> exists t, SboxNibble p0 p1 p2 p3 p4 p5 p6 p7 v = Ok t) <->
  Forall (fun p => 16 <= len p) [p0; p1; p2; p3; p4; p5; p6; p7].
Proof. apply nibble_total_iff. Qed.

Theorem C58_byte_defined_iff (uz : list N) :
  (forall v, v < 2 ^ 32 -> exists t, SboxByte uz v = Ok t) <-> 64 <= len uz.
Proof. apply byte_total_iff. Qed.

(** entries in excess are ignored. *)
Theorem C58_nibble_extra (p0 p1 p2 p3 p4 p5 p6 p7 : list Z) (v : N) :
  SboxNibble p0 p1 p2 p3 p4 p5 p6 p7 v =
  SboxNibble (firstn 16 p0) (firstn 16 p1) (firstn 16 p2) (firstn 16 p3)
             (firstn 16 p4) (firstn 16 p5) (firstn 16 p6) (firstn 16 p7) v.
Proof. apply nibble_extra. Qed.

Theorem C58_byte_extra (uz : list N) (v : N) : SboxByte uz v = SboxByte (firstn 64 uz) v.
Proof. apply byte_extra. Qed.

(** Entries above 15 are not rejected either; they spill into the neighbouring digits. *)
Example C58_example :
  let z := repeat 0%Z 16 in
  SboxNibble (repeat (-1)%Z 16) z z z z z z z 0 = Ok 0xffffffff /\
  SboxNibble (repeat 0%Z 15) z z z z z z z 0xe = Ok 0 /\
  SboxNibble (repeat 0%Z 15) z z z z z z z 0xf = Undef OutOfBounds /\
  SboxByte (repeat 0 63) 0xffffffff = Undef OutOfBounds /\
  SboxByte (repeat 0 70) 0xffffffff = Ok 0.
Proof. vm_compute. repeat split. Qed.

(** ** C59 *)

Theorem C59_short_refuted (ws : list N) (sb : sbox) (x : N * N) :
  (List.length ws < 8)%nat -> (forall v, exists t, sb v = Ok t) ->
  BlkEncrypted (Ok x) (Some (LazyKey_native ws sb)) = Undef OutOfBounds /\
  BlkDecrypted (Ok x) (Some (LazyKey_native ws sb)) = Undef OutOfBounds /\
  ImitedBlock (Ok x) (Some (LazyKey_native ws sb)) = Undef OutOfBounds.
Proof. apply native_short. Qed.

Theorem C59_long_refuted (ws : list N) (sb : sbox) (b : block) :
  BlkEncrypted b (Some (LazyKey_native ws sb)) = BlkEncrypted b (Some (LazyKey_native (firstn 8 ws) sb)) /\
  BlkDecrypted b (Some (LazyKey_native ws sb)) = BlkDecrypted b (Some (LazyKey_native (firstn 8 ws) sb)) /\
  ImitedBlock b (Some (LazyKey_native ws sb)) = ImitedBlock b (Some (LazyKey_native (firstn 8 ws) sb)).
Proof. apply native_extra_words. Qed.

Example C59_example :
  (List.length [1; 2; 3] < 8)%nat /\ (forall v, exists t, SboxR3412 v = Ok t) /\
  n64 (BlkEncrypted (BlkRaw64 1) (Some (LazyKey_native [1; 2; 3; 4; 5; 6; 7; 8; 9] SboxR3412))) =
  n64 (BlkEncrypted (BlkRaw64 1) (Some (LazyKey_native [1; 2; 3; 4; 5; 6; 7; 8] SboxR3412))).
Proof.
  split; [cbn; lia|]. split; [|vm_compute; reflexivity].
  intros v. eexists. apply MagmaSpecProofs.SboxR3412_total.
Qed.

(** ** C60 *)

(** Full claim: for every index and every KeyData. Holds for the indices of key words,
    when all eight can be loaded. *)
Theorem C60_cached_partial (kd : keydata) (i : Z) : (0 <= i <= 7)%Z ->
  (forall j, (0 <= j <= 7)%Z -> exists w, kd j = Ok w) -> KeyCachedData kd i = kd i.
Proof. apply cached_same. Qed.

(** An index that KeyDataString rejects is read outside of the cache, *)
Theorem C60_index_refuted (s : str) (i : Z) :
  List.length s = 64%nat -> Forall hex_digit s -> ~ (0 <= i <= 7)%Z ->
  KeyDataString s i = Throw (RuntimeError "Wrong key index") /\
  KeyCachedData (KeyDataString s) i = Undef OutOfBounds.
Proof.
  intros Hl Hs Hi. split; [now apply string_outside|]. apply cached_outside; [exact Hi|].
  intros j Hj. replace j with (Z.of_nat (Z.to_nat j)) by lia.
  eexists. apply MagmaSpecProofs.KeyDataString_hex; [exact Hl|exact Hs|lia].
Qed.

(** and one word that cannot be loaded takes all the others with it. *)
Theorem C60_eager_refuted (kd : keydata) (j : Z) (e : exn) (i : Z) :
  (0 <= j <= 7)%Z -> kd j = Throw e ->
  (forall l, (0 <= l < j)%Z -> exists w, kd l = Ok w) -> KeyCachedData kd i = Throw e.
Proof. apply cached_eager. Qed.

Example C60_example :
  let kd := fun i => if (i =? 7)%Z then Throw (RuntimeError "no") else Ok 5 in
  kd 0%Z = Ok 5 /\ KeyCachedData kd 0%Z = Throw (RuntimeError "no") /\
  KeyDataString magma_key_str 8%Z = Throw (RuntimeError "Wrong key index") /\
  KeyCachedData (KeyDataString magma_key_str) 8%Z = Undef OutOfBounds /\
  KeyCachedData (KeyDataString magma_key_str) 7%Z = Ok 0xfcfdfeff.
Proof. vm_compute. repeat split. Qed.

(** ** C61 *)

Section C61.
Context (ks : str) (sb : sbox).
Let k := KLazy (LazyKey_string_sbox ks sb).
Let bad := RuntimeError "Wrong key size".

Theorem C61_blocks (x : N * N) : List.length ks <> 64%nat ->
  BlkEncrypted (Ok x) (cast_lazy k) = Throw bad /\
  BlkDecrypted (Ok x) (cast_lazy k) = Throw bad /\
  BlkForwarded (Ok x) (cast_lazy k) = Throw bad /\
  (forall y, EncryptionBase_transform k y = Throw bad).
Proof. apply wrong_size_blocks. Qed.

(** Sinks: no write reaches the underlying sink; the world is as before. *)
Theorem C61_ecb_write {W S} (wr : writer W S) (s : S) (data : bytes) (w : W) :
  List.length ks <> 64%nat -> data <> [] ->
  ECBSink_write wr (ECBSink s k) data w =
  (Throw (if Nat.ltb (List.length data) 8 then RuntimeError "Unaligned ECB encryption" else bad), w).
Proof. intros H. now apply bad_ecb_write. Qed.

Theorem C61_magma_write {W S} (wr : writer W S) m (s : S) (ivl ivr : N) (p data : bytes) (w : W) :
  List.length ks <> 64%nat -> (List.length p < 8)%nat ->
  magma_CFBSink_write wr m (MagmaCFBSink s k ivl ivr p) data w =
  (if Nat.ltb (List.length p + List.length data) 8 then Ok (MagmaCFBSink s k ivl ivr (p ++ data))
   else Throw bad, w).
Proof. intros H. now apply bad_magma_write. Qed.

Theorem C61_magma_finalize {W S} (wr : writer W S) m (s : S) (ivl ivr : N) (p : bytes) (w : W) :
  List.length ks <> 64%nat -> p <> [] ->
  magma_CFBSink_finalize wr m (MagmaCFBSink s k ivl ivr p) w = (Throw bad, w).
Proof. intros H. now apply bad_magma_finalize. Qed.

Theorem C61_gost_write {W S} (wr : writer W S) m (s : S) (iv : N) (p data : bytes) (w : W) :
  List.length ks <> 64%nat -> (List.length p < 8)%nat ->
  gost_CFBSink_write wr m (GostCFBSink s k iv p) data w =
  (if Nat.ltb (List.length p + List.length data) 8 then Ok (GostCFBSink s k iv (p ++ data))
   else Throw bad, w).
Proof. intros H. now apply bad_gost_write. Qed.

Theorem C61_gost_finalize {W S} (wr : writer W S) m (s : S) (iv : N) (p : bytes) (w : W) :
  List.length ks <> 64%nat -> p <> [] ->
  gost_CFBSink_finalize wr m (GostCFBSink s k iv p) w = (Throw bad, w).
Proof. intros H. now apply bad_gost_finalize. Qed.

(** Sources. The CFB sources report before they read. *)
Theorem C61_magma_read {W St} (rd : reader W St) m (s : St) (ivl ivr size : N) (w : W) :
  List.length ks <> 64%nat -> 0 < size ->
  magma_CFBSource_read rd m (magma_CFBSource_init s k ivl ivr) size w = (Throw bad, w).
Proof. intros H. now apply bad_magma_read. Qed.

Theorem C61_gost_read {W St} (rd : reader W St) m (s : St) (iv size : N) (w : W) :
  List.length ks <> 64%nat -> 0 < size ->
  gost_CFBSource_read rd m (gost_CFBSource_init s k iv) size w = (Throw bad, w).
Proof. intros H. now apply bad_gost_read. Qed.

Theorem C61_ecb_read {W St} (rd : reader W St) m (s : St) (size : N) (w : W) p s' w' :
  List.length ks <> 64%nat -> 8 <= size -> rd s 8 w = (Ok (p, s'), w') -> List.length p = 8%nat ->
  ECBSource_read rd m (ECBSource s k) size w = (Throw bad, w').
Proof. intros H. now apply bad_ecb_read. Qed.
End C61.

Example C61_example :
  run (ECBSink_write TestSink_write (ECBSink [] (KLazy (LazyKey_string (str_of "00ff")))) (le64s P4)) =
    Throw (RuntimeError "Wrong key size") /\
  run (magma_CFBSource_read MemSource_read ISO
         (magma_CFBSource_init [] (KLazy (LazyKey_string (str_of "00ff"))) 1 2) 1) =
    Throw (RuntimeError "Wrong key size").
Proof. vm_compute. split; reflexivity. Qed.

(** ** C62 *)

Theorem C62_magma {W St} (rd : reader W St) m (R : St -> W -> bytes -> Prop) (e : exn) (k : key) (E : N -> N)
    (ivl ivr : N) (s : St) (w : W) (cipher : bytes) (size : N) :
  enciphers k E -> breaks rd R e -> ivl < 2 ^ 64 -> ivr < 2 ^ 64 -> R s w cipher -> whole cipher ->
  let plain := unblocks8 (cfb_decrypt E [ivl; ivr] (blocks8 cipher)) in
  match fst (magma_CFBSource_read rd m (magma_CFBSource_init s k ivl ivr) size w) with
  | Ok (p, _) => size <= len cipher /\ p = firstn (N.to_nat size) plain
  | r => len cipher < size /\ r = Throw e
  end.
Proof. apply magma_breaks. Qed.

Theorem C62_gost {W St} (rd : reader W St) m (R : St -> W -> bytes -> Prop) (e : exn) (k : key) (E : N -> N)
    (iv : N) (s : St) (w : W) (cipher : bytes) (size : N) :
  enciphers k E -> breaks rd R e -> iv < 2 ^ 64 -> R s w cipher -> whole cipher ->
  let plain := unblocks8 (cfb_decrypt E [iv] (blocks8 cipher)) in
  match fst (gost_CFBSource_read rd m (gost_CFBSource_init s k iv) size w) with
  | Ok (p, _) => size <= len cipher /\ p = firstn (N.to_nat size) plain
  | r => len cipher < size /\ r = Throw e
  end.
Proof. apply gost_breaks. Qed.

Theorem C62_ecb {W St} (rd : reader W St) m (k : key) (s : St) (w : W) (e : exn) w' size :
  8 <= size -> rd s 8 w = (Throw e, w') ->
  ECBSource_read rd m (ECBSource s k) size w = (Throw e, w').
Proof. apply ecb_breaks. Qed.

Theorem C62_imit {W St} (rd : reader W St) m (R : St -> W -> bytes -> Prop) (e : exn) (lk : lazykey)
    (s : St) (w : W) (data : bytes) (fuel : positive) :
  breaks rd R e -> R s w data -> whole data -> (List.length data / 8 + 1 <= Pos.to_nat fuel)%nat ->
  fst (magma_Imit rd m fuel s (Some lk) w) = Throw e.
Proof. apply imit_breaks. Qed.

(** A source that breaks off after its data. *)
Definition Broken_read {W} : reader W bytes := fun data n =>
  match data with [] => mthrow (RuntimeError "broken pipe") | _ => MemSource_read data n end.

Example C62_breaks : breaks (W := unit) Broken_read (fun s _ data => s = data) (RuntimeError "broken pipe").
Proof.
  intros s w data ->. split.
  - intros H. destruct data as [|a l]; [easy|].
    destruct (StreamProofs.MemSource_delivers (a :: l) w (a :: l) 8 eq_refl) as (s' & w' & Hr & Hs).
    exists s', w'. split; [exact Hr|exact Hs].
  - intros ->. exists w. reflexivity.
Qed.

Example C62_example :
  fst (gost_CFBSource_read Broken_read ISO (gost_CFBSource_init (le64s P4) (KLazy mkey) 1) 33 tt) =
    Throw (RuntimeError "broken pipe") /\
  match fst (gost_CFBSource_read Broken_read ISO (gost_CFBSource_init (le64s P4) (KLazy mkey) 1) 32 tt) with
  | Ok (p, _) => List.length p = 32%nat
  | _ => False
  end /\
  fst (magma_Imit Broken_read X 10 (le64s P4) (Some mkey) tt) = Throw (RuntimeError "broken pipe").
Proof. vm_compute. repeat split. Qed.

(** ** C63 *)

Theorem C63_magma {W St} (rd : reader W St) m (o : magma_cfb_source St) (n : N) (w : W) b o' w' :
  magma_CFBSource_read rd m o n w = (Ok (b, o'), w') -> len b <= n.
Proof. apply magma_modest. Qed.

Theorem C63_gost {W St} (rd : reader W St) m (o : gost_cfb_source St) (n : N) (w : W) b o' w' :
  gost_CFBSource_read rd m o n w = (Ok (b, o'), w') -> len b <= n.
Proof. apply gost_modest. Qed.

Theorem C63_ecb {W St} (rd : reader W St) m (o : ecb_source St) (n : N) (w : W) b o' w' :
  modest rd -> ECBSource_read rd m o n w = (Ok (b, o'), w') -> len b <= n.
Proof. intros H. now apply ecb_modest. Qed.

Example C63_example : modest (W := unit) MemSource_read.
Proof.
  intros s n w b s' w' H. destruct (StreamProofs.MemSource_delivers s w s n eq_refl) as (s1 & w1 & E & _).
  rewrite E in H. injection H as <- _ _. unfold len. rewrite firstn_length. lia.
Qed.

(** ** C64 *)

Theorem C64_magma_long_refuted {W St} (rd : reader W St) (k : key) (E : N -> N) m ivl ivr size
    (s : St) (w : W) p s' w' :
  enciphers k E -> 0 < size -> ivl < 2 ^ 64 ->
  rd s 8 w = (Ok (p, s'), w') -> (8 < List.length p)%nat ->
  magma_CFBSource_read rd m (magma_CFBSource_init s k ivl ivr) size w = (Undef Overflow, w').
Proof. intros H. now apply (magma_long rd k E H). Qed.

Theorem C64_gost_long_refuted {W St} (rd : reader W St) (k : key) (E : N -> N) m iv size
    (s : St) (w : W) p s' w' :
  enciphers k E -> 0 < size -> iv < 2 ^ 64 ->
  rd s 8 w = (Ok (p, s'), w') -> (8 < List.length p)%nat ->
  gost_CFBSource_read rd m (gost_CFBSource_init s k iv) size w = (Undef Overflow, w').
Proof. intros H. now apply (gost_long rd k E H). Qed.

Theorem C64_magma_short_refuted {W St} (rd : reader W St) (k : key) (E : N -> N) ivl ivr size
    (s : St) (w : W) p s' w' :
  enciphers k E -> 0 < size -> ivl < 2 ^ 64 ->
  rd s 8 w = (Ok (p, s'), w') -> (0 < List.length p < 8)%nat ->
  magma_CFBSource_read rd ISO (magma_CFBSource_init s k ivl ivr) size w = (Undef OutOfBounds, w').
Proof. intros H. now apply (magma_short rd k E H). Qed.

Theorem C64_gost_short_refuted {W St} (rd : reader W St) (k : key) (E : N -> N) iv size
    (s : St) (w : W) p s' w' :
  enciphers k E -> 0 < size -> iv < 2 ^ 64 ->
  rd s 8 w = (Ok (p, s'), w') -> (0 < List.length p < 8)%nat ->
  gost_CFBSource_read rd ISO (gost_CFBSource_init s k iv) size w = (Undef OutOfBounds, w').
Proof. intros H. now apply (gost_short rd k E H). Qed.

(** ECBSource decrypts the first eight bytes and hands out the rest as it came. *)
Theorem C64_ecb_long_refuted {W St} (rd : reader W St) (k : key) (D : N -> N) m size
    (s : St) (w : W) p s' w' :
  deciphers k D -> 8 <= size ->
  rd s 8 w = (Ok (p, s'), w') -> (8 < List.length p)%nat -> Forall u8 p ->
  ECBSource_read rd m (ECBSource s k) size w =
  (Ok (to_le 8 (D (of_le (firstn 8 p))) ++ skipn 8 p, ECBSource s' k), w').
Proof. apply ecb_long. Qed.

(** Sources that answer with pieces of their own size; PropMac has one, too. *)
Definition Piece_read {W} : reader W (list bytes) := fun ps _ =>
  match ps with [] => mret ([], []) | p :: r => mret (p, r) end.

Example C64_example :
  fst (gost_CFBSource_read Piece_read X (gost_CFBSource_init [le64s P4] (KLazy mkey) 1) 32 tt) = Undef Overflow /\
  fst (gost_CFBSource_read Piece_read ISO (gost_CFBSource_init [[1; 2]; [3; 4]] (KLazy mkey) 1) 4 tt)
    = Undef OutOfBounds /\
  match fst (ECBSource_read Piece_read ISO (ECBSource [le64s [0x2b073f0494f372a0; 1; 2]] (KLazy mkey)) 8 tt) with
  | Ok (b, _) => blocks8 b = [0x92def06b3c130a59; 1; 2]
  | _ => False
  end.
Proof. vm_compute. repeat split. Qed.

Print Assumptions C15_magma_tail_partial.
Print Assumptions C15_gost_tail_partial.
Print Assumptions C15_tail_returns_iff.
Print Assumptions C51_magma_sink_partial.
Print Assumptions C51_gost_sink_partial.
Print Assumptions C51_magma_sink_refuted.
Print Assumptions C51_gost_sink_refuted.
Print Assumptions C51_magma_leak_refuted.
Print Assumptions C51_gost_leak_refuted.
Print Assumptions C51_magma_source.
Print Assumptions C51_gost_source.
Print Assumptions C52_corruption.
Print Assumptions C53_gost.
Print Assumptions C53_magma.
Print Assumptions C54_gost.
Print Assumptions C54_magma.
Print Assumptions C56_detects.
Print Assumptions C57_refuted.
Print Assumptions C58_nibble_refuted.
Print Assumptions C58_byte_refuted.
Print Assumptions C58_nibble_defined_iff.
Print Assumptions C58_byte_defined_iff.
Print Assumptions C58_nibble_extra.
Print Assumptions C58_byte_extra.
Print Assumptions C59_short_refuted.
Print Assumptions C59_long_refuted.
Print Assumptions C60_cached_partial.
Print Assumptions C60_index_refuted.
Print Assumptions C60_eager_refuted.
Print Assumptions C61_blocks.
Print Assumptions C61_ecb_write.
Print Assumptions C61_magma_write.
Print Assumptions C61_magma_finalize.
Print Assumptions C61_gost_write.
Print Assumptions C61_gost_finalize.
Print Assumptions C61_magma_read.
Print Assumptions C61_gost_read.
Print Assumptions C61_ecb_read.
Print Assumptions C62_magma.
Print Assumptions C62_gost.
Print Assumptions C62_ecb.
Print Assumptions C62_imit.
Print Assumptions C63_magma.
Print Assumptions C63_gost.
Print Assumptions C63_ecb.
Print Assumptions C64_magma_long_refuted.
Print Assumptions C64_gost_long_refuted.
Print Assumptions C64_magma_short_refuted.
Print Assumptions C64_gost_short_refuted.
Print Assumptions C64_ecb_long_refuted.
