(** Properties C86-C90: byte order and alignment of the machine. *)
From Verif Require Import Base Text MagmaModel Streams KuzModel PortModel SpecText SpecMagma SpecModes SpecStreams SpecMac
  SpecPort MagmaSpecProofs BlockProofs ByteProofs SinkProofs SourceProofs StreamProofs StreamFacts PortProofs PortMore PortKuz TestVectors.
From Coq Require Import ZifyNat ZifyN.
Local Open Scope N_scope.

(** ** C86 *)

(** The claim is that the bytes written and read are the same on every machine. It holds
    among machines that store the least significant byte first, aligned or not as far as
    the vectors are: there all of it is the model used everywhere else. *)
Theorem C86_same_sinks mc {W S} (wr : writer W S) m heap (data : bytes) (w : W) :
  m_big mc = false -> (m_strict mc = false \/ heap mod 8 = 0) ->
  (forall o, ECBSink_write_on mc wr heap o data w = ECBSink_write wr o data w) /\
  (forall o, magma_CFBSink_write_on mc wr m o data w = magma_CFBSink_write wr m o data w) /\
  (forall o, gost_CFBSink_write_on mc wr m o data w = gost_CFBSink_write wr m o data w).
Proof.
  intros HL Ha. split; [|split]; intros o;
    [now apply ECBSink_little|now apply magma_sink_little|now apply gost_sink_little].
Qed.

Theorem C86_same_sources mc {W St} (rd : reader W St) m heap (n : N) (w : W) :
  m_big mc = false -> (m_strict mc = false \/ heap mod 8 = 0) ->
  (forall o, ECBSource_read_on mc rd m heap o n w = ECBSource_read rd m o n w) /\
  (forall o, magma_CFBSource_read_on mc rd m o n w = magma_CFBSource_read rd m o n w) /\
  (forall o, gost_CFBSource_read_on mc rd m o n w = gost_CFBSource_read rd m o n w).
Proof.
  intros HL Ha. split; [|split]; intros o;
    [now apply ECBSource_little|now apply magma_source_little|now apply gost_source_little].
Qed.

Theorem C86_same_macs mc {W St} (rd : reader W St) m heap fuel (s : St) k (data : bytes) (w : W) :
  m_big mc = false -> (m_strict mc = false \/ heap mod 8 = 0) ->
  magma_Imit_on mc rd m fuel s k w = magma_Imit rd m fuel s k w /\
  DataImit_on mc heap data k = DataImit data k.
Proof. intros HL Ha. split; [now apply Imit_little|now apply DataImit_little]. Qed.

Theorem C86_same_kuznyechik mc (stack : nat -> N) (h l b : kblock) (k : kkey) :
  m_big mc = false -> m_strict mc = false ->
  Key_blocks_on mc stack h l = Key_blocks h l /\ Key_encrypt_on mc stack k b = Key_encrypt k b.
Proof. intros HL Hs. split; [now apply Key_blocks_little|now apply Key_encrypt_little]. Qed.

(** With the most significant byte first, ECBSink encrypts the numbers that the bytes
    spell from left to right and writes the results the same way. *)
Theorem C86_ecb_big mc {W S} (wr : writer W S) heap (k : key) (E : N -> N) (s : S) (data : bytes) (w : W) :
  m_big mc = true -> (m_strict mc = false \/ heap mod 8 = 0) ->
  transforms k E -> whole data -> never_fails wr ->
  exists s' w',
    ECBSink_write_on mc (logged wr) heap (ECBSink s k) data (w, []) =
    (Ok (ECBSink s' k), (w', map (to_le 8) (ecb (fun x => swap_bytes (E (swap_bytes x))) (blocks8 data)))).
Proof.
  intros HB Ha HE Hw Hn. destruct mc as [big st]. cbn in HB. subst big.
  exact (ecb_sink_blocks_on (Machine true st) wr heap k E s data w Ha HE Hw Hn).
Qed.

(** The CFB sinks encrypt the register as a number, which now has the bytes of the
    ciphertext from left to right; ciphertext and plaintext themselves are combined byte
    by byte. *)
Theorem C86_magma_big mc {W S} (wr : writer W S) m (k : key) (E : N -> N) (ivl ivr : N) (s : S)
    (chunks : list bytes) (w : W) :
  m_big mc = true -> enciphers k E -> ivl < 2 ^ 64 -> ivr < 2 ^ 64 -> whole (List.concat chunks) -> never_fails wr ->
  exists o s' w' log,
    writes (magma_CFBSink_write_on mc (logged wr) m) (magma_CFBSink_init s k ivl ivr) chunks (w, []) = (Ok o, (w', log)) /\
    magma_CFBSink_finalize (logged wr) m o (w', log) = (Ok s', (w', log)) /\
    log = map (to_le 8) (cfb_encrypt (fun x => E (swap_bytes x)) [swap_bytes ivl; swap_bytes ivr]
                                     (blocks8 (List.concat chunks))).
Proof.
  intros HB. destruct mc as [big st]. cbn in HB. subst big. apply (magma_on_blocks (Machine true st)).
Qed.

Theorem C86_gost_big mc {W S} (wr : writer W S) m (k : key) (E : N -> N) (iv : N) (s : S)
    (chunks : list bytes) (w : W) :
  m_big mc = true -> enciphers k E -> iv < 2 ^ 64 -> whole (List.concat chunks) -> never_fails wr ->
  exists o s' w' log,
    writes (gost_CFBSink_write_on mc (logged wr) m) (gost_CFBSink_init s k iv) chunks (w, []) = (Ok o, (w', log)) /\
    gost_CFBSink_finalize (logged wr) m o (w', log) = (Ok s', (w', log)) /\
    log = map (to_le 8) (cfb_encrypt (fun x => E (swap_bytes x)) [swap_bytes iv] (blocks8 (List.concat chunks))).
Proof.
  intros HB. destruct mc as [big st]. cbn in HB. subst big. apply (gost_on_blocks (Machine true st)).
Qed.

(** As many blocks as the register has depend on the iv only: they are the same on any two
    machines. *)
Theorem C86_magma_first mc1 mc2 {W S} (wr : writer W S) m (k : key) (E : N -> N) (ivl ivr : N) (s : S)
    (chunks : list bytes) (w : W) :
  enciphers k E -> ivl < 2 ^ 64 -> ivr < 2 ^ 64 -> whole (List.concat chunks) -> never_fails wr ->
  exists o1 o2 w1 w2 log1 log2,
    writes (magma_CFBSink_write_on mc1 (logged wr) m) (magma_CFBSink_init s k ivl ivr) chunks (w, []) = (Ok o1, (w1, log1)) /\
    writes (magma_CFBSink_write_on mc2 (logged wr) m) (magma_CFBSink_init s k ivl ivr) chunks (w, []) = (Ok o2, (w2, log2)) /\
    firstn 2 log1 = firstn 2 log2.
Proof.
  intros HE H1 H2 Hw Hn.
  destruct (magma_on_blocks mc1 wr m k E ivl ivr s chunks w HE H1 H2 Hw Hn) as (o1 & _ & w1 & log1 & A1 & _ & B1).
  destruct (magma_on_blocks mc2 wr m k E ivl ivr s chunks w HE H1 H2 Hw Hn) as (o2 & _ & w2 & log2 & A2 & _ & B2).
  exists o1, o2, w1, w2, log1, log2. split; [exact A1|]. split; [exact A2|]. subst log1 log2.
  rewrite !firstn_map. f_equal. apply cfb_encrypt_prefix; cbn [List.length]; try lia.
  intros [|[|i]] Hi; [| |lia]; cbn [nth]; now rewrite !sw_twice.
Qed.

Theorem C86_gost_first mc1 mc2 {W S} (wr : writer W S) m (k : key) (E : N -> N) (iv : N) (s : S)
    (chunks : list bytes) (w : W) :
  enciphers k E -> iv < 2 ^ 64 -> whole (List.concat chunks) -> never_fails wr ->
  exists o1 o2 w1 w2 log1 log2,
    writes (gost_CFBSink_write_on mc1 (logged wr) m) (gost_CFBSink_init s k iv) chunks (w, []) = (Ok o1, (w1, log1)) /\
    writes (gost_CFBSink_write_on mc2 (logged wr) m) (gost_CFBSink_init s k iv) chunks (w, []) = (Ok o2, (w2, log2)) /\
    firstn 1 log1 = firstn 1 log2.
Proof.
  intros HE H1 Hw Hn.
  destruct (gost_on_blocks mc1 wr m k E iv s chunks w HE H1 Hw Hn) as (o1 & _ & w1 & log1 & A1 & _ & B1).
  destruct (gost_on_blocks mc2 wr m k E iv s chunks w HE H1 Hw Hn) as (o2 & _ & w2 & log2 & A2 & _ & B2).
  exists o1, o2, w1, w2, log1, log2. split; [exact A1|]. split; [exact A2|]. subst log1 log2.
  rewrite !firstn_map. f_equal. apply cfb_encrypt_prefix; cbn [List.length]; try lia.
  intros [|i] Hi; [|lia]; cbn [nth]; now rewrite !sw_twice.
Qed.

(** The MAC of the numbers that the bytes spell from left to right. An incomplete last
    block is filled with zero bytes on the right; on the other machines these are the most
    significant ones, here the least. *)
Theorem C86_Imit_big mc {W St} (rd : reader W St) g (R : St -> W -> bytes -> Prop) (k : lazykey) (E : N -> N)
    (s : St) (w : W) (data : bytes) (fuel : positive) :
  m_big mc = true -> enciphers (KLazy k) E -> delivers8 rd R -> R s w data -> Forall u8 data -> data <> [] ->
  (List.length data / 8 + 1 <= Pos.to_nat fuel)%nat ->
  exists w', magma_Imit_on mc rd (X86 g) fuel s (Some k) w =
    (Ok (halves (cbc_mac E (if Nat.eqb (List.length data mod 8) 0 then K1 E 64 0x1b else K2 E 64 0x1b)
                         0 (map leading_bytes (pieces 8 data)))), w').
Proof.
  intros HB. destruct mc as [big st]. cbn in HB. subst big. apply (imit_delivers_on (Machine true st)).
Qed.

(** DataImit looks at the halves of a block separately. *)
Theorem C86_DataImit_big mc heap (k : lazykey) (f : nat -> N -> N) (data : bytes) :
  m_big mc = true -> (m_strict mc = false \/ heap mod 8 = 0) -> round_functions k f -> Forall u8 data ->
  DataImit_on mc heap data (Some k) =
  Ok (to_le 8 (mac89 (fun x => swap_in_halves (sixteen_rounds f (swap_in_halves x))) (blocks8 (pad89 data)))).
Proof.
  intros HB. destruct mc as [big st]. cbn in HB. subst big.
  intros Ha Hf Hd. rewrite (DataImit_on_ok (Machine true st) heap k f data Ha Hf Hd). unfold hsw. reflexivity.
Qed.

(** BlkR and BlkL take the bytes of the two words in the order of memory. *)
Theorem C86_kuznyechik_big mc (stack : nat -> N) (x y : N) :
  m_big mc = true -> m_strict mc = false -> x < 2 ^ 64 -> y < 2 ^ 64 ->
  KL_on mc stack (Ok (x, y)) =
  ('(u, v) <- KL (Ok (swap_bytes x, swap_bytes y)) ;; Ok (swap_bytes u, swap_bytes v)).
Proof.
  intros HB Hs Hx Hy. destruct mc as [big st]. cbn in HB, Hs. subst big st.
  rewrite KL_swapped; [unfold kswap, sw; cbn [m_big bind]; reflexivity|reflexivity|now exists x, y].
Qed.

(** So the claim is false: the ciphertexts of the tests would be others. *)
Definition big : machine := Machine true false.

Theorem C86_ecb_refuted :
  exists k data,
    ECBSink_write_on big TestSink_write 0 (ECBSink [] k) data tt <>
    ECBSink_write_on pc TestSink_write 0 (ECBSink [] k) data tt.
Proof.
  exists (KLazy mkey), (le64s P4). intros H.
  apply (f_equal (fun r => match fst r with Ok o => es_sink o | _ => [] end)) in H. vm_compute in H. discriminate.
Qed.

Definition written_magma mc (data : bytes) : bytes :=
  List.concat (snd (snd (magma_CFBSink_write_on mc (logged TestSink_write) ISO
    (magma_CFBSink_init [] (KLazy mkey) 0x1234567890abcdef 0x234567890abcdef1) data (tt, [])))).
Definition written_gost mc (data : bytes) : bytes :=
  List.concat (snd (snd (gost_CFBSink_write_on mc (logged TestSink_write) ISO
    (gost_CFBSink_init [] (KLazy mkey) 0x1234567890abcdef) data (tt, [])))).

Theorem C86_cfb_refuted :
  written_magma big (le64s P4) <> written_magma pc (le64s P4) /\
  written_gost big (le64s P4) <> written_gost pc (le64s P4).
Proof. vm_compute. split; discriminate. Qed.

Theorem C86_macs_refuted :
  fst (magma_Imit_on big MemSource_read X 10 (le64s P4) (Some mkey) tt) <>
  fst (magma_Imit_on pc MemSource_read X 10 (le64s P4) (Some mkey) tt) /\
  DataImit_on big 0 (le64s P4) (Some mkey) <> DataImit_on pc 0 (le64s P4) (Some mkey).
Proof. vm_compute. split; discriminate. Qed.

Theorem C86_kuznyechik_refuted a : KR_on big a (Ok (1, 0)) <> KR_on pc a (Ok (1, 0)).
Proof. vm_compute. discriminate. Qed.

Example C86_example :
  firstn 16 (written_magma big (le64s P4)) = firstn 16 (written_magma pc (le64s P4)) /\
  firstn 16 (written_magma pc (le64s P4)) = le64s [0xdb37e0e266903c83; 0x0d46644c1f9a089c] /\
  firstn 8 (skipn 16 (written_magma big (le64s P4))) <> firstn 8 (skipn 16 (written_magma pc (le64s P4))) /\
  firstn 8 (written_gost big (le64s P4)) = firstn 8 (written_gost pc (le64s P4)).
Proof. vm_compute. repeat split. discriminate. Qed.

(** The numbers of the tests (0xfedcba9876543210, encrypted 0x4ee901e5c2d8ca3d), written
    from left to right. *)
Example C86_example_ecb :
  match fst (ECBSink_write_on big TestSink_write 0 (ECBSink [] (KLazy mkey))
               [0xfe; 0xdc; 0xba; 0x98; 0x76; 0x54; 0x32; 0x10] tt) with
  | Ok o => es_sink o = [0x4e; 0xe9; 0x01; 0xe5; 0xc2; 0xd8; 0xca; 0x3d]
  | _ => False
  end.
Proof. vm_compute. reflexivity. Qed.

(** ** C87 *)

(** What a CFB sink writes on a machine, the CFB source reads on the same machine. *)
Theorem C87_magma mc {W S} (wr : writer W S) m (k : key) (E : N -> N) (ivl ivr : N) (s : S)
    (chunks : list bytes) (w : W) :
  enciphers k E -> ivl < 2 ^ 64 -> ivr < 2 ^ 64 -> whole (List.concat chunks) -> never_fails wr ->
  exists o s' w' log,
    writes (magma_CFBSink_write_on mc (logged wr) m) (magma_CFBSink_init s k ivl ivr) chunks (w, []) = (Ok o, (w', log)) /\
    magma_CFBSink_finalize (logged wr) m o (w', log) = (Ok s', (w', log)) /\
    forall W2 St (rd : reader W2 St) (R : St -> W2 -> bytes -> Prop) m2 src w2 sizes,
      delivers8 rd R -> R src w2 (List.concat log) ->
      exists o2 w3,
        reads (magma_CFBSource_read_on mc rd m2) (magma_CFBSource_init src k ivl ivr) sizes w2 =
        (Ok (served (List.concat chunks) sizes, o2), w3).
Proof. apply magma_round_trip_on. Qed.

Theorem C87_gost mc {W S} (wr : writer W S) m (k : key) (E : N -> N) (iv : N) (s : S)
    (chunks : list bytes) (w : W) :
  enciphers k E -> iv < 2 ^ 64 -> whole (List.concat chunks) -> never_fails wr ->
  exists o s' w' log,
    writes (gost_CFBSink_write_on mc (logged wr) m) (gost_CFBSink_init s k iv) chunks (w, []) = (Ok o, (w', log)) /\
    gost_CFBSink_finalize (logged wr) m o (w', log) = (Ok s', (w', log)) /\
    forall W2 St (rd : reader W2 St) (R : St -> W2 -> bytes -> Prop) m2 src w2 sizes,
      delivers8 rd R -> R src w2 (List.concat log) ->
      exists o2 w3,
        reads (gost_CFBSource_read_on mc rd m2) (gost_CFBSource_init src k iv) sizes w2 =
        (Ok (served (List.concat chunks) sizes, o2), w3).
Proof. apply gost_round_trip_on. Qed.

Definition read_magma mc (cipher : bytes) (sizes : list N) : list bytes :=
  match fst (reads (magma_CFBSource_read_on mc MemSource_read ISO)
               (magma_CFBSource_init cipher (KLazy mkey) 0x1234567890abcdef 0x234567890abcdef1) sizes tt) with
  | Ok (bs, _) => bs
  | _ => []
  end.

(** Read on the machine that wrote it, and on the other. *)
Example C87_example :
  read_magma big (written_magma big (le64s P4)) [5; 100] = [firstn 5 (le64s P4); skipn 5 (le64s P4)] /\
  read_magma pc (written_magma big (le64s P4)) [16] = [firstn 16 (le64s P4)] /\
  read_magma pc (written_magma big (le64s P4)) [100] <> [le64s P4].
Proof. vm_compute. repeat split. discriminate. Qed.

(** ** C88 *)

(** The claim for ECB: what ECBSink writes on a machine, ECBSource reads on it. It holds
    with the least significant byte first. *)
Theorem C88_little mc {W S} (wr : writer W S) heap (k : key) (E D : N -> N) (s : S) (data : bytes) (w : W) :
  m_big mc = false -> (m_strict mc = false \/ heap mod 8 = 0) ->
  enciphers k E -> deciphers k D -> whole data -> never_fails wr ->
  exists o w' log,
    ECBSink_write_on mc (logged wr) heap (ECBSink s k) data (w, []) = (Ok o, (w', log)) /\
    forall W2 St (rd : reader W2 St) (R : St -> W2 -> bytes -> Prop) m src w2 sizes,
      block_source rd R -> R src w2 (List.concat log) -> Forall (fun n => 8 <= n) sizes ->
      exists o2 w3, reads (ECBSource_read_on mc rd m heap) (ECBSource src k) sizes w2 =
        (Ok (served data (map (fun _ => 8) sizes), o2), w3).
Proof.
  intros HB Ha HE HD Hw Hn. destruct mc as [b st]. cbn in HB. subst b.
  destruct (ecb_sink_blocks_on (Machine false st) wr heap k E s data w Ha (enciphers_transforms' k E HE) Hw Hn)
    as (s' & w' & A).
  eexists _, _, _. split; [exact A|]. intros W2 St rd R m src w2 sizes HR Hs Hz.
  rewrite concat_map_to_le in Hs.
  destruct (ecb_reads_on (Machine false st) rd m heap k D R src w2 _ sizes Ha HD HR Hs (unblocks8_whole _) Hz)
    as (o2 & w3 & B).
  exists o2, w3. etransitivity; [exact B|]. do 3 f_equal. f_equal.
  change (unblocks8 (ecb D (blocks8 (unblocks8 (ecb E (blocks8 data))))) = data).
  rewrite blocks8_unblocks8 by (apply ecb_lt; [exact (enciphers_lt _ _ HE)|now apply blocks8_lt]).
  rewrite ecb_ecb; [now apply unblocks8_blocks8| |now apply blocks8_lt].
  intros x Hx. now apply (deciphers_enciphers k E D).
Qed.

(** With the most significant byte first, the sink takes a block as one number of eight
    bytes and the source as two of four: before decryption the halves are exchanged, and
    every block comes back as something else. *)
Theorem C88_big mc {W S} (wr : writer W S) heap (k : key) (E D : N -> N) (s : S) (data : bytes) (w : W) :
  m_big mc = true -> (m_strict mc = false \/ heap mod 8 = 0) ->
  enciphers k E -> deciphers k D -> whole data -> never_fails wr ->
  exists o w' log,
    ECBSink_write_on mc (logged wr) heap (ECBSink s k) data (w, []) = (Ok o, (w', log)) /\
    forall W2 St (rd : reader W2 St) (R : St -> W2 -> bytes -> Prop) m src w2 sizes,
      block_source rd R -> R src w2 (List.concat log) -> Forall (fun n => 8 <= n) sizes ->
      let back x := swap_in_halves (D ((x mod 2 ^ 32) * 2 ^ 32 + x / 2 ^ 32)) in
      exists o2 w3, reads (ECBSource_read_on mc rd m heap) (ECBSource src k) sizes w2 =
        (Ok (served (unblocks8 (map (fun x => back (E (swap_bytes x))) (blocks8 data)))
                    (map (fun _ => 8) sizes), o2), w3).
Proof.
  intros HB Ha HE HD Hw Hn. destruct mc as [b st]. cbn in HB. subst b.
  destruct (ecb_sink_blocks_on (Machine true st) wr heap k E s data w Ha (enciphers_transforms' k E HE) Hw Hn)
    as (s' & w' & A).
  eexists _, _, _. split; [exact A|]. intros W2 St rd R m src w2 sizes HR Hs Hz back.
  rewrite concat_map_to_le in Hs.
  destruct (ecb_reads_on (Machine true st) rd m heap k D R src w2 _ sizes Ha HD HR Hs (unblocks8_whole _) Hz)
    as (o2 & w3 & B).
  exists o2, w3. etransitivity; [exact B|]. do 4 f_equal.
  rewrite blocks8_unblocks8.
  - unfold ecb. rewrite map_map. f_equal. apply map_ext. intros x. unfold sw, hsw, m_big, back.
    f_equal. f_equal. rewrite swap_both. f_equal. apply N.mod_small.
    destruct (HE (swap_bytes x) (swap_bytes_lt x)) as [_ L].
    apply N.div_lt_upper_bound; [discriminate|exact L].
  - apply ecb_lt; [|now apply blocks8_lt]. intros x Hx. apply sw_lt, HE, sw_lt, Hx.
Qed.

Definition ecb_there_and_back mc (data : bytes) : bytes :=
  let c := List.concat (snd (snd (ECBSink_write_on mc (logged TestSink_write) 0 (ECBSink [] (KLazy mkey)) data (tt, [])))) in
  match fst (ECBSource_read_on mc MemSource_read ISO 0 (ECBSource c (KLazy mkey)) 8 tt) with
  | Ok (b, _) => b
  | _ => []
  end.

Theorem C88_refuted :
  exists data, whole data /\ List.length data = 8%nat /\ ecb_there_and_back big data <> data.
Proof.
  exists [1; 2; 3; 4; 5; 6; 7; 8]. split; [split; [reflexivity|repeat constructor]|]. split; [reflexivity|].
  vm_compute. discriminate.
Qed.

Example C88_example :
  ecb_there_and_back pc [1; 2; 3; 4; 5; 6; 7; 8] = [1; 2; 3; 4; 5; 6; 7; 8] /\
  List.length (ecb_there_and_back big [1; 2; 3; 4; 5; 6; 7; 8]) = 8%nat.
Proof. vm_compute. split; reflexivity. Qed.

(** ** C89 *)

(** The claim is that no access of several bytes is at an address unfit for it. For the
    classes of magma and gost89 it holds, as storage from operator new begins at a multiple
    of eight: a machine that insists on alignment does what the others do (C86_same_sinks,
    C86_same_sources, C86_same_macs, with [m_strict mc = true]; here with either byte order). *)
Theorem C89_streams b {W S St} (wr : writer W S) (rd : reader W St) m heap (w : W) :
  heap mod 8 = 0 ->
  (forall k E s data, transforms k E -> Forall u8 data ->
     ECBSink_write_on (Machine b true) wr heap (ECBSink s k) data w =
     ECBSink_write_on (Machine b false) wr heap (ECBSink s k) data w) /\
  (forall k D R s cipher sizes, deciphers k D -> block_source rd R -> R s w cipher -> whole cipher ->
     Forall (fun n => 8 <= n) sizes ->
     exists o o' w1 w2 bs,
       reads (ECBSource_read_on (Machine b true) rd m heap) (ECBSource s k) sizes w = (Ok (bs, o), w1) /\
       reads (ECBSource_read_on (Machine b false) rd m heap) (ECBSource s k) sizes w = (Ok (bs, o'), w2)) /\
  (forall k f data, round_functions k f -> Forall u8 data ->
     DataImit_on (Machine b true) heap data (Some k) = DataImit_on (Machine b false) heap data (Some k)).
Proof.
  intros Ha. split; [|split].
  - intros k E s data HE Hd.
    rewrite (ECBSink_on (Machine b true) wr heap (or_intror Ha) k E s data w HE Hd).
    rewrite (ECBSink_on (Machine b false) wr heap (or_introl eq_refl) k E s data w HE Hd). reflexivity.
  - intros k D R s cipher sizes HD HR Hs Hw Hz.
    destruct (ecb_reads_on (Machine b true) rd m heap k D R s w cipher sizes (or_intror Ha) HD HR Hs Hw Hz) as (o & w1 & A).
    destruct (ecb_reads_on (Machine b false) rd m heap k D R s w cipher sizes (or_introl eq_refl) HD HR Hs Hw Hz) as (o' & w2 & B).
    eexists _, _, _, _, _. split; [exact A|exact B].
  - intros k f data Hf Hd. rewrite (DataImit_on_ok (Machine b true) heap k f data (or_intror Ha) Hf Hd).
    rewrite (DataImit_on_ok (Machine b false) heap k f data (or_introl eq_refl) Hf Hd). reflexivity.
Qed.

(** The alignment of the vectors is needed: from storage at any other address a machine that
    insists on alignment does not read a block. *)
Theorem C89_needs_alignment mc {W S St} (wr : writer W S) (rd : reader W St) m heap : m_strict mc = true ->
  (heap mod 8 <> 0 -> forall o data w, (8 <= List.length data)%nat ->
     ECBSink_write_on mc wr heap o data w = (Undef Misaligned, w)) /\
  (heap mod 4 <> 0 -> forall s k n w p s' w', 8 <= n -> rd s 8 w = (Ok (p, s'), w') -> (8 <= List.length p)%nat ->
     ECBSource_read_on mc rd m heap (ECBSource s k) n w = (Undef Misaligned, w')) /\
  (heap mod 4 <> 0 -> forall data k, DataImit_on mc heap data k = Undef Misaligned).
Proof. apply streams_misaligned. Qed.

(** BlkR reads two uint64_t from the second byte of a local array on: unless the array
    happens to begin one byte before a multiple of eight, that is undefined, and with it
    every encryption by Kuznyechik, with any key. *)
Theorem C89_BlkR_refuted mc a x y : m_strict mc = true -> (a + 1) mod 8 <> 0 ->
  KR_on mc a (Ok (x, y)) = Undef Misaligned.
Proof. apply KR_misaligned. Qed.

Theorem C89_refuted mc (stack : nat -> N) (h x : N) (l : kblock) :
  m_strict mc = true -> (stack 15%nat + 1) mod 8 <> 0 -> h < 2 ^ 128 -> x < 2 ^ 128 ->
  Key_encrypt_on mc stack (Key_blocks_on mc stack (Ok (h mod 2 ^ 64, h / 2 ^ 64)) l)
    (Ok (x mod 2 ^ 64, x / 2 ^ 64)) = Undef Misaligned.
Proof. apply Key_misaligned. Qed.

(** An array aligned to eight bytes is among the wrong ones. *)
Example C89_example :
  KR_on (Machine false true) 4096 (Ok (1, 2)) = Undef Misaligned /\
  KR_on (Machine false true) 4103 (Ok (1, 2)) = KR (Ok (1, 2)) /\
  ECBSink_write_on (Machine false true) TestSink_write 4097 (ECBSink [] (KLazy mkey)) (le64s P4) tt
    = (Undef Misaligned, tt) /\
  match fst (ECBSink_write_on (Machine false true) TestSink_write 4096 (ECBSink [] (KLazy mkey)) (le64s P4) tt) with
  | Ok o => firstn 8 (es_sink o) = le64s [0x2b073f0494f372a0]
  | _ => False
  end.
Proof. vm_compute. repeat split. Qed.

(** ** C90 *)

(** The key taken from a container is the same on every machine, outcomes included: htonl
    undoes what memcpy does. *)
Theorem C90_makeKey mc m (c : container) :
  (forall ik, cont_key c = Ok ik -> Forall u8 ik) -> makeKey_on mc m c = makeKey m c.
Proof. apply makeKey_same. Qed.

(** So is the substitution of Kuznyechik, which works on single bytes in place. *)
Theorem C90_BlkS mc x y : x < 2 ^ 64 -> y < 2 ^ 64 -> KS_on mc (Ok (x, y)) = KS (Ok (x, y)).
Proof. apply KS_same. Qed.

(** The container of the tests; and what a copy without htonl would give. *)
Example C90_example :
  htonl_words_on big 8 (be 32 0xffeeddccbbaa99887766554433221100f0f1f2f3f4f5f6f7f8f9fafbfcfdfeff) =
  [0xffeeddcc; 0xbbaa9988; 0x77665544; 0x33221100; 0xf0f1f2f3; 0xf4f5f6f7; 0xf8f9fafb; 0xfcfdfeff] /\
  of_mem pc [0xff; 0xee; 0xdd; 0xcc] <> of_mem big [0xff; 0xee; 0xdd; 0xcc] /\
  htonl_on pc (of_mem pc [0xff; 0xee; 0xdd; 0xcc]) = 0xffeeddcc /\
  htonl_on big (of_mem big [0xff; 0xee; 0xdd; 0xcc]) = 0xffeeddcc.
Proof. vm_compute. repeat split. discriminate. Qed.

Print Assumptions C86_same_sinks.
Print Assumptions C86_same_sources.
Print Assumptions C86_same_macs.
Print Assumptions C86_same_kuznyechik.
Print Assumptions C86_ecb_big.
Print Assumptions C86_magma_big.
Print Assumptions C86_gost_big.
Print Assumptions C86_magma_first.
Print Assumptions C86_gost_first.
Print Assumptions C86_Imit_big.
Print Assumptions C86_DataImit_big.
Print Assumptions C86_kuznyechik_big.
Print Assumptions C86_ecb_refuted.
Print Assumptions C86_cfb_refuted.
Print Assumptions C86_macs_refuted.
Print Assumptions C86_kuznyechik_refuted.
Print Assumptions C87_magma.
Print Assumptions C87_gost.
Print Assumptions C88_little.
Print Assumptions C88_big.
Print Assumptions C88_refuted.
Print Assumptions C89_streams.
Print Assumptions C89_needs_alignment.
Print Assumptions C89_BlkR_refuted.
Print Assumptions C89_refuted.
Print Assumptions C90_makeKey.
Print Assumptions C90_BlkS.
