(** Properties of the ECB and CFB stream classes: C09-C20, C48, C49. *)
From Verif Require Import Base Text MagmaModel Streams SpecText SpecMagma SpecModes SpecStreams.
From Verif Require Import Lib SinkProofs StreamProofs TowerProofs StreamFacts TestVectors.
Local Open Scope N_scope.

(** For the examples: what an operation returned, without the object that goes with it. *)
Definition returned {A B} (r : res (A * B)) : option A :=
  match r with Ok x => Some (fst x) | _ => None end.
Definition sunk {A B} (f : A -> B) (r : res A) : option B :=
  match r with Ok x => Some (f x) | _ => None end.

(** Every string of 64 hexadecimal digits is a key that meets the hypotheses
    [enciphers], [deciphers] and [transforms] used below, with Magma itself as the
    function; so is every LazyKey whose parts never fail. *)
Theorem C14_hex_keys (s : str) : List.length s = 64%nat -> Forall hex_digit s ->
  enciphers (KLazy (LazyKey_string s)) (Magma_E (number s)) /\
  deciphers (KLazy (LazyKey_string s)) (Magma_D (number s)) /\
  transforms (KLazy (LazyKey_string s)) (Magma_E (number s)).
Proof. apply hex_keys. Qed.

Theorem C14_total_keys (k : lazykey) :
  (forall v i, (0 <= i <= 7)%Z -> exists t, lazy_transform k v i = Ok t) ->
  exists E D, enciphers (KLazy k) E /\ deciphers (KLazy k) D /\ transforms (KLazy k) E.
Proof. apply total_keys. Qed.

(** ** C09 *)

(** What ECBSink does on any data with any Key, failing or not. *)
Theorem C09_any_key {W S} (wr : writer W S) (k : key) (s : S) (data : bytes) (w : W) :
  ECBSink_write wr (ECBSink s k) data w =
  (s' <-- encrypt_send wr (EncryptionBase_transform k) s (blocks8 (complete data)) ;;
   match leftover data with
   | [] => mret (ECBSink s' k)
   | _ :: _ => mthrow (RuntimeError "Unaligned ECB encryption")
   end) w.
Proof. apply ECBSink_write_general. Qed.

(** Whole blocks, in any number of writes: one write per encrypted block. *)
Theorem C09_blocks {W S} (wr : writer W S) (k : key) (E : N -> N) (s : S) (chunks : list bytes) (w : W) :
  transforms k E -> Forall whole chunks -> never_fails wr ->
  exists s' w',
    writes (ECBSink_write (logged wr)) (ECBSink s k) chunks (w, []) =
    (Ok (ECBSink s' k), (w', map (to_le 8) (ecb E (blocks8 (List.concat chunks))))).
Proof. apply ecb_sink_blocks. Qed.

Theorem C09_split {W S} (wr : writer W S) (o : ecb_sink S) (chunks : list bytes) (w : W) :
  Forall (fun c => List.length c mod 8 = 0)%nat chunks ->
  writes (ECBSink_write wr) o chunks w = ECBSink_write wr o (List.concat chunks) w.
Proof. intros H. now apply ECBSink_writes_concat. Qed.

Theorem C09_unaligned {W S} (wr : writer W S) (k : key) (E : N -> N) (s : S) (data : bytes) (w : W) :
  transforms k E -> Forall u8 data -> (List.length data mod 8 <> 0)%nat -> never_fails wr ->
  exists w',
    ECBSink_write (logged wr) (ECBSink s k) data (w, []) =
    (Throw (RuntimeError "Unaligned ECB encryption"),
     (w', map (to_le 8) (ecb E (blocks8 (complete data))))).
Proof. apply ecb_sink_unaligned. Qed.

Example C09_example :
  snd (writes (ECBSink_write (logged TestSink_write)) (ECBSink [] (KLazy mkey))
         [le64s [0x92def06b3c130a59]; []; le64s [0xdb54c704f8189d20; 0x4a98fb2e67a8024c]] (tt, [])) =
  (tt, map (to_le 8) [0x2b073f0494f372a0; 0xde70e715d3556e48; 0x11d8d9e9eacfbc1e]).
Proof. vm_compute. reflexivity. Qed.

Example C09_example_unaligned :
  fst (ECBSink_write (logged TestSink_write) (ECBSink [] (KLazy mkey)) [1; 2; 3; 4; 5; 6; 7; 8; 9] (tt, []))
  = Throw (RuntimeError "Unaligned ECB encryption").
Proof. vm_compute. reflexivity. Qed.

(** ** C10 *)

Theorem C10_round_trip {W S} (wr : writer W S) (k : key) (E D : N -> N) (s : S)
    (chunks : list bytes) (w : W) :
  enciphers k E -> deciphers k D -> Forall whole chunks -> never_fails wr ->
  exists o s' w' w'' log,
    writes (ECBSink_write (logged wr)) (ECBSink s k) chunks (w, []) = (Ok o, (w', log)) /\
    ECBSink_finalize o (w', log) = (Ok s', (w'', log)) /\
    forall W2 St (rd : reader W2 St) (R : St -> W2 -> bytes -> Prop) m src w2 sizes,
      block_source rd R -> R src w2 (List.concat log) -> Forall (fun n => 8 <= n) sizes ->
      exists o2 w3, reads (ECBSource_read rd m) (ECBSource src k) sizes w2 =
        (Ok (served (List.concat chunks) (map (fun _ => 8) sizes), o2), w3).
Proof. apply ecb_round_trip. Qed.

(** Once enough reads were made, all data has been returned. *)
Theorem C10_all_of_it (data : bytes) (n : nat) :
  (List.length data <= 8 * n)%nat -> List.concat (served data (repeat 8 n)) = data.
Proof. apply served_all. Qed.

(** Sources of the kind required exist. *)
Theorem C10_memory_source {W} :
  delivers (@MemSource_read W) (fun s _ data => s = data) /\
  block_source (@MemSource_read W) (fun s _ data => s = data).
Proof. apply memory_source. Qed.

Example C10_example :
  let cipher := le64s [0x2b073f0494f372a0; 0xde70e715d3556e48] in
  returned (fst (reads (ECBSource_read MemSource_read ISO) (ECBSource cipher (KLazy mkey)) [8; 100; 9; 8] tt))
  = Some [le64s [0x92def06b3c130a59]; le64s [0xdb54c704f8189d20]; []; []].
Proof. vm_compute. reflexivity. Qed.

(** ** C11: refuted *)

(** In ISO C++ every incomplete last block is read out of bounds. *)
Theorem C11_refuted {W St} (rd : reader W St) (k : key) (s s' : St) (w w' : W) (p : bytes) (size : N) :
  8 <= size -> rd s 8 w = (Ok (p, s'), w') -> (0 < List.length p < 8)%nat ->
  ECBSource_read rd ISO (ECBSource s k) size w = (Undef OutOfBounds, w').
Proof. apply ecb_short_iso. Qed.

(** On x86 no error is reported either: as many bytes as came in are returned. *)
Theorem C11_no_error_x86 {W St} (rd : reader W St) (k : key) (D : N -> N) g (s s' : St) (w w' : W)
    (p : bytes) (size : N) :
  deciphers k D -> Forall u8 p ->
  8 <= size -> rd s 8 w = (Ok (p, s'), w') -> (0 < List.length p < 8)%nat ->
  exists q, List.length q = List.length p /\
    ECBSource_read rd (X86 g) (ECBSource s k) size w = (Ok (q, ECBSource s' k), w').
Proof. apply ecb_short_x86. Qed.

(** ... and they depend on memory that is not part of the input. *)
Theorem C11_garbage_x86 : exists g1 g2,
  returned (fst (ECBSource_read MemSource_read (X86 g1) (ECBSource [1; 2; 3] (KLazy mkey)) 8 tt)) <>
  returned (fst (ECBSource_read MemSource_read (X86 g2) (ECBSource [1; 2; 3] (KLazy mkey)) 8 tt)).
Proof. exists (fun _ _ => 0), (fun _ _ => 1). vm_compute. discriminate. Qed.

(** ** C12: refuted *)

(** After the end the object returned is the bare source: every later request,
    small or large, gets raw bytes of the underlying source. *)
Theorem C12_refuted {W St} (rd : reader W St) m (k : key) (s s' : St) (w w' : W) (size n : N) :
  8 <= size -> rd s 8 w = (Ok ([], s'), w') ->
  ECBSource_read rd m (ECBSource s k) size w = (Ok ([], ECBBare s'), w') /\
  forall w2, ECBSource_read rd m (ECBBare s') n w2 =
    ('(p, s'') <-- rd s' n ;; mret (p, ECBBare s'')) w2.
Proof. apply ecb_after_end. Qed.

(** A source over a file that grows: the world is what has been appended. *)
Definition GrowingSource_read : reader bytes unit := fun s n w =>
  (Ok (firstn (N.to_nat n) w, s), skipn (N.to_nat n) w).

Example C12_example :
  let o := ECBBare tt in
  fst (ECBSource_read GrowingSource_read ISO (ECBSource tt (KLazy mkey)) 8 []) = Ok ([], o) /\
  fst (ECBSource_read GrowingSource_read ISO o 3 [1; 2; 3; 4; 5; 6; 7; 8]) = Ok ([1; 2; 3], o) /\
  fst (ECBSource_read GrowingSource_read ISO o 8 [1; 2; 3; 4; 5; 6; 7; 8])
    = Ok ([1; 2; 3; 4; 5; 6; 7; 8], o).
Proof. repeat split; vm_compute; reflexivity. Qed.

(** ** C13 *)

(** Any key, any sink, failing or not; also from the middle of a stream. *)
Theorem C13_magma {W S} (wr : writer W S) m (o : magma_cfb_sink S) (chunks : list bytes) (w : W) :
  writes (magma_CFBSink_write wr m) o chunks w = magma_CFBSink_write wr m o (List.concat chunks) w.
Proof. apply magma_writes_concat. Qed.

Theorem C13_gost {W S} (wr : writer W S) m (o : gost_cfb_sink S) (chunks : list bytes) (w : W) :
  writes (gost_CFBSink_write wr m) o chunks w = gost_CFBSink_write wr m o (List.concat chunks) w.
Proof. apply gost_writes_concat. Qed.

Example C13_example :
  let o := magma_CFBSink_init [] (KLazy mkey) 0x1234567890abcdef 0x234567890abcdef1 in
  let d := le64s P4 in
  let '(r, (_, log)) := writes (magma_CFBSink_write (logged TestSink_write) ISO) o
         [[]; firstn 1 d; firstn 9 (skipn 1 d); []; firstn 5 (skipn 10 d); skipn 15 d; [1; 2; 3]] (tt, []) in
  sunk (fun o => (mcs_ivl o, mcs_ivr o, mcs_plain o)) r
    = Some (0x24bdd2035315d38b, 0xbcc0321421075505, [1; 2; 3]) /\
  log = map (to_le 8) [0xdb37e0e266903c83; 0x0d46644c1f9a089c; 0x24bdd2035315d38b; 0xbcc0321421075505].
Proof. vm_compute. split; reflexivity. Qed.

(** ** C14 *)

Theorem C14_magma {W S} (wr : writer W S) m (k : key) (E : N -> N) (ivl ivr : N) (s : S)
    (chunks : list bytes) (w : W) :
  enciphers k E -> ivl < 2 ^ 64 -> ivr < 2 ^ 64 -> whole (List.concat chunks) -> never_fails wr ->
  exists o s' w' log,
    writes (magma_CFBSink_write (logged wr) m) (magma_CFBSink_init s k ivl ivr) chunks (w, [])
      = (Ok o, (w', log)) /\
    magma_CFBSink_finalize (logged wr) m o (w', log) = (Ok s', (w', log)) /\
    log = map (to_le 8) (cfb_encrypt E [ivl; ivr] (blocks8 (List.concat chunks))) /\
    List.length (List.concat log) = List.length (List.concat chunks).
Proof. apply magma_sink_blocks. Qed.

Theorem C14_gost {W S} (wr : writer W S) m (k : key) (E : N -> N) (iv : N) (s : S)
    (chunks : list bytes) (w : W) :
  enciphers k E -> iv < 2 ^ 64 -> whole (List.concat chunks) -> never_fails wr ->
  exists o s' w' log,
    writes (gost_CFBSink_write (logged wr) m) (gost_CFBSink_init s k iv) chunks (w, [])
      = (Ok o, (w', log)) /\
    gost_CFBSink_finalize (logged wr) m o (w', log) = (Ok s', (w', log)) /\
    log = map (to_le 8) (cfb_encrypt E [iv] (blocks8 (List.concat chunks))) /\
    List.length (List.concat log) = List.length (List.concat chunks).
Proof. apply gost_sink_blocks. Qed.

(** The standard's example (GOST R 34.13-2015, A.2.5). *)
Example C14_example :
  cfb_encrypt (Magma_E (number magma_key_str)) [0x1234567890abcdef; 0x234567890abcdef1] P4
  = [0xdb37e0e266903c83; 0x0d46644c1f9a089c; 0x24bdd2035315d38b; 0xbcc0321421075505].
Proof. vm_compute. reflexivity. Qed.

(** ** C15 *)

(** Full claim: the same for data of every length. Whole blocks come back, for every way
    of writing and reading; what is missing is false, see below. *)
Theorem C15_magma_whole_blocks_partial {W S} (wr : writer W S) m (k : key) (E : N -> N) (ivl ivr : N) (s : S)
    (chunks : list bytes) (w : W) :
  enciphers k E -> ivl < 2 ^ 64 -> ivr < 2 ^ 64 -> whole (List.concat chunks) -> never_fails wr ->
  exists o s' w' log,
    writes (magma_CFBSink_write (logged wr) m) (magma_CFBSink_init s k ivl ivr) chunks (w, [])
      = (Ok o, (w', log)) /\
    magma_CFBSink_finalize (logged wr) m o (w', log) = (Ok s', (w', log)) /\
    forall W2 St (rd : reader W2 St) (R : St -> W2 -> bytes -> Prop) m2 src w2 sizes,
      delivers8 rd R -> R src w2 (List.concat log) ->
      exists o2 w3,
        reads (magma_CFBSource_read rd m2) (magma_CFBSource_init src k ivl ivr) sizes w2 =
        (Ok (served (List.concat chunks) sizes, o2), w3).
Proof. apply magma_round_trip. Qed.

Theorem C15_gost_whole_blocks_partial {W S} (wr : writer W S) m (k : key) (E : N -> N) (iv : N) (s : S)
    (chunks : list bytes) (w : W) :
  enciphers k E -> iv < 2 ^ 64 -> whole (List.concat chunks) -> never_fails wr ->
  exists o s' w' log,
    writes (gost_CFBSink_write (logged wr) m) (gost_CFBSink_init s k iv) chunks (w, [])
      = (Ok o, (w', log)) /\
    gost_CFBSink_finalize (logged wr) m o (w', log) = (Ok s', (w', log)) /\
    forall W2 St (rd : reader W2 St) (R : St -> W2 -> bytes -> Prop) m2 src w2 sizes,
      delivers8 rd R -> R src w2 (List.concat log) ->
      exists o2 w3,
        reads (gost_CFBSource_read rd m2) (gost_CFBSource_init src k iv) sizes w2 =
        (Ok (served (List.concat chunks) sizes, o2), w3).
Proof. apply gost_round_trip. Qed.

(** Refuted for every other length: finalize is undefined in ISO C++ whenever 1..7
    bytes are pending. *)
Theorem C15_magma_refuted {W S} (wr : writer W S) (k : key) (E : N -> N) (ivl ivr : N) (s : S)
    (chunks : list bytes) (w : W) :
  enciphers k E -> ivl < 2 ^ 64 -> ivr < 2 ^ 64 -> Forall u8 (List.concat chunks) ->
  (List.length (List.concat chunks) mod 8 <> 0)%nat -> never_fails wr ->
  exists o w', writes (magma_CFBSink_write wr ISO) (magma_CFBSink_init s k ivl ivr) chunks w = (Ok o, w') /\
    magma_CFBSink_finalize wr ISO o w' = (Undef OutOfBounds, w').
Proof. apply magma_finalize_iso. Qed.

Theorem C15_gost_refuted {W S} (wr : writer W S) (k : key) (E : N -> N) (iv : N) (s : S)
    (chunks : list bytes) (w : W) :
  enciphers k E -> iv < 2 ^ 64 -> Forall u8 (List.concat chunks) ->
  (List.length (List.concat chunks) mod 8 <> 0)%nat -> never_fails wr ->
  exists o w', writes (gost_CFBSink_write wr ISO) (gost_CFBSink_init s k iv) chunks w = (Ok o, w') /\
    gost_CFBSink_finalize wr ISO o w' = (Undef OutOfBounds, w').
Proof. apply gost_finalize_iso. Qed.

(** With the stray accesses tolerated, the tail still does not come back: the halves
    of the keystream are exchanged in finalize. *)
Definition magma_trip (d : bytes) : option (list bytes) :=
  returned (fst ((o <-- magma_CFBSink_write TestSink_write X (magma_CFBSink_init [] (KLazy mkey) 1 2) d ;;
        c <-- magma_CFBSink_finalize TestSink_write X o ;;
        reads (magma_CFBSource_read MemSource_read X) (magma_CFBSource_init c (KLazy mkey) 1 2) [100]) tt)).
Definition gost_trip (d : bytes) : option (list bytes) :=
  returned (fst ((o <-- gost_CFBSink_write TestSink_write X (gost_CFBSink_init [] (KLazy mkey) 1) d ;;
        c <-- gost_CFBSink_finalize TestSink_write X o ;;
        reads (gost_CFBSource_read MemSource_read X) (gost_CFBSource_init c (KLazy mkey) 1) [100]) tt)).

Theorem C15_x86_refuted :
  (exists d q, magma_trip d = Some [q] /\ List.length q = List.length d /\ q <> d) /\
  (exists d q, gost_trip d = Some [q] /\ List.length q = List.length d /\ q <> d).
Proof.
  split.
  - exists [1; 2; 3]. remember (magma_trip [1; 2; 3]) as r eqn:Er. vm_compute in Er. subst r.
    eexists. split; [reflexivity|]. split; [reflexivity|discriminate].
  - exists [1; 2; 3]. remember (gost_trip [1; 2; 3]) as r eqn:Er. vm_compute in Er. subst r.
    eexists. split; [reflexivity|]. split; [reflexivity|discriminate].
Qed.

(** ** C16 *)

Theorem C16_magma {W St} (rd : reader W St) m (R : St -> W -> bytes -> Prop) (k : key) (E : N -> N)
    (ivl ivr : N) (s : St) (w : W) (cipher : bytes) (sizes : list N) :
  enciphers k E -> delivers8 rd R -> ivl < 2 ^ 64 -> ivr < 2 ^ 64 -> R s w cipher -> whole cipher ->
  let plain := unblocks8 (cfb_decrypt E [ivl; ivr] (blocks8 cipher)) in
  exists o' w',
    reads (magma_CFBSource_read rd m) (magma_CFBSource_init s k ivl ivr) sizes w =
    (Ok (served plain sizes, o'), w').
Proof. apply magma_source_reads. Qed.

Theorem C16_gost {W St} (rd : reader W St) m (R : St -> W -> bytes -> Prop) (k : key) (E : N -> N)
    (iv : N) (s : St) (w : W) (cipher : bytes) (sizes : list N) :
  enciphers k E -> delivers8 rd R -> iv < 2 ^ 64 -> R s w cipher -> whole cipher ->
  let plain := unblocks8 (cfb_decrypt E [iv] (blocks8 cipher)) in
  exists o' w',
    reads (gost_CFBSource_read rd m) (gost_CFBSource_init s k iv) sizes w =
    (Ok (served plain sizes, o'), w').
Proof. apply gost_source_reads. Qed.

(** [served] really is consecutive pieces of the plaintext. *)
Theorem C16_pieces (plain : bytes) (sizes : list N) :
  List.concat (served plain sizes) = firstn (N.to_nat (total sizes)) plain.
Proof. apply served_concat. Qed.

Example C16_example :
  let c := le64s [0xdb37e0e266903c83; 0x0d46644c1f9a089c] in
  let d := le64s [0x92def06b3c130a59; 0xdb54c704f8189d20] in
  returned (fst (reads (magma_CFBSource_read MemSource_read ISO)
      (magma_CFBSource_init c (KLazy mkey) 0x1234567890abcdef 0x234567890abcdef1) [3; 0; 9; 100; 1] tt))
  = Some [firstn 3 d; []; firstn 9 (skipn 3 d); skipn 12 d; []].
Proof. vm_compute. reflexivity. Qed.

(** ** C17 *)

(** Against every source, with every key: [read] ends after at most [size - buffered]
    inner reads. *)
Theorem C17_magma_terminates {W St} (rd : reader W St) m (o : magma_cfb_source St) (size : N) (w : W) (c : N) :
  (forall s w, fst (rd s 8 w) <> OutOfFuel) ->
  (forall x, BlkEncrypted (BlkRaw64 x) (cast_lazy (mcr_key o)) <> OutOfFuel) ->
  exists r w' c', magma_CFBSource_read (counted rd) m o size (w, c) = (r, (w', c')) /\
    r <> OutOfFuel /\ c <= c' /\ c' - c <= size - len (mcr_plain o).
Proof. apply magma_source_terminates. Qed.

Theorem C17_gost_terminates {W St} (rd : reader W St) m (o : gost_cfb_source St) (size : N) (w : W) (c : N) :
  (forall s w, fst (rd s 8 w) <> OutOfFuel) ->
  (forall x, BlkEncrypted (BlkRaw64 x) (cast_lazy (gcr_key o)) <> OutOfFuel) ->
  exists r w' c', gost_CFBSource_read (counted rd) m o size (w, c) = (r, (w', c')) /\
    r <> OutOfFuel /\ c <= c' /\ c' - c <= size - len (gcr_plain o).
Proof. apply gost_source_terminates. Qed.

(** On whole blocks the number of inner reads is exactly that of started blocks. *)
Theorem C17_magma_exact {W St} (rd : reader W St) m (R : St -> W -> bytes -> Prop) (E : N -> N)
    (o : magma_cfb_source St) (size : N) (w : W) (c : N) (cipher : bytes) :
  enciphers (mcr_key o) E -> delivers8 rd R -> mcr_ivl o < 2 ^ 64 -> mcr_ivr o < 2 ^ 64 ->
  R (mcr_source o) w cipher -> whole cipher -> size <= len (mcr_plain o) + len cipher ->
  exists b o' w', magma_CFBSource_read (counted rd) m o size (w, c) =
    (Ok (b, o'), (w', c + (size - len (mcr_plain o) + 7) / 8)) /\ len b = size.
Proof. apply magma_source_exact. Qed.

Theorem C17_gost_exact {W St} (rd : reader W St) m (R : St -> W -> bytes -> Prop) (E : N -> N)
    (o : gost_cfb_source St) (size : N) (w : W) (c : N) (cipher : bytes) :
  enciphers (gcr_key o) E -> delivers8 rd R -> gcr_iv o < 2 ^ 64 ->
  R (gcr_source o) w cipher -> whole cipher -> size <= len (gcr_plain o) + len cipher ->
  exists b o' w', gost_CFBSource_read (counted rd) m o size (w, c) =
    (Ok (b, o'), (w', c + (size - len (gcr_plain o) + 7) / 8)) /\ len b = size.
Proof. apply gost_source_exact. Qed.

(** An endless source: the bound on the inner reads is met (2 reads for 9 bytes). *)
Definition EndlessSource_read : reader unit unit := fun s n w => (Ok (repeat 0 (N.to_nat n), s), w).
Example C17_example :
  snd (magma_CFBSource_read (counted EndlessSource_read) ISO
         (magma_CFBSource_init tt (KLazy mkey) 1 2) 9 (tt, 0)) = (tt, 2).
Proof. vm_compute. reflexivity. Qed.

(** A source of one-byte pieces on x86: 3 reads for 3 bytes, the general bound. *)
Definition DripSource_read : reader unit unit := fun s n w => (Ok ([7], s), w).
Example C17_example_drip :
  snd (gost_CFBSource_read (counted DripSource_read) X (gost_CFBSource_init tt (KLazy mkey) 1) 3 (tt, 0))
  = (tt, 3).
Proof. vm_compute. reflexivity. Qed.

(** ** C18 *)

Theorem C18_gost {W St} (rd : reader W St) m (R : St -> W -> bytes -> Prop) (k : key) (E : N -> N)
    (iv : N) (s1 s2 : St) (w1 w2 : W) (c1 c2 : bytes) (i : nat) (size : N) :
  enciphers k E -> delivers8 rd R -> iv < 2 ^ 64 ->
  R s1 w1 c1 -> R s2 w2 c2 -> differ_in_block i c1 c2 -> len c1 <= size ->
  exists p1 p2 o1 o2 w1' w2',
    gost_CFBSource_read rd m (gost_CFBSource_init s1 k iv) size w1 = (Ok (p1, o1), w1') /\
    gost_CFBSource_read rd m (gost_CFBSource_init s2 k iv) size w2 = (Ok (p2, o2), w2') /\
    List.length p1 = List.length c1 /\ List.length p2 = List.length c2 /\
    (forall j, j <> i -> j <> (i + 1)%nat -> nth j (blocks8 p1) 0 = nth j (blocks8 p2) 0) /\
    N.lxor (nth i (blocks8 p1) 0) (nth i (blocks8 p2) 0) =
      N.lxor (nth i (blocks8 c1) 0) (nth i (blocks8 c2) 0).
Proof. apply gost_corruption. Qed.

Theorem C18_magma {W St} (rd : reader W St) m (R : St -> W -> bytes -> Prop) (k : key) (E : N -> N)
    (ivl ivr : N) (s1 s2 : St) (w1 w2 : W) (c1 c2 : bytes) (i : nat) (size : N) :
  enciphers k E -> delivers8 rd R -> ivl < 2 ^ 64 -> ivr < 2 ^ 64 ->
  R s1 w1 c1 -> R s2 w2 c2 -> differ_in_block i c1 c2 -> len c1 <= size ->
  exists p1 p2 o1 o2 w1' w2',
    magma_CFBSource_read rd m (magma_CFBSource_init s1 k ivl ivr) size w1 = (Ok (p1, o1), w1') /\
    magma_CFBSource_read rd m (magma_CFBSource_init s2 k ivl ivr) size w2 = (Ok (p2, o2), w2') /\
    List.length p1 = List.length c1 /\ List.length p2 = List.length c2 /\
    (forall j, j <> i -> j <> (i + 2)%nat -> nth j (blocks8 p1) 0 = nth j (blocks8 p2) 0) /\
    N.lxor (nth i (blocks8 p1) 0) (nth i (blocks8 p2) 0) =
      N.lxor (nth i (blocks8 c1) 0) (nth i (blocks8 c2) 0).
Proof. apply magma_corruption. Qed.

Example C18_example :
  let c := [0xdb37e0e266903c83; 0x0d46644c1f9a089c; 0x24bdd2035315d38b; 0xbcc0321421075505] in
  let c' := [0xdb37e0e266903c83; 0x0d46644c1f9a089d; 0x24bdd2035315d38b; 0xbcc0321421075505] in
  differ_in_block 1 (le64s c) (le64s c').
Proof.
  split; [|split; [|split; [reflexivity|split; [vm_compute; repeat constructor|]]]].
  - split; [reflexivity|]. vm_compute. repeat constructor.
  - split; [reflexivity|]. vm_compute. repeat constructor.
  - intros [|[|[|[|[|j]]]]] H; try reflexivity. now elim H.
Qed.

(** ** C19 *)

(** Whatever the underlying sink does: either all went well and it was given all
    ciphertext blocks, or it was given a prefix and its failure is the outcome. *)
Theorem C19_ecb {W S} (wr : writer W S) (k : key) (E : N -> N) (s : S) (data : bytes) (w : W) r w' log :
  transforms k E -> Forall u8 data ->
  ECBSink_write (logged wr) (ECBSink s k) data (w, []) = (r, (w', log)) ->
  let cs := map (to_le 8) (ecb E (blocks8 (complete data))) in
  (log = cs /\ exists s', writes wr s cs w = (Ok s', w') /\
     r = match leftover data with [] => Ok (ECBSink s' k)
         | _ => Throw (RuntimeError "Unaligned ECB encryption") end) \/
  (exists rest, cs = log ++ rest /\ sink_failure wr s log w r w').
Proof. apply ecb_failing_sink. Qed.

Theorem C19_magma {W S} (wr : writer W S) m (k : key) (E : N -> N) (ivl ivr : N) (s : S)
    (chunks : list bytes) (w : W) r w' log :
  enciphers k E -> ivl < 2 ^ 64 -> ivr < 2 ^ 64 -> Forall u8 (List.concat chunks) ->
  writes (magma_CFBSink_write (logged wr) m) (magma_CFBSink_init s k ivl ivr) chunks (w, []) = (r, (w', log)) ->
  let cs := map (to_le 8) (cfb_encrypt E [ivl; ivr] (blocks8 (complete (List.concat chunks)))) in
  (log = cs /\ exists o, r = Ok o /\ writes wr s cs w = (Ok (mcs_sink o), w')) \/
  (exists rest, cs = log ++ rest /\ sink_failure wr s log w r w').
Proof. apply magma_failing_sink. Qed.

Theorem C19_gost {W S} (wr : writer W S) m (k : key) (E : N -> N) (iv : N) (s : S)
    (chunks : list bytes) (w : W) r w' log :
  enciphers k E -> iv < 2 ^ 64 -> Forall u8 (List.concat chunks) ->
  writes (gost_CFBSink_write (logged wr) m) (gost_CFBSink_init s k iv) chunks (w, []) = (r, (w', log)) ->
  let cs := map (to_le 8) (cfb_encrypt E [iv] (blocks8 (complete (List.concat chunks)))) in
  (log = cs /\ exists o, r = Ok o /\ writes wr s cs w = (Ok (gcs_sink o), w')) \/
  (exists rest, cs = log ++ rest /\ sink_failure wr s log w r w').
Proof. apply gost_failing_sink. Qed.

(** A disk with room for one block. *)
Definition FullDisk_write : writer N unit := fun s d w =>
  if w <? 8 then (Throw (UserExn 28), w) else (Ok s, w - 8).
Example C19_example :
  ECBSink_write (logged FullDisk_write) (ECBSink tt (KLazy mkey)) (le64s P4) (8, [])
  = (Throw (UserExn 28), (0, map (to_le 8) [0x2b073f0494f372a0; 0xde70e715d3556e48])).
Proof. vm_compute. reflexivity. Qed.

(** ** C20: refuted *)

(** ECBSink does work with every Key (C09 needs only [transforms]); the other classes
    dereference a null pointer as soon as a block is due. *)
Theorem C20_refuted (f : N -> Z -> res N) :
  (forall W S (wr : writer W S) m s ivl ivr p data w, (List.length p < 8)%nat ->
     (8 <= List.length p + List.length data)%nat ->
     magma_CFBSink_write wr m (MagmaCFBSink s (KUser f) ivl ivr p) data w = (Undef NullDeref, w)) /\
  (forall W S (wr : writer W S) m s iv p data w, (List.length p < 8)%nat ->
     (8 <= List.length p + List.length data)%nat ->
     gost_CFBSink_write wr m (GostCFBSink s (KUser f) iv p) data w = (Undef NullDeref, w)) /\
  (forall W St (rd : reader W St) m s ivl ivr size w, 0 < size ->
     magma_CFBSource_read rd m (magma_CFBSource_init s (KUser f) ivl ivr) size w = (Undef NullDeref, w)) /\
  (forall W St (rd : reader W St) m s iv size w, 0 < size ->
     gost_CFBSource_read rd m (gost_CFBSource_init s (KUser f) iv) size w = (Undef NullDeref, w)) /\
  (forall W St (rd : reader W St) m s s' p size w w', 8 <= size ->
     rd s 8 w = (Ok (p, s'), w') -> List.length p = 8%nat ->
     ECBSource_read rd m (ECBSource s (KUser f)) size w = (Undef NullDeref, w')).
Proof. apply user_key_null. Qed.

(** ECBSink with any Key that never fails on key words 0..7: the Feistel network of the
    standard over that Key's transform. *)
Theorem C20_ECBSink_any_key (k : key) :
  (forall v i, (0 <= i <= 7)%Z -> exists t, key_transform k v i = Ok t) ->
  exists f, transforms k (encryption f) /\
    forall i v t, (i < 8)%nat -> key_transform k v (Z.of_nat i) = Ok t -> f i v = t.
Proof. apply any_key_transforms. Qed.

Example C20_example :
  let k := KUser (fun v i => Ok (v * v + Z.to_N i)) in
  sunk (fun o => List.length (es_sink o)) (fst (ECBSink_write TestSink_write (ECBSink [] k) [1; 2; 3; 4; 5; 6; 7; 8] tt)) = Some 8%nat /\
  fst (magma_CFBSink_write TestSink_write ISO (magma_CFBSink_init [] k 1 2) [1; 2; 3; 4; 5; 6; 7; 8] tt)
    = Undef NullDeref.
Proof. split; vm_compute; reflexivity. Qed.

(** ** C48 *)

(** A tower of sinks hands on exactly the successive encryptions of the data ... *)
Theorem C48_sinks {W S} (wr : writer W S) m (xs : list known_layer) (data : bytes) (s : S) (w : W) :
  Forall known_ok xs -> whole data -> never_fails wr ->
  exists s' w' log,
    (o <-- tower_write (logged wr) m (map kl xs) (sink_tower_init s (map kl xs)) data ;;
     tower_finalize (logged wr) m (map kl xs) o) (w, []) = (Ok s', (w', log)) /\
    List.concat log = unblocks8 (tower_encrypt xs (blocks8 data)).
Proof. apply tower_sink_bytes. Qed.

(** ... and the mirrored tower of sources, over anything that delivers those bytes,
    gives the data back: in blocks, *)
Theorem C48_sources_blocks {W St} (rd : reader W St) m (R : St -> W -> bytes -> Prop)
    (xs : list known_layer) (data : bytes) (src : St) (w : W) (n : nat) :
  Forall known_ok xs -> whole data -> block_source rd R ->
  R src w (unblocks8 (tower_encrypt xs (blocks8 data))) ->
  exists o w', reads (tower_read rd m (map kl xs)) (source_tower_init src (map kl xs)) (repeat 8 n) w =
    (Ok (served data (repeat 8 n), o), w').
Proof. apply tower_source_blocks. Qed.

(** and, when the outermost layer is a CFBSource, in pieces of any size. *)
Theorem C48_sources_any_size {W St} (rd : reader W St) m (R : St -> W -> bytes -> Prop)
    (x : known_layer) (xs : list known_layer) (data : bytes) (src : St) (w : W) (sizes : list N) :
  Forall known_ok (x :: xs) -> is_cfb x -> whole data -> block_source rd R ->
  R src w (unblocks8 (tower_encrypt (x :: xs) (blocks8 data))) ->
  exists o w', reads (tower_read rd m (map kl (x :: xs))) (source_tower_init src (map kl (x :: xs))) sizes w =
    (Ok (served data sizes, o), w').
Proof. apply tower_source_sizes. Qed.

(** One layer at a time, as [delivers] / [delivers_blocks] in and out. *)
Theorem C48_CFBSource_is_source {W St} (rd : reader W St) m (R : St -> W -> bytes -> Prop) (k : key) (E : N -> N) :
  enciphers k E -> delivers8 rd R ->
  delivers (magma_CFBSource_read rd m) (magma_cfb_left k E R) /\
  delivers (gost_CFBSource_read rd m) (gost_cfb_left k E R).
Proof. intros HE HR. split; [now apply magma_delivers|now apply gost_delivers]. Qed.

Theorem C48_ECBSource_is_source {W St} (rd : reader W St) m (R : St -> W -> bytes -> Prop) (k : key) (D : N -> N) :
  deciphers k D -> block_source rd R -> delivers_blocks (ECBSource_read rd m) (ecb_left k D R).
Proof. apply ecb_delivers. Qed.

Example C48_example :
  let ls := [LMagmaCFB (KLazy mkey) 1 2; LECB (KLazy gkey); LGostCFB (KLazy mkey) 3] in
  let d := le64s P4 in
  let c := fst ((o <-- tower_write TestSink_write ISO ls (sink_tower_init [] ls) d ;;
                 tower_finalize TestSink_write ISO ls o) tt) in
  match c with
  | Ok cipher =>
      List.length cipher = 32%nat /\ cipher <> d /\
      returned (fst (reads (tower_read MemSource_read ISO ls) (source_tower_init cipher ls) [5; 50] tt)) = Some [firstn 5 d; skipn 5 d]
  | _ => False
  end.
Proof. vm_compute. split; [reflexivity|split; [discriminate|reflexivity]]. Qed.

(** ** C49 *)

Theorem C49_ecb {W S} (wr : writer W S) (k : key) (E D : N -> N) s d1 d2 w o1 o2 w1 w2 l1 l2 :
  enciphers k E -> deciphers k D -> whole d1 -> whole d2 ->
  ECBSink_write (logged wr) (ECBSink s k) d1 (w, []) = (Ok o1, (w1, l1)) ->
  ECBSink_write (logged wr) (ECBSink s k) d2 (w, []) = (Ok o2, (w2, l2)) ->
  List.concat l1 = List.concat l2 -> d1 = d2.
Proof. apply ecb_injective. Qed.

Theorem C49_magma {W S} (wr : writer W S) m (k : key) (E : N -> N) ivl ivr s d1 d2 w o1 o2 w1 w2 l1 l2 :
  enciphers k E -> ivl < 2 ^ 64 -> ivr < 2 ^ 64 -> whole d1 -> whole d2 ->
  magma_CFBSink_write (logged wr) m (magma_CFBSink_init s k ivl ivr) d1 (w, []) = (Ok o1, (w1, l1)) ->
  magma_CFBSink_write (logged wr) m (magma_CFBSink_init s k ivl ivr) d2 (w, []) = (Ok o2, (w2, l2)) ->
  List.concat l1 = List.concat l2 -> d1 = d2.
Proof. apply magma_injective. Qed.

Theorem C49_gost {W S} (wr : writer W S) m (k : key) (E : N -> N) iv s d1 d2 w o1 o2 w1 w2 l1 l2 :
  enciphers k E -> iv < 2 ^ 64 -> whole d1 -> whole d2 ->
  gost_CFBSink_write (logged wr) m (gost_CFBSink_init s k iv) d1 (w, []) = (Ok o1, (w1, l1)) ->
  gost_CFBSink_write (logged wr) m (gost_CFBSink_init s k iv) d2 (w, []) = (Ok o2, (w2, l2)) ->
  List.concat l1 = List.concat l2 -> d1 = d2.
Proof. apply gost_injective. Qed.

(** Two plaintexts that meet the hypotheses, and their ciphertexts. *)
Example C49_example :
  let run d := snd (snd (magma_CFBSink_write (logged TestSink_write) ISO
                           (magma_CFBSink_init [] (KLazy mkey) 1 2) (le64s d) (tt, []))) in
  whole (le64s [1; 2]) /\ whole (le64s [1; 3]) /\ run [1; 2] <> run [1; 3] /\
  nth 0 (run [1; 2]) [] = nth 0 (run [1; 3]) [].
Proof.
  assert (H : forall a b, whole (le64s [a; b])).
  { intros a b. split; [reflexivity|]. unfold le64s. cbn [flat_map]. repeat (apply Forall_app; split);
      auto using to_le_u8. }
  split; [apply H|]. split; [apply H|]. split; vm_compute; [discriminate|reflexivity].
Qed.

Print Assumptions C14_hex_keys.
Print Assumptions C14_total_keys.
Print Assumptions C09_any_key.
Print Assumptions C09_blocks.
Print Assumptions C09_split.
Print Assumptions C09_unaligned.
Print Assumptions C10_round_trip.
Print Assumptions C10_all_of_it.
Print Assumptions C10_memory_source.
Print Assumptions C11_refuted.
Print Assumptions C11_no_error_x86.
Print Assumptions C11_garbage_x86.
Print Assumptions C12_refuted.
Print Assumptions C13_magma.
Print Assumptions C13_gost.
Print Assumptions C14_magma.
Print Assumptions C14_gost.
Print Assumptions C15_magma_whole_blocks_partial.
Print Assumptions C15_gost_whole_blocks_partial.
Print Assumptions C15_magma_refuted.
Print Assumptions C15_gost_refuted.
Print Assumptions C15_x86_refuted.
Print Assumptions C16_magma.
Print Assumptions C16_gost.
Print Assumptions C16_pieces.
Print Assumptions C17_magma_terminates.
Print Assumptions C17_gost_terminates.
Print Assumptions C17_magma_exact.
Print Assumptions C17_gost_exact.
Print Assumptions C18_gost.
Print Assumptions C18_magma.
Print Assumptions C19_ecb.
Print Assumptions C19_magma.
Print Assumptions C19_gost.
Print Assumptions C20_refuted.
Print Assumptions C20_ECBSink_any_key.
Print Assumptions C48_sinks.
Print Assumptions C48_sources_blocks.
Print Assumptions C48_sources_any_size.
Print Assumptions C48_CFBSource_is_source.
Print Assumptions C48_ECBSource_is_source.
Print Assumptions C49_ecb.
Print Assumptions C49_magma.
Print Assumptions C49_gost.
