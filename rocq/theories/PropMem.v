(** Property C98: memory that runs out. *)
From Verif Require Import Base MagmaModel Streams EffModel MemModel SpecModes SpecStreams SpecEff MemProofs.
Local Open Scope N_scope.

(** With memory that never runs out the model is that of keys with effects. *)
Theorem C98_same_sinks {W S} (wr : writer W S) m (a : act_key W) s rl rr p data w :
  mem_ECBSink_write (mret tt) wr a s data w = act_ECBSink_write wr a s data w /\
  mem_magma_CFBSink_write (mret tt) wr m a (s, rl, rr, p) data w = act_magma_CFBSink_write wr m a (s, rl, rr, p) data w /\
  mem_magma_CFBSink_finalize (mret tt) wr m a (s, rl, rr, p) w = act_magma_CFBSink_finalize wr m a (s, rl, rr, p) w /\
  mem_gost_CFBSink_write (mret tt) wr m a (s, rl, p) data w = act_gost_CFBSink_write wr m a (s, rl, p) data w /\
  mem_gost_CFBSink_finalize (mret tt) wr m a (s, rl, p) w = act_gost_CFBSink_finalize wr m a (s, rl, p) w.
Proof. exact (mem_same_sinks a wr m s rl rr p data w). Qed.

Theorem C98_same_sources {W St} (rd : reader W St) m (a : act_key W) s p rl rr size w :
  mem_ECBSource_read (mret tt) rd m a (inl s) size w = act_ECBSource_read rd m a (inl s) size w /\
  mem_magma_CFBSource_read (mret tt) rd m a (s, p, rl, rr) size w = act_magma_CFBSource_read rd m a (s, p, rl, rr) size w /\
  mem_gost_CFBSource_read (mret tt) rd m a (s, p, rl) size w = act_gost_CFBSource_read rd m a (s, p, rl) size w.
Proof. exact (mem_same_sources a rd m s p rl rr size w). Qed.

(** [alloc] takes memory or throws, when and what is left open; the key may fail too. A
    write does what it does with memory enough and the key [k]; or it throws, and the sink
    below has been given exactly what a successful write of a beginning of the data gives
    it. *)
Theorem C98_ecb_sink {W1 W2 S} (alloc : M W2 unit) (wr : writer W1 S) (a : act_key W2) (k : key) s data w1 w2 out w1' w2' :
  or_throws alloc (Ok tt) -> unreliable a k ->
  mem_ECBSink_write (on_right alloc) (left_writer wr) (right_key a) s data (w1, w2) = (out, (w1', w2')) ->
  (o <-- ECBSink_write wr (ECBSink s k) data ;; mret (es_sink o)) w1 = (out, w1') \/
  exists e d1 d2 o, out = Throw e /\ data = d1 ++ d2 /\ ECBSink_write wr (ECBSink s k) d1 w1 = (Ok o, w1').
Proof. intros Ha H. exact (scarce_ecb alloc Ha a k H wr s data w1 w2 out w1' w2'). Qed.

Theorem C98_magma_sink {W1 W2 S} (alloc : M W2 unit) (wr : writer W1 S) m (a : act_key W2) (k : key) s rl rr p data
    w1 w2 out w1' w2' :
  or_throws alloc (Ok tt) -> unreliable a k ->
  mem_magma_CFBSink_write (on_right alloc) (left_writer wr) m (right_key a) (s, rl, rr, p) data (w1, w2) =
    (out, (w1', w2')) ->
  (o <-- magma_CFBSink_write wr m (MagmaCFBSink s k rl rr p) data ;;
   mret (mcs_sink o, mcs_ivl o, mcs_ivr o, mcs_plain o)) w1 = (out, w1') \/
  exists e d1 d2 o, out = Throw e /\ data = d1 ++ d2 /\
    magma_CFBSink_write wr m (MagmaCFBSink s k rl rr p) d1 w1 = (Ok o, w1').
Proof. intros Ha H. exact (scarce_magma alloc Ha a k H wr m s rl rr p data w1 w2 out w1' w2'). Qed.

Theorem C98_gost_sink {W1 W2 S} (alloc : M W2 unit) (wr : writer W1 S) m (a : act_key W2) (k : key) s rl p data
    w1 w2 out w1' w2' :
  or_throws alloc (Ok tt) -> unreliable a k ->
  mem_gost_CFBSink_write (on_right alloc) (left_writer wr) m (right_key a) (s, rl, p) data (w1, w2) =
    (out, (w1', w2')) ->
  (o <-- gost_CFBSink_write wr m (GostCFBSink s k rl p) data ;;
   mret (gcs_sink o, gcs_iv o, gcs_plain o)) w1 = (out, w1') \/
  exists e d1 d2 o, out = Throw e /\ data = d1 ++ d2 /\
    gost_CFBSink_write wr m (GostCFBSink s k rl p) d1 w1 = (Ok o, w1').
Proof. intros Ha H. exact (scarce_gost alloc Ha a k H wr m s rl p data w1 w2 out w1' w2'). Qed.

(** A finalize does what it should, or throws and nothing was given to the sink below: it
    can be called again. *)
Theorem C98_finalize {W1 W2 S} (alloc : M W2 unit) (wr : writer W1 S) m (a : act_key W2) (k : key) s rl rr p
    w1 w2 out w1' w2' :
  or_throws alloc (Ok tt) -> unreliable a k ->
  (mem_magma_CFBSink_finalize (on_right alloc) (left_writer wr) m (right_key a) (s, rl, rr, p) (w1, w2) =
     (out, (w1', w2')) ->
   magma_CFBSink_finalize wr m (MagmaCFBSink s k rl rr p) w1 = (out, w1') \/
   (exists e, out = Throw e /\ w1' = w1)) /\
  (mem_gost_CFBSink_finalize (on_right alloc) (left_writer wr) m (right_key a) (s, rl, p) (w1, w2) =
     (out, (w1', w2')) ->
   gost_CFBSink_finalize wr m (GostCFBSink s k rl p) w1 = (out, w1') \/
   (exists e, out = Throw e /\ w1' = w1)).
Proof.
  intros Ha H. exact (conj (scarce_magma_finalize alloc Ha a k H wr m s rl rr p w1 w2 out w1' w2')
    (scarce_gost_finalize alloc Ha a k H wr m s rl p w1 w2 out w1' w2')).
Qed.

(** A read gives exactly what it gives with memory enough and the key [k]; or it throws
    after some successful reads of 8 bytes of the source, at most one for ECBSource. *)
Theorem C98_ecb_source {W1 W2 St} (alloc : M W2 unit) (rd : reader W1 St) m (a : act_key W2) (k : key) s size
    w1 w2 out w1' w2' :
  or_throws alloc (Ok tt) -> unreliable a k ->
  mem_ECBSource_read (on_right alloc) (left_reader rd) m (right_key a) (inl s) size (w1, w2) = (out, (w1', w2')) ->
  ('(b, o) <-- ECBSource_read rd m (ECBSource s k) size ;;
   mret (b, match o with ECBSource s' _ => inl s' | ECBBare s' => inr s' end)) w1 = (out, w1') \/
  exists e n, out = Throw e /\ (exists bs s', reads rd s (repeat 8 n) w1 = (Ok (bs, s'), w1')) /\ (n <= 1)%nat.
Proof. intros Ha H. exact (scarce_ecb_read alloc Ha a k H rd m s size w1 w2 out w1' w2'). Qed.

Theorem C98_magma_source {W1 W2 St} (alloc : M W2 unit) (rd : reader W1 St) m (a : act_key W2) (k : key) s p rl rr size
    w1 w2 out w1' w2' :
  or_throws alloc (Ok tt) -> unreliable a k ->
  mem_magma_CFBSource_read (on_right alloc) (left_reader rd) m (right_key a) (s, p, rl, rr) size (w1, w2) =
    (out, (w1', w2')) ->
  ('(b, o) <-- magma_CFBSource_read rd m (MagmaCFBSource s k rl rr p) size ;;
   mret (b, (mcr_source o, mcr_plain o, mcr_ivl o, mcr_ivr o))) w1 = (out, w1') \/
  exists e n, out = Throw e /\ exists bs s', reads rd s (repeat 8 n) w1 = (Ok (bs, s'), w1').
Proof. intros Ha H. exact (scarce_magma_read alloc Ha a k H rd m s p rl rr size w1 w2 out w1' w2'). Qed.

Theorem C98_gost_source {W1 W2 St} (alloc : M W2 unit) (rd : reader W1 St) m (a : act_key W2) (k : key) s p rl size
    w1 w2 out w1' w2' :
  or_throws alloc (Ok tt) -> unreliable a k ->
  mem_gost_CFBSource_read (on_right alloc) (left_reader rd) m (right_key a) (s, p, rl) size (w1, w2) =
    (out, (w1', w2')) ->
  ('(b, o) <-- gost_CFBSource_read rd m (GostCFBSource s k rl p) size ;;
   mret (b, (gcr_source o, gcr_plain o, gcr_iv o))) w1 = (out, w1') \/
  exists e n, out = Throw e /\ exists bs s', reads rd s (repeat 8 n) w1 = (Ok (bs, s'), w1').
Proof. intros Ha H. exact (scarce_gost_read alloc Ha a k H rd m s p rl size w1 w2 out w1' w2'). Qed.

(** Memory fails at the 15th request ([UserExn 0] stands for bad_alloc): 16 bytes are
    written, the first block arrives and the write throws; with the object that a write of
    the first block returns the rest can be written later. A read of 16 bytes throws after
    8 bytes of the source are gone. *)
Definition scarce : M nat unit := fun w => (if Nat.eqb w 14 then Throw (UserExn 0) else Ok tt, Datatypes.S w).
Definition some_key : key :=
  KLazy (LazyKey (fun i => Ok (w32 (0x9e3779b9 * Z.to_N (i + 1)))) (fun v => Ok (w32 (v * 5 + 7)))).
Definition put : writer (list bytes) unit := fun s d w => (Ok s, w ++ [d]).
Definition take : reader bytes unit := fun s n w => (Ok (firstn (N.to_nat n) w, s), skipn (N.to_nat n) w).

Example C98_example_memory : or_throws scarce (Ok tt) /\ @unreliable nat (quiet some_key) some_key.
Proof.
  split.
  - intros w. unfold scarce. cbn [fst]. destruct (Nat.eqb w 14); [right; now eexists|now left].
  - split; intros ? ?; now left.
Qed.

Example C98_example :
  let data := map N.of_nat (seq 0 16) in
  let key := @right_key _ nat (quiet some_key) in
  exists block o,
    mem_magma_CFBSink_write (on_right scarce) (left_writer put) ISO key (tt, 1, 2, []) data ([], 0%nat) =
      (Throw (UserExn 0), ([block], 15%nat)) /\
    magma_CFBSink_write put ISO (MagmaCFBSink tt some_key 1 2 []) (firstn 8 data) [] = (Ok o, [block]) /\
    (exists o2 b2,
      mem_magma_CFBSink_write (on_right scarce) (left_writer put) ISO key
        (mcs_sink o, mcs_ivl o, mcs_ivr o, mcs_plain o) (skipn 8 data) ([block], 15%nat) =
        (Ok (tt, mcs_ivl o2, mcs_ivr o2, []), ([block; b2], 27%nat)) /\
      magma_CFBSink_write put ISO (MagmaCFBSink tt some_key 1 2 []) data [] = (Ok o2, [block; b2])) /\
    mem_magma_CFBSource_read (on_right scarce) (left_reader take) (X86 (fun _ _ => 0)) (right_key (quiet some_key))
      (tt, [], 1, 2) 16 (data, 10%nat) = (Throw (UserExn 0), (skipn 8 data, 15%nat)).
Proof.
  do 2 eexists. split; [vm_compute; reflexivity|]. split; [vm_compute; reflexivity|]. split.
  - exists (MagmaCFBSink tt some_key 12666357656709701818 2949947519229224525 []). eexists.
    split; [vm_compute; reflexivity|vm_compute; reflexivity].
  - vm_compute; reflexivity.
Qed.

Print Assumptions C98_same_sinks.
Print Assumptions C98_same_sources.
Print Assumptions C98_ecb_sink.
Print Assumptions C98_magma_sink.
Print Assumptions C98_gost_sink.
Print Assumptions C98_finalize.
Print Assumptions C98_ecb_source.
Print Assumptions C98_magma_source.
Print Assumptions C98_gost_source.
