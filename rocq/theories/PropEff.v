(** Properties C92 and C93: keys that act on the world. *)
From Verif Require Import Base MagmaModel Streams EffModel SpecModes SpecEff EffProofs.
Local Open Scope N_scope.

(** ** C92 *)

(** The model with acting keys is the model of the other properties whenever the key is a
    function. *)
Theorem C92_same_keys {W} (k : key) (b : block) (v : N) (w : W) :
  act_BlkEncrypted (lift b) (act_cast (quiet k)) w = (BlkEncrypted b (cast_lazy k), w) /\
  act_BlkDecrypted (lift b) (act_cast (quiet k)) w = (BlkDecrypted b (cast_lazy k), w) /\
  act_EncryptionBase (quiet k) v w = (EncryptionBase_transform k v, w).
Proof. exact (conj (mimics_encrypted k b w) (conj (mimics_decrypted k b w) (mimics_base k v w))). Qed.

Theorem C92_same_sinks {W S} (wr : writer W S) m (k : key) s (rl rr : N) p data (w : W) :
  act_ECBSink_write wr (quiet k) s data w =
    (o <-- ECBSink_write wr (ECBSink s k) data ;; mret (es_sink o)) w /\
  act_magma_CFBSink_write wr m (quiet k) (s, rl, rr, p) data w =
    (o <-- magma_CFBSink_write wr m (MagmaCFBSink s k rl rr p) data ;;
     mret (mcs_sink o, mcs_ivl o, mcs_ivr o, mcs_plain o)) w /\
  act_magma_CFBSink_finalize wr m (quiet k) (s, rl, rr, p) w =
    magma_CFBSink_finalize wr m (MagmaCFBSink s k rl rr p) w /\
  act_gost_CFBSink_write wr m (quiet k) (s, rl, p) data w =
    (o <-- gost_CFBSink_write wr m (GostCFBSink s k rl p) data ;; mret (gcs_sink o, gcs_iv o, gcs_plain o)) w /\
  act_gost_CFBSink_finalize wr m (quiet k) (s, rl, p) w =
    gost_CFBSink_finalize wr m (GostCFBSink s k rl p) w.
Proof.
  exact (conj (same_ecb wr k s data w) (conj (same_magma wr m k s rl rr p data w)
    (conj (same_magma_finalize wr m k s rl rr p w) (conj (same_gost wr m k s rl p data w)
    (same_gost_finalize wr m k s rl p w))))).
Qed.

Theorem C92_same_sources {W St} (rd : reader W St) m (k : key) s (rl rr : N) p size (w : W) :
  act_ECBSource_read rd m (quiet k) (inl s) size w =
    ('(b, o) <-- ECBSource_read rd m (ECBSource s k) size ;;
     mret (b, match o with ECBSource s' _ => inl s' | ECBBare s' => inr s' end)) w /\
  act_magma_CFBSource_read rd m (quiet k) (s, p, rl, rr) size w =
    ('(b, o) <-- magma_CFBSource_read rd m (MagmaCFBSource s k rl rr p) size ;;
     mret (b, (mcr_source o, mcr_plain o, mcr_ivl o, mcr_ivr o))) w /\
  act_gost_CFBSource_read rd m (quiet k) (s, p, rl) size w =
    ('(b, o) <-- gost_CFBSource_read rd m (GostCFBSource s k rl p) size ;;
     mret (b, (gcr_source o, gcr_plain o, gcr_iv o))) w.
Proof.
  exact (conj (same_ecb_read rd m k s size w) (conj (same_magma_read rd m k s p rl rr size w)
    (same_gost_read rd m k s p rl size w))).
Qed.

(** The calls of one block, for any key that acts: with a LazyKey one KeyData::key and one
    Sbox::transform per round, in this order, with a key of the user one Key::transform;
    the indices run 0..7 three times and then 7..0, for decryption 0..7 and then 7..0
    three times. When the key throws, what was called until then is a beginning of this. *)
Theorem C92_order_encrypt {W} (a : act_key W) (b : block) (w : W) (l : list call) :
  exists r w' l', act_BlkEncrypted (lift b) (act_cast (noted_key a)) (w, l) = (r, (w', l ++ l')) /\
    recorded l' (block_calls a ([0; 1; 2; 3; 4; 5; 6; 7; 0; 1; 2; 3; 4; 5; 6; 7;
                                 0; 1; 2; 3; 4; 5; 6; 7; 7; 6; 5; 4; 3; 2; 1; 0]%Z)) r.
Proof. exact (traced_encrypted a b w l). Qed.

Theorem C92_order_ecb {W} (a : act_key W) (v : N) (w : W) (l : list call) :
  exists r w' l', act_EncryptionBase (noted_key a) v (w, l) = (r, (w', l ++ l')) /\
    recorded l' (block_calls a encrypt_order) r.
Proof. exact (traced_base a v w l). Qed.

Theorem C92_order_decrypt {W} (a : act_key W) (b : block) (w : W) (l : list call) :
  exists r w' l', act_BlkDecrypted (lift b) (act_cast (noted_key a)) (w, l) = (r, (w', l ++ l')) /\
    recorded l' (block_calls a ([0; 1; 2; 3; 4; 5; 6; 7; 7; 6; 5; 4; 3; 2; 1; 0;
                                 7; 6; 5; 4; 3; 2; 1; 0; 7; 6; 5; 4; 3; 2; 1; 0]%Z)) r.
Proof. exact (traced_decrypted a b w l). Qed.

(** The sinks: for each block that becomes complete the calls of one encryption, then one
    write of 8 bytes; nothing else is called, and nothing for bytes that do not complete a
    block. *)
Theorem C92_order_ecb_sink {W S} (wr : writer W S) (a : act_key W) s data (w : W) l :
  exists r w' l', act_ECBSink_write (noted_writer wr) (noted_key a) s data (w, l) = (r, (w', l ++ l')) /\
    recorded l' (List.concat (repeat (block_calls a encrypt_order ++ [CallWrite 8]) (List.length data / 8))) r.
Proof. exact (traced_ecb a wr s data w l). Qed.

Theorem C92_order_magma_sink {W S} (wr : writer W S) m (a : act_key W) s rl rr p data (w : W) l :
  (List.length p < 8)%nat ->
  exists r w' l',
    act_magma_CFBSink_write (noted_writer wr) m (noted_key a) (s, rl, rr, p) data (w, l) = (r, (w', l ++ l')) /\
    recorded l' (List.concat (repeat (block_calls a encrypt_order ++ [CallWrite 8])
                                ((List.length p + List.length data) / 8))) r.
Proof. intros L. exact (traced_magma_loop a wr m data p s rl rr L w l). Qed.

Theorem C92_order_gost_sink {W S} (wr : writer W S) m (a : act_key W) s rl p data (w : W) l :
  (List.length p < 8)%nat ->
  exists r w' l',
    act_gost_CFBSink_write (noted_writer wr) m (noted_key a) (s, rl, p) data (w, l) = (r, (w', l ++ l')) /\
    recorded l' (List.concat (repeat (block_calls a encrypt_order ++ [CallWrite 8])
                                ((List.length p + List.length data) / 8))) r.
Proof. intros L. exact (traced_gost_loop a wr m data p s rl L w l). Qed.

Theorem C92_order_finalize {W S} (wr : writer W S) m (a : act_key W) s rl rr p (w : W) l :
  let full := match p with
              | [] => []
              | _ :: _ => block_calls a encrypt_order ++ [CallWrite (List.length p)]
              end in
  (exists r w' l', act_magma_CFBSink_finalize (noted_writer wr) m (noted_key a) (s, rl, rr, p) (w, l) =
                     (r, (w', l ++ l')) /\ recorded l' full r) /\
  (exists r w' l', act_gost_CFBSink_finalize (noted_writer wr) m (noted_key a) (s, rl, p) (w, l) =
                     (r, (w', l ++ l')) /\ recorded l' full r).
Proof. exact (conj (traced_magma_finalize a wr m s rl rr p w l) (traced_gost_finalize a wr m s rl p w l)). Qed.

(** The sources: CFBSource works out the encryption before each read of the source, even
    of the one that finds the end; ECBSource reads first, and calls the key for nothing
    that is not there. *)
Theorem C92_order_magma_source {W St} (rd : reader W St) m (a : act_key W) o size (w : W) l :
  exists n r w' l',
    act_magma_CFBSource_read (noted_reader rd) m (noted_key a) o size (w, l) = (r, (w', l ++ l')) /\
    recorded l' (List.concat (repeat (block_calls a encrypt_order ++ [CallRead 8]) n)) r.
Proof. exact (traced_magma_read a rd m o size w l). Qed.

Theorem C92_order_gost_source {W St} (rd : reader W St) m (a : act_key W) o size (w : W) l :
  exists n r w' l',
    act_gost_CFBSource_read (noted_reader rd) m (noted_key a) o size (w, l) = (r, (w', l ++ l')) /\
    recorded l' (List.concat (repeat (block_calls a encrypt_order ++ [CallRead 8]) n)) r.
Proof. exact (traced_gost_read a rd m o size w l). Qed.

Theorem C92_order_ecb_source {W St} (rd : reader W St) m (a : act_key W) s size (w : W) l :
  exists r w' l',
    act_ECBSource_read (noted_reader rd) m (noted_key a) (inl s) size (w, l) = (r, (w', l ++ l')) /\
    (exists rest, CallRead 8 :: block_calls a decrypt_order = l' ++ rest) /\
    (size < 8 -> l' = []) /\
    (forall b o, r = Ok (b, o) ->
       l' = match b with [] => [CallRead 8] | _ :: _ => CallRead 8 :: block_calls a decrypt_order end).
Proof. exact (traced_ecb_read a rd m s size w l). Qed.

(** A key kept in a device: 20 bytes make 2 * 64 calls of it and two writes, and finalize
    64 more and one write of the 4 bytes that are left. *)
Definition device : act_key nat :=
  AKLazy (ActLazy (fun i => fun w => (Ok (w32 (0x9e3779b9 * Z.to_N (i + 1))), Datatypes.S w))
                  (fun v => fun w => (Ok (w32 (v * 5 + 7)), Datatypes.S w))).
Definition keeps : writer nat (list bytes) := fun s d w => (Ok (s ++ [d]), w).

Example C92_example :
  exists s rl rr l,
    act_magma_CFBSink_write (noted_writer keeps) (X86 (fun _ _ => 0)) (noted_key device) ([], 1, 2, [])
      (map N.of_nat (seq 0 20)) (0%nat, []) = (Ok (s, rl, rr, [16; 17; 18; 19]), (128%nat, l)) /\
    List.length s = 2%nat /\ List.length l = 130%nat /\
    nth 64 l CallSbox = CallWrite 8 /\ nth 129 l CallSbox = CallWrite 8 /\
    exists s2 l2, act_magma_CFBSink_finalize (noted_writer keeps) (X86 (fun _ _ => 0)) (noted_key device)
        (s, rl, rr, [16; 17; 18; 19]) (128%nat, l) = (Ok s2, (192%nat, l2)) /\
      List.length s2 = 3%nat /\ List.length l2 = 195%nat /\ nth 194 l2 CallSbox = CallWrite 4.
Proof.
  do 4 eexists. split; [vm_compute; reflexivity|]. split; [reflexivity|]. split; [reflexivity|].
  split; [reflexivity|]. split; [reflexivity|].
  do 2 eexists. split; [vm_compute; reflexivity|]. split; [reflexivity|]. split; reflexivity.
Qed.

Print Assumptions C92_same_keys.
Print Assumptions C92_same_sinks.
Print Assumptions C92_same_sources.
Print Assumptions C92_order_encrypt.
Print Assumptions C92_order_ecb.
Print Assumptions C92_order_decrypt.
Print Assumptions C92_order_ecb_sink.
Print Assumptions C92_order_magma_sink.
Print Assumptions C92_order_gost_sink.
Print Assumptions C92_order_finalize.
Print Assumptions C92_order_magma_source.
Print Assumptions C92_order_gost_source.
Print Assumptions C92_order_ecb_source.

(** ** C93 *)

(** A key that answers like [k] whenever it answers, and otherwise throws, for example
    because a device does not respond. What a write does is then exactly what it does with
    [k]; or it throws, and the sink has been given exactly what a successful write of the
    first bytes [d1] with [k] gives it. *)
Theorem C93_ecb_sink {W1 W2 S} (wr : writer W1 S) (a : act_key W2) (k : key) s data w1 w2 out w1' w2' :
  unreliable a k ->
  act_ECBSink_write (left_writer wr) (right_key a) s data (w1, w2) = (out, (w1', w2')) ->
  (o <-- ECBSink_write wr (ECBSink s k) data ;; mret (es_sink o)) w1 = (out, w1') \/
  exists e d1 d2 o, out = Throw e /\ data = d1 ++ d2 /\ ECBSink_write wr (ECBSink s k) d1 w1 = (Ok o, w1').
Proof. intros H. exact (faulty_ecb a k H wr s data w1 w2 out w1' w2'). Qed.

Theorem C93_magma_sink {W1 W2 S} (wr : writer W1 S) m (a : act_key W2) (k : key) s rl rr p data w1 w2 out w1' w2' :
  unreliable a k ->
  act_magma_CFBSink_write (left_writer wr) m (right_key a) (s, rl, rr, p) data (w1, w2) = (out, (w1', w2')) ->
  (o <-- magma_CFBSink_write wr m (MagmaCFBSink s k rl rr p) data ;;
   mret (mcs_sink o, mcs_ivl o, mcs_ivr o, mcs_plain o)) w1 = (out, w1') \/
  exists e d1 d2 o, out = Throw e /\ data = d1 ++ d2 /\
    magma_CFBSink_write wr m (MagmaCFBSink s k rl rr p) d1 w1 = (Ok o, w1').
Proof. intros H. exact (faulty_magma a k H wr m s rl rr p data w1 w2 out w1' w2'). Qed.

Theorem C93_gost_sink {W1 W2 S} (wr : writer W1 S) m (a : act_key W2) (k : key) s rl p data w1 w2 out w1' w2' :
  unreliable a k ->
  act_gost_CFBSink_write (left_writer wr) m (right_key a) (s, rl, p) data (w1, w2) = (out, (w1', w2')) ->
  (o <-- gost_CFBSink_write wr m (GostCFBSink s k rl p) data ;;
   mret (gcs_sink o, gcs_iv o, gcs_plain o)) w1 = (out, w1') \/
  exists e d1 d2 o, out = Throw e /\ data = d1 ++ d2 /\
    gost_CFBSink_write wr m (GostCFBSink s k rl p) d1 w1 = (Ok o, w1').
Proof. intros H. exact (faulty_gost a k H wr m s rl p data w1 w2 out w1' w2'). Qed.

Theorem C93_finalize {W1 W2 S} (wr : writer W1 S) m (a : act_key W2) (k : key) s rl rr p w1 w2 out w1' w2' :
  unreliable a k ->
  (act_magma_CFBSink_finalize (left_writer wr) m (right_key a) (s, rl, rr, p) (w1, w2) = (out, (w1', w2')) ->
   magma_CFBSink_finalize wr m (MagmaCFBSink s k rl rr p) w1 = (out, w1') \/
   (exists e, out = Throw e /\ w1' = w1)) /\
  (act_gost_CFBSink_finalize (left_writer wr) m (right_key a) (s, rl, p) (w1, w2) = (out, (w1', w2')) ->
   gost_CFBSink_finalize wr m (GostCFBSink s k rl p) w1 = (out, w1') \/
   (exists e, out = Throw e /\ w1' = w1)).
Proof.
  intros H. exact (conj (faulty_magma_finalize a k H wr m s rl rr p w1 w2 out w1' w2')
    (faulty_gost_finalize a k H wr m s rl p w1 w2 out w1' w2')).
Qed.

(** A read gives exactly what it gives with [k]; or it throws after some successful reads
    of 8 bytes of the source, one for ECBSource. Wrong bytes are never returned. *)
Theorem C93_ecb_source {W1 W2 St} (rd : reader W1 St) m (a : act_key W2) (k : key) s size w1 w2 out w1' w2' :
  unreliable a k ->
  act_ECBSource_read (left_reader rd) m (right_key a) (inl s) size (w1, w2) = (out, (w1', w2')) ->
  ('(b, o) <-- ECBSource_read rd m (ECBSource s k) size ;;
   mret (b, match o with ECBSource s' _ => inl s' | ECBBare s' => inr s' end)) w1 = (out, w1') \/
  exists e, out = Throw e /\ exists bs s', reads rd s [8] w1 = (Ok (bs, s'), w1').
Proof. intros H. exact (faulty_ecb_read a k H rd m s size w1 w2 out w1' w2'). Qed.

Theorem C93_magma_source {W1 W2 St} (rd : reader W1 St) m (a : act_key W2) (k : key) s p rl rr size
    w1 w2 out w1' w2' :
  unreliable a k ->
  act_magma_CFBSource_read (left_reader rd) m (right_key a) (s, p, rl, rr) size (w1, w2) = (out, (w1', w2')) ->
  ('(b, o) <-- magma_CFBSource_read rd m (MagmaCFBSource s k rl rr p) size ;;
   mret (b, (mcr_source o, mcr_plain o, mcr_ivl o, mcr_ivr o))) w1 = (out, w1') \/
  exists e n, out = Throw e /\ exists bs s', reads rd s (repeat 8 n) w1 = (Ok (bs, s'), w1').
Proof. intros H. exact (faulty_magma_read a k H rd m s p rl rr size w1 w2 out w1' w2'). Qed.

Theorem C93_gost_source {W1 W2 St} (rd : reader W1 St) m (a : act_key W2) (k : key) s p rl size
    w1 w2 out w1' w2' :
  unreliable a k ->
  act_gost_CFBSource_read (left_reader rd) m (right_key a) (s, p, rl) size (w1, w2) = (out, (w1', w2')) ->
  ('(b, o) <-- gost_CFBSource_read rd m (GostCFBSource s k rl p) size ;;
   mret (b, (gcr_source o, gcr_plain o, gcr_iv o))) w1 = (out, w1') \/
  exists e n, out = Throw e /\ exists bs s', reads rd s (repeat 8 n) w1 = (Ok (bs, s'), w1').
Proof. intros H. exact (faulty_gost_read a k H rd m s p rl size w1 w2 out w1' w2'). Qed.

(** A device that does not answer its 81st call: 16 bytes are written, the first block
    arrives and the write throws; the next block can be written, once the device answers
    again, with the object that a write of the first block alone returns. *)
Definition shaky : act_key nat :=
  AKLazy (ActLazy (fun i => fun w => (if Nat.eqb w 80 then Throw (RuntimeError "device")
                                      else Ok (w32 (0x9e3779b9 * Z.to_N (i + 1))), Datatypes.S w))
                  (fun v => fun w => (Ok (w32 (v * 5 + 7)), Datatypes.S w))).
Definition steady : key :=
  KLazy (LazyKey (fun i => Ok (w32 (0x9e3779b9 * Z.to_N (i + 1)))) (fun v => Ok (w32 (v * 5 + 7)))).
Definition given : writer (list bytes) unit := fun s d w => (Ok s, w ++ [d]).

Example C93_example_key : unreliable shaky steady.
Proof.
  split.
  - intros i w. cbn [shaky al_data fst]. destruct (Nat.eqb w 80); [right; now eexists|now left].
  - intros v w. now left.
Qed.

Example C93_example :
  let data := map N.of_nat (seq 0 16) in
  exists block o,
    act_magma_CFBSink_write (left_writer given) ISO (right_key shaky) (tt, 1, 2, []) data ([], 0%nat) =
      (Throw (RuntimeError "device"), ([block], 81%nat)) /\
    magma_CFBSink_write given ISO (MagmaCFBSink tt steady 1 2 []) (firstn 8 data) [] = (Ok o, [block]) /\
    exists o2 b2,
      act_magma_CFBSink_write (left_writer given) ISO (right_key shaky)
        (mcs_sink o, mcs_ivl o, mcs_ivr o, mcs_plain o) (skipn 8 data) ([block], 81%nat) =
        (Ok (tt, mcs_ivl o2, mcs_ivr o2, []), ([block; b2], 145%nat)) /\
      magma_CFBSink_write given ISO (MagmaCFBSink tt steady 1 2 []) data [] = (Ok o2, [block; b2]) /\
      b2 = [77; 230; 179; 165; 163; 81; 240; 40].
Proof.
  do 2 eexists. split; [vm_compute; reflexivity|]. split; [vm_compute; reflexivity|].
  exists (MagmaCFBSink tt steady 12666357656709701818 2949947519229224525 []). eexists.
  split; [vm_compute; reflexivity|]. split; [vm_compute; reflexivity|reflexivity].
Qed.

Print Assumptions C93_ecb_sink.
Print Assumptions C93_magma_sink.
Print Assumptions C93_gost_sink.
Print Assumptions C93_finalize.
Print Assumptions C93_ecb_source.
Print Assumptions C93_magma_source.
Print Assumptions C93_gost_source.
