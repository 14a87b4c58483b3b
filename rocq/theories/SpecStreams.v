(** Vocabulary in which the stream properties are stated: what it means that a key
    enciphers by a function, that a source delivers given bytes, and observers put
    around user-supplied sinks and sources. *)
From Verif Require Import Base MagmaModel Streams SpecMagma SpecModes.
Local Open Scope N_scope.

(** ** Keys as block ciphers *)

(** BlkEncrypted / BlkDecrypted with this key compute [E] / [D] on all 64-bit
    blocks. *)
Definition enciphers (k : key) (E : N -> N) : Prop :=
  forall x, x < 2 ^ 64 ->
    BlkEncrypted (BlkRaw64 x) (cast_lazy k) = Ok (halves (E x)) /\ E x < 2 ^ 64.

Definition deciphers (k : key) (D : N -> N) : Prop :=
  forall x, x < 2 ^ 64 ->
    BlkDecrypted (BlkRaw64 x) (cast_lazy k) = Ok (halves (D x)) /\ D x < 2 ^ 64.

(** The path through EncryptionBase, open to every Key. *)
Definition transforms (k : key) (E : N -> N) : Prop :=
  forall x, x < 2 ^ 64 -> EncryptionBase_transform k x = Ok (E x) /\ E x < 2 ^ 64.

(** ** Sources *)

(** [R s w data]: in world [w] the source [s] still has [data] to give.
    [delivers]: read(n) gives the next min(n, remaining) bytes, for every n. *)
Definition delivers {W St} (rd : reader W St) (R : St -> W -> bytes -> Prop) : Prop :=
  forall s w data n, R s w data ->
    exists s' w', rd s n w = (Ok (firstn (N.to_nat n) data, s'), w') /\
                  R s' w' (skipn (N.to_nat n) data).

(** The same, only for requests of 8 bytes. *)
Definition delivers8 {W St} (rd : reader W St) (R : St -> W -> bytes -> Prop) : Prop :=
  forall s w data, R s w data ->
    exists s' w', rd s 8 w = (Ok (firstn 8 data, s'), w') /\ R s' w' (skipn 8 data).

(** Requests of at least 8 bytes are answered with the next 8. *)
Definition delivers_blocks {W St} (rd : reader W St) (R : St -> W -> bytes -> Prop) : Prop :=
  forall s w data n, R s w data -> 8 <= n ->
    exists s' w', rd s n w = (Ok (firstn 8 data, s'), w') /\ R s' w' (skipn 8 data).

(** Cutting a byte string by requested sizes. *)
Fixpoint served (data : bytes) (sizes : list N) : list bytes :=
  match sizes with
  | [] => []
  | n :: r => firstn (N.to_nat n) data :: served (skipn (N.to_nat n) data) r
  end.

(** ** Observers *)

(** A sink that records every write it is given, then passes it on. *)
Definition logged {W S} (wr : writer W S) : writer (W * list bytes) S := fun s d wl =>
  let (w, l) := wl in
  let (r, w') := wr s d w in (r, (w', l ++ [d])).

(** A source that counts its reads. *)
Definition counted {W St} (rd : reader W St) : reader (W * N) St := fun s n wc =>
  let (w, c) := wc in
  let (r, w') := rd s n w in (r, (w', c + 1)).

(** Whole blocks of 8 bytes. *)
Definition whole (data : bytes) : Prop :=
  (List.length data mod 8 = 0)%nat /\ Forall u8 data.

(** The part of a byte string made of complete blocks, and the rest. *)
Definition complete (data : bytes) : bytes := firstn (8 * (List.length data / 8)) data.
Definition leftover (data : bytes) : bytes := skipn (8 * (List.length data / 8)) data.

(** Encrypt block by block with a function that may fail, sending each result before
    the next block is looked at. *)
Fixpoint encrypt_send {W S} (wr : writer W S) (F : N -> res N) (s : S) (bs : list N) : M W S :=
  match bs with
  | [] => mret s
  | b :: r => e <-- lift (F b) ;; s' <-- wr s (to_le 8 e) ;; encrypt_send wr F s' r
  end.

(** Number of 8-byte reads needed to get [need] bytes out of [avail] (a multiple of 8):
    one per started block, or one per block and one more to see the end. *)
Definition inner_reads (need avail : nat) : nat :=
  if Nat.leb need avail then ((need + 7) / 8)%nat else (avail / 8 + 1)%nat.

(** ** What is still to come out of the library's own sources

    Given a notion [R] of what the underlying source still has to give. *)

(** Reads of 8 give blocks, and after the end every read of at least 8 is empty. *)
Definition block_source {W St} (rd : reader W St) (R : St -> W -> bytes -> Prop) : Prop :=
  delivers8 rd R /\
  forall s w n, R s w [] -> 8 <= n -> exists s' w', rd s n w = (Ok ([], s'), w') /\ R s' w' [].

(** Bytes already decrypted, then the decryption of what is left underneath. *)
Definition magma_cfb_left {W St} (k : key) (E : N -> N) (R : St -> W -> bytes -> Prop)
    (o : magma_cfb_source St) (w : W) (plain : bytes) : Prop :=
  mcr_key o = k /\ mcr_ivl o < 2 ^ 64 /\ mcr_ivr o < 2 ^ 64 /\
  exists cipher, R (mcr_source o) w cipher /\ whole cipher /\
    plain = mcr_plain o ++ unblocks8 (cfb_decrypt E [mcr_ivl o; mcr_ivr o] (blocks8 cipher)).

Definition gost_cfb_left {W St} (k : key) (E : N -> N) (R : St -> W -> bytes -> Prop)
    (o : gost_cfb_source St) (w : W) (plain : bytes) : Prop :=
  gcr_key o = k /\ gcr_iv o < 2 ^ 64 /\
  exists cipher, R (gcr_source o) w cipher /\ whole cipher /\
    plain = gcr_plain o ++ unblocks8 (cfb_decrypt E [gcr_iv o] (blocks8 cipher)).

(** For ECBSource; after the end the object is the bare underlying source. *)
Definition ecb_left {W St} (k : key) (D : N -> N) (R : St -> W -> bytes -> Prop)
    (o : ecb_source St) (w : W) (plain : bytes) : Prop :=
  match o with
  | ECBSource s k' => k' = k /\
      exists cipher, R s w cipher /\ whole cipher /\ plain = unblocks8 (ecb D (blocks8 cipher))
  | ECBBare s => R s w [] /\ plain = []
  end.

(** A sink whose write always succeeds. *)
Definition never_fails {W S} (wr : writer W S) : Prop :=
  forall s d w, exists s' w', wr s d w = (Ok s', w').

(** A sink whose write does not succeed: it was given [sent], accepted all of it but the
    last piece, and its failure is the outcome [r], in the world it left behind. *)
Definition sink_failure {W S A} (wr : writer W S) (s : S) (sent : list bytes) (w : W)
    (r : res A) (w' : W) : Prop :=
  exists before c s1 w1, sent = before ++ [c] /\
    writes wr s before w = (Ok s1, w1) /\
    match wr s1 c w1 with
    | (Ok _, _) => False
    | (Throw e, w2) => r = Throw e /\ w' = w2
    | (Undef u, w2) => r = Undef u /\ w' = w2
    | (OutOfFuel, w2) => r = OutOfFuel /\ w' = w2
    end.

(** How many bytes were asked for. *)
Definition total (sizes : list N) : N := fold_right N.add 0 sizes.

(** Two ciphertexts of n blocks that differ in block i only. *)
Definition differ_in_block (i : nat) (c1 c2 : bytes) : Prop :=
  whole c1 /\ whole c2 /\ List.length c1 = List.length c2 /\ (8 * i < List.length c1)%nat /\
  forall j, j <> i -> nth j (blocks8 c1) 0 = nth j (blocks8 c2) 0.

(** ** Towers of layers, outermost first *)

Inductive layer : Type :=
| LECB (k : key)
| LMagmaCFB (k : key) (ivl ivr : N)
| LGostCFB (k : key) (iv : N).

Definition layer_key (l : layer) : key :=
  match l with LECB k => k | LMagmaCFB k _ _ => k | LGostCFB k _ => k end.

Definition layer_ok (l : layer) : Prop :=
  match l with
  | LECB _ => True
  | LMagmaCFB _ a b => a < 2 ^ 64 /\ b < 2 ^ 64
  | LGostCFB _ a => a < 2 ^ 64
  end.

(** A layer together with the functions its key computes. *)
Record known_layer : Type := Known { kl : layer; kl_E : N -> N; kl_D : N -> N }.

Definition known_ok (x : known_layer) : Prop :=
  enciphers (layer_key (kl x)) (kl_E x) /\ deciphers (layer_key (kl x)) (kl_D x) /\ layer_ok (kl x).

Definition layer_encrypt (x : known_layer) (ps : list N) : list N :=
  match kl x with
  | LECB _ => ecb (kl_E x) ps
  | LMagmaCFB _ a b => cfb_encrypt (kl_E x) [a; b] ps
  | LGostCFB _ a => cfb_encrypt (kl_E x) [a] ps
  end.

Definition layer_decrypt (x : known_layer) (cs : list N) : list N :=
  match kl x with
  | LECB _ => ecb (kl_D x) cs
  | LMagmaCFB _ a b => cfb_decrypt (kl_E x) [a; b] cs
  | LGostCFB _ a => cfb_decrypt (kl_E x) [a] cs
  end.

Fixpoint tower_encrypt (xs : list known_layer) (ps : list N) : list N :=
  match xs with [] => ps | x :: r => tower_encrypt r (layer_encrypt x ps) end.
Fixpoint tower_decrypt (xs : list known_layer) (cs : list N) : list N :=
  match xs with [] => cs | x :: r => layer_decrypt x (tower_decrypt r cs) end.

(** The sink objects: the first layer's sink writes into the next layer's. *)
Fixpoint sink_tower (S : Type) (ls : list layer) : Type :=
  match ls with
  | [] => S
  | LECB _ :: r => ecb_sink (sink_tower S r)
  | LMagmaCFB _ _ _ :: r => magma_cfb_sink (sink_tower S r)
  | LGostCFB _ _ :: r => gost_cfb_sink (sink_tower S r)
  end.

Fixpoint sink_tower_init {S} (s : S) (ls : list layer) : sink_tower S ls :=
  match ls with
  | [] => s
  | LECB k :: r => ECBSink (sink_tower_init s r) k
  | LMagmaCFB k a b :: r => magma_CFBSink_init (sink_tower_init s r) k a b
  | LGostCFB k a :: r => gost_CFBSink_init (sink_tower_init s r) k a
  end.

Fixpoint tower_write {W S} (wr : writer W S) (m : mode) (ls : list layer)
  : writer W (sink_tower S ls) :=
  match ls with
  | [] => wr
  | LECB _ :: r => ECBSink_write (tower_write wr m r)
  | LMagmaCFB _ _ _ :: r => magma_CFBSink_write (tower_write wr m r) m
  | LGostCFB _ _ :: r => gost_CFBSink_write (tower_write wr m r) m
  end.

(** finalize() hands back the sink underneath, which is finalized in turn. *)
Fixpoint tower_finalize {W S} (wr : writer W S) (m : mode) (ls : list layer)
  : sink_tower S ls -> M W S :=
  match ls with
  | [] => mret
  | LECB _ :: r => fun o => s <-- ECBSink_finalize o ;; tower_finalize wr m r s
  | LMagmaCFB _ _ _ :: r => fun o =>
      s <-- magma_CFBSink_finalize (tower_write wr m r) m o ;; tower_finalize wr m r s
  | LGostCFB _ _ :: r => fun o =>
      s <-- gost_CFBSink_finalize (tower_write wr m r) m o ;; tower_finalize wr m r s
  end.

(** The source objects. *)
Fixpoint source_tower (St : Type) (ls : list layer) : Type :=
  match ls with
  | [] => St
  | LECB _ :: r => ecb_source (source_tower St r)
  | LMagmaCFB _ _ _ :: r => magma_cfb_source (source_tower St r)
  | LGostCFB _ _ :: r => gost_cfb_source (source_tower St r)
  end.

Fixpoint source_tower_init {St} (s : St) (ls : list layer) : source_tower St ls :=
  match ls with
  | [] => s
  | LECB k :: r => ECBSource (source_tower_init s r) k
  | LMagmaCFB k a b :: r => magma_CFBSource_init (source_tower_init s r) k a b
  | LGostCFB k a :: r => gost_CFBSource_init (source_tower_init s r) k a
  end.

Fixpoint tower_read {W St} (rd : reader W St) (m : mode) (ls : list layer)
  : reader W (source_tower St ls) :=
  match ls with
  | [] => rd
  | LECB _ :: r => ECBSource_read (tower_read rd m r) m
  | LMagmaCFB _ _ _ :: r => magma_CFBSource_read (tower_read rd m r) m
  | LGostCFB _ _ :: r => gost_CFBSource_read (tower_read rd m r) m
  end.

Definition is_cfb (x : known_layer) : Prop := match kl x with LECB _ => False | _ => True end.
