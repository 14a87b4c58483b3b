(** Property C94: the language's rules on access to objects. *)
From Verif Require Import Base Text MagmaModel Streams KuzModel AliasModel AliasProofs TestVectors.
Local Open Scope N_scope.

(** A compiler that does not use the rules gives what the rest of the model says. *)
Theorem C94_same_streams {W S St} (wr : writer W S) (rd : reader W St) m (data : bytes) (n : N) (w : W) :
  (forall o, ECBSink_write_view false wr o data w = ECBSink_write wr o data w) /\
  (forall o, ECBSource_read_view false rd m o n w = ECBSource_read rd m o n w) /\
  (forall k, DataImit_view false data k = DataImit data k) /\
  (forall src c, ECBSource_container_view false (St := St) m src c = ECBSource_container m src c).
Proof.
  split; [|split; [|split]]; intros;
    [apply ecb_sink_view_off|apply ecb_source_view_off|apply DataImit_view_off|reflexivity].
Qed.

Theorem C94_same_kuznyechik (h l b : kblock) (k : kkey) :
  Key_blocks_view false h l = Key_blocks h l /\ Key_encrypt_view false k b = Key_encrypt k b.
Proof. split; [apply Key_blocks_view_off|apply Key_encrypt_view_off]. Qed.

(** The claim is that the rules are kept, so that it does not matter whether a compiler
    uses them. It holds for the classes that copy with memcpy, *)
Theorem C94_cfb_partial rules {W S St} (wr : writer W S) (rd : reader W St) m (data : bytes) (n : N) (w : W) :
  (forall o, magma_CFBSink_write_view rules wr m o data w = magma_CFBSink_write wr m o data w) /\
  (forall o, gost_CFBSink_write_view rules wr m o data w = gost_CFBSink_write wr m o data w) /\
  (forall o, magma_CFBSource_read_view rules rd m o n w = magma_CFBSource_read rd m o n w) /\
  (forall o, gost_CFBSource_read_view rules rd m o n w = gost_CFBSource_read rd m o n w) /\
  (forall fuel s k, magma_Imit_view rules rd m fuel s k w = magma_Imit rd m fuel s k w).
Proof.
  split; [|split; [|split; [|split]]]; intros;
    [apply magma_sink_view|apply gost_sink_view|apply magma_source_view|apply gost_source_view|apply Imit_view].
Qed.

(** for BlkS, which looks at numbers as bytes, *)
Theorem C94_BlkS_partial rules (b : kblock) : KS_view rules b = KS b.
Proof. apply KS_view_ok. Qed.

(** and for the ECB classes as long as they have no block to work on. *)
Theorem C94_ecb_partial rules {W S St} (wr : writer W S) (rd : reader W St) m :
  (forall o data w, (List.length data < 8)%nat ->
     ECBSink_write_view rules wr o data w = ECBSink_write wr o data w) /\
  (forall s k n s' w w', rd s 8 w = (Ok ([], s'), w') ->
     ECBSource_read_view rules rd m (ECBSource s k) n w = ECBSource_read rd m (ECBSource s k) n w).
Proof. split; intros; [now apply ecb_sink_short|now apply (ecb_source_end rules rd m s k n s' w w')]. Qed.

(** Everything else is undefined: the first block that ECBSink encrypts, with any key, *)
Theorem C94_ecb_sink_refuted {W S} (wr : writer W S) (o : ecb_sink S) (data : bytes) (w : W) :
  (8 <= List.length data)%nat -> ECBSink_write_view true wr o data w = (Undef Aliasing, w).
Proof. apply ecb_sink_aliasing. Qed.

(** that ECBSource decrypts, *)
Theorem C94_ecb_source_refuted {W St} (rd : reader W St) m (s : St) (k : key) (n : N) (p : bytes) (s' : St) (w w' : W) :
  8 <= n -> rd s 8 w = (Ok (p, s'), w') -> (8 <= List.length p)%nat ->
  ECBSource_read_view true rd m (ECBSource s k) n w = (Undef Aliasing, w').
Proof. apply ecb_source_aliasing. Qed.

(** every DataImit, *)
Theorem C94_DataImit_refuted (data : bytes) (k : option lazykey) : DataImit_view true data k = Undef Aliasing.
Proof. apply DataImit_aliasing. Qed.

(** every encryption by Kuznyechik, *)
Theorem C94_kuznyechik_refuted (h x : N) (l : kblock) : h < 2 ^ 128 -> x < 2 ^ 128 ->
  Key_encrypt_view true (Key_blocks_view true (Ok (h mod 2 ^ 64, h / 2 ^ 64)) l) (Ok (x mod 2 ^ 64, x / 2 ^ 64)) =
  Undef Aliasing.
Proof. apply Key_aliasing. Qed.

(** and, by the other rule, every ECBSource made from a container. *)
Theorem C94_container_refuted {St} m (source : St) (c : container) :
  ECBSource_container_view true m source c = Undef EarlyCall.
Proof. reflexivity. Qed.

(** The data of the tests: ECBSink with a block and without, CFBSink, BlkR and BlkS. *)
Example C94_example :
  ECBSink_write_view true TestSink_write (ECBSink [] (KLazy mkey)) (le64s P4) tt = (Undef Aliasing, tt) /\
  ECBSink_write_view true TestSink_write (ECBSink [] (KLazy mkey)) [1; 2; 3] tt
    = (Throw (RuntimeError "Unaligned ECB encryption"), tt) /\
  match fst (magma_CFBSink_write_view true TestSink_write ISO
               (magma_CFBSink_init [] (KLazy mkey) 0x1234567890abcdef 0x234567890abcdef1) (le64s P4) tt) with
  | Ok o => firstn 16 (mcs_sink o) = le64s [0xdb37e0e266903c83; 0x0d46644c1f9a089c]
  | _ => False
  end /\
  fst (ECBSource_read_view true MemSource_read ISO (ECBSource (le64s P4) (KLazy mkey)) 8 tt) = Undef Aliasing /\
  DataImit_view false (le64s P4) (Some mkey) = DataImit (le64s P4) (Some mkey) /\
  KR_view true (Ok (1, 2)) = Undef Aliasing /\ KR_view false (Ok (1, 2)) = KR (Ok (1, 2)) /\
  KS_view true (Ok (1, 2)) = KS (Ok (1, 2)).
Proof. vm_compute. repeat split. Qed.

Print Assumptions C94_same_streams.
Print Assumptions C94_same_kuznyechik.
Print Assumptions C94_cfb_partial.
Print Assumptions C94_BlkS_partial.
Print Assumptions C94_ecb_partial.
Print Assumptions C94_ecb_sink_refuted.
Print Assumptions C94_ecb_source_refuted.
Print Assumptions C94_DataImit_refuted.
Print Assumptions C94_kuznyechik_refuted.
Print Assumptions C94_container_refuted.
