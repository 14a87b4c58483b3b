(** Proofs about resumed, broken and damaged streams. *)
From Verif Require Import Base Text MagmaModel Streams SpecText SpecMagma SpecModes SpecStreams SpecMore.
From Verif Require Import Lib ByteProofs MagmaProofs MagmaSpecProofs SinkProofs SourceProofs StreamProofs TowerProofs StreamFacts MacProofs.
From Coq Require Import ZifyBool ZifyNat ZifyN.
Local Open Scope N_scope.

(** ** Sinks made with pending bytes *)

Lemma magma_resumes {W S} (wr : writer W S) m s k ivl ivr p data w : (List.length p < 8)%nat ->
  magma_CFBSink_write wr m (MagmaCFBSink s k ivl ivr p) data w =
  magma_CFBSink_write wr m (magma_CFBSink_init s k ivl ivr) (p ++ data) w.
Proof.
  intros H. unfold magma_CFBSink_write, magma_CFBSink_init. cbn [mcs_sink mcs_key mcs_ivl mcs_ivr mcs_plain].
  apply mbind_ext; [|reflexivity]. rewrite !magma_loop_core.
  apply mbind_ext; [|reflexivity]. now apply cfb_loop_pending.
Qed.

Lemma gost_resumes {W S} (wr : writer W S) m s k iv p data w : (List.length p < 8)%nat ->
  gost_CFBSink_write wr m (GostCFBSink s k iv p) data w =
  gost_CFBSink_write wr m (gost_CFBSink_init s k iv) (p ++ data) w.
Proof.
  intros H. unfold gost_CFBSink_write, gost_CFBSink_init. cbn [gcs_sink gcs_key gcs_iv gcs_plain].
  apply mbind_ext; [|reflexivity]. rewrite !gost_loop_core.
  apply mbind_ext; [|reflexivity]. now apply cfb_loop_pending.
Qed.

Lemma cfb_loop_stuck {W S} (wr : writer W S) m k data : forall p s reg w, (8 <= List.length p)%nat ->
  cfb_loop wr m k data p s reg w = (Ok (s, reg, p ++ data), w).
Proof.
  induction data as [|b d IH]; intros p s reg w H; [now rewrite app_nil_r|].
  cbn [cfb_loop]. cbv zeta. rewrite app_length. cbn [List.length].
  rewrite (proj2 (Nat.eqb_neq _ 8)) by lia. rewrite IH by (rewrite app_length; cbn; lia).
  now rewrite <- app_assoc.
Qed.

Lemma magma_stuck {W S} (wr : writer W S) m s k ivl ivr p data w : (8 <= List.length p)%nat ->
  magma_CFBSink_write wr m (MagmaCFBSink s k ivl ivr p) data w =
  (Ok (MagmaCFBSink s k ivl ivr (p ++ data)), w).
Proof.
  intros H. unfold magma_CFBSink_write. cbn [mcs_sink mcs_key mcs_ivl mcs_ivr mcs_plain].
  unfold mbind at 1. rewrite magma_loop_core. unfold mbind at 1.
  rewrite cfb_loop_stuck by assumption. reflexivity.
Qed.

Lemma gost_stuck {W S} (wr : writer W S) m s k iv p data w : (8 <= List.length p)%nat ->
  gost_CFBSink_write wr m (GostCFBSink s k iv p) data w = (Ok (GostCFBSink s k iv (p ++ data)), w).
Proof.
  intros H. unfold gost_CFBSink_write. cbn [gcs_sink gcs_key gcs_iv gcs_plain].
  unfold mbind at 1. rewrite gost_loop_core. unfold mbind at 1.
  rewrite cfb_loop_stuck by assumption. reflexivity.
Qed.

Lemma sink_xor_long m a r f g : List.length a = 8%nat ->
  sink_xor m (a ++ r) f g = Ok (zip_xor a (to_le 4 f ++ to_le 4 g) ++ r).
Proof.
  intros H. destruct (list8 a H) as (b0 & b1 & b2 & b3 & b4 & b5 & b6 & b7 & ->).
  rewrite !to_le_4. unfold sink_xor. cbn [foldM]. unfold xor_at.
  repeat (cbn [List.length app Nat.add Nat.ltb Nat.leb bind xor_nth]; cbv beta). reflexivity.
Qed.

Lemma long_split (p : bytes) : (8 <= List.length p)%nat ->
  List.length (firstn 8 p) = 8%nat /\ p = firstn 8 p ++ skipn 8 p.
Proof. intros H. split; [rewrite firstn_length; lia|symmetry; apply firstn_skipn]. Qed.

(** What finalize() sends when at least 8 bytes are pending: everything behind the first
    8 as it is. *)
Lemma magma_leak {W S} (wr : writer W S) m k E s ivl ivr p w :
  enciphers k E -> ivl < 2 ^ 64 -> (8 <= List.length p)%nat ->
  exists c, List.length c = 8%nat /\
    magma_CFBSink_finalize wr m (MagmaCFBSink s k ivl ivr p) w = wr s (c ++ skipn 8 p) w.
Proof.
  intros HE Hi H. destruct (long_split p H) as [L8 Ep].
  destruct (HE ivl Hi) as [E1 _]. unfold halves in E1.
  exists (zip_xor (firstn 8 p) (to_le 4 (E ivl / 2 ^ 32) ++ to_le 4 (E ivl mod 2 ^ 32))).
  split; [rewrite zip_xor_length; [exact L8|rewrite app_length, !to_le_length; exact L8]|].
  unfold magma_CFBSink_finalize. cbn [mcs_sink mcs_key mcs_ivl mcs_plain].
  destruct p as [|b p']; [cbn in H; lia|]. rewrite E1. unfold mbind at 1. cbn [lift].
  rewrite Ep at 1. rewrite sink_xor_long by exact L8.
  unfold mbind at 1. cbn [lift]. rewrite mbind_mret_r. reflexivity.
Qed.

Lemma gost_leak {W S} (wr : writer W S) m k E s iv p w :
  enciphers k E -> iv < 2 ^ 64 -> (8 <= List.length p)%nat ->
  exists c, List.length c = 8%nat /\
    gost_CFBSink_finalize wr m (GostCFBSink s k iv p) w = wr s (c ++ skipn 8 p) w.
Proof.
  intros HE Hi H. destruct (long_split p H) as [L8 Ep].
  destruct (HE iv Hi) as [E1 _]. unfold halves in E1.
  exists (zip_xor (firstn 8 p) (to_le 4 (E iv / 2 ^ 32) ++ to_le 4 (E iv mod 2 ^ 32))).
  split; [rewrite zip_xor_length; [exact L8|rewrite app_length, !to_le_length; exact L8]|].
  unfold gost_CFBSink_finalize. cbn [gcs_sink gcs_key gcs_iv gcs_plain].
  destruct p as [|b p']; [cbn in H; lia|]. rewrite E1. unfold mbind at 1. cbn [lift].
  rewrite Ep at 1. rewrite sink_xor_long by exact L8.
  unfold mbind at 1. cbn [lift]. rewrite mbind_mret_r. reflexivity.
Qed.

(** Sources made with bytes already decrypted give these first, however many. *)
Lemma magma_source_resumes {W St} (rd : reader W St) m (R : St -> W -> bytes -> Prop) k E
    ivl ivr p s w cipher sizes :
  enciphers k E -> delivers8 rd R -> ivl < 2 ^ 64 -> ivr < 2 ^ 64 -> R s w cipher -> whole cipher ->
  exists o' w',
    reads (magma_CFBSource_read rd m) (MagmaCFBSource s k ivl ivr p) sizes w =
    (Ok (served (p ++ unblocks8 (cfb_decrypt E [ivl; ivr] (blocks8 cipher))) sizes, o'), w').
Proof.
  intros HE HR Ha Hb Hs Hw.
  apply (delivers_reads _ _ sizes (magma_delivers rd m k E R HE HR)).
  repeat split; cbn [mcr_key mcr_ivl mcr_ivr mcr_source mcr_plain]; auto.
  exists cipher. auto.
Qed.

Lemma gost_source_resumes {W St} (rd : reader W St) m (R : St -> W -> bytes -> Prop) k E
    iv p s w cipher sizes :
  enciphers k E -> delivers8 rd R -> iv < 2 ^ 64 -> R s w cipher -> whole cipher ->
  exists o' w',
    reads (gost_CFBSource_read rd m) (GostCFBSource s k iv p) sizes w =
    (Ok (served (p ++ unblocks8 (cfb_decrypt E [iv] (blocks8 cipher))) sizes, o'), w').
Proof.
  intros HE HR Ha Hs Hw.
  apply (delivers_reads _ _ sizes (gost_delivers rd m k E R HE HR)).
  repeat split; cbn [gcr_key gcr_iv gcr_source gcr_plain]; auto.
  exists cipher. auto.
Qed.

(** ** Damage in ECB *)

Lemma blocks8_firstn_length (d : bytes) : whole d -> List.length (unblocks8 (blocks8 d)) = List.length d.
Proof. intros H. now rewrite unblocks8_blocks8. Qed.

Lemma repeat_map8 n : map (fun _ : N => 8) (repeat 8 n) = repeat 8 n.
Proof. induction n; cbn; congruence. Qed.

Lemma ecb_corruption {W St} (rd : reader W St) m (R : St -> W -> bytes -> Prop) k E D
    s1 s2 w1 w2 c1 c2 i n :
  enciphers k E -> deciphers k D -> block_source rd R ->
  R s1 w1 c1 -> R s2 w2 c2 -> differ_in_block i c1 c2 -> (List.length c1 <= 8 * n)%nat ->
  exists p1 p2 o1 o2 w1' w2',
    reads (ECBSource_read rd m) (ECBSource s1 k) (repeat 8 n) w1 = (Ok (p1, o1), w1') /\
    reads (ECBSource_read rd m) (ECBSource s2 k) (repeat 8 n) w2 = (Ok (p2, o2), w2') /\
    List.length (List.concat p1) = List.length c1 /\ List.length (List.concat p2) = List.length c2 /\
    (forall j, j <> i -> nth j (blocks8 (List.concat p1)) 0 = nth j (blocks8 (List.concat p2)) 0) /\
    (nth i (blocks8 c1) 0 <> nth i (blocks8 c2) 0 ->
     nth i (blocks8 (List.concat p1)) 0 <> nth i (blocks8 (List.concat p2)) 0).
Proof.
  intros HE HD HB R1 R2 (W1 & W2 & Hl & Hi & Heq) Hn.
  pose proof (ecb_delivers rd m k D R HD HB) as Hd.
  assert (F8 : Forall (fun n => 8 <= n) (repeat 8 n)) by (apply Forall_forall; intros x Hx; apply repeat_spec in Hx; lia).
  destruct (delivers_blocks_reads _ _ (repeat 8 n) Hd F8 _ _ _ (ecb_left_init k D R s1 w1 c1 R1 W1)) as (o1 & v1 & E1).
  destruct (delivers_blocks_reads _ _ (repeat 8 n) Hd F8 _ _ _ (ecb_left_init k D R s2 w2 c2 R2 W2)) as (o2 & v2 & E2).
  rewrite repeat_map8 in E1, E2.
  assert (P : forall c, whole c -> (List.length c <= 8 * n)%nat ->
    let p := List.concat (served (unblocks8 (ecb D (blocks8 c))) (repeat 8 n)) in
    List.length p = List.length c /\ blocks8 p = map D (blocks8 c)).
  { intros c Wc Lc. cbv zeta.
    assert (Ll : List.length (unblocks8 (ecb D (blocks8 c))) = List.length c).
    { rewrite unblocks8_length. unfold ecb. rewrite map_length. apply blocks8_length, Wc. }
    rewrite served_all by lia. split; [exact Ll|].
    apply blocks8_unblocks8. apply ecb_lt; [eapply deciphers_lt; eassumption|now apply blocks8_lt]. }
  destruct (P c1 W1 Hn) as [L1 B1]. destruct (P c2 W2 ltac:(lia)) as [L2 B2].
  do 6 eexists. split; [exact E1|]. split; [exact E2|]. split; [exact L1|]. split; [exact L2|].
  rewrite B1, B2.
  assert (Ln : List.length (blocks8 c1) = List.length (blocks8 c2)) by now apply blocks_eq_length.
  split.
  - intros j Hj. destruct (Nat.lt_ge_cases j (List.length (blocks8 c1))) as [L|L].
    + rewrite (nth_indep _ 0 (D 0)), (nth_indep (map D (blocks8 c2)) 0 (D 0)) by (rewrite map_length; lia).
      rewrite !map_nth. f_equal. auto.
    + rewrite !nth_overflow by (rewrite map_length; lia). reflexivity.
  - intros Hne Hc. apply Hne.
    assert (Hi1 : (i < List.length (blocks8 c1))%nat) by now apply blocks_count.
    rewrite (nth_indep _ 0 (D 0)), (nth_indep (map D (blocks8 c2)) 0 (D 0)) in Hc by (rewrite map_length; lia).
    rewrite !map_nth in Hc.
    assert (T : forall c, whole c -> (i < List.length (blocks8 c))%nat -> nth i (blocks8 c) 0 < 2 ^ 64).
    { intros c Wc Lc. apply (proj1 (Forall_forall _ _) (blocks8_lt c Wc)). now apply nth_In. }
    destruct (deciphers_enciphers k E D HE HD _ (T c1 W1 Hi1)) as [_ X1].
    destruct (deciphers_enciphers k E D HE HD _ (T c2 W2 ltac:(lia))) as [_ X2].
    congruence.
Qed.

(** ** Self-synchronisation of CFB *)

Lemma cfb_decrypt_app E a : forall reg b, reg <> [] ->
  cfb_decrypt E reg (a ++ b) = cfb_decrypt E reg a ++ cfb_decrypt E (shifted reg a) b.
Proof.
  induction a as [|x a IH]; intros reg b H; [now rewrite shifted_nil|].
  cbn [app cfb_decrypt]. rewrite IH by (destruct (tl reg); discriminate).
  now rewrite <- shifted_cons.
Qed.

Lemma nth_skipn' {A} (l : list A) n i d : nth i (skipn n l) d = nth (n + i) l d.
Proof. revert l. induction n; intros [|x l]; cbn; auto. now destruct i. Qed.

(** After as many blocks as the register holds, its old content is gone. *)
Lemma cfb_decrypt_forgets E c r1 r2 : r1 <> [] -> List.length r1 = List.length r2 ->
  skipn (List.length r1) (cfb_decrypt E r1 c) = skipn (List.length r2) (cfb_decrypt E r2 c).
Proof.
  intros H1 Hl. apply nth_ext with (d := 0) (d' := 0).
  - rewrite !skipn_length, !cfb_decrypt_length. lia.
  - intros j Hj. rewrite skipn_length, cfb_decrypt_length in Hj. rewrite !nth_skipn'. 
    rewrite !cfb_decrypt_nth; try lia; try assumption; [|intros ->; destruct r1; [contradiction|discriminate]].
    rewrite Hl, !app_nth2 by lia. f_equal. f_equal. f_equal. lia.
Qed.

Lemma skipn_unblocks8 n l : skipn (8 * n) (unblocks8 l) = unblocks8 (skipn n l).
Proof.
  revert l. induction n as [|n IH]; intros l; [reflexivity|].
  destruct l as [|x l]; [now rewrite skipn_nil|].
  change (unblocks8 (x :: l)) with (to_le 8 x ++ unblocks8 l).
  replace (8 * Datatypes.S n)%nat with (8 + 8 * n)%nat by lia.
  rewrite skipn_app, to_le_length. rewrite skipn_all2 by (rewrite to_le_length; lia).
  replace (8 + 8 * n - 8)%nat with (8 * n)%nat by lia. apply IH.
Qed.

Lemma cfb_resync E r1 r2 a1 a2 c : r1 <> [] -> List.length r1 = List.length r2 ->
  skipn (List.length a1 + List.length r1) (cfb_decrypt E r1 (a1 ++ c)) =
  skipn (List.length a2 + List.length r1) (cfb_decrypt E r2 (a2 ++ c)).
Proof.
  intros H1 Hl.
  assert (H2 : r2 <> []) by (intros ->; destruct r1; [contradiction|discriminate]).
  rewrite !cfb_decrypt_app by assumption.
  rewrite !(Nat.add_comm (List.length _) (List.length r1)), <- !skipn_skipn.
  rewrite !skipn_app_exact by apply cfb_decrypt_length.
  assert (F : skipn (List.length (shifted r1 a1)) (cfb_decrypt E (shifted r1 a1) c) =
              skipn (List.length (shifted r2 a2)) (cfb_decrypt E (shifted r2 a2) c)).
  { apply cfb_decrypt_forgets; [|now rewrite !shifted_length].
    intros C. apply (f_equal (@List.length N)) in C. rewrite shifted_length in C. destruct r1; [contradiction|discriminate]. }
  rewrite !shifted_length in F. rewrite F. now rewrite Hl.
Qed.

Lemma whole_app_whole a b : whole a -> whole b -> whole (a ++ b).
Proof.
  intros [A1 A2] [B1 B2]. split; [|now apply Forall_app].
  rewrite app_length, Nat.add_mod, A1, B1 by lia. reflexivity.
Qed.

Lemma firstn_len_all {A} (l : list A) size : len l <= size -> firstn (N.to_nat size) l = l.
Proof. intros H. apply firstn_all2. unfold len in H. lia. Qed.

Lemma decrypted_len E reg cipher : whole cipher ->
  List.length (unblocks8 (cfb_decrypt E reg (blocks8 cipher))) = List.length cipher.
Proof. intros H. exact (plain_length E reg [] cipher H). Qed.

Lemma gost_read_all {W St} (rd : reader W St) m (R : St -> W -> bytes -> Prop) k E iv s w c size :
  enciphers k E -> delivers8 rd R -> iv < 2 ^ 64 -> R s w c -> whole c -> len c <= size ->
  exists o w', gost_CFBSource_read rd m (gost_CFBSource_init s k iv) size w =
    (Ok (unblocks8 (cfb_decrypt E [iv] (blocks8 c)), o), w').
Proof.
  intros HE HR Hi Hs Hw Hz.
  destruct (gost_delivers rd m k E R HE HR _ _ _ size (gost_left_init k E R s w c iv Hi Hs Hw)) as (o & w' & Er & _).
  rewrite firstn_len_all in Er by (unfold len in *; rewrite decrypted_len by assumption; exact Hz). eauto.
Qed.

Lemma magma_read_all {W St} (rd : reader W St) m (R : St -> W -> bytes -> Prop) k E ivl ivr s w c size :
  enciphers k E -> delivers8 rd R -> ivl < 2 ^ 64 -> ivr < 2 ^ 64 -> R s w c -> whole c -> len c <= size ->
  exists o w', magma_CFBSource_read rd m (magma_CFBSource_init s k ivl ivr) size w =
    (Ok (unblocks8 (cfb_decrypt E [ivl; ivr] (blocks8 c)), o), w').
Proof.
  intros HE HR Hi Hj Hs Hw Hz.
  destruct (magma_delivers rd m k E R HE HR _ _ _ size (magma_left_init k E R s w c ivl ivr Hi Hj Hs Hw)) as (o & w' & Er & _).
  rewrite firstn_len_all in Er by (unfold len in *; rewrite decrypted_len by assumption; exact Hz). eauto.
Qed.

Lemma bytes_resync E r1 r2 a1 a2 c : r1 <> [] -> List.length r1 = List.length r2 ->
  whole a1 -> whole a2 -> whole c ->
  skipn (List.length a1 + 8 * List.length r1) (unblocks8 (cfb_decrypt E r1 (blocks8 (a1 ++ c)))) =
  skipn (List.length a2 + 8 * List.length r1) (unblocks8 (cfb_decrypt E r2 (blocks8 (a2 ++ c)))).
Proof.
  intros H1 Hl W1 W2 Wc. rewrite !blocks8_app by (first [apply W1|apply W2]).
  rewrite <- (blocks8_length a1 (proj1 W1)), <- (blocks8_length a2 (proj1 W2)).
  rewrite <- !Nat.mul_add_distr_l, !skipn_unblocks8. f_equal. now apply cfb_resync.
Qed.

Lemma gost_resync {W St} (rd : reader W St) m (R : St -> W -> bytes -> Prop) k E
    iv1 iv2 s1 s2 w1 w2 a1 a2 c size :
  enciphers k E -> delivers8 rd R -> iv1 < 2 ^ 64 -> iv2 < 2 ^ 64 ->
  whole a1 -> whole a2 -> whole c -> R s1 w1 (a1 ++ c) -> R s2 w2 (a2 ++ c) ->
  len (a1 ++ c) <= size -> len (a2 ++ c) <= size ->
  exists p1 p2 o1 o2 w1' w2',
    gost_CFBSource_read rd m (gost_CFBSource_init s1 k iv1) size w1 = (Ok (p1, o1), w1') /\
    gost_CFBSource_read rd m (gost_CFBSource_init s2 k iv2) size w2 = (Ok (p2, o2), w2') /\
    List.length p1 = List.length (a1 ++ c) /\ List.length p2 = List.length (a2 ++ c) /\
    skipn (List.length a1 + 8) p1 = skipn (List.length a2 + 8) p2.
Proof.
  intros HE HR I1 I2 W1 W2 Wc R1 R2 Z1 Z2.
  destruct (gost_read_all rd m R k E iv1 s1 w1 _ size HE HR I1 R1 (whole_app_whole _ _ W1 Wc) Z1) as (o1 & v1 & E1).
  destruct (gost_read_all rd m R k E iv2 s2 w2 _ size HE HR I2 R2 (whole_app_whole _ _ W2 Wc) Z2) as (o2 & v2 & E2).
  do 6 eexists. split; [exact E1|]. split; [exact E2|].
  rewrite !decrypted_len by (now apply whole_app_whole). split; [reflexivity|]. split; [reflexivity|].
  exact (bytes_resync E [iv1] [iv2] a1 a2 c ltac:(discriminate) eq_refl W1 W2 Wc).
Qed.

Lemma magma_resync {W St} (rd : reader W St) m (R : St -> W -> bytes -> Prop) k E
    l1 r1 l2 r2 s1 s2 w1 w2 a1 a2 c size :
  enciphers k E -> delivers8 rd R -> l1 < 2 ^ 64 -> r1 < 2 ^ 64 -> l2 < 2 ^ 64 -> r2 < 2 ^ 64 ->
  whole a1 -> whole a2 -> whole c -> R s1 w1 (a1 ++ c) -> R s2 w2 (a2 ++ c) ->
  len (a1 ++ c) <= size -> len (a2 ++ c) <= size ->
  exists p1 p2 o1 o2 w1' w2',
    magma_CFBSource_read rd m (magma_CFBSource_init s1 k l1 r1) size w1 = (Ok (p1, o1), w1') /\
    magma_CFBSource_read rd m (magma_CFBSource_init s2 k l2 r2) size w2 = (Ok (p2, o2), w2') /\
    List.length p1 = List.length (a1 ++ c) /\ List.length p2 = List.length (a2 ++ c) /\
    skipn (List.length a1 + 16) p1 = skipn (List.length a2 + 16) p2.
Proof.
  intros HE HR I1 I2 I3 I4 W1 W2 Wc R1 R2 Z1 Z2.
  destruct (magma_read_all rd m R k E l1 r1 s1 w1 _ size HE HR I1 I2 R1 (whole_app_whole _ _ W1 Wc) Z1) as (o1 & v1 & E1).
  destruct (magma_read_all rd m R k E l2 r2 s2 w2 _ size HE HR I3 I4 R2 (whole_app_whole _ _ W2 Wc) Z2) as (o2 & v2 & E2).
  do 6 eexists. split; [exact E1|]. split; [exact E2|].
  rewrite !decrypted_len by (now apply whole_app_whole). split; [reflexivity|]. split; [reflexivity|].
  exact (bytes_resync E [l1; r1] [l2; r2] a1 a2 c ltac:(discriminate) eq_refl W1 W2 Wc).
Qed.

(** ** A wrong register *)

Lemma cfb_blocks_lt k E reg c : enciphers k E -> reg_ok reg -> whole c ->
  blocks8 (unblocks8 (cfb_decrypt E reg (blocks8 c))) = cfb_decrypt E reg (blocks8 c).
Proof.
  intros HE Hr Hc. apply blocks8_unblocks8. apply cfb_decrypt_lt; [eapply enciphers_lt; eassumption|assumption|now apply blocks8_lt].
Qed.

Lemma lxor_eq_iff k E a b c d : enciphers k E -> a < 2 ^ 64 -> b < 2 ^ 64 -> c = d ->
  (N.lxor c (E a) = N.lxor d (E b) <-> a = b).
Proof.
  intros HE Ha Hb ->. split; [|now intros ->].
  intros H. apply lxor_inj_l in H. exact (enciphers_inj k E HE a b Ha Hb H).
Qed.

Lemma gost_wrong_register {W St} (rd : reader W St) m (R : St -> W -> bytes -> Prop) k E
    iv1 iv2 s1 s2 w1 w2 c size :
  enciphers k E -> delivers8 rd R -> iv1 < 2 ^ 64 -> iv2 < 2 ^ 64 ->
  whole c -> R s1 w1 c -> R s2 w2 c -> len c <= size -> 8 <= len c ->
  exists p1 p2 o1 o2 w1' w2',
    gost_CFBSource_read rd m (gost_CFBSource_init s1 k iv1) size w1 = (Ok (p1, o1), w1') /\
    gost_CFBSource_read rd m (gost_CFBSource_init s2 k iv2) size w2 = (Ok (p2, o2), w2') /\
    (nth 0 (blocks8 p1) 0 = nth 0 (blocks8 p2) 0 <-> iv1 = iv2) /\
    skipn 8 p1 = skipn 8 p2.
Proof.
  intros HE HR I1 I2 Wc R1 R2 Z1 Z2.
  destruct (gost_read_all rd m R k E iv1 s1 w1 _ size HE HR I1 R1 Wc Z1) as (o1 & v1 & E1).
  destruct (gost_read_all rd m R k E iv2 s2 w2 _ size HE HR I2 R2 Wc Z1) as (o2 & v2 & E2).
  do 6 eexists. split; [exact E1|]. split; [exact E2|]. split.
  - rewrite !(cfb_blocks_lt k) by auto using reg1_ok.
    assert (0 < List.length (blocks8 c))%nat by (apply blocks_count; [assumption|unfold len in *; lia]).
    rewrite !cfb_decrypt_nth by (auto; discriminate). cbn [app nth]. now apply (lxor_eq_iff k).
  - exact (bytes_resync E [iv1] [iv2] [] [] c ltac:(discriminate) eq_refl whole_nil whole_nil Wc).
Qed.

Lemma magma_wrong_register {W St} (rd : reader W St) m (R : St -> W -> bytes -> Prop) k E
    l1 r1 l2 r2 s1 s2 w1 w2 c size :
  enciphers k E -> delivers8 rd R -> l1 < 2 ^ 64 -> r1 < 2 ^ 64 -> l2 < 2 ^ 64 -> r2 < 2 ^ 64 ->
  whole c -> R s1 w1 c -> R s2 w2 c -> len c <= size -> 16 <= len c ->
  exists p1 p2 o1 o2 w1' w2',
    magma_CFBSource_read rd m (magma_CFBSource_init s1 k l1 r1) size w1 = (Ok (p1, o1), w1') /\
    magma_CFBSource_read rd m (magma_CFBSource_init s2 k l2 r2) size w2 = (Ok (p2, o2), w2') /\
    (nth 0 (blocks8 p1) 0 = nth 0 (blocks8 p2) 0 <-> l1 = l2) /\
    (nth 1 (blocks8 p1) 0 = nth 1 (blocks8 p2) 0 <-> r1 = r2) /\
    skipn 16 p1 = skipn 16 p2.
Proof.
  intros HE HR I1 I2 I3 I4 Wc R1 R2 Z1 Z2.
  destruct (magma_read_all rd m R k E l1 r1 s1 w1 _ size HE HR I1 I2 R1 Wc Z1) as (o1 & v1 & E1).
  destruct (magma_read_all rd m R k E l2 r2 s2 w2 _ size HE HR I3 I4 R2 Wc Z1) as (o2 & v2 & E2).
  assert (0 < List.length (blocks8 c))%nat by (apply blocks_count; [assumption|unfold len in *; lia]).
  assert (1 < List.length (blocks8 c))%nat by (apply blocks_count; [assumption|unfold len in *; lia]).
  do 6 eexists. split; [exact E1|]. split; [exact E2|].
  rewrite !(cfb_blocks_lt k) by auto using reg2_ok.
  rewrite !cfb_decrypt_nth by (auto; discriminate). cbn [app nth].
  split; [now apply (lxor_eq_iff k)|]. split; [now apply (lxor_eq_iff k)|].
  exact (bytes_resync E [l1; r1] [l2; r2] [] [] c ltac:(discriminate) eq_refl whole_nil whole_nil Wc).
Qed.

(** ** Sources that break *)

Lemma mbind_throw {W A B} (x : M W A) (f : A -> M W B) w e w' :
  x w = (Throw e, w') -> mbind x f w = (Throw e, w').
Proof. intros H. unfold mbind. now rewrite H. Qed.

Section Break.
Context {W St Reg : Type} (rd : reader W St) (m : mode) (k : key)
        (cur : Reg -> N) (push : Reg -> N -> Reg).
Context (E : N -> N) (regl : Reg -> list N) (R : St -> W -> bytes -> Prop) (e : exn).
Hypothesis HE : enciphers k E.
Hypothesis HR : breaks rd R e.
Hypothesis Hcur : forall r, hd 0 (regl r) = cur r.
Hypothesis Hpush : forall r c, regl (push r c) = tl (regl r) ++ [c].

Definition core_outcome (size : N) (s : St) (p : bytes) (r : Reg) (res data : bytes)
    (o : Base.res (St * bytes * Reg * bytes)) : Prop :=
  let z := (N.to_nat size - List.length res)%nat in
  if (N.to_nat size <=? List.length res + List.length p + List.length data)%nat
  then exists s' p' r', o = Ok (s', p', r', res ++ firstn z (plain_of E regl p r data))
  else o = Throw e.

Lemma core_breaks size : forall n s w p r res data,
  R s w data -> whole data -> reg_ok (regl r) -> (List.length res <= N.to_nat size)%nat ->
  (1 <= n)%nat ->
  (N.to_nat size - List.length res + match p with [] => 1 | _ => 0 end <= n)%nat ->
  core_outcome size s p r res data
    (fst (nmloop n (core_step rd m k cur push size) (s, p, r, res) w)).
Proof.
  induction n as [|n IH]; intros s w p r res data Hs Hd Hr Hl Hn Hz; [lia|].
  cbn [nmloop core_step]. unfold core_outcome. cbv zeta.
  destruct (N.ltb_spec (len res) size) as [Hlt|Hge].
  2:{ cbn. assert (List.length res = N.to_nat size) by (unfold len in Hge; lia).
      destruct (Nat.leb_spec (N.to_nat size) (List.length res + List.length p + List.length data)); [|lia].
      replace (N.to_nat size - List.length res)%nat with 0%nat by lia. cbn [firstn]. rewrite app_nil_r. eauto. }
  rewrite drain_ok by assumption.
  set (z := (N.to_nat size - List.length res)%nat) in *.
  destruct (N.eqb_spec (len (res ++ firstn z p)) size) as [He|Hne].
  - cbn. assert (Lz : (z <= List.length p)%nat).
    { unfold len in He. rewrite app_length, firstn_length in He. lia. }
    destruct (Nat.leb_spec (N.to_nat size) (List.length res + List.length p + List.length data)); [|lia].
    unfold plain_of. rewrite firstn_app. replace (z - List.length p)%nat with 0%nat by lia.
    cbn [firstn]. rewrite app_nil_r. eauto.
  - assert (Lz : (List.length p < z)%nat).
    { unfold len in Hne. rewrite app_length, firstn_length in Hne. lia. }
    rewrite (firstn_all2 p) by lia.
    destruct (HE (cur r)) as [E1 Lt1]; [rewrite <- Hcur; now apply hd_lt|].
    rewrite E1. rewrite mbind_assoc. change (mbind (lift (Ok ?y)) ?f w) with (f y w). cbn [halves].
    rewrite mbind_assoc.
    destruct (HR s w data Hs) as [HRne HRe].
    destruct (whole_cases data Hd) as [-> | (a & b & -> & La & Ua & Wb)].
    + destruct (HRe eq_refl) as (w' & Er). rewrite (mbind_throw _ _ _ _ _ Er). cbn [List.length fst].
      destruct (Nat.leb_spec (N.to_nat size) (List.length res + List.length p + 0)); [lia|reflexivity].
    + destruct HRne as (s' & w' & Er & Hs'); [destruct a; discriminate|].
      rewrite firstn_app_exact in Er by assumption. rewrite skipn_app_exact in Hs' by assumption.
      rewrite (mbind_ok _ _ _ _ _ Er). destruct a as [|a0 a']; [discriminate|]. cbv iota. set (a := a0 :: a') in *.
      rewrite load_reg_ok, source_xor_ok by assumption.
      rewrite mbind_assoc. change (mbind (lift (Ok ?y)) ?f w') with (f y w'). cbv beta.
      rewrite mbind_assoc. change (mbind (lift (Ok ?y)) ?f w') with (f y w'). cbv beta.
      rewrite mbind_mret_l. cbv iota beta.
      pose proof (IH s' w' (to_le 8 (N.lxor (of_le a) (E (cur r)))) (push r (of_le a)) (res ++ p) b) as H.
      assert (Hz2 : (List.length (res ++ p) <= N.to_nat size)%nat) by (rewrite app_length; lia).
      specialize (H Hs' Wb).
      assert (Hr2 : reg_ok (regl (push r (of_le a)))) by (rewrite Hpush; apply reg_ok_shift; [assumption|now apply of_le_8_lt]).
      specialize (H Hr2 Hz2).
      assert (Hn1 : (1 <= n)%nat) by (destruct p; cbn [List.length] in *; lia).
      specialize (H Hn1).
      assert (Hp : (N.to_nat size - List.length (res ++ p) + match to_le 8 (N.lxor (of_le a) (E (cur r))) with [] => 1 | _ => 0 end <= n)%nat).
      { rewrite app_length. change (match to_le 8 _ with [] => 1%nat | _ => 0%nat end) with 0%nat.
        destruct p; cbn [List.length] in *; lia. }
      specialize (H Hp). unfold core_outcome in H. cbv zeta in H.
      rewrite to_le_length, !app_length in H. rewrite app_length.
      replace (List.length res + List.length p + 8 + List.length b)%nat
        with (List.length res + List.length p + (List.length a + List.length b))%nat in H by lia.
      destruct (Nat.leb _ _) eqn:Hc; [|exact H].
      destruct H as (s2 & p2 & r2 & H). do 3 eexists. etransitivity; [exact H|]. f_equal. f_equal.
      rewrite <- app_assoc. f_equal. unfold plain_of.
      rewrite (firstn_app z p). rewrite (firstn_all2 p) by lia. f_equal.
      replace (N.to_nat size - (List.length res + List.length p))%nat with (z - List.length p)%nat by lia.
      f_equal. rewrite blocks8_cons by assumption. cbn [cfb_decrypt].
      change (unblocks8 (?x :: ?l)) with (to_le 8 x ++ unblocks8 l).
      now rewrite Hpush, Hcur.
Qed.
End Break.

Lemma magma_breaks {W St} (rd : reader W St) m (R : St -> W -> bytes -> Prop) e k E ivl ivr s w cipher size :
  enciphers k E -> breaks rd R e -> ivl < 2 ^ 64 -> ivr < 2 ^ 64 -> R s w cipher -> whole cipher ->
  let plain := unblocks8 (cfb_decrypt E [ivl; ivr] (blocks8 cipher)) in
  match fst (magma_CFBSource_read rd m (magma_CFBSource_init s k ivl ivr) size w) with
  | Ok (p, _) => size <= len cipher /\ p = firstn (N.to_nat size) plain
  | r => len cipher < size /\ r = Throw e
  end.
Proof.
  intros HE HR Ha Hb Hs Hw plain. rewrite magma_read_core.
  unfold magma_CFBSource_init. cbn [mcr_source mcr_key mcr_ivl mcr_ivr mcr_plain].
  pose proof (core_breaks rd m k fst mpush E mreg R e HE HR (fun r => eq_refl) (fun r c => eq_refl) size
    (Datatypes.S (N.to_nat size)) s w [] (ivl, ivr) [] cipher Hs Hw (reg2_ok _ _ Ha Hb)
    ltac:(cbn; lia) ltac:(lia) ltac:(cbn; lia)) as H.
  unfold core_outcome in H. cbv zeta in H. cbn [List.length Nat.add] in H.
  unfold mbind. destruct (nmloop _ _ _ w) as [o w']. cbn [fst] in H.
  destruct (Nat.leb_spec (N.to_nat size) (List.length cipher)).
  - destruct H as (s' & p' & r' & ->). cbn. unfold plain_of. rewrite Nat.sub_0_r. cbn [app].
    unfold len. split; [lia|reflexivity].
  - subst o. cbn. unfold len. split; [lia|reflexivity].
Qed.

Lemma gost_breaks {W St} (rd : reader W St) m (R : St -> W -> bytes -> Prop) e k E iv s w cipher size :
  enciphers k E -> breaks rd R e -> iv < 2 ^ 64 -> R s w cipher -> whole cipher ->
  let plain := unblocks8 (cfb_decrypt E [iv] (blocks8 cipher)) in
  match fst (gost_CFBSource_read rd m (gost_CFBSource_init s k iv) size w) with
  | Ok (p, _) => size <= len cipher /\ p = firstn (N.to_nat size) plain
  | r => len cipher < size /\ r = Throw e
  end.
Proof.
  intros HE HR Ha Hs Hw plain. rewrite gost_read_core.
  unfold gost_CFBSource_init. cbn [gcr_source gcr_key gcr_iv gcr_plain].
  pose proof (core_breaks rd m k (fun r => r) gpush E greg R e HE HR (fun r => eq_refl) (fun r c => eq_refl) size
    (Datatypes.S (N.to_nat size)) s w [] iv [] cipher Hs Hw (reg1_ok _ Ha)
    ltac:(cbn; lia) ltac:(lia) ltac:(cbn; lia)) as H.
  unfold core_outcome in H. cbv zeta in H. cbn [List.length Nat.add] in H.
  unfold mbind. destruct (nmloop _ _ _ w) as [o w']. cbn [fst] in H.
  destruct (Nat.leb_spec (N.to_nat size) (List.length cipher)).
  - destruct H as (s' & p' & r' & ->). cbn. unfold plain_of. rewrite Nat.sub_0_r. cbn [app].
    unfold len. split; [lia|reflexivity].
  - subst o. cbn. unfold len. split; [lia|reflexivity].
Qed.

Lemma ecb_breaks {W St} (rd : reader W St) m k s w e w' size :
  8 <= size -> rd s 8 w = (Throw e, w') ->
  ECBSource_read rd m (ECBSource s k) size w = (Throw e, w').
Proof.
  intros H Er. unfold ECBSource_read. destruct (N.ltb_spec size (N.of_nat block_size)) as [C|_].
  - unfold block_size in C. lia.
  - unfold mbind. now rewrite Er.
Qed.

(** Imit over a source that throws: whatever was read before, no MAC. *)
Lemma imit_breaks {W St} (rd : reader W St) m (R : St -> W -> bytes -> Prop) e lk s w data fuel :
  breaks rd R e -> R s w data -> whole data -> (List.length data / 8 + 1 <= Pos.to_nat fuel)%nat ->
  fst (magma_Imit rd m fuel s (Some lk) w) = Throw e.
Proof.
  intros HR Hs Hd Hf. unfold magma_Imit. change (N.of_nat block_size) with 8.
  destruct (whole_cases data Hd) as [-> | (a & b & -> & La & Ua & Wb)].
  - destruct (proj2 (HR s w [] Hs) eq_refl) as (w' & Er). unfold mbind at 1. now rewrite Er.
  - destruct (proj1 (HR s w _ Hs)) as (s' & w' & Er & Hs'); [destruct a; discriminate|].
    rewrite firstn_app_exact in Er by assumption. rewrite skipn_app_exact in Hs' by assumption.
    unfold mbind at 1. rewrite Er. unfold mbind at 1. rewrite mloop_nm.
    assert (Hb : (List.length b / 8 + 1 <= Pos.to_nat fuel)%nat).
    { rewrite app_length, La in Hf. replace (8 + List.length b)%nat with (List.length b + 1 * 8)%nat in Hf by lia.
      rewrite Nat.div_add in Hf by lia. lia. }
    cut (forall n b, whole b -> (List.length b / 8 + 1 <= n)%nat -> forall a s w blk, List.length a = 8%nat ->
      R s w b -> fst (nmloop n (imit_step rd m (Some lk)) (a, s, blk) w) = Throw e).
    { intros C. specialize (C _ b Wb Hb a s' w' BlkRaw0 La Hs').
      destruct (nmloop _ _ _ w') as [o w2]. cbn [fst] in C. now subst o. }
    clear - HR. intros n. induction n as [|n IH]; intros b Wb Hn a s w blk La Hs; [lia|].
    cbn [nmloop]. unfold mbind at 1. cbn [imit_step]. unfold mbind at 1.
    rewrite imit_load_ok by lia. cbn [lift]. rewrite La. cbn [block_size Nat.ltb Nat.leb].
    unfold mbind at 1. change (N.of_nat block_size) with 8.
    destruct (whole_cases b Wb) as [-> | (c & d & -> & Lc & Uc & Wd)].
    + destruct (proj2 (HR s w [] Hs) eq_refl) as (w' & Er). now rewrite Er.
    + destruct (proj1 (HR s w _ Hs)) as (s' & w' & Er & Hs'); [destruct c; discriminate|].
      rewrite firstn_app_exact in Er by assumption. rewrite skipn_app_exact in Hs' by assumption.
      rewrite Er. destruct c as [|x c']; [discriminate|]. cbn [mret].
      apply IH with (b := d); auto.
      rewrite app_length, Lc in Hn. replace (8 + List.length d)%nat with (List.length d + 1 * 8)%nat in Hn by lia.
      rewrite Nat.div_add in Hn by lia. lia.
Qed.
