(** The lemmas behind PropStreams.v. *)
From Verif Require Import Base MagmaModel Streams Lib SpecText SpecMagma SpecModes SpecStreams
  MagmaProofs MagmaSpecProofs BlockProofs ByteProofs SinkProofs SourceProofs StreamProofs TowerProofs.
From Coq Require Import ZifyNat ZifyN ZifyBool.
Local Open Scope N_scope.
Ltac Zify.zify_post_hook ::= idtac.

Lemma hex_keys s : List.length s = 64%nat -> Forall hex_digit s ->
  enciphers (KLazy (LazyKey_string s)) (Magma_E (number s)) /\
  deciphers (KLazy (LazyKey_string s)) (Magma_D (number s)) /\
  transforms (KLazy (LazyKey_string s)) (Magma_E (number s)).
Proof.
  intros Hl Hs. pose proof (hex_enciphers s Hl Hs) as H. split; [exact H|].
  split; [now apply hex_deciphers|now apply enciphers_transforms].
Qed.

Lemma total_keys k : total_key k ->
  exists E D, enciphers (KLazy k) E /\ deciphers (KLazy k) D /\ transforms (KLazy k) E.
Proof.
  intros H. destruct (total_ciphers k H) as (E & D & HE & HD). exists E, D.
  split; [exact HE|]. split; [exact HD|now apply enciphers_transforms].
Qed.

Lemma enciphers_transforms' k E : enciphers k E -> transforms k E.
Proof. intros H. destruct (enciphers_lazy _ _ H) as [lk ->]. now apply enciphers_transforms. Qed.

Lemma whole_concat chunks : Forall whole chunks -> whole (List.concat chunks).
Proof.
  induction 1 as [|c r [Hc Hu] Hr [IH IHu]]; [apply whole_nil|]. cbn [List.concat]. split.
  - now apply mod_app.
  - apply Forall_app. auto.
Qed.

Lemma whole_mod chunks : Forall whole chunks -> Forall (fun c : bytes => List.length c mod 8 = 0)%nat chunks.
Proof. apply Forall_impl. intros c [H _]. exact H. Qed.

(** ** ECB sinks *)

Lemma ecb_write_total {W S} (wr : writer W S) k E s data w : transforms k E -> Forall u8 data ->
  ECBSink_write wr (ECBSink s k) data w =
  (s' <-- writes wr s (map (to_le 8) (ecb E (blocks8 (complete data)))) ;;
   match leftover data with
   | [] => mret (ECBSink s' k)
   | _ :: _ => mthrow (RuntimeError "Unaligned ECB encryption")
   end) w.
Proof.
  intros HE Hd. rewrite ECBSink_write_general. apply mbind_ext; [|reflexivity].
  apply encrypt_send_total; [exact HE|]. apply blocks8_lt, complete_whole, Hd.
Qed.

Lemma ecb_sink_blocks {W S} (wr : writer W S) k E s chunks w :
  transforms k E -> Forall whole chunks -> never_fails wr ->
  exists s' w',
    writes (ECBSink_write (logged wr)) (ECBSink s k) chunks (w, []) =
    (Ok (ECBSink s' k), (w', map (to_le 8) (ecb E (blocks8 (List.concat chunks))))).
Proof.
  intros HE Hc Hn. rewrite ECBSink_writes_concat by now apply whole_mod.
  pose proof (whole_concat chunks Hc) as Hw. destruct (whole_complete _ Hw) as [Ec El].
  rewrite (ecb_write_total _ k E) by (exact HE || apply Hw). rewrite Ec, El.
  destruct (never_fails_writes wr Hn (map (to_le 8) (ecb E (blocks8 (List.concat chunks)))) s w [])
    as (s' & w' & E1).
  exists s', w'. rewrite (mbind_ok _ _ _ _ _ E1). reflexivity.
Qed.

Lemma ecb_sink_unaligned {W S} (wr : writer W S) k E s data w :
  transforms k E -> Forall u8 data -> (List.length data mod 8 <> 0)%nat -> never_fails wr ->
  exists w',
    ECBSink_write (logged wr) (ECBSink s k) data (w, []) =
    (Throw (RuntimeError "Unaligned ECB encryption"),
     (w', map (to_le 8) (ecb E (blocks8 (complete data))))).
Proof.
  intros HE Hd Hl Hn. rewrite (ecb_write_total _ k E) by assumption.
  destruct (never_fails_writes wr Hn (map (to_le 8) (ecb E (blocks8 (complete data)))) s w [])
    as (s' & w' & E1).
  exists w'. rewrite (mbind_ok _ _ _ _ _ E1).
  destruct (leftover data) eqn:El; [|reflexivity].
  exfalso. apply Hl. rewrite <- (complete_leftover data), El, app_nil_r. apply complete_length.
Qed.

Lemma ecb_round_trip {W S} (wr : writer W S) k E D s chunks w :
  enciphers k E -> deciphers k D -> Forall whole chunks -> never_fails wr ->
  exists o s' w' w'' log,
    writes (ECBSink_write (logged wr)) (ECBSink s k) chunks (w, []) = (Ok o, (w', log)) /\
    ECBSink_finalize o (w', log) = (Ok s', (w'', log)) /\
    forall W2 St (rd : reader W2 St) (R : St -> W2 -> bytes -> Prop) m src w2 sizes,
      block_source rd R -> R src w2 (List.concat log) -> Forall (fun n => 8 <= n) sizes ->
      exists o2 w3, reads (ECBSource_read rd m) (ECBSource src k) sizes w2 =
        (Ok (served (List.concat chunks) (map (fun _ => 8) sizes), o2), w3).
Proof.
  intros HE HD Hc Hn.
  destruct (ecb_sink_blocks wr k E s chunks w (enciphers_transforms' k E HE) Hc Hn) as (s' & w' & Ew).
  exists (ECBSink s' k), s', w', w'. eexists. split; [exact Ew|]. split; [reflexivity|].
  intros W2 St rd R m src w2 sizes HR Hs Hz.
  pose proof (whole_concat chunks Hc) as Hw. pose proof (blocks8_lt _ Hw) as Hb.
  pose proof (ecb_lt E _ (enciphers_lt _ _ HE) Hb) as Hcs.
  rewrite concat_map_to_le in Hs.
  pose proof (ecb_left_init k D R src w2 _ Hs (unblocks8_whole _)) as HL.
  rewrite blocks8_unblocks8, ecb_ecb, unblocks8_blocks8 in HL; try assumption.
  - exact (delivers_blocks_reads _ _ sizes (ecb_delivers rd m k D R HD HR) Hz _ _ _ HL).
  - intros x Hx. now apply (deciphers_enciphers k E D).
Qed.

Lemma served_all data n : (List.length data <= 8 * n)%nat -> List.concat (served data (repeat 8 n)) = data.
Proof.
  intros H. rewrite served_concat, firstn_all2; [reflexivity|].
  assert (Ht : total (repeat 8 n) = 8 * N.of_nat n).
  { clear H. induction n; [reflexivity|]. cbn [repeat total fold_right]. fold (total (repeat 8 n)). lia. }
  rewrite Ht. lia.
Qed.

Lemma memory_source {W} :
  delivers (@MemSource_read W) (fun s _ data => s = data) /\
  block_source (@MemSource_read W) (fun s _ data => s = data).
Proof. split; [apply MemSource_delivers|apply delivers_block_source, MemSource_delivers]. Qed.

(** ** ECB sources at the end of data *)

Lemma ecb_short_iso {W St} (rd : reader W St) k s s' w w' p size :
  8 <= size -> rd s 8 w = (Ok (p, s'), w') -> (0 < List.length p < 8)%nat ->
  ECBSource_read rd ISO (ECBSource s k) size w = (Undef OutOfBounds, w').
Proof.
  intros Hz Hr Hp. unfold ECBSource_read.
  replace (size <? N.of_nat block_size) with false by (unfold block_size; lia).
  rewrite (mbind_ok _ _ _ _ _ Hr). destruct p as [|b p]; [cbn in Hp; lia|].
  rewrite read8_short by lia. reflexivity.
Qed.

Lemma ecb_short_x86 {W St} (rd : reader W St) k D g s s' w w' p size :
  deciphers k D -> Forall u8 p ->
  8 <= size -> rd s 8 w = (Ok (p, s'), w') -> (0 < List.length p < 8)%nat ->
  exists q, List.length q = List.length p /\
    ECBSource_read rd (X86 g) (ECBSource s k) size w = (Ok (q, ECBSource s' k), w').
Proof.
  intros HD Hu Hz Hr Hp. unfold ECBSource_read.
  replace (size <? N.of_nat block_size) with false by (unfold block_size; lia).
  rewrite (mbind_ok _ _ _ _ _ Hr). destruct p as [|b p]; [cbn in Hp; lia|].
  set (q := b :: p) in *.
  set (v := q ++ map (fun i => w8 (g q i)) (seq (List.length q) (8 - List.length q))).
  assert (Ev : read8 (X86 g) q = Ok v).
  { unfold read8. destruct (Nat.leb_spec 8 (List.length q)); [lia|reflexivity]. }
  assert (Lv : List.length v = 8%nat) by (unfold v; rewrite app_length, map_length, seq_length; lia).
  assert (Uv : Forall u8 v).
  { apply Forall_app. split; [exact Hu|]. apply Forall_map, Forall_forall. intros i _. apply w8_lt. }
  rewrite Ev. destruct (HD (of_le v) (of_le_8_lt v Uv Lv)) as [E1 _].
  unfold mbind, lift. rewrite BlkRaw_bytes_ok, E1 by assumption.
  change (halves (D (of_le v))) with (fst (halves (D (of_le v))), snd (halves (D (of_le v)))).
  cbv iota beta. rewrite to_le_halves. unfold write8.
  destruct (Nat.leb_spec 8 (List.length q)); [lia|].
  eexists. split; [|reflexivity]. rewrite firstn_length, to_le_length. lia.
Qed.

Lemma ecb_after_end {W St} (rd : reader W St) m k s s' w w' size n :
  8 <= size -> rd s 8 w = (Ok ([], s'), w') ->
  ECBSource_read rd m (ECBSource s k) size w = (Ok ([], ECBBare s'), w') /\
  forall w2, ECBSource_read rd m (ECBBare s') n w2 =
    ('(p, s'') <-- rd s' n ;; mret (p, ECBBare s'')) w2.
Proof.
  intros Hz Hr. split; [|reflexivity]. unfold ECBSource_read.
  replace (size <? N.of_nat block_size) with false by (unfold block_size; lia).
  rewrite (mbind_ok _ _ _ _ _ Hr). reflexivity.
Qed.

(** ** CFB sinks *)

Lemma magma_write_chunks {W S} (wr : writer W S) m k E ivl ivr s chunks w :
  enciphers k E -> ivl < 2 ^ 64 -> ivr < 2 ^ 64 -> Forall u8 (List.concat chunks) ->
  let cs := cfb_encrypt E [ivl; ivr] (blocks8 (complete (List.concat chunks))) in
  writes (magma_CFBSink_write wr m) (magma_CFBSink_init s k ivl ivr) chunks w =
  (s' <-- writes wr s (map (to_le 8) cs) ;;
   mret (MagmaCFBSink s' k (nth 0 (shifted [ivl; ivr] cs) 0) (nth 1 (shifted [ivl; ivr] cs) 0)
                      (leftover (List.concat chunks)))) w.
Proof.
  intros HE H1 H2 Hu cs. rewrite magma_writes_concat. unfold magma_CFBSink_init.
  rewrite (magma_write_general wr m E) by (auto; cbn; lia). reflexivity.
Qed.

Lemma gost_write_chunks {W S} (wr : writer W S) m k E iv s chunks w :
  enciphers k E -> iv < 2 ^ 64 -> Forall u8 (List.concat chunks) ->
  let cs := cfb_encrypt E [iv] (blocks8 (complete (List.concat chunks))) in
  writes (gost_CFBSink_write wr m) (gost_CFBSink_init s k iv) chunks w =
  (s' <-- writes wr s (map (to_le 8) cs) ;;
   mret (GostCFBSink s' k (nth 0 (shifted [iv] cs) 0) (leftover (List.concat chunks)))) w.
Proof.
  intros HE H1 Hu cs. rewrite gost_writes_concat. unfold gost_CFBSink_init.
  rewrite (gost_write_general wr m E) by (auto; cbn; lia). reflexivity.
Qed.

Lemma cfb_bytes_length E reg d : whole d ->
  List.length (List.concat (map (to_le 8) (cfb_encrypt E reg (blocks8 d)))) = List.length d.
Proof.
  intros H. rewrite concat_map_to_le, unblocks8_length, cfb_encrypt_length. apply blocks8_length; apply H.
Qed.

Lemma magma_sink_blocks {W S} (wr : writer W S) m k E ivl ivr s chunks w :
  enciphers k E -> ivl < 2 ^ 64 -> ivr < 2 ^ 64 -> whole (List.concat chunks) -> never_fails wr ->
  exists o s' w' log,
    writes (magma_CFBSink_write (logged wr) m) (magma_CFBSink_init s k ivl ivr) chunks (w, [])
      = (Ok o, (w', log)) /\
    magma_CFBSink_finalize (logged wr) m o (w', log) = (Ok s', (w', log)) /\
    log = map (to_le 8) (cfb_encrypt E [ivl; ivr] (blocks8 (List.concat chunks))) /\
    List.length (List.concat log) = List.length (List.concat chunks).
Proof.
  intros HE H1 H2 Hw Hn. destruct (whole_complete _ Hw) as [Ec El].
  pose proof (magma_write_chunks (logged wr) m k E ivl ivr s chunks (w, []) HE H1 H2 (proj2 Hw)) as Ew.
  cbv zeta in Ew. rewrite Ec, El in Ew.
  set (cs := cfb_encrypt E [ivl; ivr] (blocks8 (List.concat chunks))) in *.
  destruct (never_fails_writes wr Hn (map (to_le 8) cs) s w []) as (s' & w' & E1).
  rewrite (mbind_ok _ _ _ _ _ E1) in Ew. eexists _, _, _, _. split; [exact Ew|].
  split; [reflexivity|]. split; [reflexivity|]. now apply cfb_bytes_length.
Qed.

Lemma gost_sink_blocks {W S} (wr : writer W S) m k E iv s chunks w :
  enciphers k E -> iv < 2 ^ 64 -> whole (List.concat chunks) -> never_fails wr ->
  exists o s' w' log,
    writes (gost_CFBSink_write (logged wr) m) (gost_CFBSink_init s k iv) chunks (w, [])
      = (Ok o, (w', log)) /\
    gost_CFBSink_finalize (logged wr) m o (w', log) = (Ok s', (w', log)) /\
    log = map (to_le 8) (cfb_encrypt E [iv] (blocks8 (List.concat chunks))) /\
    List.length (List.concat log) = List.length (List.concat chunks).
Proof.
  intros HE H1 Hw Hn. destruct (whole_complete _ Hw) as [Ec El].
  pose proof (gost_write_chunks (logged wr) m k E iv s chunks (w, []) HE H1 (proj2 Hw)) as Ew.
  cbv zeta in Ew. rewrite Ec, El in Ew.
  set (cs := cfb_encrypt E [iv] (blocks8 (List.concat chunks))) in *.
  destruct (never_fails_writes wr Hn (map (to_le 8) cs) s w []) as (s' & w' & E1).
  rewrite (mbind_ok _ _ _ _ _ E1) in Ew. eexists _, _, _, _. split; [exact Ew|].
  split; [reflexivity|]. split; [reflexivity|]. now apply cfb_bytes_length.
Qed.

(** ** Reading *)

Lemma magma_source_reads {W St} (rd : reader W St) m (R : St -> W -> bytes -> Prop) k E
    ivl ivr s w cipher sizes :
  enciphers k E -> delivers8 rd R -> ivl < 2 ^ 64 -> ivr < 2 ^ 64 -> R s w cipher -> whole cipher ->
  let plain := unblocks8 (cfb_decrypt E [ivl; ivr] (blocks8 cipher)) in
  exists o' w',
    reads (magma_CFBSource_read rd m) (magma_CFBSource_init s k ivl ivr) sizes w =
    (Ok (served plain sizes, o'), w').
Proof.
  intros HE HR H1 H2 Hs Hw plain.
  apply (delivers_reads _ _ sizes (magma_delivers rd m k E R HE HR)). now apply magma_left_init.
Qed.

Lemma gost_source_reads {W St} (rd : reader W St) m (R : St -> W -> bytes -> Prop) k E
    iv s w cipher sizes :
  enciphers k E -> delivers8 rd R -> iv < 2 ^ 64 -> R s w cipher -> whole cipher ->
  let plain := unblocks8 (cfb_decrypt E [iv] (blocks8 cipher)) in
  exists o' w',
    reads (gost_CFBSource_read rd m) (gost_CFBSource_init s k iv) sizes w =
    (Ok (served plain sizes, o'), w').
Proof.
  intros HE HR H1 Hs Hw plain.
  apply (delivers_reads _ _ sizes (gost_delivers rd m k E R HE HR)). now apply gost_left_init.
Qed.

Lemma magma_round_trip {W S} (wr : writer W S) m k E ivl ivr s chunks w :
  enciphers k E -> ivl < 2 ^ 64 -> ivr < 2 ^ 64 -> whole (List.concat chunks) -> never_fails wr ->
  exists o s' w' log,
    writes (magma_CFBSink_write (logged wr) m) (magma_CFBSink_init s k ivl ivr) chunks (w, [])
      = (Ok o, (w', log)) /\
    magma_CFBSink_finalize (logged wr) m o (w', log) = (Ok s', (w', log)) /\
    forall W2 St (rd : reader W2 St) (R : St -> W2 -> bytes -> Prop) m2 src w2 sizes,
      delivers8 rd R -> R src w2 (List.concat log) ->
      exists o2 w3,
        reads (magma_CFBSource_read rd m2) (magma_CFBSource_init src k ivl ivr) sizes w2 =
        (Ok (served (List.concat chunks) sizes, o2), w3).
Proof.
  intros HE H1 H2 Hw Hn.
  destruct (magma_sink_blocks wr m k E ivl ivr s chunks w HE H1 H2 Hw Hn) as (o & s' & w' & log & A & B & -> & _).
  eexists _, _, _, _. split; [exact A|]. split; [exact B|].
  intros W2 St rd R m2 src w2 sizes HR Hs. rewrite concat_map_to_le in Hs.
  destruct (magma_source_reads rd m2 R k E ivl ivr src w2 _ sizes HE HR H1 H2 Hs (unblocks8_whole _))
    as (o2 & w3 & Er).
  rewrite blocks8_unblocks8 in Er.
  - rewrite cfb_decrypt_encrypt, unblocks8_blocks8 in Er by exact Hw. eauto.
  - apply cfb_encrypt_lt; [exact (enciphers_lt _ _ HE)|now apply reg2_ok|now apply blocks8_lt].
Qed.

Lemma gost_round_trip {W S} (wr : writer W S) m k E iv s chunks w :
  enciphers k E -> iv < 2 ^ 64 -> whole (List.concat chunks) -> never_fails wr ->
  exists o s' w' log,
    writes (gost_CFBSink_write (logged wr) m) (gost_CFBSink_init s k iv) chunks (w, [])
      = (Ok o, (w', log)) /\
    gost_CFBSink_finalize (logged wr) m o (w', log) = (Ok s', (w', log)) /\
    forall W2 St (rd : reader W2 St) (R : St -> W2 -> bytes -> Prop) m2 src w2 sizes,
      delivers8 rd R -> R src w2 (List.concat log) ->
      exists o2 w3,
        reads (gost_CFBSource_read rd m2) (gost_CFBSource_init src k iv) sizes w2 =
        (Ok (served (List.concat chunks) sizes, o2), w3).
Proof.
  intros HE H1 Hw Hn.
  destruct (gost_sink_blocks wr m k E iv s chunks w HE H1 Hw Hn) as (o & s' & w' & log & A & B & -> & _).
  eexists _, _, _, _. split; [exact A|]. split; [exact B|].
  intros W2 St rd R m2 src w2 sizes HR Hs. rewrite concat_map_to_le in Hs.
  destruct (gost_source_reads rd m2 R k E iv src w2 _ sizes HE HR H1 Hs (unblocks8_whole _))
    as (o2 & w3 & Er).
  rewrite blocks8_unblocks8 in Er.
  - rewrite cfb_decrypt_encrypt, unblocks8_blocks8 in Er by exact Hw. eauto.
  - apply cfb_encrypt_lt; [exact (enciphers_lt _ _ HE)|now apply reg1_ok|now apply blocks8_lt].
Qed.

(** ** finalize with a pending tail *)

Lemma leftover_nonempty (d : bytes) : (List.length d mod 8 <> 0)%nat -> exists b r, leftover d = b :: r.
Proof.
  intros H. destruct (leftover d) as [|b r] eqn:E; [|eauto].
  exfalso. apply H. rewrite <- (complete_leftover d), E, app_nil_r. apply complete_length.
Qed.

Lemma never_fails_writes' {W S} (wr : writer W S) : never_fails wr ->
  forall chunks s w, exists s' w', writes wr s chunks w = (Ok s', w').
Proof.
  intros H. induction chunks as [|c r IH]; intros s w; [eexists _, _; reflexivity|].
  destruct (H s c w) as (s1 & w1 & E). destruct (IH s1 w1) as (s2 & w2 & E2).
  exists s2, w2. cbn [writes]. now rewrite (mbind_ok _ _ _ _ _ E).
Qed.

Lemma magma_finalize_iso {W S} (wr : writer W S) k E ivl ivr s chunks w :
  enciphers k E -> ivl < 2 ^ 64 -> ivr < 2 ^ 64 -> Forall u8 (List.concat chunks) ->
  (List.length (List.concat chunks) mod 8 <> 0)%nat -> never_fails wr ->
  exists o w', writes (magma_CFBSink_write wr ISO) (magma_CFBSink_init s k ivl ivr) chunks w = (Ok o, w') /\
    magma_CFBSink_finalize wr ISO o w' = (Undef OutOfBounds, w').
Proof.
  intros HE H1 H2 Hu Hl Hn.
  pose proof (magma_write_chunks wr ISO k E ivl ivr s chunks w HE H1 H2 Hu) as Ew. cbv zeta in Ew.
  set (cs := cfb_encrypt E [ivl; ivr] (blocks8 (complete (List.concat chunks)))) in *.
  destruct (never_fails_writes' wr Hn (map (to_le 8) cs) s w) as (s' & w' & E1).
  rewrite (mbind_ok _ _ _ _ _ E1) in Ew. eexists _, _. split; [exact Ew|].
  assert (Hr : reg_ok (shifted [ivl; ivr] cs)).
  { apply shifted_ok; [now apply reg2_ok|]. apply cfb_encrypt_lt;
    [exact (enciphers_lt _ _ HE)|now apply reg2_ok|now apply blocks8_lt, complete_whole]. }
  unfold magma_CFBSink_finalize. cbn [mcs_plain mcs_ivl mcs_key mcs_sink].
  pose proof (leftover_length (List.concat chunks)) as Hll.
  destruct (leftover_nonempty _ Hl) as (b & r & El). rewrite El in *.
  destruct (HE (nth 0 (shifted [ivl; ivr] cs) 0)) as [E2 _].
  { destruct Hr as [Hr0 Hr]. destruct (shifted [ivl; ivr] cs); [contradiction|]. now inversion Hr. }
  rewrite E2. unfold mbind, lift. cbn [halves]. rewrite sink_xor_short by exact Hll. reflexivity.
Qed.

Lemma gost_finalize_iso {W S} (wr : writer W S) k E iv s chunks w :
  enciphers k E -> iv < 2 ^ 64 -> Forall u8 (List.concat chunks) ->
  (List.length (List.concat chunks) mod 8 <> 0)%nat -> never_fails wr ->
  exists o w', writes (gost_CFBSink_write wr ISO) (gost_CFBSink_init s k iv) chunks w = (Ok o, w') /\
    gost_CFBSink_finalize wr ISO o w' = (Undef OutOfBounds, w').
Proof.
  intros HE H1 Hu Hl Hn.
  pose proof (gost_write_chunks wr ISO k E iv s chunks w HE H1 Hu) as Ew. cbv zeta in Ew.
  set (cs := cfb_encrypt E [iv] (blocks8 (complete (List.concat chunks)))) in *.
  destruct (never_fails_writes' wr Hn (map (to_le 8) cs) s w) as (s' & w' & E1).
  rewrite (mbind_ok _ _ _ _ _ E1) in Ew. eexists _, _. split; [exact Ew|].
  assert (Hr : reg_ok (shifted [iv] cs)).
  { apply shifted_ok; [now apply reg1_ok|]. apply cfb_encrypt_lt;
    [exact (enciphers_lt _ _ HE)|now apply reg1_ok|now apply blocks8_lt, complete_whole]. }
  unfold gost_CFBSink_finalize. cbn [gcs_plain gcs_iv gcs_key gcs_sink].
  pose proof (leftover_length (List.concat chunks)) as Hll.
  destruct (leftover_nonempty _ Hl) as (b & r & El). rewrite El in *.
  destruct (HE (nth 0 (shifted [iv] cs) 0)) as [E2 _].
  { destruct Hr as [Hr0 Hr]. destruct (shifted [iv] cs); [contradiction|]. now inversion Hr. }
  rewrite E2. unfold mbind, lift. cbn [halves]. rewrite sink_xor_short by exact Hll. reflexivity.
Qed.

(** ** Termination *)

Lemma magma_source_terminates {W St} (rd : reader W St) m o size w c :
  (forall s w, fst (rd s 8 w) <> OutOfFuel) ->
  (forall x, BlkEncrypted (BlkRaw64 x) (cast_lazy (mcr_key o)) <> OutOfFuel) ->
  exists r w' c', magma_CFBSource_read (counted rd) m o size (w, c) = (r, (w', c')) /\
    r <> OutOfFuel /\ c <= c' /\ c' - c <= size - len (mcr_plain o).
Proof.
  intros Hr Hk. rewrite magma_read_core.
  destruct (core_terminates rd m (mcr_key o) fst mpush Hr Hk size (Datatypes.S (N.to_nat size))
    (mcr_source o) w c (mcr_plain o) (mcr_ivl o, mcr_ivr o) []) as (r & w' & c' & A & B & C & D).
  - cbn [List.length]; lia.
  - lia.
  - cbn [List.length]. destruct (mcr_plain o); lia.
  - unfold mbind, len. cbn [List.length] in D.
    change (@nil N) with (@nil N : bytes) in A.
    match goal with |- exists r0 w0 c0, match ?x with _ => _ end = _ /\ _ =>
      replace x with (r, (w', c')) by (symmetry; exact A) end.
    destruct r as [[[[s p] rg] res]|e|u|]; [| | |contradiction];
      (eexists _, w', c'; split; [reflexivity|split; [discriminate|lia]]).
Qed.

Lemma gost_source_terminates {W St} (rd : reader W St) m o size w c :
  (forall s w, fst (rd s 8 w) <> OutOfFuel) ->
  (forall x, BlkEncrypted (BlkRaw64 x) (cast_lazy (gcr_key o)) <> OutOfFuel) ->
  exists r w' c', gost_CFBSource_read (counted rd) m o size (w, c) = (r, (w', c')) /\
    r <> OutOfFuel /\ c <= c' /\ c' - c <= size - len (gcr_plain o).
Proof.
  intros Hr Hk. rewrite gost_read_core.
  destruct (core_terminates rd m (gcr_key o) (fun r => r) gpush Hr Hk size (Datatypes.S (N.to_nat size))
    (gcr_source o) w c (gcr_plain o) (gcr_iv o) []) as (r & w' & c' & A & B & C & D).
  - cbn [List.length]; lia.
  - lia.
  - cbn [List.length]. destruct (gcr_plain o); lia.
  - unfold mbind, len. cbn [List.length] in D.
    match goal with |- exists r0 w0 c0, match ?x with _ => _ end = _ /\ _ =>
      replace x with (r, (w', c')) by (symmetry; exact A) end.
    destruct r as [[[[s p] rg] res]|e|u|]; [| | |contradiction];
      (eexists _, w', c'; split; [reflexivity|split; [discriminate|lia]]).
Qed.

Lemma delivers8_counted {W St} (rd : reader W St) (R : St -> W -> bytes -> Prop) :
  delivers8 rd R -> delivers8 (counted rd) (fun s wc d => R s (fst wc) d).
Proof.
  intros H s [w c] d HR. destruct (H s w d HR) as (s' & w' & E & HR').
  exists s', (w', c + 1). unfold counted. rewrite E. split; [reflexivity|exact HR'].
Qed.

Lemma inner_reads_enough need avail : (need <= avail)%nat -> inner_reads need avail = ((need + 7) / 8)%nat.
Proof. intros H. unfold inner_reads. destruct (Nat.leb_spec need avail); [reflexivity|lia]. Qed.

Lemma reads_count {W St} (rd : reader W St) n : forall s w c bs s' w' c',
  reads (counted rd) s (repeat 8 n) (w, c) = (Ok (bs, s'), (w', c')) -> c' = c + N.of_nat n.
Proof.
  induction n as [|n IH]; intros s w c bs s' w' c' H.
  - injection H as <- <- <- <-. lia.
  - cbn [repeat reads] in H. apply mbind_ok_inv in H. destruct H as ([b s1] & [w1 c1] & E & H).
    apply mbind_ok_inv in H. destruct H as ([bs1 s2] & [w2 c2] & E2 & H). injection H as <- <- <- <-.
    unfold counted in E. destruct (rd s 8 w) as [r w3]. injection E as _ <- <-.
    apply IH in E2. lia.
Qed.

Lemma ceil8 a b : N.of_nat ((N.to_nat a - b + 7) / 8) = (a - N.of_nat b + 7) / 8.
Proof. rewrite Nat2N.inj_div. f_equal. lia. Qed.

Lemma plain_length E reg p cipher : whole cipher ->
  List.length (p ++ unblocks8 (cfb_decrypt E reg (blocks8 cipher))) = (List.length p + List.length cipher)%nat.
Proof.
  intros [H _]. rewrite app_length, unblocks8_length, cfb_decrypt_length, blocks8_length by exact H. reflexivity.
Qed.

Lemma magma_source_exact {W St} (rd : reader W St) m (R : St -> W -> bytes -> Prop) E
    o size w c cipher :
  enciphers (mcr_key o) E -> delivers8 rd R -> mcr_ivl o < 2 ^ 64 -> mcr_ivr o < 2 ^ 64 ->
  R (mcr_source o) w cipher -> whole cipher -> size <= len (mcr_plain o) + len cipher ->
  exists b o' w', magma_CFBSource_read (counted rd) m o size (w, c) =
    (Ok (b, o'), (w', c + (size - len (mcr_plain o) + 7) / 8)) /\ len b = size.
Proof.
  intros HE HR H1 H2 Hs Hw Hz. unfold len in *.
  destruct (magma_read_delivers (counted rd) m (mcr_key o) E _ HE (delivers8_counted rd R HR)
    o (w, c) cipher size eq_refl H1 H2 Hs Hw) as (o' & [w' c'] & bs & A & _ & C).
  rewrite inner_reads_enough in C by lia. apply reads_count in C. rewrite ceil8 in C. subst c'.
  eexists _, o', w'. split; [exact A|]. rewrite firstn_length, plain_length by exact Hw. lia.
Qed.

Lemma gost_source_exact {W St} (rd : reader W St) m (R : St -> W -> bytes -> Prop) E
    o size w c cipher :
  enciphers (gcr_key o) E -> delivers8 rd R -> gcr_iv o < 2 ^ 64 ->
  R (gcr_source o) w cipher -> whole cipher -> size <= len (gcr_plain o) + len cipher ->
  exists b o' w', gost_CFBSource_read (counted rd) m o size (w, c) =
    (Ok (b, o'), (w', c + (size - len (gcr_plain o) + 7) / 8)) /\ len b = size.
Proof.
  intros HE HR H1 Hs Hw Hz. unfold len in *.
  destruct (gost_read_delivers (counted rd) m (gcr_key o) E _ HE (delivers8_counted rd R HR)
    o (w, c) cipher size eq_refl H1 Hs Hw) as (o' & [w' c'] & bs & A & _ & C).
  rewrite inner_reads_enough in C by lia. apply reads_count in C. rewrite ceil8 in C. subst c'.
  eexists _, o', w'. split; [exact A|]. rewrite firstn_length, plain_length by exact Hw. lia.
Qed.

(** ** Corruption *)

Lemma reg_nth reg (c1 c2 : list N) i j :
  (forall j, j <> i -> nth j c1 0 = nth j c2 0) -> j <> (i + List.length reg)%nat ->
  nth j (reg ++ c1) 0 = nth j (reg ++ c2) 0.
Proof.
  intros H Hj. destruct (Nat.lt_ge_cases j (List.length reg)).
  - rewrite !app_nth1 by lia. reflexivity.
  - rewrite !app_nth2 by lia. apply H. lia.
Qed.

Lemma cfb_corruption E reg c1 c2 i : reg <> [] ->
  List.length c1 = List.length c2 -> (i < List.length c1)%nat ->
  (forall j, j <> i -> nth j c1 0 = nth j c2 0) ->
  (forall j, j <> i -> j <> (i + List.length reg)%nat ->
     nth j (cfb_decrypt E reg c1) 0 = nth j (cfb_decrypt E reg c2) 0) /\
  N.lxor (nth i (cfb_decrypt E reg c1) 0) (nth i (cfb_decrypt E reg c2) 0) =
    N.lxor (nth i c1 0) (nth i c2 0).
Proof.
  intros Hr Hl Hi H. split.
  - intros j H1 H2. destruct (Nat.lt_ge_cases j (List.length c1)) as [L|L].
    + rewrite !cfb_decrypt_nth by (assumption || lia). rewrite (H j H1). do 2 f_equal.
      now apply (reg_nth reg c1 c2 i).
    + rewrite !nth_overflow by (rewrite cfb_decrypt_length; lia). reflexivity.
  - rewrite !cfb_decrypt_nth by (assumption || lia).
    assert (Hn : i <> (i + List.length reg)%nat) by (destruct reg; [contradiction|cbn; lia]).
    rewrite (reg_nth reg c1 c2 i i H Hn).
    generalize (E (nth i (reg ++ c2) 0)) (nth i c1 0) (nth i c2 0). intros e a b.
    apply N.bits_inj. intros z. rewrite !N.lxor_spec. now destruct (N.testbit a z), (N.testbit b z), (N.testbit e z).
Qed.

Lemma blocks_count d i : whole d -> (8 * i < List.length d)%nat -> (i < List.length (blocks8 d))%nat.
Proof. intros [H _] Hi. pose proof (blocks8_length d H). lia. Qed.

Lemma blocks_eq_length d1 d2 : whole d1 -> whole d2 -> List.length d1 = List.length d2 ->
  List.length (blocks8 d1) = List.length (blocks8 d2).
Proof. intros [H1 _] [H2 _] H. pose proof (blocks8_length d1 H1). pose proof (blocks8_length d2 H2). lia. Qed.

Lemma gost_corruption {W St} (rd : reader W St) m (R : St -> W -> bytes -> Prop) k E
    iv s1 s2 w1 w2 c1 c2 i size :
  enciphers k E -> delivers8 rd R -> iv < 2 ^ 64 ->
  R s1 w1 c1 -> R s2 w2 c2 -> differ_in_block i c1 c2 -> len c1 <= size ->
  exists p1 p2 o1 o2 w1' w2',
    gost_CFBSource_read rd m (gost_CFBSource_init s1 k iv) size w1 = (Ok (p1, o1), w1') /\
    gost_CFBSource_read rd m (gost_CFBSource_init s2 k iv) size w2 = (Ok (p2, o2), w2') /\
    List.length p1 = List.length c1 /\ List.length p2 = List.length c2 /\
    (forall j, j <> i -> j <> (i + 1)%nat -> nth j (blocks8 p1) 0 = nth j (blocks8 p2) 0) /\
    N.lxor (nth i (blocks8 p1) 0) (nth i (blocks8 p2) 0) =
      N.lxor (nth i (blocks8 c1) 0) (nth i (blocks8 c2) 0).
Proof.
  intros HE HR H1 Hs1 Hs2 (Hw1 & Hw2 & Hl & Hi & Hd) Hz. unfold len in Hz.
  destruct (gost_read_delivers rd m k E R HE HR (gost_CFBSource_init s1 k iv) w1 c1 size eq_refl H1 Hs1 Hw1)
    as (o1 & w1' & _ & A1 & _).
  destruct (gost_read_delivers rd m k E R HE HR (gost_CFBSource_init s2 k iv) w2 c2 size eq_refl H1 Hs2 Hw2)
    as (o2 & w2' & _ & A2 & _).
  cbn [gost_CFBSource_init gcr_plain gcr_iv app] in A1, A2.
  pose proof (plain_length E [iv] [] c1 Hw1) as P1. pose proof (plain_length E [iv] [] c2 Hw2) as P2.
  cbn [app List.length Nat.add] in P1, P2.
  rewrite firstn_all2 in A1, A2 by lia.
  pose proof (reg1_ok iv H1) as Hr. pose proof (enciphers_lt _ _ HE) as LE.
  exists (unblocks8 (cfb_decrypt E [iv] (blocks8 c1))), (unblocks8 (cfb_decrypt E [iv] (blocks8 c2))),
    o1, o2, w1', w2'.
  split; [exact A1|]. split; [exact A2|]. split; [exact P1|]. split; [exact P2|].
  rewrite !blocks8_unblocks8 by (apply cfb_decrypt_lt; auto using blocks8_lt).
  apply (cfb_corruption E [iv]); [discriminate|now apply blocks_eq_length|now apply blocks_count|exact Hd].
Qed.

Lemma magma_corruption {W St} (rd : reader W St) m (R : St -> W -> bytes -> Prop) k E
    ivl ivr s1 s2 w1 w2 c1 c2 i size :
  enciphers k E -> delivers8 rd R -> ivl < 2 ^ 64 -> ivr < 2 ^ 64 ->
  R s1 w1 c1 -> R s2 w2 c2 -> differ_in_block i c1 c2 -> len c1 <= size ->
  exists p1 p2 o1 o2 w1' w2',
    magma_CFBSource_read rd m (magma_CFBSource_init s1 k ivl ivr) size w1 = (Ok (p1, o1), w1') /\
    magma_CFBSource_read rd m (magma_CFBSource_init s2 k ivl ivr) size w2 = (Ok (p2, o2), w2') /\
    List.length p1 = List.length c1 /\ List.length p2 = List.length c2 /\
    (forall j, j <> i -> j <> (i + 2)%nat -> nth j (blocks8 p1) 0 = nth j (blocks8 p2) 0) /\
    N.lxor (nth i (blocks8 p1) 0) (nth i (blocks8 p2) 0) =
      N.lxor (nth i (blocks8 c1) 0) (nth i (blocks8 c2) 0).
Proof.
  intros HE HR H1 H2 Hs1 Hs2 (Hw1 & Hw2 & Hl & Hi & Hd) Hz. unfold len in Hz.
  destruct (magma_read_delivers rd m k E R HE HR (magma_CFBSource_init s1 k ivl ivr) w1 c1 size eq_refl H1 H2 Hs1 Hw1)
    as (o1 & w1' & _ & A1 & _).
  destruct (magma_read_delivers rd m k E R HE HR (magma_CFBSource_init s2 k ivl ivr) w2 c2 size eq_refl H1 H2 Hs2 Hw2)
    as (o2 & w2' & _ & A2 & _).
  cbn [magma_CFBSource_init mcr_plain mcr_ivl mcr_ivr app] in A1, A2.
  pose proof (plain_length E [ivl; ivr] [] c1 Hw1) as P1. pose proof (plain_length E [ivl; ivr] [] c2 Hw2) as P2.
  cbn [app List.length Nat.add] in P1, P2.
  rewrite firstn_all2 in A1, A2 by lia.
  pose proof (reg2_ok ivl ivr H1 H2) as Hr. pose proof (enciphers_lt _ _ HE) as LE.
  exists (unblocks8 (cfb_decrypt E [ivl; ivr] (blocks8 c1))), (unblocks8 (cfb_decrypt E [ivl; ivr] (blocks8 c2))),
    o1, o2, w1', w2'.
  split; [exact A1|]. split; [exact A2|]. split; [exact P1|]. split; [exact P2|].
  rewrite !blocks8_unblocks8 by (apply cfb_decrypt_lt; auto using blocks8_lt).
  apply (cfb_corruption E [ivl; ivr]); [discriminate|now apply blocks_eq_length|now apply blocks_count|exact Hd].
Qed.

(** ** Failing sinks *)

Lemma sink_failure_map {W S A B} (wr : writer W S) s log w w' (r : res A) (f : A -> M W B) :
  sink_failure wr s log w r w' -> (forall a, r <> Ok a).
Proof.
  intros (b & c & s1 & w1 & _ & _ & H) a ->. destruct (wr s1 c w1) as [[?|?|?|] ?]; [contradiction|..];
    destruct H; discriminate.
Qed.

Lemma failing_bind {W S A} (wr : writer W S) s cs w (f : S -> M (W * list bytes) A) r w' log :
  (s' <-- writes (logged wr) s cs ;; f s') (w, []) = (r, (w', log)) ->
  (exists s1 w1, writes wr s cs w = (Ok s1, w1) /\ f s1 (w1, cs) = (r, (w', log))) \/
  (exists rest, cs = log ++ rest /\ sink_failure wr s log w r w').
Proof.
  intros H. unfold mbind in H.
  destruct (writes (logged wr) s cs (w, [])) as [r1 [w1 l1]] eqn:E.
  apply writes_logged in E. destruct E as [(s1 & -> & -> & E)|(sent & rest & -> & -> & E)].
  - left. exists s1, w1. auto.
  - right. exists rest. cbn [app] in *.
    destruct E as (b & c & s2 & w2 & Eb & Ew & Ef).
    destruct (wr s2 c w2) as [[s3|e|u|] w3] eqn:Ec; [contradiction| | |]; destruct Ef as [-> ->];
      injection H as <- <- <-; (split; [reflexivity|]);
      exists b, c, s2, w2; rewrite Ec; auto.
Qed.

Lemma ecb_failing_sink {W S} (wr : writer W S) k E s data w r w' log :
  transforms k E -> Forall u8 data ->
  ECBSink_write (logged wr) (ECBSink s k) data (w, []) = (r, (w', log)) ->
  let cs := map (to_le 8) (ecb E (blocks8 (complete data))) in
  (log = cs /\ exists s', writes wr s cs w = (Ok s', w') /\
     r = match leftover data with [] => Ok (ECBSink s' k)
         | _ => Throw (RuntimeError "Unaligned ECB encryption") end) \/
  (exists rest, cs = log ++ rest /\ sink_failure wr s log w r w').
Proof.
  intros HE Hu H cs. rewrite (ecb_write_total _ k E) in H by assumption. fold cs in H.
  apply failing_bind in H. destruct H as [(s1 & w1 & Ew & H)|H]; [left|right; exact H].
  destruct (leftover data); injection H as <- <- <-; (split; [reflexivity|]); exists s1; auto.
Qed.

Lemma magma_failing_sink {W S} (wr : writer W S) m k E ivl ivr s chunks w r w' log :
  enciphers k E -> ivl < 2 ^ 64 -> ivr < 2 ^ 64 -> Forall u8 (List.concat chunks) ->
  writes (magma_CFBSink_write (logged wr) m) (magma_CFBSink_init s k ivl ivr) chunks (w, []) = (r, (w', log)) ->
  let cs := map (to_le 8) (cfb_encrypt E [ivl; ivr] (blocks8 (complete (List.concat chunks)))) in
  (log = cs /\ exists o, r = Ok o /\ writes wr s cs w = (Ok (mcs_sink o), w')) \/
  (exists rest, cs = log ++ rest /\ sink_failure wr s log w r w').
Proof.
  intros HE H1 H2 Hu H cs.
  rewrite (magma_write_chunks (logged wr) m k E ivl ivr s chunks (w, []) HE H1 H2 Hu) in H.
  apply failing_bind in H. fold cs in H. destruct H as [(s1 & w1 & Ew & H)|H]; [left|right; exact H].
  injection H as <- <- <-. split; [reflexivity|]. eexists. split; [reflexivity|]. exact Ew.
Qed.

Lemma gost_failing_sink {W S} (wr : writer W S) m k E iv s chunks w r w' log :
  enciphers k E -> iv < 2 ^ 64 -> Forall u8 (List.concat chunks) ->
  writes (gost_CFBSink_write (logged wr) m) (gost_CFBSink_init s k iv) chunks (w, []) = (r, (w', log)) ->
  let cs := map (to_le 8) (cfb_encrypt E [iv] (blocks8 (complete (List.concat chunks)))) in
  (log = cs /\ exists o, r = Ok o /\ writes wr s cs w = (Ok (gcs_sink o), w')) \/
  (exists rest, cs = log ++ rest /\ sink_failure wr s log w r w').
Proof.
  intros HE H1 Hu H cs.
  rewrite (gost_write_chunks (logged wr) m k E iv s chunks (w, []) HE H1 Hu) in H.
  apply failing_bind in H. fold cs in H. destruct H as [(s1 & w1 & Ew & H)|H]; [left|right; exact H].
  injection H as <- <- <-. split; [reflexivity|]. eexists. split; [reflexivity|]. exact Ew.
Qed.

(** ** Keys that are not LazyKeys *)

Lemma cfb_loop_null {W S} (wr : writer W S) m f p s reg data w : (List.length p < 8)%nat ->
  (8 <= List.length p + List.length data)%nat ->
  cfb_loop wr m (KUser f) data p s reg w = (Undef NullDeref, w).
Proof.
  intros Hp Hd. rewrite cfb_loop_pending by exact Hp.
  rewrite <- (firstn_skipn 8 (p ++ data)). rewrite cfb_loop_app. unfold mbind at 1.
  rewrite cfb_loop_block by (rewrite firstn_length, app_length; lia). reflexivity.
Qed.

Lemma user_key_null (f : N -> Z -> res N) :
  (forall W S (wr : writer W S) m s ivl ivr p data w, (List.length p < 8)%nat ->
     (8 <= List.length p + List.length data)%nat ->
     magma_CFBSink_write wr m (MagmaCFBSink s (KUser f) ivl ivr p) data w = (Undef NullDeref, w)) /\
  (forall W S (wr : writer W S) m s iv p data w, (List.length p < 8)%nat ->
     (8 <= List.length p + List.length data)%nat ->
     gost_CFBSink_write wr m (GostCFBSink s (KUser f) iv p) data w = (Undef NullDeref, w)) /\
  (forall W St (rd : reader W St) m s ivl ivr size w, 0 < size ->
     magma_CFBSource_read rd m (magma_CFBSource_init s (KUser f) ivl ivr) size w = (Undef NullDeref, w)) /\
  (forall W St (rd : reader W St) m s iv size w, 0 < size ->
     gost_CFBSource_read rd m (gost_CFBSource_init s (KUser f) iv) size w = (Undef NullDeref, w)) /\
  (forall W St (rd : reader W St) m s s' p size w w', 8 <= size ->
     rd s 8 w = (Ok (p, s'), w') -> List.length p = 8%nat ->
     ECBSource_read rd m (ECBSource s (KUser f)) size w = (Undef NullDeref, w')).
Proof.
  split; [|split; [|split; [|split]]].
  - intros. unfold magma_CFBSink_write. cbn [mcs_key mcs_plain mcs_sink mcs_ivl mcs_ivr].
    unfold mbind. rewrite magma_loop_core. unfold mbind. now rewrite cfb_loop_null by assumption.
  - intros. unfold gost_CFBSink_write. cbn [gcs_key gcs_plain gcs_sink gcs_iv].
    unfold mbind. rewrite gost_loop_core. unfold mbind. now rewrite cfb_loop_null by assumption.
  - intros W St rd m s ivl ivr size w Hz. rewrite magma_read_core.
    cbn [magma_CFBSource_init mcr_source mcr_plain mcr_ivl mcr_ivr mcr_key nmloop].
    unfold core_step at 1. cbn [len List.length]. change (len []) with 0.
    replace (0 <? size) with true by lia. cbn [drain]. change (len []) with 0.
    replace (0 =? size) with false by lia. reflexivity.
  - intros W St rd m s iv size w Hz. rewrite gost_read_core.
    cbn [gost_CFBSource_init gcr_source gcr_plain gcr_iv gcr_key nmloop].
    unfold core_step at 1. change (len []) with 0.
    replace (0 <? size) with true by lia. cbn [drain]. change (len []) with 0.
    replace (0 =? size) with false by lia. reflexivity.
  - intros W St rd m s s' p size w w' Hz Hr Hp. unfold ECBSource_read.
    replace (size <? N.of_nat block_size) with false by (unfold block_size; lia).
    rewrite (mbind_ok _ _ _ _ _ Hr). destruct p as [|b p]; [discriminate|].
    rewrite read8_ok by exact Hp. reflexivity.
Qed.

Lemma any_key_transforms k :
  (forall v i, (0 <= i <= 7)%Z -> exists t, key_transform k v i = Ok t) ->
  exists f, transforms k (encryption f) /\
    forall i v t, (i < 8)%nat -> key_transform k v (Z.of_nat i) = Ok t -> f i v = t.
Proof.
  intros H. exists (fun i v => match key_transform k v (Z.of_nat i) with Ok t => t | _ => 0 end).
  split.
  - intros x Hx. apply EncryptionBase_spec; [|exact Hx]. intros i a Hi _.
    destruct (H a (Z.of_nat i)) as [t Et]; [lia|]. rewrite Et. split; [reflexivity|].
    destruct k as [lk|f]; cbn [key_transform] in Et.
    + now apply lazy_transform_lt in Et.
    + destruct (f a (Z.of_nat i)); cbn [bind] in Et; try discriminate. injection Et as <-. apply w32_lt.
  - intros i v t _ E. now rewrite E.
Qed.

(** ** Towers *)

Lemma block_source_reads {W St} (rd : reader W St) R n : block_source rd R -> forall s w data,
  R s w data -> exists s' w', reads rd s (repeat 8 n) w = (Ok (served data (repeat 8 n), s'), w').
Proof.
  intros [H _]. induction n as [|n IH]; intros s w data HR; [eexists _, _; reflexivity|].
  destruct (H s w data HR) as (s1 & w1 & E & HR1). destruct (IH _ _ _ HR1) as (s2 & w2 & E2).
  exists s2, w2. cbn [reads served repeat]. rewrite (mbind_ok _ _ _ _ _ E).
  rewrite (mbind_ok _ _ _ _ _ E2). reflexivity.
Qed.

Lemma tower_encrypt_lt xs : Forall known_ok xs -> forall ps, Forall b64 ps -> Forall b64 (tower_encrypt xs ps).
Proof.
  intros H. induction H as [|x xs Hx H IH]; intros ps Hp; [exact Hp|].
  cbn [tower_encrypt]. apply IH. now apply layer_encrypt_lt.
Qed.

Lemma tower_left_data {W St} (R : St -> W -> bytes -> Prop) xs data src w :
  Forall known_ok xs -> whole data -> R src w (unblocks8 (tower_encrypt xs (blocks8 data))) ->
  tower_left R xs (source_tower_init src (map kl xs)) w data.
Proof.
  intros Hx Hd HR.
  pose proof (tower_left_init R xs src w _ Hx HR (unblocks8_whole _)) as H.
  rewrite blocks8_unblocks8 in H by (apply tower_encrypt_lt; auto using blocks8_lt).
  rewrite tower_inverse in H by (auto using blocks8_lt).
  now rewrite unblocks8_blocks8 in H by exact Hd.
Qed.

Lemma tower_source_blocks {W St} (rd : reader W St) m (R : St -> W -> bytes -> Prop) xs data src w n :
  Forall known_ok xs -> whole data -> block_source rd R ->
  R src w (unblocks8 (tower_encrypt xs (blocks8 data))) ->
  exists o w', reads (tower_read rd m (map kl xs)) (source_tower_init src (map kl xs)) (repeat 8 n) w =
    (Ok (served data (repeat 8 n), o), w').
Proof.
  intros Hx Hd HR Hs.
  exact (block_source_reads _ _ n (tower_source rd m R xs Hx HR) _ _ _ (tower_left_data R xs data src w Hx Hd Hs)).
Qed.

Lemma tower_source_sizes {W St} (rd : reader W St) m (R : St -> W -> bytes -> Prop) x xs data src w sizes :
  Forall known_ok (x :: xs) -> is_cfb x -> whole data -> block_source rd R ->
  R src w (unblocks8 (tower_encrypt (x :: xs) (blocks8 data))) ->
  exists o w', reads (tower_read rd m (map kl (x :: xs))) (source_tower_init src (map kl (x :: xs))) sizes w =
    (Ok (served data sizes, o), w').
Proof.
  intros Hx Hc Hd HR Hs.
  exact (delivers_reads _ _ sizes (tower_source_cfb rd m R x xs Hx Hc HR) _ _ _
    (tower_left_data R (x :: xs) data src w Hx Hd Hs)).
Qed.

(** ** Injectivity *)

Lemma sent_inj (l1 l2 : list N) : Forall b64 l1 -> Forall b64 l2 ->
  List.concat (map (to_le 8) l1) = List.concat (map (to_le 8) l2) -> l1 = l2.
Proof. rewrite !concat_map_to_le. apply unblocks8_inj. Qed.

Lemma ecb_injective {W S} (wr : writer W S) k E D s d1 d2 w o1 o2 w1 w2 l1 l2 :
  enciphers k E -> deciphers k D -> whole d1 -> whole d2 ->
  ECBSink_write (logged wr) (ECBSink s k) d1 (w, []) = (Ok o1, (w1, l1)) ->
  ECBSink_write (logged wr) (ECBSink s k) d2 (w, []) = (Ok o2, (w2, l2)) ->
  List.concat l1 = List.concat l2 -> d1 = d2.
Proof.
  intros HE HD Hw1 Hw2 A1 A2 Hl. pose proof (enciphers_transforms' k E HE) as HT.
  pose proof (enciphers_lt _ _ HE) as LE.
  destruct (whole_complete _ Hw1) as [Ec1 _]. destruct (whole_complete _ Hw2) as [Ec2 _].
  apply (ecb_failing_sink wr k E) in A1; [|exact HT|apply Hw1].
  apply (ecb_failing_sink wr k E) in A2; [|exact HT|apply Hw2].
  destruct A1 as [[-> _]|(? & _ & B)]; [|now elim (sink_failure_map _ _ _ _ _ _ mret B o1)].
  destruct A2 as [[-> _]|(? & _ & B)]; [|now elim (sink_failure_map _ _ _ _ _ _ mret B o2)].
  rewrite Ec1, Ec2 in Hl.
  apply sent_inj in Hl; [|apply ecb_lt; auto using blocks8_lt..].
  apply blocks8_inj; [assumption..|].
  rewrite <- (ecb_ecb E D (blocks8 d1)), <- (ecb_ecb E D (blocks8 d2)), Hl; auto using blocks8_lt;
    intros x Hx; now apply (deciphers_enciphers k E D).
Qed.

Lemma magma_injective {W S} (wr : writer W S) m k E ivl ivr s d1 d2 w o1 o2 w1 w2 l1 l2 :
  enciphers k E -> ivl < 2 ^ 64 -> ivr < 2 ^ 64 -> whole d1 -> whole d2 ->
  magma_CFBSink_write (logged wr) m (magma_CFBSink_init s k ivl ivr) d1 (w, []) = (Ok o1, (w1, l1)) ->
  magma_CFBSink_write (logged wr) m (magma_CFBSink_init s k ivl ivr) d2 (w, []) = (Ok o2, (w2, l2)) ->
  List.concat l1 = List.concat l2 -> d1 = d2.
Proof.
  intros HE H1 H2 Hw1 Hw2 A1 A2 Hl. pose proof (enciphers_lt _ _ HE) as LE.
  assert (Q : forall d : bytes, List.concat [d] = d) by (intros d; apply app_nil_r).
  assert (A1' : writes (magma_CFBSink_write (logged wr) m) (magma_CFBSink_init s k ivl ivr) [d1] (w, []) = (Ok o1, (w1, l1))).
  { now rewrite magma_writes_concat, Q. }
  assert (A2' : writes (magma_CFBSink_write (logged wr) m) (magma_CFBSink_init s k ivl ivr) [d2] (w, []) = (Ok o2, (w2, l2))).
  { now rewrite magma_writes_concat, Q. }
  apply (magma_failing_sink wr m k E) in A1'; [|auto..|rewrite Q; apply Hw1].
  apply (magma_failing_sink wr m k E) in A2'; [|auto..|rewrite Q; apply Hw2].
  cbv zeta in A1', A2'. rewrite Q in A1', A2'.
  destruct A1' as [[-> _]|(? & _ & B)]; [|now elim (sink_failure_map _ _ _ _ _ _ mret B o1)].
  destruct A2' as [[-> _]|(? & _ & B)]; [|now elim (sink_failure_map _ _ _ _ _ _ mret B o2)].
  rewrite (proj1 (whole_complete _ Hw1)), (proj1 (whole_complete _ Hw2)) in Hl.
  apply sent_inj in Hl; [|apply cfb_encrypt_lt; auto using blocks8_lt, reg2_ok..].
  apply blocks8_inj; [assumption..|].
  rewrite <- (cfb_decrypt_encrypt E (blocks8 d1) [ivl; ivr]), Hl. apply cfb_decrypt_encrypt.
Qed.

Lemma gost_injective {W S} (wr : writer W S) m k E iv s d1 d2 w o1 o2 w1 w2 l1 l2 :
  enciphers k E -> iv < 2 ^ 64 -> whole d1 -> whole d2 ->
  gost_CFBSink_write (logged wr) m (gost_CFBSink_init s k iv) d1 (w, []) = (Ok o1, (w1, l1)) ->
  gost_CFBSink_write (logged wr) m (gost_CFBSink_init s k iv) d2 (w, []) = (Ok o2, (w2, l2)) ->
  List.concat l1 = List.concat l2 -> d1 = d2.
Proof.
  intros HE H1 Hw1 Hw2 A1 A2 Hl. pose proof (enciphers_lt _ _ HE) as LE.
  assert (Q : forall d : bytes, List.concat [d] = d) by (intros d; apply app_nil_r).
  assert (A1' : writes (gost_CFBSink_write (logged wr) m) (gost_CFBSink_init s k iv) [d1] (w, []) = (Ok o1, (w1, l1))).
  { now rewrite gost_writes_concat, Q. }
  assert (A2' : writes (gost_CFBSink_write (logged wr) m) (gost_CFBSink_init s k iv) [d2] (w, []) = (Ok o2, (w2, l2))).
  { now rewrite gost_writes_concat, Q. }
  apply (gost_failing_sink wr m k E) in A1'; [|auto..|rewrite Q; apply Hw1].
  apply (gost_failing_sink wr m k E) in A2'; [|auto..|rewrite Q; apply Hw2].
  cbv zeta in A1', A2'. rewrite Q in A1', A2'.
  destruct A1' as [[-> _]|(? & _ & B)]; [|now elim (sink_failure_map _ _ _ _ _ _ mret B o1)].
  destruct A2' as [[-> _]|(? & _ & B)]; [|now elim (sink_failure_map _ _ _ _ _ _ mret B o2)].
  rewrite (proj1 (whole_complete _ Hw1)), (proj1 (whole_complete _ Hw2)) in Hl.
  apply sent_inj in Hl; [|apply cfb_encrypt_lt; auto using blocks8_lt, reg1_ok..].
  apply blocks8_inj; [assumption..|].
  rewrite <- (cfb_decrypt_encrypt E (blocks8 d1) [iv]), Hl. apply cfb_decrypt_encrypt.
Qed.
