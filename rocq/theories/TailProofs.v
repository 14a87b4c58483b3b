(** CFB with an incomplete last block on processors that tolerate the stray accesses:
    what comes back instead of the tail. *)
From Verif Require Import Base Text MagmaModel Streams SpecText SpecMagma SpecModes SpecStreams SpecMore.
From Verif Require Import Lib ByteProofs MagmaProofs MagmaSpecProofs SinkProofs SourceProofs
  StreamProofs StreamFacts TowerProofs StreamMore.
From Coq Require Import ZifyBool ZifyNat ZifyN.
Local Open Scope N_scope.

Lemma byte_of_ks e i : byte_of e i = ks_byte e i.
Proof. unfold byte_of, ks_byte, w8. rewrite N.shiftr_div_pow2. now rewrite N.mul_comm. Qed.

Lemma ks_low hi lo i : (i < 4)%nat -> lo < 2 ^ 32 -> ks_byte lo i = ks_byte (hi * 2 ^ 32 + lo) i.
Proof.
  intros Hi Hl. unfold ks_byte.
  destruct i as [|[|[|[|i]]]]; [| | | |lia]; cbn [N.of_nat Pos.of_succ_nat N.mul Pos.mul];
  rewrite ?N.mul_0_r; change (2 ^ 0) with 1 in *; change (2 ^ 8) with 256 in *;
  change (2 ^ 16) with 65536 in *; change (2 ^ 24) with 16777216 in *; change (2 ^ 32) with 4294967296 in *; lia.
Qed.

Lemma ks_high hi lo i : (i < 4)%nat -> lo < 2 ^ 32 -> ks_byte hi i = ks_byte (hi * 2 ^ 32 + lo) (4 + i).
Proof.
  intros Hi Hl. unfold ks_byte.
  replace (2 ^ (8 * N.of_nat (4 + i))) with (2 ^ 32 * 2 ^ (8 * N.of_nat i))
    by (rewrite <- N.pow_add_r; f_equal; lia).
  rewrite <- N.div_div by (apply N.pow_nonzero; discriminate). do 2 f_equal.
  rewrite N.add_comm, N.div_add by discriminate. rewrite N.div_small by assumption. reflexivity.
Qed.

Lemma sink_xor_x86 g t lo hi : (List.length t <= 8)%nat -> lo < 2 ^ 32 ->
  sink_xor (X86 g) t lo hi = Ok (overlay t (hi * 2 ^ 32 + lo)).
Proof.
  intros Ht Hl. unfold sink_xor. cbn [foldM]. rewrite !byte_of_ks.
  rewrite !(ks_low hi lo), !(ks_high hi lo) by lia. cbn [Nat.add]. generalize (hi * 2 ^ 32 + lo). intros e.
  do 8 (destruct t as [|? t]; [reflexivity|]). destruct t; [reflexivity|cbn in Ht; lia].
Qed.

Lemma source_xor_x86 g t lo hi : (List.length t <= 8)%nat -> lo < 2 ^ 32 ->
  source_xor (X86 g) t lo hi = Ok (overlay t (hi * 2 ^ 32 + lo)).
Proof.
  intros Ht Hl. unfold source_xor. cbn [foldM]. rewrite !byte_of_ks.
  rewrite !(ks_low hi lo), !(ks_high hi lo) by lia. cbn [Nat.add]. generalize (hi * 2 ^ 32 + lo). intros e.
  do 8 (destruct t as [|? t]; [reflexivity|]). destruct t; [reflexivity|cbn in Ht; lia].
Qed.

Lemma overlay_length t e : List.length (overlay t e) = List.length t.
Proof. unfold overlay. rewrite map_length, combine_length, seq_length. lia. Qed.

Lemma overlay_nth t e i : (i < List.length t)%nat -> nth i (overlay t e) 0 = N.lxor (nth i t 0) (ks_byte e i).
Proof.
  intros H. unfold overlay.
  set (f := fun ib : nat * N => N.lxor (snd ib) (ks_byte e (fst ib))).
  rewrite (nth_indep _ 0 (f (0%nat, 0))) by (rewrite map_length, combine_length, seq_length; lia).
  rewrite (map_nth f), combine_nth by (now rewrite seq_length). unfold f. cbn [fst snd]. now rewrite seq_nth.
Qed.

(** Laid over twice with different blocks, nothing is left only if they agree. *)
Lemma overlay_twice t e1 e2 :
  overlay (overlay t e1) e2 = t <-> forall i, (i < List.length t)%nat -> ks_byte e1 i = ks_byte e2 i.
Proof.
  split.
  - intros H i Hi. assert (X : nth i (overlay (overlay t e1) e2) 0 = nth i t 0) by now rewrite H.
    rewrite !overlay_nth in X by (rewrite ?overlay_length; assumption).
    rewrite N.lxor_assoc in X. apply N.lxor_eq.
    apply (f_equal (N.lxor (nth i t 0))) in X. rewrite <- N.lxor_assoc, N.lxor_nilpotent, N.lxor_0_l in X. assumption.
  - intros H. apply nth_ext with (d := 0) (d' := 0); rewrite !overlay_length; [reflexivity|].
    intros i Hi. rewrite !overlay_nth by (rewrite ?overlay_length; assumption).
    rewrite H by assumption. now rewrite N.lxor_assoc, N.lxor_nilpotent, N.lxor_0_r.
Qed.

Section Tail.
Context {W St Reg : Type} (rd : reader W St) (g : list N -> nat -> N) (k : key)
        (cur : Reg -> N) (push : Reg -> N -> Reg)
        (E : N -> N) (regl : Reg -> list N) (R : St -> W -> bytes -> Prop).
Hypothesis HE : enciphers k E.
Hypothesis HR : delivers8 rd R.
Hypothesis Hcur : forall r, hd 0 (regl r) = cur r.
Hypothesis Hpush : forall r c, regl (push r c) = tl (regl r) ++ [c].

Lemma core_tail_read size n s w r res tail :
  R s w tail -> (0 < List.length tail < 8)%nat -> Forall u8 tail -> reg_ok (regl r) ->
  N.to_nat size = (List.length res + List.length tail)%nat ->
  exists s' p' r' w',
    nmloop (Datatypes.S (Datatypes.S n)) (core_step rd (X86 g) k cur push size) (s, [], r, res) w =
    (Ok (s', p', r', res ++ overlay tail (E (cur r))), w').
Proof.
  intros Hs Ht Hu Hr Hz.
  cbn [nmloop core_step].
  replace (len res <? size) with true by (unfold len; lia). cbn [drain].
  replace (len res =? size) with false by (unfold len; lia).
  destruct (HE (cur r)) as [E1 Lt1]; [rewrite <- Hcur; now apply hd_lt|].
  rewrite E1. rewrite mbind_assoc. change (mbind (lift (Ok ?y)) ?f w) with (f y w). cbn [halves].
  rewrite mbind_assoc.
  destruct (HR s w tail Hs) as (s' & w' & Er & Hs'). rewrite (firstn_all2 tail) in Er by lia.
  rewrite (mbind_ok _ _ _ _ _ Er). destruct tail as [|t0 tl'] eqn:Et; [cbn in Ht; lia|]. rewrite <- Et in *.
  cbv iota. unfold load_reg. replace (Nat.ltb 8 (List.length tail)) with false by lia.
  unfold read8. replace (Nat.leb 8 (List.length tail)) with false by lia. cbn [bind].
  rewrite source_xor_x86 by (lia || now apply N.mod_lt).
  rewrite mbind_assoc. change (mbind (lift (Ok ?y)) ?f w') with (f y w'). cbv beta.
  rewrite mbind_assoc. change (mbind (lift (Ok ?y)) ?f w') with (f y w'). cbv beta.
  rewrite mbind_mret_l. cbv iota beta.
  replace (E (cur r) / 2 ^ 32 * 2 ^ 32 + E (cur r) mod 2 ^ 32) with (E (cur r))
    by (rewrite N.mul_comm; now rewrite <- N.div_mod by discriminate).
  cbn [core_step]. replace (len res <? size) with true by (unfold len; lia).
  rewrite drain_ok by lia. rewrite firstn_all2 by (rewrite overlay_length; lia).
  replace (len (res ++ overlay tail (E (cur r))) =? size) with true
    by (unfold len; rewrite app_length, overlay_length; lia).
  do 4 eexists. reflexivity.
Qed.

Lemma core_tail size : forall n s w p r res data tail,
  R s w (data ++ tail) -> whole data -> (0 < List.length tail < 8)%nat -> Forall u8 tail -> reg_ok (regl r) ->
  N.to_nat size = (List.length res + List.length p + List.length data + List.length tail)%nat ->
  (List.length data / 8 + 2 <= n)%nat ->
  exists s' p' r' w',
    nmloop n (core_step rd (X86 g) k cur push size) (s, p, r, res) w =
    (Ok (s', p', r', res ++ p ++ unblocks8 (cfb_decrypt E (regl r) (blocks8 data)) ++
                     overlay tail (E (hd 0 (shifted (regl r) (blocks8 data))))), w').
Proof.
  induction n as [|n IH]; intros s w p r res data tail Hs Hd Ht Hu Hr Hz Hn; [lia|].
  destruct (whole_cases data Hd) as [-> | (a & b & -> & La & Ua & Wb)].
  - destruct n as [|n]; [cbn in Hn; lia|].
    assert (H : nmloop (Datatypes.S (Datatypes.S n)) (core_step rd (X86 g) k cur push size) (s, p, r, res) w =
                nmloop (Datatypes.S (Datatypes.S n)) (core_step rd (X86 g) k cur push size) (s, [], r, res ++ p) w).
    { cbn [nmloop core_step]. cbn [List.length] in Hz.
      replace (len res <? size) with true by (unfold len; lia).
      replace (len (res ++ p) <? size) with true by (unfold len; rewrite app_length; lia).
      rewrite !drain_ok by (rewrite ?app_length; lia). rewrite firstn_all2, skipn_all2 by lia.
      rewrite firstn_nil, skipn_nil, app_nil_r. reflexivity. }
    rewrite H. change (blocks8 []) with (@nil N). cbn [cfb_decrypt unblocks8 flat_map app]. rewrite shifted_nil, Hcur.
    rewrite app_assoc. apply core_tail_read; auto. rewrite app_length. cbn [List.length] in Hz. lia.
  - cbn [nmloop core_step]. rewrite app_length in Hz.
    replace (len res <? size) with true by (unfold len; lia).
    rewrite drain_ok by lia. rewrite firstn_all2, skipn_all2 by lia.
    replace (len (res ++ p) =? size) with false by (unfold len; rewrite app_length; lia).
    destruct (HE (cur r)) as [E1 Lt1]; [rewrite <- Hcur; now apply hd_lt|].
    rewrite E1. rewrite mbind_assoc. change (mbind (lift (Ok ?y)) ?f w) with (f y w). cbn [halves].
    rewrite mbind_assoc. rewrite <- app_assoc in Hs.
    destruct (HR s w _ Hs) as (s' & w' & Er & Hs').
    rewrite firstn_app_exact in Er by assumption. rewrite skipn_app_exact in Hs' by assumption.
    rewrite (mbind_ok _ _ _ _ _ Er). destruct a as [|a0 a']; [discriminate|]. cbv iota. set (a := a0 :: a') in *.
    rewrite load_reg_ok, source_xor_ok by assumption.
    rewrite mbind_assoc. change (mbind (lift (Ok ?y)) ?f w') with (f y w'). cbv beta.
    rewrite mbind_assoc. change (mbind (lift (Ok ?y)) ?f w') with (f y w'). cbv beta.
    rewrite mbind_mret_l. cbv iota beta.
    destruct (IH s' w' (to_le 8 (N.lxor (of_le a) (E (cur r)))) (push r (of_le a)) (res ++ p) b tail Hs' Wb Ht Hu)
      as (s2 & p2 & r2 & w2 & H).
    + rewrite Hpush; apply reg_ok_shift; [assumption|now apply of_le_8_lt].
    + rewrite to_le_length, app_length. lia.
    + rewrite app_length, La in Hn. replace (8 + List.length b)%nat with (List.length b + 1 * 8)%nat in Hn by lia.
      rewrite Nat.div_add in Hn by lia. lia.
    + do 4 eexists. etransitivity; [exact H|]. do 2 f_equal. f_equal.
      rewrite blocks8_cons by assumption. cbn [cfb_decrypt].
      change (unblocks8 (?x :: ?l)) with (to_le 8 x ++ unblocks8 l).
      rewrite shifted_cons by apply Hr. rewrite Hpush, Hcur, <- !app_assoc. reflexivity.
Qed.
End Tail.

Lemma overlay_u8 t e : Forall u8 t -> Forall u8 (overlay t e).
Proof.
  intros H. apply Forall_forall. intros x Hx. apply In_nth with (d := 0) in Hx.
  destruct Hx as (i & Hi & <-). rewrite overlay_length in Hi. rewrite overlay_nth by assumption.
  apply lxor_lt; [|apply mod_pow2_lt]. rewrite Forall_forall in H. apply H, nth_In, Hi.
Qed.

Lemma leftover_pos (d : bytes) : (List.length d mod 8 <> 0)%nat -> (0 < List.length (leftover d) < 8)%nat.
Proof.
  intros H. pose proof (leftover_length d). destruct (leftover_nonempty d H) as (b & r & E).
  rewrite E in *. cbn [List.length] in *. lia.
Qed.

Lemma never_fails_logged {W S} (wr : writer W S) : never_fails wr ->
  forall chunks s w log, exists s' w', writes (logged wr) s chunks (w, log) = (Ok s', (w', log ++ chunks)).
Proof.
  intros H. induction chunks as [|c chunks IH]; intros s w log.
  - exists s, w. now rewrite app_nil_r.
  - cbn [writes]. destruct (H s c w) as (s1 & w1 & E1).
    assert (E2 : logged wr s c (w, log) = (Ok s1, (w1, log ++ [c]))) by (unfold logged; now rewrite E1).
    rewrite (mbind_ok _ _ _ _ _ E2). destruct (IH s1 w1 (log ++ [c])) as (s2 & w2 & E3).
    exists s2, w2. rewrite E3. now rewrite <- app_assoc.
Qed.

Lemma magma_tail {W S} (wr : writer W S) g k E ivl ivr s chunks w :
  enciphers k E -> ivl < 2 ^ 64 -> ivr < 2 ^ 64 -> Forall u8 (List.concat chunks) ->
  (List.length (List.concat chunks) mod 8 <> 0)%nat -> never_fails wr ->
  let d := List.concat chunks in
  let cs := cfb_encrypt E [ivl; ivr] (blocks8 (complete d)) in
  let e := E (hd 0 (shifted [ivl; ivr] cs)) in
  exists o s' w' w'' log,
    writes (magma_CFBSink_write (logged wr) (X86 g)) (magma_CFBSink_init s k ivl ivr) chunks (w, []) = (Ok o, (w', log)) /\
    magma_CFBSink_finalize (logged wr) (X86 g) o (w', log) =
      (Ok s', (w'', log ++ [overlay (leftover d) (swap_halves e)])) /\
    forall W2 St (rd : reader W2 St) (R : St -> W2 -> bytes -> Prop) g2 src w2,
      delivers8 rd R -> R src w2 (List.concat log ++ overlay (leftover d) (swap_halves e)) ->
      exists o2 w3,
        magma_CFBSource_read rd (X86 g2) (magma_CFBSource_init src k ivl ivr) (len d) w2 =
        (Ok (complete d ++ overlay (overlay (leftover d) (swap_halves e)) e, o2), w3).
Proof.
  intros HE H1 H2 Hu Hl Hn d cs e.
  pose proof (magma_write_chunks (logged wr) (X86 g) k E ivl ivr s chunks (w, []) HE H1 H2 Hu) as Ew. cbv zeta in Ew.
  fold d in Ew. fold cs in Ew.
  destruct (never_fails_logged wr Hn (map (to_le 8) cs) s w []) as (s' & w' & E1). cbn [app] in E1.
  rewrite (mbind_ok _ _ _ _ _ E1) in Ew.
  assert (Hcs : Forall (fun x => x < 2 ^ 64) cs).
  { apply cfb_encrypt_lt; [exact (enciphers_lt _ _ HE)|now apply reg2_ok|now apply blocks8_lt, complete_whole]. }
  assert (Hr : reg_ok (shifted [ivl; ivr] cs)) by (apply shifted_ok; [now apply reg2_ok|assumption]).
  assert (Hh : hd 0 (shifted [ivl; ivr] cs) = nth 0 (shifted [ivl; ivr] cs) 0) by now destruct (shifted _ _).
  pose proof (leftover_pos d Hl) as Hll.
  destruct (HE (nth 0 (shifted [ivl; ivr] cs) 0)) as [E2 L2]; [rewrite <- Hh; now apply hd_lt|].
  rewrite <- Hh in E2, L2. fold e in E2, L2.
  destruct (Hn s' (overlay (leftover d) (swap_halves e)) w') as (s'' & w'' & E3).
  eexists _, s'', w', w'', (map (to_le 8) cs). split; [exact Ew|]. split.
  - unfold magma_CFBSink_finalize. cbn [mcs_plain mcs_ivl mcs_key mcs_sink].
    destruct (leftover d) as [|b r] eqn:El; [cbn in Hll; lia|]. rewrite <- El in *.
    rewrite <- Hh, E2. change (mbind (lift (Ok ?y)) ?f ?w) with (f y w). cbn [halves].
    rewrite sink_xor_x86 by (lia || (apply N.div_lt_upper_bound; [discriminate|assumption])).
    change (mbind (lift (Ok ?y)) ?f ?w) with (f y w). cbv beta.
    change (e mod 2 ^ 32 * 2 ^ 32 + e / 2 ^ 32) with (swap_halves e).
    assert (E4 : logged wr s' (overlay (leftover d) (swap_halves e)) (w', map (to_le 8) cs) =
                 (Ok s'', (w'', map (to_le 8) cs ++ [overlay (leftover d) (swap_halves e)])))
      by (unfold logged; now rewrite E3).
    rewrite (mbind_ok _ _ _ _ _ E4). reflexivity.
  - intros W2 St rd R g2 src w2 HR Hs. rewrite concat_map_to_le in Hs.
    rewrite magma_read_core. unfold magma_CFBSource_init. cbn [mcr_source mcr_key mcr_ivl mcr_ivr mcr_plain].
    assert (Lc : List.length (unblocks8 cs) = List.length (complete d)).
    { unfold cs. rewrite unblocks8_length, cfb_encrypt_length.
      rewrite <- unblocks8_length. now rewrite unblocks8_blocks8 by now apply complete_whole. }
    destruct (core_tail rd g2 k fst mpush E mreg R HE HR (fun r => eq_refl) (fun r c => eq_refl) (len d)
      (Datatypes.S (N.to_nat (len d))) src w2 [] (ivl, ivr) [] (unblocks8 cs) (overlay (leftover d) (swap_halves e)))
      as (s2 & p2 & r2 & w3 & H); auto.
    + apply unblocks8_whole.
    + now rewrite overlay_length.
    + now apply overlay_u8, Forall_skipn.
    + now apply reg2_ok.
    + cbn [List.length]. rewrite overlay_length, Lc. unfold len. rewrite Nat2N.id.
      rewrite <- (complete_leftover d) at 1. rewrite app_length. lia.
    + rewrite Lc. unfold len. rewrite Nat2N.id.
      pose proof (f_equal (@List.length N) (complete_leftover d)) as Hcl. rewrite app_length in Hcl.
      pose proof (Nat.div_le_upper_bound (List.length (complete d)) 8 (List.length (complete d))). lia.
    + rewrite (mbind_ok _ _ _ _ _ H). unfold mreg in *. cbn [fst snd] in *.
      rewrite blocks8_unblocks8 by assumption. fold e. unfold cs.
      rewrite cfb_decrypt_encrypt, unblocks8_blocks8 by (now apply complete_whole). do 2 eexists. reflexivity.
Qed.

Lemma gost_tail {W S} (wr : writer W S) g k E iv s chunks w :
  enciphers k E -> iv < 2 ^ 64 -> Forall u8 (List.concat chunks) ->
  (List.length (List.concat chunks) mod 8 <> 0)%nat -> never_fails wr ->
  let d := List.concat chunks in
  let cs := cfb_encrypt E [iv] (blocks8 (complete d)) in
  let e := E (hd 0 (shifted [iv] cs)) in
  exists o s' w' w'' log,
    writes (gost_CFBSink_write (logged wr) (X86 g)) (gost_CFBSink_init s k iv) chunks (w, []) = (Ok o, (w', log)) /\
    gost_CFBSink_finalize (logged wr) (X86 g) o (w', log) =
      (Ok s', (w'', log ++ [overlay (leftover d) (swap_halves e)])) /\
    forall W2 St (rd : reader W2 St) (R : St -> W2 -> bytes -> Prop) g2 src w2,
      delivers8 rd R -> R src w2 (List.concat log ++ overlay (leftover d) (swap_halves e)) ->
      exists o2 w3,
        gost_CFBSource_read rd (X86 g2) (gost_CFBSource_init src k iv) (len d) w2 =
        (Ok (complete d ++ overlay (overlay (leftover d) (swap_halves e)) e, o2), w3).
Proof.
  intros HE H1 Hu Hl Hn d cs e.
  pose proof (gost_write_chunks (logged wr) (X86 g) k E iv s chunks (w, []) HE H1 Hu) as Ew. cbv zeta in Ew.
  fold d in Ew. fold cs in Ew.
  destruct (never_fails_logged wr Hn (map (to_le 8) cs) s w []) as (s' & w' & E1). cbn [app] in E1.
  rewrite (mbind_ok _ _ _ _ _ E1) in Ew.
  assert (Hcs : Forall (fun x => x < 2 ^ 64) cs).
  { apply cfb_encrypt_lt; [exact (enciphers_lt _ _ HE)|now apply reg1_ok|now apply blocks8_lt, complete_whole]. }
  assert (Hr : reg_ok (shifted [iv] cs)) by (apply shifted_ok; [now apply reg1_ok|assumption]).
  assert (Hh : hd 0 (shifted [iv] cs) = nth 0 (shifted [iv] cs) 0) by now destruct (shifted _ _).
  pose proof (leftover_pos d Hl) as Hll.
  destruct (HE (nth 0 (shifted [iv] cs) 0)) as [E2 L2]; [rewrite <- Hh; now apply hd_lt|].
  rewrite <- Hh in E2, L2. fold e in E2, L2.
  destruct (Hn s' (overlay (leftover d) (swap_halves e)) w') as (s'' & w'' & E3).
  eexists _, s'', w', w'', (map (to_le 8) cs). split; [exact Ew|]. split.
  - unfold gost_CFBSink_finalize. cbn [gcs_plain gcs_iv gcs_key gcs_sink].
    destruct (leftover d) as [|b r] eqn:El; [cbn in Hll; lia|]. rewrite <- El in *.
    rewrite <- Hh, E2. change (mbind (lift (Ok ?y)) ?f ?w) with (f y w). cbn [halves].
    rewrite sink_xor_x86 by (lia || (apply N.div_lt_upper_bound; [discriminate|assumption])).
    change (mbind (lift (Ok ?y)) ?f ?w) with (f y w). cbv beta.
    change (e mod 2 ^ 32 * 2 ^ 32 + e / 2 ^ 32) with (swap_halves e).
    assert (E4 : logged wr s' (overlay (leftover d) (swap_halves e)) (w', map (to_le 8) cs) =
                 (Ok s'', (w'', map (to_le 8) cs ++ [overlay (leftover d) (swap_halves e)])))
      by (unfold logged; now rewrite E3).
    rewrite (mbind_ok _ _ _ _ _ E4). reflexivity.
  - intros W2 St rd R g2 src w2 HR Hs. rewrite concat_map_to_le in Hs.
    rewrite gost_read_core. unfold gost_CFBSource_init. cbn [gcr_source gcr_key gcr_iv gcr_plain].
    assert (Lc : List.length (unblocks8 cs) = List.length (complete d)).
    { unfold cs. rewrite unblocks8_length, cfb_encrypt_length.
      rewrite <- unblocks8_length. now rewrite unblocks8_blocks8 by now apply complete_whole. }
    destruct (core_tail rd g2 k (fun r => r) gpush E greg R HE HR (fun r => eq_refl) (fun r c => eq_refl) (len d)
      (Datatypes.S (N.to_nat (len d))) src w2 [] iv [] (unblocks8 cs) (overlay (leftover d) (swap_halves e)))
      as (s2 & p2 & r2 & w3 & H); auto.
    + apply unblocks8_whole.
    + now rewrite overlay_length.
    + now apply overlay_u8, Forall_skipn.
    + now apply reg1_ok.
    + cbn [List.length]. rewrite overlay_length, Lc. unfold len. rewrite Nat2N.id.
      rewrite <- (complete_leftover d) at 1. rewrite app_length. lia.
    + rewrite Lc. unfold len. rewrite Nat2N.id.
      pose proof (f_equal (@List.length N) (complete_leftover d)) as Hcl. rewrite app_length in Hcl.
      pose proof (Nat.div_le_upper_bound (List.length (complete d)) 8 (List.length (complete d))). lia.
    + rewrite (mbind_ok _ _ _ _ _ H). unfold greg in *.
      rewrite blocks8_unblocks8 by assumption. fold e. unfold cs.
      rewrite cfb_decrypt_encrypt, unblocks8_blocks8 by (now apply complete_whole). do 2 eexists. reflexivity.
Qed.

Lemma hd_skipn {A} n (l : list A) d : hd d (skipn n l) = nth n l d.
Proof. revert l. induction n as [|n IH]; intros [|x l]; try reflexivity. apply IH. Qed.

Lemma hd_shifted reg cs : hd 0 (shifted reg cs) = nth (List.length cs) (reg ++ cs) 0.
Proof. apply hd_skipn. Qed.
