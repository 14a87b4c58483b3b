(** Proofs about the code on machines with another byte order or strict alignment. *)
From Verif Require Import Base Text MagmaModel Streams KuzModel PortModel Lib SpecText SpecMagma SpecModes SpecStreams
  SpecMac SpecPort MagmaProofs MagmaSpecProofs BlockProofs ByteProofs SinkProofs SourceProofs StreamProofs MacProofs.
From Coq Require Import ZifyNat ZifyN ZifyBool.
Local Open Scope N_scope.
Ltac Zify.zify_post_hook ::= idtac.

(** ** Numbers and bytes *)

Lemma rev_u8 l : Forall u8 l -> Forall u8 (rev l).
Proof. intros H. apply Forall_forall. intros x Hx. apply in_rev in Hx. rewrite Forall_forall in H. auto. Qed.

Lemma swap_bytes_lt x : swap_bytes x < 2 ^ 64.
Proof.
  unfold swap_bytes. apply of_le_8_lt; [apply rev_u8, to_le_u8|]. now rewrite rev_length, to_le_length.
Qed.

Lemma to_le_swap_bytes x : to_le 8 (swap_bytes x) = rev (to_le 8 x).
Proof.
  unfold swap_bytes. replace 8%nat with (List.length (rev (to_le 8 x))) at 1
    by now rewrite rev_length, to_le_length.
  apply to_of_le, rev_u8, to_le_u8.
Qed.

Lemma swap_bytes_twice x : x < 2 ^ 64 -> swap_bytes (swap_bytes x) = x.
Proof.
  intros H. unfold swap_bytes at 1. rewrite to_le_swap_bytes, rev_involutive. now apply of_to_le_id.
Qed.

Lemma swap_bytes_of_le l : Forall u8 l -> List.length l = 8%nat -> swap_bytes (of_le l) = of_le (rev l).
Proof. intros Hu Hl. unfold swap_bytes. rewrite <- Hl, to_of_le; [reflexivity|assumption]. Qed.

Lemma of_le_4_lt p : Forall u8 p -> List.length p = 4%nat -> of_le p < 2 ^ 32.
Proof. intros Hb Hp. pose proof (of_le_lt p Hb) as H. unfold len in H. now rewrite Hp in H. Qed.

Lemma swap4_lt x : of_le (rev (to_le 4 x)) < 2 ^ 32.
Proof. apply of_le_4_lt; [apply rev_u8, to_le_u8|]. now rewrite rev_length, to_le_length. Qed.

Lemma swap_in_halves_lt x : swap_in_halves x < 2 ^ 64.
Proof. apply (split_lt _ _ 32 32); apply swap4_lt. Qed.

Lemma swap_in_halves_halves x :
  halves (swap_in_halves x) =
  (of_le (rev (to_le 4 (fst (halves x)))), of_le (rev (to_le 4 (snd (halves x))))).
Proof.
  unfold halves, swap_in_halves. cbn [fst snd]. now rewrite split_mod, split_div by apply swap4_lt.
Qed.

Lemma swap4_twice x : x < 2 ^ 32 -> of_le (rev (to_le 4 (of_le (rev (to_le 4 x))))) = x.
Proof.
  intros H. assert (E : to_le 4 (of_le (rev (to_le 4 x))) = rev (to_le 4 x)).
  { replace 4%nat with (List.length (rev (to_le 4 x))) at 1 by now rewrite rev_length, to_le_length.
    apply to_of_le, rev_u8, to_le_u8. }
  rewrite E, rev_involutive. now apply of_to_le_id.
Qed.

Lemma swap_in_halves_twice x : x < 2 ^ 64 -> swap_in_halves (swap_in_halves x) = x.
Proof.
  intros H. apply halves_inj. rewrite !swap_in_halves_halves. cbn [fst snd].
  destruct (halves_lt x H). rewrite !swap4_twice by assumption. now destruct (halves x).
Qed.

(** ** A machine as a permutation of the bytes of a block *)

Definition sw (mc : machine) (x : N) : N := if m_big mc then swap_bytes x else x.
Definition hsw (mc : machine) (x : N) : N := if m_big mc then swap_in_halves x else x.

(** What operator new guarantees, or a machine that does not care. *)
Definition allowed (mc : machine) (heap : N) : Prop := m_strict mc = false \/ heap mod 8 = 0.

Section Machine.
Context (mc : machine).

Lemma sw_lt x : x < 2 ^ 64 -> sw mc x < 2 ^ 64.
Proof. unfold sw. destruct (m_big mc); [intros _; apply swap_bytes_lt|auto]. Qed.

Lemma sw_twice x : x < 2 ^ 64 -> sw mc (sw mc x) = x.
Proof. unfold sw. destruct (m_big mc); [apply swap_bytes_twice|auto]. Qed.

Lemma of_mem_8 p : Forall u8 p -> List.length p = 8%nat -> of_mem mc p = sw mc (of_le p).
Proof.
  intros Hu Hl. unfold of_mem, sw. destruct (m_big mc); [|reflexivity]. now rewrite swap_bytes_of_le.
Qed.

Lemma to_mem_8 x : to_mem mc 8 x = to_le 8 (sw mc x).
Proof. unfold to_mem, sw. destruct (m_big mc); [|reflexivity]. now rewrite to_le_swap_bytes. Qed.

Lemma hsw_lt x : x < 2 ^ 64 -> hsw mc x < 2 ^ 64.
Proof. unfold hsw. destruct (m_big mc); [intros _; apply swap_in_halves_lt|auto]. Qed.

Lemma hsw_twice x : x < 2 ^ 64 -> hsw mc (hsw mc x) = x.
Proof. unfold hsw. destruct (m_big mc); [apply swap_in_halves_twice|auto]. Qed.

Lemma access_8 a : allowed mc a -> access mc a 8 = Ok tt.
Proof. unfold access. intros [->| ->]; [reflexivity|]. now rewrite andb_false_r. Qed.

Lemma access_4 a : allowed mc a -> access mc a 4 = Ok tt.
Proof.
  unfold access. intros [->|H]; [reflexivity|]. replace (a mod 4) with 0; [now rewrite andb_false_r|].
  pose proof (N.div_mod a 8). rewrite H in H0. rewrite H0 by lia.
  replace (8 * (a / 8) + 0) with (a / 8 * 2 * 4) by lia. now rewrite N.mod_mul.
Qed.

Lemma access_4' a : allowed mc a -> access mc (a + 4) 4 = Ok tt.
Proof.
  unfold access. intros [->|H]; [reflexivity|]. replace ((a + 4) mod 4) with 0; [now rewrite andb_false_r|].
  pose proof (N.div_mod a 8). rewrite H in H0. rewrite H0 by lia.
  replace (8 * (a / 8) + 0 + 4) with ((a / 8 * 2 + 1) * 4) by lia. now rewrite N.mod_mul.
Qed.

Lemma BlkRaw_mem_ok a p : allowed mc a -> Forall u8 p -> List.length p = 8%nat ->
  BlkRaw_mem mc a p = BlkRaw64 (hsw mc (of_le p)).
Proof.
  intros Ha Hu Hl. unfold BlkRaw_mem. rewrite access_4, access_4' by assumption. cbn [bind].
  unfold of_mem, hsw. destruct (m_big mc); [|exact (BlkRaw_bytes_ok p Hu Hl)].
  rewrite BlkRaw64_halves by apply swap_in_halves_lt. rewrite swap_in_halves_halves. unfold BlkRaw2.
  assert (E : p = to_le 4 (fst (halves (of_le p))) ++ to_le 4 (snd (halves (of_le p)))).
  { rewrite to_le_halves. rewrite <- Hl at 1. now rewrite to_of_le. }
  rewrite E at 1 2. rewrite firstn_app_exact, skipn_app_exact by apply to_le_length.
  rewrite firstn_all2 by (rewrite to_le_length; lia). reflexivity.
Qed.

Lemma pair_mem_ok x : x < 2 ^ 64 ->
  pair_mem mc (fst (halves x)) (snd (halves x)) = to_le 8 (hsw mc x).
Proof.
  intros Hx. unfold pair_mem, to_mem, hsw. destruct (m_big mc).
  - rewrite <- (to_le_halves (swap_in_halves x)), swap_in_halves_halves. cbn [fst snd].
    assert (A : forall y, to_le 4 (of_le (rev (to_le 4 y))) = rev (to_le 4 y)).
    { intros y. replace 4%nat with (List.length (rev (to_le 4 y))) at 1 by now rewrite rev_length, to_le_length.
      apply to_of_le, rev_u8, to_le_u8. }
    now rewrite !A.
  - apply to_le_halves.
Qed.

Lemma load_reg_on_ok m p : Forall u8 p -> List.length p = 8%nat ->
  load_reg_on mc m p = Ok (sw mc (of_le p)).
Proof.
  intros Hu Hp. unfold load_reg_on. rewrite read8_ok by assumption. rewrite Hp. cbn [Nat.ltb Nat.leb bind].
  now rewrite of_mem_8.
Qed.
End Machine.

(** ** The machine of the rest of the model, and strict machines of the same byte order *)

Section Little.
Context (mc : machine) (HL : m_big mc = false).

Lemma of_mem_little l : of_mem mc l = of_le l.
Proof. unfold of_mem. now rewrite HL. Qed.

Lemma to_mem_little n x : to_mem mc n x = to_le n x.
Proof. unfold to_mem. now rewrite HL. Qed.

Lemma BlkRaw_mem_little a b : allowed mc a -> BlkRaw_mem mc a b = BlkRaw_bytes b.
Proof. intros H. unfold BlkRaw_mem. now rewrite access_4, access_4', !of_mem_little by assumption. Qed.

Lemma pair_mem_little a b : pair_mem mc a b = to_le 4 a ++ to_le 4 b.
Proof. unfold pair_mem. now rewrite !to_mem_little. Qed.

Lemma ecb_write_loop_little {W S} (wr : writer W S) heap k : allowed mc heap -> forall data p s w,
  ecb_write_loop_on mc wr heap k data p s w = ecb_write_loop wr k data p s w.
Proof.
  intros H. induction data as [|b data IH]; intros p s w; [reflexivity|].
  cbn [ecb_write_loop_on ecb_write_loop]. cbv zeta. destruct (Nat.eqb _ 8); [|apply IH].
  rewrite access_8, of_mem_little by assumption. unfold mbind at 1. cbn [lift].
  apply mbind_ext; [reflexivity|]. intros e w1. rewrite to_mem_little.
  apply mbind_ext; [reflexivity|]. intros; apply IH.
Qed.

Lemma ECBSink_little {W S} (wr : writer W S) heap o data w : allowed mc heap ->
  ECBSink_write_on mc wr heap o data w = ECBSink_write wr o data w.
Proof.
  intros H. unfold ECBSink_write_on, ECBSink_write.
  apply mbind_ext; [now apply ecb_write_loop_little|reflexivity].
Qed.

Lemma magma_loop_little {W S} (wr : writer W S) m k : forall data p s rl rr w,
  magma_cfb_write_loop_on mc wr m k data p s rl rr w = magma_cfb_write_loop wr m k data p s rl rr w.
Proof.
  induction data as [|b data IH]; intros p s rl rr w; [reflexivity|].
  cbn [magma_cfb_write_loop_on magma_cfb_write_loop]. cbv zeta. destruct (Nat.eqb _ block_size); [|apply IH].
  apply mbind_ext; [reflexivity|]. intros [f1 f2] w1.
  apply mbind_ext; [reflexivity|]. intros c w2. rewrite of_mem_little.
  apply mbind_ext; [reflexivity|]. intros; apply IH.
Qed.

Lemma gost_loop_little {W S} (wr : writer W S) m k : forall data p s l w,
  gost_cfb_write_loop_on mc wr m k data p s l w = gost_cfb_write_loop wr m k data p s l w.
Proof.
  induction data as [|b data IH]; intros p s l w; [reflexivity|].
  cbn [gost_cfb_write_loop_on gost_cfb_write_loop]. cbv zeta. destruct (Nat.eqb _ block_size); [|apply IH].
  apply mbind_ext; [reflexivity|]. intros [f1 f2] w1.
  apply mbind_ext; [reflexivity|]. intros c w2. rewrite of_mem_little.
  apply mbind_ext; [reflexivity|]. intros; apply IH.
Qed.

Lemma magma_sink_little {W S} (wr : writer W S) m o data w :
  magma_CFBSink_write_on mc wr m o data w = magma_CFBSink_write wr m o data w.
Proof.
  unfold magma_CFBSink_write_on, magma_CFBSink_write. apply mbind_ext; [apply magma_loop_little|reflexivity].
Qed.

Lemma gost_sink_little {W S} (wr : writer W S) m o data w :
  gost_CFBSink_write_on mc wr m o data w = gost_CFBSink_write wr m o data w.
Proof.
  unfold gost_CFBSink_write_on, gost_CFBSink_write. apply mbind_ext; [apply gost_loop_little|reflexivity].
Qed.

Lemma load_reg_little m p : load_reg_on mc m p = load_reg m p.
Proof.
  unfold load_reg_on, load_reg. destruct (Nat.ltb _ _); [reflexivity|].
  destruct (read8 m p); cbn [bind]; now rewrite ?of_mem_little.
Qed.

Lemma nmloop_ext {W A B} (st1 st2 : A -> M W (A + B)) : (forall a w, st1 a w = st2 a w) ->
  forall n a w, nmloop n st1 a w = nmloop n st2 a w.
Proof.
  intros H. induction n as [|n IH]; intros a w; [reflexivity|]. cbn [nmloop].
  apply mbind_ext; [apply H|]. intros [x|x] w1; [apply IH|reflexivity].
Qed.

Lemma ECBSource_little {W St} (rd : reader W St) m heap o n w : allowed mc heap ->
  ECBSource_read_on mc rd m heap o n w = ECBSource_read rd m o n w.
Proof.
  intros H. destruct o as [s k|s]; [|reflexivity]. cbn [ECBSource_read_on ECBSource_read].
  destruct (n <? _); [reflexivity|].
  apply mbind_ext; [reflexivity|]. intros [[|b p] s1] w1; [reflexivity|].
  apply mbind_ext; [reflexivity|]. intros buf w2. rewrite BlkRaw_mem_little by assumption.
  apply mbind_ext; [reflexivity|]. intros [f1 f2] w3. now rewrite pair_mem_little.
Qed.

Lemma magma_source_little {W St} (rd : reader W St) m o n w :
  magma_CFBSource_read_on mc rd m o n w = magma_CFBSource_read rd m o n w.
Proof.
  unfold magma_CFBSource_read_on, magma_CFBSource_read. apply mbind_ext; [|reflexivity].
  rewrite !mloop_nm. apply nmloop_ext. intros [[[[s p] rl] rr] res] w1.
  unfold magma_cfb_read_step_on, magma_cfb_read_step. destruct (len res <? n); [|reflexivity].
  destruct (drain p res n) as [r1 p1]. destruct (len r1 =? n); [reflexivity|].
  apply mbind_ext; [reflexivity|]. intros [f1 f2] w2.
  apply mbind_ext; [reflexivity|]. intros [[|b q] s1] w3; [reflexivity|]. now rewrite load_reg_little.
Qed.

Lemma gost_source_little {W St} (rd : reader W St) m o n w :
  gost_CFBSource_read_on mc rd m o n w = gost_CFBSource_read rd m o n w.
Proof.
  unfold gost_CFBSource_read_on, gost_CFBSource_read. apply mbind_ext; [|reflexivity].
  rewrite !mloop_nm. apply nmloop_ext. intros [[[s p] rl] res] w1.
  unfold gost_cfb_read_step_on, gost_cfb_read_step. destruct (len res <? n); [|reflexivity].
  destruct (drain p res n) as [r1 p1]. destruct (len r1 =? n); [reflexivity|].
  apply mbind_ext; [reflexivity|]. intros [f1 f2] w2.
  apply mbind_ext; [reflexivity|]. intros [[|b q] s1] w3; [reflexivity|]. now rewrite load_reg_little.
Qed.

Lemma imit_load_little m b : imit_load_on mc m b = imit_load m b.
Proof.
  unfold imit_load_on, imit_load. destruct (Nat.ltb _ _); [reflexivity|].
  destruct b, m; try reflexivity; now rewrite of_mem_little, of_le_app_zeros.
Qed.

Lemma Imit_little {W St} (rd : reader W St) m fuel s k w :
  magma_Imit_on mc rd m fuel s k w = magma_Imit rd m fuel s k w.
Proof.
  unfold magma_Imit_on, magma_Imit. apply mbind_ext; [reflexivity|]. intros [b s1] w1.
  apply mbind_ext; [|reflexivity]. rewrite !mloop_nm. apply nmloop_ext.
  intros [[b1 s2] blk] w2. unfold imit_step_on, imit_step. now rewrite imit_load_little.
Qed.

Lemma DataImit_little heap data k : allowed mc heap -> DataImit_on mc heap data k = DataImit data k.
Proof.
  intros H. unfold DataImit_on, DataImit. cbv zeta. generalize (repeat 0 8) as st.
  generalize (List.length (dataimit_pad data)) as f. generalize (dataimit_pad data) as d.
  intros d f. revert d. induction f as [|f IH]; intros [|x d] st; try reflexivity.
  cbn [dataimit_loop_on dataimit_loop]. destruct (xor_bytes st (x :: d)) as [[s r]|e|u|]; try reflexivity.
  cbn [bind]. assert (E : dataimit_block_on mc heap k s = dataimit_block k s).
  { unfold dataimit_block_on, dataimit_block. destruct (read8 ISO s); try reflexivity. cbn [bind].
    rewrite BlkRaw_mem_little by assumption. destruct (ImitedBlock _ _) as [[a1 a2]|e|u|]; try reflexivity.
    cbn [bind]. rewrite access_4, access_4' by assumption. cbn [bind]. now rewrite pair_mem_little. }
  rewrite E. destruct (dataimit_block k s); try reflexivity. cbn [bind]. apply IH.
Qed.

Lemma KR_little a b : m_strict mc = false -> KR_on mc a b = KR b.
Proof.
  intros H. unfold KR_on, KR. destruct b as [[x y]|e|u|]; try reflexivity. cbn [bind].
  unfold KRaw_mem, access. rewrite H. cbn [andb bind]. now rewrite !of_mem_little, !to_mem_little.
Qed.

Lemma KL_little stack b : m_strict mc = false -> KL_on mc stack b = KL b.
Proof.
  intros H. unfold KL_on, KL. generalize 16%nat as n. intros n. revert b.
  induction n as [|n IH]; intros b; [reflexivity|]. cbn [KL_transform_on KL_transform].
  now rewrite KR_little, IH.
Qed.

Lemma KS_little b : KS_on mc b = KS b.
Proof.
  unfold KS_on, KS. destruct b as [[x y]|e|u|]; try reflexivity. cbn [bind].
  rewrite !to_mem_little. destruct (mapM _ _); try reflexivity. cbn [bind]. now rewrite !of_mem_little.
Qed.

Lemma KIterKey_little stack a b c1 c2 : m_strict mc = false ->
  KIterKey_on mc stack a b c1 c2 = KIterKey a b c1 c2.
Proof.
  intros H. unfold KIterKey_on, KIterKey. generalize (Z.to_nat (c2 - c1 + 1)) as n. intros n.
  revert a b c1. induction n as [|n IH]; intros a b c1; cbn [KIterKey_generate_on KIterKey_generate];
    [reflexivity|]. destruct (c2 <? c1)%Z; [reflexivity|]. destruct (c1 =? _)%Z; [reflexivity|].
  cbv zeta. rewrite IH, !KL_little, KS_little by assumption. reflexivity.
Qed.

Lemma Key_blocks_little stack h l : m_strict mc = false -> Key_blocks_on mc stack h l = Key_blocks h l.
Proof. intros H. unfold Key_blocks_on, Key_blocks. cbv zeta. now rewrite !KIterKey_little by assumption. Qed.

Lemma Key_encrypt_little stack k b : m_strict mc = false ->
  Key_encrypt_on mc stack k b = Key_encrypt k b.
Proof.
  intros H. assert (E : forall b kn, encryptStep_on mc stack b kn = encryptStep b kn).
  { intros. unfold encryptStep_on, encryptStep. now rewrite KL_little, KS_little. }
  unfold Key_encrypt_on, Key_encrypt. cbv zeta. now rewrite !E.
Qed.
End Little.

(** ** The same key on every machine *)

Lemma htonl_of_mem mc b : Forall u8 b -> List.length b = 4%nat ->
  htonl_on mc (of_mem mc b) = of_le (rev b).
Proof.
  intros Hu Hl. unfold htonl_on, of_mem.
  assert (A : forall l, Forall u8 l -> List.length l = 4%nat -> to_le 4 (of_le l) = l)
    by (intros l H1 H2; rewrite <- H2; now apply to_of_le).
  destruct (m_big mc).
  - rewrite (A (rev b)); [|now apply rev_u8|now rewrite rev_length]. now rewrite rev_involutive.
  - now rewrite A.
Qed.

Lemma htonl_words_same mc n : forall b, Forall u8 b -> (List.length b = 4 * n)%nat ->
  htonl_words_on mc n b = htonl_words n b.
Proof.
  induction n as [|n IH]; intros b Hu Hl; [reflexivity|]. cbn [htonl_words_on htonl_words].
  rewrite htonl_of_mem by (now apply Forall_firstn || (rewrite firstn_length; lia)).
  rewrite IH; [reflexivity|now apply Forall_skipn|rewrite skipn_length; lia].
Qed.

Lemma makeKey_same mc m c : (forall ik, cont_key c = Ok ik -> Forall u8 ik) ->
  makeKey_on mc m c = makeKey m c.
Proof.
  intros H. unfold makeKey_on, makeKey. destruct (cont_key c) as [ik|e|u|] eqn:Ek; try reflexivity.
  cbn [bind]. unfold copy_into at 1 3. destruct (Nat.ltb_spec 32 (List.length ik)); [reflexivity|].
  assert (U : Forall u8 (ik ++ repeat 0 (32 - List.length ik))).
  { apply Forall_app. split; [now apply H|]. apply Forall_forall. intros x Hx.
    apply repeat_spec in Hx. now subst. }
  assert (L : List.length (ik ++ repeat 0 (32 - List.length ik)) = (4 * 8)%nat)
    by (rewrite app_length, repeat_length; lia).
  destruct ik, m; try reflexivity; cbn [bind]; destruct (cont_sbox c); try reflexivity; cbn [bind];
    destruct (copy_into _ 64 _); try reflexivity; cbn [bind]; now rewrite htonl_words_same.
Qed.

(** ** BlkS works on single bytes *)

Lemma mapM_app {A B} (f : A -> res B) a : forall b ra rb,
  mapM f a = Ok ra -> mapM f b = Ok rb -> mapM f (a ++ b) = Ok (ra ++ rb).
Proof.
  induction a as [|x0 a IHa]; intros b ra rb Ea Eb.
  - injection Ea as <-. exact Eb.
  - cbn [app mapM] in *. destruct (f x0); try discriminate. cbn [bind] in *.
    destruct (mapM f a) eqn:Em; try discriminate. cbn [bind] in Ea. injection Ea as <-.
    erewrite IHa; [|reflexivity|exact Eb]. reflexivity.
Qed.

Lemma KS_same mc x y : x < 2 ^ 64 -> y < 2 ^ 64 -> KS_on mc (Ok (x, y)) = KS (Ok (x, y)).
Proof.
  intros Hx Hy. unfold KS_on, KS. cbn [bind].
  set (f := at_ BlkS_sbox).
  assert (T : forall l, Forall u8 l -> exists r, mapM f l = Ok r /\ List.length r = List.length l /\
                        mapM f (rev l) = Ok (rev r)).
  { induction l as [|b l IHl]; intros Hl; [exists []; auto|]. inversion Hl; subst.
    destruct (IHl H2) as (r & E1 & L1 & E2).
    assert (Eb : exists v, f b = Ok v).
    { unfold f, at_. assert (b <? len BlkS_sbox = true) by (change (len BlkS_sbox) with 256; unfold u8 in H1; lia).
      rewrite H. destruct (nth_error BlkS_sbox (N.to_nat b)) eqn:En; [eauto|].
      apply nth_error_None in En. change (List.length BlkS_sbox) with 256%nat in En. unfold u8 in H1.
      change (2 ^ 8) with 256 in H1. lia. }
    destruct Eb as [v Ev]. exists (v :: r). cbn [mapM rev]. rewrite Ev, E1. cbn [bind List.length].
    split; [reflexivity|]. split; [now rewrite L1|]. apply mapM_app; [assumption|]. cbn [mapM]. now rewrite Ev. }
  destruct (T (to_le 8 x) (to_le_u8 _ _)) as (rx & Ex1 & Lx & Ex2).
  destruct (T (to_le 8 y) (to_le_u8 _ _)) as (ry & Ey1 & Ly & Ey2). rewrite to_le_length in *.
  rewrite (mapM_app _ _ _ _ _ Ex1 Ey1). cbn [bind]. unfold KRaw_bytes, KRaw.
  rewrite !firstn_app_exact, !skipn_app_exact by assumption. rewrite (firstn_all2 ry) by lia.
  unfold to_mem, of_mem. destruct (m_big mc).
  - rewrite (mapM_app _ _ _ _ _ Ex2 Ey2). cbn [bind].
    rewrite !firstn_app_exact, !skipn_app_exact by now rewrite rev_length.
    rewrite (firstn_all2 (rev ry)) by (rewrite rev_length; lia). now rewrite !rev_involutive.
  - rewrite (mapM_app _ _ _ _ _ Ex1 Ey1). cbn [bind].
    rewrite !firstn_app_exact, !skipn_app_exact by assumption. now rewrite (firstn_all2 ry) by lia.
Qed.

(** ** ECBSink *)
Section PortECB.
Context (mc : machine) {W S : Type} (wr : writer W S) (heap : N) (Ha : allowed mc heap) (k : key).

Lemma ecb_on_app a b p s w :
  ecb_write_loop_on mc wr heap k (a ++ b) p s w =
  (x <-- ecb_write_loop_on mc wr heap k a p s ;; let '(p, s) := x in ecb_write_loop_on mc wr heap k b p s) w.
Proof.
  revert p s w. induction a as [|x a IH]; intros p s w; [reflexivity|].
  cbn [app ecb_write_loop_on]. cbv zeta. destruct (Nat.eqb _ 8).
  - rewrite mbind_assoc. apply mbind_ext; [reflexivity|]. intros u w0.
    rewrite mbind_assoc. apply mbind_ext; [reflexivity|]. intros e w1.
    rewrite mbind_assoc. apply mbind_ext; [reflexivity|]. intros; apply IH.
  - apply IH.
Qed.

Lemma ecb_on_short d : forall p s w, (List.length p + List.length d < 8)%nat ->
  ecb_write_loop_on mc wr heap k d p s w = (Ok (p ++ d, s), w).
Proof.
  induction d as [|b d IH]; intros p s w H.
  - rewrite app_nil_r. reflexivity.
  - cbn [ecb_write_loop_on]. cbv zeta. cbn [List.length] in H. rewrite app_length. cbn [List.length].
    rewrite (proj2 (Nat.eqb_neq _ 8)) by lia. rewrite IH by (rewrite app_length; cbn; lia).
    now rewrite <- app_assoc.
Qed.

Lemma ecb_on_block a s w : List.length a = 8%nat ->
  ecb_write_loop_on mc wr heap k a [] s w =
  (e <-- lift (EncryptionBase_transform k (of_mem mc a)) ;; s' <-- wr s (to_mem mc 8 e) ;; mret ([], s')) w.
Proof.
  intros H. destruct (list8 a H) as (b0 & b1 & b2 & b3 & b4 & b5 & b6 & b7 & ->).
  cbn [ecb_write_loop_on app List.length Nat.eqb]. cbv zeta. rewrite access_8 by assumption. reflexivity.
Qed.

Lemma ecb_on_whole E d : transforms k E -> whole d -> forall s w,
  ecb_write_loop_on mc wr heap k d [] s w =
  (s' <-- writes wr s (map (to_le 8) (map (fun x => sw mc (E (sw mc x))) (blocks8 d))) ;; mret ([], s')) w.
Proof.
  intros HE [Hl Hu]. revert Hu. revert d Hl.
  apply (chunk_ind 8 (fun d => Forall u8 d -> forall s w, ecb_write_loop_on mc wr heap k d [] s w =
    (s' <-- writes wr s (map (to_le 8) (map (fun x => sw mc (E (sw mc x))) (blocks8 d))) ;; mret ([], s')) w)).
  - lia.
  - reflexivity.
  - intros b r Hb IH HF s w. apply Forall_app in HF. destruct HF as [H1 H2].
    rewrite ecb_on_app, blocks8_cons by assumption. cbn [map writes].
    etransitivity; [apply mbind_ext; [apply ecb_on_block, Hb|intros ? ?; reflexivity]|].
    rewrite of_mem_8 by assumption.
    destruct (HE (sw mc (of_le b))) as [E1 L1]; [apply sw_lt; now apply of_le_8_lt|]. rewrite E1.
    rewrite mbind_assoc. unfold mbind at 1. cbn [lift]. rewrite !mbind_assoc.
    rewrite to_mem_8. apply mbind_ext; [reflexivity|]. intros s1 w2.
    unfold mbind at 1. cbn [mret]. now apply IH.
Qed.

Lemma ECBSink_on E s data w : transforms k E -> Forall u8 data ->
  ECBSink_write_on mc wr heap (ECBSink s k) data w =
  (s' <-- writes wr s (map (to_le 8) (map (fun x => sw mc (E (sw mc x))) (blocks8 (complete data)))) ;;
   match leftover data with
   | [] => mret (ECBSink s' k)
   | _ :: _ => mthrow (RuntimeError "Unaligned ECB encryption")
   end) w.
Proof.
  intros HE Hu. unfold ECBSink_write_on. cbn [es_key es_sink]. rewrite <- (complete_leftover data) at 1.
  etransitivity.
  { apply mbind_ext; [|intros ? ?; reflexivity]. rewrite ecb_on_app.
    etransitivity; [apply mbind_ext; [apply ecb_on_whole; [exact HE|now apply complete_whole]|intros ? ?; reflexivity]|].
    reflexivity. }
  rewrite !mbind_assoc. apply mbind_ext; [reflexivity|]. intros s' w1.
  rewrite mbind_mret_l. cbv beta zeta. unfold mbind.
  rewrite ecb_on_short by (cbn [List.length]; apply leftover_length). reflexivity.
Qed.
End PortECB.

(** ** ECBSource *)
Section PortECBSource.
Context (mc : machine) {W St : Type} (rd : reader W St) (m : mode) (heap : N) (Ha : allowed mc heap).

Lemma ecb_read_block_on k D R : deciphers k D -> delivers8 rd R -> forall s w cipher n,
  R s w cipher -> whole cipher -> 8 <= n ->
  let F := fun x => hsw mc (D (hsw mc x)) in
  exists o' w', ECBSource_read_on mc rd m heap (ECBSource s k) n w =
    (Ok (firstn 8 (unblocks8 (ecb F (blocks8 cipher))), o'), w') /\
    ecb_left k F R o' w' (skipn 8 (unblocks8 (ecb F (blocks8 cipher)))).
Proof.
  intros HD HR s w cipher n Hs Hw Hn F.
  unfold ECBSource_read_on. replace (n <? N.of_nat block_size) with false by (unfold block_size; lia).
  destruct (HR s w cipher Hs) as (s1 & w1 & Er & HR1). unfold mbind at 1. rewrite Er.
  destruct (whole_cases cipher Hw) as [->|(a & b & -> & La & Hu & Hwb)].
  - rewrite firstn_nil, blocks8_nil. exists (ECBBare s1), w1. split; [reflexivity|].
    rewrite skipn_nil in HR1. split; [exact HR1|reflexivity].
  - rewrite firstn_app_exact by assumption. rewrite skipn_app_exact in HR1 by assumption.
    rewrite blocks8_cons by assumption.
    change (unblocks8 (ecb F (of_le a :: blocks8 b)))
      with (to_le 8 (F (of_le a)) ++ unblocks8 (ecb F (blocks8 b))).
    rewrite firstn_app_exact, skipn_app_exact by apply to_le_length.
    destruct (HD (hsw mc (of_le a)) (hsw_lt mc _ (of_le_8_lt a Hu La))) as [E1 L1].
    assert (NE : exists a0 a', a = a0 :: a') by (destruct a; [discriminate|eauto]).
    destruct NE as (a0 & a' & ->). unfold mbind, lift.
    rewrite read8_ok, BlkRaw_mem_ok, E1 by assumption.
    rewrite (surjective_pairing (halves (D _))).
    cbv iota beta. rewrite write8_ok, pair_mem_ok by assumption.
    exists (ECBSource s1 k), w1. split; [reflexivity|]. split; [reflexivity|]. exists b. auto.
Qed.

Lemma ecb_delivers_on k D R : deciphers k D -> block_source rd R ->
  delivers_blocks (ECBSource_read_on mc rd m heap) (ecb_left k (fun x => hsw mc (D (hsw mc x))) R).
Proof.
  intros HD [HR H0] [s k'|s] w plain n H Hn.
  - destruct H as (-> & cipher & Hs & Hw & ->). now apply ecb_read_block_on.
  - destruct H as [Hs ->]. destruct (H0 s w n Hs Hn) as (s' & w' & E & HR').
    exists (ECBBare s'), w'. cbn [ECBSource_read_on]. unfold mbind. rewrite E. rewrite firstn_nil, skipn_nil.
    split; [reflexivity|]. split; [exact HR'|reflexivity].
Qed.
End PortECBSource.

(** ** DataImit *)

Lemma lxor_fold_lt F ps : (forall x, x < 2 ^ 64 -> F x < 2 ^ 64) -> forall st, st < 2 ^ 64 ->
  Forall (fun x => x < 2 ^ 64) ps -> fold_left (fun s p => F (N.lxor s p)) ps st < 2 ^ 64.
Proof.
  intros HF. induction ps as [|p ps IH]; intros st Hs Hp; [exact Hs|]. inversion Hp; subst.
  cbn [fold_left]. apply IH; [|assumption]. apply HF. now apply lxor_lt.
Qed.

Lemma dataimit_loop_on_ok mc heap k f : allowed mc heap -> round_functions k f ->
  let F := fun x => hsw mc (sixteen_rounds f (hsw mc x)) in
  forall data, (List.length data mod 8 = 0)%nat -> Forall u8 data ->
  forall fuel st, (List.length data <= fuel)%nat -> st < 2 ^ 64 ->
  dataimit_loop_on mc heap fuel (Some k) (to_le 8 st) data =
  Ok (to_le 8 (fold_left (fun s p => F (N.lxor s p)) (blocks8 data) st)).
Proof.
  intros Ha Hk F.
  apply (chunk_ind 8 (fun data => Forall u8 data -> forall fuel st,
    (List.length data <= fuel)%nat -> st < 2 ^ 64 ->
    dataimit_loop_on mc heap fuel (Some k) (to_le 8 st) data =
    Ok (to_le 8 (fold_left (fun s p => F (N.lxor s p)) (blocks8 data) st)))); [lia| |].
  - intros _ fuel st _ _. now destruct fuel.
  - intros b r Hb IH Hu fuel st Hf Hs. apply Forall_app in Hu. destruct Hu as [Ub Ur].
    rewrite app_length, Hb in Hf. destruct fuel as [|fuel]; [lia|].
    rewrite blocks8_cons by assumption. cbn [fold_left].
    destruct b as [|x b]; [discriminate Hb|]. cbn [app dataimit_loop_on].
    change (x :: b ++ r) with ((x :: b) ++ r).
    rewrite xor_bytes_ok by (now rewrite to_le_length). cbn [bind].
    assert (Ez : zip_xor (to_le 8 st) (x :: b) = to_le 8 (N.lxor st (of_le (x :: b)))).
    { rewrite to_le_lxor. f_equal. rewrite <- Hb. symmetry. now apply to_of_le. }
    rewrite Ez. assert (Lb : of_le (x :: b) < 2 ^ 64) by now apply of_le_8_lt.
    assert (Lx : N.lxor st (of_le (x :: b)) < 2 ^ 64) by now apply lxor_lt.
    unfold dataimit_block_on. rewrite read8_ok by apply to_le_length. cbn [bind].
    rewrite BlkRaw_mem_ok by (assumption || apply to_le_u8 || apply to_le_length).
    rewrite of_to_le_id by exact Lx.
    destruct (ImitedBlock_ok k f _ Hk (hsw_lt mc _ Lx)) as [E1 L1]. rewrite E1.
    rewrite (surjective_pairing (halves _)). cbn [bind].
    rewrite access_4, access_4' by assumption. cbn [bind].
    rewrite write8_ok by apply to_le_length. cbn [bind].
    rewrite pair_mem_ok by exact L1. apply IH; [assumption|lia|]. now apply hsw_lt.
Qed.

Lemma DataImit_on_ok mc heap k f data : allowed mc heap -> round_functions k f -> Forall u8 data ->
  DataImit_on mc heap data (Some k) =
  Ok (to_le 8 (mac89 (fun x => hsw mc (sixteen_rounds f (hsw mc x))) (blocks8 (pad89 data)))).
Proof.
  intros Ha Hk Hu. unfold DataImit_on. cbv zeta. rewrite pad89_ok. destruct (pad89_whole data Hu) as [Hm Hp].
  change (repeat 0 8) with (to_le 8 0).
  rewrite (dataimit_loop_on_ok mc heap k f Ha Hk) by (auto; reflexivity). reflexivity.
Qed.

(** ** The CFB sinks; the register is a list of numbers of this machine *)
Section PortCFB.
Context (mc : machine) {W S : Type} (wr : writer W S) (m : mode) (k : key).

Fixpoint cfb_loop_on (data p : bytes) (s : S) (reg : list N) : M W (S * list N * bytes) :=
  match data with
  | [] => mret (s, reg, p)
  | b :: rest =>
      let p := p ++ [b] in
      if Nat.eqb (List.length p) 8 then
        '(first, second) <-- lift (BlkEncrypted (BlkRaw64 (hd 0 reg)) (cast_lazy k)) ;;
        c <-- lift (sink_xor m p first second) ;;
        s <-- wr s c ;;
        cfb_loop_on rest [] s (tl reg ++ [of_mem mc (firstn 8 c)])
      else cfb_loop_on rest p s reg
  end.

Lemma magma_on_core data : forall p s rl rr w,
  magma_cfb_write_loop_on mc wr m k data p s rl rr w =
  (x <-- cfb_loop_on data p s [rl; rr] ;;
   let '(s, reg, p) := x in mret (s, nth 0 reg 0, nth 1 reg 0, p)) w.
Proof.
  induction data as [|b data IH]; intros p s rl rr w; [reflexivity|].
  cbn [magma_cfb_write_loop_on cfb_loop_on]. cbv zeta. unfold block_size.
  destruct (Nat.eqb _ 8); [|apply IH].
  rewrite mbind_assoc. apply mbind_ext; [reflexivity|]. intros [f1 f2] w1.
  rewrite mbind_assoc. apply mbind_ext; [reflexivity|]. intros c w2.
  rewrite mbind_assoc. apply mbind_ext; [reflexivity|]. intros; apply IH.
Qed.

Lemma gost_on_core data : forall p s l w,
  gost_cfb_write_loop_on mc wr m k data p s l w =
  (x <-- cfb_loop_on data p s [l] ;;
   let '(s, reg, p) := x in mret (s, nth 0 reg 0, p)) w.
Proof.
  induction data as [|b data IH]; intros p s l w; [reflexivity|].
  cbn [gost_cfb_write_loop_on cfb_loop_on]. cbv zeta. unfold block_size.
  destruct (Nat.eqb _ 8); [|apply IH].
  rewrite mbind_assoc. apply mbind_ext; [reflexivity|]. intros [f1 f2] w1.
  rewrite mbind_assoc. apply mbind_ext; [reflexivity|]. intros c w2.
  rewrite mbind_assoc. apply mbind_ext; [reflexivity|]. intros; apply IH.
Qed.

Lemma cfb_on_app a b p s reg w :
  cfb_loop_on (a ++ b) p s reg w =
  (x <-- cfb_loop_on a p s reg ;; let '(s, reg, p) := x in cfb_loop_on b p s reg) w.
Proof.
  revert p s reg w. induction a as [|x a IH]; intros p s reg w; [reflexivity|].
  cbn [app cfb_loop_on]. cbv zeta. destruct (Nat.eqb _ 8).
  - rewrite mbind_assoc. apply mbind_ext; [reflexivity|]. intros [f1 f2] w1.
    rewrite mbind_assoc. apply mbind_ext; [reflexivity|]. intros c w2.
    rewrite mbind_assoc. apply mbind_ext; [reflexivity|]. intros; apply IH.
  - apply IH.
Qed.

Lemma cfb_on_short d : forall p s reg w, (List.length p + List.length d < 8)%nat ->
  cfb_loop_on d p s reg w = (Ok (s, reg, p ++ d), w).
Proof.
  induction d as [|b d IH]; intros p s reg w H.
  - rewrite app_nil_r. reflexivity.
  - cbn [cfb_loop_on]. cbv zeta. cbn [List.length] in H. rewrite app_length. cbn [List.length].
    rewrite (proj2 (Nat.eqb_neq _ 8)) by lia. rewrite IH by (rewrite app_length; cbn; lia).
    now rewrite <- app_assoc.
Qed.

Lemma cfb_on_pending p d s reg w : (List.length p < 8)%nat ->
  cfb_loop_on d p s reg w = cfb_loop_on (p ++ d) [] s reg w.
Proof.
  intros H. rewrite cfb_on_app. unfold mbind. rewrite (cfb_on_short p) by (cbn [List.length]; lia). reflexivity.
Qed.

Lemma cfb_on_block a s reg w : List.length a = 8%nat ->
  cfb_loop_on a [] s reg w =
  ('(first, second) <-- lift (BlkEncrypted (BlkRaw64 (hd 0 reg)) (cast_lazy k)) ;;
   c <-- lift (sink_xor m a first second) ;;
   s <-- wr s c ;;
   mret (s, tl reg ++ [of_mem mc (firstn 8 c)], [])) w.
Proof.
  intros H. destruct (list8 a H) as (b0 & b1 & b2 & b3 & b4 & b5 & b6 & b7 & ->). reflexivity.
Qed.

(** The register as a list of blocks of the stream. *)
Context (E : N -> N) (HE : enciphers k E).
Let F := fun x => E (sw mc x).

Lemma cfb_on_block_total a s reg w :
  reg_ok reg -> List.length a = 8%nat -> Forall u8 a ->
  let c := N.lxor (of_le a) (F (hd 0 (map (sw mc) reg))) in
  c < 2 ^ 64 /\
  cfb_loop_on a [] s reg w = (s' <-- wr s (to_le 8 c) ;; mret (s', tl reg ++ [sw mc c], [])) w.
Proof.
  intros Hr Hl Hb c. destruct reg as [|r0 reg]; [now destruct Hr|].
  assert (L0 : r0 < 2 ^ 64) by apply (hd_lt (r0 :: reg) Hr).
  assert (Ec : c = N.lxor (of_le a) (E r0)).
  { unfold c, F. cbn [map hd]. now rewrite sw_twice. }
  destruct (HE r0 L0) as [E1 L1].
  assert (Lc : c < 2 ^ 64) by (rewrite Ec; apply lxor_lt; [now apply of_le_8_lt|exact L1]).
  split; [exact Lc|]. rewrite cfb_on_block by assumption. cbn [hd]. rewrite E1.
  unfold mbind at 1. cbn [lift halves]. rewrite sink_xor_ok by assumption.
  unfold mbind at 1. cbn [lift]. rewrite <- Ec.
  apply mbind_ext; [reflexivity|]. intros. do 4 f_equal.
  rewrite firstn_all2 by (rewrite to_le_length; lia).
  rewrite of_mem_8 by (apply to_le_u8 || apply to_le_length). now rewrite (of_to_le_id 8).
Qed.

Lemma sw_map_twice l : Forall (fun x => x < 2 ^ 64) l -> map (sw mc) (map (sw mc) l) = l.
Proof. induction 1; [reflexivity|]. cbn [map]. rewrite sw_twice by assumption. congruence. Qed.

Lemma cfb_on_whole d : whole d -> forall s reg w, reg_ok reg ->
  let cs := cfb_encrypt F (map (sw mc) reg) (blocks8 d) in
  exists reg', reg_ok reg' /\ List.length reg' = List.length reg /\
    map (sw mc) reg' = shifted (map (sw mc) reg) cs /\
  cfb_loop_on d [] s reg w =
  (s' <-- writes wr s (map (to_le 8) cs) ;; mret (s', reg', [])) w.
Proof.
  intros [Hl Hb]. revert Hb. revert d Hl.
  apply (chunk_ind 8 (fun d => Forall u8 d -> forall s reg w, reg_ok reg ->
    let cs := cfb_encrypt F (map (sw mc) reg) (blocks8 d) in
    exists reg', reg_ok reg' /\ List.length reg' = List.length reg /\
      map (sw mc) reg' = shifted (map (sw mc) reg) cs /\
    cfb_loop_on d [] s reg w =
    (s' <-- writes wr s (map (to_le 8) cs) ;; mret (s', reg', [])) w)).
  - lia.
  - intros _ s reg w Hr. intros cs. subst cs. rewrite blocks8_nil. cbn [cfb_encrypt map writes].
    exists reg. split; [exact Hr|]. split; [reflexivity|]. rewrite mbind_mret_l, shifted_nil.
    split; reflexivity.
  - intros a r Hl IH HF s reg w Hr. apply Forall_app in HF. destruct HF as [H1 H2].
    rewrite blocks8_cons by assumption. cbn [cfb_encrypt map writes]. cbv zeta.
    destruct (cfb_on_block_total a s reg w Hr Hl H1) as [Lc Eb].
    set (c := N.lxor (of_le a) (F (hd 0 (map (sw mc) reg)))) in *.
    assert (Hm : map (sw mc) (tl reg ++ [sw mc c]) = tl (map (sw mc) reg) ++ [c]).
    { rewrite map_app. cbn [map]. rewrite sw_twice by exact Lc. now destruct reg. }
    assert (Hr' : reg_ok (tl reg ++ [sw mc c])) by (apply reg_ok_shift; [exact Hr|now apply sw_lt]).
    destruct (IH H2 s (tl reg ++ [sw mc c]) w Hr') as (reg' & A1 & A2 & A3 & _).
    rewrite Hm in A3. exists reg'. split; [exact A1|]. split.
    { rewrite A2, app_length. destruct reg; [now destruct Hr|]. cbn [tl List.length]. lia. }
    split. { rewrite A3. symmetry. apply shifted_cons. destruct reg; [now destruct Hr|discriminate]. }
    rewrite cfb_on_app.
    etransitivity; [apply mbind_ext; [exact Eb|intros ? ?; reflexivity]|].
    rewrite !mbind_assoc. apply mbind_ext; [reflexivity|]. intros s1 w1.
    unfold mbind at 1. cbn [mret].
    destruct (IH H2 s1 (tl reg ++ [sw mc c]) w1 Hr') as (reg2 & B1 & B2 & B3 & B4).
    rewrite Hm in B3, B4. rewrite B4.
    assert (reg2 = reg'); [|now subst].
    rewrite <- (sw_map_twice reg2) by apply B1. rewrite <- (sw_map_twice reg') by apply A1.
    now rewrite B3, A3.
Qed.

Lemma cfb_on_general d : Forall u8 d -> forall s reg w, reg_ok reg ->
  let cs := cfb_encrypt F (map (sw mc) reg) (blocks8 (complete d)) in
  exists reg', reg_ok reg' /\ List.length reg' = List.length reg /\
    map (sw mc) reg' = shifted (map (sw mc) reg) cs /\
  cfb_loop_on d [] s reg w =
  (s' <-- writes wr s (map (to_le 8) cs) ;; mret (s', reg', leftover d)) w.
Proof.
  intros Hb s reg w Hr cs.
  destruct (cfb_on_whole (complete d) (complete_whole d Hb) s reg w Hr) as (reg' & A1 & A2 & A3 & A4).
  exists reg'. split; [exact A1|]. split; [exact A2|]. split; [exact A3|].
  rewrite <- (complete_leftover d) at 1. rewrite cfb_on_app.
  etransitivity; [apply mbind_ext; [exact A4|intros ? ?; reflexivity]|].
  rewrite mbind_assoc. apply mbind_ext; [reflexivity|]. intros s1 w1.
  unfold mbind. cbn [mret]. rewrite cfb_on_short by (cbn [List.length]; apply leftover_length).
  reflexivity.
Qed.
End PortCFB.
