(** Proofs for C94. *)
From Verif Require Import Base Lib Text MagmaModel Streams KuzModel AliasModel SpecKuz ByteProofs SourceProofs KuzProofs
  PortProofs PortKuz.
From Coq Require Import ZifyNat ZifyN.
Local Open Scope N_scope.

Section Rules.
Context (rules : bool).

Lemma view_byte t : view rules t Byte = Ok tt.
Proof. unfold view. destruct t; cbn; now rewrite Bool.andb_false_r. Qed.

Lemma copied_ok a b : copied rules a b = Ok tt.
Proof. unfold copied. now rewrite !view_byte. Qed.

Lemma magma_loop_view {W S} (wr : writer W S) m k : forall data p s rl rr w,
  magma_cfb_write_loop_view rules wr m k data p s rl rr w = magma_cfb_write_loop wr m k data p s rl rr w.
Proof.
  induction data as [|b data IH]; intros p s rl rr w; [reflexivity|].
  cbn [magma_cfb_write_loop_view magma_cfb_write_loop]. cbv zeta. destruct (Nat.eqb _ block_size); [|apply IH].
  apply mbind_ext; [reflexivity|]. intros [f1 f2] w1.
  apply mbind_ext; [reflexivity|]. intros c w2.
  apply mbind_ext; [reflexivity|]. intros s1 w3. rewrite copied_ok. apply IH.
Qed.

Lemma gost_loop_view {W S} (wr : writer W S) m k : forall data p s l w,
  gost_cfb_write_loop_view rules wr m k data p s l w = gost_cfb_write_loop wr m k data p s l w.
Proof.
  induction data as [|b data IH]; intros p s l w; [reflexivity|].
  cbn [gost_cfb_write_loop_view gost_cfb_write_loop]. cbv zeta. destruct (Nat.eqb _ block_size); [|apply IH].
  apply mbind_ext; [reflexivity|]. intros [f1 f2] w1.
  apply mbind_ext; [reflexivity|]. intros c w2.
  apply mbind_ext; [reflexivity|]. intros s1 w3. rewrite copied_ok. apply IH.
Qed.

Lemma magma_sink_view {W S} (wr : writer W S) m o data w :
  magma_CFBSink_write_view rules wr m o data w = magma_CFBSink_write wr m o data w.
Proof.
  unfold magma_CFBSink_write_view, magma_CFBSink_write. apply mbind_ext; [apply magma_loop_view|reflexivity].
Qed.

Lemma gost_sink_view {W S} (wr : writer W S) m o data w :
  gost_CFBSink_write_view rules wr m o data w = gost_CFBSink_write wr m o data w.
Proof.
  unfold gost_CFBSink_write_view, gost_CFBSink_write. apply mbind_ext; [apply gost_loop_view|reflexivity].
Qed.

Lemma load_reg_view_ok m p : load_reg_view rules m p = load_reg m p.
Proof. unfold load_reg_view. now rewrite copied_ok. Qed.

Lemma magma_source_view {W St} (rd : reader W St) m o n w :
  magma_CFBSource_read_view rules rd m o n w = magma_CFBSource_read rd m o n w.
Proof.
  unfold magma_CFBSource_read_view, magma_CFBSource_read. apply mbind_ext; [|reflexivity].
  rewrite !mloop_nm. apply nmloop_ext. intros [[[[s p] rl] rr] res] w1.
  unfold magma_cfb_read_step_view, magma_cfb_read_step. destruct (len res <? n); [|reflexivity].
  destruct (drain p res n) as [r1 p1]. destruct (len r1 =? n); [reflexivity|].
  apply mbind_ext; [reflexivity|]. intros [f1 f2] w2.
  apply mbind_ext; [reflexivity|]. intros [[|b q] s1] w3; [reflexivity|]. now rewrite load_reg_view_ok.
Qed.

Lemma gost_source_view {W St} (rd : reader W St) m o n w :
  gost_CFBSource_read_view rules rd m o n w = gost_CFBSource_read rd m o n w.
Proof.
  unfold gost_CFBSource_read_view, gost_CFBSource_read. apply mbind_ext; [|reflexivity].
  rewrite !mloop_nm. apply nmloop_ext. intros [[[s p] rl] res] w1.
  unfold gost_cfb_read_step_view, gost_cfb_read_step. destruct (len res <? n); [|reflexivity].
  destruct (drain p res n) as [r1 p1]. destruct (len r1 =? n); [reflexivity|].
  apply mbind_ext; [reflexivity|]. intros [f1 f2] w2.
  apply mbind_ext; [reflexivity|]. intros [[|b q] s1] w3; [reflexivity|]. now rewrite load_reg_view_ok.
Qed.

Lemma Imit_view {W St} (rd : reader W St) m fuel s k w :
  magma_Imit_view rules rd m fuel s k w = magma_Imit rd m fuel s k w.
Proof.
  unfold magma_Imit_view, magma_Imit. apply mbind_ext; [reflexivity|]. intros [b s1] w1.
  apply mbind_ext; [|reflexivity]. rewrite !mloop_nm. apply nmloop_ext.
  intros [[b1 s2] blk] w2. unfold imit_step_view, imit_step. now rewrite copied_ok.
Qed.

Lemma mapM_ext {A B} (f g : A -> res B) l : (forall x, f x = g x) -> mapM f l = mapM g l.
Proof. intros H. induction l as [|x l IH]; [reflexivity|]. cbn [mapM]. now rewrite H, IH. Qed.

Lemma KS_view_ok b : KS_view rules b = KS b.
Proof.
  unfold KS_view, KS. destruct b as [[x y]|e|u|]; try reflexivity. cbn [bind].
  rewrite (mapM_ext _ (at_ BlkS_sbox)); [reflexivity|].
  intros z. rewrite view_byte. cbn [bind]. now destruct (at_ BlkS_sbox z).
Qed.

(** Data that never fills a block. *)
Lemma ecb_view_short {W S} (wr : writer W S) k : forall d p s w, (List.length p + List.length d < 8)%nat ->
  ecb_write_loop_view rules wr k d p s w = (Ok (p ++ d, s), w).
Proof.
  induction d as [|b d IH]; intros p s w H; cbn [ecb_write_loop_view]; [now rewrite app_nil_r|].
  cbv zeta. rewrite app_length. cbn [List.length] in *.
  destruct (Nat.eqb_spec (List.length p + 1) 8) as [E|_]; [lia|].
  rewrite IH; [now rewrite <- app_assoc|]. rewrite app_length. cbn. lia.
Qed.
End Rules.

(** ** Without the rules *)

Lemma view_off a b : view false a b = Ok tt.
Proof. reflexivity. Qed.

Lemma ecb_loop_view_off {W S} (wr : writer W S) k : forall data p s w,
  ecb_write_loop_view false wr k data p s w = ecb_write_loop wr k data p s w.
Proof.
  induction data as [|b data IH]; intros p s w; [reflexivity|].
  cbn [ecb_write_loop_view ecb_write_loop]. cbv zeta. destruct (Nat.eqb _ 8); [|apply IH].
  rewrite view_off. unfold mbind at 1. cbn [lift].
  apply mbind_ext; [reflexivity|]. intros e w1. rewrite copied_ok. unfold mbind at 1. cbn [lift].
  apply mbind_ext; [reflexivity|]. intros; apply IH.
Qed.

Lemma ecb_sink_view_off {W S} (wr : writer W S) o data w :
  ECBSink_write_view false wr o data w = ECBSink_write wr o data w.
Proof.
  unfold ECBSink_write_view, ECBSink_write. apply mbind_ext; [apply ecb_loop_view_off|reflexivity].
Qed.

Lemma BlkRaw_bytes_ok b : exists v, BlkRaw_bytes b = Ok v.
Proof. unfold BlkRaw_bytes, BlkRaw2. eexists. reflexivity. Qed.

Lemma ecb_source_view_off {W St} (rd : reader W St) m o n w :
  ECBSource_read_view false rd m o n w = ECBSource_read rd m o n w.
Proof.
  destruct o as [s k|s]; [|reflexivity]. cbn [ECBSource_read_view ECBSource_read].
  destruct (n <? _); [reflexivity|].
  apply mbind_ext; [reflexivity|]. intros [[|b p] s1] w1; [reflexivity|].
  apply mbind_ext; [reflexivity|]. intros buf w2. unfold BlkRaw_view. rewrite !view_off. cbn [bind].
  destruct (BlkRaw_bytes_ok buf) as [v E]. rewrite E. unfold mbind at 1. cbn [lift].
  reflexivity.
Qed.

Lemma DataImit_view_off data k : DataImit_view false data k = DataImit data k.
Proof. reflexivity. Qed.

Lemma KR_view_off b : KR_view false b = KR b.
Proof. unfold KR_view, KR. destruct b as [[x y]|e|u|]; reflexivity. Qed.

Lemma KL_view_off b : KL_view false b = KL b.
Proof.
  unfold KL_view, KL. generalize 16%nat as n. intros n. revert b.
  induction n as [|n IH]; intros b; [reflexivity|]. cbn [KL_transform_view KL_transform].
  now rewrite KR_view_off, IH.
Qed.

Lemma KIterKey_view_off a b c1 c2 : KIterKey_view false a b c1 c2 = KIterKey a b c1 c2.
Proof.
  unfold KIterKey_view, KIterKey. generalize (Z.to_nat (c2 - c1 + 1)) as n. intros n.
  revert a b c1. induction n as [|n IH]; intros a b c1; cbn [KIterKey_generate_view KIterKey_generate];
    [reflexivity|]. destruct (c2 <? c1)%Z; [reflexivity|]. destruct (c1 =? _)%Z; [reflexivity|].
  cbv zeta. rewrite IH, (KL_view_off (KRaw1 _)), (KL_view_off (KS_view false _)), KS_view_ok. reflexivity.
Qed.

Lemma Key_blocks_view_off h l : Key_blocks_view false h l = Key_blocks h l.
Proof. unfold Key_blocks_view, Key_blocks. cbv zeta. now rewrite !KIterKey_view_off. Qed.

Lemma Key_encrypt_view_off k b : Key_encrypt_view false k b = Key_encrypt k b.
Proof.
  assert (E : forall b kn, encryptStep_view false b kn = encryptStep b kn).
  { intros. unfold encryptStep_view, encryptStep. now rewrite KL_view_off, KS_view_ok. }
  unfold Key_encrypt_view, Key_encrypt. cbv zeta. now rewrite !E.
Qed.

(** ** With the rules *)

Lemma ecb_view_block {W S} (wr : writer W S) k : forall d p s w,
  (List.length p < 8)%nat -> (8 <= List.length p + List.length d)%nat ->
  ecb_write_loop_view true wr k d p s w = (Undef Aliasing, w).
Proof.
  induction d as [|b d IH]; intros p s w Hp H; cbn [List.length] in H; [lia|].
  cbn [ecb_write_loop_view]. cbv zeta. rewrite app_length. cbn [List.length].
  destruct (Nat.eqb_spec (List.length p + 1) 8) as [E|E]; [reflexivity|].
  apply IH; rewrite app_length; cbn [List.length]; lia.
Qed.

Lemma ecb_sink_aliasing {W S} (wr : writer W S) o data w : (8 <= List.length data)%nat ->
  ECBSink_write_view true wr o data w = (Undef Aliasing, w).
Proof.
  intros H. unfold ECBSink_write_view, mbind at 1.
  rewrite ecb_view_block by (cbn [List.length]; lia). reflexivity.
Qed.

Lemma ecb_sink_short {W S} rules (wr : writer W S) o data w : (List.length data < 8)%nat ->
  ECBSink_write_view rules wr o data w = ECBSink_write wr o data w.
Proof.
  intros H. rewrite <- ecb_sink_view_off. unfold ECBSink_write_view. unfold mbind.
  rewrite !ecb_view_short by (cbn [List.length]; lia). reflexivity.
Qed.

Lemma ecb_source_aliasing {W St} (rd : reader W St) m s k n p s' w w' :
  8 <= n -> rd s 8 w = (Ok (p, s'), w') -> (8 <= List.length p)%nat ->
  ECBSource_read_view true rd m (ECBSource s k) n w = (Undef Aliasing, w').
Proof.
  intros Hn Hr Hp. cbn [ECBSource_read_view]. unfold block_size.
  destruct (N.ltb_spec n (N.of_nat 8)) as [A|_]; [lia|]. unfold mbind at 1. rewrite Hr.
  destruct p as [|b p]; [cbn in Hp; lia|]. unfold read8.
  rewrite (proj2 (Nat.leb_le _ _) Hp). reflexivity.
Qed.

Lemma ecb_source_end {W St} rules (rd : reader W St) m s k n s' w w' :
  rd s 8 w = (Ok ([], s'), w') ->
  ECBSource_read_view rules rd m (ECBSource s k) n w = ECBSource_read rd m (ECBSource s k) n w.
Proof.
  intros Hr. cbn [ECBSource_read_view ECBSource_read]. destruct (n <? _); [reflexivity|].
  unfold mbind. rewrite Hr. reflexivity.
Qed.

Lemma pad_long data : (16 <= List.length (dataimit_pad data))%nat.
Proof. unfold dataimit_pad. cbv zeta. rewrite !app_length, !repeat_length. lia. Qed.

Lemma xor_bytes_ok st : forall d, (List.length st <= List.length d)%nat ->
  exists r rest, xor_bytes st d = Ok (r, rest) /\ List.length r = List.length st.
Proof.
  induction st as [|s st IH]; intros d H; [now exists [], d|].
  destruct d as [|x d]; cbn [List.length] in H; [lia|].
  destruct (IH d ltac:(lia)) as (r & rest & E & L). cbn [xor_bytes]. rewrite E. cbn [bind].
  eexists _, _. split; [reflexivity|]. cbn [List.length]. now rewrite L.
Qed.

Lemma DataImit_aliasing data k : DataImit_view true data k = Undef Aliasing.
Proof.
  unfold DataImit_view. cbv zeta. pose proof (pad_long data) as H.
  destruct (dataimit_pad data) as [|x d]; [cbn in H; lia|].
  destruct (xor_bytes_ok (repeat 0 8) (x :: d)) as (r & rest & E & L); [cbn [repeat List.length] in *; lia|].
  cbn [List.length dataimit_loop_view]. rewrite E. cbn [bind]. unfold dataimit_block_view, read8.
  rewrite repeat_length in L. rewrite L. reflexivity.
Qed.

Lemma KR_aliasing x y : KR_view true (Ok (x, y)) = Undef Aliasing.
Proof. reflexivity. Qed.

Lemma KL_view_undef n u : KL_transform_view true (Undef u) n = Undef u.
Proof. induction n as [|n IH]; [reflexivity|]. exact IH. Qed.

Lemma KL_aliasing v : KL_view true (Ok v) = Undef Aliasing.
Proof.
  unfold KL_view. destruct v as [x y].
  change (KL_transform_view true (Ok (x, y)) 16)
    with (KL_transform_view true (KR_view true (Ok (x, y))) 15).
  rewrite KR_aliasing. apply KL_view_undef.
Qed.

Lemma Key_aliasing h l x : h < 2 ^ 128 -> x < 2 ^ 128 ->
  Key_encrypt_view true (Key_blocks_view true (Ok (kpair h)) l) (Ok (kpair x)) = Undef Aliasing.
Proof.
  intros Hh Hx. unfold Key_encrypt_view.
  assert (E : encryptStep_view true (Ok (kpair x)) (k1 (Key_blocks_view true (Ok (kpair h)) l)) = Undef Aliasing).
  { unfold encryptStep_view, Key_blocks_view. cbn [k1]. unfold KCached. rewrite KXored_kpair by assumption.
    rewrite KS_view_ok, KS_kpair by now apply lxor_lt. apply KL_aliasing. }
  rewrite E. assert (U : forall b, encryptStep_view true (Undef Aliasing) b = Undef Aliasing).
  { intros b. unfold encryptStep_view. cbn [KXored bind KS_view]. apply KL_view_undef. }
  now rewrite !U.
Qed.
