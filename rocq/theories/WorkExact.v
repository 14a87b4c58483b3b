(** The exact number of value() calls of magma::Imit. *)
From Verif Require Import Base MagmaModel Streams DeepMagma WorkModel Lib.
From Verif Require Import SpecMagma SpecModes SpecStreams MagmaSpecProofs ByteProofs SourceProofs MacProofs DeepMagmaProofs WorkProofs.
From Coq Require Import ZifyNat ZifyN ZifyBool Lia.
Local Open Scope N_scope.
Ltac Zify.zify_post_hook ::= idtac.

Section Exact.
Context (g : list N -> nat -> N).
Notation m := (X86 g).

Definition costs (o : mblk) (n : nat) : Prop := forall d, (mdepth o <= d)%nat -> mcalls m d o = n.

Lemma costs_raw r : costs (MRaw r) 1.
Proof. intros [|d] H; cbn [mdepth] in H; [lia|reflexivity]. Qed.

Lemma costs_xored a b x i j : msem m a = Ok x -> costs a i -> costs b j -> costs (MXored a b) (S (i + j)).
Proof.
  intros Hx Ha Hb [|d] H; cbn [mdepth] in H; [lia|]. cbn [mcalls].
  rewrite mvalue_sem, Hx by lia. rewrite Ha, Hb by lia. reflexivity.
Qed.

Lemma costs_shifted a n i : costs a i -> costs (MShifted a n) (S i).
Proof. intros Ha [|d] H; cbn [mdepth] in H; [lia|]. cbn [mcalls]. now rewrite Ha by lia. Qed.
Lemma costs_swapped a i : costs a i -> costs (MSwapped a) (S i).
Proof. intros Ha [|d] H; cbn [mdepth] in H; [lia|]. cbn [mcalls]. now rewrite Ha by lia. Qed.
Lemma costs_forwarded a k i : costs a i -> costs (MForwarded a k) (S i).
Proof. intros Ha [|d] H; cbn [mdepth] in H; [lia|]. cbn [mcalls]. now rewrite Ha by lia. Qed.
Lemma costs_backwarded a k i : costs a i -> costs (MBackwarded a k) (S i).
Proof. intros Ha [|d] H; cbn [mdepth] in H; [lia|]. cbn [mcalls]. now rewrite Ha by lia. Qed.

Lemma costs_encrypted a k i : costs a i -> costs (MEncrypted a k) (6 + i).
Proof.
  intros Ha [|d] H; cbn [mdepth] in H; [lia|]. cbn [mcalls].
  rewrite (costs_swapped _ _ (costs_backwarded _ k _ (costs_forwarded _ k _ (costs_forwarded _ k _ (costs_forwarded _ k _ Ha)))))
    by (cbn [mdepth]; lia). reflexivity.
Qed.

Lemma costs_imit_shifted a i x : x < 2 ^ 64 -> msem m a = Ok (halves x) -> costs a i ->
  costs (MImitShifted a) (2 + 2 * i + if N.testbit x 63 then 2 else 0).
Proof.
  intros Hx Ex Ha [|d] H; cbn [mdepth] in H; [lia|]. cbn [mcalls].
  pose proof (mdepth_pos a).
  rewrite mvalue_sem, Ex, Ha by lia. cbn [halves snd]. rewrite high_bit_32 by exact Hx.
  pose proof (costs_shifted a 1 i Ha) as Hs.
  destruct (N.testbit x 63); cbn [negb]; [|rewrite Hs by (cbn [mdepth]; lia); lia].
  assert (exists y, msem m (MShifted a 1) = Ok y) as [y Ey].
  { pose proof (BlkImitShifted_x86 g x Hx) as Hb. cbn [msem]. rewrite Ex. unfold BlkImitShifted in Hb.
    destruct (halves x) as [lo hi]. cbn [bind] in Hb.
    destruct (BlkShifted m (Ok (lo, hi)) 1) as [y| | |]; [eauto|..];
      destruct (N.land hi 0x80000000 =? 0); discriminate Hb. }
  rewrite (costs_xored _ _ y _ 1 Ey Hs (costs_raw _)) by (cbn [mdepth]; lia). lia.
Qed.

Context (k : lazykey) (E : N -> N) (HE : enciphers (KLazy k) E).

Definition final_calls (whole : bool) : nat :=
  (if whole then 17 + (if N.testbit (E 0) 63 then 2 else 0)
   else 35 + (if N.testbit (E 0) 63 then 4 else 0) + if N.testbit (K1 E 64 0x1b) 63 then 2 else 0)%nat.

Lemma costs_final n : costs (MFinalKey (Some k) n) (final_calls (Nat.eqb n 8)).
Proof.
  destruct (HE 0 eq_refl) as [E0 L0]. cbn [cast_lazy] in E0.
  pose proof (costs_imit_shifted (MEncrypted (MRaw BlkRaw0) (Some k)) 7 (E 0) L0 E0
                (costs_encrypted _ (Some k) _ (costs_raw BlkRaw0))) as C1.
  assert (S1 : msem m (MImitShifted (MEncrypted (MRaw BlkRaw0) (Some k))) = Ok (halves (K1 E 64 0x1b))).
  { cbn [msem]. change BlkRaw0 with (BlkRaw64 0). rewrite E0. now apply BlkImitShifted_x86. }
  pose proof (costs_imit_shifted _ _ _ (K1_lt E) S1 C1) as C2.
  intros [|d] H; cbn [mdepth] in H; [lia|]. cbn [mcalls]. cbv zeta. unfold final_calls. destruct (Nat.eqb n 8).
  - rewrite C1 by (cbn [mdepth]; lia). destruct (N.testbit (E 0) 63); reflexivity.
  - rewrite C2 by (cbn [mdepth]; lia). destruct (N.testbit (E 0) 63), (N.testbit (K1 E 64 0x1b) 63); reflexivity.
Qed.

Context {W St : Type} (rd : reader W St) (R : St -> W -> bytes -> Prop) (HR : delivers8 rd R).

(** Blocks begun by n bytes. *)
Definition begun (n : nat) : nat := ((n + 7) / 8)%nat.

Lemma begun_step n : (0 < n)%nat -> begun n = S (begun (n - 8)).
Proof.
  intros H. unfold begun. destruct (Nat.le_gt_cases 8 n) as [L|L].
  - replace (n + 7)%nat with (n - 8 + 7 + 1 * 8)%nat by lia. rewrite Nat.div_add by lia. lia.
  - replace (n - 8 + 7)%nat with 7%nat by lia.
    symmetry. apply (Nat.div_unique (n + 7) 8 1 (n - 1)); lia.
Qed.

Lemma loop_exact n : forall b s o w rest i st, R s w rest -> (0 < List.length b <= 8)%nat ->
  ((List.length b < 8)%nat -> rest = []) -> Forall u8 b -> Forall u8 rest ->
  costs o i -> st < 2 ^ 64 -> msem m o = Ok (halves st) -> (begun (List.length rest) < n)%nat ->
  exists sz blk w' v, nmloop n (dm_imit_step m rd (Some k)) (b, s, o) w = (Ok (MFinalKey (Some k) sz, blk), w') /\
    costs blk (i + 2 + 8 * begun (List.length rest)) /\ v < 2 ^ 64 /\ msem m blk = Ok (halves v) /\
    (mdepth blk <= mdepth o + 1 + 7 * begun (List.length rest))%nat /\
    Nat.eqb sz 8 = Nat.eqb ((List.length b + List.length rest) mod 8) 0.
Proof.
  induction n as [|n IH]; intros b s o w rest i st Hs Hb Hr Ub Ur Hc Hst Hsem Hn; [lia|]. cbn [nmloop].
  assert (Lb : of_le b < 2 ^ 64).
  { destruct (Nat.eq_dec (List.length b) 8) as [Le|Le]; [now apply of_le_8_lt|apply short_lt; [lia|exact Ub]]. }
  unfold dm_imit_step at 1. unfold mbind at 1 2, lift. rewrite imit_load_ok by exact Hb.
  assert (Cx : costs (MXored o (MRaw (BlkRaw64 (of_le b)))) (S (i + 1))) by (eapply costs_xored; eauto using costs_raw).
  assert (Sx : msem m (MXored o (MRaw (BlkRaw64 (of_le b)))) = Ok (halves (N.lxor st (of_le b)))).
  { cbn [msem]. rewrite Hsem, BlkRaw64_halves by exact Lb. apply BlkXored_halves. }
  assert (Lx : N.lxor st (of_le b) < 2 ^ 64) by now apply lxor_lt.
  pose proof (mdepth_pos o) as Dp.
  destruct (Nat.ltb (List.length b) block_size) eqn:Es.
  { assert (Es' : (List.length b < 8)%nat) by (apply Nat.ltb_lt in Es; exact Es).
    rewrite (Hr Es'). cbn [List.length mret mdepth]. change (begun 0) with 0%nat.
    exists (List.length b), (MXored o (MRaw (BlkRaw64 (of_le b)))), w, (N.lxor st (of_le b)).
    repeat split; [intros d Hd; rewrite (Cx d Hd); lia|exact Lx|exact Sx|cbn [mdepth]; lia|].
    rewrite Nat.add_0_r, Nat.mod_small by exact Es'. apply Bool.eq_iff_eq_true. rewrite !Nat.eqb_eq. lia. }
  assert (L8 : List.length b = 8%nat) by (apply Nat.ltb_ge in Es; unfold block_size in Es; lia).
  unfold mbind at 1. change (N.of_nat block_size) with 8. destruct (HR s w rest Hs) as (s1 & w1 & Er & R1). rewrite Er.
  destruct rest as [|r0 rest0] eqn:Erest.
  { cbn [firstn mret List.length]. change (begun 0) with 0%nat.
    exists (List.length b), (MXored o (MRaw (BlkRaw64 (of_le b)))), w1, (N.lxor st (of_le b)).
    repeat split; [intros d Hd; rewrite (Cx d Hd); lia|exact Lx|exact Sx|cbn [mdepth]; lia|].
    rewrite L8. reflexivity. }
  rewrite <- Erest in *. assert (Lr : (0 < List.length rest)%nat) by (rewrite Erest; cbn; lia). clear Erest r0 rest0.
  assert (Lf : (0 < List.length (firstn 8 rest) <= 8)%nat) by (rewrite firstn_length; lia).
  destruct (firstn 8 rest) as [|y b'] eqn:Ef; [cbn in Lf; lia|]. cbn [mret].
  rewrite (begun_step _ Lr) in *.
  assert (Ub' : Forall u8 (y :: b')) by (rewrite <- Ef; now apply Forall_firstn).
  assert (Ur' : Forall u8 (skipn 8 rest)) by now apply Forall_skipn.
  destruct (HE (N.lxor st (of_le b)) Lx) as [Ee Le].
  assert (Se : msem m (MEncrypted (MXored o (MRaw (BlkRaw64 (of_le b)))) (Some k)) = Ok (halves (E (N.lxor st (of_le b))))).
  { change (BlkEncrypted (msem m (MXored o (MRaw (BlkRaw64 (of_le b))))) (Some k) = Ok (halves (E (N.lxor st (of_le b))))).
    rewrite Sx. now apply encrypt_halves. }
  assert (Lt : ((List.length (y :: b') < 8)%nat -> skipn 8 rest = [])).
  { intros H. rewrite <- Ef, firstn_length in H. apply skipn_all2. lia. }
  destruct (IH (y :: b') s1 _ w1 (skipn 8 rest) _ _ R1 Lf Lt Ub' Ur'
              (costs_encrypted _ (Some k) _ Cx) Le Se ltac:(rewrite skipn_length; lia))
    as (sz & blk & w' & v & H1 & H2 & H3 & H4 & H5 & H6).
  exists sz, blk, w', v. rewrite skipn_length in *. split; [exact H1|].
  split; [intros d Hd; rewrite (H2 d Hd); lia|]. split; [exact H3|]. split; [exact H4|].
  split; [cbn [mdepth] in H5; lia|]. rewrite H6, L8. f_equal.
  rewrite <- Ef, firstn_length. destruct (Nat.le_gt_cases 8 (List.length rest)) as [L|L].
  - rewrite Nat.min_l by lia. replace (8 + List.length rest)%nat with (8 + (List.length rest - 8) + 1 * 8)%nat by lia.
    now rewrite Nat.mod_add by lia.
  - rewrite Nat.min_r by lia. replace (List.length rest - 8)%nat with 0%nat by lia.
    replace (8 + List.length rest)%nat with (List.length rest + 0 + 1 * 8)%nat by lia. now rewrite Nat.mod_add by lia.
Qed.

Lemma magma_imit_exact d fuel data s w : R s w data -> data <> [] -> Forall u8 data ->
  (begun (List.length data) <= Pos.to_nat fuel)%nat -> (7 * begun (List.length data) + 16 <= d)%nat ->
  magma_imit_calls m rd d fuel s (Some k) w =
  (2 + 8 * begun (List.length data) + final_calls (Nat.eqb (List.length data mod 8) 0))%nat.
Proof.
  intros Hs Hne Hu Hf Hd. unfold magma_imit_calls. unfold mbind. change (N.of_nat block_size) with 8.
  destruct (HR s w data Hs) as (s1 & w1 & Er & R1). rewrite Er, mloop_nm.
  assert (Lr : (0 < List.length data)%nat) by (destruct data; [now elim Hne|cbn; lia]).
  rewrite (begun_step _ Lr) in *.
  destruct (loop_exact (Pos.to_nat fuel) (firstn 8 data) s1 (MRaw BlkRaw0) w1 (skipn 8 data) 1 0 R1)
    as (sz & blk & w' & v & H1 & H2 & H3 & H4 & H5 & H6);
    [rewrite firstn_length; lia|rewrite firstn_length; intros; apply skipn_all2; lia|now apply Forall_firstn
    |now apply Forall_skipn|apply costs_raw|reflexivity|reflexivity|rewrite skipn_length; lia|].
  rewrite skipn_length in *. unfold bytes in *. rewrite H1.
  assert (C : costs (MEncrypted (MXored blk (MFinalKey (Some k) sz)) (Some k))
                (6 + S (1 + 2 + 8 * begun (List.length data - 8) + final_calls (Nat.eqb sz 8)))).
  { apply costs_encrypted. eapply costs_xored; [exact H4|exact H2|apply costs_final]. }
  rewrite C by (cbn [mdepth] in *; lia).
  rewrite H6. replace (List.length (firstn 8 data) + (List.length data - 8))%nat with (List.length data)
    by (rewrite firstn_length; lia). lia.
Qed.
End Exact.
