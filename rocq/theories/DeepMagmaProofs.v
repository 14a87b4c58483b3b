(** Proofs about DeepMagma.v: the objects of magma::Imit compute what Streams.v says
    when the stack is deep enough, and how deep it must be. *)
From Verif Require Import Base MagmaModel Streams DeepMagma Lib SpecModes SpecStreams ByteProofs SourceProofs MacProofs.
From Coq Require Import ZifyNat ZifyN ZifyBool Lia.
Local Open Scope N_scope.
Ltac Zify.zify_post_hook ::= idtac.

Section Proofs.
Context (m : mode).

Fixpoint msem (o : mblk) : block :=
  match o with
  | MRaw r => r
  | MXored a b => BlkXored (msem a) (msem b)
  | MShifted a n => BlkShifted m (msem a) n
  | MSwapped a => BlkSwapped (msem a)
  | MForwarded a k => BlkForwarded (msem a) k
  | MBackwarded a k => BlkBackwarded (msem a) k
  | MEncrypted a k => BlkEncrypted (msem a) k
  | MImitShifted a => BlkImitShifted m (msem a)
  | MFinalKey k size => BlkImitFinalKey m k size
  end.

Fixpoint mdepth (o : mblk) : nat :=
  match o with
  | MRaw _ => 1
  | MXored a b => 1 + Nat.max (mdepth a) (mdepth b)
  | MShifted a _ | MSwapped a | MForwarded a _ | MBackwarded a _ => 1 + mdepth a
  | MEncrypted a _ => 6 + mdepth a
  | MImitShifted a => 3 + mdepth a
  | MFinalKey _ _ => 14
  end.

Lemma mdepth_pos o : (1 <= mdepth o)%nat.
Proof. destruct o; cbn [mdepth]; lia. Qed.

Lemma mvalue_sem d : forall o, (mdepth o <= d)%nat -> mvalue m d o = msem o.
Proof.
  induction d as [|d IH]; intros o Hd; [pose proof (mdepth_pos o); lia|].
  destruct o; cbn [mvalue msem]; cbn [mdepth] in Hd; try reflexivity.
  - rewrite !IH by lia. destruct (msem o1) as [[? ?]| | |]; reflexivity.
  - rewrite IH by lia. now destruct (msem o) as [[? ?]| | |].
  - rewrite IH by lia. now destruct (msem o) as [[? ?]| | |].
  - rewrite IH by lia. now destruct (msem o) as [[? ?]| | |].
  - rewrite IH by lia. now destruct (msem o) as [[? ?]| | |].
  - rewrite IH by (cbn [mdepth]; lia). reflexivity.
  - pose proof (mdepth_pos o). rewrite (IH o), (IH (MShifted o 1)), (IH (MXored _ _)) by (cbn [mdepth]; lia).
    cbn [msem]. unfold BlkImitShifted. now destruct (msem o) as [[? ?]| | |].
  - cbv zeta. rewrite !IH by (cbn [mdepth]; lia). reflexivity.
Qed.

(** The first chain of calls. *)
Fixpoint mspine (o : mblk) : nat :=
  match o with
  | MRaw _ | MFinalKey _ _ => 1
  | MXored a _ | MShifted a _ | MSwapped a | MForwarded a _ | MBackwarded a _ | MImitShifted a => 1 + mspine a
  | MEncrypted a _ => 6 + mspine a
  end.

Lemma mspine_overflow d : forall o, (d < mspine o)%nat -> mvalue m d o = OutOfFuel.
Proof.
  induction d as [|d IH]; intros o Hd; [reflexivity|].
  destruct o; cbn [mvalue]; cbn [mspine] in Hd; try lia; try (rewrite IH by lia; reflexivity).
  apply IH. cbn [mspine]. lia.
Qed.

Context {W St : Type} (rd : reader W St).

Definition sem_state (x : bytes * St * mblk) : bytes * St * block :=
  let '(b, s, o) := x in (b, s, msem o).
Definition sem_pair (x : mblk * mblk) : block * block := (msem (fst x), msem (snd x)).

Lemma step_sem k x w :
  imit_step rd m k (sem_state x) w =
  (y <-- dm_imit_step m rd k x ;;
   mret match y with inl s => inl (sem_state s) | inr p => inr (sem_pair p) end) w.
Proof.
  destruct x as [[b s] o]. cbn [sem_state]. unfold imit_step, dm_imit_step.
  unfold mbind, lift. destruct (imit_load m b) as [v| | |]; try reflexivity.
  destruct (Nat.ltb _ _); [reflexivity|].
  destruct (rd s _ w) as [[[b' s']| | |] w']; try reflexivity.
  destruct b'; reflexivity.
Qed.

Lemma loop_sem k n : forall x w,
  nmloop n (imit_step rd m k) (sem_state x) w =
  (y <-- nmloop n (dm_imit_step m rd k) x ;; mret (sem_pair y)) w.
Proof.
  induction n as [|n IH]; intros x w; [reflexivity|]. cbn [nmloop].
  unfold mbind at 1. rewrite step_sem. unfold mbind.
  destruct (dm_imit_step m rd k x w) as [[[y|p]| | |] w']; cbn [mret]; try reflexivity.
  rewrite IH. reflexivity.
Qed.

(** What the loop has built after at most [n] iterations. *)
Lemma loop_depth k n : forall b s o w fk blk w',
  nmloop n (dm_imit_step m rd k) (b, s, o) w = (Ok (fk, blk), w') ->
  (mdepth blk <= mdepth o + 7 * n /\ mdepth fk = 14)%nat.
Proof.
  induction n as [|n IH]; intros b s o w fk blk w'; [discriminate|]. cbn [nmloop].
  unfold dm_imit_step, mbind, lift. destruct (imit_load m b) as [v| | |]; try discriminate.
  pose proof (mdepth_pos o) as Hp.
  destruct (Nat.ltb _ _).
  { intros H. injection H as <- <- _. cbn [mdepth]. lia. }
  destruct (rd s _ w) as [[[b' s']| | |] w1]; try discriminate.
  destruct b' as [|y b'].
  { intros H. injection H as <- <- _. cbn [mdepth]. lia. }
  intros H. apply IH in H. cbn [mdepth] in H. lia.
Qed.

Lemma dm_imit_enough d fuel data k w : (7 * Pos.to_nat fuel + 21 <= d)%nat ->
  dm_imit m rd d fuel data k w = magma_Imit rd m fuel data k w.
Proof.
  intros Hd. unfold dm_imit, magma_Imit. unfold mbind at 1 3.
  destruct (rd data _ w) as [[[b s]| | |] w1]; try reflexivity.
  unfold mbind. rewrite !mloop_nm.
  change (b, s, BlkRaw0) with (sem_state (b, s, MRaw BlkRaw0)). rewrite loop_sem. unfold mbind.
  destruct (nmloop _ (dm_imit_step m rd k) _ w1) as [[[fk blk]| | |] w2] eqn:E; try reflexivity.
  apply loop_depth in E. cbn [mdepth] in E. cbn [mret sem_pair fst snd].
  rewrite mvalue_sem; [reflexivity|]. cbn [mdepth]. lia.
Qed.

Lemma loop_spine k t s1 s2 w1 w2 : rd s1 8 w1 = (Ok (t, s2), w2) -> (List.length t < 8)%nat ->
  forall bs b s w o n, List.length b = 8%nat -> Forall (fun b => List.length b = 8%nat) bs ->
  reads rd s (repeat 8 (List.length bs)) w = (Ok (bs, s1), w1) -> (List.length bs + 2 <= n)%nat ->
  exists fk blk, nmloop n (dm_imit_step m rd k) (b, s, o) w = (Ok (fk, blk), w2) /\
                 (7 * List.length bs + 1 + mspine o <= mspine blk)%nat.
Proof.
  intros Ht Lt. induction bs as [|c bs IH]; intros b s w o n Hb Hbs Hr Hn.
  - injection Hr as -> ->. destruct n as [|n]; [lia|]. cbn [nmloop]. unfold dm_imit_step at 1.
    rewrite imit_load_ok by lia. unfold mbind at 1 2. cbn [lift].
    replace (Nat.ltb (List.length b) block_size) with false by (unfold block_size; lia).
    unfold mbind at 1. change (N.of_nat block_size) with 8. rewrite Ht.
    destruct t as [|y t].
    + eexists _, _. split; [reflexivity|]. cbn [mspine List.length]. lia.
    + destruct n as [|n]; [cbn in Hn; lia|].
      cbn [mret nmloop]. unfold dm_imit_step at 1. rewrite imit_load_ok by (cbn [List.length] in *; lia).
      unfold mbind at 1 2. cbn [lift].
      replace (Nat.ltb (List.length (y :: t)) block_size) with true by (unfold block_size; lia).
      eexists _, _. split; [reflexivity|]. cbn [mspine List.length]. lia.
  - cbn [List.length repeat] in Hr. apply reads_cons in Hr.
    destruct Hr as (c' & bs' & s3 & w3 & E1 & Hr1 & Hr2). injection E1 as <- <-.
    inversion Hbs as [|? ? Hc Hbs']; subst. cbn [List.length] in Hn.
    destruct n as [|n]; [lia|]. cbn [nmloop]. unfold dm_imit_step at 1.
    rewrite imit_load_ok by lia. unfold mbind at 1 2. cbn [lift].
    replace (Nat.ltb (List.length b) block_size) with false by (unfold block_size; lia).
    unfold mbind at 1. change (N.of_nat block_size) with 8. rewrite Hr1.
    destruct c as [|y c]; [discriminate|]. cbn [mret].
    destruct (IH (y :: c) s3 w3 (MEncrypted (MXored o (MRaw (BlkRaw64 (of_le b)))) k) n)
      as (fk & blk & H1 & H2); try assumption; [lia|].
    exists fk, blk. split; [exact H1|]. cbn [List.length mspine] in *. lia.
Qed.

Lemma dm_imit_overflow d fuel data k bs t s1 s2 w w1 w2 :
  bs <> [] -> Forall (fun b => List.length b = 8%nat) bs ->
  reads rd data (repeat 8 (List.length bs)) w = (Ok (bs, s1), w1) ->
  rd s1 8 w1 = (Ok (t, s2), w2) -> (List.length t < 8)%nat ->
  (List.length bs + 1 <= Pos.to_nat fuel)%nat -> (d <= 7 * List.length bs + 1)%nat ->
  dm_imit m rd d fuel data k w = (OutOfFuel, w2).
Proof.
  intros Hne Hbs Hr Ht Lt Hf Hd. destruct bs as [|b bs]; [congruence|].
  cbn [List.length repeat] in *. apply reads_cons in Hr.
  destruct Hr as (b' & bs' & s3 & w3 & E1 & Hr1 & Hr2). injection E1 as <- <-.
  inversion Hbs as [|? ? Hb Hbs']; subst. unfold dm_imit. change (N.of_nat block_size) with 8.
  unfold mbind at 1. rewrite Hr1. unfold mbind. rewrite mloop_nm.
  destruct (loop_spine k t s1 s2 w1 w2 Ht Lt bs b s3 w3 (MRaw BlkRaw0) (Pos.to_nat fuel))
    as (fk & blk & Hl & H); try assumption; [lia|].
  unfold bytes in *. rewrite Hl. unfold lift. rewrite mspine_overflow; [reflexivity|]. cbn [mspine] in *. lia.
Qed.

Lemma dm_imit_overflow_data (R : St -> W -> bytes -> Prop) d fuel data k s w :
  delivers8 rd R -> R s w data -> (8 <= List.length data)%nat ->
  (List.length data / 8 + 1 <= Pos.to_nat fuel)%nat -> (d <= 7 * (List.length data / 8) + 1)%nat ->
  exists w', dm_imit m rd d fuel s k w = (OutOfFuel, w').
Proof.
  intros HR Hs Hn Hf Hd.
  destruct (delivers8_pieces rd R HR (List.length data / 8) s w data Hs) as (bs & s1 & w1 & E1 & R1 & L1 & C1 & F1).
  { pose proof (Nat.div_mod (List.length data) 8). lia. }
  destruct (HR s1 w1 _ R1) as (s2 & w2 & E2 & R2).
  fold (leftover data) in E2.
  pose proof (leftover_length data) as Ll. rewrite firstn_all2 in E2 by lia.
  pose proof (Nat.div_le_mono 8 (List.length data) 8 ltac:(lia) Hn) as H1. change (8 / 8)%nat with 1%nat in H1.
  exists w2. rewrite <- L1 in *. apply (dm_imit_overflow d fuel s k bs (leftover data) s1 s2 w w1 w2); try assumption.
  - intros ->. cbn in H1. lia.
Qed.
End Proofs.
