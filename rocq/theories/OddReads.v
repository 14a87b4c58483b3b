(** The decrypting sources over an underlying source that answers read(8) with a number
    of bytes other than 8. *)
From Verif Require Import Base Text MagmaModel Streams SpecText SpecMagma SpecModes SpecStreams SpecMore.
From Verif Require Import Lib ByteProofs MagmaProofs MagmaSpecProofs SinkProofs SourceProofs StreamProofs StreamMore.
From Coq Require Import ZifyBool ZifyNat ZifyN.
Local Open Scope N_scope.

Section Odd.
Context {W St : Type} (rd : reader W St) (k : key) (E : N -> N).
Hypothesis HE : enciphers k E.

Lemma core_first {Reg} m (cur : Reg -> N) push size n s r w p s' w' u : 0 < size -> cur r < 2 ^ 64 ->
  rd s 8 w = (Ok (p, s'), w') -> p <> [] -> load_reg m p = Undef u ->
  nmloop (Datatypes.S n) (core_step rd m k cur push size) (s, [], r, []) w = (Undef u, w').
Proof.
  intros H Hr Er Hp Hl. cbn [nmloop core_step]. change (len (@nil N)) with 0.
  replace (0 <? size) with true by lia. cbn [drain]. replace (0 =? size) with false by lia.
  change (len (@nil N)) with 0. replace (0 =? size) with false by lia.
  destruct (HE (cur r) Hr) as [-> _]. unfold mbind, lift. cbn [halves]. rewrite Er.
  destruct p as [|a p]; [easy|]. now rewrite Hl.
Qed.

Lemma load_long m p : (8 < List.length p)%nat -> load_reg m p = Undef Overflow.
Proof. intros H. unfold load_reg. now replace (Nat.ltb 8 (List.length p)) with true by lia. Qed.

Lemma load_short p : (List.length p < 8)%nat -> load_reg ISO p = Undef OutOfBounds.
Proof.
  intros H. unfold load_reg, read8. replace (Nat.ltb 8 (List.length p)) with false by lia.
  now replace (Nat.leb 8 (List.length p)) with false by lia.
Qed.

Lemma magma_long m ivl ivr size s w p s' w' : 0 < size -> ivl < 2 ^ 64 ->
  rd s 8 w = (Ok (p, s'), w') -> (8 < List.length p)%nat ->
  magma_CFBSource_read rd m (magma_CFBSource_init s k ivl ivr) size w = (Undef Overflow, w').
Proof.
  intros H Hi Er Hp. rewrite magma_read_core. unfold mbind.
  unfold magma_CFBSource_init. cbn [mcr_source mcr_key mcr_ivl mcr_ivr mcr_plain].
  erewrite core_first; try eassumption; [reflexivity|now destruct p|now apply load_long].
Qed.

Lemma gost_long m iv size s w p s' w' : 0 < size -> iv < 2 ^ 64 ->
  rd s 8 w = (Ok (p, s'), w') -> (8 < List.length p)%nat ->
  gost_CFBSource_read rd m (gost_CFBSource_init s k iv) size w = (Undef Overflow, w').
Proof.
  intros H Hi Er Hp. rewrite gost_read_core. unfold mbind.
  unfold gost_CFBSource_init. cbn [gcr_source gcr_key gcr_iv gcr_plain].
  erewrite core_first; try eassumption; [reflexivity|now destruct p|now apply load_long].
Qed.

Lemma magma_short ivl ivr size s w p s' w' : 0 < size -> ivl < 2 ^ 64 ->
  rd s 8 w = (Ok (p, s'), w') -> (0 < List.length p < 8)%nat ->
  magma_CFBSource_read rd ISO (magma_CFBSource_init s k ivl ivr) size w = (Undef OutOfBounds, w').
Proof.
  intros H Hi Er Hp. rewrite magma_read_core. unfold mbind.
  unfold magma_CFBSource_init. cbn [mcr_source mcr_key mcr_ivl mcr_ivr mcr_plain].
  erewrite core_first; try eassumption; [reflexivity|destruct p; [cbn in Hp; lia|easy]|apply load_short; lia].
Qed.

Lemma gost_short iv size s w p s' w' : 0 < size -> iv < 2 ^ 64 ->
  rd s 8 w = (Ok (p, s'), w') -> (0 < List.length p < 8)%nat ->
  gost_CFBSource_read rd ISO (gost_CFBSource_init s k iv) size w = (Undef OutOfBounds, w').
Proof.
  intros H Hi Er Hp. rewrite gost_read_core. unfold mbind.
  unfold gost_CFBSource_init. cbn [gcr_source gcr_key gcr_iv gcr_plain].
  erewrite core_first; try eassumption; [reflexivity|destruct p; [cbn in Hp; lia|easy]|apply load_short; lia].
Qed.
End Odd.

Lemma In_firstn {A} (x : A) n l : In x (firstn n l) -> In x l.
Proof. rewrite <- (firstn_skipn n l) at 2. intros H. apply in_or_app. now left. Qed.

Lemma ecb_long {W St} (rd : reader W St) k D m size s w p s' w' : deciphers k D -> 8 <= size ->
  rd s 8 w = (Ok (p, s'), w') -> (8 < List.length p)%nat -> Forall u8 p ->
  ECBSource_read rd m (ECBSource s k) size w =
  (Ok (to_le 8 (D (of_le (firstn 8 p))) ++ skipn 8 p, ECBSource s' k), w').
Proof.
  intros HD H Er Hp Hu. unfold ECBSource_read.
  replace (size <? N.of_nat block_size) with false by (unfold block_size; lia).
  rewrite (mbind_ok _ _ _ _ _ Er). destruct p as [|a p]; [cbn in Hp; lia|].
  assert (Hq : List.length (firstn 8 (a :: p)) = 8%nat) by (rewrite firstn_length; lia).
  assert (Uq : Forall u8 (firstn 8 (a :: p))).
  { rewrite Forall_forall in *. intros x Hx. apply Hu. now apply In_firstn in Hx. }
  destruct (HD (of_le (firstn 8 (a :: p))) (of_le_8_lt _ Uq Hq)) as [E1 L1].
  unfold mbind, lift, read8. replace (Nat.leb 8 (List.length (a :: p))) with true by lia.
  rewrite BlkRaw_bytes_ok, E1 by assumption.
  set (x := D (of_le (firstn 8 (a :: p)))). change (halves x) with (fst (halves x), snd (halves x)).
  cbv iota beta. unfold write8. replace (Nat.leb 8 (List.length (a :: p))) with true by lia.
  rewrite to_le_halves. reflexivity.
Qed.
