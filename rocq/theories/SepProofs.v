(** Proofs about MACs of messages that differ in the size of their last block only. *)
From Verif Require Import Base MagmaModel KuzModel Streams Lib SpecMagma SpecKuz SpecModes SpecStreams SpecMac SpecIter
  MagmaProofs MagmaSpecProofs ByteProofs StreamProofs MacProofs KuzProofs KuzStreamProofs KeyMore.
From Coq Require Import ZifyNat ZifyN ZifyBool.
Local Open Scope N_scope.

(** ** Doubling has no fixed point but zero *)

Lemma double_bit n B y i : i < n -> N.testbit (double n B y) i =
  xorb (if i =? 0 then false else N.testbit y (i - 1)) (N.testbit y (n - 1) && N.testbit B i).
Proof.
  intros Hi. unfold double.
  assert (S : N.testbit ((2 * y) mod 2 ^ n) i = if i =? 0 then false else N.testbit y (i - 1)).
  { rewrite N.mod_pow2_bits_low by exact Hi. destruct (N.eqb_spec i 0) as [->|H].
    - now rewrite N.testbit_even_0.
    - replace i with (N.succ (i - 1)) at 1 by lia. now rewrite N.testbit_even_succ by lia. }
  destruct (N.testbit y (n - 1)).
  - rewrite N.lxor_spec, S. reflexivity.
  - rewrite S. cbn [andb]. now rewrite xorb_false_r.
Qed.

Lemma double_fix n B y : y < 2 ^ n -> 8 < n -> B < 256 -> N.testbit B 0 = true ->
  (B = 0x1b \/ B = 0x87) -> double n B y = y -> y = 0.
Proof.
  intros Hy Hn HB _ HC F.
  assert (S : forall i, i < n -> N.testbit y i =
    xorb (if i =? 0 then false else N.testbit y (i - 1)) (N.testbit y (n - 1) && N.testbit B i))
    by (intros i Hi; rewrite <- double_bit by exact Hi; now rewrite F).
  assert (H8 : forall i, 8 <= i -> N.testbit B i = false).
  { intros i Hi. destruct (N.eq_dec B 0) as [->|Hz]; [apply N.bits_0|]. apply N.bits_above_log2.
    apply N.lt_le_trans with 8; [|exact Hi]. apply N.log2_lt_pow2; [lia|exact HB]. }
  assert (Up : forall d, 7 + N.of_nat d < n -> N.testbit y (7 + N.of_nat d) = N.testbit y 7).
  { induction d as [|d IH]; intros Hd; [reflexivity|]. rewrite (S (7 + N.of_nat (Datatypes.S d)) Hd).
    replace (7 + N.of_nat (Datatypes.S d) =? 0) with false by lia.
    replace (7 + N.of_nat (Datatypes.S d) - 1) with (7 + N.of_nat d) by lia.
    rewrite IH by lia. rewrite H8 by lia. now rewrite andb_false_r, xorb_false_r. }
  assert (Small : forall i, i < 8 -> i < n) by (clear - Hn; intros i Hi; lia).
  pose proof (S 0 (Small 0 eq_refl)) as S0. pose proof (S 1 (Small 1 eq_refl)) as S1.
  pose proof (S 2 (Small 2 eq_refl)) as S2. pose proof (S 3 (Small 3 eq_refl)) as S3.
  pose proof (S 4 (Small 4 eq_refl)) as S4. pose proof (S 5 (Small 5 eq_refl)) as S5.
  pose proof (S 6 (Small 6 eq_refl)) as S6. pose proof (S 7 (Small 7 eq_refl)) as S7.
  assert (T : N.testbit y (n - 1) = N.testbit y 7).
  { rewrite <- (Up (N.to_nat (n - 8))) by (clear - Hn; lia). f_equal. clear - Hn. lia. }
  assert (Z : N.testbit y (n - 1) = false).
  { destruct HC as [-> | ->]; change (N.testbit y (0 - 1)) with (N.testbit y 0) in S0;
    change (1 - 1) with 0 in S1; change (2 - 1) with 1 in S2; change (3 - 1) with 2 in S3;
    change (4 - 1) with 3 in S4; change (5 - 1) with 4 in S5; change (6 - 1) with 5 in S6;
    change (7 - 1) with 6 in S7; cbn [N.eqb Pos.eqb] in *;
    rewrite S6, S5, S4, S3, S2, S1, S0 in S7; rewrite S7 in T; clear - T;
    destruct (N.testbit y (n - 1)); cbn in T; congruence. }
  apply N.bits_inj_0. intros i. destruct (N.lt_ge_cases i n) as [Hi|Hi].
  - rewrite <- (N2Nat.id i) in *. generalize dependent (N.to_nat i). clear i.
    induction n0 as [|j IH]; intros Hi.
    + rewrite (S (N.of_nat 0) Hi), Z. reflexivity.
    + rewrite (S (N.of_nat (Datatypes.S j)) Hi), Z.
      replace (N.of_nat (Datatypes.S j) =? 0) with false by (clear; lia).
      replace (N.of_nat (Datatypes.S j) - 1) with (N.of_nat j) by (clear; lia).
      rewrite IH by (clear - Hi; lia). reflexivity.
  - destruct (N.eq_dec y 0) as [->|Hz]; [apply N.bits_0|]. apply N.bits_above_log2.
    apply N.lt_le_trans with n; [|exact Hi]. apply N.log2_lt_pow2; [clear - Hz; lia|exact Hy].
Qed.

Lemma double_zero n B y : y < 2 ^ n -> 8 < n -> (B = 0x1b \/ B = 0x87) -> double n B y = 0 -> y = 0.
Proof.
  intros Hy Hn HC F.
  assert (S : forall i, i < n -> false =
    xorb (if i =? 0 then false else N.testbit y (i - 1)) (N.testbit y (n - 1) && N.testbit B i))
    by (intros i Hi; rewrite <- double_bit by exact Hi; rewrite F; symmetry; apply N.bits_0).
  assert (Z : N.testbit y (n - 1) = false).
  { assert (H0 : 0 < n) by (clear - Hn; lia). pose proof (S 0 H0) as S0. cbn [N.eqb] in S0.
    destruct HC as [-> | ->]; destruct (N.testbit y (n - 1)); cbn in S0; congruence. }
  apply N.bits_inj_0. intros i. destruct (N.lt_ge_cases (i + 1) n) as [Hi|Hi].
  - specialize (S (i + 1) Hi). rewrite Z in S. replace (i + 1 =? 0) with false in S by (clear; lia).
    replace (i + 1 - 1) with i in S by (clear; lia). cbn [andb] in S. now rewrite xorb_false_r in S.
  - destruct (N.eq_dec i (n - 1)) as [->|Hne]; [exact Z|].
    destruct (N.eq_dec y 0) as [->|Hz]; [apply N.bits_0|]. apply N.bits_above_log2.
    apply N.lt_le_trans with n; [|clear - Hi Hne; lia]. apply N.log2_lt_pow2; [clear - Hz; lia|exact Hy].
Qed.

Lemma keys_equal E n B : E 0 < 2 ^ n -> 8 < n -> (B = 0x1b \/ B = 0x87) -> K1 E n B = K2 E n B <-> E 0 = 0.
Proof.
  intros HE Hn HC. unfold K2, K1.
  assert (HB : B < 2 ^ n).
  { apply N.lt_le_trans with (2 ^ 8); [destruct HC as [-> | ->]; reflexivity|]. apply N.pow_le_mono_r; lia. }
  split.
  - intros H. symmetry in H. apply double_fix in H; try assumption; try (destruct HC as [-> | ->]; reflexivity).
    + now apply (double_zero n B).
    + now apply double_lt.
  - intros ->.
    assert (Z : double n B 0 = 0).
    { unfold double. rewrite N.bits_0. cbn [N.mul]. apply N.mod_0_l. apply N.pow_nonzero. discriminate. }
    now rewrite !Z.
Qed.

(** ** The mask decides *)

Lemma lxor_cancel a b c : N.lxor a b = N.lxor a c -> b = c.
Proof.
  intros H. assert (G : N.lxor a (N.lxor a b) = N.lxor a (N.lxor a c)) by now rewrite H.
  now rewrite <- !N.lxor_assoc, N.lxor_nilpotent, !N.lxor_0_l in G.
Qed.

Lemma cbc_mask E n (Hlt : forall x, x < 2 ^ n -> E x < 2 ^ n)
  (Hinj : forall x y, x < 2 ^ n -> y < 2 ^ n -> E x = E y -> x = y) K K' : K < 2 ^ n -> K' < 2 ^ n ->
  forall ps s, ps <> [] -> s < 2 ^ n -> Forall (fun x => x < 2 ^ n) ps ->
  cbc_mac E K s ps = cbc_mac E K' s ps <-> K = K'.
Proof.
  intros HK HK'. induction ps as [|p ps IH]; intros s Hne Hs Hp; [congruence|].
  inversion Hp as [|? ? Hp1 Hp2]; subst. destruct ps as [|q ps].
  - cbn [cbc_mac]. split; [|now intros ->]. intros H. apply Hinj in H.
    + now apply lxor_cancel in H.
    + now apply lxor_lt; [apply lxor_lt|].
    + now apply lxor_lt; [apply lxor_lt|].
  - change (cbc_mac E K s (p :: q :: ps)) with (cbc_mac E K (E (N.lxor s p)) (q :: ps)).
    change (cbc_mac E K' s (p :: q :: ps)) with (cbc_mac E K' (E (N.lxor s p)) (q :: ps)).
    apply IH; [discriminate|now apply Hlt, lxor_lt|exact Hp2].
Qed.

(** ** kuznyechik::Imit *)

Lemma kimit_sizes {I J} (ops : iter_ops I) (ops' : iter_ops J) k E m ps p q fuel fuel' sz sz' :
  kuz_enciphers k E -> Forall (fun x => x < 2 ^ 128) ps ->
  presents ops p (map kpair ps) -> presents ops' q (map kpair ps) ->
  size_at ops p (List.length ps - 1) = Ok sz -> size_at ops' q (List.length ps - 1) = Ok sz' ->
  (List.length ps <= fuel)%nat -> (List.length ps <= fuel')%nat ->
  sz <> 16 -> sz' <> 16 ->
  exists t, KImit fuel m ops p k = Ok t /\ KImit fuel' m ops' q k = Ok t.
Proof.
  intros HE Hp P1 P2 S1 S2 F1 F2 N1 N2.
  rewrite (kimit_ok ops k E HE m ps p fuel sz), (kimit_ok ops' k E HE m ps q fuel' sz') by assumption.
  apply N.eqb_neq in N1, N2. rewrite N1, N2. eauto.
Qed.

Lemma kimit_complete {I J} (ops : iter_ops I) (ops' : iter_ops J) k K m ps p q fuel fuel' sz :
  K < 2 ^ 256 -> kuz_enciphers k (Kuz_E K) -> Forall (fun x => x < 2 ^ 128) ps ->
  presents ops p (map kpair ps) -> presents ops' q (map kpair ps) ->
  size_at ops p (List.length ps - 1) = Ok 16 -> size_at ops' q (List.length ps - 1) = Ok sz ->
  (List.length ps <= fuel)%nat -> (List.length ps <= fuel')%nat -> sz <> 16 ->
  exists a b, KImit fuel m ops p k = Ok a /\ KImit fuel' m ops' q k = Ok b /\ (a = b <-> Kuz_E K 0 = 0).
Proof.
  intros HK HE Hp P1 P2 S1 S2 F1 F2 N2.
  rewrite (kimit_ok ops k _ HE m ps p fuel 16), (kimit_ok ops' k _ HE m ps q fuel' sz) by assumption.
  apply N.eqb_neq in N2. rewrite N2. change (16 =? 16) with true. cbv iota.
  do 2 eexists. split; [reflexivity|]. split; [reflexivity|].
  assert (Hne : ps <> []) by (intros ->; destruct P1 as [P1 _]; now apply P1).
  rewrite <- (keys_equal (Kuz_E K) 128 0x87); [|now apply Kuz_E_lt|reflexivity|now right].
  rewrite <- (cbc_mask (Kuz_E K) 128 (fun x => Kuz_E_lt K x HK) (fun x y => Kuz_E_inj K x y HK)
                (K1 (Kuz_E K) 128 0x87) (K2 (Kuz_E K) 128 0x87) (K1_128_lt _) (K2_128_lt _) ps 0 Hne
                ltac:(reflexivity) Hp).
  split; [apply kpair_inj|now intros ->].
Qed.

(** ** magma::Imit *)

Lemma fill_blocks d : (List.length d mod 8 <> 0)%nat ->
  blocks8 (d ++ repeat 0 (8 - List.length d mod 8)) = blocks8 d /\
  (List.length (d ++ repeat 0%N (8 - List.length d mod 8)) mod 8 = 0)%nat /\
  (List.length (d ++ repeat 0%N (8 - List.length d mod 8)) / 8 = List.length d / 8 + 1)%nat.
Proof.
  intros Hd. pose proof (Nat.div_mod (List.length d) 8 ltac:(lia)) as D.
  pose proof (Nat.mod_upper_bound (List.length d) 8 ltac:(lia)) as U.
  rewrite app_length, repeat_length.
  set (q := (List.length d / 8)%nat) in *. set (r := (List.length d mod 8)%nat) in *.
  assert (T : (List.length d + (8 - r) = (q + 1) * 8)%nat) by lia.
  assert (M : ((List.length d + (8 - r)) mod 8 = 0)%nat) by (rewrite T; apply Nat.mod_mul; lia).
  assert (Q : ((List.length d + (8 - r)) / 8 = q + 1)%nat) by (rewrite T; apply Nat.div_mul; lia).
  split; [|now split]. rewrite (blocks8_zero_fill (List.length d)) by (lia || exact M).
  rewrite Q. replace ((List.length d + 7) / 8)%nat with (q + 1)%nat.
  - rewrite Nat.sub_diag. cbn [repeat]. now rewrite app_nil_r.
  - apply (Nat.div_unique _ 8 _ (r - 1)); lia.
Qed.

Lemma x86_complete k E d : enciphers k E -> Forall u8 d -> (d = [] \/ List.length d mod 8 <> 0)%nat ->
  imit_x86 E (d ++ repeat 0 (8 - List.length d mod 8)) = imit_x86 E d <-> E 0 = 0.
Proof.
  intros HE Hu Hd.
  assert (L0 : E 0 < 2 ^ 64) by (apply (enciphers_lt _ _ HE); reflexivity).
  rewrite <- (keys_equal E 64 0x1b L0) by (reflexivity || now left).
  assert (G : forall ps, ps <> [] -> Forall (fun x => x < 2 ^ 64) ps ->
    cbc_mac E (K1 E 64 0x1b) 0 ps = cbc_mac E (K2 E 64 0x1b) 0 ps <-> K1 E 64 0x1b = K2 E 64 0x1b).
  { intros ps Hn Hp. apply (cbc_mask E 64); try assumption; try reflexivity.
    - exact (enciphers_lt _ _ HE).
    - exact (enciphers_inj _ _ HE).
    - apply K1_lt.
    - apply K2_lt. }
  destruct Hd as [-> | Hd].
  - apply (G [0]); [discriminate|repeat constructor].
  - destruct (fill_blocks d Hd) as (B & M & _). unfold imit_x86.
    destruct d as [|x d']; [cbn in Hd; congruence|]. set (d := x :: d') in *.
    replace (d ++ repeat 0 (8 - List.length d mod 8)) with (x :: (d' ++ repeat 0 (8 - List.length d mod 8))) in *
      by reflexivity.
    rewrite M. apply Nat.eqb_neq in Hd.
    change (match d with [] => _ | _ => _ end) with
      (cbc_mac E (if Nat.eqb (List.length d mod 8) 0 then K1 E 64 0x1b else K2 E 64 0x1b) 0 (blocks8 d)).
    rewrite Hd, B. cbn [Nat.eqb]. apply G; [|now apply blocks8_bound].
    unfold blocks8, d. discriminate.
Qed.

Lemma imit_complete {W St} (rd : reader W St) g (R : St -> W -> bytes -> Prop) k E s1 s2 w1 w2 d fuel :
  enciphers (KLazy k) E -> delivers8 rd R -> R s1 w1 d ->
  R s2 w2 (d ++ repeat 0 (8 - List.length d mod 8)) -> Forall u8 d ->
  (d = [] \/ List.length d mod 8 <> 0)%nat -> (List.length d / 8 + 2 <= Pos.to_nat fuel)%nat ->
  exists a b w1' w2',
    magma_Imit rd (X86 g) fuel s1 (Some k) w1 = (Ok a, w1') /\
    magma_Imit rd (X86 g) fuel s2 (Some k) w2 = (Ok b, w2') /\ (a = b <-> E 0 = 0).
Proof.
  intros HE HR H1 H2 Hu Hd Hf.
  destruct (imit_delivers rd g R k E s1 w1 d fuel) as [w1' E1]; try assumption; [lia|].
  destruct (imit_delivers rd g R k E s2 w2 _ fuel HE HR H2) as [w2' E2].
  - apply Forall_app. split; [assumption|].
    apply Forall_forall. intros x Hx. apply repeat_spec in Hx. subst. reflexivity.
  - destruct Hd as [-> | Hd]; [cbn in *; lia|]. destruct (fill_blocks d Hd) as (_ & _ & ->). lia.
  - rewrite mac_of_x86 in E1, E2. do 4 eexists. split; [exact E1|]. split; [exact E2|].
    rewrite <- (x86_complete _ E d HE Hu Hd). split; [|now intros ->].
    intros C. now apply halves_inj in C.
Qed.
