(** Proofs about the substitution tables of Magma. *)
From Verif Require Import Base Text MagmaModel Lib SpecMagma.
From Coq Require Import ZifyNat ZifyN ZifyBool.
Local Open Scope N_scope.

Lemma table_nth tb i : nibble_table tb -> nth i tb 0 < 16.
Proof.
  intros [Hl Hf]. destruct (Nat.lt_ge_cases i (List.length tb)) as [H|H].
  - rewrite Forall_forall in Hf. apply Hf, nth_In, H.
  - rewrite nth_overflow by assumption. reflexivity.
Qed.

Lemma at_ok {A} (l : list A) i d : i < len l -> at_ l i = Ok (nth (N.to_nat i) l d).
Proof.
  intros H. unfold at_. rewrite (proj2 (N.ltb_lt _ _) H).
  rewrite nth_error_nth' with (d := d); [reflexivity|]. unfold len in H. lia.
Qed.

Lemma at_map_table tb i :
  nibble_table tb -> i < 16 ->
  at_ (map Z.of_N tb) i = Ok (Z.of_N (nth (N.to_nat i) tb 0)).
Proof.
  intros [Hl _] Hi. rewrite at_ok with (d := Z.of_N 0).
  - now rewrite map_nth.
  - unfold len. rewrite map_length, Hl. exact Hi.
Qed.

Lemma land15 x : N.land x 15 = x mod 16.
Proof. change 15 with (N.ones 4). apply N.land_ones. Qed.

Lemma nibble_transformN_ok v tb k :
  nibble_table tb -> k < 8 ->
  nibble_transformN v (map Z.of_N tb) k =
  Ok (nth (N.to_nat (v / 2 ^ (4 * k) mod 16)) tb 0 * 2 ^ (4 * k)).
Proof.
  intros Ht Hk. unfold nibble_transformN. cbv zeta.
  rewrite land15, N.shiftr_div_pow2, (N.mul_comm k).
  rewrite at_map_table; [|assumption|apply N.mod_lt; discriminate].
  cbn [bind]. f_equal.
  pose proof (table_nth tb (N.to_nat (v / 2 ^ (4 * k) mod 16)) Ht) as He.
  set (e := nth _ tb 0) in *. unfold u32_of_int.
  rewrite Z.mod_small by (change (2 ^ 32)%Z with 4294967296%Z; lia).
  rewrite N2Z.id, N.shiftl_mul_pow2. apply w32_id.
  assert (2 ^ (4 * k) <= 2 ^ 28) by (apply N.pow_le_mono_r; lia).
  change (2 ^ 28) with 268435456 in *. change (2 ^ 32) with 4294967296. nia.
Qed.

Lemma lor_add_l a d n : a < 2 ^ n -> N.lor a (d * 2 ^ n) = d * 2 ^ n + a.
Proof.
  intros H. rewrite <- (lor_shiftl_add d a n H), N.shiftl_mul_pow2. apply N.lor_comm.
Qed.

Lemma div16_div16 v k : v / 2 ^ k / 16 = v / 2 ^ (k + 4).
Proof.
  rewrite N.pow_add_r. change (2 ^ 4) with 16.
  apply N.div_div; [apply N.pow_nonzero|]; discriminate.
Qed.

(** The eight digits of the specification as explicit quotients. *)
Lemma subst_digits_8 t0 t1 t2 t3 t4 t5 t6 t7 v :
  subst_digits [t0; t1; t2; t3; t4; t5; t6; t7] v =
  nth (N.to_nat (v / 2 ^ 0 mod 16)) t0 0 +
  16 * (nth (N.to_nat (v / 2 ^ 4 mod 16)) t1 0 +
  16 * (nth (N.to_nat (v / 2 ^ 8 mod 16)) t2 0 +
  16 * (nth (N.to_nat (v / 2 ^ 12 mod 16)) t3 0 +
  16 * (nth (N.to_nat (v / 2 ^ 16 mod 16)) t4 0 +
  16 * (nth (N.to_nat (v / 2 ^ 20 mod 16)) t5 0 +
  16 * (nth (N.to_nat (v / 2 ^ 24 mod 16)) t6 0 +
  16 * (nth (N.to_nat (v / 2 ^ 28 mod 16)) t7 0))))))).
Proof.
  cbn [subst_digits].
  replace (v / 16) with (v / 2 ^ 4) by reflexivity.
  rewrite !div16_div16. cbn [N.add].
  replace (v / 2 ^ 0) with v by (rewrite N.pow_0_r, N.div_1_r; reflexivity).
  rewrite N.mul_0_r, N.add_0_r. reflexivity.
Qed.

Lemma sum_digits d0 d1 d2 d3 d4 d5 d6 d7 :
  d0 < 16 -> d1 < 16 -> d2 < 16 -> d3 < 16 -> d4 < 16 -> d5 < 16 -> d6 < 16 -> d7 < 16 ->
  N.lor (N.lor (N.lor (N.lor (N.lor (N.lor (N.lor (d0 * 2 ^ 0) (d1 * 2 ^ 4)) (d2 * 2 ^ 8))
    (d3 * 2 ^ 12)) (d4 * 2 ^ 16)) (d5 * 2 ^ 20)) (d6 * 2 ^ 24)) (d7 * 2 ^ 28) =
  d0 + 16 * (d1 + 16 * (d2 + 16 * (d3 + 16 * (d4 + 16 * (d5 + 16 * (d6 + 16 * d7)))))).
Proof.
  intros. change (2 ^ 0) with 1. rewrite N.mul_1_r.
  rewrite (lor_add_l d0) by (change (2 ^ 4) with 16; lia).
  rewrite (lor_add_l (_ + d0)) by (change (2 ^ 4) with 16; change (2 ^ 8) with 256; lia).
  repeat match goal with
  | |- context [N.lor (?a * ?p + ?b) (?d * 2 ^ ?n)] =>
      rewrite (lor_add_l (a * p + b) d n)
        by (change (2 ^ 4) with 16; change (2 ^ 8) with 256; change (2 ^ 12) with 4096;
            change (2 ^ 16) with 65536; change (2 ^ 20) with 1048576;
            change (2 ^ 24) with 16777216; change (2 ^ 28) with 268435456; lia)
  end.
  change (2 ^ 4) with 16; change (2 ^ 8) with 256; change (2 ^ 12) with 4096;
  change (2 ^ 16) with 65536; change (2 ^ 20) with 1048576;
  change (2 ^ 24) with 16777216; change (2 ^ 28) with 268435456. lia.
Qed.

Lemma SboxNibble_ok t0 t1 t2 t3 t4 t5 t6 t7 v :
  nibble_table t0 -> nibble_table t1 -> nibble_table t2 -> nibble_table t3 ->
  nibble_table t4 -> nibble_table t5 -> nibble_table t6 -> nibble_table t7 ->
  SboxNibble (map Z.of_N t0) (map Z.of_N t1) (map Z.of_N t2) (map Z.of_N t3)
             (map Z.of_N t4) (map Z.of_N t5) (map Z.of_N t6) (map Z.of_N t7) v
  = Ok (subst_digits [t0; t1; t2; t3; t4; t5; t6; t7] v).
Proof.
  intros H0 H1 H2 H3 H4 H5 H6 H7. unfold SboxNibble.
  rewrite !nibble_transformN_ok by (assumption || reflexivity).
  cbn [bind]. f_equal.
  change (4 * 0) with 0; change (4 * 1) with 4; change (4 * 2) with 8; change (4 * 3) with 12;
  change (4 * 4) with 16; change (4 * 5) with 20; change (4 * 6) with 24; change (4 * 7) with 28.
  rewrite sum_digits by (apply table_nth; assumption).
  rewrite subst_digits_8. reflexivity.
Qed.

(** ** Rotation *)

Lemma rotl11_ok tmp :
  tmp < 2 ^ 32 ->
  N.lor (w32 (N.shiftl tmp 11)) (N.land (N.shiftr tmp 21) 0x7ff) = rotl11 tmp.
Proof.
  intros H. unfold rotl11, w32.
  assert (Hr : N.shiftr tmp 21 < 2 ^ 11) by (apply shiftr_lt; exact H).
  change 0x7ff with (N.ones 11). rewrite N.land_ones, (N.mod_small _ _ Hr).
  rewrite N.shiftl_mul_pow2.
  change (2 ^ 32) with (2 ^ 21 * 2 ^ 11).
  rewrite N.mul_mod_distr_r by discriminate.
  rewrite <- N.shiftl_mul_pow2, lor_shiftl_add by exact Hr.
  rewrite N.shiftl_mul_pow2, N.shiftr_div_pow2. reflexivity.
Qed.

Lemma rotl11_lt x : x < 2 ^ 32 -> rotl11 x < 2 ^ 32.
Proof.
  intros H. rewrite <- rotl11_ok by exact H. apply lor_lt; [apply w32_lt|].
  apply land_lt_r. reflexivity.
Qed.

Definition rotr11 (x : N) : N := (x * 2 ^ 21) mod 2 ^ 32 + x / 2 ^ 11.

Lemma rotr11_rotl11 x : x < 2 ^ 32 -> rotr11 (rotl11 x) = x.
Proof.
  intros H. unfold rotl11, rotr11.
  change (2 ^ 11) with 2048 in *. change (2 ^ 21) with 2097152 in *.
  change (2 ^ 32) with 4294967296 in *. lia.
Qed.

Lemma rotl11_rotr11 x : x < 2 ^ 32 -> rotl11 (rotr11 x) = x.
Proof.
  intros H. unfold rotl11, rotr11.
  change (2 ^ 11) with 2048 in *. change (2 ^ 21) with 2097152 in *.
  change (2 ^ 32) with 4294967296 in *. lia.
Qed.

Lemma rotr11_lt x : x < 2 ^ 32 -> rotr11 x < 2 ^ 32.
Proof.
  intros H. unfold rotr11.
  change (2 ^ 11) with 2048 in *. change (2 ^ 21) with 2097152 in *.
  change (2 ^ 32) with 4294967296 in *. lia.
Qed.

Lemma SboxTwisted_ok sb v y :
  sb v = Ok y -> y < 2 ^ 32 -> SboxTwisted sb v = Ok (rotl11 y).
Proof. intros E H. unfold SboxTwisted. rewrite E. cbn [bind]. f_equal. now apply rotl11_ok. Qed.

(** ** Digit-wise substitution as a function *)

Lemma subst_digits_lt ts v :
  Forall nibble_table ts -> subst_digits ts v < 16 ^ len ts.
Proof.
  revert v. induction ts as [|t ts IH]; intros v H.
  - reflexivity.
  - inversion H; subst. cbn [subst_digits]. rewrite len_cons, N.pow_add_r, N.pow_1_r.
    pose proof (table_nth t (N.to_nat (v mod 16)) ltac:(assumption)).
    specialize (IH (v / 16) ltac:(assumption)). lia.
Qed.

(** [inverse_tables ts us]: table by table, [us] undoes [ts]. *)
Definition inverse_tables (ts us : list (list N)) : Prop :=
  Forall2 (fun t u => forall d, d < 16 -> nth (N.to_nat (nth (N.to_nat d) t 0)) u 0 = d) ts us.

Lemma subst_digits_inverse ts us v :
  inverse_tables ts us -> Forall nibble_table ts -> v < 16 ^ len ts ->
  subst_digits us (subst_digits ts v) = v.
Proof.
  intros H. revert v. induction H as [|t u ts us Htu H IH]; intros v Hf Hv.
  - unfold len in Hv. simpl in Hv. change (16 ^ N.of_nat 0) with 1 in Hv. cbn. lia.
  - inversion Hf; subst. cbn [subst_digits].
    pose proof (table_nth t (N.to_nat (v mod 16)) ltac:(assumption)) as Hd.
    set (e := nth _ t 0) in *. set (r := subst_digits ts (v / 16)) in *.
    replace ((e + 16 * r) mod 16) with e by lia.
    replace ((e + 16 * r) / 16) with r by lia.
    unfold e at 1. rewrite Htu by (apply N.mod_lt; discriminate).
    unfold r. rewrite IH; [lia|assumption|].
    rewrite len_cons, N.pow_add_r, N.pow_1_r in Hv. lia.
Qed.

(** ** The standard tables *)

Definition find_index (t : list N) (y : N) : N :=
  fold_left (fun acc i => if nth (N.to_nat i) t 0 =? y then i else acc)
            (map N.of_nat (seq 0 16)) 0.

Definition PiInv : list (list N) :=
  map (fun t => map (fun y => find_index t (N.of_nat y)) (seq 0 16)) Pi.

Lemma all16 (P : N -> Prop) : Forall P (map N.of_nat (seq 0 16)) -> forall d, d < 16 -> P d.
Proof.
  intros H d Hd. rewrite Forall_forall in H. apply H.
  apply in_map_iff. exists (N.to_nat d). rewrite N2Nat.id. split; [reflexivity|].
  apply in_seq. lia.
Qed.

Lemma Pi_tables : Forall nibble_table Pi.
Proof. repeat constructor. Qed.

Lemma PiInv_tables : Forall nibble_table PiInv.
Proof. repeat constructor. Qed.

Lemma Pi_PiInv : inverse_tables Pi PiInv.
Proof. repeat constructor; apply all16; repeat constructor. Qed.

Lemma PiInv_Pi : inverse_tables PiInv Pi.
Proof. repeat constructor; apply all16; repeat constructor. Qed.

Lemma SboxR3412_ok v : SboxR3412 v = Ok (rotl11 (subst_digits Pi v)).
Proof.
  unfold SboxR3412. apply SboxTwisted_ok.
  - assert (H : forall n, (n < 8)%nat -> nibble_table (nth n Pi [])).
    { intros n Hn. pose proof Pi_tables as H. rewrite Forall_forall in H.
      apply H, nth_In. exact Hn. }
    apply (SboxNibble_ok (nth 0 Pi []) (nth 1 Pi []) (nth 2 Pi []) (nth 3 Pi [])
                         (nth 4 Pi []) (nth 5 Pi []) (nth 6 Pi []) (nth 7 Pi []));
      apply H; lia.
  - apply (subst_digits_lt Pi v Pi_tables).
Qed.

Lemma SboxR3412_bijective y :
  y < 2 ^ 32 -> exists x, x < 2 ^ 32 /\ SboxR3412 x = Ok y /\
                          forall x', x' < 2 ^ 32 -> SboxR3412 x' = Ok y -> x' = x.
Proof.
  intros Hy. exists (subst_digits PiInv (rotr11 y)).
  assert (HL : forall z, subst_digits PiInv z < 2 ^ 32)
    by (intros; apply (subst_digits_lt PiInv _ PiInv_tables)).
  split; [apply HL|split].
  - rewrite SboxR3412_ok. rewrite subst_digits_inverse.
    + now rewrite rotl11_rotr11.
    + exact PiInv_Pi.
    + exact PiInv_tables.
    + apply rotr11_lt, Hy.
  - intros x' Hx' E. rewrite SboxR3412_ok in E. apply Ok_inj in E. subst y.
    rewrite rotr11_rotl11 by (apply (subst_digits_lt Pi _ Pi_tables)).
    symmetry. apply subst_digits_inverse; [exact Pi_PiInv|exact Pi_tables|exact Hx'].
Qed.

(** ** Packed byte tables *)

Lemma low_digit a b : a < 16 -> N.land (a + 16 * b) 0x0f = a.
Proof. intros H. rewrite land15. lia. Qed.

Lemma high_digit a b : a < 16 -> b < 16 -> N.land (a + 16 * b) 0xf0 = 16 * b.
Proof.
  intros Ha Hb. apply N.bits_inj_iff. intros i.
  replace (a + 16 * b) with (b * 2 ^ 4 + a) by (change (2 ^ 4) with 16; lia).
  replace (16 * b) with (b * 2 ^ 4) by (change (2 ^ 4) with 16; lia).
  change 0xf0 with (N.shiftl (N.ones 4) 4).
  rewrite N.land_spec. destruct (N.lt_ge_cases i 4).
  - rewrite N.shiftl_spec_low, N.mul_pow2_bits_low by assumption. apply andb_false_r.
  - rewrite add_testbit_high by (assumption || exact Ha).
    rewrite N.shiftl_spec_high', N.mul_pow2_bits_high by assumption.
    destruct (N.lt_ge_cases (i - 4) 4).
    + rewrite N.ones_spec_low by assumption. apply andb_true_r.
    + rewrite N.ones_spec_high by assumption. rewrite andb_false_r.
      symmetry. apply lt_pow2_testbit with (n := 4); assumption.
Qed.

Lemma int_digit v k :
  v < 2 ^ 32 -> k = 0%Z \/ k = 4%Z ->
  Z.land (Z.shiftr (int_of_u32 v) k) 0xf = Z.of_N (v / 2 ^ Z.to_N k mod 16).
Proof.
  intros Hv Hk. change 0xf%Z with (Z.ones 4). rewrite Z.land_ones by lia.
  rewrite Z.shiftr_div_pow2 by lia. unfold int_of_u32.
  change (2 ^ 4)%Z with 16%Z. change (2 ^ 32)%Z with 4294967296%Z.
  change (2 ^ 32) with 4294967296 in Hv. change (2 ^ 31) with 2147483648.
  destruct Hk as [-> | ->]; change (2 ^ 4)%Z with 16%Z; change (2 ^ 0)%Z with 1%Z;
    change (2 ^ Z.to_N 4) with 16; change (2 ^ Z.to_N 0) with 1;
    destruct (N.ltb_spec v 2147483648); lia.
Qed.

Lemma SboxByte64Tab_ok uz ts k v :
  packed uz ts -> Forall nibble_table ts -> List.length ts = 8%nat -> (k < 4)%nat -> v < 2 ^ 32 ->
  SboxByte64Tab uz (Z.of_nat k) (int_of_u32 v) =
  Ok (nth (N.to_nat (v mod 16)) (nth (2 * k) ts []) 0 +
      16 * nth (N.to_nat (v / 16 mod 16)) (nth (2 * k + 1) ts []) 0).
Proof.
  intros [Hlen Hp] Hts H8 Hk Hv. unfold SboxByte64Tab.
  replace (Z.land (int_of_u32 v) 0xf) with (Z.land (Z.shiftr (int_of_u32 v) 0) 0xf)
    by now rewrite Z.shiftr_0_r.
  rewrite !int_digit by (assumption || (left; reflexivity) || (right; reflexivity)).
  change (2 ^ Z.to_N 4) with 16. change (2 ^ Z.to_N 0) with 1. rewrite N.div_1_r.
  set (i := v / 16 mod 16). set (j := v mod 16).
  assert (Hi : i < 16) by (apply N.mod_lt; discriminate).
  assert (Hj : j < 16) by (apply N.mod_lt; discriminate).
  assert (At : forall d, d < 16 -> at_int uz (Z.of_N d * 4 + Z.of_nat k)%Z =
            Ok (nth (4 * N.to_nat d + k) uz 0)).
  { intros d Hd. unfold at_int. rewrite (proj2 (Z.leb_le _ _)) by lia.
    rewrite at_ok with (d := 0) by (unfold len; lia). do 2 f_equal. lia. }
  rewrite !At by assumption. cbn [bind]. rewrite !Hp by lia.
  assert (T : forall n, (n < 8)%nat -> forall x, nth x (nth n ts []) 0 < 16).
  { intros n Hn x. apply table_nth. rewrite Forall_forall in Hts. apply Hts, nth_In. lia. }
  rewrite high_digit, low_digit by (apply T; lia). f_equal. lia.
Qed.

Lemma shl_or a b n k : b < 2 ^ n -> a < 2 ^ k -> n + k <= 32 ->
  N.lor b (w32 (N.shiftl a n)) = b + a * 2 ^ n.
Proof.
  intros Hb Ha Hn. rewrite w32_id.
  - rewrite N.lor_comm, lor_shiftl_add by assumption. lia.
  - rewrite N.shiftl_mul_pow2. pose proof (split_lt a 0 k n Ha (pow2_pos n)).
    rewrite N.add_0_r in H. eapply N.lt_le_trans; [exact H|].
    apply N.pow_le_mono_r; lia.
Qed.

Lemma SboxByte_ok uz ts v :
  packed uz ts -> Forall nibble_table ts -> List.length ts = 8%nat -> v < 2 ^ 32 ->
  SboxByte uz v = Ok (subst_digits ts v).
Proof.
  intros Hp Hts H8 Hv. unfold SboxByte, SboxByte_tabs.
  assert (Hs : forall k, N.shiftr v k < 2 ^ 32).
  { intros k. rewrite N.shiftr_div_pow2. eapply N.le_lt_trans; [|exact Hv].
    apply N.div_le_upper_bound; [apply N.pow_nonzero; discriminate|].
    pose proof (pow2_pos k). nia. }
  pose proof (SboxByte64Tab_ok uz ts 0 v Hp Hts H8 ltac:(lia) ltac:(auto)) as E0.
  change (Z.of_nat 0) with 0%Z in E0. rewrite E0. cbn [bind].
  pose proof (SboxByte64Tab_ok uz ts 1 (N.shiftr v 8) Hp Hts H8 ltac:(lia) ltac:(auto)) as E1.
  change (Z.of_nat 1) with 1%Z in E1. rewrite E1. cbn [bind].
  pose proof (SboxByte64Tab_ok uz ts 2 (N.shiftr v 16) Hp Hts H8 ltac:(lia) ltac:(auto)) as E2.
  change (Z.of_nat 2) with 2%Z in E2. rewrite E2. cbn [bind].
  pose proof (SboxByte64Tab_ok uz ts 3 (N.shiftr v 24) Hp Hts H8 ltac:(lia) ltac:(auto)) as E3.
  change (Z.of_nat 3) with 3%Z in E3. rewrite E3. cbn [bind].
  clear E0 E1 E2 E3.
  do 8 (destruct ts as [|? ts]; [discriminate H8|]). destruct ts; [|discriminate H8]. clear H8.
  cbn [Nat.mul Nat.add nth].
  rewrite !N.shiftr_div_pow2.
  repeat rewrite (N.div_div _ _ 16) by discriminate.
  change (2 ^ 8 * 16) with (2 ^ 12); change (2 ^ 16 * 16) with (2 ^ 20);
  change (2 ^ 24 * 16) with (2 ^ 28); change (v / 16) with (v / 2 ^ 4).
  rewrite <- (N.div_1_r v) at 1. change 1 with (2 ^ 0) at 1.
  rewrite subst_digits_8.
  repeat match goal with H : Forall _ (_ :: _) |- _ => inversion H; clear H; subst end.
  repeat match goal with
  | |- context [nth ?i ?t 0] =>
      let Hd := fresh "Hd" in
      pose proof (table_nth t i ltac:(assumption)) as Hd;
      let d := fresh "d" in set (d := nth i t 0) in *; clearbody d
  end.
  f_equal.
  rewrite (shl_or _ _ 8 8) by (reflexivity || (change (2 ^ 8) with 256; lia)).
  rewrite (shl_or _ _ 16 8)
    by (try (intro; discriminate);
        change (2 ^ 8) with 256; change (2 ^ 16) with 65536; lia).
  rewrite (shl_or _ _ 24 8)
    by (try (intro; discriminate);
        change (2 ^ 8) with 256; change (2 ^ 16) with 65536; change (2 ^ 24) with 16777216; lia).
  change (2 ^ 8) with 256; change (2 ^ 16) with 65536; change (2 ^ 24) with 16777216. lia.
Qed.

Lemma Pi_packed_ok : packed Pi_packed Pi.
Proof.
  split; [reflexivity|]. intros j k Hj Hk.
  do 16 (destruct j as [|j]; [do 4 (destruct k as [|k]; [reflexivity|]); lia|]). lia.
Qed.
