(** Proofs about the block combinators: shifts, exclusive or, string literals. *)
From Verif Require Import Base Text MagmaModel KuzModel Lib SpecText TextProofs SpecMagma SpecModes.
From Verif Require Import MagmaProofs.
From Coq Require Import ZifyNat ZifyN ZifyBool Permutation.
Local Open Scope N_scope.

(** ** Totality of the Magma rounds *)

Definition total_key (k : lazykey) : Prop :=
  forall v i, (0 <= i <= 7)%Z -> exists t, lazy_transform k v i = Ok t.

Lemma fwd_total k x : total_key k -> exists y, fwd (ptr_transform (Some k)) x = Ok y.
Proof.
  intros H. destruct x as [a b]. unfold fwd. cbn [ptr_transform].
  repeat (match goal with
  | |- exists y, bind (lazy_transform k ?v ?i) _ = Ok y =>
      let t := fresh "t" in let E := fresh "E" in
      destruct (H v i ltac:(lia)) as [t E]; rewrite E; cbn [bind]; cbv zeta
  end).
  eexists; reflexivity.
Qed.

Lemma bwd_total k x : total_key k -> exists y, bwd (ptr_transform (Some k)) x = Ok y.
Proof.
  intros H. destruct x as [a b]. unfold bwd. cbn [ptr_transform].
  repeat (match goal with
  | |- exists y, bind (lazy_transform k ?v ?i) _ = Ok y =>
      let t := fresh "t" in let E := fresh "E" in
      destruct (H v i ltac:(lia)) as [t E]; rewrite E; cbn [bind]; cbv zeta
  end).
  eexists; reflexivity.
Qed.

Lemma BlkEncrypted_total k b : total_key k -> exists c, BlkEncrypted (Ok b) (Some k) = Ok c.
Proof.
  intros H. unfold BlkEncrypted. rewrite BlkBackwarded_bwd, !BlkForwarded_fwd. cbn [bind].
  destruct (fwd_total k b H) as [x1 E1]. rewrite E1. cbn [bind].
  destruct (fwd_total k x1 H) as [x2 E2]. rewrite E2. cbn [bind].
  destruct (fwd_total k x2 H) as [x3 E3]. rewrite E3. cbn [bind].
  destruct (bwd_total k x3 H) as [[c d] E4]. rewrite E4. cbn [bind BlkSwapped].
  eexists; reflexivity.
Qed.

Lemma BlkDecrypted_total k b : total_key k -> exists c, BlkDecrypted (Ok b) (Some k) = Ok c.
Proof.
  intros H. unfold BlkDecrypted. rewrite !BlkBackwarded_bwd, !BlkForwarded_fwd. cbn [bind].
  destruct (fwd_total k b H) as [x1 E1]. rewrite E1. cbn [bind].
  destruct (bwd_total k x1 H) as [x2 E2]. rewrite E2. cbn [bind].
  destruct (bwd_total k x2 H) as [x3 E3]. rewrite E3. cbn [bind].
  destruct (bwd_total k x3 H) as [[c d] E4]. rewrite E4. cbn [bind BlkSwapped].
  eexists; reflexivity.
Qed.

(** ** Shifts *)

Lemma shift_halves (w n a b : N) :
  a < 2 ^ w -> b < 2 ^ w -> n < w ->
  N.lor ((N.shiftl b n) mod 2 ^ w) (N.shiftr a (w - n)) = (b * 2 ^ n + a / 2 ^ (w - n)) mod 2 ^ w.
Proof.
  intros Ha Hb Hn.
  assert (Hr : N.shiftr a (w - n) < 2 ^ n)
    by (apply shiftr_lt; replace (n + (w - n)) with w by lia; exact Ha).
  replace (2 ^ w) with (2 ^ (w - n) * 2 ^ n)
    by (rewrite <- N.pow_add_r; f_equal; lia).
  rewrite N.shiftl_mul_pow2, N.mul_mod_distr_r by (apply N.pow_nonzero; discriminate).
  rewrite <- N.shiftl_mul_pow2, lor_shiftl_add by exact Hr.
  rewrite N.shiftr_div_pow2 in *.
  rewrite (N.mul_comm (2 ^ (w - n)) (2 ^ n)).
  rewrite N.mod_mul_r by (apply N.pow_nonzero; discriminate).
  rewrite split_mod, split_div by exact Hr. lia.
Qed.

(** Shifting the double word hi*2^w + lo. *)
Lemma shift_double (w n lo hi : N) :
  lo < 2 ^ w -> hi < 2 ^ w -> 0 < n -> n < w ->
  ((hi * 2 ^ w + lo) * 2 ^ n) mod 2 ^ (w + w) =
  (hi * 2 ^ n + lo / 2 ^ (w - n)) mod 2 ^ w * 2 ^ w + (lo * 2 ^ n) mod 2 ^ w.
Proof.
  intros Hlo Hhi Hn Hw.
  assert (E : lo * 2 ^ n = lo / 2 ^ (w - n) * 2 ^ w + (lo * 2 ^ n) mod 2 ^ w).
  { replace (2 ^ w) with (2 ^ (w - n) * 2 ^ n)
      by (rewrite <- N.pow_add_r; f_equal; lia).
    rewrite N.mul_mod_distr_r by (apply N.pow_nonzero; discriminate).
    rewrite <- (split_join lo (w - n)) at 1. lia. }
  replace ((hi * 2 ^ w + lo) * 2 ^ n)
    with ((hi * 2 ^ n + lo / 2 ^ (w - n)) * 2 ^ w + (lo * 2 ^ n) mod 2 ^ w) by lia.
  rewrite N.pow_add_r.
  rewrite N.mod_mul_r by (apply N.pow_nonzero; discriminate).
  rewrite split_mod, split_div by apply mod_pow2_lt. lia.
Qed.

Lemma KShifted_ok m lo hi n :
  lo < 2 ^ 64 -> hi < 2 ^ 64 -> (1 <= n <= 63)%Z ->
  exists lo' hi', KShifted m (Ok (lo, hi)) n = Ok (lo', hi') /\ lo' < 2 ^ 64 /\ hi' < 2 ^ 64 /\
    hi' * 2 ^ 64 + lo' = ((hi * 2 ^ 64 + lo) * 2 ^ Z.to_N n) mod 2 ^ 128.
Proof.
  intros Hlo Hhi Hn.
  exists ((lo * 2 ^ Z.to_N n) mod 2 ^ 64),
         ((hi * 2 ^ Z.to_N n + lo / 2 ^ (64 - Z.to_N n)) mod 2 ^ 64).
  split; [|split; [apply mod_pow2_lt|split; [apply mod_pow2_lt|]]].
  - unfold KShifted. cbn [bind].
    assert (El : shl64 m lo n = Ok ((lo * 2 ^ Z.to_N n) mod 2 ^ 64)).
    { unfold shl64, w64. rewrite N.shiftl_mul_pow2. destruct m.
      - replace ((0 <=? n) && (n <? 64))%Z with true by lia. reflexivity.
      - rewrite Z.mod_small by lia. now rewrite N.shiftl_mul_pow2. }
    assert (Eh : shl64 m hi n = Ok ((N.shiftl hi (Z.to_N n)) mod 2 ^ 64)).
    { unfold shl64, w64. destruct m.
      - replace ((0 <=? n) && (n <? 64))%Z with true by lia. reflexivity.
      - rewrite Z.mod_small by lia. reflexivity. }
    assert (Er : shr64 m lo (64 - n) = Ok (N.shiftr lo (64 - Z.to_N n))).
    { unfold shr64. destruct m.
      - replace ((0 <=? 64 - n) && (64 - n <? 64))%Z with true by lia.
        do 2 f_equal. lia.
      - rewrite Z.mod_small by lia. do 2 f_equal. lia. }
    rewrite El, Eh, Er. cbn [bind]. rewrite shift_halves by (assumption || lia). reflexivity.
  - symmetry. apply (shift_double 64); assumption || lia.
Qed.

Lemma BlkShifted_x86_ok g lo hi n :
  lo < 2 ^ 32 -> hi < 2 ^ 32 -> (1 <= n <= 31)%Z ->
  exists lo' hi', BlkShifted (X86 g) (Ok (lo, hi)) n = Ok (lo', hi') /\
    lo' < 2 ^ 32 /\ hi' < 2 ^ 32 /\
    hi' * 2 ^ 32 + lo' = ((hi * 2 ^ 32 + lo) * 2 ^ Z.to_N n) mod 2 ^ 64.
Proof.
  intros Hlo Hhi Hn.
  exists ((lo * 2 ^ Z.to_N n) mod 2 ^ 32),
         ((hi * 2 ^ Z.to_N n + lo / 2 ^ (32 - Z.to_N n)) mod 2 ^ 32).
  split; [|split; [apply mod_pow2_lt|split; [apply mod_pow2_lt|]]].
  - unfold BlkShifted, shl32, shr32, w32. cbn [bind].
    rewrite Z.mod_small by lia.
    replace (Z.to_N ((64 - n) mod 32)) with (32 - Z.to_N n).
    + rewrite shift_halves by (assumption || lia). now rewrite N.shiftl_mul_pow2.
    + replace (64 - n)%Z with ((32 - n) + 1 * 32)%Z by lia.
      rewrite Z.mod_add by lia. rewrite Z.mod_small by lia. lia.
  - symmetry. apply (shift_double 32); assumption || lia.
Qed.

Lemma BlkShifted_iso_undef b n : BlkShifted ISO (Ok b) n = Undef WideShift.
Proof.
  destruct b as [lo hi]. unfold BlkShifted, shl32, shr32. cbn [bind].
  destruct ((0 <=? n) && (n <? 32))%Z eqn:E; [|reflexivity]. cbn [bind].
  replace ((0 <=? 64 - n) && (64 - n <? 32))%Z with false by lia. reflexivity.
Qed.

(** ** Exclusive or *)

Lemma xor_pair_comm a b : xor_pair a b = xor_pair b a.
Proof. unfold xor_pair. f_equal; apply N.lxor_comm. Qed.

Lemma xor_pair_assoc a b c : xor_pair (xor_pair a b) c = xor_pair a (xor_pair b c).
Proof. unfold xor_pair. cbn [fst snd]. f_equal; apply N.lxor_assoc. Qed.

Lemma xor_pair_0_r a : xor_pair a (0, 0) = a.
Proof. destruct a. unfold xor_pair. cbn [fst snd]. now rewrite !N.lxor_0_r. Qed.

Lemma xor_all_perm l l' : Permutation l l' -> xor_all l = xor_all l'.
Proof.
  intros H. induction H; cbn [xor_all fold_right] in *.
  - reflexivity.
  - unfold xor_all in *. now rewrite IHPermutation.
  - rewrite <- !xor_pair_assoc. now rewrite (xor_pair_comm x y).
  - congruence.
Qed.

Lemma xor_all_app l r : xor_all (l ++ r) = xor_pair (xor_all l) (xor_all r).
Proof.
  induction l as [|x l IH]; cbn [app xor_all fold_right].
  - rewrite xor_pair_comm. symmetry. apply xor_pair_0_r.
  - unfold xor_all in *. now rewrite IH, xor_pair_assoc.
Qed.

Lemma BlkXored_ok a b : BlkXored (Ok a) (Ok b) = Ok (xor_pair a b).
Proof. destruct a, b. reflexivity. Qed.

Lemma KXored_ok a b : KXored (Ok a) (Ok b) = Ok (xor_pair a b).
Proof. destruct a, b. reflexivity. Qed.

Lemma BlkXored_n_ok a b l :
  BlkXored_n (Ok a) (Ok b) (map Ok l) = Ok (xor_all (a :: b :: l)).
Proof.
  revert a b. induction l as [|c l IH]; intros a b.
  - cbn [map BlkXored_n]. rewrite BlkXored_ok. cbn [xor_all fold_right].
    now rewrite xor_pair_0_r.
  - cbn [map BlkXored_n]. rewrite BlkXored_ok, IH. cbn [xor_all fold_right].
    now rewrite xor_pair_assoc.
Qed.

Lemma KXored_n_ok a b l :
  KXored_n (Ok a) (Ok b) (map Ok l) = Ok (xor_all (a :: b :: l)).
Proof.
  revert a b. induction l as [|c l IH]; intros a b.
  - cbn [map KXored_n]. rewrite KXored_ok. cbn [xor_all fold_right].
    now rewrite xor_pair_0_r.
  - cbn [map KXored_n]. rewrite KXored_ok, IH. cbn [xor_all fold_right].
    now rewrite xor_pair_assoc.
Qed.

(** ** Hex literals *)

Lemma pad_left_length s n : (List.length s <= n)%nat -> List.length (pad_left s n) = n.
Proof. intros H. unfold pad_left. rewrite app_length, repeat_length. lia. Qed.

Lemma pad_left_hex s n : Forall hex_digit s -> Forall hex_digit (pad_left s n).
Proof. intros H. apply Forall_app. split; [apply zeros_hex|exact H]. Qed.

Lemma BlkString_hex s :
  Forall hex_digit s -> (List.length s <= 16)%nat -> BlkString s = Ok (halves (number s)).
Proof.
  intros Hs Hl. unfold BlkString. cbv zeta.
  change (block_size * 2)%nat with 16%nat.
  pose proof (pad_left_length s 16 Hl) as HL. pose proof (pad_left_hex s 16 Hs) as HH.
  assert (Hn : number (pad_left s 16) = number s) by apply number_zeros.
  set (v := pad_left s 16) in *. clearbody v. rewrite <- Hn. clear Hn.
  rewrite !substr_ok by (unfold len; lia). cbn [bind].
  change (N.to_nat 8) with 8%nat. change (N.to_nat 0) with 0%nat. cbn [skipn].
  assert (E : number v = number (firstn 8 v) * 2 ^ 32 + number (skipn 8 v)).
  { rewrite <- (firstn_skipn 8 v) at 1. rewrite number_app.
    replace (len (skipn 8 v)) with 8 by (unfold len; rewrite skipn_length; lia). reflexivity. }
  assert (L1 : List.length (skipn 8 v) = 8%nat) by (rewrite skipn_length; lia).
  assert (L2 : List.length (firstn 8 v) = 8%nat) by (rewrite firstn_length; lia).
  rewrite (firstn_all2 (skipn 8 v)) by lia.
  assert (B : forall s, List.length s = 8%nat -> number s < 2 ^ 32).
  { intros t Ht. pose proof (number_lt t) as Hb. unfold len in Hb. rewrite Ht in Hb. exact Hb. }
  assert (NE : forall s : list N, List.length s = 8%nat -> s <> []) by (intros [|]; discriminate).
  rewrite stoull16_hex by (auto using Forall_skipn, NE || lia). cbn [bind].
  rewrite stoull16_hex by (auto using Forall_firstn, NE || lia). cbn [bind].
  rewrite !w32_id by auto. unfold halves. rewrite E, split_mod, split_div by auto. reflexivity.
Qed.

Lemma KString_hex s :
  Forall hex_digit s -> (List.length s <= 32)%nat ->
  KString s = Ok (number s mod 2 ^ 64, number s / 2 ^ 64).
Proof.
  intros Hs Hl. unfold KString. cbv zeta.
  pose proof (pad_left_length s 32 Hl) as HL. pose proof (pad_left_hex s 32 Hs) as HH.
  assert (Hn : number (pad_left s 32) = number s) by apply number_zeros.
  set (v := pad_left s 32) in *. clearbody v. rewrite <- Hn. clear Hn.
  rewrite !substr_ok by (unfold len; lia). cbn [bind].
  change (N.to_nat 16) with 16%nat. change (N.to_nat 0) with 0%nat. cbn [skipn].
  assert (E : number v = number (firstn 16 v) * 2 ^ 64 + number (skipn 16 v)).
  { rewrite <- (firstn_skipn 16 v) at 1. rewrite number_app.
    replace (len (skipn 16 v)) with 16 by (unfold len; rewrite skipn_length; lia). reflexivity. }
  assert (L1 : List.length (skipn 16 v) = 16%nat) by (rewrite skipn_length; lia).
  assert (L2 : List.length (firstn 16 v) = 16%nat) by (rewrite firstn_length; lia).
  rewrite (firstn_all2 (skipn 16 v)) by lia.
  assert (B : forall s, List.length s = 16%nat -> number s < 2 ^ 64).
  { intros t Ht. pose proof (number_lt t) as Hb. unfold len in Hb. rewrite Ht in Hb. exact Hb. }
  assert (NE : forall s : list N, List.length s = 16%nat -> s <> []) by (intros [|]; discriminate).
  rewrite stoull16_hex by (auto using Forall_skipn, NE || lia). cbn [bind].
  rewrite stoull16_hex by (auto using Forall_firstn, NE || lia). cbn [bind].
  rewrite E, split_mod, split_div by auto. reflexivity.
Qed.

(** ** What the text parsers accept *)

Lemma KeyDataString_never_throws s i e :
  List.length s = 64%nat -> (0 <= i <= 7)%Z -> KeyDataString s i <> Throw e.
Proof.
  intros Hl Hi. unfold KeyDataString.
  replace (negb (len s =? 64)) with false by (unfold len; lia).
  replace ((i <? 0) || (7 <? i))%Z with false by lia.
  rewrite substr_ok by (unfold len; lia). cbn [bind]. unfold extract_hex32.
  destruct (skip_ws _) as [|c r]; [discriminate|].
  destruct (take_sign (c :: r)) as [neg t].
  destruct (scan_hex t); [|discriminate]. destruct (_ <=? _); [discriminate|].
  destruct neg; discriminate.
Qed.

Lemma KeyDataString_wrong_size s i :
  List.length s <> 64%nat -> KeyDataString s i = Throw (RuntimeError "Wrong key size").
Proof.
  intros H. unfold KeyDataString. replace (negb (len s =? 64)) with true by (unfold len; lia).
  reflexivity.
Qed.

Lemma KeyDataString_wrong_index s i :
  List.length s = 64%nat -> ~ (0 <= i <= 7)%Z ->
  KeyDataString s i = Throw (RuntimeError "Wrong key index").
Proof.
  intros H Hi. unfold KeyDataString.
  replace (negb (len s =? 64)) with false by (unfold len; lia).
  replace ((i <? 0) || (7 <? i))%Z with true by lia. reflexivity.
Qed.

(** ** The literal parsers only look at a prefix of the block width *)

Lemma BlkString_prefix s t :
  List.length s = 16%nat -> BlkString (s ++ t) = BlkString s.
Proof.
  intros H. unfold BlkString, pad_left. change (block_size * 2)%nat with 16%nat.
  rewrite app_length, H, Nat.sub_diag.
  replace (16 - (16 + List.length t))%nat with O by lia. cbn [repeat app].
  rewrite !substr_ok by (unfold len; rewrite ?app_length; lia). cbn [bind].
  change (N.to_nat 8) with 8%nat. change (N.to_nat 0) with 0%nat. rewrite !skipn_O.
  rewrite skipn_app, !firstn_app, skipn_length, H. cbn [Nat.sub]. rewrite !firstn_O, !app_nil_r.
  reflexivity.
Qed.

Lemma KString_prefix s t :
  List.length s = 32%nat -> KString (s ++ t) = KString s.
Proof.
  intros H. unfold KString, pad_left.
  rewrite app_length, H, Nat.sub_diag.
  replace (32 - (32 + List.length t))%nat with O by lia. cbn [repeat app].
  rewrite !substr_ok by (unfold len; rewrite ?app_length; lia). cbn [bind].
  change (N.to_nat 16) with 16%nat. change (N.to_nat 0) with 0%nat. rewrite !skipn_O.
  rewrite skipn_app, !firstn_app, skipn_length, H. cbn [Nat.sub]. rewrite !firstn_O, !app_nil_r.
  reflexivity.
Qed.
