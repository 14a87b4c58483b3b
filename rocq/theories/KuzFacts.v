(** Remaining facts about goost/kuznyechik: unsafe inputs, literals, key strings. *)
From Verif Require Import Base Text MagmaModel KuzModel SpecText SpecMagma SpecModes SpecKuz SpecIter
  Lib TextProofs BlockProofs MacProofs KuzProofs KuzStreamProofs.
From Coq Require Import Lia ZifyBool ZifyNat ZifyN.
Local Open Scope N_scope.

(** ** Key schedule ranges *)

Lemma KIterKey_overflow ka kb c1 : (c1 <= 2 ^ 31 - 1)%Z -> KIterKey ka kb c1 (2 ^ 31 - 1) = Undef IntOverflow.
Proof.
  intros H. unfold KIterKey. remember (Z.to_nat (2 ^ 31 - 1 - c1 + 1)) as n eqn:En.
  revert ka kb c1 H En. induction n as [|n IH]; intros ka kb c1 H En; [lia|].
  cbn [KIterKey_generate]. replace (2 ^ 31 - 1 <? c1)%Z with false by lia.
  destruct (c1 =? 2 ^ 31 - 1)%Z eqn:E; [reflexivity|]. cbv zeta. apply IH; lia.
Qed.

Lemma KIterKey_empty ka kb c1 c2 : (c2 < c1)%Z -> KIterKey ka kb c1 c2 = ka.
Proof.
  intros H. unfold KIterKey. destruct (Z.to_nat (c2 - c1 + 1)); cbn [KIterKey_generate];
    now replace (c2 <? c1)%Z with true by lia.
Qed.

(** ** The linear layer on blocks *)

Lemma KR_bijective y : y < 2 ^ 128 ->
  exists x, x < 2 ^ 128 /\ KR (Ok (kpair x)) = Ok (kpair y) /\
    forall x', x' < 2 ^ 128 -> KR (Ok (kpair x')) = Ok (kpair y) -> x' = x.
Proof.
  intros Hy. exists (R_inv y). split; [now apply R_inv_lt|]. split.
  - rewrite KR_kpair by now apply R_inv_lt. now rewrite R_R_inv.
  - intros x' Hx' H. rewrite KR_kpair in H by exact Hx'. apply Ok_inj, kpair_inj in H.
    rewrite <- H. now rewrite R_inv_R.
Qed.

Lemma KL_bijective y : y < 2 ^ 128 ->
  exists x, x < 2 ^ 128 /\ KL (Ok (kpair x)) = Ok (kpair y) /\
    forall x', x' < 2 ^ 128 -> KL (Ok (kpair x')) = Ok (kpair y) -> x' = x.
Proof.
  intros Hy. exists (L_inv y). split; [now apply L_inv_lt|]. split.
  - rewrite KL_kpair by now apply L_inv_lt. now rewrite L_L_inv.
  - intros x' Hx' H. rewrite KL_kpair in H by exact Hx'. apply Ok_inj, kpair_inj in H.
    rewrite <- H. now rewrite L_inv_L.
Qed.

Lemma KR_linear x y : x < 2 ^ 128 -> y < 2 ^ 128 ->
  KR (KXored (Ok (kpair x)) (Ok (kpair y))) = KXored (KR (Ok (kpair x))) (KR (Ok (kpair y))).
Proof.
  intros Hx Hy. rewrite KXored_kpair, !KR_kpair, KXored_kpair by auto using lxor_lt.
  now rewrite R_lxor.
Qed.

Lemma KL_linear x y : x < 2 ^ 128 -> y < 2 ^ 128 ->
  KL (KXored (Ok (kpair x)) (Ok (kpair y))) = KXored (KL (Ok (kpair x))) (KL (Ok (kpair y))).
Proof.
  intros Hx Hy. rewrite KXored_kpair, !KL_kpair, KXored_kpair by auto using lxor_lt.
  now rewrite L_lxor.
Qed.

Lemma permutation a b y : a < 2 ^ 128 -> b < 2 ^ 128 -> y < 2 ^ 128 ->
  let k := Key_blocks (Ok (kpair a)) (Ok (kpair b)) in
  exists x, x < 2 ^ 128 /\ KEncrypted (Ok (kpair x)) k = Ok (kpair y) /\
    forall x', x' < 2 ^ 128 -> KEncrypted (Ok (kpair x')) k = Ok (kpair y) -> x' = x.
Proof.
  intros Ha Hb Hy k.
  assert (HK : a * 2 ^ 128 + b < 2 ^ 256) by (change 256 with (128 + 128); now apply split_lt).
  exists (Kuz_D (a * 2 ^ 128 + b) y). split; [now apply Kuz_D_lt|]. split.
  - unfold k. rewrite KEncrypted_blocks by (assumption || now apply Kuz_D_lt). now rewrite Kuz_E_D.
  - intros x' Hx' H. unfold k in H. rewrite KEncrypted_blocks in H by assumption.
    apply Ok_inj, kpair_inj in H. rewrite <- H. now rewrite Kuz_D_E.
Qed.

(** A key one of whose halves cannot be read encrypts nothing. *)
Lemma Key_encrypt_ok_inv k b v : Key_encrypt k b = Ok v ->
  exists a c, k1 k = Ok a /\ k2 k = Ok c.
Proof.
  assert (HX : forall a c v, KXored a c = Ok v -> (exists x, a = Ok x) /\ exists y, c = Ok y).
  { intros a c u H. unfold KXored in H. destruct a as [[a1 a2]| | |]; try discriminate.
    cbn [bind] in H. destruct c as [[c1 c2]| | |]; try discriminate. eauto. }
  assert (HL : forall n a v, KL_transform a n = Ok v -> exists x, a = Ok x).
  { induction n as [|n IH]; intros a u H; [eauto|]. cbn [KL_transform] in H. apply IH in H.
    destruct H as [x H]. unfold KR in H. destruct a as [a| | |]; try discriminate. eauto. }
  assert (HS : forall a c v, encryptStep a c = Ok v -> (exists x, a = Ok x) /\ exists y, c = Ok y).
  { intros a c u H. unfold encryptStep, KL in H. apply HL in H. destruct H as [x H].
    unfold KS in H. destruct (KXored a c) as [d| | |] eqn:E; try discriminate. eauto. }
  unfold Key_encrypt. cbv zeta. intros H.
  apply HX in H. destruct H as [[t H] _]. do 8 (apply HS in H; destruct H as [[? H] ?]).
  apply HS in H. destruct H as [_ [a Ha]].
  match goal with H : exists y, k2 k = Ok y |- _ => destruct H as [c Hc] end. eauto.
Qed.

(** ** Counter mode as in the standard *)

Lemma ctr_from_length E n iv ps : forall i, List.length (ctr_from E n iv i ps) = List.length ps.
Proof. induction ps as [|p ps IH]; intros i; [reflexivity|]. cbn. now rewrite IH. Qed.

Lemma ctr_from_nth E n iv ps : forall i j, (j < List.length ps)%nat ->
  nth j (ctr_from E n iv i ps) 0 = N.lxor (nth j ps 0) (E (counter n iv (i + N.of_nat j))).
Proof.
  induction ps as [|p ps IH]; intros i [|j] H; cbn [List.length] in H; try lia.
  - cbn [ctr_from nth]. now rewrite N.add_0_r.
  - cbn [ctr_from nth]. rewrite IH by lia. do 3 f_equal. lia.
Qed.

Lemma nth_kpair ps n : (n < List.length ps)%nat -> nth n (map kpair ps) (0, 0) = kpair (nth n ps 0).
Proof. intros _. change (0, 0) with (kpair 0). apply map_nth. Qed.

Lemma ctr_presents {I} (ops : iter_ops I) k E iv p ps : kuz_enciphers k E -> iv < 2 ^ 64 ->
  presents ops p (map kpair ps) ->
  presents (ItCTR_ops ops k) (StCTR_iter p iv) (map kpair (ctr E 128 iv ps)).
Proof.
  intros HE Hiv [Hne Hp]. unfold ctr.
  assert (HL : List.length (map kpair (ctr_from E 128 iv 0 ps)) = List.length (map kpair ps))
    by now rewrite !map_length, ctr_from_length.
  split.
  - intros H. apply Hne. rewrite H in HL. now destruct (map kpair ps).
  - intros n Hn. rewrite HL in Hn |- *. destruct (Hp n Hn) as [H1 H2].
    rewrite map_length in Hn. rewrite ctr_last by exact Hiv. split; [|exact H2].
    rewrite (ctr_block ops k E) by assumption. rewrite H1. cbn [bind]. f_equal.
    rewrite !nth_kpair by now rewrite ?ctr_from_length. rewrite xor_kpair.
    now rewrite ctr_from_nth.
Qed.

Lemma stream_values_presents {I} (ops : iter_ops I) vs : forall p fuel,
  presents ops (Ok p) vs -> (List.length vs <= fuel)%nat -> stream_values fuel ops p = Ok vs.
Proof.
  induction vs as [|v vs IH]; intros p fuel [Hne Hp] Hf; [congruence|].
  destruct fuel as [|fuel]; [cbn in Hf; lia|]. cbn [stream_values].
  destruct (Hp 0%nat) as [Hv Hl]; [cbn; lia|].
  apply ask_deref in Hv. destruct Hv as (i & Hi & Hv). cbn [advance] in Hi. injection Hi as ->.
  apply ask_deref in Hl. destruct Hl as (i' & Hi & Hl). cbn [advance] in Hi. injection Hi as <-.
  cbn [deref bind]. rewrite Hv, Hl. cbn [bind nth].
  destruct vs as [|u vs]; [reflexivity|]. cbn [List.length Nat.eqb].
  assert (Hn : exists q, it_next ops i = Ok q).
  { destruct (Hp 1%nat) as [H1 _]; [cbn; lia|]. apply ask_deref in H1.
    destruct H1 as (j & Hj & _). rewrite advance_S in Hj. cbn [deref bind] in Hj.
    destruct (it_next ops i) as [q| | |]; try discriminate. eauto. }
  destruct Hn as [q Hq]. rewrite Hq. cbn [bind].
  rewrite (IH q fuel); [reflexivity| |cbn [List.length] in *; lia].
  split; [discriminate|]. intros n Hn.
  destruct (Hp (Datatypes.S n)) as [Ha Hb]; [cbn [List.length] in *; lia|].
  unfold block_at, last_at in *.
  rewrite <- (ask_next ops _ i q n Hq) in Ha. rewrite <- (ask_next ops _ i q n Hq) in Hb.
  split; assumption.
Qed.

Lemma keystream_distinct {I J} (ops : iter_ops I) (ops' : iter_ops J) k E iv jv p q n m v w c d :
  kuz_enciphers k E -> (forall x y, x < 2 ^ 128 -> y < 2 ^ 128 -> E x = E y -> x = y) ->
  iv < 2 ^ 64 -> jv < 2 ^ 64 ->
  block_at ops p n = Ok v -> block_at (ItCTR_ops ops k) (StCTR_iter p iv) n = Ok c ->
  block_at ops' q m = Ok w -> block_at (ItCTR_ops ops' k) (StCTR_iter q jv) m = Ok d ->
  xor_pair v c = xor_pair w d -> counter 128 iv (N.of_nat n) = counter 128 jv (N.of_nat m).
Proof.
  intros HE Hinj Hiv Hjv Hv Hc Hw Hd H.
  rewrite (ctr_block ops k E), Hv in Hc by assumption. cbn [bind] in Hc. apply Ok_inj in Hc.
  rewrite (ctr_block ops' k E), Hw in Hd by assumption. cbn [bind] in Hd. apply Ok_inj in Hd.
  rewrite <- Hc, <- Hd, !xor_pair_cancel_l in H. apply kpair_inj in H.
  apply Hinj in H; [exact H|apply mod_pow2_lt..].
Qed.

(** ** Unsafe vectors *)

Lemma mem_empty : StMemory_iter true [] = Ok None.
Proof. reflexivity. Qed.

Lemma imit_empty m k fuel :
  KImit (Datatypes.S fuel) m (ItMemory_ops (Some [])) (StMemory_iter true []) k = Undef NullDeref.
Proof. reflexivity. Qed.

Lemma kimit_loop_odd data c k : 8 * len data < 2 ^ 64 -> len data = 2 * c + 1 ->
  forall fuel n blk, n < c -> c - n <= N.of_nat fuel ->
  kimit_loop fuel (ItMemory_ops (Some data)) k (Some (mem_iter data n)) blk = Undef OutOfBounds.
Proof.
  intros Hs Hc. induction fuel as [|fuel IH]; intros n blk Hn Hf; [lia|].
  cbn [kimit_loop deref bind ItMemory_ops it_last it_value it_next].
  rewrite mem_next by (assumption || lia).
  destruct (N.eq_dec (n + 1) c) as [E|E].
  - rewrite E, next_iter_odd by exact Hc. reflexivity.
  - rewrite next_iter_ok by lia. cbn [bind]. apply IH; lia.
Qed.

Lemma imit_odd m k data fuel : 8 * len data < 2 ^ 64 -> len data mod 2 = 1 ->
  len data <= N.of_nat fuel ->
  KImit fuel m (ItMemory_ops (Some data)) (StMemory_iter true data) k = Undef OutOfBounds.
Proof.
  intros Hs Ho Hf. pose proof (N.div_mod (len data) 2 ltac:(discriminate)) as D. rewrite Ho in D.
  unfold KImit, StMemory_iter. change 0 with (16 * 0) at 1.
  destruct (N.eq_dec (len data / 2) 0) as [E|E].
  - rewrite next_iter_odd by lia. reflexivity.
  - rewrite next_iter_ok by lia. cbn [bind]. change (ItMemory (16 * 0) _) with (mem_iter data 0).
    rewrite (kimit_loop_odd data (len data / 2)) by (assumption || lia). reflexivity.
Qed.

(** Also merely reading the stream. *)
Lemma stream_values_odd data c : 8 * len data < 2 ^ 64 -> len data = 2 * c + 1 ->
  forall fuel n, n < c -> c - n <= N.of_nat fuel ->
  stream_values fuel (ItMemory_ops (Some data)) (Some (mem_iter data n)) = Undef OutOfBounds.
Proof.
  intros Hs Hc. induction fuel as [|fuel IH]; intros n Hn Hf; [lia|].
  cbn [stream_values deref bind ItMemory_ops it_last it_value it_next].
  rewrite mem_next by (assumption || lia).
  destruct (N.eq_dec (n + 1) c) as [E|E].
  - rewrite E, next_iter_odd by exact Hc. reflexivity.
  - rewrite next_iter_ok by lia. cbn [bind].
    change (ItMemory (16 * (n + 1)) _) with (mem_iter data (n + 1)).
    rewrite IH by lia. reflexivity.
Qed.

Lemma read_odd data fuel : 8 * len data < 2 ^ 64 -> len data mod 2 = 1 ->
  len data <= N.of_nat fuel ->
  (p <- StMemory_iter true data ;; stream_values fuel (ItMemory_ops (Some data)) p) = Undef OutOfBounds.
Proof.
  intros Hs Ho Hf. pose proof (N.div_mod (len data) 2 ltac:(discriminate)) as D. rewrite Ho in D.
  unfold StMemory_iter. change 0 with (16 * 0) at 1.
  destruct (N.eq_dec (len data / 2) 0) as [E|E].
  - rewrite next_iter_odd by lia. reflexivity.
  - rewrite next_iter_ok by lia. cbn [bind]. change (ItMemory (16 * 0) _) with (mem_iter data 0).
    now rewrite (stream_values_odd data (len data / 2)) by (assumption || lia).
Qed.

(** ** The end of a counter-mode stream *)

Lemma ctr_never_null {I} (ops : iter_ops I) k c : it_next (ItCTR_ops ops k) c <> Ok None.
Proof.
  cbn [ItCTR_ops it_next]. destruct (ic_iter c) as [i|]; [|discriminate]. cbn [deref bind].
  now destruct (it_next ops i).
Qed.

Lemma ctr_past_end {I} (ops : iter_ops I) k iv p n : iv < 2 ^ 64 ->
  (p <- p ;; advance ops n p) = Ok None ->
  exists c, (q <- StCTR_iter p iv ;; advance (ItCTR_ops ops k) n q) = Ok (Some c) /\
    it_value (ItCTR_ops ops k) c = Undef NullDeref /\ it_last (ItCTR_ops ops k) c = Undef NullDeref.
Proof.
  intros Hiv H. rewrite ctr_position by exact Hiv. destruct p as [p| | |]; try discriminate.
  cbn [bind] in *. rewrite H. cbn [bind]. eexists. split; [reflexivity|]. split; reflexivity.
Qed.

(** ** Shifts *)

Lemma KShifted_kpair m x n : x < 2 ^ 128 -> (1 <= n <= 63)%Z ->
  KShifted m (Ok (kpair x)) n = Ok (kpair ((x * 2 ^ Z.to_N n) mod 2 ^ 128)).
Proof.
  intros Hx Hn.
  assert (Hh : x / 2 ^ 64 < 2 ^ 64). { apply N.div_lt_upper_bound; [lia|]. exact Hx. }
  destruct (KShifted_ok m (x mod 2 ^ 64) (x / 2 ^ 64) n) as (lo & hi & H & Hlo & Hhi & Hv);
    [apply mod_pow2_lt|exact Hh|exact Hn|].
  unfold kpair at 1. rewrite H. f_equal. rewrite split_join in Hv. rewrite <- Hv.
  now rewrite kpair_join.
Qed.

Lemma KShifted_undef b n : ~ (1 <= n <= 63)%Z -> KShifted ISO (Ok b) n = Undef WideShift.
Proof.
  intros Hn. destruct b as [lo hi]. unfold KShifted. cbn [bind]. unfold shl64, shr64.
  destruct ((0 <=? n) && (n <? 64))%Z eqn:E; [|reflexivity]. cbn [bind].
  assert (n = 0%Z) as -> by lia. reflexivity.
Qed.

(** ** Literals *)

(** Characters that end a run of hexadecimal digits. *)
Definition stops (g : str) : Prop := match g with [] => True | c :: _ => ~ hex_digit c end.

Lemma hexval_none c : ~ hex_digit c -> hexval c = None.
Proof.
  intros H. rewrite hexval_digit. unfold hex_digit in H. destruct (digit c); [|reflexivity].
  exfalso. apply H. discriminate.
Qed.

Lemma scan_digits_stop g acc : stops g -> scan_digits acc g = acc.
Proof.
  destruct g as [|c g]; intros H; [reflexivity|]. cbn [scan_digits]. now rewrite hexval_none.
Qed.

Lemma scan_digits_app d g : Forall hex_digit d -> stops g -> forall a,
  scan_digits (Some a) (d ++ g) = Some (a * 16 ^ len d + number d).
Proof.
  intros Hd Hg. induction Hd as [|c d Hc Hd IH]; intros a.
  - cbn [app number]. rewrite scan_digits_stop by exact Hg. unfold len. cbn. f_equal. lia.
  - cbn [app scan_digits]. rewrite hex_digit_hexval by exact Hc. rewrite IH. f_equal.
    cbn [number]. rewrite len_cons, N.pow_add_r, N.pow_1_r. lia.
Qed.

Lemma scan_hex_garbage c d g : Forall hex_digit (c :: d) -> stops g ->
  ~ (c = 48 /\ d = [] /\ exists r, g = 120 :: r \/ g = 88 :: r) ->
  scan_hex (c :: d ++ g) = Some (number (c :: d)).
Proof.
  intros Hd Hg Hx. inversion Hd as [|? ? Hc Hd']; subst.
  assert (E : scan_digits None (c :: d ++ g) = Some (number (c :: d))).
  { cbn [scan_digits]. rewrite hex_digit_hexval by exact Hc.
    rewrite scan_digits_app by assumption. reflexivity. }
  unfold scan_hex. destruct (d ++ g) as [|x r] eqn:Eg; [exact E|].
  destruct ((c =? 48) && ((x =? 120) || (x =? 88))) eqn:T; [|exact E].
  exfalso. apply Hx. destruct d as [|y d].
  - cbn [app] in Eg. subst g. split; [lia|]. split; [reflexivity|]. exists r.
    destruct (N.eq_dec x 120) as [->|]; [now left|]. right. f_equal. lia.
  - cbn [app] in Eg. injection Eg as -> _. inversion Hd' as [|? ? Hy _]; subst.
    apply hex_digit_range in Hy. lia.
Qed.

Lemma stoull16_garbage c d g : Forall hex_digit (c :: d) -> stops g ->
  ~ (c = 48 /\ d = [] /\ exists r, g = 120 :: r \/ g = 88 :: r) ->
  (List.length (c :: d) <= 16)%nat -> stoull16 ((c :: d) ++ g) = Ok (number (c :: d)).
Proof.
  intros Hd Hg Hx Hl. unfold stoull16.
  inversion Hd as [|? ? Hc Hd']; subst. pose proof (hex_digit_range c Hc) as Hr.
  assert (E1 : skip_ws ((c :: d) ++ g) = (c :: d) ++ g).
  { cbn [app skip_ws]. unfold isspace. now replace ((c =? 32) || ((9 <=? c) && (c <=? 13))) with false by lia. }
  rewrite E1. unfold take_sign. cbn [app].
  replace (c =? 45) with false by lia. replace (c =? 43) with false by lia.
  rewrite scan_hex_garbage by assumption.
  pose proof (number_lt (c :: d)) as Hn.
  assert (16 ^ len (c :: d) <= 16 ^ 16) by (apply N.pow_le_mono_r; unfold len; lia).
  change (16 ^ 16) with (2 ^ 64) in *.
  now rewrite (proj2 (N.leb_gt _ _)) by lia.
Qed.

Lemma KString_halves hi lo : List.length hi = 16%nat -> List.length lo = 16%nat ->
  KString (hi ++ lo) = (v1 <- stoull16 lo ;; v2 <- stoull16 hi ;; Ok (v1, v2)).
Proof.
  intros Hh Hl. unfold KString, pad_left. rewrite app_length, Hh, Hl. cbn [Nat.add Nat.sub repeat app].
  rewrite !substr_ok by (unfold len; rewrite ?app_length; lia). cbn [bind].
  change (N.to_nat 16) with 16%nat. change (N.to_nat 0) with 0%nat. rewrite skipn_O.
  rewrite skipn_app_exact, firstn_app_exact by assumption.
  now rewrite (firstn_all2 lo) by lia.
Qed.

Lemma BlkString_halves hi lo : List.length hi = 8%nat -> List.length lo = 8%nat ->
  BlkString (hi ++ lo) = (v1 <- stoull16 lo ;; v2 <- stoull16 hi ;; Ok (w32 v1, w32 v2)).
Proof.
  intros Hh Hl. unfold BlkString, pad_left. change (block_size * 2)%nat with 16%nat.
  rewrite app_length, Hh, Hl. cbn [Nat.add Nat.sub repeat app].
  rewrite !substr_ok by (unfold len; rewrite ?app_length; lia). cbn [bind].
  change (N.to_nat 8) with 8%nat. change (N.to_nat 0) with 0%nat. rewrite skipn_O.
  rewrite skipn_app_exact, firstn_app_exact by assumption.
  now rewrite (firstn_all2 lo) by lia.
Qed.

(** A piece that begins with something that cannot begin a number is rejected. *)
Lemma stoull16_bad c r : ~ hex_digit c -> isspace c = false -> c <> 43 -> c <> 45 ->
  stoull16 (c :: r) = Throw InvalidArgument.
Proof.
  intros H1 H2 H3 H4. unfold stoull16. cbn [skip_ws]. rewrite H2. unfold take_sign.
  replace (c =? 45) with false by lia. replace (c =? 43) with false by lia.
  assert (c <> 48). { intros ->. apply H1. discriminate. }
  assert (E : scan_digits None (c :: r) = None).
  { cbn [scan_digits]. now rewrite hexval_none. }
  unfold scan_hex. destruct r as [|x r]; [now rewrite E|].
  replace (c =? 48) with false by lia. cbn [andb]. now rewrite E.
Qed.

(** ** Key strings *)

Lemma Key_string_short s : (List.length s < 32)%nat -> Key_string s = Throw OutOfRange.
Proof.
  intros H. unfold Key_string, Key_data, KeyDataString_high, KeyDataString_low, substr.
  replace (len s <? 0) with false by lia. cbn [bind].
  now replace (len s <? 32) with true by (unfold len; lia).
Qed.

Lemma Key_string_medium s : Forall hex_digit s -> (32 <= List.length s <= 64)%nat ->
  Key_string s = Ok (Key_blocks (Ok (kpair (number (firstn 32 s)))) (Ok (kpair (number (skipn 32 s))))).
Proof.
  intros Hs Hl. unfold Key_string, Key_data, KeyDataString_high, KeyDataString_low.
  rewrite !substr_ok by (unfold len; lia). cbn [bind].
  change (N.to_nat 0) with 0%nat. change (N.to_nat 32) with 32%nat. rewrite skipn_O.
  assert (L1 : List.length (firstn 32 s) = 32%nat) by (rewrite firstn_length; lia).
  assert (L2 : (List.length (skipn 32 s) <= 32)%nat) by (rewrite skipn_length; lia).
  rewrite (firstn_all2 (skipn 32 s)) by lia.
  now rewrite !KString_hex by (lia || auto using Forall_firstn, Forall_skipn).
Qed.

Lemma Key_string_long s t : List.length s = 64%nat -> Key_string (s ++ t) = Key_string s.
Proof.
  intros H. unfold Key_string, Key_data, KeyDataString_high, KeyDataString_low.
  rewrite !substr_ok by (unfold len; rewrite ?app_length; lia). cbn [bind].
  change (N.to_nat 0) with 0%nat. change (N.to_nat 32) with 32%nat. rewrite !skipn_O.
  rewrite skipn_app, !firstn_app, skipn_length, H. cbn [Nat.sub].
  now rewrite !firstn_O, !app_nil_r.
Qed.

(** ** Statements assembled for PropKuz.v *)

Lemma ctr_counter {I} (ops : iter_ops I) k iv p n c : iv < 2 ^ 64 ->
  (q <- StCTR_iter p iv ;; advance (ItCTR_ops ops k) n q) = Ok (Some c) ->
  ic_ctr c = Ok (kpair ((iv * 2 ^ 64 + N.of_nat n) mod 2 ^ 128)).
Proof.
  intros Hiv H. rewrite ctr_position in H by exact Hiv. destruct p as [p| | |]; try discriminate.
  cbn [bind] in H. destruct (advance ops n p) as [q| | |]; try discriminate. cbn [bind] in H.
  apply Ok_inj in H. injection H as <-. reflexivity.
Qed.

Lemma counters_distinct {I J} (ops : iter_ops I) (ops' : iter_ops J) k k' iv
    (p : res (option I)) (q : res (option J)) n m c d :
  iv < 2 ^ 64 -> N.of_nat n < 2 ^ 128 -> N.of_nat m < 2 ^ 128 ->
  (q <- StCTR_iter p iv ;; advance (ItCTR_ops ops k) n q) = Ok (Some c) ->
  (q <- StCTR_iter q iv ;; advance (ItCTR_ops ops' k') m q) = Ok (Some d) ->
  ic_ctr c = ic_ctr d -> n = m.
Proof.
  intros Hiv Hn Hm Hc Hd H. apply ctr_counter in Hc; [|exact Hiv]. apply ctr_counter in Hd; [|exact Hiv].
  rewrite Hc, Hd in H. apply Ok_inj, kpair_inj in H.
  assert (E : N.of_nat n = N.of_nat m) by (apply (counter_inj iv); assumption). lia.
Qed.

Lemma counters_distinct_iv {I J} (ops : iter_ops I) (ops' : iter_ops J) k k' iv jv
    (p : res (option I)) (q : res (option J)) n m c d :
  iv < 2 ^ 64 -> jv < 2 ^ 64 -> N.of_nat n < 2 ^ 64 -> N.of_nat m < 2 ^ 64 ->
  (q <- StCTR_iter p iv ;; advance (ItCTR_ops ops k) n q) = Ok (Some c) ->
  (q <- StCTR_iter q jv ;; advance (ItCTR_ops ops' k') m q) = Ok (Some d) ->
  ic_ctr c = ic_ctr d -> iv = jv /\ n = m.
Proof.
  intros Hiv Hjv Hn Hm Hc Hd H. apply ctr_counter in Hc; [|exact Hiv]. apply ctr_counter in Hd; [|exact Hjv].
  rewrite Hc, Hd in H. apply Ok_inj, kpair_inj in H.
  destruct (counter_iv_inj iv jv (N.of_nat n) (N.of_nat m)) as [E1 E2]; try assumption. lia.
Qed.

Lemma keystream_one {I J} (ops : iter_ops I) (ops' : iter_ops J) k K iv
    (p : res (option I)) (q : res (option J)) n m v w c d :
  K < 2 ^ 256 -> kuz_enciphers k (Kuz_E K) -> iv < 2 ^ 64 ->
  N.of_nat n < 2 ^ 128 -> N.of_nat m < 2 ^ 128 -> n <> m ->
  block_at ops p n = Ok v -> block_at (ItCTR_ops ops k) (StCTR_iter p iv) n = Ok c ->
  block_at ops' q m = Ok w -> block_at (ItCTR_ops ops' k) (StCTR_iter q iv) m = Ok d ->
  xor_pair v c <> xor_pair w d.
Proof.
  intros HK HE Hiv Hn Hm Hnm Hv Hc Hw Hd H. apply Hnm.
  assert (E : N.of_nat n = N.of_nat m).
  { apply (counter_inj iv); try assumption.
    apply (keystream_distinct ops ops' k (Kuz_E K) iv iv p q n m v w c d); try assumption.
    intros x y. now apply Kuz_E_inj. }
  lia.
Qed.

Lemma keystream_iv {I J} (ops : iter_ops I) (ops' : iter_ops J) k K iv jv
    (p : res (option I)) (q : res (option J)) n m v w c d :
  K < 2 ^ 256 -> kuz_enciphers k (Kuz_E K) -> iv < 2 ^ 64 -> jv < 2 ^ 64 ->
  N.of_nat n < 2 ^ 64 -> N.of_nat m < 2 ^ 64 -> iv <> jv ->
  block_at ops p n = Ok v -> block_at (ItCTR_ops ops k) (StCTR_iter p iv) n = Ok c ->
  block_at ops' q m = Ok w -> block_at (ItCTR_ops ops' k) (StCTR_iter q jv) m = Ok d ->
  xor_pair v c <> xor_pair w d.
Proof.
  intros HK HE Hiv Hjv Hn Hm Hne Hv Hc Hw Hd H. apply Hne.
  apply (counter_iv_inj iv jv (N.of_nat n) (N.of_nat m)); try assumption.
  apply (keystream_distinct ops ops' k (Kuz_E K) iv jv p q n m v w c d); try assumption.
  intros x y. now apply Kuz_E_inj.
Qed.

Lemma mem_enumeration data n i : 8 * len data < 2 ^ 64 -> len data = 2 * n -> N.of_nat i < n ->
  let ops := ItMemory_ops (Some data) in
  let p := StMemory_iter true data in
  block_at ops p i = Ok (nth (2 * i) data 0, nth (2 * i + 1) data 0) /\
  last_at ops p i = Ok (N.of_nat i + 1 =? n) /\ size_at ops p i = Ok 16.
Proof.
  intros Hs Hn Hi. cbv zeta. split; [|split].
  - apply mem_block; [exact Hs|lia].
  - now apply mem_last.
  - apply mem_size; [exact Hs|lia].
Qed.

Lemma mem_exactly data n : 8 * len data < 2 ^ 64 -> len data = 2 * N.of_nat n ->
  (p <- StMemory_iter true data ;; advance (ItMemory_ops (Some data)) n p) = Ok None /\
  forall i, (i < n)%nat -> exists it,
    (p <- StMemory_iter true data ;; advance (ItMemory_ops (Some data)) i p) = Ok (Some it).
Proof.
  intros Hs Hn. split; [now apply mem_end|]. intros i Hi. eexists.
  rewrite mem_advance by (assumption || lia). apply next_iter_ok. lia.
Qed.

Lemma mem_not_shared data : data <> [] -> StMemory_iter false data = Throw BadWeakPtr.
Proof.
  intros H. unfold StMemory_iter, StMemory_next_iter. destruct data as [|w data]; [congruence|].
  rewrite len_cons. replace (len data + 1 <=? 0 / 8) with false; [reflexivity|].
  change (0 / 8) with 0. lia.
Qed.

Lemma word_pairs_kpair data : Forall u64 data ->
  word_pairs data = map kpair (map (fun v => snd v * 2 ^ 64 + fst v) (word_pairs data)) /\
  Forall (fun x => x < 2 ^ 128) (map (fun v => snd v * 2 ^ 64 + fst v) (word_pairs data)).
Proof.
  remember (List.length data) as n eqn:En. assert (Hn : (List.length data <= n)%nat) by lia. clear En.
  revert data Hn. induction n as [|n IH]; intros [|lo [|hi data]] Hn Hd; cbn [List.length] in Hn;
    try lia; try (split; [reflexivity|constructor]).
  inversion Hd as [|? ? Hlo Hd1]; subst. inversion Hd1 as [|? ? Hhi Hd2]; subst.
  destruct (IH data ltac:(lia) Hd2) as [E1 E2]. cbn [word_pairs map fst snd]. split.
  - rewrite kpair_join by exact Hlo. now rewrite <- E1.
  - constructor; [|exact E2]. change 128 with (64 + 64). now apply split_lt.
Qed.

Section MemMac.
Context (data : list N) (Hu : Forall u64 data) (Hs : 8 * len data < 2 ^ 64).
Context (Hne : data <> []) (He : len data mod 2 = 0).
Let ps := map (fun v => snd v * 2 ^ 64 + fst v) (word_pairs data).

Lemma mem_ps_presents : presents (ItMemory_ops (Some data)) (StMemory_iter true data) (map kpair ps).
Proof.
  unfold ps. destruct (word_pairs_kpair data Hu) as [E _]. rewrite <- E. now apply mem_presents.
Qed.

Lemma mem_ps_length : len data = 2 * N.of_nat (List.length ps) /\ (0 < List.length ps)%nat.
Proof.
  assert (Hk : len data = 2 * (len data / 2)) by (apply N.div_exact; [discriminate|exact He]).
  pose proof (word_pairs_length data _ Hk) as HL. unfold len in HL at 1.
  assert (List.length ps = List.length (word_pairs data)) by (unfold ps; now rewrite map_length).
  assert (0 < len data) by (destruct data; [congruence|unfold len; cbn; lia]).
  split; lia.
Qed.

Lemma mem_ps_size : size_at (ItMemory_ops (Some data)) (StMemory_iter true data) (List.length ps - 1) = Ok 16.
Proof. destruct mem_ps_length. apply mem_size; [exact Hs|lia]. Qed.
End MemMac.

Lemma mem_imit k E m data fuel : kuz_enciphers k E -> Forall u64 data ->
  8 * len data < 2 ^ 64 -> data <> [] -> len data mod 2 = 0 -> len data <= N.of_nat fuel ->
  KImit fuel m (ItMemory_ops (Some data)) (StMemory_iter true data) k =
  Ok (kpair (mac E 128 0x87 (map (fun v => snd v * 2 ^ 64 + fst v) (word_pairs data)))).
Proof.
  intros HE Hu Hs Hne He Hf. destruct (mem_ps_length data Hu Hs Hne He).
  rewrite (kimit_ok _ k E HE m (map (fun v => snd v * 2 ^ 64 + fst v) (word_pairs data)) _ fuel 16).
  - reflexivity.
  - now apply word_pairs_kpair.
  - now apply mem_ps_presents.
  - now apply mem_ps_size.
  - lia.
Qed.

Lemma mem_imit_defined m k E data fuel : kuz_enciphers k E -> Forall u64 data ->
  8 * len data < 2 ^ 64 -> data <> [] -> len data mod 2 = 0 -> len data <= N.of_nat fuel ->
  exists t, KImit fuel m (ItMemory_ops (Some data)) (StMemory_iter true data) k = Ok t.
Proof. intros HE Hu Hs Hne He Hf. eexists. now apply (mem_imit k E). Qed.

Lemma ctr_bound E ps : (forall x, x < 2 ^ 128 -> E x < 2 ^ 128) -> forall iv i,
  Forall (fun x => x < 2 ^ 128) ps -> Forall (fun x => x < 2 ^ 128) (ctr_from E 128 iv i ps).
Proof.
  intros HE iv i H. revert i. induction H as [|p ps Hp H IH]; intros i; [constructor|].
  cbn [ctr_from]. constructor; [|apply IH]. apply lxor_lt; [exact Hp|]. apply HE, mod_pow2_lt.
Qed.

Lemma ctr_mem_imit k k' E E' m iv data fuel :
  kuz_enciphers k E -> kuz_enciphers k' E' -> iv < 2 ^ 64 -> Forall u64 data ->
  8 * len data < 2 ^ 64 -> data <> [] -> len data mod 2 = 0 -> len data <= N.of_nat fuel ->
  KImit fuel m (ItCTR_ops (ItMemory_ops (Some data)) k') (StCTR_iter (StMemory_iter true data) iv) k =
  Ok (kpair (mac E 128 0x87
               (ctr E' 128 iv (map (fun v => snd v * 2 ^ 64 + fst v) (word_pairs data))))).
Proof.
  intros HE HE' Hiv Hu Hs Hne He Hf. destruct (mem_ps_length data Hu Hs Hne He).
  rewrite (kimit_ok _ k E HE m
    (ctr E' 128 iv (map (fun v => snd v * 2 ^ 64 + fst v) (word_pairs data))) _ fuel 16).
  - reflexivity.
  - apply ctr_bound; [intros x Hx; now apply HE'|]. now apply word_pairs_kpair.
  - apply ctr_presents; [exact HE'|exact Hiv|]. now apply mem_ps_presents.
  - rewrite ctr_size by exact Hiv. unfold ctr. rewrite ctr_from_length. now apply mem_ps_size.
  - unfold ctr. rewrite ctr_from_length. lia.
Qed.

Lemma kuz_imit_detects {I J} (ops : iter_ops I) (ops' : iter_ops J) k K m ps qs
    (p : res (option I)) (q : res (option J)) fuel fuel' sz :
  K < 2 ^ 256 -> kuz_enciphers k (Kuz_E K) ->
  Forall (fun x => x < 2 ^ 128) ps -> Forall (fun x => x < 2 ^ 128) qs -> SpecMac.differ_once ps qs ->
  presents ops p (map kpair ps) -> presents ops' q (map kpair qs) ->
  size_at ops p (List.length ps - 1) = Ok sz -> size_at ops' q (List.length qs - 1) = Ok sz ->
  (List.length ps <= fuel)%nat -> (List.length qs <= fuel')%nat ->
  exists a b, KImit fuel m ops p k = Ok a /\ KImit fuel' m ops' q k = Ok b /\ a <> b.
Proof.
  intros HK HE. apply (kimit_detects ops ops' k (Kuz_E K)); [exact HE|]. intros x y. now apply Kuz_E_inj.
Qed.

Lemma KString_garbage c e d f g h :
  Forall hex_digit (c :: d) -> Forall hex_digit (e :: f) -> stops g -> stops h ->
  ~ (c = 48 /\ d = [] /\ exists r, g = 120 :: r \/ g = 88 :: r) ->
  ~ (e = 48 /\ f = [] /\ exists r, h = 120 :: r \/ h = 88 :: r) ->
  List.length ((c :: d) ++ g) = 16%nat -> List.length ((e :: f) ++ h) = 16%nat ->
  KString (((c :: d) ++ g) ++ (e :: f) ++ h) = Ok (number (e :: f), number (c :: d)).
Proof.
  intros Hd Hf Hg Hh Hx Hy L1 L2. rewrite KString_halves by assumption.
  rewrite !stoull16_garbage; try assumption; [reflexivity|..].
  - rewrite app_length in L1. lia.
  - rewrite app_length in L2. lia.
Qed.

Lemma literal_rejected c r hi :
  ~ hex_digit c -> isspace c = false -> c <> 43 -> c <> 45 ->
  (List.length hi = 8%nat -> List.length (c :: r) = 8%nat ->
     BlkString (hi ++ c :: r) = Throw InvalidArgument) /\
  (List.length hi = 16%nat -> List.length (c :: r) = 16%nat ->
     KString (hi ++ c :: r) = Throw InvalidArgument).
Proof.
  intros H1 H2 H3 H4. split; intros L1 L2.
  - rewrite BlkString_halves by assumption. now rewrite stoull16_bad.
  - rewrite KString_halves by assumption. now rewrite stoull16_bad.
Qed.

Lemma Key_string_accepted s : Forall hex_digit s -> (32 <= List.length s < 64)%nat ->
  exists k, Key_string s = Ok k /\ k1 k = Ok (kpair (number (firstn 32 s))) /\
            k2 k = Ok (kpair (number (skipn 32 s))).
Proof.
  intros Hs Hl. eexists. split; [apply Key_string_medium; [exact Hs|lia]|]. split; reflexivity.
Qed.
