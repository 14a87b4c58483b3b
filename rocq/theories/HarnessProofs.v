(** Proofs about the classes of the tests. *)
From Verif Require Import Base Text MagmaModel KuzModel Streams HarnessModel Lib SpecText SpecMagma
  SpecModes SpecStreams SpecHarness TextProofs MagmaProofs MagmaSpecProofs ByteProofs SinkProofs
  SourceProofs StreamProofs StreamFacts ContainerProofs KeyMore.
From Coq Require Import ZifyNat ZifyN ZifyBool.
Local Open Scope N_scope.
Ltac Zify.zify_post_hook ::= Z.div_mod_to_equations.

(** ** Characters *)

Lemma isxdigit_spec c : c < 128 ->
  isxdigit c = Ok (match digit c with Some _ => true | None => false end).
Proof.
  intros H. unfold isxdigit, ctype_domain. rewrite (proj2 (N.ltb_lt _ _) H). cbn [orb].
  now rewrite hexval_digit.
Qed.

Lemma hex_digit_ascii c : hex_digit c -> c < 128.
Proof.
  intros H. pose proof (hex_digit_hexval c H) as E. unfold hexval in E.
  destruct ((48 <=? c) && (c <=? 57)) eqn:E1; [lia|].
  destruct ((97 <=? c) && (c <=? 102)) eqn:E2; [lia|].
  destruct ((65 <=? c) && (c <=? 70)) eqn:E3; [lia|discriminate].
Qed.

Lemma digits_of_hex s : Forall hex_digit (digits_of s).
Proof.
  apply Forall_forall. intros c H. apply filter_In in H. destruct H as [_ H].
  unfold hex_digit. now destruct (digit c).
Qed.

Lemma digits_of_all s : Forall hex_digit s -> digits_of s = s.
Proof.
  induction 1 as [|c s H _ IH]; [reflexivity|]. unfold digits_of in *. cbn [filter].
  unfold hex_digit in H. destruct (digit c); [now rewrite IH|congruence].
Qed.

Lemma digits_of_app a b : digits_of (a ++ b) = digits_of a ++ digits_of b.
Proof. apply filter_app. Qed.

(** ** Groups of sixteen *)

Lemma words16_short d : (List.length d < 16)%nat -> words16 d = [].
Proof. intros H. unfold words16. now rewrite Nat.div_small by exact H. Qed.

Lemma words16_cons a b : List.length a = 16%nat -> words16 (a ++ b) = number a :: words16 b.
Proof.
  intros H. unfold words16. rewrite app_length, H.
  replace ((16 + List.length b) / 16)%nat with (1 + List.length b / 16)%nat by lia.
  replace (16 * (1 + List.length b / 16))%nat with (16 + 16 * (List.length b / 16))%nat by lia.
  rewrite firstn_app, H, firstn_all2 by lia.
  replace (16 + 16 * (List.length b / 16) - 16)%nat with (16 * (List.length b / 16))%nat by lia.
  rewrite pieces_cons by (exact H || lia). reflexivity.
Qed.

Lemma words16_lt_n n : forall d, (List.length d <= n)%nat -> Forall (fun x => x < 2 ^ 64) (words16 d).
Proof.
  induction n as [|n IH]; intros d Hn.
  - rewrite words16_short by lia. constructor.
  - destruct (Nat.lt_ge_cases (List.length d) 16) as [H|H]; [rewrite words16_short by exact H; constructor|].
    rewrite <- (firstn_skipn 16 d). rewrite words16_cons by (rewrite firstn_length; lia).
    constructor.
    + pose proof (number_lt (firstn 16 d)) as L. unfold len in L. rewrite firstn_length in L.
      replace (Nat.min 16 (List.length d)) with 16%nat in L by lia. exact L.
    + apply IH. rewrite skipn_length. lia.
Qed.

Lemma words16_lt d : Forall (fun x => x < 2 ^ 64) (words16 d).
Proof. now apply (words16_lt_n (List.length d)). Qed.

Lemma text_bytes_whole s : whole (text_bytes s).
Proof. apply unblocks8_whole. Qed.

Lemma blocks8_text s : blocks8 (text_bytes s) = text_words s.
Proof. apply blocks8_unblocks8, words16_lt. Qed.

(** ** Hex64Source *)

Lemma number_two c d : number [c; d] = 16 * digit_value c + digit_value d.
Proof. cbn [number]. unfold len. cbn. lia. Qed.

Lemma hex64_bytes_ok hex : Forall hex_digit hex -> forall j, (2 * j <= List.length hex)%nat ->
  hex64_bytes j hex = Ok (to_le j (number (firstn (2 * j) hex))).
Proof.
  intros H. induction j as [|j IH]; intros Hj; [reflexivity|]. cbn [hex64_bytes].
  assert (L : List.length (firstn 2 (skipn (2 * j) hex)) = 2%nat)
    by (rewrite firstn_length, skipn_length; lia).
  set (g := firstn 2 (skipn (2 * j) hex)) in *.
  assert (Hg : Forall hex_digit g).
  { apply Forall_forall. intros x Hx. rewrite Forall_forall in H. apply H.
    unfold g in Hx. rewrite <- (firstn_skipn (2 * j) hex). apply in_or_app. right.
    rewrite <- (firstn_skipn 2 (skipn (2 * j) hex)). apply in_or_app. now left. }
  rewrite stoull16_hex; [|exact Hg|intros E; rewrite E in L; discriminate|lia]. cbn [bind].
  rewrite IH by lia. cbn [bind]. f_equal.
  assert (E : firstn (2 * Datatypes.S j) hex = firstn (2 * j) hex ++ g).
  { unfold g. replace (2 * Datatypes.S j)%nat with (2 * j + 2)%nat by lia.
    rewrite <- (firstn_skipn (2 * j) hex) at 1. rewrite firstn_app, firstn_length.
    replace (Nat.min (2 * j) (List.length hex)) with (2 * j)%nat by lia.
    rewrite firstn_all2 by (rewrite firstn_length; lia).
    now replace (2 * j + 2 - 2 * j)%nat with 2%nat by lia. }
  rewrite E, number_app. pose proof (number_lt g) as B. unfold len in B. unfold len. rewrite L in *.
  change (16 ^ N.of_nat 2) with 256 in *. cbn [to_le]. change (2 ^ 8) with 256.
  generalize dependent (number g). generalize (number (firstn (2 * j) hex)). clear. intros a b Hb.
  assert (E1 : (a * 256 + b) / 256 = a) by lia.
  assert (E2 : (a * 256 + b) mod 256 = b) by lia.
  rewrite E1, E2. unfold w8. now rewrite N.mod_small by exact Hb.
Qed.

Definition need (size : N) (out : bytes) : nat := N.to_nat ((size - len out + 7) / 8).

Lemma hex64_loop_ok s : forall size out hex, ascii s -> Forall hex_digit hex ->
  (List.length hex < 16)%nat -> (hex = [] \/ len out < size) ->
  let k := need size out in
  exists s', hex64_loop s size out hex =
    Ok (out ++ unblocks8 (firstn k (words16 (hex ++ digits_of s))), s') /\
    ascii s' /\ words16 (digits_of s') = skipn k (words16 (hex ++ digits_of s)).
Proof.
  induction s as [|c s IH]; intros size out hex Ha Hh Hl Hs k.
  - exists []. cbn [digits_of filter]. rewrite app_nil_r, words16_short by exact Hl.
    unfold k. rewrite firstn_nil, skipn_nil. cbn [unblocks8 flat_map hex64_loop]. rewrite app_nil_r.
    split; [now destruct (len out <? size)|]. split; [constructor|reflexivity].
  - inversion Ha as [|? ? Hc Ha']; subst. cbn [hex64_loop].
    destruct (len out <? size) eqn:E; cycle 1.
    { assert (Hx : hex = []) by (destruct Hs as [Hs|Hs]; [exact Hs|lia]). subst hex.
      exists (c :: s). assert (K : k = 0%nat) by (unfold k, need; lia). rewrite K. cbn [firstn skipn unblocks8 flat_map].
      rewrite app_nil_r. auto. }
    rewrite isxdigit_spec by exact Hc. cbn [bind].
    assert (D : digits_of (c :: s) = match digit c with Some _ => c :: digits_of s | None => digits_of s end)
      by (unfold digits_of; cbn [filter]; now destruct (digit c)).
    rewrite D. destruct (digit c) as [d|] eqn:Ed.
    + assert (Hc' : hex_digit c) by (unfold hex_digit; congruence).
      assert (Hh' : Forall hex_digit (hex ++ [c])) by (apply Forall_app; auto).
      replace (hex ++ c :: digits_of s) with ((hex ++ [c]) ++ digits_of s) by (rewrite <- app_assoc; reflexivity).
      destruct (Nat.eqb_spec (List.length (hex ++ [c])) 16) as [L|L].
      * rewrite hex64_bytes_ok by (exact Hh' || lia). cbn [bind].
        rewrite firstn_all2 by lia. rewrite words16_cons by exact L.
        destruct (IH size (out ++ to_le 8 (number (hex ++ [c]))) [] Ha' (Forall_nil _)) as (s' & E1 & E2 & E3);
          [cbn; lia|now left|].
        exists s'. rewrite E1. cbn [app] in E3 |- *. rewrite E3.
        assert (K : k = Datatypes.S (need size (out ++ to_le 8 (number (hex ++ [c]))))).
        { unfold k, need, len. rewrite app_length, to_le_length. unfold len in E. lia. }
        rewrite K. cbn [firstn skipn unblocks8 flat_map]. rewrite <- app_assoc. auto.
      * destruct (IH size out (hex ++ [c]) Ha' Hh') as (s' & E1 & E2 & E3);
          [rewrite app_length in *; cbn [List.length] in *; lia|right; lia|].
        exists s'. rewrite E1. auto.
    + destruct (IH size out hex Ha' Hh Hl) as (s' & E1 & E2 & E3); [right; lia|].
      exists s'. rewrite E1. auto.
Qed.

Lemma firstn_unblocks8 k l : firstn (8 * k) (unblocks8 l) = unblocks8 (firstn k l).
Proof.
  revert l. induction k as [|k IH]; intros l; [reflexivity|]. destruct l as [|x l]; [now rewrite firstn_nil|].
  replace (8 * Datatypes.S k)%nat with (8 + 8 * k)%nat by lia.
  cbn [unblocks8 flat_map firstn]. rewrite firstn_app, to_le_length, firstn_all2 by (rewrite to_le_length; lia).
  replace (8 + 8 * k - 8)%nat with (8 * k)%nat by lia. fold (unblocks8 l). now rewrite IH.
Qed.

Lemma skipn_unblocks8 k l : skipn (8 * k) (unblocks8 l) = unblocks8 (skipn k l).
Proof.
  revert l. induction k as [|k IH]; intros l; [reflexivity|]. destruct l as [|x l]; [now rewrite skipn_nil|].
  replace (8 * Datatypes.S k)%nat with (8 + 8 * k)%nat by lia.
  cbn [unblocks8 flat_map skipn]. rewrite skipn_app, to_le_length, skipn_all2 by (rewrite to_le_length; lia).
  replace (8 + 8 * k - 8)%nat with (8 * k)%nat by lia. fold (unblocks8 l). now rewrite IH.
Qed.

Definition hex64_left {W} (s : str) (_ : W) (data : bytes) : Prop := ascii s /\ data = text_bytes s.

Lemma hex64_read {W} s (w : W) size : ascii s ->
  exists s', Hex64Source_read s size w = (Ok (firstn (N.to_nat (round8 size)) (text_bytes s), s'), w) /\
    hex64_left s' w (skipn (N.to_nat (round8 size)) (text_bytes s)).
Proof.
  intros H. unfold Hex64Source_read, lift.
  destruct (hex64_loop_ok s size [] [] H (Forall_nil _)) as (s' & E1 & E2 & E3); [cbn; lia|now left|].
  exists s'. rewrite E1. cbn [app] in *.
  assert (K : N.to_nat (round8 size) = (8 * need size [])%nat).
  { unfold need, round8, len. cbn [List.length]. lia. }
  unfold text_bytes, text_words. rewrite K, firstn_unblocks8, skipn_unblocks8.
  split; [reflexivity|]. split; [exact E2|]. unfold text_bytes, text_words. now rewrite E3.
Qed.

Lemma hex64_reads {W} sizes : forall s (w : W), ascii s ->
  exists s', reads Hex64Source_read s sizes w = (Ok (served (text_bytes s) (map round8 sizes), s'), w).
Proof.
  induction sizes as [|n sizes IH]; intros s w H; [eexists; reflexivity|].
  destruct (hex64_read s w n H) as (s1 & E1 & H1 & E2).
  destruct (IH s1 w H1) as (s2 & E3). exists s2.
  cbn [reads served map]. unfold mbind. rewrite E1, E3, E2. reflexivity.
Qed.

Lemma hex64_blocks {W} : block_source (@Hex64Source_read W) hex64_left.
Proof.
  split.
  - intros s w data [H ->]. destruct (hex64_read s w 8 H) as (s' & E & L). exists s', w. auto.
  - intros s w n [H E0] Hn. destruct (hex64_read s w n H) as (s' & E & L). exists s', w.
    rewrite <- E0, firstn_nil in E. rewrite <- E0, skipn_nil in L. auto.
Qed.

Lemma hex64_giving {W} : keeps_giving (@Hex64Source_read W) hex64_left.
Proof.
  intros s w data n [H ->] Hn. destruct (hex64_read s w n H) as (s' & E & L).
  exists (N.to_nat (round8 n)), s', w. split; [exact E|]. split; [unfold round8; lia|exact L].
Qed.

(** ** Printing *)

Lemma hex_char_lower d : d < 16 -> hex_char d = lower_digit d.
Proof.
  intros H. assert (Hn : (N.to_nat d < 16)%nat) by lia.
  rewrite <- (N2Nat.id d). generalize dependent (N.to_nat d). clear. intros n H.
  do 16 (destruct n as [|n]; [reflexivity|]). lia.
Qed.

Lemma number_text_length n x : List.length (number_text n x) = n.
Proof. induction n as [|n IH]; [reflexivity|]. cbn [number_text List.length]. now rewrite IH. Qed.

Lemma number_text_snoc n : forall x, number_text (Datatypes.S n) x = number_text n (x / 16) ++ [lower_digit (x mod 16)].
Proof.
  induction n as [|n IH]; intros x.
  - cbn [number_text app]. change (16 ^ N.of_nat 0) with 1. now rewrite N.div_1_r.
  - change (number_text (Datatypes.S (Datatypes.S n)) x) with
      (lower_digit (x / 16 ^ N.of_nat (Datatypes.S n) mod 16) :: number_text (Datatypes.S n) x).
    rewrite IH. cbn [number_text app]. f_equal. rewrite N.div_div by lia. f_equal. f_equal. f_equal.
    rewrite Nat2N.inj_succ, N.pow_succ_r'. reflexivity.
Qed.

Lemma number_text_zeros n k x : x < 16 ^ N.of_nat n ->
  number_text (k + n) x = repeat 48 k ++ number_text n x.
Proof.
  intros H. induction k as [|k IH]; [reflexivity|].
  cbn [Nat.add number_text repeat app]. rewrite IH. f_equal.
  rewrite N.div_small; [reflexivity|]. eapply N.lt_le_trans; [exact H|]. apply N.pow_le_mono_r; lia.
Qed.

Lemma hex_digits_spec f : forall x, x < 16 ^ N.of_nat f -> (0 < f)%nat ->
  exists n, (0 < n <= f)%nat /\ x < 16 ^ N.of_nat n /\ hex_digits f x = number_text n x /\
    forall w, x < 16 ^ N.of_nat w -> (0 < w)%nat -> (n <= w)%nat.
Proof.
  induction f as [|f IH]; intros x Hx Hf; [lia|]. cbn [hex_digits]. destruct (x <? 16) eqn:E.
  - exists 1%nat. split; [lia|]. split; [change (16 ^ N.of_nat 1) with 16; lia|]. split; [|lia].
    rewrite hex_char_lower by lia. cbn [number_text]. change (16 ^ N.of_nat 0) with 1.
    now rewrite N.div_1_r, N.mod_small by lia.
  - assert (Q : x / 16 < 16 ^ N.of_nat f).
    { rewrite Nat2N.inj_succ, N.pow_succ_r' in Hx. apply N.div_lt_upper_bound; [lia|exact Hx]. }
    assert (F : (0 < f)%nat).
    { destruct f as [|f]; [change (16 ^ N.of_nat 1) with 16 in Hx; lia|lia]. }
    destruct (IH (x / 16) Q F) as (n & Hn & Hd & E1 & Hm). exists (Datatypes.S n).
    split; [lia|]. split.
    { rewrite Nat2N.inj_succ, N.pow_succ_r'. generalize dependent (16 ^ N.of_nat n). clear. intros y Hy. lia. }
    split.
    { rewrite E1, number_text_snoc, hex_char_lower by (clear; lia). reflexivity. }
    intros w Hw W0. destruct w as [|w]; [lia|].
    destruct w as [|w]; [change (16 ^ N.of_nat 1) with 16 in Hw; lia|].
    assert (n <= Datatypes.S w)%nat; [|lia]. apply Hm; [|lia].
    rewrite Nat2N.inj_succ, N.pow_succ_r' in Hw. apply N.div_lt_upper_bound; [lia|exact Hw].
Qed.

Lemma put_hex_spec w x : x < 16 ^ N.of_nat w -> (0 < w <= 16)%nat -> put_hex w x = number_text w x.
Proof.
  intros Hx Hw. unfold put_hex.
  assert (H16 : x < 16 ^ N.of_nat 16).
  { eapply N.lt_le_trans; [exact Hx|]. apply N.pow_le_mono_r; lia. }
  destruct (hex_digits_spec 16 x H16) as (n & Hn & Hd & E & Hm); [lia|].
  cbv zeta. rewrite E, number_text_length. specialize (Hm w Hx (proj1 Hw)).
  rewrite <- number_text_zeros by exact Hd. f_equal. lia.
Qed.

Lemma print_bytes_spec b : Forall u8 b -> print_bytes b = lower_hex b.
Proof.
  induction 1 as [|x b Hx _ IH]; [reflexivity|]. unfold print_bytes, lower_hex in *. cbn [flat_map].
  rewrite IH. f_equal. unfold u8 in Hx. rewrite put_hex_spec; [|exact Hx|lia].
  cbn [number_text]. change (16 ^ N.of_nat 1) with 16. change (16 ^ N.of_nat 0) with 1. rewrite N.div_1_r.
  rewrite (N.mod_small (x / 16)) by (clear - Hx; lia). reflexivity.
Qed.

Lemma lower_digit_inj a b : a < 16 -> b < 16 -> lower_digit a = lower_digit b -> a = b.
Proof.
  intros Ha Hb. rewrite <- !hex_char_lower by assumption. unfold hex_char.
  destruct (a <? 10) eqn:E1, (b <? 10) eqn:E2; lia.
Qed.

Lemma lower_digit_value d : d < 16 -> digit (lower_digit d) = Some d.
Proof.
  intros H. assert (Hn : (N.to_nat d < 16)%nat) by lia.
  rewrite <- (N2Nat.id d). generalize dependent (N.to_nat d). clear. intros n H.
  do 16 (destruct n as [|n]; [reflexivity|]). lia.
Qed.

Lemma lower_hex_app a b : lower_hex (a ++ b) = lower_hex a ++ lower_hex b.
Proof. apply flat_map_app. Qed.

Lemma lower_hex_inj a : forall b, Forall u8 a -> Forall u8 b -> lower_hex a = lower_hex b -> a = b.
Proof.
  induction a as [|x a IH]; intros [|y b] Ha Hb E; try reflexivity; try discriminate.
  inversion Ha; inversion Hb; subst. unfold lower_hex in E. cbn [flat_map app] in E. injection E as E1 E2 E3.
  unfold u8 in *. apply lower_digit_inj in E1; [|clear - H1; lia|clear - H5; lia].
  apply lower_digit_inj in E2; [|clear; lia|clear; lia].
  f_equal; [|apply IH; assumption]. clear - E1 E2. lia.
Qed.

Lemma number_text_inj n : forall x y, x < 16 ^ N.of_nat n -> y < 16 ^ N.of_nat n ->
  number_text n x = number_text n y -> x = y.
Proof.
  induction n as [|n IH]; intros x y Hx Hy E; [change (16 ^ N.of_nat 0) with 1 in *; lia|].
  rewrite !number_text_snoc in E. apply app_inj_tail in E. destruct E as [E1 E2].
  rewrite Nat2N.inj_succ, N.pow_succ_r' in Hx, Hy.
  apply IH in E1; [|apply N.div_lt_upper_bound; [lia|assumption]..].
  apply lower_digit_inj in E2; [|clear; lia|clear; lia]. clear - E1 E2. lia.
Qed.

Lemma number_text_app n m x : number_text (n + m) x = number_text n (x / 16 ^ N.of_nat m) ++ number_text m x.
Proof.
  induction n as [|n IH]; [reflexivity|]. cbn [Nat.add number_text app]. rewrite IH. f_equal. f_equal. f_equal.
  rewrite N.div_div by (try apply N.pow_nonzero; lia). f_equal. rewrite Nat2N.inj_add, N.pow_add_r. apply N.mul_comm.
Qed.

Lemma number_text_mod n x : number_text n (x mod 16 ^ N.of_nat n) = number_text n x.
Proof.
  revert x. induction n as [|n IH]; intros x; [reflexivity|].
  rewrite !number_text_snoc. rewrite Nat2N.inj_succ, N.pow_succ_r'.
  assert (P : 16 ^ N.of_nat n <> 0) by (apply N.pow_nonzero; lia).
  rewrite N.mod_mul_r by lia.
  replace (x mod 16 + 16 * ((x / 16) mod 16 ^ N.of_nat n)) with ((x / 16) mod 16 ^ N.of_nat n * 16 + x mod 16) by lia.
  assert (B : x mod 16 < 16) by (clear; lia).
  f_equal.
  - rewrite N.div_add_l by lia. rewrite (N.div_small (x mod 16)) by exact B. rewrite N.add_0_r. apply IH.
  - f_equal. f_equal. generalize ((x / 16) mod 16 ^ N.of_nat n). clear. intros y. lia.
Qed.

(** ** SourceText *)

Lemma source_text_loop {W St} (rd : reader W St) R (H : keeps_giving rd R) : forall n s w data out,
  R s w data -> (List.length data < n)%nat -> Forall u8 data ->
  exists w', nmloop n (source_text_step rd) (s, out) w = (Ok (out ++ lower_hex data), w').
Proof.
  induction n as [|n IH]; intros s w data out HR Hn Hb; [lia|].
  destruct (H s w data size_max HR ltac:(discriminate)) as (k & s' & w1 & E & Hk & HR').
  cbn [nmloop]. unfold source_text_step at 1. rewrite mbind_assoc. unfold mbind at 1. rewrite E.
  destruct data as [|x data].
  - rewrite firstn_nil. exists w1. cbn. now rewrite app_nil_r.
  - destruct k as [|k]; [lia|]. cbn [firstn]. rewrite mbind_mret_l.
    destruct (IH s' w1 (skipn (Datatypes.S k) (x :: data)) (out ++ print_bytes (x :: firstn k data)) HR') as (w' & E').
    + cbn [skipn]. rewrite skipn_length. cbn [List.length] in Hn. lia.
    + rewrite <- (firstn_skipn (Datatypes.S k) (x :: data)) in Hb. now apply Forall_app in Hb.
    + exists w'. etransitivity; [exact E'|]. f_equal. f_equal. rewrite <- app_assoc. f_equal.
      change (x :: firstn k data) with (firstn (Datatypes.S k) (x :: data)).
      rewrite print_bytes_spec, <- lower_hex_app, firstn_skipn; [reflexivity|].
      rewrite <- (firstn_skipn (Datatypes.S k) (x :: data)) in Hb. now apply Forall_app in Hb.
Qed.

Lemma source_text {W St} (rd : reader W St) R fuel s w data : keeps_giving rd R -> R s w data ->
  (List.length data < Pos.to_nat fuel)%nat -> Forall u8 data ->
  exists w', SourceText rd fuel s w = (Ok (lower_hex data), w').
Proof.
  intros H HR Hf Hb. unfold SourceText. rewrite mloop_nm.
  destruct (source_text_loop rd R H (Pos.to_nat fuel) s w data [] HR Hf Hb) as (w' & E). eauto.
Qed.

Lemma delivers_giving {W St} (rd : reader W St) R : delivers rd R -> keeps_giving rd R.
Proof.
  intros H s w data n HR Hn. destruct (H s w data n HR) as (s' & w' & E & HR').
  exists (N.to_nat n), s', w'. split; [exact E|]. split; [lia|exact HR'].
Qed.

Lemma blocks_giving {W St} (rd : reader W St) R : delivers_blocks rd R -> keeps_giving rd R.
Proof.
  intros H s w data n HR Hn. destruct (H s w data n HR Hn) as (s' & w' & E & HR').
  exists 8%nat, s', w'. split; [exact E|]. split; [lia|exact HR'].
Qed.

Lemma text_bytes_length s : (List.length (text_bytes s) <= List.length s)%nat.
Proof.
  unfold text_bytes. rewrite unblocks8_length. unfold text_words.
  assert (L : forall n d, (List.length d <= n)%nat -> (8 * List.length (words16 d) <= List.length d)%nat).
  { induction n as [|n IH]; intros d Hd.
    - rewrite words16_short by lia. cbn [List.length]. lia.
    - destruct (Nat.lt_ge_cases (List.length d) 16) as [H|H]; [rewrite words16_short by exact H; cbn [List.length]; lia|].
      rewrite <- (firstn_skipn 16 d). rewrite words16_cons by (rewrite firstn_length; lia).
      rewrite app_length. cbn [List.length]. specialize (IH (skipn 16 d)).
      assert (List.length (firstn 16 d) = 16%nat) by (rewrite firstn_length; lia).
      assert (List.length (skipn 16 d) = List.length d - 16)%nat by (apply skipn_length). lia. }
  specialize (L _ (digits_of s) (le_n _)).
  assert (F : (List.length (digits_of s) <= List.length s)%nat).
  { unfold digits_of. clear. induction s as [|c s IH]; [cbn; lia|]. cbn [filter].
    destruct (digit c); cbn [List.length]; lia. }
  lia.
Qed.

(** ** TestSinkText *)

Lemma test_sink_writes {W} chunks : forall s (w : W),
  writes TestSink_write s chunks w = (Ok (s ++ List.concat chunks), w).
Proof.
  induction chunks as [|c chunks IH]; intros s w; cbn [writes List.concat]; [now rewrite app_nil_r|].
  unfold TestSink_write at 1. rewrite mbind_mret_l, IH. now rewrite app_assoc.
Qed.

(** The whole text in one read; a std::string is shorter than 2^64. *)
Lemma hex64_all {W} s (w : W) : ascii s -> len s < size_max ->
  exists s', Hex64Source_read s size_max w = (Ok (text_bytes s, s'), w).
Proof.
  intros H Hl. destruct (hex64_read s w size_max H) as (s' & E & _). exists s'.
  rewrite firstn_all2 in E; [exact E|]. pose proof (text_bytes_length s) as L.
  unfold round8. unfold len in Hl. lia.
Qed.

Lemma complete_whole_all d : whole d -> complete d = d /\ leftover d = [].
Proof.
  intros [H _]. unfold complete, leftover.
  replace (8 * (List.length d / 8))%nat with (List.length d) by lia.
  split; [apply firstn_all|apply skipn_all].
Qed.

Lemma sink_text_magma {W} m k E ivl ivr t (w : W) : enciphers k E -> ivl < 2 ^ 64 -> ivr < 2 ^ 64 ->
  ascii t -> len t < size_max ->
  TestSinkText Hex64Source_read (magma_CFBSink_write TestSink_write m)
    (magma_CFBSink_finalize TestSink_write m) (magma_CFBSink_init [] k ivl ivr) t w =
  (Ok (lower_hex (unblocks8 (cfb_encrypt E [ivl; ivr] (text_words t)))), w).
Proof.
  intros HE H1 H2 Ht Hl. unfold TestSinkText. destruct (hex64_all t w Ht Hl) as (s' & R).
  unfold mbind at 1. rewrite R. unfold magma_CFBSink_init.
  pose proof (text_bytes_whole t) as Wh.
  unfold mbind at 1. rewrite (magma_write_general _ _ E) by (try assumption; try apply Wh; try apply Forall_nil; cbn; lia).
  cbn [app]. destruct (complete_whole_all _ Wh) as [-> ->].
  unfold mbind at 1. rewrite test_sink_writes. cbn [app].
  unfold magma_CFBSink_finalize, mbind, mret. cbn [mcs_plain mcs_sink]. f_equal. f_equal.
  unfold TestSink_asHexString. rewrite concat_map_to_le, blocks8_text.
  apply print_bytes_spec, unblocks8_u8.
Qed.

Lemma sink_text_gost {W} m k E iv t (w : W) : enciphers k E -> iv < 2 ^ 64 ->
  ascii t -> len t < size_max ->
  TestSinkText Hex64Source_read (gost_CFBSink_write TestSink_write m)
    (gost_CFBSink_finalize TestSink_write m) (gost_CFBSink_init [] k iv) t w =
  (Ok (lower_hex (unblocks8 (cfb_encrypt E [iv] (text_words t)))), w).
Proof.
  intros HE H1 Ht Hl. unfold TestSinkText. destruct (hex64_all t w Ht Hl) as (s' & R).
  unfold mbind at 1. rewrite R. unfold gost_CFBSink_init.
  pose proof (text_bytes_whole t) as Wh.
  unfold mbind at 1. rewrite (gost_write_general _ _ E) by (try assumption; try apply Wh; try apply Forall_nil; cbn; lia).
  cbn [app]. destruct (complete_whole_all _ Wh) as [-> ->].
  unfold mbind at 1. rewrite test_sink_writes. cbn [app].
  unfold gost_CFBSink_finalize, mbind, mret. cbn [gcs_plain gcs_sink]. f_equal. f_equal.
  unfold TestSink_asHexString. rewrite concat_map_to_le, blocks8_text.
  apply print_bytes_spec, unblocks8_u8.
Qed.

Lemma sink_text_ecb {W} k E t (w : W) : transforms k E -> ascii t -> len t < size_max ->
  TestSinkText Hex64Source_read (ECBSink_write TestSink_write) (@ECBSink_finalize W bytes) (ECBSink [] k) t w =
  (Ok (lower_hex (unblocks8 (ecb E (text_words t)))), w).
Proof.
  intros HE Ht Hl. unfold TestSinkText. destruct (hex64_all t w Ht Hl) as (s' & R).
  unfold mbind at 1. rewrite R. pose proof (text_bytes_whole t) as Wh.
  unfold mbind at 1. rewrite ECBSink_write_general. unfold mbind at 1.
  rewrite (encrypt_send_total _ _ E) by (exact HE || apply blocks8_lt; destruct (complete_whole_all _ Wh) as [-> _]; exact Wh).
  destruct (complete_whole_all _ Wh) as [-> ->]. rewrite test_sink_writes. cbn [app].
  unfold ECBSink_finalize, mbind, mret. cbn [es_sink]. f_equal. f_equal.
  unfold TestSink_asHexString. rewrite concat_map_to_le, blocks8_text.
  apply print_bytes_spec, unblocks8_u8.
Qed.

(** ** SourceText of the decrypting sources *)

Lemma source_text_magma {W} m k E ivl ivr t (w : W) fuel : enciphers k E -> ivl < 2 ^ 64 -> ivr < 2 ^ 64 ->
  ascii t -> (List.length t < Pos.to_nat fuel)%nat ->
  exists w', SourceText (magma_CFBSource_read Hex64Source_read m) fuel (magma_CFBSource_init t k ivl ivr) w =
  (Ok (lower_hex (unblocks8 (cfb_decrypt E [ivl; ivr] (text_words t)))), w').
Proof.
  intros HE H1 H2 Ht Hf. rewrite <- (blocks8_text t).
  eapply source_text; [apply delivers_giving, (magma_delivers _ _ k E hex64_left HE (proj1 hex64_blocks))
    |apply magma_left_init; [exact H1|exact H2|now split|apply text_bytes_whole]| |apply unblocks8_u8].
  rewrite unblocks8_length, cfb_decrypt_length, blocks8_text. pose proof (text_bytes_length t) as L.
  unfold text_bytes in L. rewrite unblocks8_length in L. lia.
Qed.

Lemma source_text_gost {W} m k E iv t (w : W) fuel : enciphers k E -> iv < 2 ^ 64 ->
  ascii t -> (List.length t < Pos.to_nat fuel)%nat ->
  exists w', SourceText (gost_CFBSource_read Hex64Source_read m) fuel (gost_CFBSource_init t k iv) w =
  (Ok (lower_hex (unblocks8 (cfb_decrypt E [iv] (text_words t)))), w').
Proof.
  intros HE H1 Ht Hf. rewrite <- (blocks8_text t).
  eapply source_text; [apply delivers_giving, (gost_delivers _ _ k E hex64_left HE (proj1 hex64_blocks))
    |apply gost_left_init; [exact H1|now split|apply text_bytes_whole]| |apply unblocks8_u8].
  rewrite unblocks8_length, cfb_decrypt_length, blocks8_text. pose proof (text_bytes_length t) as L.
  unfold text_bytes in L. rewrite unblocks8_length in L. lia.
Qed.

Lemma source_text_ecb {W} m k D t (w : W) fuel : deciphers k D ->
  ascii t -> (List.length t < Pos.to_nat fuel)%nat ->
  exists w', SourceText (ECBSource_read Hex64Source_read m) fuel (ECBSource t k) w =
  (Ok (lower_hex (unblocks8 (ecb D (text_words t)))), w').
Proof.
  intros HD Ht Hf. rewrite <- (blocks8_text t).
  eapply source_text; [apply blocks_giving, (ecb_delivers _ _ k D hex64_left HD hex64_blocks)
    |apply ecb_left_init; [now split|apply text_bytes_whole]| |apply unblocks8_u8].
  rewrite unblocks8_length. unfold ecb. rewrite map_length, blocks8_text. pose proof (text_bytes_length t) as L.
  unfold text_bytes in L. rewrite unblocks8_length in L. lia.
Qed.

(** ** Matches *)

Definition up (c : N) : N := if (97 <=? c) && (c <=? 122) then c - 32 else c.

Lemma toupper_ascii c : c < 128 -> toupper c = Ok (up c).
Proof. intros H. unfold toupper, ctype_domain. now rewrite (proj2 (N.ltb_lt _ _) H). Qed.

Definition chars : list N := map N.of_nat (seq 0 128).

Lemma chars_in c : c < 128 -> In c chars.
Proof. intros H. apply in_map_iff. exists (N.to_nat c). split; [lia|]. apply in_seq. lia. Qed.

Lemma up_table : forallb (fun a => forallb (fun b =>
    match digit a with
    | None => true
    | Some x => Bool.eqb (up a =? up b) (match digit b with Some y => x =? y | None => false end)
    end) chars) chars = true.
Proof. vm_compute. reflexivity. Qed.

Lemma up_digit a b : hex_digit a -> b < 128 -> up a =? up b = true <-> same_digit a b.
Proof.
  intros Ha Hb. pose proof up_table as T. rewrite forallb_forall in T.
  specialize (T a (chars_in a (hex_digit_ascii a Ha))). rewrite forallb_forall in T. specialize (T b (chars_in b Hb)).
  unfold same_digit, hex_digit in *. destruct (digit a) as [x|] eqn:E; [|congruence].
  apply Bool.eqb_prop in T. rewrite T. destruct (digit b) as [y|].
  - rewrite N.eqb_eq. split; [intros ->; auto|intros [_ H]; now injection H].
  - split; [discriminate|intros [_ H]; discriminate].
Qed.

Lemma up_nonzero a : hex_digit a -> up a =? 0 = false.
Proof.
  intros H. pose proof (up_digit a 0 H) as U. destruct (up a =? 0) eqn:E; [|reflexivity].
  exfalso. assert (S : same_digit a 0) by (apply U; [reflexivity|exact E]).
  destruct S as [_ S]. apply H. now rewrite S.
Qed.

Lemma equal3_step m a t b o : hex_digit a -> b < 128 ->
  equal3 m (a :: t) (b :: o) = if up a =? up b then equal3 m t o else Ok false.
Proof.
  intros Ha Hb. cbn [equal3]. now rewrite !toupper_ascii by (exact Hb || now apply hex_digit_ascii).
Qed.

Lemma equal3_true m text : Forall hex_digit text -> forall origin, ascii origin ->
  equal3 m text origin = Ok true <->
  exists o1 o2, origin = o1 ++ o2 /\ Forall2 same_digit text o1.
Proof.
  induction 1 as [|a t Ha _ IH]; intros origin Ho.
  - split; [|reflexivity]. intros _. exists [], origin. auto.
  - destruct origin as [|b o].
    + split.
      * cbn [equal3]. destruct m; [discriminate|].
        rewrite toupper_ascii by now apply hex_digit_ascii. cbn [bind].
        rewrite up_nonzero by exact Ha. discriminate.
      * intros (o1 & o2 & E & F). inversion F; subst. discriminate.
    + inversion Ho as [|? ? Hb Ho']; subst. rewrite equal3_step by assumption.
      pose proof (up_digit a b Ha Hb) as U. destruct (up a =? up b).
      * rewrite IH by exact Ho'. split.
        -- intros (o1 & o2 & -> & F). exists (b :: o1), o2. split; [reflexivity|]. constructor; [now apply U|exact F].
        -- intros (o1 & o2 & E & F). inversion F; subst. cbn [app] in E. injection E as -> ->. eauto.
      * split; [discriminate|]. intros (o1 & o2 & E & F). inversion F; subst. cbn [app] in E.
        injection E as -> ->. exfalso. assert (false = true) by now apply U. discriminate.
Qed.

Lemma equal3_more m text : forall origin x, equal3 m text origin = Ok true -> equal3 m text (origin ++ x) = Ok true.
Proof.
  induction text as [|a t IH]; intros origin x H; [reflexivity|]. destruct origin as [|b o].
  - cbn [equal3] in H. destruct m; [discriminate|]. destruct (toupper a) as [v| | |]; cbn [bind] in H; try discriminate.
    destruct (v =? 0); discriminate.
  - cbn [equal3 app] in *. destruct (toupper a) as [v| | |]; cbn [bind] in *; try discriminate.
    destruct (toupper b) as [u| | |]; cbn [bind] in *; try discriminate.
    destruct (v =? u); [now apply IH|discriminate].
Qed.

Lemma same_digit_ascii a b : same_digit a b -> b < 128.
Proof. intros [H E]. apply hex_digit_ascii. unfold hex_digit in *. now rewrite <- E. Qed.

Lemma equal3_short m t1 o c t2 : Forall2 same_digit t1 o -> hex_digit c ->
  equal3 m (t1 ++ c :: t2) o = match m with ISO => Undef OutOfBounds | X86 _ => Ok false end.
Proof.
  intros F Hc. induction F as [|a b t o' S _ IH].
  - cbn [app equal3]. destruct m; [reflexivity|].
    rewrite toupper_ascii by now apply hex_digit_ascii. cbn [bind]. now rewrite up_nonzero.
  - cbn [app]. rewrite equal3_step by (apply S || now apply (same_digit_ascii a)).
    rewrite (proj2 (up_digit a b (proj1 S) (same_digit_ascii a b S)) S). exact IH.
Qed.

Lemma equal3_same_length m text : Forall hex_digit text -> forall origin, ascii origin ->
  List.length origin = List.length text ->
  exists b, equal3 m text origin = Ok b /\ (b = true <-> Forall2 same_digit text origin).
Proof.
  induction 1 as [|a t Ha _ IH]; intros origin Ho L.
  - exists true. split; [reflexivity|]. destruct origin; [|discriminate]. split; auto.
  - destruct origin as [|b o]; [discriminate|]. inversion Ho as [|? ? Hb Ho']; subst.
    rewrite equal3_step by assumption. pose proof (up_digit a b Ha Hb) as U. destruct (up a =? up b).
    + destruct (IH o Ho') as (r & E & I); [cbn in L; lia|]. exists r. split; [exact E|]. rewrite I.
      split; [intros F; constructor; [now apply U|exact F]|intros F; now inversion F].
    + exists false. split; [reflexivity|]. split; [discriminate|]. intros F. inversion F; subst. now apply U.
Qed.

Lemma only_xdigits_spec s : ascii s -> only_xdigits s = Ok (digits_of s).
Proof.
  induction 1 as [|c s Hc _ IH]; [reflexivity|]. cbn [only_xdigits]. rewrite isxdigit_spec by exact Hc. cbn [bind].
  rewrite IH. cbn [bind]. unfold digits_of. cbn [filter]. now destruct (digit c).
Qed.

Lemma lower_hex_digits b : Forall u8 b -> Forall hex_digit (lower_hex b).
Proof.
  induction 1 as [|x b Hx _ IH]; [constructor|]. unfold u8 in Hx.
  unfold lower_hex. cbn [flat_map app]. unfold hex_digit.
  constructor; [rewrite lower_digit_value by (clear - Hx; lia); discriminate|].
  constructor; [rewrite lower_digit_value by (clear; lia); discriminate|exact IH].
Qed.

Lemma same_digit_lower a b : a < 16 -> b < 16 -> same_digit (lower_digit a) (lower_digit b) -> a = b.
Proof. intros Ha Hb [_ H]. rewrite !lower_digit_value in H by assumption. congruence. Qed.

Lemma same_lower_hex a : forall b, Forall u8 a -> Forall u8 b -> Forall2 same_digit (lower_hex a) (lower_hex b) -> a = b.
Proof.
  induction a as [|x a IH]; intros [|y b] Ha Hb F; [reflexivity|inversion F|inversion F|].
  inversion Ha; inversion Hb; subst. unfold lower_hex in F. cbn [flat_map app] in F.
  inversion F as [|? ? ? ? S1 F1]; subst. inversion F1 as [|? ? ? ? S2 F2]; subst. unfold u8 in *.
  apply same_digit_lower in S1; [|clear - H1; lia|clear - H5; lia].
  apply same_digit_lower in S2; [|clear; lia|clear; lia].
  f_equal; [clear - S1 S2; lia|apply IH; assumption].
Qed.

Lemma same_digit_refl s : Forall hex_digit s -> Forall2 same_digit s s.
Proof. induction 1; constructor; [split; auto|assumption]. Qed.

(** Two printed byte strings: the match asks whether one is the beginning of the other. *)
Lemma equal3_bytes m a b : Forall u8 a -> Forall u8 b ->
  equal3 m (lower_hex a) (lower_hex b) = Ok true <-> exists c, b = a ++ c.
Proof.
  intros Ha Hb.
  assert (As : ascii (lower_hex b)).
  { eapply Forall_impl; [|exact (lower_hex_digits b Hb)]. intros c Hc. now apply hex_digit_ascii. }
  rewrite equal3_true by (exact As || now apply lower_hex_digits). split.
  - intros (o1 & o2 & E & F). exists (skipn (List.length a) b).
    rewrite <- (firstn_skipn (List.length a) b) at 1. f_equal.
    assert (L2 : forall l, List.length (lower_hex l) = (2 * List.length l)%nat).
    { clear. induction l as [|x l IH]; [reflexivity|]. unfold lower_hex in *. cbn [flat_map app List.length]. lia. }
    assert (La : List.length o1 = (2 * List.length a)%nat).
    { rewrite <- L2. symmetry. clear - F. induction F; cbn; lia. }
    assert (Lb : (List.length a <= List.length b)%nat).
    { pose proof (L2 b) as Q. rewrite E, app_length in Q. lia. }
    rewrite <- (firstn_skipn (List.length a) b) in E, Hb. apply Forall_app in Hb.
    rewrite lower_hex_app in E.
    assert (E1 : lower_hex (firstn (List.length a) b) = o1).
    { assert (Q : List.length (lower_hex (firstn (List.length a) b)) = List.length o1).
      { rewrite L2, firstn_length. lia. }
      clear - E Q. revert o1 Q E. generalize (lower_hex (firstn (List.length a) b)).
      induction s as [|x s IH]; intros [|y o1] Q E; try discriminate; [reflexivity|].
      cbn [app] in E. injection E as -> E. f_equal. apply IH; [now injection Q|exact E]. }
    symmetry. apply same_lower_hex; [exact Ha|apply Hb|now rewrite E1].
  - intros (c & ->). apply Forall_app in Hb. exists (lower_hex a), (lower_hex c). rewrite lower_hex_app.
    split; [reflexivity|]. apply same_digit_refl. now apply lower_hex_digits.
Qed.

(** ** Blocks and keys as text *)

Lemma repr_block lo hi : lo < 2 ^ 32 -> hi < 2 ^ 32 ->
  ReprBlock (Ok (lo, hi)) = Ok (number_text 16 (hi * 2 ^ 32 + lo)).
Proof.
  intros Hl Hh. unfold ReprBlock. cbn [bind]. f_equal.
  rewrite !put_hex_spec by (assumption || lia). change 16%nat with (8 + 8)%nat at 1. rewrite number_text_app.
  change (16 ^ N.of_nat 8) with (2 ^ 32). rewrite N.div_add_l, N.div_small, N.add_0_r by (assumption || discriminate).
  f_equal. rewrite <- (number_text_mod 8 (hi * 2 ^ 32 + lo)). change (16 ^ N.of_nat 8) with (2 ^ 32).
  rewrite N.add_comm, N.mod_add, N.mod_small by (assumption || discriminate). reflexivity.
Qed.

Lemma repr_kblock lo hi : lo < 2 ^ 64 -> hi < 2 ^ 64 ->
  KReprBlock (Ok (lo, hi)) = Ok (number_text 32 (hi * 2 ^ 64 + lo)).
Proof.
  intros Hl Hh. unfold KReprBlock. cbn [bind]. f_equal.
  rewrite !put_hex_spec by (assumption || lia). change 32%nat with (16 + 16)%nat at 1. rewrite number_text_app.
  change (16 ^ N.of_nat 16) with (2 ^ 64). rewrite N.div_add_l, N.div_small, N.add_0_r by (assumption || discriminate).
  f_equal. rewrite <- (number_text_mod 16 (hi * 2 ^ 64 + lo)). change (16 ^ N.of_nat 16) with (2 ^ 64).
  rewrite N.add_comm, N.mod_add, N.mod_small by (assumption || discriminate). reflexivity.
Qed.

Lemma same_text_eq a b : same_text a b = true <-> a = b.
Proof. unfold same_text. destruct (list_eq_dec N.eq_dec a b); split; congruence. Qed.

Lemma block_equal a b a' b' : a < 2 ^ 32 -> b < 2 ^ 32 -> a' < 2 ^ 32 -> b' < 2 ^ 32 ->
  TestBlockEqual (Ok (a, b)) (Ok (a', b')) = Ok true <-> (a, b) = (a', b').
Proof.
  intros Ha Hb Ha' Hb'. unfold TestBlockEqual. rewrite !repr_block by assumption. cbn [bind].
  split; [|intros E; injection E as -> ->; f_equal; now apply same_text_eq].
  intros H. apply Ok_inj, same_text_eq, number_text_inj in H;
    [|change (16 ^ N.of_nat 16) with (2 ^ 64); change (2 ^ 64) with (2 ^ 32 * 2 ^ 32);
      generalize dependent (2 ^ 32); clear; intros; nia..].
  assert (E1 : (b * 2 ^ 32 + a) / 2 ^ 32 = (b' * 2 ^ 32 + a') / 2 ^ 32) by now rewrite H.
  rewrite !N.div_add_l, !N.div_small in E1 by (assumption || discriminate). rewrite !N.add_0_r in E1. subst.
  apply N.add_cancel_l in H. now subst.
Qed.

Lemma kblock_equal a b a' b' : a < 2 ^ 64 -> b < 2 ^ 64 -> a' < 2 ^ 64 -> b' < 2 ^ 64 ->
  KTestBlockEqual (Ok (a, b)) (Ok (a', b')) = Ok true <-> (a, b) = (a', b').
Proof.
  intros Ha Hb Ha' Hb'. unfold KTestBlockEqual. rewrite !repr_kblock by assumption. cbn [bind].
  split; [|intros E; injection E as -> ->; f_equal; now apply same_text_eq].
  intros H. apply Ok_inj, same_text_eq, number_text_inj in H;
    [|change (16 ^ N.of_nat 32) with (2 ^ 64 * 2 ^ 64);
      generalize dependent (2 ^ 64); clear; intros; nia..].
  assert (E1 : (b * 2 ^ 64 + a) / 2 ^ 64 = (b' * 2 ^ 64 + a') / 2 ^ 64) by now rewrite H.
  rewrite !N.div_add_l, !N.div_small in E1 by (assumption || discriminate). rewrite !N.add_0_r in E1. subst.
  apply N.add_cancel_l in H. now subst.
Qed.

Lemma number_text_htonl x : x < 2 ^ 32 -> number_text 8 (htonl x) = lower_hex (to_le 4 x).
Proof.
  intros H. unfold htonl. cbn [to_le rev app]. set (b0 := x mod 2 ^ 8). set (b1 := x / 2 ^ 8 mod 2 ^ 8).
  set (b2 := x / 2 ^ 8 / 2 ^ 8 mod 2 ^ 8). set (b3 := x / 2 ^ 8 / 2 ^ 8 / 2 ^ 8 mod 2 ^ 8).
  assert (B0 : b0 < 256) by (unfold b0; clear; lia). assert (B1 : b1 < 256) by (unfold b1; clear; lia).
  assert (B2 : b2 < 256) by (unfold b2; clear; lia). assert (B3 : b3 < 256) by (unfold b3; clear; lia).
  clearbody b0 b1 b2 b3. clear x H.
  assert (G : forall n y b, b < 256 -> number_text (Datatypes.S (Datatypes.S n)) (b + 256 * y) =
    number_text n y ++ [lower_digit (b / 16); lower_digit (b mod 16)]).
  { clear. intros n y b Hb. rewrite !number_text_snoc, <- app_assoc. cbn [app].
    assert (E1 : (b + 256 * y) / 16 / 16 = y) by (clear - Hb; rewrite N.div_div by discriminate; lia).
    assert (E2 : (b + 256 * y) / 16 mod 16 = b / 16) by (clear - Hb; lia).
    assert (E3 : (b + 256 * y) mod 16 = b mod 16) by (clear; lia).
    now rewrite E1, E2, E3. }
  unfold of_le. cbn [lower_hex flat_map app].
  change (2 ^ 8) with 256. rewrite !G by assumption. cbn [number_text app]. reflexivity.
Qed.

Lemma repr_words_ok kd n : forall i ws, List.length ws = n -> Forall u32 ws ->
  (forall j, (j < n)%nat -> kd (i + Z.of_nat j)%Z = Ok (nth j ws 0)) ->
  repr_words kd n i = Ok (lower_hex (flat_map (to_le 4) ws)).
Proof.
  induction n as [|n IH]; intros i ws L Hw H.
  - destruct ws; [reflexivity|discriminate].
  - destruct ws as [|v ws]; [discriminate|]. inversion Hw; subst. cbn [repr_words].
    pose proof (H 0%nat ltac:(lia)) as H0. cbn [nth] in H0. rewrite Z.add_0_r in H0. rewrite H0. cbn [bind].
    assert (Hn : forall j, (j < n)%nat -> kd (i + 1 + Z.of_nat j)%Z = Ok (nth j ws 0)).
    { intros j Hj. specialize (H (Datatypes.S j) ltac:(lia)). cbn [nth] in H. rewrite <- H. f_equal. lia. }
    assert (Ln : List.length ws = n) by now injection L.
    rewrite (IH (i + 1)%Z ws Ln H3 Hn).
    cbn [bind flat_map]. rewrite lower_hex_app. f_equal. f_equal.
    assert (Q : htonl v < 2 ^ 32).
    { unfold htonl. pose proof (of_le_lt (rev (to_le 4 v))) as Q. unfold len in Q.
      rewrite rev_length, to_le_length in Q. apply Q. apply Forall_rev, to_le_u8. }
    rewrite put_hex_spec by (exact Q || lia). now rewrite number_text_htonl.
Qed.

Lemma repr_keydata_string s : Forall hex_digit s -> List.length s = 64%nat ->
  ReprKeyData (KeyDataString s) =
  Ok (lower_hex (flat_map (fun i => to_le 4 (key_word (number s) i)) (seq 0 8))).
Proof.
  intros Hs Hl. unfold ReprKeyData.
  rewrite (repr_words_ok _ 8 0 (map (key_word (number s)) (seq 0 8))).
  - reflexivity.
  - now rewrite map_length, seq_length.
  - apply Forall_forall. intros x Hx. apply in_map_iff in Hx. destruct Hx as (i & <- & _).
    unfold u32, key_word. apply N.mod_lt. discriminate.
  - intros j Hj. cbn [Z.add].
    rewrite (nth_indep _ 0 (key_word (number s) 0)) by now rewrite map_length, seq_length.
    rewrite map_nth, seq_nth by exact Hj. cbn [Nat.add].
    rewrite KeyDataString_hex by (assumption || lia). now rewrite number_slice.
Qed.

Lemma repr_keydata_native ws : List.length ws = 8%nat -> Forall u32 ws ->
  ReprKeyData (KeyDataNative ws) = Ok (lower_hex (flat_map (to_le 4) ws)).
Proof.
  intros Hl Hw. apply (repr_words_ok _ 8 0 ws Hl Hw). intros j Hj. cbn [Z.add]. unfold KeyDataNative.
  rewrite (at_int_ok _ _ 0) by lia. now rewrite Nat2Z.id.
Qed.

(** ** HexContainer *)

Lemma hex_not_space c : hex_digit c -> isspace c = false.
Proof.
  intros H. pose proof (hex_digit_hexval c H) as E. unfold hexval in E. unfold isspace.
  destruct ((48 <=? c) && (c <=? 57)) eqn:E1; [lia|].
  destruct ((97 <=? c) && (c <=? 102)) eqn:E2; [lia|].
  destruct ((65 <=? c) && (c <=? 70)) eqn:E3; [lia|discriminate].
Qed.

Lemma container_two n c d s : hex_digit c -> hex_digit d ->
  container_bytes (Datatypes.S n) (c :: d :: s) =
  (r <- container_bytes n s ;; Ok (16 * digit_value c + digit_value d :: r)).
Proof.
  intros Hc Hd. cbn [container_bytes skip_ws]. rewrite (hex_not_space c) by assumption. cbn [skip_ws].
  rewrite (hex_not_space d) by assumption. cbv iota.
  rewrite stoull16_hex by (try discriminate; try (cbn; lia); repeat constructor; assumption).
  cbn [bind]. rewrite number_two. unfold w8.
  pose proof (digit_value_lt c). pose proof (digit_value_lt d).
  rewrite N.mod_small by (change (2 ^ 8) with 256; lia). reflexivity.
Qed.

Lemma container_bytes_ok n : forall s, Forall hex_digit s -> List.length s = (2 * n)%nat ->
  exists bs, container_bytes n s = Ok bs /\ written bs s /\ List.length bs = n.
Proof.
  induction n as [|n IH]; intros s Hs Hl.
  - destruct s; [|discriminate]. exists []. repeat constructor.
  - destruct s as [|c [|d s]]; try (cbn in Hl; lia). inversion Hs as [|? ? Hc Hs']; subst.
    inversion Hs' as [|? ? Hd Hs2]; subst. destruct (IH s Hs2) as (bs & E & Wr & L); [cbn in Hl; lia|].
    exists (16 * digit_value c + digit_value d :: bs).
    rewrite container_two, E by assumption. split; [reflexivity|].
    split; [now constructor|cbn; now rewrite L].
Qed.

Lemma hex_container_key hex : Forall hex_digit hex -> List.length hex = 64%nat ->
  exists bs, HexContainer_key hex = Ok bs /\ written bs hex /\ List.length bs = 32%nat.
Proof. intros H Hl. unfold HexContainer_key. rewrite Hl. now apply container_bytes_ok. Qed.

Lemma hex_container m hex : Forall hex_digit hex -> List.length hex = 64%nat ->
  exists k, makeKey m (HexContainer hex) = Ok k /\
    enciphers k (Magma_E (number hex)) /\ deciphers k (Magma_D (number hex)).
Proof.
  intros H Hl. destruct (hex_container_key hex H Hl) as (bs & E & Wr & L).
  unfold HexContainer. rewrite E. now apply container_standard.
Qed.

(** White space is skipped, so the digits do not suffice. *)
Definition printing (s : str) : str := filter (fun c => negb (isspace c)) s.

Lemma printing_skip s : printing (skip_ws s) = printing s.
Proof.
  induction s as [|c s IH]; [reflexivity|]. cbn [skip_ws]. destruct (isspace c) eqn:E; [|reflexivity].
  rewrite IH. unfold printing. cbn [filter]. now rewrite E.
Qed.

Lemma skip_ws_head s c r : skip_ws s = c :: r -> isspace c = false.
Proof.
  induction s as [|x s IH]; [discriminate|]. cbn [skip_ws]. destruct (isspace x) eqn:E; [exact IH|].
  intros H. injection H as -> _. exact E.
Qed.

Lemma container_space n : forall s, Forall hex_digit (printing s) -> (List.length (printing s) < 2 * n)%nat ->
  container_bytes n s = Undef Uninit.
Proof.
  induction n as [|n IH]; intros s Hs Hl; [lia|]. cbn [container_bytes].
  rewrite <- printing_skip in Hs, Hl. destruct (skip_ws s) as [|c s1] eqn:E1; [reflexivity|].
  pose proof (skip_ws_head s c s1 E1) as P1. unfold printing in Hs, Hl. cbn [filter] in Hs, Hl. rewrite P1 in Hs, Hl.
  cbn [negb List.length] in Hs, Hl. fold (printing s1) in Hs, Hl. inversion Hs as [|? ? Hc Hs']; subst.
  rewrite <- printing_skip in Hs', Hl. destruct (skip_ws s1) as [|d s2] eqn:E2; [reflexivity|].
  pose proof (skip_ws_head s1 d s2 E2) as P2. unfold printing in Hs', Hl. cbn [filter] in Hs', Hl. rewrite P2 in Hs', Hl.
  cbn [negb List.length] in Hs', Hl. fold (printing s2) in Hs', Hl. inversion Hs' as [|? ? Hd Hs2]; subst.
  rewrite stoull16_hex by (try discriminate; try (cbn; lia); repeat constructor; assumption). cbn [bind].
  rewrite IH; [reflexivity|exact Hs2|]. cbn [List.length] in Hl. lia.
Qed.

(** ** Matches against sources *)

Lemma source_match {W St} (rd : reader W St) R m fuel s w data origin : keeps_giving rd R -> R s w data ->
  (List.length data < Pos.to_nat fuel)%nat -> Forall u8 data ->
  exists w', SourceMatch m rd fuel s origin w = (equal3 m (lower_hex data) origin, w').
Proof.
  intros H HR Hf Hb. destruct (source_text rd R fuel s w data H HR Hf Hb) as (w' & E). exists w'.
  unfold SourceMatch, mbind. now rewrite E.
Qed.

Lemma hex64_match {W} m fuel t origin (w : W) : ascii t -> (List.length t < Pos.to_nat fuel)%nat ->
  exists w', SourceMatch m Hex64Source_read fuel t origin w = (equal3 m (lower_hex (text_bytes t)) origin, w').
Proof.
  intros Ht Hf. eapply source_match; [apply hex64_giving|now split| |apply text_bytes_whole].
  pose proof (text_bytes_length t). lia.
Qed.
