(** Proofs about the number parsers. *)
From Verif Require Import Base Text Lib SpecText.
From Coq Require Import ZifyNat ZifyN ZifyBool.
Local Open Scope N_scope.

Lemma hexval_digit_small c : c < 256 -> hexval c = digit c.
Proof.
  intros H.
  assert (A : Forall (fun c => hexval c = digit c) (map N.of_nat (seq 0 256)))
    by (repeat constructor).
  rewrite Forall_forall in A. apply A. apply in_map_iff. exists (N.to_nat c).
  rewrite N2Nat.id. split; [reflexivity|]. apply in_seq. lia.
Qed.

Lemma hexval_digit c : hexval c = digit c.
Proof.
  destruct (N.lt_ge_cases c 256) as [H|H]; [now apply hexval_digit_small|].
  unfold hexval.
  replace ((48 <=? c) && (c <=? 57)) with false by lia.
  replace ((97 <=? c) && (c <=? 102)) with false by lia.
  replace ((65 <=? c) && (c <=? 70)) with false by lia.
  assert (A : forall l, Forall (fun x => x < 256) l -> index_of c l = None).
  { induction l as [|x l IH]; intros Hl; [reflexivity|].
    inversion Hl; subst. cbn [index_of]. rewrite (proj2 (N.eqb_neq c x)) by lia.
    now rewrite IH. }
  unfold digit. rewrite !A; [reflexivity| |]; repeat constructor.
Qed.

Lemma hexval_cases c d :
  hexval c = Some d ->
  d < 16 /\ (48 <= c <= 57 \/ 97 <= c <= 102 \/ 65 <= c <= 70).
Proof.
  unfold hexval.
  destruct ((48 <=? c) && (c <=? 57)) eqn:E1; [intros [= <-]; lia|].
  destruct ((97 <=? c) && (c <=? 102)) eqn:E2; [intros [= <-]; lia|].
  destruct ((65 <=? c) && (c <=? 70)) eqn:E3; [intros [= <-]; lia|]. discriminate.
Qed.

Lemma hex_digit_hexval c : hex_digit c -> hexval c = Some (digit_value c).
Proof.
  unfold hex_digit, digit_value. rewrite hexval_digit.
  destruct (digit c); congruence.
Qed.

Lemma hex_digit_range c :
  hex_digit c -> digit_value c < 16 /\ (48 <= c <= 57 \/ 97 <= c <= 102 \/ 65 <= c <= 70).
Proof. intros H. apply hexval_cases, hex_digit_hexval, H. Qed.

Lemma digit_value_lt c : digit_value c < 16.
Proof.
  unfold digit_value. destruct (digit c) eqn:E; [|reflexivity].
  rewrite <- hexval_digit in E. now apply hexval_cases in E.
Qed.

Lemma number_lt s : number s < 16 ^ len s.
Proof.
  induction s as [|c s IH]; [reflexivity|].
  cbn [number]. rewrite len_cons, N.pow_add_r, N.pow_1_r.
  pose proof (digit_value_lt c). nia.
Qed.

Lemma number_app a b : number (a ++ b) = number a * 16 ^ len b + number b.
Proof.
  induction a as [|c a IH]; [reflexivity|].
  cbn [app number]. rewrite IH, len_app, N.pow_add_r. lia.
Qed.

Lemma number_zeros n s : number (repeat 48 n ++ s) = number s.
Proof.
  rewrite number_app. replace (number (repeat 48 n)) with 0; [reflexivity|].
  induction n; [reflexivity|]. cbn [repeat number]. rewrite <- IHn. reflexivity.
Qed.

Lemma zeros_hex n : Forall hex_digit (repeat 48 n).
Proof. induction n; constructor; auto. intros H. discriminate H. Qed.

Lemma scan_digits_hex s acc :
  Forall hex_digit s -> scan_digits (Some acc) s = Some (acc * 16 ^ len s + number s).
Proof.
  revert acc. induction s as [|c s IH]; intros acc H.
  - cbn [scan_digits number]. f_equal. unfold len. cbn. rewrite N.pow_0_r. lia.
  - inversion H; subst. cbn [scan_digits number].
    rewrite hex_digit_hexval by assumption. rewrite IH by assumption. f_equal.
    rewrite len_cons, N.pow_add_r, N.pow_1_r. lia.
Qed.

Lemma scan_hex_hex s : Forall hex_digit s -> s <> [] -> scan_hex s = Some (number s).
Proof.
  intros H Hs. destruct s as [|c s]; [contradiction|]. inversion H; subst.
  assert (E : scan_digits None (c :: s) = Some (number (c :: s))).
  { cbn [scan_digits]. rewrite hex_digit_hexval by assumption.
    rewrite scan_digits_hex by assumption. reflexivity. }
  unfold scan_hex. destruct s as [|x s]; [exact E|].
  match goal with H : Forall _ (x :: s) |- _ => inversion H; subst end.
  match goal with H : hex_digit x |- _ => apply hex_digit_range in H end.
  replace ((c =? 48) && ((x =? 120) || (x =? 88))) with false by lia. exact E.
Qed.

Lemma skip_ws_hex s : Forall hex_digit s -> skip_ws s = s.
Proof.
  destruct s as [|c s]; intros H; [reflexivity|]. inversion H; subst.
  match goal with H : hex_digit c |- _ => apply hex_digit_range in H end.
  cbn [skip_ws]. unfold isspace. replace (_ || _) with false by lia. reflexivity.
Qed.

Lemma take_sign_hex s : Forall hex_digit s -> take_sign s = (false, s).
Proof.
  destruct s as [|c s]; intros H; [reflexivity|]. inversion H; subst.
  match goal with H : hex_digit c |- _ => apply hex_digit_range in H end.
  cbn [take_sign]. replace (c =? 45) with false by lia. now replace (c =? 43) with false by lia.
Qed.

Lemma stoull16_hex s :
  Forall hex_digit s -> s <> [] -> (List.length s <= 16)%nat -> stoull16 s = Ok (number s).
Proof.
  intros H Hs Hl. unfold stoull16. rewrite skip_ws_hex, take_sign_hex, scan_hex_hex by assumption.
  pose proof (number_lt s) as Hn.
  assert (16 ^ len s <= 16 ^ 16) by (apply N.pow_le_mono_r; unfold len; lia).
  change (16 ^ 16) with (2 ^ 64) in *.
  rewrite (proj2 (N.leb_gt _ _)) by lia. reflexivity.
Qed.

Lemma extract_hex32_hex s :
  Forall hex_digit s -> List.length s = 8%nat -> extract_hex32 s = Ok (number s).
Proof.
  intros H Hl. unfold extract_hex32. rewrite skip_ws_hex by assumption.
  destruct s as [|c s]; [discriminate|]. rewrite take_sign_hex, scan_hex_hex by (assumption || discriminate).
  pose proof (number_lt (c :: s)) as Hn. unfold len in Hn. rewrite Hl in Hn.
  change (16 ^ N.of_nat 8) with (2 ^ 32) in Hn.
  rewrite (proj2 (N.leb_gt _ _)) by assumption. reflexivity.
Qed.

Lemma substr_ok s p n :
  p <= len s -> substr s p n = Ok (firstn (N.to_nat n) (skipn (N.to_nat p) s)).
Proof. intros H. unfold substr. now rewrite (proj2 (N.ltb_ge _ _) H). Qed.
