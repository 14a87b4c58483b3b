(** General lemmas about the vocabulary of Base.v. *)
From Verif Require Import Base.
From Coq Require Import ZifyNat ZifyN ZifyBool.
Local Open Scope N_scope.

Ltac Zify.zify_post_hook ::= Z.div_mod_to_equations.

Global Arguments N.pow : simpl never.
Global Arguments N.modulo : simpl never.
Global Arguments N.div : simpl never.
Global Arguments N.mul : simpl never.
Global Arguments N.add : simpl never.
Global Arguments N.sub : simpl never.
Global Arguments N.shiftl : simpl never.
Global Arguments N.shiftr : simpl never.
Global Arguments N.lxor : simpl never.
Global Arguments N.land : simpl never.
Global Arguments N.lor : simpl never.
Global Arguments N.of_nat : simpl never.
Global Arguments Z.of_nat : simpl never.

(** ** Outcomes *)

Lemma bind_ok_inv {A B} (x : res A) (f : A -> res B) b :
  bind x f = Ok b -> exists a, x = Ok a /\ f a = Ok b.
Proof. destruct x; simpl; intros H; try discriminate; eauto. Qed.

Lemma Ok_inj {A} (a b : A) : Ok a = Ok b -> a = b.
Proof. congruence. Qed.

Lemma bind_assoc {A B C} (x : res A) (f : A -> res B) (g : B -> res C) :
  bind (bind x f) g = bind x (fun a => bind (f a) g).
Proof. destruct x; reflexivity. Qed.

Ltac ok_inv H :=
  let a := fresh "v" in let E := fresh "E" in
  apply bind_ok_inv in H; destruct H as [a [E H]].

(** ** Words *)

Lemma pow2_pos n : 0 < 2 ^ n.
Proof. apply N.neq_0_lt_0, N.pow_nonzero; discriminate. Qed.

Lemma mod_pow2_testbit x n i :
  N.testbit (x mod 2 ^ n) i = (i <? n) && N.testbit x i.
Proof.
  destruct (N.ltb_spec i n); simpl.
  - now apply N.mod_pow2_bits_low.
  - now apply N.mod_pow2_bits_high.
Qed.

Lemma lt_pow2_testbit x n i : x < 2 ^ n -> n <= i -> N.testbit x i = false.
Proof.
  intros H Hi. rewrite <- (N.mod_small x (2 ^ n)) by assumption.
  now apply N.mod_pow2_bits_high.
Qed.

Lemma testbit_lt_pow2 x n : (forall i, n <= i -> N.testbit x i = false) -> x < 2 ^ n.
Proof.
  intros H. destruct (N.lt_ge_cases x (2 ^ n)) as [Hlt|Hge]; [assumption|exfalso].
  assert (Hx : x <> 0) by (pose proof (pow2_pos n); lia).
  assert (Hl : n <= N.log2 x).
  { apply N.log2_le_pow2; [lia|assumption]. }
  specialize (H _ Hl). rewrite N.bit_log2 in H by assumption. discriminate.
Qed.

Lemma lxor_lt a b n : a < 2 ^ n -> b < 2 ^ n -> N.lxor a b < 2 ^ n.
Proof.
  intros Ha Hb. apply testbit_lt_pow2. intros i Hi.
  rewrite N.lxor_spec, (lt_pow2_testbit a n), (lt_pow2_testbit b n); auto.
Qed.

Lemma lor_lt a b n : a < 2 ^ n -> b < 2 ^ n -> N.lor a b < 2 ^ n.
Proof.
  intros Ha Hb. apply testbit_lt_pow2. intros i Hi.
  rewrite N.lor_spec, (lt_pow2_testbit a n), (lt_pow2_testbit b n); auto.
Qed.

Lemma land_lt_r a b n : b < 2 ^ n -> N.land a b < 2 ^ n.
Proof.
  intros Hb. apply testbit_lt_pow2. intros i Hi.
  rewrite N.land_spec, (lt_pow2_testbit b n); auto. apply andb_false_r.
Qed.

Lemma shiftr_lt a n k : a < 2 ^ (n + k) -> N.shiftr a k < 2 ^ n.
Proof.
  intros H. rewrite N.shiftr_div_pow2. apply N.div_lt_upper_bound.
  - apply N.pow_nonzero; discriminate.
  - rewrite <- N.pow_add_r, N.add_comm. assumption.
Qed.

Lemma mod_pow2_lt x n : x mod 2 ^ n < 2 ^ n.
Proof. apply N.mod_lt, N.pow_nonzero; discriminate. Qed.

Lemma w8_lt x : w8 x < 2 ^ 8. Proof. apply mod_pow2_lt. Qed.
Lemma w32_lt x : w32 x < 2 ^ 32. Proof. apply mod_pow2_lt. Qed.
Lemma w64_lt x : w64 x < 2 ^ 64. Proof. apply mod_pow2_lt. Qed.
Lemma w8_id x : x < 2 ^ 8 -> w8 x = x. Proof. apply N.mod_small. Qed.
Lemma w32_id x : x < 2 ^ 32 -> w32 x = x. Proof. apply N.mod_small. Qed.
Lemma w64_id x : x < 2 ^ 64 -> w64 x = x. Proof. apply N.mod_small. Qed.

(** [lor] of a shifted word and a small one is addition. *)
Lemma lor_shiftl_add a b n : b < 2 ^ n -> N.lor (N.shiftl a n) b = a * 2 ^ n + b.
Proof.
  intros Hb. rewrite N.shiftl_mul_pow2. symmetry.
  rewrite <- N.lxor_lor, <- N.add_nocarry_lxor; try reflexivity.
  all: apply N.bits_inj_iff; intros i; rewrite N.land_spec, N.bits_0;
    destruct (N.lt_ge_cases i n);
    [rewrite N.mul_pow2_bits_low by assumption; reflexivity
    |rewrite (lt_pow2_testbit b n) by assumption; apply andb_false_r].
Qed.

Lemma add_testbit_low a b n i : b < 2 ^ n -> i < n -> N.testbit (a * 2 ^ n + b) i = N.testbit b i.
Proof.
  intros Hb Hi. rewrite <- lor_shiftl_add by assumption.
  rewrite N.lor_spec, N.shiftl_spec_low by assumption. reflexivity.
Qed.

Lemma add_testbit_high a b n i :
  b < 2 ^ n -> n <= i -> N.testbit (a * 2 ^ n + b) i = N.testbit a (i - n).
Proof.
  intros Hb Hi. rewrite <- lor_shiftl_add by assumption.
  rewrite N.lor_spec, N.shiftl_spec_high' by assumption.
  rewrite (lt_pow2_testbit b n) by assumption. apply orb_false_r.
Qed.

(** Splitting numbers at bit n. *)
Lemma split_unique a b c d n :
  b < 2 ^ n -> d < 2 ^ n -> a * 2 ^ n + b = c * 2 ^ n + d -> a = c /\ b = d.
Proof.
  intros Hb Hd H. set (P := 2 ^ n) in *. assert (0 < P) by apply pow2_pos.
  assert (a = c).
  { transitivity ((a * P + b) / P).
    - apply (N.div_unique _ _ _ b); [assumption|lia].
    - symmetry. apply (N.div_unique _ _ _ d); [assumption|lia]. }
  subst. lia.
Qed.

Lemma split_div a b n : b < 2 ^ n -> (a * 2 ^ n + b) / 2 ^ n = a.
Proof. intros H. symmetry. apply (N.div_unique _ _ a b); lia. Qed.

Lemma split_mod a b n : b < 2 ^ n -> (a * 2 ^ n + b) mod 2 ^ n = b.
Proof. intros H. symmetry. apply (N.mod_unique _ _ a b); lia. Qed.

Lemma split_lt a b n m : a < 2 ^ n -> b < 2 ^ m -> a * 2 ^ m + b < 2 ^ (n + m).
Proof.
  intros Ha Hb. rewrite N.pow_add_r.
  set (P := 2 ^ m) in *. set (Q := 2 ^ n) in *.
  assert (a + 1 <= Q) by lia.
  assert ((a + 1) * P <= Q * P) by (apply N.mul_le_mono_r; assumption).
  lia.
Qed.

Lemma split_join x n : x / 2 ^ n * 2 ^ n + x mod 2 ^ n = x.
Proof.
  symmetry. rewrite (N.mul_comm (x / 2 ^ n)). apply N.div_mod, N.pow_nonzero. discriminate.
Qed.

Lemma lxor_split a b c d n :
  b < 2 ^ n -> d < 2 ^ n ->
  N.lxor (a * 2 ^ n + b) (c * 2 ^ n + d) = N.lxor a c * 2 ^ n + N.lxor b d.
Proof.
  intros Hb Hd. apply N.bits_inj_iff. intros i. rewrite N.lxor_spec.
  assert (Hx : N.lxor b d < 2 ^ n) by (apply lxor_lt; assumption).
  destruct (N.lt_ge_cases i n).
  - rewrite !add_testbit_low by assumption. now rewrite N.lxor_spec.
  - rewrite !add_testbit_high by assumption. now rewrite N.lxor_spec.
Qed.

Lemma lxor_mod a b n : N.lxor a b mod 2 ^ n = N.lxor (a mod 2 ^ n) (b mod 2 ^ n).
Proof.
  apply N.bits_inj_iff. intros i.
  rewrite N.lxor_spec, !mod_pow2_testbit, N.lxor_spec.
  destruct (i <? n); reflexivity.
Qed.

Lemma lxor_div a b n : N.lxor a b / 2 ^ n = N.lxor (a / 2 ^ n) (b / 2 ^ n).
Proof. rewrite <- !N.shiftr_div_pow2. apply N.shiftr_lxor. Qed.

Lemma lxor_cancel_l a b : N.lxor a (N.lxor a b) = b.
Proof. now rewrite <- N.lxor_assoc, N.lxor_nilpotent, N.lxor_0_l. Qed.

Lemma lxor_cancel_r a b : N.lxor (N.lxor a b) b = a.
Proof. now rewrite N.lxor_assoc, N.lxor_nilpotent, N.lxor_0_r. Qed.

Lemma lxor_inj_l a b c : N.lxor a b = N.lxor a c -> b = c.
Proof.
  intros H. rewrite <- (lxor_cancel_l a b), H. apply lxor_cancel_l.
Qed.

Lemma lxor_inj_r a b c : N.lxor b a = N.lxor c a -> b = c.
Proof. rewrite !(N.lxor_comm _ a). apply lxor_inj_l. Qed.

(** ** Lists *)

Lemma len_app {A} (a b : list A) : len (a ++ b) = len a + len b.
Proof. unfold len. rewrite app_length. lia. Qed.

Lemma len_cons {A} (x : A) l : len (x :: l) = len l + 1.
Proof. unfold len. simpl List.length. lia. Qed.

Lemma firstn_app_exact {A} n (a b : list A) : List.length a = n -> firstn n (a ++ b) = a.
Proof.
  intros <-. rewrite firstn_app, Nat.sub_diag, firstn_all. simpl. apply app_nil_r.
Qed.

Lemma skipn_app_exact {A} n (a b : list A) : List.length a = n -> skipn n (a ++ b) = b.
Proof. intros <-. rewrite skipn_app, Nat.sub_diag, skipn_all. reflexivity. Qed.

Lemma Forall_firstn {A} (P : A -> Prop) n l : Forall P l -> Forall P (firstn n l).
Proof.
  revert n. induction l; intros [|n] H; simpl; auto. inversion H; constructor; auto.
Qed.

Lemma Forall_skipn {A} (P : A -> Prop) n l : Forall P l -> Forall P (skipn n l).
Proof. revert n. induction l; intros [|n] H; simpl; auto. inversion H; auto. Qed.

(** Induction over a list in pieces of [n] > 0 elements. *)
Lemma chunk_ind {A} (n : nat) (P : list A -> Prop) :
  (0 < n)%nat -> P [] ->
  (forall b r, List.length b = n -> P r -> P (b ++ r)) ->
  forall l, (List.length l mod n = 0)%nat -> P l.
Proof.
  intros Hn H0 Hs l.
  remember (List.length l) as m eqn:Hm.
  revert l Hm. induction m as [m IH] using lt_wf_ind. intros l Hm Hmod.
  destruct (Nat.lt_ge_cases m n) as [Hlt|Hge].
  - rewrite Nat.mod_small in Hmod by assumption.
    destruct l; [assumption|simpl in Hm; lia].
  - rewrite <- (firstn_skipn n l). apply Hs.
    + rewrite firstn_length. lia.
    + apply (IH (m - n)%nat); [lia|rewrite skipn_length; lia|].
      replace m with ((m - n) + 1 * n)%nat in Hmod by lia.
      rewrite Nat.mod_add in Hmod by lia. assumption.
Qed.

(** ** Little-endian bytes *)

Lemma to_le_length n x : List.length (to_le n x) = n.
Proof. revert x. induction n; simpl; auto. Qed.

Lemma to_le_u8 n x : Forall u8 (to_le n x).
Proof.
  revert x. induction n; intros; simpl; constructor; auto. apply mod_pow2_lt.
Qed.

Lemma of_le_app a b : of_le (a ++ b) = of_le a + 2 ^ (8 * len a) * of_le b.
Proof.
  induction a as [|x a IH].
  - change (len (@nil N)) with 0. simpl app. rewrite N.mul_0_r, N.pow_0_r.
    change (of_le []) with 0. lia.
  - simpl app. cbn [of_le]. rewrite IH, len_cons.
    replace (8 * (len a + 1)) with (8 + 8 * len a) by lia.
    rewrite N.pow_add_r. lia.
Qed.

Lemma of_le_lt l : Forall u8 l -> of_le l < 2 ^ (8 * len l).
Proof.
  induction l as [|x l IH]; intros H.
  - reflexivity.
  - inversion H as [|? ? Hx Hl]; subst. cbn [of_le]. rewrite len_cons.
    specialize (IH Hl). replace (8 * (len l + 1)) with (8 * len l + 8) by lia.
    rewrite (N.add_comm x), (N.mul_comm (2 ^ 8)). now apply split_lt.
Qed.

Lemma of_to_le n x : of_le (to_le n x) = x mod 2 ^ (8 * N.of_nat n).
Proof.
  revert x. induction n; intros x.
  - simpl. rewrite N.mod_1_r. reflexivity.
  - cbn [to_le of_le]. rewrite IHn.
    replace (8 * N.of_nat (S n)) with (8 + 8 * N.of_nat n) by lia.
    rewrite N.pow_add_r, (N.mod_mul_r x); [reflexivity| |]; apply N.pow_nonzero; discriminate.
Qed.

Lemma of_to_le_id n x : x < 2 ^ (8 * N.of_nat n) -> of_le (to_le n x) = x.
Proof. intros H. rewrite of_to_le. now apply N.mod_small. Qed.

Lemma to_of_le l : Forall u8 l -> to_le (List.length l) (of_le l) = l.
Proof.
  induction l as [|x l IH]; intros H; [reflexivity|].
  inversion H as [|? ? Hx Hl]; subst. cbn [List.length to_le of_le].
  rewrite (N.add_comm x), (N.mul_comm (2 ^ 8)), split_mod, split_div by assumption.
  now rewrite IH.
Qed.

Lemma of_le_inj a b :
  List.length a = List.length b -> Forall u8 a -> Forall u8 b -> of_le a = of_le b -> a = b.
Proof.
  intros Hl Ha Hb H. rewrite <- (to_of_le a), <- (to_of_le b) by assumption. congruence.
Qed.

Lemma to_le_app n m x : to_le (n + m) x = to_le n x ++ to_le m (x / 2 ^ (8 * N.of_nat n)).
Proof.
  revert x. induction n; intros x.
  - simpl. now rewrite N.div_1_r.
  - cbn [Nat.add to_le app]. rewrite IHn. do 3 f_equal.
    replace (8 * N.of_nat (S n)) with (8 + 8 * N.of_nat n) by lia.
    rewrite N.pow_add_r, N.div_div; [reflexivity| |]; apply N.pow_nonzero; discriminate.
Qed.

Lemma to_le_mod n x : to_le n (x mod 2 ^ (8 * N.of_nat n)) = to_le n x.
Proof.
  apply of_le_inj; rewrite ?to_le_length; auto using to_le_u8.
  rewrite !of_to_le. apply N.mod_mod, N.pow_nonzero. discriminate.
Qed.

(** ** Loops *)

Lemma nloop_add {S R} n m (step : S -> S + R) s :
  nloop (n + m) step s =
  match nloop n step s with inl s' => nloop m step s' | inr r => inr r end.
Proof. revert s. induction n; intros s; simpl; [reflexivity|]. destruct (step s); auto. Qed.

Lemma ploop_nloop {S R} p (step : S -> S + R) s : ploop p step s = nloop (Pos.to_nat p) step s.
Proof.
  revert s. induction p as [q IH|q IH|]; intros s.
  - rewrite Pos2Nat.inj_xI. simpl Nat.mul. rewrite Nat.add_0_r. cbn [ploop].
    cbn [nloop]. destruct (step s) as [s1|r]; [|reflexivity].
    rewrite nloop_add, IH. destruct (nloop (Pos.to_nat q) step s1); [apply IH|reflexivity].
  - rewrite Pos2Nat.inj_xO. simpl Nat.mul. rewrite Nat.add_0_r. cbn [ploop].
    rewrite nloop_add, IH. destruct (nloop (Pos.to_nat q) step s); [apply IH|reflexivity].
  - rewrite Pos2Nat.inj_1. simpl. destruct (step s); reflexivity.
Qed.
