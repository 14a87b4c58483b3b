(** Proofs about the Kuznyechik block cipher: the specification is bijective and the
    model of the code computes it. *)
From Verif Require Import Base Text KuzModel SpecText SpecModes SpecKuz Lib TextProofs BlockProofs.
From Coq Require Import Lia ZifyBool ZifyNat ZifyN.
Local Open Scope N_scope.

(** ** Exhaustive checks over bytes *)

Definition all_bytes : list N := map N.of_nat (seq 0 256).

Lemma all_bytes_in a : u8 a -> In a all_bytes.
Proof.
  intros H. unfold u8 in H. change (2 ^ 8) with 256 in H. apply in_map_iff.
  exists (N.to_nat a). split; [lia|]. apply in_seq. lia.
Qed.

Lemma bytes_forallb (f : N -> bool) : forallb f all_bytes = true -> forall a, u8 a -> f a = true.
Proof. intros H a Ha. rewrite forallb_forall in H. auto using all_bytes_in. Qed.

Lemma bytes2_forallb (f : N -> N -> bool) :
  forallb (fun a => forallb (f a) all_bytes) all_bytes = true ->
  forall a b, u8 a -> u8 b -> f a b = true.
Proof.
  intros H a b Ha Hb. apply (bytes_forallb (f a)); [|assumption].
  now apply (bytes_forallb (fun a => forallb (f a) all_bytes)).
Qed.

(** ** The field product *)

Lemma double_lxor a b : 2 * N.lxor a b = N.lxor (2 * a) (2 * b).
Proof. now destruct a, b. Qed.

Lemma pmul_lxor_l a b c : pmul (N.lxor a b) c = N.lxor (pmul a c) (pmul b c).
Proof.
  destruct c as [|p]; [reflexivity|]. cbn [pmul].
  induction p as [p IH|p IH|]; cbn [pmul_pos]; rewrite ?IH, ?double_lxor; [|reflexivity..].
  apply N.bits_inj. intros i. rewrite !N.lxor_spec.
  destruct (N.testbit a i), (N.testbit b i), (N.testbit (2 * pmul_pos a p) i),
    (N.testbit (2 * pmul_pos b p) i); reflexivity.
Qed.

Lemma reduce_lxor a b : reduce (N.lxor a b) = N.lxor (reduce a) (reduce b).
Proof.
  unfold reduce. generalize [14; 13; 12; 11; 10; 9; 8]. intros is_. revert a b.
  induction is_ as [|i is_ IH]; intros a b; cbn [fold_left]; [reflexivity|].
  rewrite <- IH. f_equal. rewrite N.lxor_spec.
  set (m := N.shiftl modulus (i - 8)).
  destruct (N.testbit a i), (N.testbit b i); cbn [xorb];
    apply N.bits_inj; intros j; rewrite ?N.lxor_spec;
    destruct (N.testbit a j), (N.testbit b j), (N.testbit m j); reflexivity.
Qed.

Lemma fmul_lxor_l a b c : fmul (N.lxor a b) c = N.lxor (fmul a c) (fmul b c).
Proof. unfold fmul. now rewrite pmul_lxor_l, reduce_lxor. Qed.

Lemma fmul_0_l c : fmul 0 c = 0.
Proof.
  etransitivity; [exact (fmul_lxor_l 0 0 c)|apply N.lxor_nilpotent].
Qed.

(** The quotient of the long division. *)
Definition quotient (x : N) : N :=
  snd (fold_left (fun '(x, q) i => if N.testbit x i
                   then (N.lxor x (N.shiftl modulus (i - 8)), N.lxor q (N.shiftl 1 (i - 8)))
                   else (x, q))
            [14; 13; 12; 11; 10; 9; 8] (x, 0)).

Lemma gmul_fmul a b : u8 a -> u8 b -> gmul a b = fmul a b.
Proof.
  intros Ha Hb. apply N.eqb_eq. revert a b Ha Hb. apply bytes2_forallb.
  vm_cast_no_check (eq_refl true).
Qed.

Lemma fmul_u8 a b : u8 a -> u8 b -> u8 (fmul a b).
Proof.
  intros Ha Hb. apply N.ltb_lt. revert a b Ha Hb. apply bytes2_forallb.
  vm_cast_no_check (eq_refl true).
Qed.

Lemma fmul_division a b : u8 a -> u8 b ->
  pmul a b = N.lxor (pmul (quotient (pmul a b)) modulus) (fmul a b).
Proof.
  intros Ha Hb. apply N.eqb_eq. revert a b Ha Hb. apply bytes2_forallb.
  vm_cast_no_check (eq_refl true).
Qed.

Lemma fmul_1_r a : u8 a -> fmul a 1 = a.
Proof.
  intros Ha. apply N.eqb_eq. revert a Ha. apply bytes_forallb. vm_cast_no_check (eq_refl true).
Qed.

(** Every non-zero multiple of the modulus has a term of degree 8 or more. *)
Lemma multiple_large q : q <> 0 -> 256 <= pmul q modulus.
Proof.
  intros Hq. change (pmul q modulus) with
    (N.lxor q (2 * N.lxor q (2 * (2 * (2 * (2 * (2 * N.lxor q (2 * N.lxor q (2 * q))))))))).
  set (x := N.lxor q _).
  assert (H : N.testbit x (N.log2 q + 8) = true).
  { subst x.
    assert (D : forall y n, N.testbit (2 * y) (n + 1) = N.testbit y n).
    { intros y n. rewrite N.add_1_r. apply N.double_bits_succ. }
    assert (Z : forall n, n <> 0 -> N.testbit q (N.log2 q + n) = false).
    { intros n Hn. apply N.bits_above_log2. lia. }
    replace (N.log2 q + 8) with (N.log2 q + 7 + 1) by lia. rewrite N.lxor_spec, D.
    replace (N.log2 q + 7) with (N.log2 q + 6 + 1) by lia. rewrite N.lxor_spec, D.
    replace (N.log2 q + 6) with (N.log2 q + 5 + 1) by lia. rewrite D.
    replace (N.log2 q + 5) with (N.log2 q + 4 + 1) by lia. rewrite D.
    replace (N.log2 q + 4) with (N.log2 q + 3 + 1) by lia. rewrite D.
    replace (N.log2 q + 3) with (N.log2 q + 2 + 1) by lia. rewrite D.
    replace (N.log2 q + 2) with (N.log2 q + 1 + 1) by lia. rewrite N.lxor_spec, D, N.lxor_spec, D.
    rewrite N.bit_log2 by assumption.
    rewrite <- !N.add_assoc, !Z by lia. reflexivity. }
  destruct (N.lt_ge_cases x 256) as [Hx|Hx]; [|exact Hx].
  rewrite (lt_pow2_testbit x 8) in H; [discriminate|exact Hx|lia].
Qed.

Lemma field_product_unique a b c d : field_product a b c -> field_product a b d -> c = d.
Proof.
  intros [Hc [q Hq]] [Hd [r Hr]]. rewrite Hq in Hr.
  assert (H : pmul (N.lxor q r) modulus = N.lxor c d).
  { rewrite pmul_lxor_l. revert Hr. generalize (pmul q modulus), (pmul r modulus).
    intros A B Hr. rewrite <- (lxor_cancel_r A c), Hr.
    apply N.bits_inj. intros i. rewrite !N.lxor_spec.
    destruct (N.testbit B i), (N.testbit c i), (N.testbit d i); reflexivity. }
  destruct (N.eq_dec (N.lxor q r) 0) as [E|E].
  - rewrite E in H. now apply N.lxor_eq.
  - apply multiple_large in E. assert (N.lxor c d < 2 ^ 8) by now apply lxor_lt. 
    change (2 ^ 8) with 256 in *. lia.
Qed.

Lemma gmul_field_product a b : u8 a -> u8 b ->
  forall c, field_product a b c <-> c = gmul a b.
Proof.
  intros Ha Hb c.
  assert (H : field_product a b (gmul a b)).
  { rewrite gmul_fmul by assumption. split.
    - pose proof (fmul_u8 a b Ha Hb) as H. exact H.
    - exists (quotient (pmul a b)). now apply fmul_division. }
  split; [|now intros ->]. intros Hc. exact (field_product_unique _ _ _ _ Hc H).
Qed.

(** ** The linear layer of the specification *)

Lemma to_le_lxor n : forall x y,
  to_le n (N.lxor x y) = map (fun p => N.lxor (fst p) (snd p)) (combine (to_le n x) (to_le n y)).
Proof.
  induction n as [|n IH]; intros x y; [reflexivity|]. cbn [to_le combine map fst snd].
  unfold w8. change 256 with (2 ^ 8). rewrite lxor_mod, lxor_div. now rewrite IH.
Qed.

Lemma lsum_lxor cs : forall xs ys, List.length xs = List.length ys ->
  lsum cs (map (fun p => N.lxor (fst p) (snd p)) (combine xs ys)) = N.lxor (lsum cs xs) (lsum cs ys).
Proof.
  induction cs as [|c cs IH]; intros [|x xs] [|y ys] Hl; cbn in Hl; try discriminate; try reflexivity.
  cbn [combine map fst snd lsum]. rewrite IH, fmul_lxor_l by lia.
  rewrite !N.lxor_assoc. f_equal. rewrite <- !N.lxor_assoc. f_equal. apply N.lxor_comm.
Qed.

Lemma l_lxor x y : l (N.lxor x y) = N.lxor (l x) (l y).
Proof.
  unfold l, digits. rewrite to_le_lxor. apply lsum_lxor. now rewrite !to_le_length.
Qed.

Lemma lsum_u8 cs : forall ds, Forall u8 cs -> Forall u8 ds -> u8 (lsum cs ds).
Proof.
  induction cs as [|c cs IH]; intros [|d ds] Hc Hd; try reflexivity.
  inversion Hc; inversion Hd; subst. cbn [lsum].
  apply lxor_lt; [now apply fmul_u8|now apply IH].
Qed.

Lemma l_u8 x : u8 (l x).
Proof.
  apply lsum_u8; [|apply to_le_u8]. repeat constructor.
Qed.

Lemma lsum_zeros cs n : lsum cs (repeat 0 n) = 0.
Proof.
  revert cs. induction n as [|n IH]; intros [|c cs]; try reflexivity.
  cbn [repeat lsum]. now rewrite fmul_0_l, IH.
Qed.

Lemma to_le_0 n : to_le n 0 = repeat 0 n.
Proof. induction n as [|n IH]; [reflexivity|]. cbn [to_le repeat]. f_equal. exact IH. Qed.

Lemma digits_cons x : digits x = x mod 2 ^ 8 :: to_le 15 (x / 2 ^ 8).
Proof.
  unfold digits. change 16%nat with (1 + 15)%nat. rewrite to_le_app.
  change (8 * N.of_nat 1) with 8. reflexivity.
Qed.

Lemma l_byte a : u8 a -> l a = a.
Proof.
  intros Ha. unfold l.
  assert (E : digits a = a :: repeat 0 15).
  { rewrite digits_cons, N.div_small, to_le_0 by exact Ha. now rewrite N.mod_small. }
  rewrite E. change (lsum l_coefficients (a :: repeat 0 15)) with
    (N.lxor (fmul a 1) (lsum (tl l_coefficients) (repeat 0 15))).
  rewrite lsum_zeros, N.lxor_0_r. now apply fmul_1_r.
Qed.

Lemma R_lt x : x < 2 ^ 128 -> R x < 2 ^ 128.
Proof.
  intros H. unfold R. pose proof (l_u8 x) as Hl. unfold u8 in Hl.
  change (2 ^ 128) with (2 ^ (8 + 120)). apply split_lt; [exact Hl|].
  apply N.div_lt_upper_bound; [lia|]. exact H.
Qed.

Lemma R_lxor x y : x < 2 ^ 128 -> y < 2 ^ 128 -> R (N.lxor x y) = N.lxor (R x) (R y).
Proof.
  intros Hx Hy. unfold R. rewrite l_lxor, lxor_div.
  assert (B : forall x, x < 2 ^ 128 -> x / 2 ^ 8 < 2 ^ 120).
  { intros z Hz. apply N.div_lt_upper_bound; [lia|]. exact Hz. }
  now rewrite <- lxor_split by auto.
Qed.

(** The inverse of R: the shifted-out digit is recovered because its coefficient is 1. *)
Definition R_inv (y : N) : N :=
  let t := y mod 2 ^ 120 * 2 ^ 8 in t + N.lxor (y / 2 ^ 120) (l t).

Lemma add_byte_lxor t a : u8 a -> t * 2 ^ 8 + a = N.lxor (t * 2 ^ 8) a.
Proof.
  intros Ha. rewrite <- (N.add_0_r (t * 2 ^ 8)) at 2.
  change (N.lxor (t * 2 ^ 8 + 0) a) with (N.lxor (t * 2 ^ 8 + 0) (0 * 2 ^ 8 + a)).
  rewrite lxor_split; [|reflexivity|exact Ha]. now rewrite N.lxor_0_r, N.lxor_0_l.
Qed.

Lemma R_inv_lt y : y < 2 ^ 128 -> R_inv y < 2 ^ 128.
Proof.
  intros H. unfold R_inv. cbv zeta. change (2 ^ 128) with (2 ^ (120 + 8)).
  apply split_lt; [apply mod_pow2_lt|]. apply lxor_lt; [|apply l_u8].
  apply N.div_lt_upper_bound; [lia|]. exact H.
Qed.

Lemma R_R_inv y : y < 2 ^ 128 -> R (R_inv y) = y.
Proof.
  intros H. unfold R, R_inv. cbv zeta. set (t := y mod 2 ^ 120).
  assert (Hq : u8 (y / 2 ^ 120)). { apply N.div_lt_upper_bound; [lia|]. exact H. }
  assert (Ha : u8 (N.lxor (y / 2 ^ 120) (l (t * 2 ^ 8)))) by (apply lxor_lt; [exact Hq|apply l_u8]).
  rewrite split_div by exact Ha.
  rewrite add_byte_lxor, l_lxor, (l_byte (N.lxor _ _)) by exact Ha.
  rewrite (N.lxor_comm (y / 2 ^ 120)), lxor_cancel_l. subst t. apply split_join.
Qed.

Lemma R_inv_R x : x < 2 ^ 128 -> R_inv (R x) = x.
Proof.
  intros H. unfold R, R_inv. cbv zeta.
  assert (Hq : x / 2 ^ 8 < 2 ^ 120). { apply N.div_lt_upper_bound; [lia|]. exact H. }
  rewrite split_div, split_mod by exact Hq.
  assert (Ha : u8 (x mod 2 ^ 8)) by apply mod_pow2_lt.
  assert (E : l x = N.lxor (l (x / 2 ^ 8 * 2 ^ 8)) (x mod 2 ^ 8)).
  { rewrite <- (l_byte (x mod 2 ^ 8)) at 1 by exact Ha. rewrite <- l_lxor.
    rewrite <- add_byte_lxor by exact Ha. now rewrite split_join. }
  rewrite E. rewrite N.lxor_comm, lxor_cancel_l. apply split_join.
Qed.

Definition L_inv (y : N) : N := Nat.iter 16 R_inv y.

Lemma iter_lt (f : N -> N) n : (forall x, x < 2 ^ 128 -> f x < 2 ^ 128) ->
  forall x, x < 2 ^ 128 -> Nat.iter n f x < 2 ^ 128.
Proof. intros Hf x Hx. induction n as [|n IH]; [exact Hx|]. cbn [Nat.iter]. now apply Hf. Qed.

Lemma iter_S (f : N -> N) n x : Nat.iter (Datatypes.S n) f x = f (Nat.iter n f x).
Proof. reflexivity. Qed.

Lemma iter_swap (f : N -> N) n x : Nat.iter n f (f x) = f (Nat.iter n f x).
Proof. induction n as [|n IH]; [reflexivity|]. cbn. f_equal. exact IH. Qed.

Lemma iter_inv (f g : N -> N) n :
  (forall x, x < 2 ^ 128 -> f x < 2 ^ 128) -> (forall x, x < 2 ^ 128 -> g (f x) = x) ->
  forall x, x < 2 ^ 128 -> Nat.iter n g (Nat.iter n f x) = x.
Proof.
  intros Hf Hgf. induction n as [|n IH]; intros x Hx; [reflexivity|].
  change (Nat.iter (Datatypes.S n) f x) with (f (Nat.iter n f x)).
  change (Nat.iter (Datatypes.S n) g (f (Nat.iter n f x))) with (g (Nat.iter n g (f (Nat.iter n f x)))).
  rewrite <- iter_swap, Hgf by now apply iter_lt. now apply IH.
Qed.

Lemma L_lt x : x < 2 ^ 128 -> L x < 2 ^ 128.
Proof. apply iter_lt, R_lt. Qed.
Lemma L_inv_lt x : x < 2 ^ 128 -> L_inv x < 2 ^ 128.
Proof. apply iter_lt, R_inv_lt. Qed.
Lemma L_inv_L x : x < 2 ^ 128 -> L_inv (L x) = x.
Proof. apply iter_inv; [apply R_lt|apply R_inv_R]. Qed.
Lemma L_L_inv x : x < 2 ^ 128 -> L (L_inv x) = x.
Proof. apply iter_inv; [apply R_inv_lt|apply R_R_inv]. Qed.

Lemma L_lxor x y : x < 2 ^ 128 -> y < 2 ^ 128 -> L (N.lxor x y) = N.lxor (L x) (L y).
Proof.
  intros Hx Hy. unfold L. generalize 16%nat. intros n.
  induction n as [|n IH]; [reflexivity|].
  rewrite !iter_S, IH. apply R_lxor; apply iter_lt; auto using R_lt.
Qed.

(** ** The substitution *)

Definition Pi'_inv : list N :=
  map (fun y => match find (fun x => pi x =? y) all_bytes with Some x => x | None => 0 end) all_bytes.
Definition pi_inv (y : N) : N := nth (N.to_nat y) Pi'_inv 0.

Lemma pi_u8 a : u8 a -> u8 (pi a).
Proof.
  intros Ha. apply N.ltb_lt. revert a Ha. apply bytes_forallb. vm_cast_no_check (eq_refl true).
Qed.
Lemma pi_inv_u8 a : u8 a -> u8 (pi_inv a).
Proof.
  intros Ha. apply N.ltb_lt. revert a Ha. apply bytes_forallb. vm_cast_no_check (eq_refl true).
Qed.
Lemma pi_inv_pi a : u8 a -> pi_inv (pi a) = a.
Proof.
  intros Ha. apply N.eqb_eq. revert a Ha. apply bytes_forallb. vm_cast_no_check (eq_refl true).
Qed.
Lemma pi_pi_inv a : u8 a -> pi (pi_inv a) = a.
Proof.
  intros Ha. apply N.eqb_eq. revert a Ha. apply bytes_forallb. vm_cast_no_check (eq_refl true).
Qed.

Definition S_inv (y : N) : N := of_le (map pi_inv (digits y)).

Lemma map_u8 (f : N -> N) : (forall a, u8 a -> u8 (f a)) ->
  forall ds, Forall u8 ds -> Forall u8 (map f ds).
Proof. intros Hf ds H. induction H; constructor; auto. Qed.

Lemma digits_length x : List.length (digits x) = 16%nat.
Proof. apply to_le_length. Qed.
Lemma digits_u8 x : Forall u8 (digits x).
Proof. apply to_le_u8. Qed.

Lemma of_le_16 ds : List.length ds = 16%nat -> Forall u8 ds -> of_le ds < 2 ^ 128.
Proof.
  intros Hl H. pose proof (of_le_lt ds H) as B. unfold len in B. rewrite Hl in B. exact B.
Qed.

Lemma digits_of_le ds : List.length ds = 16%nat -> Forall u8 ds -> digits (of_le ds) = ds.
Proof. intros Hl H. unfold digits. rewrite <- Hl at 1. now apply to_of_le. Qed.

Lemma of_le_digits x : x < 2 ^ 128 -> of_le (digits x) = x.
Proof. intros H. now apply of_to_le_id. Qed.

Lemma subst_inv (f g : N -> N) :
  (forall a, u8 a -> u8 (f a)) -> (forall a, u8 a -> g (f a) = a) ->
  forall x, x < 2 ^ 128 -> of_le (map g (digits (of_le (map f (digits x))))) = x.
Proof.
  intros Hf Hgf x Hx. rewrite digits_of_le.
  - rewrite map_map. rewrite <- (of_le_digits x) at 2 by exact Hx. f_equal.
    pose proof (digits_u8 x) as H. induction H; [reflexivity|]. cbn [map]. now rewrite Hgf, IHForall.
  - now rewrite map_length, digits_length.
  - apply map_u8; [exact Hf|apply digits_u8].
Qed.

Lemma S_lt x : S x < 2 ^ 128.
Proof.
  apply of_le_16; [now rewrite map_length, digits_length|apply map_u8; [exact pi_u8|apply digits_u8]].
Qed.
Lemma S_inv_lt x : S_inv x < 2 ^ 128.
Proof.
  apply of_le_16; [now rewrite map_length, digits_length|apply map_u8; [exact pi_inv_u8|apply digits_u8]].
Qed.
Lemma S_inv_S x : x < 2 ^ 128 -> S_inv (S x) = x.
Proof. apply subst_inv; [exact pi_u8|exact pi_inv_pi]. Qed.
Lemma S_S_inv x : x < 2 ^ 128 -> S (S_inv x) = x.
Proof. apply subst_inv; [exact pi_inv_u8|exact pi_pi_inv]. Qed.

(** ** Rounds and encryption of the specification are bijective *)

Definition LSX_inv (k y : N) : N := N.lxor k (S_inv (L_inv y)).

Lemma LSX_lt k a : LSX k a < 2 ^ 128.
Proof. unfold LSX. apply L_lt. apply S_lt. Qed.
Lemma LSX_inv_lt k a : k < 2 ^ 128 -> LSX_inv k a < 2 ^ 128.
Proof. intros Hk. apply lxor_lt; [exact Hk|apply S_inv_lt]. Qed.
Lemma LSX_inv_LSX k a : k < 2 ^ 128 -> a < 2 ^ 128 -> LSX_inv k (LSX k a) = a.
Proof.
  intros Hk Ha. unfold LSX_inv, LSX, Xk.
  rewrite L_inv_L by apply S_lt. rewrite S_inv_S by now apply lxor_lt. apply lxor_cancel_l.
Qed.
Lemma LSX_LSX_inv k a : k < 2 ^ 128 -> a < 2 ^ 128 -> LSX k (LSX_inv k a) = a.
Proof.
  intros Hk Ha. unfold LSX_inv, LSX, Xk. rewrite lxor_cancel_l.
  rewrite S_S_inv by now apply L_inv_lt. now apply L_L_inv.
Qed.

(** Stated for an arbitrary invertible round, so that the kernel never unfolds it. *)
Section Rounds.
Context (f g : N -> N -> N).
Hypothesis f_lt : forall k a, f k a < 2 ^ 128.
Hypothesis g_lt : forall k a, k < 2 ^ 128 -> g k a < 2 ^ 128.
Hypothesis g_f : forall k a, k < 2 ^ 128 -> a < 2 ^ 128 -> g k (f k a) = a.
Hypothesis f_g : forall k a, k < 2 ^ 128 -> a < 2 ^ 128 -> f k (g k a) = a.

Lemma rounds_lt rs : forall a, a < 2 ^ 128 -> fold_left (fun a k => f k a) rs a < 2 ^ 128.
Proof.
  induction rs as [|r rs IH]; intros a Ha; [exact Ha|]. cbn [fold_left]. apply IH, f_lt.
Qed.

Lemma unrounds_lt rs : Forall (fun k => k < 2 ^ 128) rs ->
  forall a, a < 2 ^ 128 -> fold_right g a rs < 2 ^ 128.
Proof. intros H a Ha. induction H; [exact Ha|]. cbn [fold_right]. now apply g_lt. Qed.

Lemma unrounds_rounds rs : Forall (fun k => k < 2 ^ 128) rs ->
  forall a, a < 2 ^ 128 -> fold_right g (fold_left (fun a k => f k a) rs a) rs = a.
Proof.
  intros H. induction H as [|k rs Hk H IH]; intros a Ha; [reflexivity|].
  cbn [fold_left fold_right]. rewrite IH by apply f_lt. now apply g_f.
Qed.

Lemma rounds_unrounds rs : Forall (fun k => k < 2 ^ 128) rs ->
  forall a, a < 2 ^ 128 -> fold_left (fun a k => f k a) rs (fold_right g a rs) = a.
Proof.
  intros H a Ha. induction H as [|k rs Hk H IH]; [reflexivity|].
  cbn [fold_left fold_right]. rewrite f_g; [exact IH|exact Hk|]. now apply unrounds_lt.
Qed.
End Rounds.

Definition decrypt_with (ks : list N) (c : N) : N :=
  fold_right LSX_inv (N.lxor (last ks 0) c) (removelast ks).

Section Cipher.
Context (ks : list N) (Hks : Forall (fun k => k < 2 ^ 128) ks).

Lemma last_lt : last ks 0 < 2 ^ 128.
Proof.
  clear - Hks. induction Hks as [|k ks' Hk Hs IH]; [reflexivity|].
  destruct ks' as [|k' ks']; [exact Hk|exact (IH Hs)].
Qed.

Lemma removelast_lt : Forall (fun k => k < 2 ^ 128) (removelast ks).
Proof.
  clear - Hks. induction Hks as [|k ks' Hk Hs IH]; [constructor|].
  destruct ks' as [|k' ks']; [constructor|]. constructor; [exact Hk|exact (IH Hs)].
Qed.

Lemma encrypt_with_lt a : a < 2 ^ 128 -> encrypt_with ks a < 2 ^ 128.
Proof.
  intros Ha. unfold encrypt_with, Xk. apply lxor_lt; [apply last_lt|].
  now apply rounds_lt; [exact LSX_lt|].
Qed.

Lemma decrypt_with_lt c : c < 2 ^ 128 -> decrypt_with ks c < 2 ^ 128.
Proof.
  intros Hc. unfold decrypt_with. apply unrounds_lt; [exact LSX_inv_lt|apply removelast_lt|].
  now apply lxor_lt; [apply last_lt|].
Qed.

Lemma decrypt_encrypt_with a : a < 2 ^ 128 -> decrypt_with ks (encrypt_with ks a) = a.
Proof.
  intros Ha. unfold decrypt_with, encrypt_with, Xk. rewrite lxor_cancel_l.
  exact (unrounds_rounds LSX LSX_inv LSX_lt LSX_inv_LSX _ removelast_lt a Ha).
Qed.

Lemma encrypt_decrypt_with c : c < 2 ^ 128 -> encrypt_with ks (decrypt_with ks c) = c.
Proof.
  intros Hc. unfold decrypt_with, encrypt_with, Xk.
  assert (Hx : N.lxor (last ks 0) c < 2 ^ 128) by (now apply lxor_lt; [apply last_lt|]).
  pose proof (rounds_unrounds LSX LSX_inv LSX_inv_lt LSX_LSX_inv _ removelast_lt _ Hx) as E.
  rewrite E. apply lxor_cancel_l.
Qed.
End Cipher.

(** ** The key schedule *)

Lemma F_lt c p : fst p < 2 ^ 128 -> snd p < 2 ^ 128 ->
  fst (F c p) < 2 ^ 128 /\ snd (F c p) < 2 ^ 128.
Proof. intros H1 H2. split; [|exact H1]. apply lxor_lt; [apply LSX_lt|exact H2]. Qed.

Lemma steps_lt n : forall i p, fst p < 2 ^ 128 -> snd p < 2 ^ 128 ->
  fst (steps n i p) < 2 ^ 128 /\ snd (steps n i p) < 2 ^ 128.
Proof.
  induction n as [|n IH]; intros i p H1 H2; [split; assumption|]. cbn [steps].
  destruct (F_lt (C i) p H1 H2). now apply IH.
Qed.

Lemma round_keys_lt K : K < 2 ^ 256 -> Forall (fun k => k < 2 ^ 128) (round_keys K).
Proof.
  intros HK. unfold round_keys.
  assert (H1 : fst (K / 2 ^ 128, K mod 2 ^ 128) < 2 ^ 128).
  { apply N.div_lt_upper_bound; [lia|]. exact HK. }
  assert (H2 : snd (K / 2 ^ 128, K mod 2 ^ 128) < 2 ^ 128) by apply mod_pow2_lt.
  revert H1 H2. generalize (K / 2 ^ 128, K mod 2 ^ 128). generalize 1. generalize 4%nat.
  intros n. induction n as [|n IH]; intros i p H1 H2; cbn [key_pairs flat_map app].
  - repeat constructor; assumption.
  - repeat constructor; try assumption. destruct (steps_lt 8 i p H1 H2). now apply IH.
Qed.

Definition Kuz_D (K c : N) : N := decrypt_with (round_keys K) c.

Lemma Kuz_E_lt K a : K < 2 ^ 256 -> a < 2 ^ 128 -> Kuz_E K a < 2 ^ 128.
Proof. intros HK. apply encrypt_with_lt, round_keys_lt, HK. Qed.
Lemma Kuz_D_lt K a : K < 2 ^ 256 -> a < 2 ^ 128 -> Kuz_D K a < 2 ^ 128.
Proof. intros HK. apply decrypt_with_lt, round_keys_lt, HK. Qed.
Lemma Kuz_D_E K a : K < 2 ^ 256 -> a < 2 ^ 128 -> Kuz_D K (Kuz_E K a) = a.
Proof. intros HK. apply decrypt_encrypt_with, round_keys_lt, HK. Qed.
Lemma Kuz_E_D K a : K < 2 ^ 256 -> a < 2 ^ 128 -> Kuz_E K (Kuz_D K a) = a.
Proof. intros HK. apply encrypt_decrypt_with, round_keys_lt, HK. Qed.
Lemma Kuz_E_inj K a b : K < 2 ^ 256 -> a < 2 ^ 128 -> b < 2 ^ 128 -> Kuz_E K a = Kuz_E K b -> a = b.
Proof. intros HK Ha Hb H. rewrite <- (Kuz_D_E K a), <- (Kuz_D_E K b), H by assumption. reflexivity. Qed.

(** ** The model computes the specification *)

Lemma kpair_inj x y : kpair x = kpair y -> x = y.
Proof.
  unfold kpair. intros H. injection H as H1 H2.
  rewrite <- (split_join x 64), <- (split_join y 64). now rewrite H1, H2.
Qed.

Lemma kpair_join lo hi : lo < 2 ^ 64 -> kpair (hi * 2 ^ 64 + lo) = (lo, hi).
Proof. intros H. unfold kpair. now rewrite split_mod, split_div. Qed.

Lemma xor_kpair a b : xor_pair (kpair a) (kpair b) = kpair (N.lxor a b).
Proof. unfold xor_pair, kpair. cbn [fst snd]. now rewrite lxor_mod, lxor_div. Qed.

Lemma KXored_kpair a b : KXored (Ok (kpair a)) (Ok (kpair b)) = Ok (kpair (N.lxor a b)).
Proof. now rewrite KXored_ok, xor_kpair. Qed.

Lemma kpair_digits x : x < 2 ^ 128 ->
  to_le 8 (fst (kpair x)) ++ to_le 8 (snd (kpair x)) = digits x.
Proof.
  intros Hx. cbn [kpair fst snd]. unfold digits.
  change 16%nat with (8 + 8)%nat. rewrite to_le_app. f_equal.
  change (2 ^ 64) with (2 ^ (8 * N.of_nat 8)). apply to_le_mod.
Qed.

Lemma KRaw_bytes_digits b : List.length b = 16%nat -> Forall u8 b ->
  KRaw_bytes b = Ok (kpair (of_le b)).
Proof.
  intros Hl Hb. unfold KRaw_bytes, KRaw, kpair.
  assert (L1 : List.length (firstn 8 b) = 8%nat) by (rewrite firstn_length; lia).
  assert (L2 : List.length (skipn 8 b) = 8%nat) by (rewrite skipn_length; lia).
  rewrite (firstn_all2 (skipn 8 b)) by lia.
  assert (E : of_le b = of_le (skipn 8 b) * 2 ^ 64 + of_le (firstn 8 b)).
  { rewrite <- (firstn_skipn 8 b) at 1. rewrite of_le_app. unfold len. rewrite L1.
    change (8 * N.of_nat 8) with 64. lia. }
  assert (B : of_le (firstn 8 b) < 2 ^ 64).
  { pose proof (of_le_lt (firstn 8 b) (Forall_firstn _ _ _ Hb)) as B. unfold len in B.
    rewrite L1 in B. exact B. }
  now rewrite E, split_mod, split_div.
Qed.

Lemma gmul_sum_lsum ds : forall cs s, Forall u8 ds -> Forall u8 cs ->
  gmul_sum ds cs s = N.lxor s (lsum cs ds).
Proof.
  induction ds as [|d ds IH]; intros [|c cs] s Hd Hc; cbn [gmul_sum lsum];
    rewrite ?N.lxor_0_r; try reflexivity.
  inversion Hd; inversion Hc; subst. rewrite IH, gmul_fmul by assumption. apply N.lxor_assoc.
Qed.

Lemma KR_kpair x : x < 2 ^ 128 -> KR (Ok (kpair x)) = Ok (kpair (R x)).
Proof.
  intros Hx. unfold KR. cbn [bind].
  pose proof (kpair_digits x Hx) as E. cbn [kpair fst snd] in E. unfold kpair at 1.
  cbv zeta beta iota. rewrite E. clear E.
  assert (Hk : Forall u8 BlkR_k) by (repeat constructor).
  rewrite gmul_sum_lsum by (assumption || apply digits_u8). rewrite N.lxor_0_l.
  change (lsum BlkR_k (digits x)) with (l x).
  rewrite (w8_id (l x)) by apply l_u8.
  rewrite digits_cons. cbn [skipn].
  rewrite KRaw_bytes_digits.
  - do 2 f_equal. rewrite of_le_app. unfold len. rewrite to_le_length.
    change (8 * N.of_nat 15) with 120. rewrite of_to_le_id.
    + unfold R. cbn [of_le]. lia.
    + change (8 * N.of_nat 15) with 120. apply N.div_lt_upper_bound; [lia|]. exact Hx.
  - rewrite app_length, to_le_length. reflexivity.
  - apply Forall_app. split; [apply to_le_u8|]. repeat constructor. apply l_u8.
Qed.

Lemma KL_transform_iter n : forall x, x < 2 ^ 128 ->
  KL_transform (Ok (kpair x)) n = Ok (kpair (Nat.iter n R x)).
Proof.
  induction n as [|n IH]; intros x Hx; [reflexivity|]. cbn [KL_transform].
  rewrite KR_kpair, IH by auto using R_lt. now rewrite iter_swap.
Qed.

Lemma KL_kpair x : x < 2 ^ 128 -> KL (Ok (kpair x)) = Ok (kpair (L x)).
Proof. apply KL_transform_iter. Qed.

Lemma sbox_at a : u8 a -> at_ BlkS_sbox a = Ok (pi a).
Proof.
  intros Ha. unfold at_. change BlkS_sbox with Pi'. unfold pi.
  unfold u8 in Ha. change (2 ^ 8) with 256 in Ha.
  change (len Pi') with 256. replace (a <? 256) with true by lia.
  rewrite (nth_error_nth' Pi' 0); [reflexivity|]. change (List.length Pi') with 256%nat. lia.
Qed.

Lemma KS_kpair x : x < 2 ^ 128 -> KS (Ok (kpair x)) = Ok (kpair (S x)).
Proof.
  intros Hx. unfold KS. cbn [bind].
  pose proof (kpair_digits x Hx) as E. cbn [kpair fst snd] in E. unfold kpair at 1.
  cbv zeta beta iota. rewrite E. clear E.
  assert (E : mapM (at_ BlkS_sbox) (digits x) = Ok (map pi (digits x))).
  { pose proof (digits_u8 x) as H. induction H; [reflexivity|].
    cbn [mapM map]. rewrite sbox_at, IHForall by assumption. reflexivity. }
  rewrite E. cbn [bind]. apply KRaw_bytes_digits.
  - now rewrite map_length, digits_length.
  - apply map_u8; [exact pi_u8|apply digits_u8].
Qed.

Lemma encryptStep_kpair a k : a < 2 ^ 128 -> k < 2 ^ 128 ->
  encryptStep (Ok (kpair a)) (Ok (kpair k)) = Ok (kpair (LSX k a)).
Proof.
  intros Ha Hk. unfold encryptStep, LSX, Xk. rewrite KXored_kpair, (N.lxor_comm a).
  rewrite KS_kpair by now apply lxor_lt. rewrite KL_kpair by apply S_lt. reflexivity.
Qed.

(** generate(b, a, i, c2) for (a1, a0) = (a, b) *)
Lemma generate_steps n : forall a b i, a < 2 ^ 128 -> b < 2 ^ 128 ->
  (0 <= i)%Z -> (i + Z.of_nat n < 2 ^ 31)%Z ->
  KIterKey_generate n (Ok (kpair b)) (Ok (kpair a)) i (i + Z.of_nat n - 1) =
  Ok (kpair (fst (steps n (Z.to_N i) (a, b)))).
Proof.
  induction n as [|n IH]; intros a b i Ha Hb Hi Hn.
  - cbn [KIterKey_generate]. replace (i + Z.of_nat 0 - 1 <? i)%Z with true by lia. reflexivity.
  - cbn [KIterKey_generate steps].
    replace (i + Z.of_nat (Datatypes.S n) - 1 <? i)%Z with false by lia.
    replace (i =? 2 ^ 31 - 1)%Z with false by lia. cbv zeta.
    assert (E : u64_of_int i = Z.to_N i).
    { unfold u64_of_int. rewrite Z.mod_small; [reflexivity|]. 
      change (2 ^ 64)%Z with 18446744073709551616%Z. change (2 ^ 31)%Z with 2147483648%Z in Hn. lia. }
    assert (Bi : Z.to_N i < 2 ^ 64).
    { change (2 ^ 64) with 18446744073709551616. change (2 ^ 31)%Z with 2147483648%Z in Hn. lia. }
    assert (Bi' : Z.to_N i < 2 ^ 128).
    { eapply N.lt_trans; [exact Bi|]. reflexivity. }
    rewrite E. replace (KRaw1 (Z.to_N i)) with (@Ok (N * N) (kpair (Z.to_N i))).
    2: { unfold KRaw1, KRaw, kpair. now rewrite N.mod_small, N.div_small. }
    rewrite KL_kpair by exact Bi'.
    rewrite KXored_kpair, KS_kpair by (apply lxor_lt; auto using L_lt).
    rewrite KL_kpair by apply S_lt. rewrite KXored_kpair.
    replace (i + Z.of_nat (Datatypes.S n) - 1)%Z with (i + 1 + Z.of_nat n - 1)%Z by lia.
    rewrite IH; [|apply lxor_lt; auto using L_lt, S_lt|exact Ha|lia|lia].
    do 3 f_equal. replace (Z.to_N (i + 1)) with (Z.to_N i + 1) by lia. f_equal.
    unfold F, LSX, Xk, C. cbn [fst snd]. f_equal.
    rewrite (N.lxor_comm b). f_equal. do 2 f_equal. apply N.lxor_comm.
Qed.

Lemma KIterKey_steps a b c1 c2 : a < 2 ^ 128 -> b < 2 ^ 128 -> (0 <= c1)%Z -> (c1 - 1 <= c2)%Z ->
  (c2 < 2 ^ 31 - 1)%Z ->
  KIterKey (Ok (kpair a)) (Ok (kpair b)) c1 c2 =
  Ok (kpair (fst (steps (Z.to_nat (c2 - c1 + 1)) (Z.to_N c1) (a, b)))).
Proof.
  intros Ha Hb H1 H12 H2. unfold KIterKey.
  rewrite <- generate_steps by (assumption || lia). f_equal. lia.
Qed.

Lemma steps_succ n : forall i p, steps (Datatypes.S n) i p = F (C (i + N.of_nat n)) (steps n i p).
Proof.
  induction n as [|n IH]; intros i p.
  - cbn [steps]. now rewrite N.add_0_r.
  - change (steps (Datatypes.S (Datatypes.S n)) i p) with (steps (Datatypes.S n) (i + 1) (F (C i) p)).
    rewrite IH. cbn [steps]. do 2 f_equal. lia.
Qed.

Lemma snd_steps n i p : snd (steps (Datatypes.S n) i p) = fst (steps n i p).
Proof. now rewrite steps_succ. Qed.

Lemma KIterKey_pair a b c : a < 2 ^ 128 -> b < 2 ^ 128 -> (1 <= c)%Z -> (c < 1000)%Z ->
  KIterKey (Ok (kpair a)) (Ok (kpair b)) c (c + 7) = Ok (kpair (fst (steps 8 (Z.to_N c) (a, b)))) /\
  KIterKey (Ok (kpair a)) (Ok (kpair b)) c (c + 6) = Ok (kpair (snd (steps 8 (Z.to_N c) (a, b)))).
Proof.
  intros Ha Hb H1 H2. rewrite snd_steps, !KIterKey_steps by (assumption || lia).
  replace (Z.to_nat (c + 7 - c + 1)) with 8%nat by lia.
  replace (Z.to_nat (c + 6 - c + 1)) with 7%nat by lia. split; reflexivity.
Qed.

Definition all_round_keys (k : kkey) : list kblock :=
  [k1 k; k2 k; k3 k; k4 k; k5 k; k6 k; k7 k; k8 k; k9 k; k10 k].

Lemma Key_round_keys a b : a < 2 ^ 128 -> b < 2 ^ 128 ->
  all_round_keys (Key_blocks (Ok (kpair a)) (Ok (kpair b))) =
  map (fun x => Ok (kpair x)) (round_keys (a * 2 ^ 128 + b)).
Proof.
  intros Ha Hb. unfold round_keys. rewrite split_div, split_mod by exact Hb.
  unfold Key_blocks, all_round_keys, KCached. cbv zeta. cbn [k1 k2 k3 k4 k5 k6 k7 k8 k9 k10].
  cbn [key_pairs flat_map app map fst snd].
  destruct (KIterKey_pair a b 1 Ha Hb) as [E1 E2]; [lia..|].
  change (1 + 7)%Z with 8%Z in E1. change (1 + 6)%Z with 7%Z in E2. rewrite E1, E2. clear E1 E2.
  change (Z.to_N 1) with 1.
  destruct (steps_lt 8 1 (a, b) Ha Hb) as [B1 B2].
  destruct (steps 8 1 (a, b)) as [a' b'] eqn:Es. cbn [fst snd] in *.
  change (1 + 8) with 9.
  destruct (KIterKey_pair a' b' 9 B1 B2) as [E1 E2]; [lia..|].
  change (9 + 7)%Z with 16%Z in E1. change (9 + 6)%Z with 15%Z in E2. rewrite E1, E2. clear E1 E2.
  change (Z.to_N 9) with 9. clear Es.
  destruct (steps_lt 8 9 (a', b') B1 B2) as [D1 D2].
  destruct (steps 8 9 (a', b')) as [a2 b2] eqn:Es. cbn [fst snd] in *.
  change (9 + 8) with 17.
  destruct (KIterKey_pair a2 b2 17 D1 D2) as [E1 E2]; [lia..|].
  change (17 + 7)%Z with 24%Z in E1. change (17 + 6)%Z with 23%Z in E2. rewrite E1, E2. clear E1 E2.
  change (Z.to_N 17) with 17. clear Es.
  destruct (steps_lt 8 17 (a2, b2) D1 D2) as [F1 F2].
  destruct (steps 8 17 (a2, b2)) as [a3 b3] eqn:Es. cbn [fst snd] in *.
  change (17 + 8) with 25.
  destruct (KIterKey_pair a3 b3 25 F1 F2) as [E1 E2]; [lia..|].
  change (25 + 7)%Z with 32%Z in E1. change (25 + 6)%Z with 31%Z in E2. rewrite E1, E2.
  reflexivity.
Qed.

Lemma Key_encrypt_round_keys k ks x : Forall (fun k => k < 2 ^ 128) ks -> x < 2 ^ 128 ->
  all_round_keys k = map (fun x => Ok (kpair x)) ks ->
  Key_encrypt k (Ok (kpair x)) = Ok (kpair (encrypt_with ks x)).
Proof.
  intros Hks Hx H. unfold all_round_keys in H.
  do 10 (destruct ks as [|? ks]; [discriminate H|]). destruct ks; [|discriminate H].
  unfold Key_encrypt. cbv zeta. cbn [map] in H. injection H as -> -> -> -> -> -> -> -> -> ->.
  repeat (match goal with H : Forall _ (_ :: _) |- _ => inversion_clear H end).
  repeat (rewrite encryptStep_kpair by (assumption || apply LSX_lt)).
  rewrite KXored_kpair. unfold encrypt_with, Xk. cbn [last removelast fold_left].
  do 2 f_equal. apply N.lxor_comm.
Qed.

Lemma KEncrypted_blocks a b x : a < 2 ^ 128 -> b < 2 ^ 128 -> x < 2 ^ 128 ->
  KEncrypted (Ok (kpair x)) (Key_blocks (Ok (kpair a)) (Ok (kpair b))) =
  Ok (kpair (Kuz_E (a * 2 ^ 128 + b) x)).
Proof.
  intros Ha Hb Hx. apply Key_encrypt_round_keys; [|exact Hx|now apply Key_round_keys].
  apply round_keys_lt. change (2 ^ 256) with (2 ^ (128 + 128)). now apply split_lt.
Qed.

(** ** Keys from strings *)

Lemma number_lt_bits s n : List.length s = n -> number s < 2 ^ (4 * N.of_nat n).
Proof.
  intros <-. pose proof (number_lt s) as H. unfold len in H.
  rewrite N.pow_mul_r. exact H.
Qed.

Lemma Key_string_hex s : Forall hex_digit s -> List.length s = 64%nat ->
  exists a b, a < 2 ^ 128 /\ b < 2 ^ 128 /\ number s = a * 2 ^ 128 + b /\
    a = number (firstn 32 s) /\ b = number (skipn 32 s) /\
    Key_string s = Ok (Key_blocks (Ok (kpair a)) (Ok (kpair b))).
Proof.
  intros Hs Hl. exists (number (firstn 32 s)), (number (skipn 32 s)).
  assert (L1 : List.length (firstn 32 s) = 32%nat) by (rewrite firstn_length; lia).
  assert (L2 : List.length (skipn 32 s) = 32%nat) by (rewrite skipn_length; lia).
  repeat split.
  - now apply (number_lt_bits _ 32).
  - now apply (number_lt_bits _ 32).
  - rewrite <- (firstn_skipn 32 s) at 1. rewrite number_app. unfold len. rewrite L2. reflexivity.
  - unfold Key_string, Key_data, KeyDataString_high, KeyDataString_low.
    rewrite !substr_ok by (unfold len; lia). cbn [bind].
    change (N.to_nat 0) with 0%nat. change (N.to_nat 32) with 32%nat. cbn [skipn].
    rewrite (firstn_all2 (skipn 32 s)) by lia.
    rewrite !KString_hex by (lia || auto using Forall_firstn, Forall_skipn). reflexivity.
Qed.

Lemma KIncremented_kpair x : x < 2 ^ 128 ->
  KIncremented (Ok (kpair x)) = Ok (kpair ((x + 1) mod 2 ^ 128)).
Proof.
  intros Hx. unfold KIncremented, kpair at 1. cbn [bind].
  assert (Hh : x / 2 ^ 64 < 2 ^ 64). { apply N.div_lt_upper_bound; [lia|]. exact Hx. }
  assert (Hl : x mod 2 ^ 64 < 2 ^ 64) by apply mod_pow2_lt.
  pose proof (split_join x 64) as E.
  set (hi := x / 2 ^ 64) in *. set (lo := x mod 2 ^ 64) in *. clearbody hi lo. subst x.
  destruct (lo =? 2 ^ 64 - 1) eqn:El.
  - apply N.eqb_eq in El. f_equal.
    replace (hi * 2 ^ 64 + lo + 1) with ((hi + 1) * 2 ^ 64)
      by (rewrite El; change (2 ^ 64) with 18446744073709551616; lia).
    change (2 ^ 128) with (2 ^ 64 * 2 ^ 64). rewrite N.mul_mod_distr_r by lia.
    rewrite <- (N.add_0_r (_ * 2 ^ 64)). now rewrite kpair_join by reflexivity.
  - apply N.eqb_neq in El. f_equal.
    assert (Hl' : lo + 1 < 2 ^ 64) by (change (2 ^ 64) with 18446744073709551616 in *; lia).
    rewrite w64_id by exact Hl'. rewrite <- N.add_assoc.
    rewrite N.mod_small by (change 128 with (64 + 64); now apply split_lt).
    now rewrite kpair_join by exact Hl'.
Qed.
