(** Proofs for C103 (a pair of neighbouring round keys is the key), C104 (layers of
    counter mode) and C105 (counter mode out of step). *)
From Verif Require Import Base KuzModel SpecMagma SpecModes SpecKuz SpecIter.
From Verif Require Import Lib BlockProofs KuzProofs KuzStreamProofs KuzFacts.
From Coq Require Import Lia.
Local Open Scope N_scope.

(** ** The key schedule backwards *)

Definition F_inv (c : N) (p : N * N) : N * N := (snd p, N.lxor (LSX c (snd p)) (fst p)).

Lemma F_F_inv c p : F c (F_inv c p) = p.
Proof. destruct p as [a b]. unfold F, F_inv. cbn [fst snd]. now rewrite lxor_cancel_l. Qed.

Lemma F_inv_F c p : F_inv c (F c p) = p.
Proof. destruct p as [a b]. unfold F, F_inv. cbn [fst snd]. now rewrite lxor_cancel_l. Qed.

Fixpoint unsteps (n : nat) (i : N) (p : N * N) : N * N :=
  match n with
  | O => p
  | Datatypes.S m => F_inv (C i) (unsteps m (i + 1) p)
  end.

Lemma steps_S n i p : steps (Datatypes.S n) i p = steps n (i + 1) (F (C i) p).
Proof. reflexivity. Qed.
Lemma unsteps_S n i p : unsteps (Datatypes.S n) i p = F_inv (C i) (unsteps n (i + 1) p).
Proof. reflexivity. Qed.

Lemma steps_unsteps n : forall i p, steps n i (unsteps n i p) = p.
Proof.
  induction n as [|n IH]; intros i p; [reflexivity|].
  rewrite steps_S, unsteps_S, F_F_inv. apply IH.
Qed.

Lemma unsteps_steps n : forall i p, unsteps n i (steps n i p) = p.
Proof.
  induction n as [|n IH]; intros i p; [reflexivity|].
  rewrite steps_S, unsteps_S, IH. apply F_inv_F.
Qed.

Lemma F_inv_lt c p : fst p < 2 ^ 128 -> snd p < 2 ^ 128 ->
  fst (F_inv c p) < 2 ^ 128 /\ snd (F_inv c p) < 2 ^ 128.
Proof. intros H1 H2. split; [exact H2|]. apply lxor_lt; [apply LSX_lt|exact H1]. Qed.

Lemma unsteps_lt n : forall i p, fst p < 2 ^ 128 -> snd p < 2 ^ 128 ->
  fst (unsteps n i p) < 2 ^ 128 /\ snd (unsteps n i p) < 2 ^ 128.
Proof.
  induction n as [|n IH]; intros i p H1 H2; [now split|]. rewrite unsteps_S.
  destruct (IH (i + 1) p H1 H2). now apply F_inv_lt.
Qed.

Lemma key_pairs_nth n : forall i p j, (j <= n)%nat ->
  nth j (key_pairs n i p) (0, 0) = steps (8 * j) i p.
Proof.
  induction n as [|n IH]; intros i p j Hj.
  - replace j with 0%nat by lia. reflexivity.
  - destruct j as [|j]; [reflexivity|]. cbn [key_pairs nth].
    rewrite IH by lia. replace (8 * Datatypes.S j)%nat with (8 + 8 * j)%nat by lia.
    generalize (8 * j)%nat. intros m.
    assert (H : forall a i p, steps m (i + N.of_nat a) (steps a i p) = steps (a + m) i p).
    { clear. induction a as [|a IH]; intros i p.
      - cbn [steps Nat.add]. f_equal. lia.
      - change (steps (Datatypes.S a + m) i p) with (steps (a + m) (i + 1) (F (C i) p)).
        rewrite <- IH. cbn [steps]. f_equal. lia. }
    exact (H 8%nat i p).
Qed.

(** The pairs as the members of the class show them. *)
Definition member_pairs (k : kkey) : list (kblock * kblock) :=
  [(k1 k, k2 k); (k3 k, k4 k); (k5 k, k6 k); (k7 k, k8 k); (k9 k, k10 k)].

Lemma member_pairs_ok a b : a < 2 ^ 128 -> b < 2 ^ 128 ->
  member_pairs (Key_blocks (Ok (kpair a)) (Ok (kpair b))) =
  map (fun p => (Ok (kpair (fst p)), Ok (kpair (snd p)))) (key_pairs 4 1 (a, b)).
Proof.
  intros Ha Hb. pose proof (Key_round_keys a b Ha Hb) as H. revert H.
  unfold round_keys. rewrite split_div, split_mod by exact Hb.
  unfold all_round_keys, member_pairs. cbn [key_pairs flat_map app map fst snd].
  set (k := Key_blocks _ _). clearbody k.
  set (q1 := steps 8 1 (a, b)). clearbody q1.
  set (q2 := steps 8 (1 + 8) q1). clearbody q2.
  set (q3 := steps 8 (1 + 8 + 8) q2). clearbody q3.
  set (q4 := steps 8 (1 + 8 + 8 + 8) q3). clearbody q4.
  intros H. injection H as -> -> -> -> -> -> -> -> -> ->. reflexivity.
Qed.

Lemma member_pair_ok a b j d : a < 2 ^ 128 -> b < 2 ^ 128 -> (j < 5)%nat ->
  nth j (member_pairs (Key_blocks (Ok (kpair a)) (Ok (kpair b)))) d =
  (Ok (kpair (fst (steps (8 * j) 1 (a, b)))), Ok (kpair (snd (steps (8 * j) 1 (a, b))))).
Proof.
  intros Ha Hb Hj. rewrite member_pairs_ok by assumption.
  rewrite <- (key_pairs_nth 4 1 (a, b) j) by lia.
  set (l := key_pairs 4 1 (a, b)).
  assert (Hl : List.length l = 5%nat) by reflexivity. clearbody l.
  rewrite (nth_indep _ d ((fun p : N * N => (Ok (kpair (fst p)), Ok (kpair (snd p)))) (0, 0)))
    by (rewrite map_length; lia).
  now rewrite (map_nth (fun p : N * N => (@Ok (N * N) (kpair (fst p)), @Ok (N * N) (kpair (snd p))))).
Qed.

Lemma pair_is_key j u v d : (j < 5)%nat -> u < 2 ^ 128 -> v < 2 ^ 128 ->
  exists a b, a < 2 ^ 128 /\ b < 2 ^ 128 /\
    nth j (member_pairs (Key_blocks (Ok (kpair a)) (Ok (kpair b)))) d = (Ok (kpair u), Ok (kpair v)) /\
    forall a' b', a' < 2 ^ 128 -> b' < 2 ^ 128 ->
      nth j (member_pairs (Key_blocks (Ok (kpair a')) (Ok (kpair b')))) d = (Ok (kpair u), Ok (kpair v)) ->
      a' = a /\ b' = b.
Proof.
  intros Hj Hu Hv. pose proof (steps_unsteps (8 * j) 1 (u, v)) as E.
  destruct (unsteps_lt (8 * j) 1 (u, v) Hu Hv) as [Ha Hb].
  pose proof (fun p => unsteps_steps (8 * j) 1 p) as U.
  destruct (unsteps (8 * j) 1 (u, v)) as [a b] eqn:D. cbn [fst snd] in Ha, Hb.
  exists a, b. split; [exact Ha|]. split; [exact Hb|]. split.
  - rewrite member_pair_ok by assumption. now rewrite E.
  - intros a' b' Ha' Hb' H. rewrite member_pair_ok in H by assumption.
    specialize (U (a', b')). destruct (steps (8 * j) 1 (a', b')) as [x y]. cbn [fst snd] in H.
    assert (x = u) by (apply kpair_inj; congruence). assert (y = v) by (apply kpair_inj; congruence).
    subst x y. rewrite D in U. now injection U as -> ->.
Qed.

Lemma pair_determines a b a' b' i d : a < 2 ^ 128 -> b < 2 ^ 128 -> a' < 2 ^ 128 -> b' < 2 ^ 128 ->
  (i < 5)%nat ->
  nth i (member_pairs (Key_blocks (Ok (kpair a)) (Ok (kpair b)))) d =
  nth i (member_pairs (Key_blocks (Ok (kpair a')) (Ok (kpair b')))) d ->
  a = a' /\ b = b'.
Proof.
  intros Ha Hb Ha' Hb' Hi H. destruct (steps_lt (8 * i) 1 (a', b') Ha' Hb') as [Hu Hv].
  destruct (pair_is_key i _ _ d Hi Hu Hv) as (a0 & b0 & _ & _ & _ & U).
  destruct (U a' b' Ha' Hb') as [-> ->]; [now apply member_pair_ok|].
  apply (U a b Ha Hb). rewrite H. now apply member_pair_ok.
Qed.

(** ** Layers of counter mode *)

Lemma xor_pair_swap a b c : xor_pair (xor_pair a b) c = xor_pair (xor_pair a c) b.
Proof.
  destruct a, b, c. unfold xor_pair. cbn [fst snd].
  now rewrite !N.lxor_assoc, (N.lxor_comm n1), (N.lxor_comm n2).
Qed.

Section Layers.
  Context {I : Type} (ops : iter_ops I) (k k' : kkey) (E E' : N -> N) (iv iv' : N).
  Hypothesis HE : kuz_enciphers k E.
  Hypothesis HE' : kuz_enciphers k' E'.
  Hypothesis Hiv : iv < 2 ^ 64.
  Hypothesis Hiv' : iv' < 2 ^ 64.

  Lemma layers_commute p n :
    block_at (ItCTR_ops (ItCTR_ops ops k) k') (StCTR_iter (StCTR_iter p iv) iv') n =
    block_at (ItCTR_ops (ItCTR_ops ops k') k) (StCTR_iter (StCTR_iter p iv') iv) n.
  Proof.
    rewrite (ctr_block _ k' E'), (ctr_block _ k E), (ctr_block _ k E), (ctr_block _ k' E') by assumption.
    destruct (block_at ops p n) as [v| | |]; try reflexivity. cbn [bind]. f_equal. apply xor_pair_swap.
  Qed.

  Lemma layers_removed p n :
    block_at (ItCTR_ops (ItCTR_ops (ItCTR_ops ops k) k') k)
      (StCTR_iter (StCTR_iter (StCTR_iter p iv) iv') iv) n =
    block_at (ItCTR_ops ops k') (StCTR_iter p iv') n.
  Proof.
    rewrite (ctr_block _ k E), (ctr_block _ k' E'), (ctr_block _ k E), (ctr_block _ k' E') by assumption.
    destruct (block_at ops p n) as [v| | |]; try reflexivity. cbn [bind]. f_equal.
    now rewrite xor_pair_swap, xor_pair_cancel.
  Qed.

  Lemma layers_last p n :
    last_at (ItCTR_ops (ItCTR_ops ops k) k') (StCTR_iter (StCTR_iter p iv) iv') n = last_at ops p n /\
    size_at (ItCTR_ops (ItCTR_ops ops k) k') (StCTR_iter (StCTR_iter p iv) iv') n = size_at ops p n.
  Proof. now rewrite !ctr_last, !ctr_size by assumption. Qed.
End Layers.

Lemma mac_of_deciphered {I} (ops : iter_ops I) (k km : kkey) (E M : N -> N) (iv sz : N) m ps p fuel :
  kuz_enciphers k E -> kuz_enciphers km M -> iv < 2 ^ 64 ->
  Forall (fun x => x < 2 ^ 128) ps -> presents ops p (map kpair ps) ->
  size_at ops p (List.length ps - 1) = Ok sz -> (List.length ps <= fuel)%nat ->
  KImit fuel m (ItCTR_ops (ItCTR_ops ops k) k) (StCTR_iter (StCTR_iter p iv) iv) km =
  KImit fuel m ops p km.
Proof.
  intros HE HM Hiv Hps Hp Hs Hf.
  rewrite (kimit_ok ops km M HM m ps p fuel sz) by assumption.
  apply (kimit_ok _ km M HM m ps _ fuel sz); try assumption.
  - destruct Hp as [Hne Hp]. split; [exact Hne|]. intros n Hn. destruct (Hp n Hn) as [H1 H2].
    rewrite (ctr_twice ops k E) by assumption. split; [exact H1|].
    now rewrite !ctr_last by assumption.
  - now rewrite !ctr_size by assumption.
Qed.

(** ** Counter mode out of step *)

Lemma out_of_step {I J} (ops : iter_ops I) (ops' : iter_ops J) (k : kkey) (K iv jv : N)
    (p : res (option I)) (q : res (option J)) (n m : nat) v c d :
  K < 2 ^ 256 -> kuz_enciphers k (Kuz_E K) -> iv < 2 ^ 64 -> jv < 2 ^ 64 ->
  counter 128 iv (N.of_nat n) <> counter 128 jv (N.of_nat m) ->
  block_at ops p n = Ok v -> block_at (ItCTR_ops ops k) (StCTR_iter p iv) n = Ok c ->
  block_at ops' q m = Ok c -> block_at (ItCTR_ops ops' k) (StCTR_iter q jv) m = Ok d ->
  d <> v.
Proof.
  intros HK HE Hiv Hjv Hc H1 H2 H3 H4 ->.
  rewrite (ctr_block ops k (Kuz_E K)) in H2 by assumption.
  rewrite (ctr_block ops' k (Kuz_E K)) in H4 by assumption.
  rewrite H1 in H2. rewrite H3 in H4. cbn [bind] in H2, H4.
  injection H2 as <-. injection H4 as H4. apply Hc.
  apply (Kuz_E_inj K); [exact HK|apply mod_pow2_lt|apply mod_pow2_lt|].
  apply kpair_inj. revert H4. generalize (kpair (Kuz_E K (counter 128 iv (N.of_nat n)))).
  generalize (kpair (Kuz_E K (counter 128 jv (N.of_nat m)))). intros x y H.
  rewrite <- (xor_pair_cancel_l v y), <- (xor_pair_cancel (xor_pair v y) x), H.
  apply xor_pair_cancel_l.
Qed.
