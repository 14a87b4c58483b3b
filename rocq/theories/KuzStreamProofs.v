(** Proofs about Kuznyechik streams: StMemory, StCTREncrypted and Imit. *)
From Verif Require Import Base Text KuzModel SpecText SpecModes SpecKuz SpecIter SpecMac
  Lib TextProofs BlockProofs MacProofs KuzProofs.
From Coq Require Import Lia ZifyBool ZifyNat ZifyN.
Local Open Scope N_scope.

(** ** Keys *)

Lemma blocks_encipher a b : a < 2 ^ 128 -> b < 2 ^ 128 ->
  kuz_enciphers (Key_blocks (Ok (kpair a)) (Ok (kpair b))) (Kuz_E (a * 2 ^ 128 + b)).
Proof.
  intros Ha Hb x Hx. split; [now apply KEncrypted_blocks|]. apply Kuz_E_lt; [|exact Hx].
  change (2 ^ 256) with (2 ^ (128 + 128)). now apply split_lt.
Qed.

Lemma number_64 s : List.length s = 64%nat -> number s < 2 ^ 256.
Proof. intros H. exact (number_lt_bits s 64 H). Qed.

Lemma string_enciphers s : Forall hex_digit s -> List.length s = 64%nat ->
  exists k, Key_string s = Ok k /\ kuz_enciphers k (Kuz_E (number s)).
Proof.
  intros Hs Hl. destruct (Key_string_hex s Hs Hl) as (a & b & Ha & Hb & E & _ & _ & H).
  eexists. split; [exact H|]. rewrite E. now apply blocks_encipher.
Qed.

(** A block with 64-bit halves is [kpair] of a number. *)
Lemma kpair_of lo hi : lo < 2 ^ 64 -> hi < 2 ^ 64 ->
  exists x, x < 2 ^ 128 /\ (lo, hi) = kpair x.
Proof.
  intros Hl Hh. exists (hi * 2 ^ 64 + lo). split; [|now rewrite kpair_join].
  change (2 ^ 128) with (2 ^ (64 + 64)). now apply split_lt.
Qed.

(** ** Counter mode *)

Lemma advance_S {I} (ops : iter_ops I) n p :
  advance ops (Datatypes.S n) p = (i <- deref p ;; q <- it_next ops i ;; advance ops n q).
Proof. reflexivity. Qed.

Lemma ctr_advance {I} (ops : iter_ops I) k n : forall p x, x < 2 ^ 128 ->
  advance (ItCTR_ops ops k) n (Some (ItCTR p (Ok (kpair x)))) =
  (q <- advance ops n p ;; Ok (Some (ItCTR q (Ok (kpair ((x + N.of_nat n) mod 2 ^ 128)))))).
Proof.
  induction n as [|n IH]; intros p x Hx.
  - cbn [advance bind]. rewrite N.add_0_r, N.mod_small by exact Hx. reflexivity.
  - rewrite !advance_S. cbn [deref bind ItCTR_ops it_next ic_iter ic_ctr].
    destruct p as [i|]; [|reflexivity]. cbn [deref bind].
    destruct (it_next ops i) as [q| | |]; try reflexivity. cbn [bind].
    rewrite KIncremented_kpair, IH by (exact Hx || apply mod_pow2_lt).
    rewrite N.add_mod_idemp_l by discriminate.
    replace (x + 1 + N.of_nat n) with (x + N.of_nat (Datatypes.S n)) by lia. reflexivity.
Qed.

Lemma KRaw_iv iv : iv < 2 ^ 64 -> KRaw 0 iv = Ok (kpair (iv * 2 ^ 64)).
Proof. intros H. rewrite <- (N.add_0_r (iv * 2 ^ 64)). now rewrite kpair_join. Qed.

Lemma iv_lt iv : iv < 2 ^ 64 -> iv * 2 ^ 64 < 2 ^ 128.
Proof. intros H. rewrite <- (N.add_0_r (iv * 2 ^ 64)). change 128 with (64 + 64). now apply split_lt. Qed.

Lemma counter_eq iv i : counter 128 iv i = (iv * 2 ^ 64 + i) mod 2 ^ 128.
Proof. reflexivity. Qed.

Lemma ctr_position {I} (ops : iter_ops I) k iv n p : iv < 2 ^ 64 ->
  (q <- StCTR_iter p iv ;; advance (ItCTR_ops ops k) n q) =
  (p <- p ;; q <- advance ops n p ;; Ok (Some (ItCTR q (Ok (kpair (counter 128 iv (N.of_nat n))))))).
Proof.
  intros Hiv. unfold StCTR_iter. destruct p as [p| | |]; try reflexivity. cbn [bind].
  rewrite KRaw_iv, ctr_advance by auto using iv_lt. reflexivity.
Qed.

Lemma ask_bind {I A} (ops : iter_ops I) (f : I -> res A) p n :
  ask ops f p n = (q <- (p <- p ;; advance ops n p) ;; i <- deref q ;; f i).
Proof. unfold ask. now destruct p. Qed.

Lemma ctr_ask {I A} (ops : iter_ops I) (f : it_ctr I -> res A) k iv n p : iv < 2 ^ 64 ->
  ask (ItCTR_ops ops k) f (StCTR_iter p iv) n =
  (p <- p ;; q <- advance ops n p ;;
   f (ItCTR q (Ok (kpair (counter 128 iv (N.of_nat n)))))).
Proof.
  intros Hiv. rewrite ask_bind.
  rewrite (ctr_position ops k iv n p Hiv). destruct p as [p| | |]; try reflexivity. cbn [bind].
  destruct (advance ops n p) as [q| | |]; reflexivity.
Qed.

Lemma ctr_block {I} (ops : iter_ops I) k E iv n p : kuz_enciphers k E -> iv < 2 ^ 64 ->
  block_at (ItCTR_ops ops k) (StCTR_iter p iv) n =
  (v <- block_at ops p n ;; Ok (xor_pair v (kpair (E (counter 128 iv (N.of_nat n)))))).
Proof.
  intros HE Hiv. unfold block_at. rewrite ctr_ask by exact Hiv. unfold ask.
  destruct p as [p| | |]; try reflexivity. cbn [bind].
  destruct (advance ops n p) as [[i|]| | |]; try reflexivity.
  cbn [bind ItCTR_ops it_value ic_iter ic_ctr deref].
  destruct (HE (counter 128 iv (N.of_nat n))) as [H _]; [apply mod_pow2_lt|]. rewrite H.
  destruct (it_value ops i) as [[lo hi]| | |]; reflexivity.
Qed.

Lemma ctr_last {I} (ops : iter_ops I) k iv n p : iv < 2 ^ 64 ->
  last_at (ItCTR_ops ops k) (StCTR_iter p iv) n = last_at ops p n.
Proof.
  intros Hiv. unfold last_at. now rewrite ctr_ask by exact Hiv.
Qed.

Lemma ctr_size {I} (ops : iter_ops I) k iv n p : iv < 2 ^ 64 ->
  size_at (ItCTR_ops ops k) (StCTR_iter p iv) n = size_at ops p n.
Proof.
  intros Hiv. unfold size_at. now rewrite ctr_ask by exact Hiv.
Qed.

Lemma xor_pair_cancel a b : xor_pair (xor_pair a b) b = a.
Proof. destruct a, b. unfold xor_pair. cbn [fst snd]. now rewrite !lxor_cancel_r. Qed.

Lemma xor_pair_cancel_l a b : xor_pair a (xor_pair a b) = b.
Proof. destruct a, b. unfold xor_pair. cbn [fst snd]. now rewrite !lxor_cancel_l. Qed.

Lemma ctr_twice {I} (ops : iter_ops I) k E iv n p : kuz_enciphers k E -> iv < 2 ^ 64 ->
  block_at (ItCTR_ops (ItCTR_ops ops k) k) (StCTR_iter (StCTR_iter p iv) iv) n = block_at ops p n.
Proof.
  intros HE Hiv. rewrite !(ctr_block _ k E) by assumption.
  destruct (block_at ops p n) as [v| | |]; try reflexivity. cbn [bind].
  now rewrite xor_pair_cancel.
Qed.

Lemma counter_inj iv i j : i < 2 ^ 128 -> j < 2 ^ 128 ->
  counter 128 iv i = counter 128 iv j -> i = j.
Proof.
  intros Hi Hj H. rewrite !counter_eq in H. revert H. generalize (iv * 2 ^ 64). intros c H.
  pose proof (N.div_mod (c + i) (2 ^ 128)) as D1. pose proof (N.div_mod (c + j) (2 ^ 128)) as D2.
  rewrite H in D1. set (r := (c + j) mod 2 ^ 128) in *.
  set (q1 := (c + i) / 2 ^ 128) in *. set (q2 := (c + j) / 2 ^ 128) in *. clearbody r q1 q2.
  specialize (D1 ltac:(discriminate)). specialize (D2 ltac:(discriminate)). clear H.
  change (2 ^ 128) with 340282366920938463463374607431768211456 in *. nia.
Qed.

Lemma counter_iv_inj iv jv i j : iv < 2 ^ 64 -> jv < 2 ^ 64 -> i < 2 ^ 64 -> j < 2 ^ 64 ->
  counter 128 iv i = counter 128 jv j -> iv = jv /\ i = j.
Proof.
  intros Hiv Hjv Hi Hj H. rewrite !counter_eq in H.
  rewrite !N.mod_small in H by (change 128 with (64 + 64); now apply split_lt).
  now apply split_unique in H.
Qed.

(** ** StMemory *)

Lemma at_ok {A} (v : list A) i d : i < len v -> at_ v i = Ok (nth (N.to_nat i) v d).
Proof.
  intros H. unfold at_. replace (i <? len v) with true by lia.
  rewrite (nth_error_nth' v d); [reflexivity|]. unfold len in H. lia.
Qed.

Lemma at_oob {A} (v : list A) i : len v <= i -> at_ v i = Undef OutOfBounds.
Proof. intros H. unfold at_. now replace (i <? len v) with false by lia. Qed.

(** The blocks stored in a vector of words. *)
Fixpoint word_pairs (ws : list N) : list (N * N) :=
  match ws with
  | lo :: hi :: r => (lo, hi) :: word_pairs r
  | _ => []
  end.

Lemma next_iter_ok data n : 2 * n + 1 < len data ->
  StMemory_next_iter true data (16 * n) =
  Ok (Some (ItMemory (16 * n) (nth (N.to_nat (2 * n)) data 0, nth (N.to_nat (2 * n + 1)) data 0))).
Proof.
  intros H. unfold StMemory_next_iter.
  replace (16 * n / 8) with (2 * n) by (apply N.div_unique with 0; lia).
  replace (len data <=? 2 * n) with false by lia. cbn [negb].
  rewrite (at_ok data (2 * n) 0) by lia. cbn [bind]. now rewrite (at_ok data _ 0) by lia.
Qed.

Lemma next_iter_end data n : len data <= 2 * n -> StMemory_next_iter true data (16 * n) = Ok None.
Proof.
  intros H. unfold StMemory_next_iter.
  replace (16 * n / 8) with (2 * n) by (apply N.div_unique with 0; lia).
  now replace (len data <=? 2 * n) with true by lia.
Qed.

Lemma next_iter_odd data n : len data = 2 * n + 1 ->
  StMemory_next_iter true data (16 * n) = Undef OutOfBounds.
Proof.
  intros H. unfold StMemory_next_iter.
  replace (16 * n / 8) with (2 * n) by (apply N.div_unique with 0; lia).
  replace (len data <=? 2 * n) with false by lia. cbn [negb].
  rewrite (at_ok data (2 * n) 0) by lia. cbn [bind]. now rewrite at_oob by lia.
Qed.

Definition mem_iter (data : list N) (n : N) : it_memory :=
  ItMemory (16 * n) (nth (N.to_nat (2 * n)) data 0, nth (N.to_nat (2 * n + 1)) data 0).

Lemma mem_next data n : 8 * len data < 2 ^ 64 -> 2 * n + 1 < len data ->
  ItMemory_next (Some data) (mem_iter data n) = StMemory_next_iter true data (16 * (n + 1)).
Proof.
  intros Hs H. unfold ItMemory_next, mem_iter. cbn [deref bind im_offset]. f_equal.
  unfold kblock_size. change (2 ^ 64) with 18446744073709551616 in *.
  rewrite w64_id by (change (2 ^ 64) with 18446744073709551616; lia). lia.
Qed.

Lemma mem_advance data n : 8 * len data < 2 ^ 64 -> 2 * N.of_nat n <= len data ->
  (p <- StMemory_iter true data ;; advance (ItMemory_ops (Some data)) n p) =
  StMemory_next_iter true data (16 * N.of_nat n).
Proof.
  intros Hs. induction n as [|n IH]; intros H.
  - unfold StMemory_iter. rewrite N.mul_0_r. now destruct (StMemory_next_iter true data 0).
  - assert (E : forall p, advance (ItMemory_ops (Some data)) (Datatypes.S n) p =
       (q <- advance (ItMemory_ops (Some data)) n p ;; i <- deref q ;;
        it_next (ItMemory_ops (Some data)) i)).
    { clear. induction n as [|n IH]; intros p.
      - rewrite advance_S. cbn [advance bind]. destruct (deref p); try reflexivity. cbn [bind].
        now destruct (it_next _ _).
      - rewrite advance_S. rewrite (advance_S _ n).
        destruct (deref p); try reflexivity. cbn [bind].
        destruct (it_next _ _); try reflexivity. cbn [bind]. apply IH. }
    assert (IH' := IH ltac:(lia)). clear IH.
    destruct (StMemory_iter true data) as [p| | |]; cbn [bind] in *;
      [|rewrite next_iter_ok in IH' by lia; discriminate..].
    rewrite E, IH', next_iter_ok by lia. cbn [bind deref ItMemory_ops it_next].
    change (ItMemory (16 * N.of_nat n) _) with (mem_iter data (N.of_nat n)).
    rewrite mem_next by (assumption || lia). f_equal. lia.
Qed.

Lemma mem_ask {A} (f : it_memory -> res A) data n : 8 * len data < 2 ^ 64 ->
  2 * N.of_nat n + 1 < len data ->
  ask (ItMemory_ops (Some data)) f (StMemory_iter true data) n = f (mem_iter data (N.of_nat n)).
Proof.
  intros Hs H. rewrite ask_bind, mem_advance, next_iter_ok by (assumption || lia). reflexivity.
Qed.

Lemma word_pairs_length ws : forall n, len ws = 2 * n -> len (word_pairs ws) = n.
Proof.
  assert (G : forall m ws, (List.length ws <= m)%nat -> forall n, len ws = 2 * n -> len (word_pairs ws) = n).
  { clear ws. induction m as [|m IH]; intros [|a [|b ws]] Hm n H; cbn [List.length] in Hm;
      unfold len in *; cbn [List.length word_pairs] in *; try lia.
    specialize (IH ws ltac:(lia) (n - 1)). lia. }
  exact (G _ ws (le_n _)).
Qed.

Lemma word_pairs_nth i : forall ws, (2 * i + 1 < List.length ws)%nat ->
  nth i (word_pairs ws) (0, 0) = (nth (2 * i) ws 0, nth (2 * i + 1) ws 0).
Proof.
  induction i as [|i IH]; intros [|a [|b ws]] H; cbn [List.length] in H; try lia; [reflexivity|].
  cbn [word_pairs nth]. rewrite IH by lia.
  replace (2 * Datatypes.S i)%nat with (Datatypes.S (Datatypes.S (2 * i))) by lia. reflexivity.
Qed.

Lemma mem_block data n : 8 * len data < 2 ^ 64 -> 2 * N.of_nat n + 1 < len data ->
  block_at (ItMemory_ops (Some data)) (StMemory_iter true data) n =
  Ok (nth (2 * n) data 0, nth (2 * n + 1) data 0).
Proof.
  intros Hs H. unfold block_at. rewrite mem_ask by assumption.
  cbn [ItMemory_ops it_value im_data mem_iter]. unfold mem_iter. cbn [im_data]. do 3 f_equal; lia.
Qed.

Lemma mem_last data n k : 8 * len data < 2 ^ 64 -> len data = 2 * k -> N.of_nat n < k ->
  last_at (ItMemory_ops (Some data)) (StMemory_iter true data) n = Ok (N.of_nat n + 1 =? k).
Proof.
  intros Hs Hk H. unfold last_at. rewrite mem_ask by (assumption || lia).
  cbn [ItMemory_ops it_last]. rewrite mem_next by (assumption || lia).
  destruct (N.of_nat n + 1 =? k) eqn:E.
  - rewrite next_iter_end by lia. reflexivity.
  - rewrite next_iter_ok by lia. reflexivity.
Qed.

Lemma mem_size data n : 8 * len data < 2 ^ 64 -> 2 * N.of_nat n + 1 < len data ->
  size_at (ItMemory_ops (Some data)) (StMemory_iter true data) n = Ok 16.
Proof. intros Hs H. unfold size_at. now rewrite mem_ask by assumption. Qed.

Lemma mem_end data n : 8 * len data < 2 ^ 64 -> len data = 2 * N.of_nat n ->
  (p <- StMemory_iter true data ;; advance (ItMemory_ops (Some data)) n p) = Ok None.
Proof.
  intros Hs H. rewrite mem_advance, next_iter_end by (assumption || lia). reflexivity.
Qed.

Lemma mem_presents data : 8 * len data < 2 ^ 64 -> data <> [] -> len data mod 2 = 0 ->
  presents (ItMemory_ops (Some data)) (StMemory_iter true data) (word_pairs data).
Proof.
  intros Hs Hne He.
  assert (Hk : len data = 2 * (len data / 2)) by (apply N.div_exact; lia).
  pose proof (word_pairs_length data _ Hk) as HL.
  assert (0 < len data) by (destruct data; [congruence|unfold len; cbn; lia]).
  unfold presents. unfold len in HL at 1. split.
  - intros E. rewrite E in HL. cbn in HL. lia.
  - intros n Hn. split.
    + rewrite mem_block by (assumption || lia). now rewrite word_pairs_nth by (unfold len in *; lia).
    + rewrite (mem_last data n (len data / 2)) by (assumption || lia). f_equal. lia.
Qed.

(** ** Message authentication code *)

Section Mac.
Context {I : Type} (ops : iter_ops I) (k : kkey) (E : N -> N) (HE : kuz_enciphers k E).

Lemma KShifted_1 m x : x < 2 ^ 128 -> KShifted m (Ok (kpair x)) 1 = Ok (kpair ((2 * x) mod 2 ^ 128)).
Proof.
  intros Hx.
  assert (Hh : x / 2 ^ 64 < 2 ^ 64). { apply N.div_lt_upper_bound; [lia|]. exact Hx. }
  destruct (KShifted_ok m (x mod 2 ^ 64) (x / 2 ^ 64) 1) as (lo & hi & H & Hlo & Hhi & Hv);
    [apply mod_pow2_lt|exact Hh|lia|].
  unfold kpair at 1. rewrite H. f_equal. rewrite split_join in Hv.
  change (Z.to_N 1) with 1 in Hv. rewrite N.pow_1_r, (N.mul_comm x) in Hv. rewrite <- Hv.
  now rewrite kpair_join.
Qed.

Lemma high_bit_64 h : h < 2 ^ 64 -> (N.land h 0x8000000000000000 =? 0) = negb (N.testbit h 63).
Proof.
  intros Hh. change 0x8000000000000000 with (2 ^ 63).
  destruct (N.testbit h 63) eqn:T; cbn [negb].
  - apply N.eqb_neq. intros H. assert (B : N.testbit (N.land h (2 ^ 63)) 63 = true).
    { rewrite N.land_spec, T, N.pow2_bits_true. reflexivity. }
    rewrite H in B. discriminate.
  - apply N.eqb_eq. apply N.bits_inj. intros i. rewrite N.land_spec, N.bits_0.
    destruct (N.eq_dec i 63) as [->|Hi]; [now rewrite T|].
    rewrite (N.pow2_bits_false 63 i) by congruence. apply andb_false_r.
Qed.

Lemma KXoredIfHighBit_double m x : x < 2 ^ 128 ->
  KXoredIfHighBit m (Ok (kpair x)) (KRaw1 0x87) = Ok (kpair (double 128 0x87 x)).
Proof.
  intros Hx. unfold KXoredIfHighBit. cbn [bind]. rewrite KShifted_1 by exact Hx.
  assert (Hh : x / 2 ^ 64 < 2 ^ 64). { apply N.div_lt_upper_bound; [lia|]. exact Hx. }
  unfold kpair at 1. cbv beta iota zeta. rewrite high_bit_64 by exact Hh.
  rewrite <- N.shiftr_div_pow2, N.shiftr_spec by lia. change (63 + 64) with (128 - 1).
  unfold double. destruct (N.testbit x (128 - 1)); cbn [negb]; [|reflexivity].
  change (KRaw1 0x87) with (@Ok (N * N) (kpair 0x87)). apply KXored_kpair.
Qed.

Lemma double_128_lt x : double 128 0x87 x < 2 ^ 128.
Proof.
  unfold double. destruct (N.testbit x (128 - 1)); [|apply mod_pow2_lt].
  apply lxor_lt; [apply mod_pow2_lt|reflexivity].
Qed.

Lemma ask_deref {A} (f : I -> res A) p n r : ask ops f (Ok p) n = Ok r ->
  exists i, advance ops n p = Ok (Some i) /\ f i = Ok r.
Proof.
  unfold ask. cbn [bind]. destruct (advance ops n p) as [[i|]| | |]; try discriminate.
  cbn [bind deref]. eauto.
Qed.

Lemma ask_next {A} (f : I -> res A) i q n : it_next ops i = Ok q ->
  ask ops f (Ok q) n = ask ops f (Ok (Some i)) (Datatypes.S n).
Proof. intros H. unfold ask. cbn [bind]. rewrite advance_S. cbn [bind deref]. now rewrite H. Qed.

Lemma kimit_loop_ok ps : forall p st fuel, st < 2 ^ 128 -> Forall (fun x => x < 2 ^ 128) ps ->
  presents ops (Ok p) (map kpair ps) -> (List.length ps <= fuel)%nat ->
  exists i st', kimit_loop fuel ops k p (Ok (kpair st)) = Ok (Some i, Ok (kpair st')) /\
    st' < 2 ^ 128 /\ advance ops (List.length ps - 1) p = Ok (Some i) /\
    it_value ops i = Ok (kpair (last ps 0)) /\ last ps 0 < 2 ^ 128 /\
    forall K, cbc_mac E K st ps = E (N.lxor (N.lxor st' (last ps 0)) K).
Proof.
  induction ps as [|x ps IH]; intros p st fuel Hst Hps [Hne Hp] Hf; [now destruct Hne|].
  inversion Hps as [|? ? Hx Hps']; subst.
  destruct fuel as [|fuel]; [cbn in Hf; lia|]. cbn [kimit_loop].
  destruct (Hp 0%nat) as [Hv Hl]; [cbn; lia|].
  apply ask_deref in Hv. destruct Hv as (i & Hi & Hv). cbn [advance] in Hi. injection Hi as ->.
  apply ask_deref in Hl. destruct Hl as (i' & Hi & Hl). cbn [advance] in Hi. injection Hi as <-.
  cbn [deref bind]. rewrite Hl. cbn [bind]. cbn [map nth] in Hv.
  destruct ps as [|y ps].
  - cbn [map List.length Nat.eqb]. exists i, st. repeat split; try assumption; reflexivity.
  - cbn [map List.length Nat.eqb]. rewrite Hv. cbn [bind].
    assert (Hn : exists q, it_next ops i = Ok q).
    { destruct (Hp 1%nat) as [H1 _]; [cbn; lia|]. apply ask_deref in H1.
      destruct H1 as (j & Hj & _). rewrite advance_S in Hj. cbn [deref bind] in Hj.
      destruct (it_next ops i) as [q| | |]; try discriminate. eauto. }
    destruct Hn as [q Hq]. rewrite Hq. cbn [bind]. rewrite KXored_kpair.
    destruct (HE (N.lxor st x)) as [He Hb]; [now apply lxor_lt|]. rewrite He.
    destruct (IH q (E (N.lxor st x)) fuel Hb Hps') as (j & st' & H1 & H2 & H3 & H4 & H5 & H6).
    + split; [discriminate|]. intros n Hn.
      destruct (Hp (Datatypes.S n)) as [Ha Hb']; [cbn [map List.length] in *; lia|].
      unfold block_at, last_at in *. rewrite <- (ask_next _ i q n Hq) in Ha.
      rewrite <- (ask_next _ i q n Hq) in Hb'. split; assumption.
    + cbn [List.length] in *. lia.
    + exists j, st'. split; [exact H1|]. split; [exact H2|]. split; [|split; [exact H4|split; [exact H5|exact H6]]].
      cbn [List.length] in *.
      replace (Datatypes.S (Datatypes.S (List.length ps)) - 1)%nat
        with (Datatypes.S (Datatypes.S (List.length ps) - 1)) by lia.
      rewrite advance_S. cbn [deref bind]. rewrite Hq. exact H3.
Qed.

Lemma kimit_ok m ps p fuel sz : Forall (fun x => x < 2 ^ 128) ps ->
  presents ops p (map kpair ps) -> size_at ops p (List.length ps - 1) = Ok sz ->
  (List.length ps <= fuel)%nat ->
  KImit fuel m ops p k =
  Ok (kpair (cbc_mac E (if sz =? 16 then K1 E 128 0x87 else K2 E 128 0x87) 0 ps)).
Proof.
  intros Hps Hp Hs Hf. unfold KImit.
  assert (Hp' : exists q, p = Ok q).
  { destruct Hp as [Hne Hp]. destruct (Hp 0%nat) as [H _]; [destruct (map kpair ps); [congruence|cbn; lia]|].
    unfold block_at, ask in H. destruct p; try discriminate. eauto. }
  destruct Hp' as [q ->]. cbn [bind].
  change KRaw0 with (@Ok (N * N) (kpair 0)).
  destruct (kimit_loop_ok ps q 0 fuel eq_refl Hps Hp Hf) as (i & st & H1 & H2 & H3 & H4 & H5 & H6).
  rewrite H1. cbn [bind deref]. rewrite H4. cbn [bind].
  apply ask_deref in Hs. destruct Hs as (j & Hj & Hs). rewrite H3 in Hj. injection Hj as <-.
  rewrite Hs. cbn [bind]. cbv zeta. rewrite KXored_kpair, H6.
  destruct (HE 0 eq_refl) as [E0 B0]. rewrite E0.
  rewrite (KXoredIfHighBit_double m (E 0)) by exact B0.
  change (double 128 0x87 (E 0)) with (K1 E 128 0x87).
  assert (B1 : K1 E 128 0x87 < 2 ^ 128) by apply double_128_lt.
  rewrite (KXoredIfHighBit_double m (K1 E 128 0x87)) by exact B1.
  change (double 128 0x87 (K1 E 128 0x87)) with (K2 E 128 0x87).
  assert (B2 : K2 E 128 0x87 < 2 ^ 128) by apply double_128_lt.
  unfold kblock_size. destruct (sz =? 16); rewrite KXored_kpair; apply HE; auto using lxor_lt.
Qed.
End Mac.

Lemma K1_128_lt E : K1 E 128 0x87 < 2 ^ 128. Proof. apply double_128_lt. Qed.
Lemma K2_128_lt E : K2 E 128 0x87 < 2 ^ 128. Proof. apply double_128_lt. Qed.

(** Injective keys. *)
Lemma kimit_detects {I J} (ops : iter_ops I) (ops' : iter_ops J) k E m ps qs p q fuel fuel' sz :
  kuz_enciphers k E ->
  (forall x y, x < 2 ^ 128 -> y < 2 ^ 128 -> E x = E y -> x = y) ->
  Forall (fun x => x < 2 ^ 128) ps -> Forall (fun x => x < 2 ^ 128) qs -> differ_once ps qs ->
  presents ops p (map kpair ps) -> presents ops' q (map kpair qs) ->
  size_at ops p (List.length ps - 1) = Ok sz -> size_at ops' q (List.length qs - 1) = Ok sz ->
  (List.length ps <= fuel)%nat -> (List.length qs <= fuel')%nat ->
  exists a b, KImit fuel m ops p k = Ok a /\ KImit fuel' m ops' q k = Ok b /\ a <> b.
Proof.
  intros HE Hinj Hps Hqs Hd Hp Hq Hs1 Hs2 Hf1 Hf2.
  rewrite (kimit_ok ops k E HE m ps p fuel sz) by assumption.
  rewrite (kimit_ok ops' k E HE m qs q fuel' sz) by assumption.
  do 2 eexists. split; [reflexivity|]. split; [reflexivity|].
  intros H. apply kpair_inj in H. revert H.
  apply (cbc_mac_detects 128 E); try assumption.
  - intros x Hx. now apply HE.
  - destruct (sz =? 16); [apply K1_128_lt|apply K2_128_lt].
Qed.
