(** The block functions compute the standard's Magma; keys from text and words. *)
From Verif Require Import Base Text MagmaModel Lib SpecText SpecMagma TextProofs SboxProofs MagmaProofs.
From Coq Require Import ZifyNat ZifyN ZifyBool.
Local Open Scope N_scope.

(** ** Total round functions *)

(** [T] never fails on key word i and computes [f i]. *)
Definition computes_tr (T : N -> Z -> res N) (f : nat -> N -> N) : Prop :=
  forall i a, (i < 8)%nat -> a < 2 ^ 32 ->
    T a (Z.of_nat i) = Ok (f i a) /\ f i a < 2 ^ 32.
Definition computes (k : option lazykey) (f : nat -> N -> N) : Prop :=
  computes_tr (ptr_transform k) f.

(** Model halves are (low, high), the standard's are (a1, a0) = (high, low). *)
Definition flip (p : N * N) : N * N := (snd p, fst p).

(** Rounds two at a time, as the code writes them. *)
Fixpoint duo (tr : N -> Z -> res N) (l : list (nat * nat)) (x : N * N) : res (N * N) :=
  match l with
  | [] => Ok x
  | (i, j) :: r =>
      let '(a, b) := x in
      t <- tr a (Z.of_nat i) ;; let b := N.lxor b t in
      t <- tr b (Z.of_nat j) ;; let a := N.lxor a t in
      duo tr r (a, b)
  end.

Definition up : list (nat * nat) := [(0, 1); (2, 3); (4, 5); (6, 7)]%nat.
Definition down : list (nat * nat) := [(7, 6); (5, 4); (3, 2); (1, 0)]%nat.
Definition flat (l : list (nat * nat)) : list nat := flat_map (fun p => [fst p; snd p]) l.

Lemma fwd_duo tr x : fwd tr x = duo tr up x.
Proof. destruct x. reflexivity. Qed.

Lemma bwd_duo tr x : bwd tr x = duo tr down x.
Proof. destruct x. reflexivity. Qed.

Definition rounds (f : nat -> N -> N) (order : list nat) (p : N * N) : N * N :=
  fold_left (fun p i => G (f i) p) order p.

Lemma rounds_app f a b p : rounds f (a ++ b) p = rounds f b (rounds f a p).
Proof. apply fold_left_app. Qed.

Lemma duo_rounds T f l x :
  computes_tr T f -> Forall (fun p => (fst p < 8 /\ snd p < 8)%nat) l -> pair_lt 32 x ->
  duo T l x = Ok (flip (rounds f (flat l) (flip x))) /\
  pair_lt 32 (rounds f (flat l) (flip x)).
Proof.
  intros Hk Hl. revert x. induction l as [|[i j] l IH]; intros [a b] [Ha Hb]; cbn [fst snd] in *.
  - split; [reflexivity|split; assumption].
  - inversion Hl as [|? ? [Hi Hj] Hl']; subst. cbn [fst snd] in *.
    destruct (Hk i a Hi Ha) as [E1 L1].
    assert (H1 : N.lxor b (f i a) < 2 ^ 32) by now apply lxor_lt.
    destruct (Hk j _ Hj H1) as [E2 L2].
    assert (H2 : N.lxor a (f j (N.lxor b (f i a))) < 2 ^ 32) by now apply lxor_lt.
    cbn [duo]. rewrite E1. cbn [bind]. cbv zeta. rewrite E2. cbn [bind]. cbv zeta.
    specialize (IH Hl' _ (conj H2 H1 : pair_lt 32 (_, _))).
    cbn [flat flat_map]. cbn [app]. unfold rounds at 1 2. cbn [fold_left]. cbn [fst snd].
    change (fold_left (fun p i => G (f i) p)) with (rounds f).
    change (flat_map (fun p : nat * nat => [fst p; snd p]) l) with (flat l).
    assert (EG : G (f j) (G (f i) (flip (a, b))) =
                 flip (N.lxor a (f j (N.lxor b (f i a))), N.lxor b (f i a))).
    { unfold flip. cbn [fst snd G].
      now rewrite (N.lxor_comm (f i a) b), (N.lxor_comm (f j _) a). }
    rewrite EG. exact IH.
Qed.

Lemma fwd_rounds T f x :
  computes_tr T f -> pair_lt 32 x ->
  fwd T x = Ok (flip (rounds f (flat up) (flip x))) /\
  pair_lt 32 (rounds f (flat up) (flip x)).
Proof. intros. rewrite fwd_duo. apply duo_rounds; auto. repeat constructor. Qed.

Lemma bwd_rounds T f x :
  computes_tr T f -> pair_lt 32 x ->
  bwd T x = Ok (flip (rounds f (flat down) (flip x))) /\
  pair_lt 32 (rounds f (flat down) (flip x)).
Proof. intros. rewrite bwd_duo. apply duo_rounds; auto. repeat constructor. Qed.

Lemma flip_flip p : flip (flip p) = p.
Proof. now destruct p. Qed.

Lemma pair_lt_flip n p : pair_lt n p -> pair_lt n (flip p).
Proof. intros [H1 H2]. split; assumption. Qed.

(** The last round without exchange of the halves. *)
Lemma feistel_rounds f order x :
  order <> [] -> x < 2 ^ 64 ->
  let p := rounds f order (x / 2 ^ 32, x mod 2 ^ 32) in
  feistel f order x = snd p * 2 ^ 32 + fst p.
Proof.
  intros Ho Hx. cbv zeta.
  rewrite (app_removelast_last O Ho) at 2 3. rewrite !rounds_app. unfold feistel.
  change (fold_left (fun p i => G (f i) p)) with (rounds f).
  destruct (rounds f (removelast order) (x / 2 ^ 32, x mod 2 ^ 32)) as [a1 a0]. reflexivity.
Qed.

Lemma BlkRaw64_halves x : x < 2 ^ 64 -> BlkRaw64 x = Ok (halves x).
Proof. intros H. unfold BlkRaw64, BlkRaw2. rewrite w32_shiftr by assumption. reflexivity. Qed.

Lemma halves_lt x : x < 2 ^ 64 -> pair_lt 32 (halves x).
Proof.
  intros H. split; cbn [fst snd halves]; [apply mod_pow2_lt|].
  rewrite <- N.shiftr_div_pow2. apply shiftr_lt. exact H.
Qed.

Lemma halves_join p : pair_lt 32 p -> halves (snd p * 2 ^ 32 + fst p) = p.
Proof.
  destruct p as [a b]. intros [Ha Hb]. cbn [fst snd] in *. unfold halves.
  now rewrite split_mod, split_div by assumption.
Qed.

Lemma BlkEncrypted_spec k f x :
  computes k f -> x < 2 ^ 64 ->
  BlkEncrypted (BlkRaw64 x) k = Ok (halves (encryption f x)) /\ encryption f x < 2 ^ 64.
Proof.
  intros Hk Hx. unfold encryption. rewrite feistel_rounds by (assumption || discriminate).
  pose proof (halves_lt x Hx) as H0.
  unfold BlkEncrypted. rewrite BlkRaw64_halves by assumption.
  rewrite BlkBackwarded_bwd, !BlkForwarded_fwd. cbn [bind].
  change (x / 2 ^ 32, x mod 2 ^ 32) with (flip (halves x)).
  destruct (fwd_rounds _ f _ Hk H0) as [E1 L1]. rewrite E1. cbn [bind].
  destruct (fwd_rounds _ f _ Hk (pair_lt_flip _ _ L1)) as [E2 L2].
  rewrite E2. rewrite flip_flip in *. cbn [bind].
  destruct (fwd_rounds _ f _ Hk (pair_lt_flip _ _ L2)) as [E3 L3].
  rewrite E3. rewrite flip_flip in *. cbn [bind].
  destruct (bwd_rounds _ f _ Hk (pair_lt_flip _ _ L3)) as [E4 L4].
  rewrite E4. rewrite flip_flip in *. cbn [bind].
  rewrite <- !rounds_app in L4 |- *.
  change (((flat up ++ flat up) ++ flat up) ++ flat down) with round_order in *.
  change (flat up ++ flat up ++ flat up ++ flat down) with round_order in *.
  destruct (rounds f round_order (flip (halves x))) as [c d].
  destruct L4 as [Hc Hd]. cbn [fst snd] in *. split.
  - cbn [BlkSwapped bind flip fst snd]. unfold halves.
    now rewrite split_mod, split_div by assumption.
  - now apply (split_lt d c 32 32).
Qed.

(** The path through EncryptionBase, for every Key. *)
Lemma EncryptionBase_spec k f x :
  computes_tr (key_transform k) f -> x < 2 ^ 64 ->
  EncryptionBase_transform k x = Ok (encryption f x) /\ encryption f x < 2 ^ 64.
Proof.
  intros Hk Hx. unfold encryption. rewrite feistel_rounds by (assumption || discriminate).
  pose proof (halves_lt x Hx) as H0. rewrite EncryptionBase_rounds, !land_ones32.
  rewrite w32_shiftr by assumption.
  change (w32 x, x / 2 ^ 32) with (halves x).
  change (x / 2 ^ 32, x mod 2 ^ 32) with (flip (halves x)).
  destruct (fwd_rounds _ f _ Hk H0) as [E1 L1]. rewrite E1. cbn [bind].
  destruct (fwd_rounds _ f _ Hk (pair_lt_flip _ _ L1)) as [E2 L2].
  rewrite E2. rewrite flip_flip in *. cbn [bind].
  destruct (fwd_rounds _ f _ Hk (pair_lt_flip _ _ L2)) as [E3 L3].
  rewrite E3. rewrite flip_flip in *. cbn [bind].
  destruct (bwd_rounds _ f _ Hk (pair_lt_flip _ _ L3)) as [E4 L4].
  rewrite E4. rewrite flip_flip in *. cbn [bind].
  rewrite <- !rounds_app in L4 |- *.
  change (((flat up ++ flat up) ++ flat up) ++ flat down) with round_order in *.
  change (flat up ++ flat up ++ flat up ++ flat down) with round_order in *.
  destruct (rounds f round_order (flip (halves x))) as [c d].
  destruct L4 as [Hc Hd]. cbn [fst snd flip bind] in *. split.
  - f_equal. rewrite w64_id.
    + now apply lor_shiftl_add.
    + rewrite N.shiftl_mul_pow2. rewrite <- (N.add_0_r (d * 2 ^ 32)).
      apply (split_lt d 0 32 32); [assumption|reflexivity].
  - now apply (split_lt d c 32 32).
Qed.

Lemma BlkDecrypted_spec k f x :
  computes k f -> x < 2 ^ 64 ->
  BlkDecrypted (BlkRaw64 x) k = Ok (halves (decryption f x)) /\ decryption f x < 2 ^ 64.
Proof.
  intros Hk Hx. unfold decryption. rewrite feistel_rounds by (assumption || discriminate).
  pose proof (halves_lt x Hx) as H0.
  unfold BlkDecrypted. rewrite BlkRaw64_halves by assumption.
  rewrite !BlkBackwarded_bwd, !BlkForwarded_fwd. cbn [bind].
  change (x / 2 ^ 32, x mod 2 ^ 32) with (flip (halves x)).
  destruct (fwd_rounds _ f _ Hk H0) as [E1 L1]. rewrite E1. cbn [bind].
  destruct (bwd_rounds _ f _ Hk (pair_lt_flip _ _ L1)) as [E2 L2].
  rewrite E2. rewrite flip_flip in *. cbn [bind].
  destruct (bwd_rounds _ f _ Hk (pair_lt_flip _ _ L2)) as [E3 L3].
  rewrite E3. rewrite flip_flip in *. cbn [bind].
  destruct (bwd_rounds _ f _ Hk (pair_lt_flip _ _ L3)) as [E4 L4].
  rewrite E4. rewrite flip_flip in *. cbn [bind].
  rewrite <- !rounds_app in L4 |- *.
  change (flat up ++ flat down ++ flat down ++ flat down) with (rev round_order) in *.
  change (((flat up ++ flat down) ++ flat down) ++ flat down) with (rev round_order) in *.
  destruct (rounds f (rev round_order) (flip (halves x))) as [c d].
  destruct L4 as [Hc Hd]. cbn [fst snd] in *. split.
  - cbn [BlkSwapped bind flip fst snd]. unfold halves.
    now rewrite split_mod, split_div by assumption.
  - now apply (split_lt d c 32 32).
Qed.

(** ** Keys *)

Lemma wrong_index i : ((i <? 0) || (7 <? i))%Z = true <-> ~ (0 <= i <= 7)%Z.
Proof. lia. Qed.

Lemma KeyDataString_hex s i :
  List.length s = 64%nat -> Forall hex_digit s -> (i < 8)%nat ->
  KeyDataString s (Z.of_nat i) = Ok (number (firstn 8 (skipn (8 * i) s))).
Proof.
  intros Hl Hs Hi. unfold KeyDataString.
  replace (negb (len s =? 64)) with false by (unfold len; lia).
  replace ((Z.of_nat i <? 0) || (7 <? Z.of_nat i))%Z with false by lia.
  rewrite substr_ok by (unfold len; lia). cbn [bind].
  replace (N.to_nat (Z.to_N (Z.of_nat i * 8))) with (8 * i)%nat by lia.
  change (N.to_nat 8) with 8%nat. apply extract_hex32_hex.
  - apply Forall_firstn, Forall_skipn, Hs.
  - rewrite firstn_length, skipn_length. lia.
Qed.

Lemma number_slice s i :
  List.length s = 64%nat -> (i < 8)%nat ->
  number (firstn 8 (skipn (8 * i) s)) = key_word (number s) i.
Proof.
  intros Hl Hi. unfold key_word.
  rewrite <- (firstn_skipn (8 * i) s) at 2.
  rewrite <- (firstn_skipn 8 (skipn (8 * i) s)) at 2.
  set (a := firstn (8 * i) s). set (b := firstn 8 (skipn (8 * i) s)).
  set (c := skipn 8 (skipn (8 * i) s)).
  assert (Hb : len b = 8) by (unfold b, len; rewrite firstn_length, skipn_length; lia).
  assert (Hc : len c = 8 * (7 - N.of_nat i))
    by (unfold c, len; rewrite !skipn_length; lia).
  rewrite !number_app, len_app, Hb, Hc.
  pose proof (number_lt b) as Lb. pose proof (number_lt c) as Lc. rewrite Hb in Lb. rewrite Hc in Lc.
  assert (Hp : 16 ^ (8 * (7 - N.of_nat i)) = 2 ^ (32 * (7 - N.of_nat i))).
  { change 16 with (2 ^ 4). rewrite <- N.pow_mul_r. f_equal. lia. }
  rewrite N.pow_add_r, Hp in *. change (16 ^ 8) with (2 ^ 32) in *.
  replace (number a * (2 ^ 32 * 2 ^ (32 * (7 - N.of_nat i))) +
           (number b * 2 ^ (32 * (7 - N.of_nat i)) + number c))
    with ((number a * 2 ^ 32 + number b) * 2 ^ (32 * (7 - N.of_nat i)) + number c) by lia.
  rewrite split_div by assumption. now rewrite split_mod.
Qed.

Lemma mapM_ok {A B} (f : A -> res B) (g : A -> B) l :
  (forall a, In a l -> f a = Ok (g a)) -> mapM f l = Ok (map g l).
Proof.
  induction l as [|a l IH]; intros H; [reflexivity|]. cbn [mapM map].
  rewrite H by now left. cbn [bind]. rewrite IH; [reflexivity|]. intros; apply H; now right.
Qed.

Lemma KeyCachedData_ok kd g :
  (forall i, (i < 8)%nat -> kd (Z.of_nat i) = Ok (g i)) ->
  forall i, (i < 8)%nat -> KeyCachedData kd (Z.of_nat i) = Ok (g i).
Proof.
  intros H i Hi. unfold KeyCachedData.
  change [0; 1; 2; 3; 4; 5; 6; 7]%Z with (map Z.of_nat (seq 0 8)).
  assert (E : mapM kd (map Z.of_nat (seq 0 8)) = Ok (map g (seq 0 8))).
  { cbn [map seq]. pose proof (H 0%nat). pose proof (H 1%nat). pose proof (H 2%nat).
    pose proof (H 3%nat). pose proof (H 4%nat). pose proof (H 5%nat). pose proof (H 6%nat).
    pose proof (H 7%nat). cbn [mapM].
    repeat match goal with K : (?n < 8)%nat -> _ |- _ => rewrite (K ltac:(lia)); clear K end.
    reflexivity. }
  rewrite E. cbn [bind]. unfold at_int. rewrite (proj2 (Z.leb_le _ _)) by lia.
  replace (Z.to_N (Z.of_nat i)) with (N.of_nat i) by lia.
  rewrite at_ok with (d := g O) by (unfold len; rewrite map_length, seq_length; lia).
  rewrite Nat2N.id, map_nth, seq_nth by assumption. reflexivity.
Qed.

(** A LazyKey over key words [w i] with substitution [sb]. *)
Lemma lazy_computes kd sb w (h : N -> N) :
  (forall i, (i < 8)%nat -> kd (Z.of_nat i) = Ok (w i)) ->
  (forall v, v < 2 ^ 32 -> sb v = Ok (h v) /\ h v < 2 ^ 32) ->
  computes (Some (LazyKey kd sb)) (fun i a => h ((a + w i) mod 2 ^ 32)).
Proof.
  intros Hkd Hsb i a Hi Ha. cbn [ptr_transform]. unfold lazy_transform. cbn [key_data key_sbox].
  rewrite Hkd by assumption. cbn [bind].
  assert (E : w32 (w32 (w i) + a) = (a + w i) mod 2 ^ 32).
  { unfold w32. rewrite N.add_mod_idemp_l by discriminate. f_equal. lia. }
  rewrite E. destruct (Hsb ((a + w i) mod 2 ^ 32) (mod_pow2_lt _ _)) as [Es Ls].
  rewrite Es. cbn [bind]. rewrite w32_id by exact Ls. split; [reflexivity|exact Ls].
Qed.

Lemma SboxR3412_total v : SboxR3412 v = Ok (rotl11 (subst_digits Pi v)) /\
                          rotl11 (subst_digits Pi v) < 2 ^ 32.
Proof.
  split; [apply SboxR3412_ok|]. apply rotl11_lt, (subst_digits_lt Pi v Pi_tables).
Qed.

Lemma LazyKey_string_computes s :
  List.length s = 64%nat -> Forall hex_digit s ->
  computes (Some (LazyKey_string s)) (fun i => g (key_word (number s) i)).
Proof.
  intros Hl Hs. unfold LazyKey_string, LazyKey_string_sbox, g.
  apply (lazy_computes _ _ (key_word (number s)) (fun v => rotl11 (subst_digits Pi v))).
  - apply KeyCachedData_ok. intros i Hi. rewrite KeyDataString_hex by assumption.
    f_equal. now apply number_slice.
  - intros v _. apply SboxR3412_total.
Qed.
