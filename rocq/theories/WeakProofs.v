(** Proofs about related keys, keys with repeated words, and related messages. *)
From Verif Require Import Base Text MagmaModel Streams Lib SpecText SpecMagma SpecModes SpecStreams SpecMac SpecWeak
  MagmaProofs MagmaSpecProofs ByteProofs StreamProofs SinkProofs TowerProofs MacProofs KeyMore.
From Verif Require HarnessProofs.
From Coq Require Import ZifyNat ZifyN ZifyBool.
Local Open Scope N_scope.

(** ** Key words that read the same backwards *)

Lemma fwd_eq_bwd tr x : (forall v i, (0 <= i <= 7)%Z -> tr v (7 - i)%Z = tr v i) -> fwd tr x = bwd tr x.
Proof.
  intros P. destruct x as [a b].
  assert (P7 : forall v, tr v 7%Z = tr v 0%Z) by (intros v; exact (P v 0%Z ltac:(lia))).
  assert (P6 : forall v, tr v 6%Z = tr v 1%Z) by (intros v; exact (P v 1%Z ltac:(lia))).
  assert (P5 : forall v, tr v 5%Z = tr v 2%Z) by (intros v; exact (P v 2%Z ltac:(lia))).
  assert (P4 : forall v, tr v 4%Z = tr v 3%Z) by (intros v; exact (P v 3%Z ltac:(lia))).
  unfold fwd, bwd. cbv zeta.
  repeat (rewrite ?P7, ?P6, ?P5, ?P4; apply bind_ext; intro). reflexivity.
Qed.

Lemma palindrome_transform k : (forall i, (0 <= i <= 7)%Z -> key_data k (7 - i)%Z = key_data k i) ->
  forall v i, (0 <= i <= 7)%Z -> ptr_transform (Some k) v (7 - i)%Z = ptr_transform (Some k) v i.
Proof. intros P v i Hi. cbn [ptr_transform]. unfold lazy_transform. now rewrite P. Qed.

Lemma palindrome_directions k b : (forall i, (0 <= i <= 7)%Z -> key_data k (7 - i)%Z = key_data k i) ->
  BlkEncrypted b (Some k) = BlkDecrypted b (Some k).
Proof.
  intros P. unfold BlkEncrypted, BlkDecrypted. rewrite !BlkForwarded_fwd, !BlkBackwarded_bwd.
  assert (F : forall x, fwd (ptr_transform (Some k)) x = bwd (ptr_transform (Some k)) x)
    by (intros x; apply fwd_eq_bwd; now apply palindrome_transform).
  f_equal. destruct b as [x| | |]; try reflexivity. cbn [bind]. rewrite F.
  destruct (bwd _ x) as [y| | |]; try reflexivity. cbn [bind]. rewrite F.
  destruct (bwd _ y) as [z| | |]; try reflexivity. cbn [bind]. now rewrite F.
Qed.

Lemma palindrome_involution k b c : (forall i, (0 <= i <= 7)%Z -> key_data k (7 - i)%Z = key_data k i) ->
  BlkEncrypted (Ok b) (Some k) = Ok c -> BlkEncrypted (Ok c) (Some k) = Ok b.
Proof.
  intros P H. rewrite palindrome_directions by assumption. destruct b, c. now apply decrypted_encrypted.
Qed.

Lemma string_words s i : List.length s = 64%nat -> Forall hex_digit s -> (i < 8)%nat ->
  key_data (LazyKey_string s) (Z.of_nat i) = Ok (key_word (number s) i).
Proof.
  intros Hl Hs Hi. unfold LazyKey_string, LazyKey_string_sbox. cbn [key_data].
  apply (KeyCachedData_ok _ (key_word (number s))); [|exact Hi].
  intros j Hj. rewrite KeyDataString_hex by assumption. f_equal. now apply number_slice.
Qed.

Lemma string_palindrome s : List.length s = 64%nat -> Forall hex_digit s ->
  (forall i, (i < 8)%nat -> key_word (number s) (7 - i) = key_word (number s) i) ->
  forall i, (0 <= i <= 7)%Z -> key_data (LazyKey_string s) (7 - i)%Z = key_data (LazyKey_string s) i.
Proof.
  intros Hl Hs P i Hi. pose (n := Z.to_nat i). assert (Hn : (n < 8)%nat) by (subst n; lia).
  replace (7 - i)%Z with (Z.of_nat (7 - n)) by (subst n; lia). replace i with (Z.of_nat n) by (subst n; lia).
  rewrite !string_words by (assumption || lia). f_equal. now apply P.
Qed.

(** ** Top bits *)

Lemma flip_add x : x < 2 ^ 32 -> N.lxor x (2 ^ 31) = (x + 2 ^ 31) mod 2 ^ 32.
Proof.
  intros Hx.
  assert (Hlow : forall y, y < 2 ^ 31 -> N.lxor y (2 ^ 31) = y + 2 ^ 31).
  { intros y Hy. symmetry. apply N.add_nocarry_lxor. apply N.bits_inj. intros i.
    rewrite N.land_spec, N.bits_0, N.pow2_bits_eqb. destruct (N.eqb_spec 31 i) as [<-|]; [|apply andb_false_r].
    rewrite andb_true_r. destruct (N.eq_dec y 0) as [->|Hz]; [apply N.bits_0|].
    apply N.bits_above_log2. apply N.log2_lt_pow2; lia. }
  destruct (N.lt_ge_cases x (2 ^ 31)) as [L|G].
  - rewrite Hlow by exact L. symmetry. apply N.mod_small. clear - L. lia.
  - pose (y := x - 2 ^ 31). assert (Hy : y < 2 ^ 31) by (subst y; clear - G Hx; lia).
    assert (Ex : x = y + 2 ^ 31) by (subst y; clear - G; lia).
    rewrite Ex at 1. rewrite <- Hlow by exact Hy. rewrite N.lxor_assoc, N.lxor_nilpotent, N.lxor_0_r.
    rewrite Ex. replace (y + 2 ^ 31 + 2 ^ 31) with (y + 1 * 2 ^ 32) by (clear; lia).
    rewrite N.mod_add by discriminate. symmetry. apply N.mod_small. clear - Hy. lia.
Qed.

Lemma flip_sum w v : w < 2 ^ 32 -> v < 2 ^ 32 ->
  w32 (w32 (N.lxor w (2 ^ 31)) + N.lxor v (2 ^ 31)) = w32 (w32 w + v).
Proof.
  intros Hw Hv. rewrite !flip_add by assumption. unfold w32.
  rewrite !N.add_mod_idemp_l, !N.add_mod_idemp_r by discriminate.
  replace (w + 2 ^ 31 + (v + 2 ^ 31)) with (w + v + 1 * 2 ^ 32) by (clear; lia).
  now rewrite N.mod_add by discriminate.
Qed.

Lemma lxor_swap a b c : N.lxor (N.lxor a b) c = N.lxor (N.lxor a c) b.
Proof. rewrite !N.lxor_assoc. f_equal. apply N.lxor_comm. Qed.

Section Flip.
Variables tr tr' : N -> Z -> res N.
Variable m : N.
Hypothesis Hm : m < 2 ^ 32.
Hypothesis tr_lt : forall v i t, tr v i = Ok t -> t < 2 ^ 32.
Hypothesis flipped : forall v i, v < 2 ^ 32 -> (0 <= i <= 7)%Z -> tr' (N.lxor v m) i = tr v i.

Let flip (x : N * N) : N * N := (N.lxor (fst x) m, N.lxor (snd x) m).

Lemma fwd_flip x : pair_lt 32 x -> fwd tr' (flip x) = (y <- fwd tr x ;; Ok (flip y)).
Proof.
  destruct x as [a b]. intros [Ha Hb]. cbn [fst snd] in Ha, Hb. unfold flip, fwd. cbn [fst snd]. cbv zeta.
  do 8 (rewrite flipped by (assumption || lia);
    match goal with |- context [bind (tr ?v ?i) _] =>
      destruct (tr v i) as [?t| | |] eqn:?T; cbn [bind]; try reflexivity; match goal with E : tr v i = Ok _ |- _ => apply tr_lt in E end end;
    rewrite (lxor_swap _ m);
    match goal with |- context [bind (tr' (N.lxor ?v m) _) _] => assert (v < 2 ^ 32) by now apply lxor_lt
      | _ => idtac end).
  reflexivity.
Qed.

Lemma bwd_flip x : pair_lt 32 x -> bwd tr' (flip x) = (y <- bwd tr x ;; Ok (flip y)).
Proof.
  destruct x as [a b]. intros [Ha Hb]. cbn [fst snd] in Ha, Hb. unfold flip, bwd. cbn [fst snd]. cbv zeta.
  do 8 (rewrite flipped by (assumption || lia);
    match goal with |- context [bind (tr ?v ?i) _] =>
      destruct (tr v i) as [?t| | |] eqn:?T; cbn [bind]; try reflexivity; match goal with E : tr v i = Ok _ |- _ => apply tr_lt in E end end;
    rewrite (lxor_swap _ m);
    match goal with |- context [bind (tr' (N.lxor ?v m) _) _] => assert (v < 2 ^ 32) by now apply lxor_lt
      | _ => idtac end).
  reflexivity.
Qed.
End Flip.

Definition flipped_keys (k k' : lazykey) : Prop :=
  (forall v, key_sbox k' v = key_sbox k v) /\
  forall i, (0 <= i <= 7)%Z -> exists w, w < 2 ^ 32 /\ key_data k i = Ok w /\ key_data k' i = Ok (N.lxor w (2 ^ 31)).

Lemma flipped_transform k k' : flipped_keys k k' -> forall v i, v < 2 ^ 32 -> (0 <= i <= 7)%Z ->
  ptr_transform (Some k') (N.lxor v (2 ^ 31)) i = ptr_transform (Some k) v i.
Proof.
  intros [Hs Hd] v i Hv Hi. destruct (Hd i Hi) as (w & Hw & E1 & E2). cbn [ptr_transform]. unfold lazy_transform.
  rewrite E1, E2. cbn [bind]. now rewrite flip_sum, Hs.
Qed.

Lemma encrypted_flip k k' x : flipped_keys k k' -> pair_lt 32 x ->
  BlkEncrypted (Ok (flip_tops x)) (Some k') = (y <- BlkEncrypted (Ok x) (Some k) ;; Ok (flip_tops y)) /\
  BlkDecrypted (Ok (flip_tops x)) (Some k') = (y <- BlkDecrypted (Ok x) (Some k) ;; Ok (flip_tops y)).
Proof.
  intros HF Hx. pose proof (flipped_transform k k' HF) as HT.
  assert (M : 2 ^ 31 < 2 ^ 32) by reflexivity.
  assert (F : forall x, pair_lt 32 x ->
    fwd (ptr_transform (Some k')) (flip_tops x) = (y <- fwd (ptr_transform (Some k)) x ;; Ok (flip_tops y)))
    by (intros; now apply (fwd_flip _ _ (2 ^ 31) M (ptr_transform_lt (Some k)) HT)).
  assert (B : forall x, pair_lt 32 x ->
    bwd (ptr_transform (Some k')) (flip_tops x) = (y <- bwd (ptr_transform (Some k)) x ;; Ok (flip_tops y)))
    by (intros; now apply (bwd_flip _ _ (2 ^ 31) M (ptr_transform_lt (Some k)) HT)).
  pose proof (fwd_lt (ptr_transform (Some k)) (ptr_transform_lt (Some k))) as LF.
  pose proof (bwd_lt (ptr_transform (Some k)) (ptr_transform_lt (Some k))) as LB.
  unfold BlkEncrypted, BlkDecrypted, BlkSwapped. rewrite !BlkForwarded_fwd, !BlkBackwarded_bwd. cbn [bind].
  rewrite F by exact Hx. destruct (fwd _ x) as [y| | |] eqn:E1; cbn [bind]; try (split; reflexivity).
  pose proof (LF _ _ Hx E1) as H1. split.
  - rewrite F by exact H1. destruct (fwd _ y) as [z| | |] eqn:E2; cbn [bind]; try reflexivity.
    pose proof (LF _ _ H1 E2) as H2. rewrite F by exact H2.
    destruct (fwd _ z) as [u| | |] eqn:E3; cbn [bind]; try reflexivity.
    pose proof (LF _ _ H2 E3) as H3. rewrite B by exact H3.
    destruct (bwd _ u) as [[p q]| | |]; reflexivity.
  - rewrite B by exact H1. destruct (bwd _ y) as [z| | |] eqn:E2; cbn [bind]; try reflexivity.
    pose proof (LB _ _ H1 E2) as H2. rewrite B by exact H2.
    destruct (bwd _ z) as [u| | |] eqn:E3; cbn [bind]; try reflexivity.
    pose proof (LB _ _ H2 E3) as H3. rewrite B by exact H3.
    destruct (bwd _ u) as [[p q]| | |]; reflexivity.
Qed.

Lemma word_flip K i : (i < 8)%nat -> key_word (N.lxor K top_key) i = N.lxor (key_word K i) (2 ^ 31).
Proof.
  intros Hi. unfold key_word. rewrite lxor_div, lxor_mod. f_equal.
  destruct i as [|[|[|[|[|[|[|[|i]]]]]]]]; try reflexivity. lia.
Qed.

Lemma string_flipped s s' : List.length s = 64%nat -> Forall hex_digit s ->
  List.length s' = 64%nat -> Forall hex_digit s' -> number s' = N.lxor (number s) top_key ->
  flipped_keys (LazyKey_string s) (LazyKey_string s').
Proof.
  intros Hl Hs Hl' Hs' E. split; [reflexivity|]. intros i Hi. pose (n := Z.to_nat i).
  assert (Hn : (n < 8)%nat) by (subst n; lia). replace i with (Z.of_nat n) by (subst n; lia).
  exists (key_word (number s) n).
  rewrite !string_words by assumption. split; [apply mod_pow2_lt|]. split; [reflexivity|].
  now rewrite E, word_flip.
Qed.

(** ** The MAC of GOST 28147-89 *)

Lemma rounds_flip (f f' : nat -> N -> N) m l : (forall i a, In i l -> a < 2 ^ 32 -> f' i (N.lxor a m) = f i a) ->
  (forall i a, In i l -> a < 2 ^ 32 -> f i a < 2 ^ 32) ->
  forall p, pair_lt 32 p ->
  fold_left (fun p i => G (f' i) p) l (N.lxor (fst p) m, N.lxor (snd p) m) =
  let q := fold_left (fun p i => G (f i) p) l p in (N.lxor (fst q) m, N.lxor (snd q) m).
Proof.
  induction l as [|i l IH]; intros Hf Hl p Hp; [reflexivity|]. cbn [fold_left]. destruct p as [a1 a0].
  destruct Hp as [H1 H0]. cbn [fst snd] in *. cbn [G]. rewrite Hf by (try (left; reflexivity); assumption).
  rewrite <- N.lxor_assoc. 
  apply (IH (fun j a Hj => Hf j a (or_intror Hj)) (fun j a Hj => Hl j a (or_intror Hj)) (a0, N.lxor (f i a0) a1)).
  split; cbn [fst snd]; [assumption|]. apply lxor_lt; [|assumption]. apply Hl; [now left|assumption].
Qed.

Lemma top_split x : x < 2 ^ 64 ->
  N.lxor x top_block / 2 ^ 32 = N.lxor (x / 2 ^ 32) (2 ^ 31) /\
  N.lxor x top_block mod 2 ^ 32 = N.lxor (x mod 2 ^ 32) (2 ^ 31).
Proof. intros _. rewrite lxor_div, lxor_mod. split; reflexivity. Qed.

Lemma join_top a b : a < 2 ^ 32 -> b < 2 ^ 32 ->
  N.lxor a (2 ^ 31) * 2 ^ 32 + N.lxor b (2 ^ 31) = N.lxor (a * 2 ^ 32 + b) top_block.
Proof.
  intros Ha Hb. pose (x := a * 2 ^ 32 + b).
  assert (Ed : x / 2 ^ 32 = a).
  { subst x. rewrite N.div_add_l by discriminate. rewrite (N.div_small b) by exact Hb. apply N.add_0_r. }
  assert (Em : x mod 2 ^ 32 = b).
  { subst x. rewrite N.add_comm, N.mod_add by discriminate. now apply N.mod_small. }
  fold x. rewrite (N.div_mod (N.lxor x top_block) (2 ^ 32)) by discriminate.
  rewrite lxor_div, lxor_mod, Ed, Em. rewrite (N.mul_comm (2 ^ 32)). reflexivity.
Qed.

Lemma rounds_lt (f : nat -> N -> N) l : (forall i a, In i l -> a < 2 ^ 32 -> f i a < 2 ^ 32) ->
  forall p, pair_lt 32 p -> pair_lt 32 (fold_left (fun p i => G (f i) p) l p).
Proof.
  induction l as [|i l IH]; intros Hl [a1 a0] Hp; [exact Hp|]. cbn [fold_left G].
  destruct Hp as [H1 H0]. cbn [fst snd] in *. apply IH; [intros; apply Hl; [now right|assumption]|].
  split; cbn [fst snd]; [assumption|]. apply lxor_lt; [|assumption]. apply Hl; [now left|assumption].
Qed.

Lemma sixteen_flip f f' x : (forall i a, (i < 8)%nat -> a < 2 ^ 32 -> f' i (N.lxor a (2 ^ 31)) = f i a) ->
  (forall i a, (i < 8)%nat -> a < 2 ^ 32 -> f i a < 2 ^ 32) -> x < 2 ^ 64 ->
  sixteen_rounds f' (N.lxor x top_block) = N.lxor (sixteen_rounds f x) top_block.
Proof.
  intros Hf Hl Hx. unfold sixteen_rounds. destruct (top_split x Hx) as [-> ->].
  assert (Hin : forall i, In i (seq 0 8 ++ seq 0 8) -> (i < 8)%nat).
  { intros i Hi. apply in_app_or in Hi. destruct Hi as [Hi|Hi]; apply in_seq in Hi; lia. }
  assert (Hp : pair_lt 32 (x / 2 ^ 32, x mod 2 ^ 32)).
  { pose proof (halves_lt x Hx) as [L1 L2]. split; assumption. }
  pose proof (rounds_flip f f' (2 ^ 31) _ (fun i a H => Hf i a (Hin i H)) (fun i a H => Hl i a (Hin i H)) _ Hp) as E.
  cbn [fst snd] in E. rewrite E. cbv zeta. cbn [fst snd].
  pose proof (rounds_lt f _ (fun i a H => Hl i a (Hin i H)) _ Hp) as [L1 L2]. now apply join_top.
Qed.

Lemma pad89_id d : (List.length d mod 8 = 0)%nat -> (16 <= List.length d)%nat -> pad89 d = d.
Proof.
  intros Hm Hl. unfold pad89.
  replace (Nat.max 16 (8 * ((List.length d + 7) / 8)) - List.length d)%nat with 0%nat; [apply app_nil_r|].
  assert (E : (8 * ((List.length d + 7) / 8) = List.length d)%nat).
  { pose proof (Nat.div_mod (List.length d) 8 ltac:(lia)) as D. rewrite Hm, Nat.add_0_r in D.
    rewrite D at 1. replace (8 * (List.length d / 8) + 7)%nat with (7 + List.length d / 8 * 8)%nat by lia.
    rewrite Nat.div_add by lia. change (7 / 8)%nat with 0%nat. lia. }
  lia.
Qed.

Lemma xor2_zip a : forall b, xor2 a b = zip_xor a b.
Proof. unfold xor2. induction a as [|x a IH]; intros [|y b]; try reflexivity. cbn. now rewrite <- IH. Qed.

Lemma xor2_u8 a : forall b, Forall u8 a -> Forall u8 b -> Forall u8 (xor2 a b).
Proof.
  unfold xor2. induction a as [|x a IH]; intros [|y b] Ha Hb; cbn; try constructor.
  - inversion Ha; inversion Hb; subst. unfold u8 in *. change 256 with (2 ^ 8) in *. now apply lxor_lt.
  - inversion Ha; inversion Hb; subst. now apply IH.
Qed.

Lemma of_le_xor2 a b : List.length a = List.length b -> Forall u8 a -> Forall u8 b ->
  of_le (xor2 a b) = N.lxor (of_le a) (of_le b).
Proof.
  intros Hl Ha Hb. rewrite xor2_zip.
  assert (E : b = to_le (List.length a) (of_le b)) by (rewrite Hl; symmetry; now apply to_of_le).
  rewrite E at 1. rewrite zip_xor_to_le by (try assumption; reflexivity). apply of_to_le_id.
  apply lxor_lt; [now apply of_le_lt|]. rewrite Hl. now apply of_le_lt.
Qed.

Lemma mac89_lt f ps : (forall x, x < 2 ^ 64 -> sixteen_rounds f x < 2 ^ 64) ->
  Forall (fun x => x < 2 ^ 64) ps -> forall s, s < 2 ^ 64 ->
  fold_left (fun s p => sixteen_rounds f (N.lxor s p)) ps s < 2 ^ 64.
Proof.
  intros HE. induction 1 as [|p ps Hp _ IH]; intros s Hs; [exact Hs|]. cbn [fold_left].
  apply IH, HE, lxor_lt; assumption.
Qed.

(** A message continued by another whose first block is masked with the MAC of the first. *)
Lemma dataimit_extend k f m t b r : round_functions k f -> Forall u8 m -> Forall u8 (b ++ r) ->
  (List.length m mod 8 = 0)%nat -> (16 <= List.length m)%nat ->
  List.length b = 8%nat -> (List.length r mod 8 = 0)%nat -> r <> [] ->
  DataImit m (Some k) = Ok t ->
  DataImit (m ++ xor2 t b ++ r) (Some k) = DataImit (b ++ r) (Some k).
Proof.
  intros Hk Um Ubr Hm Lm Hb Hr Hnr Ht. apply Forall_app in Ubr as U. destruct U as [Ub Ur].
  rewrite (DataImit_ok k f m Hk Um) in Ht. rewrite pad89_id in Ht by assumption.
  assert (Et : t = to_le 8 (mac89 (sixteen_rounds f) (blocks8 m))) by congruence. subst t. clear Ht.
  assert (HE : forall x, x < 2 ^ 64 -> sixteen_rounds f x < 2 ^ 64) by (intros x Hx; now apply (ImitedBlock_ok k f x)).
  set (v := mac89 (sixteen_rounds f) (blocks8 m)).
  assert (Hv : v < 2 ^ 64) by (apply mac89_lt; [exact HE|now apply blocks8_bound|reflexivity]).
  assert (Lr : (8 <= List.length r)%nat).
  { destruct r as [|x r]; [now contradict Hnr|]. pose proof (Nat.div_mod (List.length (x :: r)) 8 ltac:(lia)) as D.
    rewrite Hr in D. cbn [List.length] in *. lia. }
  assert (Ux : Forall u8 (xor2 (to_le 8 v) b)) by (apply xor2_u8; [apply to_le_u8|assumption]).
  assert (Lx : List.length (xor2 (to_le 8 v) b) = 8%nat).
  { rewrite xor2_zip, zip_xor_length; rewrite to_le_length; congruence. }
  assert (UU : Forall u8 (m ++ xor2 (to_le 8 v) b ++ r)) by (apply Forall_app; split; [|apply Forall_app; split]; assumption).
  rewrite (DataImit_ok k f _ Hk UU), (DataImit_ok k f _ Hk Ubr).
  rewrite !pad89_id.
  - rewrite blocks8_app by assumption. rewrite !blocks8_cons by assumption. unfold mac89. rewrite fold_left_app.
    fold (mac89 (sixteen_rounds f) (blocks8 m)). fold v. cbn [fold_left].
    rewrite of_le_xor2 by (try (rewrite to_le_length; congruence); try apply to_le_u8; assumption).
    rewrite of_to_le_id by exact Hv. rewrite <- N.lxor_assoc, N.lxor_nilpotent. reflexivity.
  - rewrite app_length, Hb. rewrite <- Nat.add_mod_idemp_r, Hr by lia. reflexivity.
  - rewrite app_length. lia.
  - rewrite !app_length, Lx. rewrite <- Nat.add_mod_idemp_l, Hm by lia.
    rewrite Nat.add_0_l. rewrite <- Nat.add_mod_idemp_r, Hr by lia. reflexivity.
  - rewrite !app_length. lia.
Qed.

(** Related keys: the top bits of the first block of the message and of the MAC. *)
Lemma flipped_rounds k k' f f' : flipped_keys k k' -> round_functions k f -> round_functions k' f' ->
  forall i a, (i < 8)%nat -> a < 2 ^ 32 -> f' i (N.lxor a (2 ^ 31)) = f i a.
Proof.
  intros HF Hk Hk' i a Hi Ha.
  pose proof (flipped_transform k k' HF a (Z.of_nat i) Ha ltac:(lia)) as E. cbn [ptr_transform] in E.
  destruct (Hk i a Hi Ha) as [E1 _]. assert (Ha' : N.lxor a (2 ^ 31) < 2 ^ 32) by now apply lxor_lt.
  destruct (Hk' i _ Hi Ha') as [E2 _]. rewrite E1, E2 in E. now injection E.
Qed.

Lemma fold_flip f f' ps : (forall x, x < 2 ^ 64 -> sixteen_rounds f x < 2 ^ 64) ->
  (forall x, x < 2 ^ 64 -> sixteen_rounds f' (N.lxor x top_block) = N.lxor (sixteen_rounds f x) top_block) ->
  Forall (fun x => x < 2 ^ 64) ps -> forall s, s < 2 ^ 64 ->
  fold_left (fun s p => sixteen_rounds f' (N.lxor s p)) ps (N.lxor s top_block) =
  N.lxor (fold_left (fun s p => sixteen_rounds f (N.lxor s p)) ps s) top_block.
Proof.
  intros HE HF. induction 1 as [|p ps Hp _ IH]; intros s Hs; [reflexivity|]. cbn [fold_left].
  rewrite lxor_swap, HF by (now apply lxor_lt). apply IH. apply HE. now apply lxor_lt.
Qed.

Lemma dataimit_flip k k' f f' b r t : flipped_keys k k' -> round_functions k f -> round_functions k' f' ->
  Forall u8 (b ++ r) -> List.length b = 8%nat -> DataImit (b ++ r) (Some k) = Ok t ->
  DataImit (xor2 b top_bytes ++ r) (Some k') = Ok (xor2 t top_bytes).
Proof.
  intros HF Hk Hk' U Hb Ht. apply Forall_app in U as U'. destruct U' as [Ub Ur].
  assert (HE : forall x, x < 2 ^ 64 -> sixteen_rounds f x < 2 ^ 64) by (intros x Hx; now apply (ImitedBlock_ok k f x)).
  assert (HX : forall x, x < 2 ^ 64 ->
    sixteen_rounds f' (N.lxor x top_block) = N.lxor (sixteen_rounds f x) top_block).
  { intros x Hx. apply sixteen_flip; [now apply (flipped_rounds k k')| |exact Hx]. intros i a Hi Ha. now apply Hk. }
  assert (UT : Forall u8 top_bytes) by (repeat constructor).
  assert (Ux : Forall u8 (xor2 b top_bytes)) by (apply xor2_u8; assumption).
  assert (Lx : List.length (xor2 b top_bytes) = 8%nat) by (rewrite xor2_zip, zip_xor_length; [exact Hb|exact Hb]).
  rewrite (DataImit_ok k f _ Hk U) in Ht.
  assert (Et : t = to_le 8 (mac89 (sixteen_rounds f) (blocks8 (pad89 (b ++ r))))) by congruence. subst t. clear Ht.
  rewrite (DataImit_ok k' f') by (try assumption; apply Forall_app; split; assumption). f_equal.
  assert (P : forall c, List.length c = 8%nat -> pad89 (c ++ r) =
     c ++ r ++ repeat 0 (Nat.max 16 (8 * ((8 + List.length r + 7) / 8)) - (8 + List.length r))).
  { intros c Hc. unfold pad89. rewrite app_length, Hc. now rewrite app_assoc. }
  rewrite (P b Hb), (P _ Lx). rewrite (blocks8_cons b) by assumption. rewrite (blocks8_cons (xor2 b top_bytes)) by assumption.
  unfold mac89. cbn [fold_left].
  rewrite !N.lxor_0_l, of_le_xor2 by (rewrite ?Hb; try reflexivity; assumption).
  change (of_le top_bytes) with top_block. rewrite HX by now apply of_le_8_lt.
  rewrite (fold_flip f f') by (first [assumption | apply HE; now apply of_le_8_lt |
    apply blocks8_bound; apply Forall_app; split; [assumption|apply Forall_forall; intros x Hx;
      apply repeat_spec in Hx; subst x; reflexivity] ]).
  rewrite to_le_lxor, xor2_zip. reflexivity.
Qed.

(** ** Two messages under one key and one iv *)

Lemma cfb_start E r : forall reg reg' ps qs, (r <= List.length reg)%nat -> firstn r reg = firstn r reg' ->
  xor2 (firstn r (cfb_encrypt E reg ps)) (firstn r (cfb_encrypt E reg' qs)) = xor2 (firstn r ps) (firstn r qs).
Proof.
  induction r as [|r IH]; intros reg reg' ps qs Hr He; [reflexivity|].
  destruct reg as [|x t]; [cbn in Hr; lia|]. destruct reg' as [|x' t']; [discriminate|].
  cbn [firstn] in He. injection He as <- He.
  destruct ps as [|p ps]; [reflexivity|]. destruct qs as [|q qs]; [cbn [cfb_encrypt]; now rewrite ?firstn_nil|].
  cbn [cfb_encrypt]. cbv zeta. cbn [firstn hd tl]. unfold xor2 in *. cbn [combine map fst snd]. f_equal.
  - rewrite (N.lxor_comm p), (N.lxor_comm q), N.lxor_assoc, <- (N.lxor_assoc p), (N.lxor_comm p (E x)).
    rewrite N.lxor_assoc, <- N.lxor_assoc, N.lxor_nilpotent, N.lxor_0_l. reflexivity.
  - cbn [List.length] in Hr. assert (Hr' : (r <= List.length t')%nat).
    { apply (f_equal (@List.length N)) in He. rewrite !firstn_length in He. lia. }
    apply IH; [rewrite app_length; lia|].
    rewrite !firstn_app, He. f_equal.
    replace (r - List.length t)%nat with 0%nat by lia. replace (r - List.length t')%nat with 0%nat by lia. reflexivity.
Qed.

Lemma cfb_inj E reg ps qs : cfb_encrypt E reg ps = cfb_encrypt E reg qs -> ps = qs.
Proof. intros H. rewrite <- (cfb_decrypt_encrypt E ps reg), <- (cfb_decrypt_encrypt E qs reg). now rewrite H. Qed.

Lemma cfb_firstn E n : forall reg ps, firstn n (cfb_encrypt E reg ps) = cfb_encrypt E reg (firstn n ps).
Proof.
  induction n as [|n IH]; intros reg ps; [reflexivity|]. destruct ps as [|p ps]; [reflexivity|].
  cbn [firstn cfb_encrypt]. cbv zeta. now rewrite IH.
Qed.

Lemma cfb_same_start E reg ps qs n : reg <> [] ->
  (firstn n (cfb_encrypt E reg ps) = firstn n (cfb_encrypt E reg qs) <-> firstn n ps = firstn n qs) /\
  (firstn n ps = firstn n qs ->
   xor2 (firstn (List.length reg) (skipn n (cfb_encrypt E reg ps))) (firstn (List.length reg) (skipn n (cfb_encrypt E reg qs))) =
   xor2 (firstn (List.length reg) (skipn n ps)) (firstn (List.length reg) (skipn n qs))).
Proof.
  intros Hreg. split.
  - rewrite !cfb_firstn. split; [apply cfb_inj|congruence].
  - intros H. 
    assert (K : forall l, skipn n (cfb_encrypt E reg l) =
      cfb_encrypt E (shifted reg (cfb_encrypt E reg (firstn n l))) (skipn n l)).
    { intros l. rewrite <- (firstn_skipn n l) at 1. rewrite cfb_encrypt_app by exact Hreg.
      destruct (Nat.le_gt_cases n (List.length l)) as [L|L].
      - rewrite skipn_app, skipn_all2; rewrite cfb_encrypt_length, firstn_length, Nat.min_l by lia; [|lia].
        rewrite Nat.sub_diag. reflexivity.
      - rewrite (skipn_all2 l) by lia. cbn [cfb_encrypt]. rewrite app_nil_r. apply skipn_all2.
        rewrite cfb_encrypt_length, firstn_length. lia. }
    rewrite !K, H. apply cfb_start; [|reflexivity]. rewrite shifted_length. lia.
Qed.

Lemma xor2_app a b c d : List.length a = List.length c -> xor2 (a ++ b) (c ++ d) = xor2 a c ++ xor2 b d.
Proof.
  revert c. unfold xor2. induction a as [|x a IH]; intros [|y c] H; try discriminate H; [reflexivity|].
  cbn [app combine map]. f_equal. apply IH. now injection H.
Qed.

Lemma xor2_unblocks a : forall b, xor2 (unblocks8 a) (unblocks8 b) = unblocks8 (xor2 a b).
Proof.
  induction a as [|x a IH]; intros b; [reflexivity|]. destruct b as [|y b].
  - unfold xor2. cbn [unblocks8 flat_map]. rewrite !combine_nil. reflexivity.
  - change (unblocks8 (x :: a)) with (to_le 8 x ++ unblocks8 a). change (unblocks8 (y :: b)) with (to_le 8 y ++ unblocks8 b).
    rewrite xor2_app by now rewrite !to_le_length. rewrite IH.
    change (xor2 (x :: a) (y :: b)) with (N.lxor x y :: xor2 a b).
    change (unblocks8 (N.lxor x y :: xor2 a b)) with (to_le 8 (N.lxor x y) ++ unblocks8 (xor2 a b)).
    rewrite to_le_lxor, xor2_zip. reflexivity.
Qed.

Lemma cfb_same_start_bytes E reg d1 d2 n : (forall x, x < 2 ^ 64 -> E x < 2 ^ 64) -> reg_ok reg -> reg <> [] ->
  whole d1 -> whole d2 ->
  let c1 := unblocks8 (cfb_encrypt E reg (blocks8 d1)) in
  let c2 := unblocks8 (cfb_encrypt E reg (blocks8 d2)) in
  (firstn (8 * n) c1 = firstn (8 * n) c2 <-> firstn (8 * n) d1 = firstn (8 * n) d2) /\
  (firstn (8 * n) d1 = firstn (8 * n) d2 ->
   xor2 (firstn (8 * List.length reg) (skipn (8 * n) c1)) (firstn (8 * List.length reg) (skipn (8 * n) c2)) =
   xor2 (firstn (8 * List.length reg) (skipn (8 * n) d1)) (firstn (8 * List.length reg) (skipn (8 * n) d2))).
Proof.
  intros HE Hok Hreg W1 W2 c1 c2. subst c1 c2.
  destruct (cfb_same_start E reg (blocks8 d1) (blocks8 d2) n Hreg) as [A B].
  assert (F : forall l n, Forall (fun x => x < 2 ^ 64) l -> Forall (fun x => x < 2 ^ 64) (firstn n l)).
  { intros l k H. rewrite <- (firstn_skipn k l) in H. now apply Forall_app in H. }
  assert (X : firstn (8 * n) d1 = firstn (8 * n) d2 <-> firstn n (blocks8 d1) = firstn n (blocks8 d2)).
  { rewrite <- (unblocks8_blocks8 d1 W1), <- (unblocks8_blocks8 d2 W2), !HarnessProofs.firstn_unblocks8.
    rewrite (unblocks8_blocks8 d1 W1), (unblocks8_blocks8 d2 W2).
    split; [|congruence]. apply unblocks8_inj; apply F; now apply blocks8_lt. }
  rewrite X. split.
  - rewrite !HarnessProofs.firstn_unblocks8, <- A. split; [|congruence].
    apply unblocks8_inj; apply F, cfb_encrypt_lt; try assumption; now apply blocks8_lt.
  - intros H. rewrite !HarnessProofs.skipn_unblocks8, !HarnessProofs.firstn_unblocks8, xor2_unblocks.
    rewrite B by exact H. rewrite <- xor2_unblocks, <- !HarnessProofs.firstn_unblocks8, <- !HarnessProofs.skipn_unblocks8.
    now rewrite !unblocks8_blocks8.
Qed.

(** ** The MAC of what a tower of sources decrypts *)

Lemma imit_tower {W St W2 St2} (rd : reader W St) (R : St -> W -> bytes -> Prop)
    (rd2 : reader W2 St2) (R2 : St2 -> W2 -> bytes -> Prop) m mi xs k E (data : bytes) src w src2 w2 fuel :
  enciphers (KLazy k) E -> Forall known_ok xs -> block_source rd R -> delivers8 rd2 R2 ->
  whole data -> data <> [] -> (List.length data / 8 + 1 <= Pos.to_nat fuel)%nat ->
  R src w (unblocks8 (tower_encrypt xs (blocks8 data))) -> R2 src2 w2 data ->
  fst (magma_Imit (tower_read rd m (map kl xs)) mi fuel (source_tower_init src (map kl xs)) (Some k) w) =
  fst (magma_Imit rd2 mi fuel src2 (Some k) w2) /\
  fst (magma_Imit rd2 mi fuel src2 (Some k) w2) =
    match mi with ISO => Undef WideShift | X86 _ => Ok (halves (mac E 64 0x1b (blocks8 data))) end.
Proof.
  intros HE Hx HR HR2 Hw Hd Hf H H2.
  destruct (tower_source rd m R xs Hx HR) as [D8 _].
  assert (HC : whole (unblocks8 (tower_encrypt xs (blocks8 data)))) by apply unblocks8_whole.
  pose proof (tower_left_init R xs src w _ Hx H HC) as HL.
  assert (B : Forall b64 (blocks8 data)) by now apply blocks8_lt.
  assert (T : forall ys, Forall known_ok ys -> forall ps, Forall b64 ps -> Forall b64 (tower_encrypt ys ps)).
  { intros ys Hy. induction Hy as [|y ys Hk Hy IH]; intros ps Hp; [exact Hp|]. cbn [tower_encrypt].
    apply IH. now apply layer_encrypt_lt. }
  rewrite blocks8_unblocks8 in HL by (apply (T xs Hx); exact B). rewrite tower_inverse in HL by assumption.
  rewrite unblocks8_blocks8 in HL by exact Hw. destruct mi as [|g].
  - destruct (imit_iso_delivers _ _ k E _ w data fuel HE D8 HL Hw Hd ltac:(lia)) as [w3 E3].
    destruct (imit_iso_delivers _ _ k E _ w2 data fuel HE HR2 H2 Hw Hd ltac:(lia)) as [w4 E4].
    rewrite E3, E4. split; reflexivity.
  - destruct (imit_delivers _ g _ k E _ w data fuel HE D8 HL (proj2 Hw) Hf) as [w3 E3].
    destruct (imit_delivers _ g _ k E _ w2 data fuel HE HR2 H2 (proj2 Hw) Hf) as [w4 E4].
    rewrite E3, E4. split; [reflexivity|]. cbn [fst]. now rewrite mac_of_whole.
Qed.
