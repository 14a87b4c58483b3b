(** Bytes, blocks and the memory operations of the stream classes. *)
From Verif Require Import Base MagmaModel Streams Lib SpecMagma SpecModes SpecStreams MagmaProofs MagmaSpecProofs.
From Coq Require Import ZifyNat ZifyN ZifyBool.
Local Open Scope N_scope.

(** ** Exclusive or of byte strings *)

Fixpoint zip_xor (a b : list N) : list N :=
  match a, b with
  | x :: a', y :: b' => N.lxor x y :: zip_xor a' b'
  | _, _ => []
  end.

Lemma zip_xor_length a b :
  List.length a = List.length b -> List.length (zip_xor a b) = List.length a.
Proof. revert b. induction a; intros [|y b] H; try discriminate; cbn; auto. Qed.

Lemma to_le_lxor n x y : to_le n (N.lxor x y) = zip_xor (to_le n x) (to_le n y).
Proof.
  revert x y. induction n; intros x y; [reflexivity|].
  cbn [to_le zip_xor]. rewrite lxor_mod, lxor_div, IHn. reflexivity.
Qed.

Lemma zip_xor_to_le p n e :
  Forall u8 p -> List.length p = n -> zip_xor p (to_le n e) = to_le n (N.lxor (of_le p) e).
Proof. intros Hp <-. rewrite to_le_lxor, to_of_le by assumption. reflexivity. Qed.

Lemma byte_of_ok x i : byte_of x i = (x / 2 ^ (8 * N.of_nat i)) mod 2 ^ 8.
Proof. unfold byte_of, w8. rewrite N.shiftr_div_pow2. do 3 f_equal. lia. Qed.

Lemma to_le_4 x : to_le 4 x = [byte_of x 0; byte_of x 1; byte_of x 2; byte_of x 3].
Proof.
  rewrite !byte_of_ok. cbn [to_le]. rewrite !N.div_div by discriminate.
  change (8 * N.of_nat 0) with 0. rewrite N.pow_0_r, N.div_1_r. reflexivity.
Qed.

Lemma to_le_8_halves e :
  to_le 8 e = to_le 4 (e mod 2 ^ 32) ++ to_le 4 (e / 2 ^ 32).
Proof.
  change 8%nat with (4 + 4)%nat. rewrite to_le_app. f_equal.
  symmetry. apply (to_le_mod 4 e).
Qed.

Lemma list8 {A} (p : list A) : List.length p = 8%nat ->
  exists b0 b1 b2 b3 b4 b5 b6 b7, p = [b0; b1; b2; b3; b4; b5; b6; b7].
Proof.
  intros H. do 8 (destruct p as [|? p]; [discriminate|]). destruct p; [|discriminate].
  do 8 eexists. reflexivity.
Qed.

Lemma sink_xor_ok m p e : Forall u8 p -> List.length p = 8%nat ->
  sink_xor m p (e mod 2 ^ 32) (e / 2 ^ 32) = Ok (to_le 8 (N.lxor (of_le p) e)).
Proof.
  intros Hb Hp. rewrite <- zip_xor_to_le by assumption. rewrite to_le_8_halves, !to_le_4.
  destruct (list8 p Hp) as (b0 & b1 & b2 & b3 & b4 & b5 & b6 & b7 & ->). reflexivity.
Qed.

Lemma source_xor_ok m p e : Forall u8 p -> List.length p = 8%nat ->
  source_xor m p (e mod 2 ^ 32) (e / 2 ^ 32) = Ok (to_le 8 (N.lxor (of_le p) e)).
Proof.
  intros Hb Hp. rewrite <- zip_xor_to_le by assumption. rewrite to_le_8_halves, !to_le_4.
  destruct (list8 p Hp) as (b0 & b1 & b2 & b3 & b4 & b5 & b6 & b7 & ->). reflexivity.
Qed.

Lemma read8_ok m v : List.length v = 8%nat -> read8 m v = Ok v.
Proof.
  intros H. unfold read8. rewrite H. cbn [Nat.leb]. now rewrite firstn_all2 by lia.
Qed.

Lemma write8_ok m v d : List.length v = 8%nat -> write8 m v d = Ok d.
Proof.
  intros H. unfold write8. rewrite H. cbn [Nat.leb]. rewrite skipn_all2 by lia.
  now rewrite app_nil_r.
Qed.

Lemma load_reg_ok m p : List.length p = 8%nat -> load_reg m p = Ok (of_le p).
Proof. intros H. unfold load_reg. rewrite read8_ok by assumption. now rewrite H. Qed.

Lemma of_le_8_lt p : Forall u8 p -> List.length p = 8%nat -> of_le p < 2 ^ 64.
Proof. intros Hb Hp. pose proof (of_le_lt p Hb) as H. unfold len in H. now rewrite Hp in H. Qed.

Lemma BlkRaw_bytes_ok p : Forall u8 p -> List.length p = 8%nat ->
  BlkRaw_bytes p = BlkRaw64 (of_le p).
Proof.
  intros Hb Hp. rewrite BlkRaw64_halves by now apply of_le_8_lt.
  unfold BlkRaw_bytes, BlkRaw2, halves.
  assert (E : of_le p = of_le (skipn 4 p) * 2 ^ 32 + of_le (firstn 4 p)).
  { rewrite <- (firstn_skipn 4 p) at 1. rewrite of_le_app.
    replace (len (firstn 4 p)) with 4 by (unfold len; rewrite firstn_length; lia).
    change (8 * 4) with 32. lia. }
  assert (L : of_le (firstn 4 p) < 2 ^ 32).
  { pose proof (of_le_lt (firstn 4 p) (Forall_firstn _ _ _ Hb)) as H.
    unfold len in H. rewrite firstn_length, Hp in H. exact H. }
  rewrite E, split_mod, split_div by assumption.
  do 3 f_equal. apply firstn_all2. rewrite skipn_length. lia.
Qed.

Lemma to_le_halves e : to_le 4 (fst (halves e)) ++ to_le 4 (snd (halves e)) = to_le 8 e.
Proof. symmetry. apply to_le_8_halves. Qed.

(** ** Cutting into blocks *)

Lemma cut_fuel f n l : (0 < n)%nat -> (List.length l <= f)%nat -> cut f n l = pieces n l.
Proof.
  intros Hn. unfold pieces. revert l. induction f as [f IH] using lt_wf_ind. intros l Hl.
  destruct l as [|a l]; [destruct f; reflexivity|].
  destruct f as [|f]; [cbn in Hl; lia|]. cbn [cut List.length]. f_equal.
  cbn [List.length] in Hl. assert (Hs : (List.length (skipn n (a :: l)) <= List.length l)%nat)
    by (rewrite skipn_length; cbn [List.length]; lia).
  rewrite IH by lia. symmetry.
  destruct (Nat.eq_dec (List.length l) f) as [->|Hne]; [apply IH; lia|apply IH; lia].
Qed.

Lemma pieces_nil n : pieces n [] = [].
Proof. reflexivity. Qed.

Lemma pieces_cons n a b : (0 < n)%nat -> List.length a = n -> pieces n (a ++ b) = a :: pieces n b.
Proof.
  intros Hn Ha. unfold pieces at 1. destruct a as [|x a]; [cbn in Ha; lia|].
  cbn [app List.length cut]. change (x :: a ++ b) with ((x :: a) ++ b).
  rewrite firstn_app_exact, skipn_app_exact by assumption. f_equal.
  apply cut_fuel; [assumption|]. rewrite app_length. lia.
Qed.

Lemma blocks8_nil : blocks8 [] = [].
Proof. reflexivity. Qed.

Lemma blocks8_cons a b : List.length a = 8%nat -> blocks8 (a ++ b) = of_le a :: blocks8 b.
Proof. intros H. unfold blocks8. rewrite pieces_cons by (assumption || lia). reflexivity. Qed.

Lemma unblocks8_app a b : unblocks8 (a ++ b) = unblocks8 a ++ unblocks8 b.
Proof. apply flat_map_app. Qed.

Lemma unblocks8_length l : List.length (unblocks8 l) = (8 * List.length l)%nat.
Proof.
  induction l as [|x l IH]; [reflexivity|].
  unfold unblocks8 in *. cbn [flat_map]. rewrite app_length, to_le_length, IH.
  cbn [List.length]. lia.
Qed.

Lemma unblocks8_u8 l : Forall u8 (unblocks8 l).
Proof.
  induction l as [|x l IH]; [constructor|]. apply Forall_app. split; [apply to_le_u8|exact IH].
Qed.

Lemma blocks8_unblocks8 l : Forall (fun x => x < 2 ^ 64) l -> blocks8 (unblocks8 l) = l.
Proof.
  induction l as [|x l IH]; intros H; [reflexivity|]. inversion H; subst.
  change (unblocks8 (x :: l)) with (to_le 8 x ++ unblocks8 l).
  rewrite blocks8_cons by apply to_le_length. rewrite IH by assumption.
  now rewrite (of_to_le_id 8).
Qed.

Lemma unblocks8_blocks8 d : whole d -> unblocks8 (blocks8 d) = d.
Proof.
  intros [Hl Hb]. revert Hb. revert d Hl.
  apply (chunk_ind 8 (fun d => Forall u8 d -> unblocks8 (blocks8 d) = d)).
  - lia.
  - reflexivity.
  - intros b r Hb IH HF. apply Forall_app in HF. destruct HF as [H1 H2].
    rewrite blocks8_cons by assumption. unfold unblocks8. cbn [flat_map].
    fold (unblocks8 (blocks8 r)). rewrite IH by assumption. f_equal.
    rewrite <- Hb. now apply to_of_le.
Qed.

Lemma blocks8_lt d : whole d -> Forall (fun x => x < 2 ^ 64) (blocks8 d).
Proof.
  intros [Hl Hb]. revert Hb. revert d Hl.
  apply (chunk_ind 8 (fun d => Forall u8 d -> Forall (fun x => x < 2 ^ 64) (blocks8 d))).
  - lia.
  - constructor.
  - intros b r Hb IH HF. apply Forall_app in HF. destruct HF as [H1 H2].
    rewrite blocks8_cons by assumption. constructor; [now apply of_le_8_lt|auto].
Qed.

Lemma blocks8_length d : (List.length d mod 8 = 0)%nat -> (8 * List.length (blocks8 d) = List.length d)%nat.
Proof.
  revert d.
  apply (chunk_ind 8 (fun d => 8 * List.length (blocks8 d) = List.length d)%nat).
  - lia.
  - reflexivity.
  - intros b r Hb IH. rewrite blocks8_cons, app_length by assumption. cbn [List.length]. lia.
Qed.

Lemma unblocks8_whole l : whole (unblocks8 l).
Proof.
  split; [|apply unblocks8_u8]. rewrite unblocks8_length, Nat.mul_comm. apply Nat.mod_mul. lia.
Qed.

Lemma whole_app a b : List.length a = 8%nat -> whole (a ++ b) -> Forall u8 a /\ whole b.
Proof.
  intros Ha [Hl Hb]. apply Forall_app in Hb. destruct Hb. split; [assumption|].
  split; [|assumption]. rewrite app_length, Ha in Hl.
  replace (8 + List.length b)%nat with (List.length b + 1 * 8)%nat in Hl by lia.
  rewrite Nat.mod_add in Hl by lia. exact Hl.
Qed.

Lemma whole_nil : whole [].
Proof. split; [reflexivity|constructor]. Qed.

Lemma whole_app_inv a b : List.length a = 8%nat -> Forall u8 a -> whole b -> whole (a ++ b).
Proof.
  intros Ha Hu [Hl Hb]. split.
  - rewrite app_length, Ha. replace (8 + List.length b)%nat with (List.length b + 1 * 8)%nat by lia.
    rewrite Nat.mod_add by lia. exact Hl.
  - apply Forall_app. auto.
Qed.

(** Every whole string is empty or starts with a block. *)
Lemma whole_cases d : whole d -> d = [] \/ exists a b, d = a ++ b /\ List.length a = 8%nat /\ Forall u8 a /\ whole b.
Proof.
  intros H. destruct d as [|x d]; [now left|]. right.
  assert (8 <= List.length (x :: d))%nat.
  { destruct H as [Hl _]. destruct (Nat.lt_ge_cases (List.length (x :: d)) 8) as [L|L]; [|exact L].
    rewrite Nat.mod_small in Hl by exact L. discriminate. }
  exists (firstn 8 (x :: d)), (skipn 8 (x :: d)). rewrite firstn_skipn.
  assert (Ha : List.length (firstn 8 (x :: d)) = 8%nat) by (rewrite firstn_length; lia).
  split; [reflexivity|]. split; [exact Ha|].
  rewrite <- (firstn_skipn 8 (x :: d)) in H. now apply whole_app in H.
Qed.

Lemma complete_leftover d : complete d ++ leftover d = d.
Proof. apply firstn_skipn. Qed.

Lemma complete_length d : (List.length (complete d) mod 8 = 0)%nat.
Proof.
  unfold complete. rewrite firstn_length.
  replace (Nat.min (8 * (List.length d / 8)) (List.length d)) with (List.length d / 8 * 8)%nat.
  - apply Nat.mod_mul. lia.
  - pose proof (Nat.div_mod (List.length d) 8). lia.
Qed.

Lemma leftover_length d : (List.length (leftover d) < 8)%nat.
Proof.
  unfold leftover. rewrite skipn_length.
  pose proof (Nat.div_mod (List.length d) 8). pose proof (Nat.mod_upper_bound (List.length d) 8). lia.
Qed.

Lemma complete_whole d : Forall u8 d -> whole (complete d).
Proof. intros H. split; [apply complete_length|now apply Forall_firstn]. Qed.

Lemma whole_complete d : whole d -> complete d = d /\ leftover d = [].
Proof.
  intros [H _]. pose proof (Nat.div_mod (List.length d) 8). unfold complete, leftover.
  rewrite firstn_all2, skipn_all2 by lia. auto.
Qed.

(** The decomposition is the only one. *)
Lemma complete_app a b : (List.length a mod 8 = 0)%nat -> (List.length b < 8)%nat ->
  complete (a ++ b) = a /\ leftover (a ++ b) = b.
Proof.
  intros Ha Hb. unfold complete, leftover. rewrite app_length.
  pose proof (Nat.div_mod (List.length a) 8).
  assert (E : ((List.length a + List.length b) / 8 = List.length a / 8)%nat).
  { symmetry. apply (Nat.div_unique _ _ _ (List.length b)); lia. }
  rewrite E. split; [apply firstn_app_exact|apply skipn_app_exact]; lia.
Qed.

(** ** The monad *)

Lemma mbind_assoc {W A B C} (x : M W A) (f : A -> M W B) (g : B -> M W C) w :
  mbind (mbind x f) g w = mbind x (fun a => mbind (f a) g) w.
Proof. unfold mbind. destruct (x w) as [[a|e|u|] w']; reflexivity. Qed.

Lemma mbind_ext {W A B} (x y : M W A) (f g : A -> M W B) w :
  x w = y w -> (forall a w', f a w' = g a w') -> mbind x f w = mbind y g w.
Proof. intros E H. unfold mbind. rewrite E. destruct (y w) as [[a|e|u|] w']; auto. Qed.

Lemma mbind_mret_r {W A} (x : M W A) w : mbind x mret w = x w.
Proof. unfold mbind, mret. destruct (x w) as [[a|e|u|] w']; reflexivity. Qed.

Lemma mbind_ok_inv {W A B} (x : M W A) (f : A -> M W B) w b w2 :
  mbind x f w = (Ok b, w2) -> exists a w1, x w = (Ok a, w1) /\ f a w1 = (Ok b, w2).
Proof. unfold mbind. destruct (x w) as [[a|e|u|] w']; try discriminate. eauto. Qed.

(** ** Keys as ciphers *)

Lemma enciphers_transforms lk E : enciphers (KLazy lk) E -> transforms (KLazy lk) E.
Proof.
  intros H x Hx. destruct (H x Hx) as [Ex Lx]. split; [|exact Lx].
  rewrite EncryptionBase_BlkEncrypted. cbn [cast_lazy] in Ex. rewrite Ex. cbn [bind halves].
  f_equal. apply split_join.
Qed.

Lemma enciphers_lazy k E : enciphers k E -> exists lk, k = KLazy lk.
Proof.
  intros H. destruct k as [lk|f]; [eauto|]. destruct (H 0 eq_refl) as [Ex _]. discriminate.
Qed.

Lemma halves_inj x y : halves x = halves y -> x = y.
Proof.
  unfold halves. intros H. injection H as H1 H2.
  rewrite <- (split_join x 32), <- (split_join y 32). congruence.
Qed.

Lemma deciphers_enciphers k E D : enciphers k E -> deciphers k D ->
  forall x, x < 2 ^ 64 -> D (E x) = x /\ E (D x) = x.
Proof.
  intros HE HD x Hx. destruct (HE x Hx) as [E1 L1]. destruct (HD x Hx) as [E2 L2].
  destruct (HE _ L2) as [E3 L3]. destruct (HD _ L1) as [E4 L4].
  rewrite BlkRaw64_halves in * by assumption. split; apply halves_inj.
  - destruct (halves x) as [a b] eqn:Ex. destruct (halves (E x)) as [c d] eqn:Ec.
    apply decrypted_encrypted in E1. congruence.
  - destruct (halves x) as [a b] eqn:Ex. destruct (halves (D x)) as [c d] eqn:Ec.
    apply encrypted_decrypted in E2. congruence.
Qed.
