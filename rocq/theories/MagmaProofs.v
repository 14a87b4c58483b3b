(** Proofs about the Magma block cipher, its tables and keys. *)
From Verif Require Import Base Text MagmaModel Lib SpecText SpecMagma.
From Coq Require Import ZifyNat ZifyN ZifyBool.
Local Open Scope N_scope.

(** ** Rounds over an arbitrary, possibly failing, key transformation *)

Section Rounds.
Variable tr : N -> Z -> res N.

Definition fwd (x : N * N) : res (N * N) :=
  let '(a, b) := x in
  t <- tr a 0 ;; let b := N.lxor b t in
  t <- tr b 1 ;; let a := N.lxor a t in
  t <- tr a 2 ;; let b := N.lxor b t in
  t <- tr b 3 ;; let a := N.lxor a t in
  t <- tr a 4 ;; let b := N.lxor b t in
  t <- tr b 5 ;; let a := N.lxor a t in
  t <- tr a 6 ;; let b := N.lxor b t in
  t <- tr b 7 ;; let a := N.lxor a t in
  Ok (a, b).

Definition bwd (x : N * N) : res (N * N) :=
  let '(a, b) := x in
  t <- tr a 7 ;; let b := N.lxor b t in
  t <- tr b 6 ;; let a := N.lxor a t in
  t <- tr a 5 ;; let b := N.lxor b t in
  t <- tr b 4 ;; let a := N.lxor a t in
  t <- tr a 3 ;; let b := N.lxor b t in
  t <- tr b 2 ;; let a := N.lxor a t in
  t <- tr a 1 ;; let b := N.lxor b t in
  t <- tr b 0 ;; let a := N.lxor a t in
  Ok (a, b).

Lemma bwd_fwd a b c d : fwd (a, b) = Ok (c, d) -> bwd (d, c) = Ok (b, a).
Proof.
  unfold fwd, bwd. intros H. do 8 ok_inv H. cbv zeta in *.
  injection H as <- <-.
  repeat match goal with
  | E : tr ?x ?i = Ok _ |- context [tr ?x ?i] => rewrite E; cbn [bind]; rewrite ?lxor_cancel_r
  end.
  reflexivity.
Qed.

Lemma fwd_bwd a b c d : bwd (a, b) = Ok (c, d) -> fwd (d, c) = Ok (b, a).
Proof.
  unfold fwd, bwd. intros H. do 8 ok_inv H. cbv zeta in *.
  injection H as <- <-.
  repeat match goal with
  | E : tr ?x ?i = Ok _ |- context [tr ?x ?i] => rewrite E; cbn [bind]; rewrite ?lxor_cancel_r
  end.
  reflexivity.
Qed.

End Rounds.

Lemma BlkForwarded_fwd b k : BlkForwarded b k = bind b (fwd (ptr_transform k)).
Proof. destruct b as [[x y]| | |]; reflexivity. Qed.

Lemma BlkBackwarded_bwd b k : BlkBackwarded b k = bind b (bwd (ptr_transform k)).
Proof. destruct b as [[x y]| | |]; reflexivity. Qed.

(** ** Decryption inverts encryption *)

Lemma decrypted_encrypted k a b c d :
  BlkEncrypted (Ok (a, b)) k = Ok (c, d) -> BlkDecrypted (Ok (c, d)) k = Ok (a, b).
Proof.
  unfold BlkEncrypted, BlkDecrypted. rewrite !BlkForwarded_fwd, !BlkBackwarded_bwd.
  intros H. unfold BlkSwapped in H. ok_inv H. destruct v as [x1 y1].
  injection H as <- <-. cbn [bind] in E.
  apply bind_ok_inv in E. destruct E as [[p1 q1] [F E]].
  apply bind_ok_inv in F. destruct F as [[p2 q2] [F F1]].
  apply bind_ok_inv in F. destruct F as [[p3 q3] [F F2]].
  cbn [bind].
  rewrite (fwd_bwd _ _ _ _ _ E). cbn [bind].
  rewrite (bwd_fwd _ _ _ _ _ F1). cbn [bind].
  rewrite (bwd_fwd _ _ _ _ _ F2). cbn [bind].
  rewrite (bwd_fwd _ _ _ _ _ F). reflexivity.
Qed.

Lemma encrypted_decrypted k a b c d :
  BlkDecrypted (Ok (a, b)) k = Ok (c, d) -> BlkEncrypted (Ok (c, d)) k = Ok (a, b).
Proof.
  unfold BlkEncrypted, BlkDecrypted. rewrite !BlkForwarded_fwd, !BlkBackwarded_bwd.
  intros H. unfold BlkSwapped in H. ok_inv H. destruct v as [x1 y1].
  injection H as <- <-. cbn [bind] in E.
  apply bind_ok_inv in E. destruct E as [[p1 q1] [F E]].
  apply bind_ok_inv in F. destruct F as [[p2 q2] [F F1]].
  apply bind_ok_inv in F. destruct F as [[p3 q3] [F F2]].
  cbn [bind].
  rewrite (fwd_bwd _ _ _ _ _ E). cbn [bind].
  rewrite (fwd_bwd _ _ _ _ _ F1). cbn [bind].
  rewrite (fwd_bwd _ _ _ _ _ F2). cbn [bind].
  rewrite (bwd_fwd _ _ _ _ _ F). reflexivity.
Qed.

(** ** EncryptionBase and BlkEncrypted run the same rounds *)

Lemma bind_ext {A B} (x : res A) (f g : A -> res B) : (forall a, f a = g a) -> bind x f = bind x g.
Proof. intros H. destruct x; simpl; auto. Qed.

(** A pass followed by a continuation, written out. *)
Lemma fwd_bind {B} T (F : N * N -> res B) G a b :
  (forall a b, F (a, b) = G a b) ->
  bind (fwd T (a, b)) F =
  bind (T a 0%Z) (fun t0 => bind (T (N.lxor b t0) 1%Z) (fun t1 =>
  bind (T (N.lxor a t1) 2%Z) (fun t2 => bind (T (N.lxor (N.lxor b t0) t2) 3%Z) (fun t3 =>
  bind (T (N.lxor (N.lxor a t1) t3) 4%Z) (fun t4 =>
  bind (T (N.lxor (N.lxor (N.lxor b t0) t2) t4) 5%Z) (fun t5 =>
  bind (T (N.lxor (N.lxor (N.lxor a t1) t3) t5) 6%Z) (fun t6 =>
  bind (T (N.lxor (N.lxor (N.lxor (N.lxor b t0) t2) t4) t6) 7%Z) (fun t7 =>
  G (N.lxor (N.lxor (N.lxor (N.lxor a t1) t3) t5) t7)
    (N.lxor (N.lxor (N.lxor (N.lxor b t0) t2) t4) t6))))))))).
Proof.
  intros H. unfold fwd. cbv zeta. repeat (rewrite bind_assoc; apply bind_ext; intro).
  cbn [bind]. apply H.
Qed.

Lemma bwd_bind {B} T (F : N * N -> res B) G a b :
  (forall a b, F (a, b) = G a b) ->
  bind (bwd T (a, b)) F =
  bind (T a 7%Z) (fun t0 => bind (T (N.lxor b t0) 6%Z) (fun t1 =>
  bind (T (N.lxor a t1) 5%Z) (fun t2 => bind (T (N.lxor (N.lxor b t0) t2) 4%Z) (fun t3 =>
  bind (T (N.lxor (N.lxor a t1) t3) 3%Z) (fun t4 =>
  bind (T (N.lxor (N.lxor (N.lxor b t0) t2) t4) 2%Z) (fun t5 =>
  bind (T (N.lxor (N.lxor (N.lxor a t1) t3) t5) 1%Z) (fun t6 =>
  bind (T (N.lxor (N.lxor (N.lxor (N.lxor b t0) t2) t4) t6) 0%Z) (fun t7 =>
  G (N.lxor (N.lxor (N.lxor (N.lxor a t1) t3) t5) t7)
    (N.lxor (N.lxor (N.lxor (N.lxor b t0) t2) t4) t6))))))))).
Proof.
  intros H. unfold bwd. cbv zeta. repeat (rewrite bind_assoc; apply bind_ext; intro).
  cbn [bind]. apply H.
Qed.

Lemma EncryptionBase_rounds k x :
  EncryptionBase_transform k x =
  '(a, b) <- (p <- (p <- (p <- fwd (key_transform k)
                             (N.land x 0xffffffff, N.land (N.shiftr x 32) 0xffffffff) ;;
                   fwd (key_transform k) p) ;;
              fwd (key_transform k) p) ;;
   bwd (key_transform k) p) ;;
  Ok (N.lor (w64 (N.shiftl a 32)) b).
Proof.
  unfold EncryptionBase_transform. cbv zeta.
  generalize (N.land x 0xffffffff) (N.land (N.shiftr x 32) 0xffffffff). intros a b.
  generalize (key_transform k). clear k x. intros T.
  symmetry. rewrite !bind_assoc.
  etransitivity; [eapply fwd_bind; intros a1 b1; rewrite ?bind_assoc;
    eapply fwd_bind; intros a2 b2; rewrite ?bind_assoc;
    eapply fwd_bind; intros a3 b3; rewrite ?bind_assoc;
    eapply bwd_bind; intros a4 b4; reflexivity|].
  reflexivity.
Qed.

Lemma land_ones32 x : N.land x 0xffffffff = w32 x.
Proof. change 0xffffffff with (N.ones 32). apply N.land_ones. Qed.

(** The halves returned by a Feistel pass over 32-bit halves are 32-bit. *)
Lemma lazy_transform_lt k v i t : lazy_transform k v i = Ok t -> t < 2 ^ 32.
Proof. unfold lazy_transform. intros H. do 2 ok_inv H. injection H as <-. apply w32_lt. Qed.

Lemma key_transform_lt k v i t : key_transform k v i = Ok t -> t < 2 ^ 32.
Proof.
  destruct k; simpl; [apply lazy_transform_lt|].
  intros H. ok_inv H. injection H as <-. apply w32_lt.
Qed.

Lemma ptr_transform_lt k v i t : ptr_transform k v i = Ok t -> t < 2 ^ 32.
Proof. destruct k; simpl; [apply lazy_transform_lt|discriminate]. Qed.

Definition pair_lt (n : N) (p : N * N) : Prop := fst p < 2 ^ n /\ snd p < 2 ^ n.

Section RoundBounds.
Variable tr : N -> Z -> res N.
Hypothesis tr_lt : forall v i t, tr v i = Ok t -> t < 2 ^ 32.

Lemma fwd_lt x y : pair_lt 32 x -> fwd tr x = Ok y -> pair_lt 32 y.
Proof.
  destruct x as [a b]. intros [Ha Hb] H. simpl in Ha, Hb. unfold fwd in H.
  do 8 ok_inv H. cbv zeta in *. injection H as <-.
  repeat match goal with E : tr _ _ = Ok _ |- _ => apply tr_lt in E end.
  split; cbn [fst snd]; repeat (apply lxor_lt; try assumption).
Qed.

Lemma bwd_lt x y : pair_lt 32 x -> bwd tr x = Ok y -> pair_lt 32 y.
Proof.
  destruct x as [a b]. intros [Ha Hb] H. simpl in Ha, Hb. unfold bwd in H.
  do 8 ok_inv H. cbv zeta in *. injection H as <-.
  repeat match goal with E : tr _ _ = Ok _ |- _ => apply tr_lt in E end.
  split; cbn [fst snd]; repeat (apply lxor_lt; try assumption).
Qed.
End RoundBounds.

Lemma BlkForwarded_lt k x y : pair_lt 32 x -> BlkForwarded (Ok x) k = Ok y -> pair_lt 32 y.
Proof. rewrite BlkForwarded_fwd. apply fwd_lt, ptr_transform_lt. Qed.

Lemma BlkBackwarded_lt k x y : pair_lt 32 x -> BlkBackwarded (Ok x) k = Ok y -> pair_lt 32 y.
Proof. rewrite BlkBackwarded_bwd. apply bwd_lt, ptr_transform_lt. Qed.

Lemma BlkEncrypted_lt k x y : pair_lt 32 x -> BlkEncrypted (Ok x) k = Ok y -> pair_lt 32 y.
Proof.
  unfold BlkEncrypted. intros Hx H. unfold BlkSwapped in H. ok_inv H. destruct v as [c d].
  injection H as <-.
  destruct (BlkForwarded (Ok x) k) as [x1| | |] eqn:E1; [|discriminate..].
  destruct (BlkForwarded (Ok x1) k) as [x2| | |] eqn:E2; [|discriminate..].
  destruct (BlkForwarded (Ok x2) k) as [x3| | |] eqn:E3; [|discriminate..].
  apply BlkForwarded_lt in E1; auto. apply BlkForwarded_lt in E2; auto.
  apply BlkForwarded_lt in E3; auto. apply BlkBackwarded_lt in E; auto.
  destruct E; split; assumption.
Qed.

Lemma BlkDecrypted_lt k x y : pair_lt 32 x -> BlkDecrypted (Ok x) k = Ok y -> pair_lt 32 y.
Proof.
  unfold BlkDecrypted. intros Hx H. unfold BlkSwapped in H. ok_inv H. destruct v as [c d].
  injection H as <-.
  destruct (BlkForwarded (Ok x) k) as [x1| | |] eqn:E1; [|discriminate..].
  destruct (BlkBackwarded (Ok x1) k) as [x2| | |] eqn:E2; [|discriminate..].
  destruct (BlkBackwarded (Ok x2) k) as [x3| | |] eqn:E3; [|discriminate..].
  apply BlkForwarded_lt in E1; auto. apply BlkBackwarded_lt in E2; auto.
  apply BlkBackwarded_lt in E3; auto. apply BlkBackwarded_lt in E; auto.
  destruct E; split; assumption.
Qed.

Lemma BlkRaw64_lt x y : BlkRaw64 x = Ok y -> pair_lt 32 y.
Proof. intros H. injection H as <-. split; apply w32_lt. Qed.

Lemma w32_shiftr x : x < 2 ^ 64 -> w32 (N.shiftr x 32) = x / 2 ^ 32.
Proof.
  intros H. rewrite w32_id by (apply shiftr_lt; exact H). apply N.shiftr_div_pow2.
Qed.

Lemma EncryptionBase_BlkEncrypted k x :
  EncryptionBase_transform (KLazy k) x =
  '(lo, hi) <- BlkEncrypted (BlkRaw64 x) (Some k) ;; Ok (hi * 2 ^ 32 + lo).
Proof.
  rewrite EncryptionBase_rounds. unfold BlkEncrypted, BlkSwapped.
  rewrite BlkBackwarded_bwd, !BlkForwarded_fwd, !land_ones32.
  change (key_transform (KLazy k)) with (ptr_transform (Some k)).
  unfold BlkRaw64, BlkRaw2. cbn [bind].
  set (T := ptr_transform (Some k)).
  assert (HT : forall v i t, T v i = Ok t -> t < 2 ^ 32) by apply ptr_transform_lt.
  destruct (fwd T (w32 x, w32 (N.shiftr x 32))) as [x1| | |] eqn:E1; try reflexivity.
  cbn [bind]. destruct (fwd T x1) as [x2| | |] eqn:E2; try reflexivity.
  cbn [bind]. destruct (fwd T x2) as [x3| | |] eqn:E3; try reflexivity.
  cbn [bind]. destruct (bwd T x3) as [[c d]| | |] eqn:E4; try reflexivity.
  cbn [bind].
  apply (fwd_lt T HT) in E1; [|split; apply w32_lt].
  apply (fwd_lt T HT) in E2; auto. apply (fwd_lt T HT) in E3; auto.
  apply (bwd_lt T HT) in E4; auto. destruct E4 as [Hc Hd]. simpl in Hc, Hd.
  f_equal. rewrite w64_id.
  - now apply lor_shiftl_add.
  - rewrite N.shiftl_mul_pow2. rewrite <- (N.add_0_r (c * 2 ^ 32)).
    apply (split_lt c 0 32 32); [assumption|reflexivity].
Qed.
