(** Proofs about the events of LeakModel.v. *)
From Verif Require Import Base Text MagmaModel KuzModel LeakModel SpecLeak Lib SpecText SpecMagma
  SpecKuz TextProofs SboxProofs MagmaProofs MagmaSpecProofs KuzProofs.
From Coq Require Import ZifyNat ZifyN ZifyBool.
Local Open Scope N_scope.

(** ** The monad *)

Lemma fst_tbind {A B} (x : T A) (f : A -> T B) :
  fst (tbind x f) = bind (fst x) (fun a => fst (f a)).
Proof. unfold tbind. destruct (fst x); reflexivity. Qed.

Lemma snd_tbind {A B} (x : T A) (f : A -> T B) a :
  fst x = Ok a -> snd (tbind x f) = snd x ++ snd (f a).
Proof. intros H. unfold tbind. rewrite H. reflexivity. Qed.

Lemma tbind_assoc {A B C} (x : T A) (f : A -> T B) (g : B -> T C) :
  tbind (tbind x f) g = tbind x (fun a => tbind (f a) g).
Proof.
  unfold tbind. destruct x as [rx lx]. cbn [fst snd]. destruct rx; try reflexivity.
  cbn [fst snd]. destruct (f a) as [ry ly]. cbn [fst snd]. destruct ry; try reflexivity.
  cbn [fst snd]. now rewrite app_assoc.
Qed.

Lemma fst_cond {A} c (x y : T A) : fst (cond c x y) = if c then fst x else fst y.
Proof. now destruct c. Qed.

(** A block class that evaluates its argument first. *)
Definition strict {A B} (F : T A -> T B) : Prop :=
  exists f, forall x, F x = tbind x f.

Lemma strict_comp {A B C} (F : T A -> T B) (G : T B -> T C) :
  strict F -> strict G -> strict (fun x => G (F x)).
Proof.
  intros [f Hf] [g Hg]. exists (fun a => tbind (f a) g). intros x.
  rewrite Hg, Hf. apply tbind_assoc.
Qed.

Lemma strict_id {A} : strict (fun x : T A => x).
Proof.
  exists tret. intros [r l]. unfold tbind, tret, tlift. cbn [fst snd].
  destruct r; cbn [fst snd]; now rewrite ?app_nil_r.
Qed.

Lemma strict_at {A B} (F : T A -> T B) x v : strict F -> fst x = Ok v ->
  fst (F x) = fst (F (tret v)) /\ snd (F x) = snd x ++ snd (F (tret v)).
Proof.
  intros [f Hf] Hx. rewrite !Hf. split.
  - rewrite !fst_tbind, Hx. reflexivity.
  - rewrite (snd_tbind _ _ _ Hx). rewrite (snd_tbind (tret v) f v eq_refl). reflexivity.
Qed.

Lemma strict_starts {A B} (F : T A -> T B) x : strict F -> exists r, snd (F x) = snd x ++ r.
Proof.
  intros [f Hf]. rewrite Hf. unfold tbind.
  destruct (fst x); cbn [snd]; try (exists []; now rewrite app_nil_r). now eexists.
Qed.

(** ** The instrumented functions compute what the model computes *)

Ltac same := repeat (rewrite ?fst_tbind, ?fst_cond; cbn [fst snd look tlift tret bind];
                     try reflexivity;
                     first [apply bind_ext; intros | apply f_equal]; cbv beta zeta).

Lemma SboxNibble_same p0 p1 p2 p3 p4 p5 p6 p7 v :
  fst (SboxNibble_t p0 p1 p2 p3 p4 p5 p6 p7 v) = SboxNibble p0 p1 p2 p3 p4 p5 p6 p7 v.
Proof.
  assert (E : forall p n, fst (nibble_transformN_t v p n) = nibble_transformN v p n).
  { intros. unfold nibble_transformN_t, nibble_transformN. rewrite fst_tbind. reflexivity. }
  unfold SboxNibble_t, SboxNibble.
  do 8 (rewrite fst_tbind, E; apply bind_ext; intros; cbv beta). reflexivity.
Qed.

Lemma SboxTwisted_same sbt sb v : fst (sbt v) = sb v ->
  fst (SboxTwisted_t sbt v) = SboxTwisted sb v.
Proof. intros E. unfold SboxTwisted_t, SboxTwisted. rewrite fst_tbind, E. reflexivity. Qed.

Lemma SboxR3412_same v : fst (SboxR3412_t v) = SboxR3412 v.
Proof. apply SboxTwisted_same, SboxNibble_same. Qed.

Lemma SboxByte_same uz v : fst (SboxByte_t uz v) = SboxByte uz v.
Proof.
  assert (E : forall o i, fst (SboxByte64Tab_t uz o i) = SboxByte64Tab uz o i).
  { intros. unfold SboxByte64Tab_t, SboxByte64Tab. cbv zeta.
    do 2 (rewrite fst_tbind; cbn [look fst]; apply bind_ext; intros; cbv beta). reflexivity. }
  unfold SboxByte_t, SboxByte, SboxByte_tabs.
  do 4 (rewrite fst_tbind, E; apply bind_ext; intros; cbv beta). reflexivity.
Qed.

Section Same.
Context (kd : keydata) (sbt : tsbox) (sb : sbox).
Hypothesis Hsb : forall v, fst (sbt v) = sb v.

Lemma lazy_same v i : fst (lazy_transform_t kd sbt v i) = lazy_transform (LazyKey kd sb) v i.
Proof.
  unfold lazy_transform_t, lazy_transform. cbn [key_data key_sbox].
  rewrite fst_tbind. cbn [tlift fst]. apply bind_ext. intros kw. cbv beta.
  rewrite fst_tbind, Hsb. reflexivity.
Qed.

Lemma Forwarded_same x : fst (BlkForwarded_t kd sbt x) = BlkForwarded (fst x) (Some (LazyKey kd sb)).
Proof.
  unfold BlkForwarded_t, BlkForwarded, ptr_transform. rewrite fst_tbind. apply bind_ext.
  intros [a b]. cbv beta iota zeta.
  do 8 (rewrite fst_tbind, lazy_same; apply bind_ext; intros; cbv beta). reflexivity.
Qed.

Lemma Backwarded_same x : fst (BlkBackwarded_t kd sbt x) = BlkBackwarded (fst x) (Some (LazyKey kd sb)).
Proof.
  unfold BlkBackwarded_t, BlkBackwarded, ptr_transform. rewrite fst_tbind. apply bind_ext.
  intros [a b]. cbv beta iota zeta.
  do 8 (rewrite fst_tbind, lazy_same; apply bind_ext; intros; cbv beta). reflexivity.
Qed.

Lemma Swapped_same x : fst (BlkSwapped_t x) = BlkSwapped (fst x).
Proof.
  unfold BlkSwapped_t, BlkSwapped. rewrite fst_tbind. apply bind_ext. intros [a b]. reflexivity.
Qed.

Lemma Encrypted_same x : fst (BlkEncrypted_t kd sbt x) = BlkEncrypted (fst x) (Some (LazyKey kd sb)).
Proof.
  unfold BlkEncrypted_t, BlkEncrypted.
  now rewrite Swapped_same, Backwarded_same, !Forwarded_same.
Qed.

Lemma Decrypted_same x : fst (BlkDecrypted_t kd sbt x) = BlkDecrypted (fst x) (Some (LazyKey kd sb)).
Proof.
  unfold BlkDecrypted_t, BlkDecrypted.
  now rewrite Swapped_same, !Backwarded_same, !Forwarded_same.
Qed.

Lemma ImitFinalKey_same m :
  fst (BlkImitFinalKey_t kd sbt m) = BlkImitFinalKey m (Some (LazyKey kd sb)) 8.
Proof.
  unfold BlkImitFinalKey_t, BlkImitFinalKey. cbn [Nat.eqb]. unfold BlkImitShifted_t, BlkImitShifted.
  cbv zeta.
  assert (E : BlkEncrypted BlkRaw0 (Some (LazyKey kd sb)) = fst (BlkEncrypted_t kd sbt (tlift BlkRaw0)))
    by (symmetry; apply Encrypted_same).
  rewrite E. set (b := BlkEncrypted_t kd sbt (tlift BlkRaw0)). rewrite fst_tbind.
  destruct (fst b) as [[x y]| | |] eqn:Eb; try reflexivity. cbn [bind].
  rewrite fst_cond, !fst_tbind, Eb. cbn [bind tlift fst]. reflexivity.
Qed.
End Same.

Lemma gmul_loop_same n : forall a b p, fst (gmul_loop_t n a b p) = Ok (gmul_loop n a b p).
Proof.
  induction n as [|n IH]; intros a b p; [reflexivity|]. cbn [gmul_loop_t gmul_loop]. cbv zeta.
  rewrite fst_tbind, fst_cond.
  destruct (N.land b 1 =? 1); cbn [tret tlift fst bind]; rewrite fst_tbind, fst_cond;
    destruct (N.land a 0x80 =? 0x80); cbn [tret tlift fst bind]; apply IH.
Qed.

Lemma gmul_sum_same ds : forall cs s, fst (gmul_sum_t ds cs s) = Ok (gmul_sum ds cs s).
Proof.
  induction ds as [|d ds IH]; intros [|c cs] s; try reflexivity.
  cbn [gmul_sum_t gmul_sum]. rewrite fst_tbind. unfold gmul_t. rewrite gmul_loop_same.
  cbn [bind]. apply IH.
Qed.

Lemma KR_same x : fst (KR_t x) = KR (fst x).
Proof.
  unfold KR_t, KR. rewrite fst_tbind. apply bind_ext. intros [a b]. cbv beta iota zeta.
  rewrite fst_tbind, gmul_sum_same. reflexivity.
Qed.

Lemma KL_transform_same n : forall x, fst (KL_transform_t x n) = KL_transform (fst x) n.
Proof.
  induction n as [|n IH]; intros x; [reflexivity|]. cbn [KL_transform_t KL_transform].
  now rewrite IH, KR_same.
Qed.

Lemma KS_loop_same ds : fst (KS_loop_t ds) = mapM (at_ BlkS_sbox) ds.
Proof.
  induction ds as [|d ds IH]; [reflexivity|]. cbn [KS_loop_t mapM].
  rewrite fst_tbind. cbn [look fst]. apply bind_ext. intros s. cbv beta.
  rewrite fst_tbind, IH. reflexivity.
Qed.

Lemma KS_same x : fst (KS_t x) = KS (fst x).
Proof.
  unfold KS_t, KS. rewrite fst_tbind. apply bind_ext. intros [a b]. cbv beta iota.
  rewrite fst_tbind, KS_loop_same. reflexivity.
Qed.

Lemma KXored_same x y : fst (KXored_t x y) = KXored (fst x) (fst y).
Proof.
  unfold KXored_t, KXored. rewrite fst_tbind. apply bind_ext. intros [a b]. cbv beta iota.
  rewrite fst_tbind. apply bind_ext. intros [c d]. reflexivity.
Qed.

Lemma encryptStep_same x k : fst (encryptStep_t x k) = encryptStep (fst x) k.
Proof.
  unfold encryptStep_t, encryptStep, KL_t, KL.
  now rewrite KL_transform_same, KS_same, KXored_same.
Qed.

Lemma Key_encrypt_same k x : fst (Key_encrypt_t k x) = Key_encrypt k (fst x).
Proof.
  unfold Key_encrypt_t, Key_encrypt. cbv zeta. now rewrite KXored_same, !encryptStep_same.
Qed.

(** ** Comparing two traces from their beginning *)

Definition agree {A} (l l' : list A) : Prop := exists r r', l ++ r = l' ++ r'.

Lemma agree_app {A} (a a' m m' : list A) : List.length a = List.length a' ->
  agree (a ++ m) (a' ++ m') -> a = a' /\ agree m m'.
Proof.
  intros HL [r [r' H]]. rewrite <- !app_assoc in H.
  assert (E : firstn (List.length a) (a ++ m ++ r) = firstn (List.length a) (a' ++ m' ++ r'))
    by now rewrite H.
  rewrite firstn_app_exact in E by reflexivity. rewrite firstn_app_exact in E by auto.
  subst a'. apply app_inv_head in H. split; [reflexivity|]. now exists r, r'.
Qed.

Lemma agree_prefix {A} (p q p' q' : list A) : agree (p ++ q) (p' ++ q') -> agree p p'.
Proof. intros [r [r' H]]. exists (q ++ r), (q' ++ r'). now rewrite !app_assoc. Qed.

Lemma agree_refl {A} (l l' : list A) : l = l' -> agree l l'.
Proof. intros ->. now exists [], []. Qed.

Lemma lookups_app a b : lookups (a ++ b) = lookups a ++ lookups b.
Proof. apply filter_app. Qed.
Lemma branches_app a b : branches (a ++ b) = branches a ++ branches b.
Proof. apply filter_app. Qed.

(** ** Magma: the table accesses of one block determine the key *)

Lemma w32_add_inj w w' a : w < 2 ^ 32 -> w' < 2 ^ 32 ->
  w32 (w32 w + a) = w32 (w32 w' + a) -> w = w'.
Proof.
  intros H H'. rewrite (w32_id w), (w32_id w') by assumption. unfold w32.
  change (2 ^ 32) with 4294967296 in *. lia.
Qed.

Section Reveal.
Context (sb : tsbox) (n : nat).
Hypothesis Hans : answers sb.
Hypothesis Hlen : forall v, v < 2 ^ 32 -> List.length (lookups (snd (sb v))) = n.
Hypothesis Hinj : forall v v', v < 2 ^ 32 -> v' < 2 ^ 32 ->
  lookups (snd (sb v)) = lookups (snd (sb v')) -> v = v'.

Lemma reveal_step {A} kd kd' a i w w' (f f' : N -> T A) :
  kd i = Ok w -> kd' i = Ok w' -> w < 2 ^ 32 -> w' < 2 ^ 32 ->
  agree (lookups (snd (tbind (lazy_transform_t kd sb a i) f)))
        (lookups (snd (tbind (lazy_transform_t kd' sb a i) f'))) ->
  w = w' /\ exists t, agree (lookups (snd (f t))) (lookups (snd (f' t))).
Proof.
  intros Hw Hw' Bw Bw' H.
  assert (E : forall kd w, kd i = Ok w ->
    snd (lazy_transform_t kd sb a i) = snd (sb (w32 (w32 w + a))) /\
    forall r, fst (sb (w32 (w32 w + a))) = Ok r -> fst (lazy_transform_t kd sb a i) = Ok (w32 r)).
  { intros kd0 w0 E0. unfold lazy_transform_t.
    destruct (Hans (w32 (w32 w0 + a)) (w32_lt _)) as [r Hr].
    split.
    - rewrite (snd_tbind _ _ w0) by exact E0. cbn [tlift snd app].
      rewrite (snd_tbind _ _ r) by exact Hr. cbn [tret tlift snd]. apply app_nil_r.
    - intros r' Hr'. rewrite fst_tbind. cbn [tlift fst]. rewrite E0. cbn [bind].
      rewrite fst_tbind, Hr'. reflexivity. }
  destruct (E kd w Hw) as [S1 F1]. destruct (E kd' w' Hw') as [S2 F2].
  destruct (Hans (w32 (w32 w + a)) (w32_lt _)) as [r Hr].
  destruct (Hans (w32 (w32 w' + a)) (w32_lt _)) as [r' Hr'].
  rewrite (snd_tbind _ _ _ (F1 r Hr)), (snd_tbind _ _ _ (F2 r' Hr')) in H.
  rewrite S1, S2, !lookups_app in H.
  apply agree_app in H; [|now rewrite !Hlen by apply w32_lt].
  destruct H as [HE HA]. apply Hinj in HE; [|apply w32_lt..].
  assert (Er : r = r') by (rewrite HE in Hr; rewrite Hr in Hr'; now injection Hr').
  split; [eapply w32_add_inj; eassumption|]. exists (w32 r). now subst r'.
Qed.

Definition words_of (kd : keydata) (ws : list N) : Prop :=
  List.length ws = 8%nat /\ Forall u32 ws /\
  forall i, (i < 8)%nat -> kd (Z.of_nat i) = Ok (nth i ws 0).

Lemma reveal_forwarded kd kd' ws ws' a b :
  words_of kd ws -> words_of kd' ws' ->
  agree (lookups (snd (BlkForwarded_t kd sb (tret (a, b)))))
        (lookups (snd (BlkForwarded_t kd' sb (tret (a, b))))) ->
  ws = ws'.
Proof.
  intros (L & B & W) (L' & B' & W') H.
  do 8 (destruct ws as [|? ws]; [discriminate L|]). destruct ws; [|discriminate L].
  do 8 (destruct ws' as [|? ws']; [discriminate L'|]). destruct ws'; [|discriminate L'].
  repeat (match goal with H : Forall _ (_ :: _) |- _ => inversion_clear H end). unfold u32 in *.
  pose proof (W 0%nat ltac:(lia)) as A0. pose proof (W' 0%nat ltac:(lia)) as D0.
  pose proof (W 1%nat ltac:(lia)) as A1. pose proof (W' 1%nat ltac:(lia)) as D1.
  pose proof (W 2%nat ltac:(lia)) as A2. pose proof (W' 2%nat ltac:(lia)) as D2.
  pose proof (W 3%nat ltac:(lia)) as A3. pose proof (W' 3%nat ltac:(lia)) as D3.
  pose proof (W 4%nat ltac:(lia)) as A4. pose proof (W' 4%nat ltac:(lia)) as D4.
  pose proof (W 5%nat ltac:(lia)) as A5. pose proof (W' 5%nat ltac:(lia)) as D5.
  pose proof (W 6%nat ltac:(lia)) as A6. pose proof (W' 6%nat ltac:(lia)) as D6.
  pose proof (W 7%nat ltac:(lia)) as A7. pose proof (W' 7%nat ltac:(lia)) as D7.
  clear W W'. cbn [nth Z.of_nat Pos.of_succ_nat Pos.succ] in *.
  unfold BlkForwarded_t in H.
  rewrite !(snd_tbind (tret (a, b)) _ (a, b)) in H by reflexivity.
  cbn [tret tlift snd app] in H.
  Ltac peel := match goal with H : agree _ _, Ha : ?kd ?i = Ok _, Hd : ?kd' ?i = Ok _ |- _ =>
    apply (reveal_step _ _ _ _ _ _ _ _ Ha Hd) in H; [|assumption..];
    let t := fresh "t" in destruct H as [<- [t H]]; clear Hd; cbv beta zeta in H end.
  do 8 peel. reflexivity.
Qed.
End Reveal.

Section Shapes.
Context (kd : keydata) (sb : tsbox).
Lemma strict_forwarded : strict (BlkForwarded_t kd sb).
Proof. eexists. intros x. reflexivity. Qed.
Lemma strict_backwarded : strict (BlkBackwarded_t kd sb).
Proof. eexists. intros x. reflexivity. Qed.
Lemma strict_swapped : strict BlkSwapped_t.
Proof. eexists. intros x. reflexivity. Qed.

Lemma encrypted_starts x : exists r,
  snd (BlkEncrypted_t kd sb x) = snd (BlkForwarded_t kd sb x) ++ r.
Proof.
  unfold BlkEncrypted_t.
  apply (strict_starts (fun y => BlkSwapped_t (BlkBackwarded_t kd sb
           (BlkForwarded_t kd sb (BlkForwarded_t kd sb y))))).
  apply (strict_comp _ BlkSwapped_t); [|apply strict_swapped].
  apply (strict_comp _ (BlkBackwarded_t kd sb)); [|apply strict_backwarded].
  apply (strict_comp _ (BlkForwarded_t kd sb)); apply strict_forwarded.
Qed.

Lemma decrypted_starts x : exists r,
  snd (BlkDecrypted_t kd sb x) = snd (BlkForwarded_t kd sb x) ++ r.
Proof.
  unfold BlkDecrypted_t.
  apply (strict_starts (fun y => BlkSwapped_t (BlkBackwarded_t kd sb
           (BlkBackwarded_t kd sb (BlkBackwarded_t kd sb y))))).
  apply (strict_comp _ BlkSwapped_t); [|apply strict_swapped].
  apply (strict_comp _ (BlkBackwarded_t kd sb)); [|apply strict_backwarded].
  apply (strict_comp _ (BlkBackwarded_t kd sb)); apply strict_backwarded.
Qed.
End Shapes.

Lemma nibbles_determine v v' : v < 2 ^ 32 -> v' < 2 ^ 32 ->
  (forall k, k < 8 -> v / 2 ^ (k * 4) mod 16 = v' / 2 ^ (k * 4) mod 16) -> v = v'.
Proof.
  intros H H' E.
  assert (S : forall x y, x mod 16 = y mod 16 -> x / 16 = y / 16 -> x = y) by (clear; intros; lia).
  assert (D : forall x k, x / 2 ^ (k * 4) / 16 = x / 2 ^ ((k + 1) * 4)).
  { intros x k. rewrite N.div_div by (try apply N.pow_nonzero; discriminate).
    f_equal. rewrite N.mul_add_distr_r, N.pow_add_r. reflexivity. }
  pose proof (E 0 eq_refl) as E0.
  pose proof (E 1 eq_refl) as E1.
  pose proof (E 2 eq_refl) as E2.
  pose proof (E 3 eq_refl) as E3.
  pose proof (E 4 eq_refl) as E4.
  pose proof (E 5 eq_refl) as E5.
  pose proof (E 6 eq_refl) as E6.
  pose proof (E 7 eq_refl) as E7.
  clear E.
  assert (Z8 : v / 2 ^ (8 * 4) = v' / 2 ^ (8 * 4)).
  { change (8 * 4) with 32. now rewrite !N.div_small. }
  assert (Z7 : v / 2 ^ (7 * 4) = v' / 2 ^ (7 * 4)) by (apply S; [|rewrite !D]; assumption).
  assert (Z6 : v / 2 ^ (6 * 4) = v' / 2 ^ (6 * 4)) by (apply S; [|rewrite !D]; assumption).
  assert (Z5 : v / 2 ^ (5 * 4) = v' / 2 ^ (5 * 4)) by (apply S; [|rewrite !D]; assumption).
  assert (Z4 : v / 2 ^ (4 * 4) = v' / 2 ^ (4 * 4)) by (apply S; [|rewrite !D]; assumption).
  assert (Z3 : v / 2 ^ (3 * 4) = v' / 2 ^ (3 * 4)) by (apply S; [|rewrite !D]; assumption).
  assert (Z2 : v / 2 ^ (2 * 4) = v' / 2 ^ (2 * 4)) by (apply S; [|rewrite !D]; assumption).
  assert (Z1 : v / 2 ^ (1 * 4) = v' / 2 ^ (1 * 4)) by (apply S; [|rewrite !D]; assumption).
  assert (Z0 : v / 2 ^ (0 * 4) = v' / 2 ^ (0 * 4)) by (apply S; [|rewrite !D]; assumption).
  change (2 ^ (0 * 4)) with 1 in Z0. now rewrite !N.div_1_r in Z0.
Qed.

Definition long_enough (p : list Z) : Prop := (16 <= List.length p)%nat.

Lemma nibble_look v p n : v < 2 ^ 32 -> long_enough p -> exists r,
  fst (nibble_transformN_t v p n) = Ok r /\
  snd (nibble_transformN_t v p n) = [Lookup n (v / 2 ^ (n * 4) mod 16)].
Proof.
  intros Hv Hp. unfold nibble_transformN_t. rewrite land15, N.shiftr_div_pow2. cbv zeta.
  set (i := v / 2 ^ (n * 4) mod 16).
  assert (Hi : i < 16) by (apply N.mod_lt; discriminate).
  assert (E : at_ p i = Ok (nth (N.to_nat i) p 0%Z)).
  { apply at_ok. unfold len, long_enough in *. lia. }
  eexists. split.
  - rewrite fst_tbind. cbn [look fst]. rewrite E. reflexivity.
  - rewrite (snd_tbind _ _ (nth (N.to_nat i) p 0%Z)) by exact E. reflexivity.
Qed.

Lemma nibble_events p0 p1 p2 p3 p4 p5 p6 p7 v : v < 2 ^ 32 ->
  Forall long_enough [p0; p1; p2; p3; p4; p5; p6; p7] ->
  (exists r, fst (SboxNibble_t p0 p1 p2 p3 p4 p5 p6 p7 v) = Ok r) /\
  snd (SboxNibble_t p0 p1 p2 p3 p4 p5 p6 p7 v) =
  map (fun n => Lookup n (v / 2 ^ (n * 4) mod 16)) [0; 1; 2; 3; 4; 5; 6; 7].
Proof.
  intros Hv H.
  repeat (match goal with H : Forall _ (_ :: _) |- _ => inversion_clear H end).
  destruct (nibble_look v p0 0) as (r0 & F0 & S0); [assumption..|].
  destruct (nibble_look v p1 1) as (r1 & F1 & S1); [assumption..|].
  destruct (nibble_look v p2 2) as (r2 & F2 & S2); [assumption..|].
  destruct (nibble_look v p3 3) as (r3 & F3 & S3); [assumption..|].
  destruct (nibble_look v p4 4) as (r4 & F4 & S4); [assumption..|].
  destruct (nibble_look v p5 5) as (r5 & F5 & S5); [assumption..|].
  destruct (nibble_look v p6 6) as (r6 & F6 & S6); [assumption..|].
  destruct (nibble_look v p7 7) as (r7 & F7 & S7); [assumption..|].
  unfold SboxNibble_t. split.
  - eexists. rewrite fst_tbind, F0; cbn [bind]. rewrite fst_tbind, F1; cbn [bind].
    rewrite fst_tbind, F2; cbn [bind]. rewrite fst_tbind, F3; cbn [bind].
    rewrite fst_tbind, F4; cbn [bind]. rewrite fst_tbind, F5; cbn [bind].
    rewrite fst_tbind, F6; cbn [bind]. rewrite fst_tbind, F7; cbn [bind]. reflexivity.
  - rewrite (snd_tbind _ _ _ F0), (snd_tbind _ _ _ F1), (snd_tbind _ _ _ F2),
      (snd_tbind _ _ _ F3), (snd_tbind _ _ _ F4), (snd_tbind _ _ _ F5),
      (snd_tbind _ _ _ F6), (snd_tbind _ _ _ F7).
    rewrite S0, S1, S2, S3, S4, S5, S6, S7. reflexivity.
Qed.

Lemma twisted_events sb v : (exists r, fst (sb v) = Ok r) ->
  (exists r, fst (SboxTwisted_t sb v) = Ok r) /\ snd (SboxTwisted_t sb v) = snd (sb v).
Proof.
  intros [r Hr]. unfold SboxTwisted_t. split.
  - eexists. rewrite fst_tbind, Hr. reflexivity.
  - rewrite (snd_tbind _ _ _ Hr). apply app_nil_r.
Qed.

(** The accesses of a table object that reveal everything. *)
Definition reveals (sb : tsbox) (n : nat) : Prop :=
  answers sb /\
  (forall v, v < 2 ^ 32 -> List.length (lookups (snd (sb v))) = n) /\
  (forall v v', v < 2 ^ 32 -> v' < 2 ^ 32 ->
     lookups (snd (sb v)) = lookups (snd (sb v')) -> v = v').

Lemma nibble_reveals p0 p1 p2 p3 p4 p5 p6 p7 :
  Forall long_enough [p0; p1; p2; p3; p4; p5; p6; p7] ->
  reveals (SboxNibble_t p0 p1 p2 p3 p4 p5 p6 p7) 8.
Proof.
  intros Hp.
  assert (E : forall v, v < 2 ^ 32 -> lookups (snd (SboxNibble_t p0 p1 p2 p3 p4 p5 p6 p7 v)) =
    map (fun n => Lookup n (v / 2 ^ (n * 4) mod 16)) [0; 1; 2; 3; 4; 5; 6; 7]).
  { intros v Hv. destruct (nibble_events p0 p1 p2 p3 p4 p5 p6 p7 v Hv Hp) as [_ ->]. reflexivity. }
  split; [|split].
  - intros v Hv. apply (nibble_events p0 p1 p2 p3 p4 p5 p6 p7 v Hv Hp).
  - intros v Hv. now rewrite E.
  - intros v v' Hv Hv'. rewrite !E by assumption. cbn [map]. intros H.
    apply nibbles_determine; [assumption..|]. intros k Hk.
    injection H as E0 E1 E2 E3 E4 E5 E6 E7.
    assert (C : k = 0 \/ k = 1 \/ k = 2 \/ k = 3 \/ k = 4 \/ k = 5 \/ k = 6 \/ k = 7) by lia.
    destruct C as [->|[->|[->|[->|[->|[->|[->| ->]]]]]]]; assumption.
Qed.

Lemma twisted_reveals sb n : reveals sb n -> reveals (SboxTwisted_t sb) n.
Proof.
  intros (A & L & I). split; [|split].
  - intros v Hv. apply twisted_events. now apply A.
  - intros v Hv. destruct (twisted_events sb v (A v Hv)) as [_ ->]. now apply L.
  - intros v v' Hv Hv'. destruct (twisted_events sb v (A v Hv)) as [_ ->].
    destruct (twisted_events sb v' (A v' Hv')) as [_ ->]. now apply I.
Qed.

Lemma R3412_reveals : reveals SboxR3412_t 8.
Proof.
  apply twisted_reveals, nibble_reveals. repeat constructor; unfold long_enough; cbn; lia.
Qed.

Lemma shr32_lt v n : v < 2 ^ 32 -> N.shiftr v n < 2 ^ 32.
Proof.
  intros H. rewrite N.shiftr_div_pow2. eapply N.le_lt_trans; [|exact H].
  apply N.div_le_upper_bound; [apply N.pow_nonzero; discriminate|].
  assert (2 ^ n <> 0) by (apply N.pow_nonzero; discriminate). nia.
Qed.

Lemma byte_look uz o v : (64 <= List.length uz)%nat -> (o < 4)%nat -> v < 2 ^ 32 -> exists r,
  fst (SboxByte64Tab_t uz (Z.of_nat o) (int_of_u32 v)) = Ok r /\
  snd (SboxByte64Tab_t uz (Z.of_nat o) (int_of_u32 v)) =
  [Lookup 0 (v / 16 mod 16 * 4 + N.of_nat o); Lookup 0 (v mod 16 * 4 + N.of_nat o)].
Proof.
  intros Hu Ho Hv. unfold SboxByte64Tab_t.
  replace (Z.land (int_of_u32 v) 0xf) with (Z.land (Z.shiftr (int_of_u32 v) 0) 0xf)
    by now rewrite Z.shiftr_0_r.
  rewrite !int_digit by (assumption || (left; reflexivity) || (right; reflexivity)).
  change (2 ^ Z.to_N 4) with 16. change (2 ^ Z.to_N 0) with 1. rewrite N.div_1_r. cbv zeta.
  set (i := v / 16 mod 16). set (j := v mod 16).
  assert (Hi : i < 16) by (apply N.mod_lt; discriminate).
  assert (Hj : j < 16) by (apply N.mod_lt; discriminate). clearbody i j.
  assert (E : forall x, x < 16 -> at_int uz (Z.of_N x * 4 + Z.of_nat o) =
    Ok (nth (N.to_nat (x * 4 + N.of_nat o)) uz 0)).
  { intros x Hx. unfold at_int. replace (0 <=? Z.of_N x * 4 + Z.of_nat o)%Z with true by lia.
    replace (Z.to_N (Z.of_N x * 4 + Z.of_nat o)) with (x * 4 + N.of_nat o) by lia.
    apply at_ok. unfold len. lia. }
  replace (Z.to_N (Z.of_N i * 4 + Z.of_nat o)) with (i * 4 + N.of_nat o) by lia.
  replace (Z.to_N (Z.of_N j * 4 + Z.of_nat o)) with (j * 4 + N.of_nat o) by lia.
  rewrite !E by assumption. eexists. split; reflexivity.
Qed.

Lemma byte_reveals uz : (64 <= List.length uz)%nat -> reveals (SboxByte_t uz) 8.
Proof.
  intros Hu.
  assert (E : forall v, v < 2 ^ 32 ->
    (exists r, fst (SboxByte_t uz v) = Ok r) /\
    snd (SboxByte_t uz v) = flat_map (fun o =>
      let x := v / 2 ^ (8 * N.of_nat o) in
      [Lookup 0 (x / 16 mod 16 * 4 + N.of_nat o); Lookup 0 (x mod 16 * 4 + N.of_nat o)])
      [0; 1; 2; 3]%nat).
  { intros v Hv.
    destruct (byte_look uz 0 v) as (r0 & F0 & S0); [assumption|lia|assumption|].
    destruct (byte_look uz 1 (N.shiftr v 8)) as (r1 & F1 & S1); [assumption|lia|now apply shr32_lt|].
    destruct (byte_look uz 2 (N.shiftr v 16)) as (r2 & F2 & S2); [assumption|lia|now apply shr32_lt|].
    destruct (byte_look uz 3 (N.shiftr v 24)) as (r3 & F3 & S3); [assumption|lia|now apply shr32_lt|].
    change (Z.of_nat 0) with 0%Z in *. change (Z.of_nat 1) with 1%Z in *.
    change (Z.of_nat 2) with 2%Z in *. change (Z.of_nat 3) with 3%Z in *.
    unfold SboxByte_t. split.
    - eexists. rewrite fst_tbind, F0; cbn [bind]. rewrite fst_tbind, F1; cbn [bind].
      rewrite fst_tbind, F2; cbn [bind]. rewrite fst_tbind, F3; cbn [bind]. reflexivity.
    - rewrite (snd_tbind _ _ _ F0), (snd_tbind _ _ _ F1), (snd_tbind _ _ _ F2), (snd_tbind _ _ _ F3).
      rewrite S0, S1, S2, S3. rewrite !N.shiftr_div_pow2. cbn [flat_map app].
      change (2 ^ (8 * N.of_nat 0)) with 1. rewrite N.div_1_r. reflexivity. }
  split; [|split].
  - intros v Hv. now apply E.
  - intros v Hv. destruct (E v Hv) as [_ ->]. reflexivity.
  - intros v v' Hv Hv' H. destruct (E v Hv) as [_ S]. destruct (E v' Hv') as [_ S'].
    rewrite S, S' in H. clear E S S'. cbn [flat_map app lookups filter] in H. cbv zeta in H.
    change (8 * N.of_nat 0) with 0 in H. change (8 * N.of_nat 1) with 8 in H.
    change (8 * N.of_nat 2) with 16 in H. change (8 * N.of_nat 3) with 24 in H.
    injection H as E0 E1 E2 E3 E4 E5 E6 E7.
    assert (D : forall x k, x / 2 ^ k / 16 = x / 2 ^ (k + 4)).
    { intros x k. rewrite N.div_div by (try apply N.pow_nonzero; discriminate).
      now rewrite N.pow_add_r. }
    rewrite !D in E0, E2, E4, E6.
    apply nibbles_determine; [assumption..|]. intros k Hk.
    assert (C : k = 0 \/ k = 1 \/ k = 2 \/ k = 3 \/ k = 4 \/ k = 5 \/ k = 6 \/ k = 7) by lia.
    destruct C as [->|[->|[->|[->|[->|[->|[->| ->]]]]]]].
    + clear - E1. change (0 * 4) with 0. lia.
    + clear - E0. change (1 * 4) with (0 + 4). lia.
    + clear - E3. change (2 * 4) with 8. lia.
    + clear - E2. change (3 * 4) with (8 + 4). lia.
    + clear - E5. change (4 * 4) with 16. lia.
    + clear - E4. change (5 * 4) with (16 + 4). lia.
    + clear - E7. change (6 * 4) with 24. lia.
    + clear - E6. change (7 * 4) with (24 + 4). lia.
Qed.

Lemma magma_key_revealed sb n kd kd' ws ws' x : reveals sb n ->
  words_of kd ws -> words_of kd' ws' ->
  lookups (snd (BlkEncrypted_t kd sb (tret x))) = lookups (snd (BlkEncrypted_t kd' sb (tret x))) \/
  lookups (snd (BlkDecrypted_t kd sb (tret x))) = lookups (snd (BlkDecrypted_t kd' sb (tret x))) ->
  ws = ws'.
Proof.
  intros (A & L & I) W W' H. destruct x as [a b].
  apply (reveal_forwarded sb n A L I kd kd' ws ws' a b W W').
  destruct H as [H|H].
  - destruct (encrypted_starts kd sb (tret (a, b))) as [r E].
    destruct (encrypted_starts kd' sb (tret (a, b))) as [r' E'].
    rewrite E, E', !lookups_app in H. eapply agree_prefix, agree_refl, H.
  - destruct (decrypted_starts kd sb (tret (a, b))) as [r E].
    destruct (decrypted_starts kd' sb (tret (a, b))) as [r' E'].
    rewrite E, E', !lookups_app in H. eapply agree_prefix, agree_refl, H.
Qed.

(** ** Kuznyechik: the accesses, or the branches, of one block determine the key *)

Lemma strict_KR : strict KR_t.
Proof. eexists. intros x. reflexivity. Qed.
Lemma strict_KS : strict KS_t.
Proof. eexists. intros x. reflexivity. Qed.
Lemma strict_KXored y : strict (fun x => KXored_t x y).
Proof. eexists. intros x. reflexivity. Qed.

Lemma strict_KL_transform n : strict (fun x => KL_transform_t x n).
Proof.
  induction n as [|n IH]; [apply strict_id|]. cbn [KL_transform_t].
  apply (strict_comp KR_t (fun x => KL_transform_t x n)); [apply strict_KR|exact IH].
Qed.

Lemma strict_step k : strict (fun x => encryptStep_t x k).
Proof.
  unfold encryptStep_t, KL_t.
  apply (strict_comp (fun x => KS_t (KXored_t x (tlift k))) (fun x => KL_transform_t x 16));
    [|apply strict_KL_transform].
  apply (strict_comp (fun x => KXored_t x (tlift k)) KS_t); [apply strict_KXored|apply strict_KS].
Qed.

(** The whole block begins with its first two rounds. *)
Lemma encrypt_starts k x : exists r,
  snd (Key_encrypt_t k x) = snd (encryptStep_t (encryptStep_t x (k1 k)) (k2 k)) ++ r.
Proof.
  unfold Key_encrypt_t. cbv zeta.
  destruct (strict_starts (fun y => KXored_t y (tlift (k10 k)))
    (encryptStep_t (encryptStep_t (encryptStep_t (encryptStep_t (encryptStep_t (encryptStep_t
      (encryptStep_t (encryptStep_t (encryptStep_t x (k1 k)) (k2 k)) (k3 k)) (k4 k)) (k5 k))
      (k6 k)) (k7 k)) (k8 k)) (k9 k)) (strict_KXored _)) as [r0 E0].
  cbv beta in E0. rewrite E0. clear E0.
  Ltac back k := match goal with |- exists r, snd (encryptStep_t ?y ?kn) ++ ?q = _ =>
    let r := fresh "r" in let E := fresh "E" in
    destruct (strict_starts (fun z => encryptStep_t z kn) y (strict_step kn)) as [r E];
    cbv beta in E; rewrite E, <- app_assoc; clear E end.
  do 7 back k. eexists. reflexivity.
Qed.

Lemma KXored_ret a b : KXored_t (tret (kpair a)) (tlift (Ok (kpair b))) = tret (kpair (N.lxor a b)).
Proof.
  unfold KXored_t, tbind, tret, tlift, kpair. cbn [fst snd app].
  now rewrite lxor_mod, lxor_div.
Qed.

(** One round, from a block to the next. *)
Lemma step_ret a k : a < 2 ^ 128 -> k < 2 ^ 128 ->
  fst (encryptStep_t (tret (kpair a)) (Ok (kpair k))) = Ok (kpair (LSX k a)).
Proof. intros Ha Hk. rewrite encryptStep_same. now apply encryptStep_kpair. Qed.

Lemma step_step a k k' : a < 2 ^ 128 -> k < 2 ^ 128 ->
  snd (encryptStep_t (encryptStep_t (tret (kpair a)) (Ok (kpair k))) k') =
  snd (encryptStep_t (tret (kpair a)) (Ok (kpair k))) ++
  snd (encryptStep_t (tret (kpair (LSX k a))) k').
Proof.
  intros Ha Hk.
  apply (strict_at (fun x => encryptStep_t x k') _ _ (strict_step k') (step_ret a k Ha Hk)).
Qed.

Lemma KS_loop_events ds : Forall u8 ds -> snd (KS_loop_t ds) = map (Lookup 0) ds.
Proof.
  intros H. induction H as [|d ds Hd _ IH]; [reflexivity|]. cbn [KS_loop_t map].
  rewrite (snd_tbind _ _ (pi d)) by (apply sbox_at; exact Hd). cbn [look snd app].
  assert (E : exists r, fst (KS_loop_t ds) = Ok r \/ True) by (exists []; now right).
  unfold tbind at 1. rewrite KS_loop_same. f_equal.
  destruct (mapM (at_ BlkS_sbox) ds); cbn [snd tret tlift]; rewrite ?app_nil_r; exact IH.
Qed.

Lemma KS_events x : x < 2 ^ 128 ->
  fst (KS_t (tret (kpair x))) = Ok (kpair (S x)) /\
  snd (KS_t (tret (kpair x))) = map (Lookup 0) (digits x).
Proof.
  intros Hx. split; [rewrite KS_same; now apply KS_kpair|].
  unfold KS_t. rewrite (snd_tbind (tret (kpair x)) _ (kpair x) eq_refl). cbn [tret tlift snd app].
  pose proof (kpair_digits x Hx) as E. destruct (kpair x) as [lo hi] eqn:Ek. cbn [fst snd] in E.
  rewrite E.
  assert (M : fst (KS_loop_t (digits x)) = Ok (map pi (digits x))).
  { clear E Ek. rewrite KS_loop_same. pose proof (digits_u8 x) as H. induction H; [reflexivity|].
    cbn [mapM map]. rewrite sbox_at, IHForall by assumption. reflexivity. }
  rewrite (snd_tbind _ _ _ M). cbn [tlift snd]. rewrite app_nil_r.
  apply KS_loop_events, digits_u8.
Qed.

Lemma digits_inj x y : x < 2 ^ 128 -> y < 2 ^ 128 -> digits x = digits y -> x = y.
Proof. intros Hx Hy E. rewrite <- (of_le_digits x Hx), <- (of_le_digits y Hy). now rewrite E. Qed.

(** The events of a round: the sixteen accesses, then the branches of BlkL. *)
Lemma step_events a k : a < 2 ^ 128 -> k < 2 ^ 128 ->
  snd (encryptStep_t (tret (kpair a)) (Ok (kpair k))) =
  map (Lookup 0) (digits (N.lxor a k)) ++ snd (KL_t (tret (kpair (S (N.lxor a k))))).
Proof.
  intros Ha Hk. unfold encryptStep_t. rewrite KXored_ret.
  destruct (KS_events (N.lxor a k)) as [F E]; [now apply lxor_lt|].
  destruct (strict_at KL_t _ _ (strict_KL_transform 16) F) as [_ H]. rewrite H, E. reflexivity.
Qed.

Lemma map_Lookup_inj l l' : map (Lookup 0) l = map (Lookup 0) l' -> l = l'.
Proof.
  revert l'. induction l as [|x l IH]; intros [|y l'] H; try discriminate H; [reflexivity|].
  injection H as -> H. f_equal. now apply IH.
Qed.

Lemma lookups_map l : lookups (map (Lookup 0) l) = map (Lookup 0) l.
Proof. induction l as [|x l IH]; [reflexivity|]. cbn [map lookups filter]. f_equal. exact IH. Qed.

Lemma branches_map l : branches (map (Lookup 0) l) = [].
Proof. induction l as [|x l IH]; [reflexivity|]. exact IH. Qed.

Lemma step_key_lookups a k k' q q' : a < 2 ^ 128 -> k < 2 ^ 128 -> k' < 2 ^ 128 ->
  agree (lookups (snd (encryptStep_t (tret (kpair a)) (Ok (kpair k)))) ++ q)
        (lookups (snd (encryptStep_t (tret (kpair a)) (Ok (kpair k')))) ++ q') -> k = k'.
Proof.
  intros Ha Hk Hk' H. apply agree_prefix in H. rewrite !step_events, !lookups_app, !lookups_map in H
    by assumption.
  apply agree_app in H; [|now rewrite !map_length, !digits_length].
  destruct H as [H _]. apply map_Lookup_inj, digits_inj in H; [|now apply lxor_lt..].
  now apply lxor_inj_l in H.
Qed.

Theorem kuz_key_lookups a b a' b' x : a < 2 ^ 128 -> b < 2 ^ 128 -> a' < 2 ^ 128 -> b' < 2 ^ 128 ->
  x < 2 ^ 128 ->
  lookups (snd (Key_encrypt_t (Key_blocks (Ok (kpair a)) (Ok (kpair b))) (tret (kpair x)))) =
  lookups (snd (Key_encrypt_t (Key_blocks (Ok (kpair a')) (Ok (kpair b'))) (tret (kpair x)))) ->
  a = a' /\ b = b'.
Proof.
  intros Ha Hb Ha' Hb' Hx H.
  destruct (encrypt_starts (Key_blocks (Ok (kpair a)) (Ok (kpair b))) (tret (kpair x))) as [r E].
  destruct (encrypt_starts (Key_blocks (Ok (kpair a')) (Ok (kpair b'))) (tret (kpair x))) as [r' E'].
  rewrite E, E' in H. clear E E'. unfold Key_blocks, KCached in H. cbn [k1 k2] in H.
  rewrite !step_step, !lookups_app, <- !app_assoc in H by assumption.
  assert (Ea : a = a') by (eapply step_key_lookups; [..|apply agree_refl, H]; assumption).
  split; [exact Ea|]. subst a'. apply app_inv_head in H.
  eapply step_key_lookups; [apply LSX_lt|assumption..|apply agree_refl, H].
Qed.

(** The branches of gmul: what they tell about its first argument. *)
Fixpoint hb (n : nat) (a : N) : list bool :=
  match n with
  | O => []
  | Datatypes.S k => (N.land a 0x80 =? 0x80) ::
      hb k (if N.land a 0x80 =? 0x80 then w8 (N.lxor (w8 (N.shiftl a 1)) 0x1c3) else w8 (N.shiftl a 1))
  end.

Lemma gmul_loop_length n : forall a b p, List.length (branches (snd (gmul_loop_t n a b p))) = (2 * n)%nat.
Proof.
  induction n as [|n IH]; intros a b p; [reflexivity|]. cbn [gmul_loop_t]. cbv zeta.
  destruct (N.land b 1 =? 1); unfold tbind at 1; cbn [cond fst snd tret tlift];
    destruct (N.land a 0x80 =? 0x80); unfold tbind at 1; cbn [cond fst snd tret tlift app branches filter List.length];
    fold branches; rewrite IH; lia.
Qed.

Lemma gmul_loop_hb n : forall a a' b p p',
  branches (snd (gmul_loop_t n a b p)) = branches (snd (gmul_loop_t n a' b p')) -> hb n a = hb n a'.
Proof.
  induction n as [|n IH]; intros a a' b p p' H; [reflexivity|]. cbn [gmul_loop_t] in H. cbv zeta in H.
  cbn [hb].
  destruct (N.land b 1 =? 1); unfold tbind at 1 in H; unfold tbind at 2 in H;
    cbn [cond fst snd tret tlift] in H;
    destruct (N.land a 0x80 =? 0x80), (N.land a' 0x80 =? 0x80);
    unfold tbind in H; cbn [cond fst snd tret tlift app branches filter] in H; fold branches in H;
    try discriminate H; f_equal; injection H as H; eapply IH; exact H.
Qed.

Definition bools_eqb := fix eqb (l l' : list bool) : bool :=
  match l, l' with
  | [], [] => true
  | x :: r, y :: s => Bool.eqb x y && eqb r s
  | _, _ => false
  end.

Lemma bools_eqb_refl l : bools_eqb l l = true.
Proof. induction l as [|x l IH]; [reflexivity|]. cbn. now rewrite eqb_reflx. Qed.

Lemma hb_inj a a' : u8 a -> u8 a' -> hb 8 a = hb 8 a' -> a = a'.
Proof.
  intros Ha Ha' H.
  assert (C : (if bools_eqb (hb 8 a) (hb 8 a') then a =? a' else true) = true).
  { apply (bytes2_forallb (fun a a' => if bools_eqb (hb 8 a) (hb 8 a') then a =? a' else true));
      [vm_compute; reflexivity|assumption..]. }
  rewrite H, bools_eqb_refl in C. now apply N.eqb_eq.
Qed.

Lemma gmul_sum_branches ds : forall ds' cs s s', List.length ds = List.length ds' ->
  (List.length ds <= List.length cs)%nat -> Forall u8 ds -> Forall u8 ds' ->
  agree (branches (snd (gmul_sum_t ds cs s))) (branches (snd (gmul_sum_t ds' cs s'))) ->
  ds = ds'.
Proof.
  induction ds as [|d ds IH]; intros [|d' ds'] cs s s' HL HC H H' A; try discriminate HL; [reflexivity|].
  destruct cs as [|c cs]; [cbn in HC; lia|]. cbn [gmul_sum_t] in A.
  inversion_clear H. inversion_clear H'.
  rewrite (snd_tbind _ _ _ (gmul_loop_same 8 d c 0)), (snd_tbind _ _ _ (gmul_loop_same 8 d' c 0)) in A.
  rewrite !branches_app in A. apply agree_app in A; [|unfold gmul_t; now rewrite !gmul_loop_length].
  destruct A as [E A]. unfold gmul_t in E. apply gmul_loop_hb, hb_inj in E; [|assumption..].
  f_equal; [exact E|]. eapply (IH ds' cs); [cbn in HL; lia|cbn in HC; lia|assumption..|exact A].
Qed.

Lemma KR_branches x y q q' : x < 2 ^ 128 -> y < 2 ^ 128 ->
  agree (branches (snd (KR_t (tret (kpair x)))) ++ q) (branches (snd (KR_t (tret (kpair y)))) ++ q') ->
  x = y.
Proof.
  intros Hx Hy A. apply agree_prefix in A. unfold KR_t in A.
  rewrite (snd_tbind (tret (kpair x)) _ (kpair x) eq_refl) in A.
  rewrite (snd_tbind (tret (kpair y)) _ (kpair y) eq_refl) in A.
  cbn [tret tlift snd app] in A.
  pose proof (kpair_digits x Hx) as Ex. pose proof (kpair_digits y Hy) as Ey.
  destruct (kpair x) as [lx hx]. destruct (kpair y) as [ly hy]. cbn [fst snd] in Ex, Ey.
  cbv zeta in A. rewrite Ex, Ey in A.
  rewrite (snd_tbind _ _ _ (gmul_sum_same _ _ _)) in A.
  rewrite (snd_tbind _ _ _ (gmul_sum_same (digits y) _ _)) in A.
  cbn [tlift snd] in A. rewrite !app_nil_r in A.
  apply digits_inj; [assumption..|].
  eapply gmul_sum_branches; [|..|exact A]; rewrite ?digits_length; try apply digits_u8; cbn; lia.
Qed.

Lemma KL_transform_next n x : KL_transform_t x (Datatypes.S n) = KL_transform_t (KR_t x) n.
Proof. reflexivity. Qed.

Lemma KL_starts x : exists r, snd (KL_t x) = snd (KR_t x) ++ r.
Proof.
  unfold KL_t. rewrite (KL_transform_next 15).
  apply (strict_starts (fun y => KL_transform_t y 15)). apply strict_KL_transform.
Qed.

Lemma step_key_branches a k k' q q' : a < 2 ^ 128 -> k < 2 ^ 128 -> k' < 2 ^ 128 ->
  agree (branches (snd (encryptStep_t (tret (kpair a)) (Ok (kpair k)))) ++ q)
        (branches (snd (encryptStep_t (tret (kpair a)) (Ok (kpair k')))) ++ q') -> k = k'.
Proof.
  intros Ha Hk Hk' H. apply agree_prefix in H. rewrite !step_events, !branches_app, !branches_map in H
    by assumption. rewrite !app_nil_l in H.
  destruct (KL_starts (tret (kpair (S (N.lxor a k))))) as [r E].
  destruct (KL_starts (tret (kpair (S (N.lxor a k'))))) as [r' E'].
  rewrite E, E', !branches_app in H. apply KR_branches in H; [|apply S_lt..].
  apply (f_equal S_inv) in H. rewrite !S_inv_S in H by now apply lxor_lt.
  now apply lxor_inj_l in H.
Qed.

Theorem kuz_key_branches a b a' b' x : a < 2 ^ 128 -> b < 2 ^ 128 -> a' < 2 ^ 128 -> b' < 2 ^ 128 ->
  x < 2 ^ 128 ->
  branches (snd (Key_encrypt_t (Key_blocks (Ok (kpair a)) (Ok (kpair b))) (tret (kpair x)))) =
  branches (snd (Key_encrypt_t (Key_blocks (Ok (kpair a')) (Ok (kpair b'))) (tret (kpair x)))) ->
  a = a' /\ b = b'.
Proof.
  intros Ha Hb Ha' Hb' Hx H.
  destruct (encrypt_starts (Key_blocks (Ok (kpair a)) (Ok (kpair b))) (tret (kpair x))) as [r E].
  destruct (encrypt_starts (Key_blocks (Ok (kpair a')) (Ok (kpair b'))) (tret (kpair x))) as [r' E'].
  rewrite E, E' in H. clear E E'. unfold Key_blocks, KCached in H. cbn [k1 k2] in H.
  rewrite !step_step, !branches_app, <- !app_assoc in H by assumption.
  assert (Ea : a = a') by (eapply step_key_branches; [..|apply agree_refl, H]; assumption).
  split; [exact Ea|]. subst a'. apply app_inv_head in H.
  eapply step_key_branches; [apply LSX_lt|assumption..|apply agree_refl, H].
Qed.

(** ** Magma: which tables are read, and that nothing branches, is the same for all keys *)

Lemma tables_app a b : tables (a ++ b) = tables a ++ tables b.
Proof. apply flat_map_app. Qed.

Definition quiet {A} (x : T A) (tb : list N) : Prop :=
  (exists v, fst x = Ok v) /\ tables (snd x) = tb /\ branches (snd x) = [].

Lemma quiet_ret {A} (v : A) : quiet (tret v) [].
Proof. split; [now exists v|split; reflexivity]. Qed.

Lemma quiet_bind {A B} (x : T A) (f : A -> T B) t1 t2 :
  quiet x t1 -> (forall v, quiet (f v) t2) -> quiet (tbind x f) (t1 ++ t2).
Proof.
  intros ([v Hv] & Ht & Hb) Hf. destruct (Hf v) as ([w Hw] & Ht' & Hb'). split; [|split].
  - exists w. rewrite fst_tbind, Hv. exact Hw.
  - rewrite (snd_tbind _ _ _ Hv), tables_app, Ht, Ht'. reflexivity.
  - rewrite (snd_tbind _ _ _ Hv), branches_app, Hb, Hb'. reflexivity.
Qed.

Section Quiet.
Context (kd : keydata) (ws : list N) (sb : tsbox) (tb : list N).
Hypothesis Hkd : words_of kd ws.
Hypothesis Hsb : forall v, v < 2 ^ 32 -> quiet (sb v) tb.

Lemma quiet_tr a i : (0 <= i < 8)%Z -> quiet (lazy_transform_t kd sb a i) tb.
Proof.
  intros Hi. unfold lazy_transform_t. destruct Hkd as (_ & _ & W).
  pose proof (W (Z.to_nat i) ltac:(lia)) as E. rewrite Z2Nat.id in E by lia.
  rewrite <- (app_nil_l tb). apply quiet_bind.
  - rewrite E. apply quiet_ret.
  - intros kw. rewrite <- (app_nil_r tb). apply quiet_bind; [apply Hsb, w32_lt|].
    intros r. apply quiet_ret.
Qed.

Lemma quiet_forwarded x t : quiet x t ->
  quiet (BlkForwarded_t kd sb x) (t ++ tb ++ tb ++ tb ++ tb ++ tb ++ tb ++ tb ++ tb ++ []).
Proof.
  intros H. unfold BlkForwarded_t. apply quiet_bind; [exact H|]. intros [a b].
  do 8 (apply quiet_bind; [apply quiet_tr; lia|intros]; cbv zeta). apply quiet_ret.
Qed.

Lemma quiet_backwarded x t : quiet x t ->
  quiet (BlkBackwarded_t kd sb x) (t ++ tb ++ tb ++ tb ++ tb ++ tb ++ tb ++ tb ++ tb ++ []).
Proof.
  intros H. unfold BlkBackwarded_t. apply quiet_bind; [exact H|]. intros [a b].
  do 8 (apply quiet_bind; [apply quiet_tr; lia|intros]; cbv zeta). apply quiet_ret.
Qed.

Lemma quiet_swapped x t : quiet x t -> quiet (BlkSwapped_t x) (t ++ []).
Proof.
  intros H. unfold BlkSwapped_t. apply quiet_bind; [exact H|]. intros [a b]. apply quiet_ret.
Qed.

Lemma quiet_encrypted x : quiet (BlkEncrypted_t kd sb (tret x)) (List.concat (repeat tb 32)).
Proof.
  unfold BlkEncrypted_t. eapply eq_rect.
  - apply quiet_swapped, quiet_backwarded, quiet_forwarded, quiet_forwarded, quiet_forwarded, quiet_ret.
  - cbn [repeat List.concat]. now rewrite !app_nil_r, !app_nil_l, <- !app_assoc.
Qed.

Lemma quiet_decrypted x : quiet (BlkDecrypted_t kd sb (tret x)) (List.concat (repeat tb 32)).
Proof.
  unfold BlkDecrypted_t. eapply eq_rect.
  - apply quiet_swapped, quiet_backwarded, quiet_backwarded, quiet_backwarded, quiet_forwarded, quiet_ret.
  - cbn [repeat List.concat]. now rewrite !app_nil_r, !app_nil_l, <- !app_assoc.
Qed.

(** The one branch in the final key of magma::Imit. *)
Lemma final_key_branches m lo hi :
  fst (BlkEncrypted_t kd sb (tlift BlkRaw0)) = Ok (lo, hi) ->
  branches (snd (BlkImitFinalKey_t kd sb m)) = [Branch (N.land hi 0x80000000 =? 0)].
Proof.
  intros E. destruct (quiet_encrypted (0, 0)) as (_ & _ & Q).
  change (tret (0, 0)) with (tlift BlkRaw0) in Q.
  unfold BlkImitFinalKey_t, BlkImitShifted_t. rewrite (snd_tbind _ _ _ E). cbv beta iota.
  rewrite branches_app, Q. rewrite app_nil_l. unfold cond. cbv zeta. cbn [snd branches filter].
  fold branches. f_equal.
  destruct (N.land hi 0x80000000 =? 0); rewrite (snd_tbind _ _ _ E), branches_app, Q; reflexivity.
Qed.
End Quiet.

Lemma quiet_nibble p0 p1 p2 p3 p4 p5 p6 p7 v : v < 2 ^ 32 ->
  Forall long_enough [p0; p1; p2; p3; p4; p5; p6; p7] ->
  quiet (SboxNibble_t p0 p1 p2 p3 p4 p5 p6 p7 v) [0; 1; 2; 3; 4; 5; 6; 7].
Proof.
  intros Hv Hp. destruct (nibble_events p0 p1 p2 p3 p4 p5 p6 p7 v Hv Hp) as [F E].
  split; [exact F|]. rewrite E. split; reflexivity.
Qed.

Lemma quiet_twisted sb tb v : quiet (sb v) tb -> quiet (SboxTwisted_t sb v) tb.
Proof.
  intros Q. unfold SboxTwisted_t. rewrite <- (app_nil_r tb).
  apply quiet_bind; [exact Q|]. intros. apply quiet_ret.
Qed.

Lemma quiet_R3412 v : v < 2 ^ 32 -> quiet (SboxR3412_t v) [0; 1; 2; 3; 4; 5; 6; 7].
Proof.
  intros Hv. apply quiet_twisted, quiet_nibble; [exact Hv|].
  repeat constructor; unfold long_enough; cbn; lia.
Qed.

Lemma words_native ws : List.length ws = 8%nat -> Forall u32 ws -> words_of (KeyDataNative ws) ws.
Proof.
  intros Hl Hw. split; [exact Hl|split; [exact Hw|]]. intros i Hi. unfold KeyDataNative, at_int.
  replace (0 <=? Z.of_nat i)%Z with true by lia. replace (Z.to_N (Z.of_nat i)) with (N.of_nat i) by lia.
  rewrite (at_ok ws (N.of_nat i) 0) by (unfold len; lia). now rewrite Nat2N.id.
Qed.

Lemma words_string s : Forall hex_digit s -> List.length s = 64%nat ->
  words_of (KeyCachedData (KeyDataString s)) (map (key_word (number s)) (seq 0 8)).
Proof.
  intros Hs Hl. split; [reflexivity|split].
  - apply Forall_forall. intros w H. apply in_map_iff in H. destruct H as [i [<- _]].
    unfold key_word, u32. apply mod_pow2_lt.
  - intros i Hi. rewrite (KeyCachedData_ok _ (key_word (number s))); [|..|exact Hi].
    + f_equal. rewrite (nth_indep _ 0 (key_word (number s) O)) by (rewrite map_length, seq_length; exact Hi).
      now rewrite map_nth, seq_nth.
    + intros j Hj. rewrite KeyDataString_hex by assumption. f_equal. now apply number_slice.
Qed.

Lemma key_words_number x y : x < 2 ^ 256 -> y < 2 ^ 256 ->
  map (key_word x) (seq 0 8) = map (key_word y) (seq 0 8) -> x = y.
Proof.
  intros Hx Hy H. unfold key_word in H. cbn [map seq] in H.
  injection H as E0 E1 E2 E3 E4 E5 E6 E7.
  change (32 * (7 - N.of_nat 0)) with (7 * 32) in E0. change (32 * (7 - N.of_nat 1)) with (6 * 32) in E1.
  change (32 * (7 - N.of_nat 2)) with (5 * 32) in E2. change (32 * (7 - N.of_nat 3)) with (4 * 32) in E3.
  change (32 * (7 - N.of_nat 4)) with (3 * 32) in E4. change (32 * (7 - N.of_nat 5)) with (2 * 32) in E5.
  change (32 * (7 - N.of_nat 6)) with (1 * 32) in E6. change (32 * (7 - N.of_nat 7)) with (0 * 32) in E7.
  assert (S : forall a b, a mod 2 ^ 32 = b mod 2 ^ 32 -> a / 2 ^ 32 = b / 2 ^ 32 -> a = b)
    by (clear; intros a b; change (2 ^ 32) with 4294967296; lia).
  assert (D : forall a k, a / 2 ^ (k * 32) / 2 ^ 32 = a / 2 ^ ((k + 1) * 32)).
  { intros a k. rewrite N.div_div by (apply N.pow_nonzero; discriminate).
    f_equal. now rewrite N.mul_add_distr_r, N.pow_add_r. }
  assert (Z8 : x / 2 ^ (8 * 32) = y / 2 ^ (8 * 32)).
  { change (8 * 32) with 256. now rewrite !N.div_small. }
  assert (Z7 : x / 2 ^ (7 * 32) = y / 2 ^ (7 * 32)) by (apply S; [|rewrite !D]; assumption).
  assert (Z6 : x / 2 ^ (6 * 32) = y / 2 ^ (6 * 32)) by (apply S; [|rewrite !D]; assumption).
  assert (Z5 : x / 2 ^ (5 * 32) = y / 2 ^ (5 * 32)) by (apply S; [|rewrite !D]; assumption).
  assert (Z4 : x / 2 ^ (4 * 32) = y / 2 ^ (4 * 32)) by (apply S; [|rewrite !D]; assumption).
  assert (Z3 : x / 2 ^ (3 * 32) = y / 2 ^ (3 * 32)) by (apply S; [|rewrite !D]; assumption).
  assert (Z2 : x / 2 ^ (2 * 32) = y / 2 ^ (2 * 32)) by (apply S; [|rewrite !D]; assumption).
  assert (Z1 : x / 2 ^ (1 * 32) = y / 2 ^ (1 * 32)) by (apply S; [|rewrite !D]; assumption).
  assert (Z0 : x / 2 ^ (0 * 32) = y / 2 ^ (0 * 32)) by (apply S; [|rewrite !D]; assumption).
  change (2 ^ (0 * 32)) with 1 in Z0. now rewrite !N.div_1_r in Z0.
Qed.

Lemma kuz_strings s s' k k' : Forall hex_digit s -> List.length s = 64%nat ->
  Forall hex_digit s' -> List.length s' = 64%nat -> Key_string s = Ok k -> Key_string s' = Ok k' ->
  exists a b a' b', a < 2 ^ 128 /\ b < 2 ^ 128 /\ a' < 2 ^ 128 /\ b' < 2 ^ 128 /\
    k = Key_blocks (Ok (kpair a)) (Ok (kpair b)) /\ k' = Key_blocks (Ok (kpair a')) (Ok (kpair b')) /\
    (a = a' /\ b = b' -> number s = number s').
Proof.
  intros Hs Hl Hs' Hl' E E'.
  destruct (Key_string_hex s Hs Hl) as (a & b & Ha & Hb & En & _ & _ & Ek).
  destruct (Key_string_hex s' Hs' Hl') as (a' & b' & Ha' & Hb' & En' & _ & _ & Ek').
  exists a, b, a', b'. rewrite Ek in E. rewrite Ek' in E'.
  split; [exact Ha|split; [exact Hb|split; [exact Ha'|split; [exact Hb'|]]]].
  split; [symmetry; now apply Ok_inj|split; [symmetry; now apply Ok_inj|]].
  intros [-> ->]. now rewrite En, En'.
Qed.

Lemma kuz_strings_lookups s s' k k' x : Forall hex_digit s -> List.length s = 64%nat ->
  Forall hex_digit s' -> List.length s' = 64%nat -> Key_string s = Ok k -> Key_string s' = Ok k' ->
  x < 2 ^ 128 ->
  lookups (snd (Key_encrypt_t k (tret (kpair x)))) = lookups (snd (Key_encrypt_t k' (tret (kpair x)))) ->
  number s = number s'.
Proof.
  intros Hs Hl Hs' Hl' E E' Hx H.
  destruct (kuz_strings s s' k k' Hs Hl Hs' Hl' E E') as (a & b & a' & b' & Ha & Hb & Ha' & Hb' & -> & -> & G).
  apply G. now apply (kuz_key_lookups a b a' b' x).
Qed.

Lemma kuz_strings_branches s s' k k' x : Forall hex_digit s -> List.length s = 64%nat ->
  Forall hex_digit s' -> List.length s' = 64%nat -> Key_string s = Ok k -> Key_string s' = Ok k' ->
  x < 2 ^ 128 ->
  branches (snd (Key_encrypt_t k (tret (kpair x)))) = branches (snd (Key_encrypt_t k' (tret (kpair x)))) ->
  number s = number s'.
Proof.
  intros Hs Hl Hs' Hl' E E' Hx H.
  destruct (kuz_strings s s' k k' Hs Hl Hs' Hl' E E') as (a & b & a' & b' & Ha & Hb & Ha' & Hb' & -> & -> & G).
  apply G. now apply (kuz_key_branches a b a' b' x).
Qed.

Lemma imit_branch s m lo hi : Forall hex_digit s -> List.length s = 64%nat ->
  BlkEncrypted BlkRaw0 (Some (LazyKey_string s)) = Ok (lo, hi) ->
  branches (snd (BlkImitFinalKey_t (key_data (LazyKey_string s)) SboxR3412_t m)) =
  [Branch (N.land hi 0x80000000 =? 0)].
Proof.
  intros Hs Hl H. eapply final_key_branches;
    [now apply words_string|intros; now apply quiet_R3412|].
  rewrite (Encrypted_same _ _ SboxR3412 SboxR3412_same). exact H.
Qed.

Lemma magma_flow s s' x x' : Forall hex_digit s -> List.length s = 64%nat ->
  Forall hex_digit s' -> List.length s' = 64%nat ->
  let e := snd (BlkEncrypted_t (key_data (LazyKey_string s)) SboxR3412_t (tret x)) in
  let e' := snd (BlkEncrypted_t (key_data (LazyKey_string s')) SboxR3412_t (tret x')) in
  let d := snd (BlkDecrypted_t (key_data (LazyKey_string s)) SboxR3412_t (tret x)) in
  let d' := snd (BlkDecrypted_t (key_data (LazyKey_string s')) SboxR3412_t (tret x')) in
  branches e = [] /\ tables e = tables e' /\ branches d = [] /\ tables d = tables d' /\
  List.length (tables e) = 256%nat.
Proof.
  intros Hs Hl Hs' Hl'. cbv zeta.
  pose proof (words_string s Hs Hl) as W. pose proof (words_string s' Hs' Hl') as W'.
  cbn [LazyKey_string LazyKey_string_sbox key_data].
  destruct (quiet_encrypted _ _ _ _ W quiet_R3412 x) as (_ & T1 & B1).
  destruct (quiet_encrypted _ _ _ _ W' quiet_R3412 x') as (_ & T2 & _).
  destruct (quiet_decrypted _ _ _ _ W quiet_R3412 x) as (_ & T3 & B3).
  destruct (quiet_decrypted _ _ _ _ W' quiet_R3412 x') as (_ & T4 & _).
  rewrite T1, T2, T3, T4. auto.
Qed.

Definition zeros_key : str := repeat 48 64.
Definition one_key : str := repeat 48 63 ++ [49].

Lemma imit_two_branches : exists s s',
  Forall hex_digit s /\ List.length s = 64%nat /\ Forall hex_digit s' /\ List.length s' = 64%nat /\
  forall m,
  branches (snd (BlkImitFinalKey_t (key_data (LazyKey_string s)) SboxR3412_t m)) <>
  branches (snd (BlkImitFinalKey_t (key_data (LazyKey_string s')) SboxR3412_t m)).
Proof.
  assert (Hz : Forall hex_digit zeros_key) by (unfold zeros_key; repeat constructor; discriminate).
  assert (Ho : Forall hex_digit one_key) by (unfold one_key; repeat constructor; discriminate).
  exists zeros_key, one_key. split; [exact Hz|split; [reflexivity|split; [exact Ho|split; [reflexivity|]]]].
  intros m.
  assert (Ez : exists lo hi, BlkEncrypted BlkRaw0 (Some (LazyKey_string zeros_key)) = Ok (lo, hi) /\
    N.land hi 0x80000000 = 0) by (eexists; eexists; split; [vm_compute; reflexivity|reflexivity]).
  assert (Eo : exists lo hi, BlkEncrypted BlkRaw0 (Some (LazyKey_string one_key)) = Ok (lo, hi) /\
    N.land hi 0x80000000 = 0x80000000) by (eexists; eexists; split; [vm_compute; reflexivity|reflexivity]).
  destruct Ez as (lo & hi & E & B). destruct Eo as (lo' & hi' & E' & B').
  rewrite (imit_branch zeros_key m lo hi Hz eq_refl E), (imit_branch one_key m lo' hi' Ho eq_refl E').
  rewrite B, B'. discriminate.
Qed.
