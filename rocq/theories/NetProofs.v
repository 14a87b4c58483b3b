(** Proofs about NetModel.v. *)
From Verif Require Import Base KuzModel DeepModel MagmaModel ConcModel NetModel SpecDeep SpecConc.
From Verif Require Import DeepProofs ConcProofs.
From Coq Require Import ZifyNat ZifyN ZifyBool Lia.
Local Open Scope N_scope.
Ltac Zify.zify_post_hook ::= idtac.

(** ** Kuznyechik: right values *)

Section Kuz.
Context {W : Type} (m : mode) (data : nat -> @blk W * @blk W).
Context (env : nat -> kkey) (cost : nat -> nat).
Context (He : keys_of m data env) (Hc : cost_grows cost).
Context (Hp : forall n, pure (heap data n)) (Hh : forall n, (depth cost (heap data n) <= cost n)%nat).

Definition round_value (n : nat) : kblock := rk (env (n / 10)%nat) (n mod 10).

Definition bsize (n : nat) : nat := 2.
Definition bval (n i : nat) : N := match round_value n with Ok v => halves_of v i | _ => 0 end.
Definition bcan (n : nat) : Prop := exists v, round_value n = Ok v.

Notation does := (does bsize bval bcan).

Lemma value_does d : forall o, pure o -> (depth cost o <= d)%nat ->
  does (fun B => @value_prog W B m data d o) (sem m env o).
Proof.
  induction d as [|d IH]; intros o Ho Hd; [destruct o; cbn [depth] in Hd; lia|].
  assert (L1 : forall a (f : N * N -> kblock), pure a -> (depth cost a <= d)%nat ->
    does (fun B k => value_prog m data d a (fun x => plift (f x) k)) (bind (sem m env a) f)).
  { intros a f Ha Hda. apply (does_bind _ _ _ (fun B => @value_prog W B m data d a) _ (fun x B => plift (f x))); [now apply IH|].
    intros x _. apply does_lift. }
  destruct o; cbn [value_prog sem]; cbn [depth] in Hd; cbn [pure] in Ho.
  - apply (does_lift _ _ _ (Ok v)).
  - apply does_lift.
  - destruct Ho.
  - rewrite KXored_strict.
    apply (does_bind _ _ _ (fun B => @value_prog W B m data d o1) _
             (fun x B k => value_prog m data d o2 (fun y => plift (KXored (Ok x) (Ok y)) k))); [apply IH; [tauto|lia]|].
    intros x _. apply (L1 o2 (fun y => KXored (Ok x) (Ok y))); [tauto|lia].
  - rewrite KShifted_strict. apply (L1 o (fun x => KShifted m (Ok x) n)); [tauto|lia].
  - rewrite KIncremented_strict. apply (L1 o (fun x => KIncremented (Ok x))); [tauto|lia].
  - rewrite KR_strict. apply (L1 o (fun x => KR (Ok x))); [tauto|lia].
  - unfold KL. rewrite <- sem_transform. apply IH; [now apply pure_transform|].
    rewrite (depth_transform data). lia.
  - rewrite KS_strict. apply (L1 o (fun x => KS (Ok x))); [tauto|lia].
  - unfold KIterKey. rewrite <- sem_generate.
    apply (does_bind _ _ _ (fun B => plift (generate (Z.to_nat (c2 - c1 + 1)) o2 o1 c1 c2)) _
             (fun t B => @value_prog W B m data d t)); [apply does_lift|].
    intros t Ht. apply IH.
    + now apply (pure_generate data _ _ _ _ _ _ (proj2 Ho) (proj1 Ho) Ht).
    + apply (depth_generate data cost (Nat.max 18 (Nat.max (depth cost o1) (depth cost o2)))) in Ht; lia.
  - fold (round_value n).
    apply (blk_does _ _ _ n eq_refl (fun B => @value_prog W B m data d (heap data n))).
    + unfold round_value. rewrite <- (sem_heap m data env He). apply IH; [apply Hp|]. pose proof (Hh n). lia.
    + intros [v Hv]. unfold bval. rewrite Hv. now destruct v.
    + intros v Hv. split; [now exists v|]. unfold bval. rewrite Hv. now destruct v.
  - rewrite <- (sem_encrypt m data). apply IH; [now apply (pure_encrypt data)|].
    pose proof (depth_encrypt data cost k o Hc) as H. cbn [depth] in H. lia.
  - unfold KXoredIfHighBit.
    change (KShifted m (sem m env o1) 1) with (sem m env (BShifted o1 1)).
    change (KXored (sem m env (BShifted o1 1)) (sem m env o2)) with (sem m env (BXored (BShifted o1 1) o2)).
    apply (does_bind _ _ _ (fun B => @value_prog W B m data d o1) _
             (fun x B k => if N.land (snd x) 0x8000000000000000 =? 0 then value_prog m data d (BShifted o1 1) k
                           else value_prog m data d (BXored (BShifted o1 1) o2) k)); [apply IH; [tauto|lia]|].
    intros [x y] _. cbv beta iota zeta. cbn [snd].
    destruct (_ =? 0); (apply IH; [cbn [pure]; tauto|cbn [depth]; lia]).
Qed.
End Kuz.

(** ** One thread alone *)

Section Alone.
Context {A : Type} (size : nat -> nat) (val : nat -> nat -> N) (can : nat -> Prop).

Lemma alone_fine (p : prog A) : forall m (K : nat -> nat -> Prop) r, memory_ok size val can m ->
  (forall o i, K o i -> m_word m o i = val o i) -> fine size val can K r p ->
  fst (alone m p) = r /\ memory_ok size val can (snd (alone m p)).
Proof.
  induction p as [r0|o k IH|o i k IH|o b p IH|o i v p IH]; intros m K r Hm HK Hf; inversion Hf; subst; cbn [alone].
  - now split.
  - destruct (m_flag m o) eqn:E; [|now apply (IH false m K)].
    destruct (Hm o E) as [Hc Hw]. apply (IH true m (fun x i => x = o /\ (i < size o)%nat)); [exact Hm| |auto].
    intros x i [-> Hi]. now apply Hw.
  - match goal with H : K o i |- _ => rewrite (HK o i H) end. now apply (IH (val o i) m K).
  - apply (IH _ K); [|exact HK|assumption]. intros x. cbn [apply_store m_flag m_word].
    destruct (Nat.eqb_spec x o) as [->|]; [|apply Hm]. intros _. split; [assumption|]. auto.
  - assert (HB : better val m (apply_store m (SWord o i (val o i)))) by now apply (apply_better val can).
    apply (IH _ (fun x j => K x j \/ (x = o /\ j = i))); [| |assumption].
    + intros x Hx. destruct (Hm x Hx) as [H1 H2]. split; [exact H1|]. intros j Hj. apply HB. now apply H2.
    + intros x j [Hj|[-> ->]]; [now apply HB, HK|]. cbn [apply_store m_word]. now rewrite !Nat.eqb_refl.
Qed.

(** The program returns a value only after it has seen or set the flags of [S]. *)
Inductive ensures : (nat -> Prop) -> prog A -> Prop :=
| en_ret (S : nat -> Prop) r : (forall o, ~ S o) -> ensures S (Ret r)
| en_fail (S : nat -> Prop) r : (forall a, r <> Ok a) -> ensures S (Ret r)
| en_rdflag (S : nat -> Prop) o k :
    ensures (fun x => S x /\ x <> o) (k true) -> ensures S (k false) -> ensures S (RdFlag o k)
| en_rdword (S : nat -> Prop) o i k : (forall v, ensures S (k v)) -> ensures S (RdWord o i k)
| en_wrflag (S : nat -> Prop) o p : ensures (fun x => S x /\ x <> o) p -> ensures S (WrFlag o true p)
| en_wrword (S : nat -> Prop) o i v p : ensures S p -> ensures S (WrWord o i v p).

(** No flag is ever reset. *)
Lemma alone_ensures (p : prog A) : forall m S, ensures S p ->
  (forall o, m_flag m o = true -> m_flag (snd (alone m p)) o = true) /\
  (forall a, fst (alone m p) = Ok a -> forall o, S o -> m_flag (snd (alone m p)) o = true).
Proof.
  induction p as [r0|o k IH|o i k IH|o b p IH|o i v p IH]; intros m S Hs; inversion Hs; subst; cbn [alone].
  - split; [auto|]. intros a _ o So. exfalso. firstorder.
  - split; [auto|]. intros a Ha. cbn [fst] in Ha. exfalso. firstorder.
  - destruct (m_flag m o) eqn:E.
    + destruct (IH true m _ ltac:(eassumption)) as [I1 I2]. split; [exact I1|]. intros a Ha x Sx.
      destruct (Nat.eq_dec x o) as [->|Hne]; [now apply I1|]. apply (I2 a Ha). now split.
    + now apply (IH false m S).
  - now apply (IH _ m S).
  - destruct (IH (apply_store m (SFlag o true)) _ ltac:(eassumption)) as [I1 I2]. split.
    + intros x Hx. apply I1. cbn [apply_store m_flag]. now destruct (Nat.eqb x o).
    + intros a Ha x Sx. destruct (Nat.eq_dec x o) as [->|Hne]; [|apply (I2 a Ha); now split].
      apply I1. cbn [apply_store m_flag]. now rewrite Nat.eqb_refl.
  - destruct (IH (apply_store m (SWord o i v)) S ltac:(assumption)) as [I1 I2]. now split.
Qed.
End Alone.

Lemma alone_calls_fine {A B} (f : B -> prog A) (g : B -> res A) size val can (S : B -> nat -> Prop) calls :
  (forall x, fine size val can (fun _ _ => False) (g x) (f x)) -> (forall x, ensures (S x) (f x)) ->
  forall m, memory_ok size val can m ->
  let r := alone_calls m (map f calls) in
  fst r = map g calls /\ memory_ok size val can (snd r) /\
  (forall o, m_flag m o = true -> m_flag (snd r) o = true) /\
  forall x a o, In x calls -> g x = Ok a -> S x o -> m_flag (snd r) o = true.
Proof.
  intros Hf Hs. induction calls as [|x calls IH]; intros m Hm; cbn [map alone_calls]; cbv zeta.
  { cbn [fst snd]. split; [reflexivity|]. split; [exact Hm|]. split; [auto|]. intros x a o []. }
  destruct (alone_fine size val can (f x) m (fun _ _ => False) (g x) Hm) as [E M]; [tauto|apply Hf|].
  destruct (alone_ensures (f x) m (S x) (Hs x)) as [F1 F2].
  destruct (alone m (f x)) as [r1 m1]. cbn [fst snd] in *. specialize (IH m1 M). cbv zeta in IH.
  destruct (alone_calls m1 (map f calls)) as [rs m2]. cbn [fst snd] in *. destruct IH as (I1 & I2 & I3 & I4).
  split; [now rewrite E, I1|]. split; [exact I2|]. split; [auto|].
  intros y a o [->|Hy] Hg So; [|now apply (I4 y a)]. apply I3, (F2 a); [congruence|exact So].
Qed.

(** ** Programs that only read *)

Section Ro.
Context (mem : memory).

Definition ro {A} (x : forall B, (A -> prog B) -> prog B) (r : res A) : Prop :=
  forall B k (g : A -> res B), (forall a, r = Ok a -> read_only mem (g a) (k a)) ->
  read_only mem (bind r g) (x B k).

Lemma ro_lift {A} (r : res A) : ro (fun B => @plift A B r) r.
Proof. intros B k g H. destruct r; cbn [plift bind]; [now apply H|constructor|constructor|constructor]. Qed.

Lemma ro_bind {A C} (x : forall B, (A -> prog B) -> prog B) r (f : A -> forall B, (C -> prog B) -> prog B) h :
  ro x r -> (forall a, r = Ok a -> ro (f a) (h a)) ->
  ro (fun B k => x B (fun a => f a B k)) (bind r h).
Proof.
  intros Hx Hf B k g H. rewrite bind_assoc. apply Hx. intros a E. apply (Hf a E). intros c Ec.
  apply H. rewrite E. exact Ec.
Qed.

Lemma ro_call {A} (x : forall B, (A -> prog B) -> prog B) r : ro x r ->
  read_only mem r (x A (fun a => Ret (Ok a))).
Proof.
  intros H. replace r with (bind r (@Ok A)) by now destruct r.
  apply (H A (fun a => Ret (Ok a)) (@Ok A)). intros a _. constructor.
Qed.
End Ro.

(** The BlkCached objects an object certainly asks. *)
Fixpoint asks {W} (o : @blk W) (n : nat) : Prop :=
  match o with
  | BRaw _ | BFixed _ | BUser _ | BIterKey _ _ _ _ => False
  | BXored a b => asks a n \/ asks b n
  | BShifted a _ | BIncremented a | BR a | BL a | BS a | BIfHighBit a _ => asks a n
  | BCached i => n = i
  | BEncrypted a k => asks a n \/ exists j, (j < 10)%nat /\ n = (10 * k + j)%nat
  end.

Section KuzMore.
Context {W : Type} (m : mode) (data : nat -> @blk W * @blk W).

Definition en {A} (x : forall B, (A -> prog B) -> prog B) (S : nat -> Prop) : Prop :=
  forall B k (T : nat -> Prop), (forall v, ensures (fun o => T o /\ ~ S o) (k v)) -> @ensures B T (x B k).

Lemma ensures_weaken {A} (p : prog A) : forall S T : nat -> Prop, (forall o, T o -> S o) -> ensures S p -> ensures T p.
Proof.
  induction p as [r0|o k IH|o i k IH|o b p IH|o i v p IH]; intros S T H Hs; inversion Hs; subst.
  - apply en_ret. firstorder.
  - now apply en_fail.
  - apply en_rdflag; [eapply IH; [|eassumption]; cbv beta; firstorder|now apply (IH false S)].
  - apply en_rdword. intros v. now apply (IH v S).
  - apply en_wrflag. eapply IH; [|eassumption]. cbv beta. firstorder.
  - apply en_wrword. now apply (IH S).
Qed.

Lemma en_lift {A} (r : res A) : en (fun B => @plift A B r) (fun _ => False).
Proof.
  intros B k T H. destruct r; cbn [plift]; try (apply en_fail; discriminate).
  eapply ensures_weaken; [|apply H]. cbv beta. tauto.
Qed.

Lemma en_weaken {A} (x : forall B, (A -> prog B) -> prog B) (S T : nat -> Prop) :
  (forall o, T o -> S o) -> en x S -> en x T.
Proof. intros H Hx B k U Hk. apply Hx. intros v. eapply ensures_weaken; [|apply Hk]. cbv beta. firstorder. Qed.

Lemma en_bind {A C} (x : forall B, (A -> prog B) -> prog B) (f : A -> forall B, (C -> prog B) -> prog B) S T :
  en x S -> (forall a, en (f a) T) -> en (fun B k => x B (fun a => f a B k)) (fun o => S o \/ T o).
Proof.
  intros Hx Hf B k U Hk. apply Hx. intros a. apply Hf. intros c. eapply ensures_weaken; [|apply Hk]. cbv beta. tauto.
Qed.

Lemma en_fuel {A} S : en (fun B (k : A -> prog B) => Ret OutOfFuel) S.
Proof. intros B k T _. now apply en_fail. Qed.

Lemma asks_transform j : forall (o : @blk W) n, asks (transform o j) n <-> asks o n.
Proof. induction j as [|j IH]; intros o n; [reflexivity|]. cbn [transform]. rewrite IH. reflexivity. Qed.

Lemma asks_encrypt k (o : @blk W) n : asks (encrypt k o) n <-> asks o n \/ exists j, (j < 10)%nat /\ n = (10 * k + j)%nat.
Proof.
  unfold encrypt, encrypt_step, round_key. cbn [asks]. split.
  - intros H. repeat match goal with H : _ \/ _ |- _ => destruct H end;
      [now left|right; exists 0%nat|right; exists 1%nat|right; exists 2%nat|right; exists 3%nat|right; exists 4%nat
      |right; exists 5%nat|right; exists 6%nat|right; exists 7%nat|right; exists 8%nat|right; exists 9%nat]; lia.
  - intros [H|(j & Hj & ->)]; [now repeat left|].
    do 10 (destruct j as [|j]; [tauto|]). lia.
Qed.

Lemma value_en d : forall o : @blk W, en (fun B => @value_prog W B m data d o) (asks o).
Proof.
  induction d as [|d IH]; intros o; [apply en_fuel|].
  assert (L1 : forall a (f : N * N -> kblock), en (fun B k => value_prog m data d a (fun x => plift (f x) k)) (asks a)).
  { intros a f. eapply en_weaken; [|apply (en_bind (fun B => @value_prog W B m data d a) (fun x B => plift (f x))); [apply IH|]].
    - cbv beta. intros n Hn. left. exact Hn.
    - intros x. apply en_lift. }
  destruct o; cbn [value_prog asks].
  - apply (en_lift (Ok v)).
  - apply en_lift.
  - apply en_fuel.
  - apply (en_bind (fun B => @value_prog W B m data d o1) (fun x B k => value_prog m data d o2 (fun y => plift (KXored (Ok x) (Ok y)) k))); [apply IH|].
    intros x. apply (L1 o2 (fun y => KXored (Ok x) (Ok y))).
  - apply (L1 o (fun x => KShifted m (Ok x) n)).
  - apply (L1 o (fun x => KIncremented (Ok x))).
  - apply (L1 o (fun x => KR (Ok x))).
  - eapply en_weaken; [|apply IH]. intros n Hn. now apply asks_transform.
  - apply (L1 o (fun x => KS (Ok x))).
  - eapply en_weaken; [|apply (en_bind (fun B => plift (generate (Z.to_nat (c2 - c1 + 1)) o2 o1 c1 c2))
                          (fun t B => @value_prog W B m data d t) (fun _ => False) (fun _ => False)); [apply en_lift|]].
    + intros n [].
    + intros t. eapply en_weaken; [|apply IH]. intros n [].
  - intros B k T Hk. unfold blk_call. apply en_rdflag.
    + apply en_rdword. intros a. apply en_rdword. intros b. apply Hk.
    + apply IH. intros v. apply en_wrword, en_wrword, en_wrflag, en_rdword. intros a. apply en_rdword. intros b.
      eapply ensures_weaken; [|apply Hk]. cbv beta. tauto.
  - eapply en_weaken; [|apply IH]. intros n Hn. now apply asks_encrypt.
  - eapply en_weaken; [|apply (en_bind (fun B => @value_prog W B m data d o1)
             (fun x B k => if N.land (snd x) 0x8000000000000000 =? 0 then value_prog m data d (BShifted o1 1) k
                           else value_prog m data d (BXored (BShifted o1 1) o2) k) (asks o1) (fun _ => False)); [apply IH|]].
    + intros n Hn. now left.
    + intros x. destruct (_ =? 0); (eapply en_weaken; [|apply IH]; intros n []).
Qed.

(** All caches that the object asks are filled: no writes, and the values in the caches
    are what counts. *)
Context (mem : memory) (env : nat -> kkey) (cost : nat -> nat) (Hc : cost_grows cost).

Definition filled (n : nat) : Prop :=
  m_flag mem n = true /\ rk (env (n / 10)%nat) (n mod 10) = Ok (m_word mem n 0%nat, m_word mem n 1%nat).

(** Like [asks], for all the caches that the object may ask. *)
Fixpoint within (P : nat -> Prop) (o : @blk W) : Prop :=
  match o with
  | BRaw _ | BFixed _ | BUser _ => True
  | BXored a b | BIfHighBit a b | BIterKey a b _ _ => within P a /\ within P b
  | BShifted a _ | BIncremented a | BR a | BL a | BS a => within P a
  | BCached i => P i
  | BEncrypted a k => within P a /\ forall j, (j < 10)%nat -> P (10 * k + j)%nat
  end.

Lemma within_transform P j : forall o, within P o -> within P (transform o j).
Proof. induction j as [|j IH]; intros o H; [exact H|]. cbn [transform]. now apply IH. Qed.

Lemma within_generate P j : forall (a b : @blk W) i c2 o, within P a -> within P b ->
  generate j a b i c2 = Ok o -> within P o.
Proof.
  induction j as [|j IH]; intros a b i c2 o Ha Hb; cbn [generate];
    destruct (c2 <? i)%Z; intros H; try discriminate; try (now injection H as <-).
  destruct (i =? _)%Z; [discriminate|]. cbv zeta in H.
  apply (IH _ _ _ _ _ Hb) in H; [exact H|]. cbn [within]. tauto.
Qed.

Lemma within_encrypt P k (o : @blk W) : within P o -> (forall j, (j < 10)%nat -> P (10 * k + j)%nat) ->
  within P (encrypt k o).
Proof.
  intros Ho Hk. unfold encrypt, encrypt_step, round_key. cbn [within].
  repeat split; (exact Ho || (apply Hk; lia)).
Qed.

Lemma value_ro d : forall o, pure o -> within filled o -> (depth cost o <= d)%nat ->
  ro mem (fun B => @value_prog W B m data d o) (sem m env o).
Proof.
  induction d as [|d IH]; intros o Ho Hw Hd; [destruct o; cbn [depth] in Hd; lia|].
  assert (L1 : forall a (f : N * N -> kblock), pure a -> within filled a -> (depth cost a <= d)%nat ->
    ro mem (fun B k => value_prog m data d a (fun x => plift (f x) k)) (bind (sem m env a) f)).
  { intros a f Ha Hwa Hda. apply (ro_bind mem (fun B => @value_prog W B m data d a) _ (fun x B => plift (f x))); [now apply IH|].
    intros x _. apply ro_lift. }
  destruct o; cbn [value_prog sem]; cbn [depth] in Hd; cbn [pure] in Ho; cbn [within] in Hw.
  - apply (ro_lift mem (Ok v)).
  - apply ro_lift.
  - destruct Ho.
  - rewrite KXored_strict.
    apply (ro_bind mem (fun B => @value_prog W B m data d o1) _
             (fun x B k => value_prog m data d o2 (fun y => plift (KXored (Ok x) (Ok y)) k))); [apply IH; [tauto|tauto|lia]|].
    intros x _. apply (L1 o2 (fun y => KXored (Ok x) (Ok y))); [tauto|tauto|lia].
  - rewrite KShifted_strict. apply (L1 o (fun x => KShifted m (Ok x) n)); [tauto|tauto|lia].
  - rewrite KIncremented_strict. apply (L1 o (fun x => KIncremented (Ok x))); [tauto|tauto|lia].
  - rewrite KR_strict. apply (L1 o (fun x => KR (Ok x))); [tauto|tauto|lia].
  - unfold KL. rewrite <- sem_transform. apply IH; [now apply pure_transform|now apply within_transform|].
    rewrite (depth_transform data). lia.
  - rewrite KS_strict. apply (L1 o (fun x => KS (Ok x))); [tauto|tauto|lia].
  - unfold KIterKey. rewrite <- sem_generate.
    apply (ro_bind mem (fun B => plift (generate (Z.to_nat (c2 - c1 + 1)) o2 o1 c1 c2)) _
             (fun t B => @value_prog W B m data d t)); [apply ro_lift|].
    intros t Ht. apply IH.
    + now apply (pure_generate data _ _ _ _ _ _ (proj2 Ho) (proj1 Ho) Ht).
    + now apply (within_generate filled _ _ _ _ _ _ (proj2 Hw) (proj1 Hw) Ht).
    + apply (depth_generate data cost (Nat.max 18 (Nat.max (depth cost o1) (depth cost o2)))) in Ht; lia.
  - destruct Hw as [Hf Hv]. rewrite Hv. intros B k g Hk. cbn [bind]. unfold blk_call. constructor. rewrite Hf.
    constructor. constructor. now apply Hk.
  - rewrite <- (sem_encrypt m data). apply IH; [now apply (pure_encrypt data)|now apply within_encrypt|].
    pose proof (depth_encrypt data cost k o Hc) as H. cbn [depth] in H. lia.
  - unfold KXoredIfHighBit.
    change (KShifted m (sem m env o1) 1) with (sem m env (BShifted o1 1)).
    change (KXored (sem m env (BShifted o1 1)) (sem m env o2)) with (sem m env (BXored (BShifted o1 1) o2)).
    apply (ro_bind mem (fun B => @value_prog W B m data d o1) _
             (fun x B k => if N.land (snd x) 0x8000000000000000 =? 0 then value_prog m data d (BShifted o1 1) k
                           else value_prog m data d (BXored (BShifted o1 1) o2) k)); [apply IH; [tauto|tauto|lia]|].
    intros [x y] _. cbv beta iota zeta. cbn [snd].
    destruct (_ =? 0); (apply IH; [cbn [pure]; tauto|cbn [within]; tauto|cbn [depth]; lia]).
Qed.
End KuzMore.

(** ** Stores out of order *)

Section Pso.
Context {A : Type}.
Notation thread := (@thread A).
Notation config := (@config A).

(** The result of a program and the stores it makes. *)
Fixpoint solo (m : memory) (p : prog A) : res A * list store :=
  match p with
  | Ret r => (r, [])
  | RdFlag o k => solo m (k (m_flag m o))
  | RdWord o i k => solo m (k (m_word m o i))
  | WrFlag o b p => let (r, s) := solo (apply_store m (SFlag o b)) p in (r, SFlag o b :: s)
  | WrWord o i v p => let (r, s) := solo (apply_store m (SWord o i v)) p in (r, SWord o i v :: s)
  end.

Lemma solo_alone (p : prog A) : forall m,
  alone m p = (fst (solo m p), fold_left apply_store (snd (solo m p)) m).
Proof.
  induction p as [r0|o k IH|o i k IH|o b p IH|o i v p IH]; intros m; cbn [alone solo].
  - reflexivity.
  - apply IH.
  - apply IH.
  - rewrite IH. now destruct (solo (apply_store m (SFlag o b)) p).
  - rewrite IH. now destruct (solo (apply_store m (SWord o i v)) p).
Qed.

Lemma solo_ro m r p : read_only m r p -> solo m p = (r, []).
Proof. induction 1; cbn [solo]; auto. Qed.

Lemma set_thread_twice (l : list thread) : forall i t t', set_thread (set_thread l i t) i t' = set_thread l i t'.
Proof. induction l as [|x l IH]; intros i t t'; [reflexivity|]. destruct i; cbn [set_thread]; [reflexivity|now rewrite IH]. Qed.

Lemma set_thread_id (l : list thread) : forall i t, nth_error l i = Some t -> set_thread l i t = l.
Proof.
  induction l as [|x l IH]; intros i t H; [reflexivity|]. destruct i; cbn [set_thread nth_error] in *; [congruence|].
  now rewrite (IH i t H).
Qed.

Lemma exec_one mo (c : config) ev c' : step mo c ev c' -> exec mo c ev c'.
Proof. intros H. change ev with ([] ++ ev). apply (exec_step mo c [] c); [constructor|exact H]. Qed.

(** A thread makes its call, nothing else happens, and no store becomes visible. *)
Lemma exec_solo (p : prog A) : forall (c : config) i t ps,
  nth_error (c_threads c) i = Some t -> t_calls t = p :: ps ->
  exists tr, exec PSO c tr (Config (c_mem c) (set_thread (c_threads c) i
    (Thread ps (t_results t ++ [fst (solo (view (c_mem c) t) p)])
            (t_buffer t ++ snd (solo (view (c_mem c) t) p))))).
Proof.
  assert (G : forall (c : config) i t p' ps rs b e ev t2,
    nth_error (c_threads c) i = Some t ->
    thread_step (c_mem c) t = Some (Thread (p' :: ps) rs b, e) ->
    ev = match e with Some (l, w) => [(i, l, w)] | None => [] end ->
    (exists tr, exec PSO (Config (c_mem c) (set_thread (c_threads c) i (Thread (p' :: ps) rs b))) tr
       (Config (c_mem c) (set_thread (set_thread (c_threads c) i (Thread (p' :: ps) rs b)) i t2))) ->
    exists tr, exec PSO c tr (Config (c_mem c) (set_thread (c_threads c) i t2))).
  { intros c i t p' ps rs b e ev t2 Ht Hs -> [tr H]. rewrite set_thread_twice in H. eexists.
    eapply exec_app; [|exact H]. apply exec_one. exact (step_run PSO c i t _ e Ht Hs). }
  assert (V : forall m b s, fold_left apply_store (b ++ [s]) m = apply_store (fold_left apply_store b m) s)
    by (intros m b s; now rewrite fold_left_app).
  induction p as [r0|o k IH|o i0 k IH|o b0 p IH|o i0 v p IH]; intros c i t ps Ht Hc; cbn [solo].
  - exists []. cbn [fst snd]. rewrite app_nil_r. apply exec_one.
    refine (step_run PSO c i t _ None Ht _). unfold thread_step. now rewrite Hc.
  - eapply (G c i t); [exact Ht|unfold thread_step; rewrite Hc; reflexivity|reflexivity|].
    pose proof (IH (m_flag (view (c_mem c) t) o) (Config (c_mem c) (set_thread (c_threads c) i
      (Thread (k (m_flag (view (c_mem c) t) o) :: ps) (t_results t) (t_buffer t)))) i _ ps
      (set_thread_same _ _ _ (nth_error_lt _ _ _ Ht)) eq_refl) as [tr H]. exists tr. exact H.
  - eapply (G c i t); [exact Ht|unfold thread_step; rewrite Hc; reflexivity|reflexivity|].
    pose proof (IH (m_word (view (c_mem c) t) o i0) (Config (c_mem c) (set_thread (c_threads c) i
      (Thread (k (m_word (view (c_mem c) t) o i0) :: ps) (t_results t) (t_buffer t)))) i _ ps
      (set_thread_same _ _ _ (nth_error_lt _ _ _ Ht)) eq_refl) as [tr H]. exists tr. exact H.
  - eapply (G c i t); [exact Ht|unfold thread_step; rewrite Hc; reflexivity|reflexivity|].
    pose proof (IH (Config (c_mem c) (set_thread (c_threads c) i
      (Thread (p :: ps) (t_results t) (t_buffer t ++ [SFlag o b0])))) i _ ps
      (set_thread_same _ _ _ (nth_error_lt _ _ _ Ht)) eq_refl) as [tr H]. exists tr.
    cbn [c_mem c_threads t_results t_buffer] in H. unfold view in H at 1 2. cbn [t_buffer] in H. rewrite V in H.
    unfold view. destruct (solo _ p) as [r s]. cbn [fst snd] in *. rewrite <- app_assoc in H. exact H.
  - eapply (G c i t); [exact Ht|unfold thread_step; rewrite Hc; reflexivity|reflexivity|].
    pose proof (IH (Config (c_mem c) (set_thread (c_threads c) i
      (Thread (p :: ps) (t_results t) (t_buffer t ++ [SWord o i0 v])))) i _ ps
      (set_thread_same _ _ _ (nth_error_lt _ _ _ Ht)) eq_refl) as [tr H]. exists tr.
    cbn [c_mem c_threads t_results t_buffer] in H. unfold view in H at 1 2. cbn [t_buffer] in H. rewrite V in H.
    unfold view. destruct (solo _ p) as [r s]. cbn [fst snd] in *. rewrite <- app_assoc in H. exact H.
Qed.

(** All flag stores become visible before any other store. *)
Lemma flush_flags i : forall rest ws (c : config) t,
  nth_error (c_threads c) i = Some t -> t_buffer t = ws ++ rest -> Forall no_flag_store ws ->
  exists m b, exec PSO c [] (Config m (set_thread (c_threads c) i (Thread (t_calls t) (t_results t) b))) /\
    (forall o j, m_word m o j = m_word (c_mem c) o j) /\
    (forall o, m_flag m o = m_flag (fold_left apply_store rest (c_mem c)) o).
Proof.
  assert (F : forall rest m m', (forall o, m_flag m o = m_flag m' o) ->
    forall o, m_flag (fold_left apply_store rest m) o = m_flag (fold_left apply_store rest m') o).
  { induction rest as [|s rest IH]; intros m m' H o; [apply H|]. cbn [fold_left]. apply IH. intros x.
    destruct s as [p b|p j v]; cbn [apply_store m_flag]; [now destruct (Nat.eqb x p)|apply H]. }
  induction rest as [|s rest IH]; intros ws c t Ht Hb Hw.
  - exists (c_mem c), (t_buffer t). split; [|split; reflexivity].
    replace (Thread (t_calls t) (t_results t) (t_buffer t)) with t by now destruct t.
    rewrite set_thread_id by exact Ht. destruct c. constructor.
  - destruct s as [p b|p j v].
    + pose (c1 := Config (apply_store (c_mem c) (SFlag p b))
        (set_thread (c_threads c) i (Thread (t_calls t) (t_results t) (ws ++ rest)))).
      assert (S1 : step PSO c [] c1).
      { apply (step_flush PSO c i t ws (SFlag p b) rest Ht Hb). intros x Hx. rewrite Forall_forall in Hw.
        apply Hw in Hx. destruct Hx as (? & ? & ? & ->). discriminate. }
      destruct (IH ws c1 (Thread (t_calls t) (t_results t) (ws ++ rest))) as (m & b' & E & M1 & M2);
        [apply set_thread_same; now apply nth_error_lt in Ht|reflexivity|exact Hw|].
      exists m, b'. cbn [c1 c_threads c_mem t_calls t_results] in *. rewrite set_thread_twice in E.
      split; [|split].
      * change (@nil access) with (@nil access ++ []). eapply exec_app; [apply exec_one; exact S1|exact E].
      * intros o j. now rewrite M1.
      * intros o. now rewrite M2.
    + destruct (IH (ws ++ [SWord p j v]) c t Ht) as (m & b' & E & M1 & M2).
      { now rewrite <- app_assoc. }
      { apply Forall_app. split; [exact Hw|]. repeat constructor. now exists p, j, v. }
      exists m, b'. split; [exact E|]. split; [exact M1|]. intros o. rewrite M2. cbn [fold_left].
      now apply F.
Qed.

(** One thread makes the call [p], but only its flags become visible; then another one
    makes the call [q]. *)
Lemma early_flags (p q : prog A) m r' :
  (forall mem, (forall o j, m_word mem o j = m_word m o j) ->
     (forall o, m_flag mem o = m_flag (snd (alone m p)) o) -> read_only mem r' q) ->
  exists tr c, exec PSO (start m [[p]; [q]]) tr c /\
    map (fun t => t_results t) (c_threads c) = [[fst (alone m p)]; [r']].
Proof.
  intros Hq. destruct (exec_solo p (start m [[p]; [q]]) 0%nat (Thread [p] [] []) [] eq_refl eq_refl) as [tr1 E1].
  cbn [start c_mem c_threads map set_thread t_results t_buffer app] in E1.
  change (view m (Thread [p] [] [])) with m in E1.
  rewrite (solo_alone p) in *. cbn [fst snd] in *. destruct (solo m p) as [r s]. cbn [fst snd] in *.
  destruct (flush_flags 0%nat s [] (Config m [Thread [] [r] s; Thread [q] [] []]) (Thread [] [r] s) eq_refl eq_refl)
    as (mem & b & E2 & M1 & M2); [constructor|].
  cbn [c_mem c_threads set_thread t_calls t_results] in *.
  destruct (exec_solo q (Config mem [Thread [] [r] b; Thread [q] [] []]) 1%nat (Thread [q] [] []) [] eq_refl eq_refl)
    as [tr3 E3].
  cbn [c_mem c_threads set_thread t_results t_buffer app] in E3. change (view mem (Thread [q] [] [])) with mem in E3.
  rewrite (solo_ro mem r' q (Hq mem M1 M2)) in E3. cbn [fst snd] in E3.
  eexists. eexists. split; [eapply exec_app; [exact E1|]; eapply exec_app; [exact E2|exact E3]|]. reflexivity.
Qed.
End Pso.
