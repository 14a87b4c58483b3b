(** Proofs about DeepModel.v: the objects compute what KuzModel.v says, every cache is
    filled at most once, and how deep value() calls nest. *)
From Verif Require Import Base KuzModel DeepModel SpecDeep SpecIter Lib KuzStreamProofs.
From Coq Require Import ZifyNat ZifyN ZifyBool Lia.
Local Open Scope N_scope.
Ltac Zify.zify_post_hook ::= idtac.

Section Proofs.
Context {W : Type} (m : mode) (data : nat -> @blk W * @blk W).
Notation blk := (@blk W).
Notation state := (@state W).
Notation value := (value m data).
Notation heap := (heap data).

(** ** Which caches an object can fill *)

Lemma below_mono (o : blk) n n' : (n <= n')%nat -> below n o -> below n' o.
Proof.
  intros Hn. induction o; cbn [below]; intros H; try tauto; try (split; tauto); try lia.
  split; [tauto|lia].
Qed.

Lemma below_exists (o : blk) : exists n, below n o.
Proof.
  induction o; cbn [below];
    try (now exists O);
    try (destruct IHo as [x Hx]; now exists x);
    try (destruct IHo1 as [n1 H1]; destruct IHo2 as [n2 H2]; exists (Nat.max n1 n2); split;
         [now apply (below_mono _ n1); [lia|]|now apply (below_mono _ n2); [lia|]]).
  - exists (Datatypes.S n). lia.
  - destruct IHo as [n Hn]. exists (Nat.max n (10 * k + 10)). split; [|lia].
    now apply (below_mono _ n); [lia|].
Qed.

Lemma below_transform n j : forall o : blk, below n o -> below n (transform o j).
Proof. induction j as [|j IH]; intros o H; [exact H|]. cbn [transform]. now apply IH. Qed.

Lemma below_generate n j : forall (a b : blk) i c2 o, below n a -> below n b ->
  generate j a b i c2 = Ok o -> below n o.
Proof.
  induction j as [|j IH]; intros a b i c2 o Ha Hb; cbn [generate];
    destruct (c2 <? i)%Z; intros H; try discriminate; try (now injection H as <-).
  destruct (i =? _)%Z; [discriminate|]. cbv zeta in H.
  apply (IH _ _ _ _ _ Hb) in H; [exact H|]. cbn [below]. tauto.
Qed.

Lemma below_encrypt n k (o : blk) : below n o -> (10 * k + 9 < n)%nat -> below n (encrypt k o).
Proof. intros Ho Hn. unfold encrypt, encrypt_step, round_key. cbn [below]. repeat split; (assumption || lia). Qed.

Lemma below_heap n : built_in_order data -> below n (heap n).
Proof.
  intros Hd. pose proof (Nat.div_mod n 10 ltac:(discriminate)) as E.
  pose proof (Nat.mod_upper_bound n 10 ltac:(discriminate)) as Hm. unfold heap, DeepModel.heap, round_key.
  destruct (Hd (n / 10)%nat) as [H1 H2].
  set (k := (n / 10)%nat) in *. set (j := (n mod 10)%nat) in *. clearbody k j.
  do 10 (destruct j as [|j];
         [cbn [below]; try (split; lia); (eapply below_mono; [|eassumption]; lia)|]).
  lia.
Qed.

(** ** Every cache is filled at most once *)

Definition logged_once (s : state) : Prop :=
  NoDup (st_log s) /\ forall i, In i (st_log s) <-> st_cache s i <> None.

Definition kept (n : nat) (s s' : state) : Prop :=
  forall i, (n <= i)%nat -> st_cache s' i = st_cache s i.

Lemma kept_refl n s : kept n s s. Proof. now intros i _. Qed.
Lemma kept_trans n s1 s2 s3 : kept n s1 s2 -> kept n s2 s3 -> kept n s1 s3.
Proof. intros H1 H2 i Hi. rewrite H2 by exact Hi. now apply H1. Qed.

(** Nothing that was cached is forgotten or changed. *)
Definition grows (s s' : state) : Prop :=
  forall i v, st_cache s i = Some v -> st_cache s' i = Some v.

Definition good (n : nat) (s s' : state) : Prop := logged_once s' /\ kept n s s' /\ grows s s'.

Lemma good_refl n s : logged_once s -> good n s s.
Proof. intros H. split; [exact H|]. split; [apply kept_refl|]. now intros i v. Qed.

Lemma good_trans n s1 s2 s3 : good n s1 s2 -> good n s2 s3 -> good n s1 s3.
Proof.
  intros (A1 & A2 & A3) (B1 & B2 & B3). split; [exact B1|]. split; [now apply (kept_trans n s1 s2)|].
  intros i v H. now apply B3, A3.
Qed.

Lemma good_bind {A B} n s (x : M state A) (f : A -> M state B) :
  good n s (snd (x s)) -> (forall a s', x s = (Ok a, s') -> logged_once s' -> good n s' (snd (f a s'))) ->
  good n s (snd (mbind x f s)).
Proof.
  intros Hx Hf. unfold mbind. destruct (x s) as [r s'] eqn:E. cbn [snd] in Hx.
  destruct r as [a|e|u|]; try exact Hx. apply (good_trans n s s'); [exact Hx|].
  apply (Hf a); [reflexivity|apply Hx].
Qed.

Lemma value_good (Hd : built_in_order data) d : forall (o : blk) n s,
  below n o -> logged_once s -> good n s (snd (value d o s)).
Proof.
  induction d as [|d IH]; intros o n s Ho Hs; [now apply good_refl|].
  destruct o; cbn [DeepModel.value]; cbn [below] in Ho.
  - now apply good_refl.
  - now apply good_refl.
  - destruct (f (st_world s)) as [r w]. cbn [snd]. split; [exact Hs|]. split; [now intros i _|now intros i v].
  - apply good_bind; [now apply IH|]. intros x s1 _ H1.
    apply good_bind; [now apply IH|]. intros y s2 _ H2. now apply good_refl.
  - apply good_bind; [now apply IH|]. intros x s1 _ H1. now apply good_refl.
  - apply good_bind; [now apply IH|]. intros x s1 _ H1. now apply good_refl.
  - apply good_bind; [now apply IH|]. intros x s1 _ H1. now apply good_refl.
  - apply IH; [|exact Hs]. now apply below_transform.
  - apply good_bind; [now apply IH|]. intros x s1 _ H1. now apply good_refl.
  - apply good_bind; [now apply good_refl|]. intros t s1 E H1. apply IH; [|exact H1].
    unfold lift in E. injection E as E ->. now apply (below_generate n _ _ _ _ _ _ (proj2 Ho) (proj1 Ho) E).
  - destruct (st_cache s n0) as [v|] eqn:E; [now apply good_refl|].
    pose proof (IH (heap n0) n0 s (below_heap n0 Hd) Hs) as H.
    destruct (value d (heap n0) s) as [r s'] eqn:Ev. cbn [snd] in H.
    assert (H' : good n s s').
    { destruct H as (A1 & A2 & A3). split; [exact A1|]. split; [|exact A3]. intros i Hi. apply A2. lia. }
    destruct r as [v|e|u|]; try exact H'. cbn [snd].
    destruct H as ((N1 & L1) & K1 & G1). pose proof (K1 n0 (Nat.le_refl _)) as E'. rewrite E in E'.
    split; [|split].
    + split; cbn [fill evaluated st_log st_cache].
      * constructor; [|exact N1]. intros Hin. apply L1 in Hin. congruence.
      * intros i. cbn [In]. destruct (Nat.eqb_spec i n0) as [->|Hne].
        -- split; [discriminate|now left].
        -- rewrite <- L1. split; [intros [->|H]; [congruence|exact H]|now right].
    + intros i Hi. cbn [fill evaluated st_cache]. replace (Nat.eqb i n0) with false by lia. apply H'. exact Hi.
    + intros i x Hx. cbn [fill evaluated st_cache]. destruct (Nat.eqb_spec i n0) as [->|Hne]; [congruence|]. now apply G1.
  - apply IH; [|exact Hs]. now apply below_encrypt.
  - apply good_bind; [now apply IH|]. intros x s1 _ H1.
    destruct (_ =? 0); apply IH; try exact H1; cbn [below]; tauto.
Qed.

Lemma values_good (Hd : built_in_order data) d (os : list blk) : forall s,
  logged_once s -> logged_once (snd (values m data d os s)) /\ grows s (snd (values m data d os s)).
Proof.
  induction os as [|o os IH]; intros s Hs; cbn [values]; [split; [exact Hs|now intros i v]|].
  destruct (below_exists o) as [n Hn]. pose proof (value_good Hd d o n s Hn Hs) as H.
  destruct (value d o s) as [x s1]. cbn [snd] in H. destruct H as (H1 & _ & H3).
  destruct (IH s1 H1) as [I1 I2].
  destruct (values m data d os s1) as [xs s2]. cbn [snd] in *. split; [exact I1|].
  intros i v Hi. now apply I2, H3.
Qed.

Lemma fresh_good (w : W) : logged_once (fresh w).
Proof. split; [constructor|]. intros i. cbn. tauto. Qed.

(** ** What the objects compute *)

(** Round key [j] of a key of KuzModel.v. *)
Definition rk (K : kkey) (j : nat) : kblock :=
  match j with
  | 0%nat => k1 K | 1%nat => k2 K | 2%nat => k3 K | 3%nat => k4 K | 4%nat => k5 K
  | 5%nat => k6 K | 6%nat => k7 K | 7%nat => k8 K | 8%nat => k9 K | _ => k10 K
  end.

(** The outcome of value() as KuzModel.v computes it, for given keys. *)
Fixpoint sem (env : nat -> kkey) (o : blk) : kblock :=
  match o with
  | BRaw v => Ok v
  | BFixed r => r
  | BUser _ => OutOfFuel
  | BXored a b => KXored (sem env a) (sem env b)
  | BShifted a n => KShifted m (sem env a) n
  | BIncremented a => KIncremented (sem env a)
  | BR a => KR (sem env a)
  | BL a => KL (sem env a)
  | BS a => KS (sem env a)
  | BIterKey ka kb c1 c2 => KIterKey (sem env ka) (sem env kb) c1 c2
  | BCached n => rk (env (n / 10)%nat) (n mod 10)
  | BEncrypted a k => KEncrypted (sem env a) (env k)
  | BIfHighBit a b => KXoredIfHighBit m (sem env a) (sem env b)
  end.

(** Nested calls that suffice, given how many suffice for what each cache wraps. *)
Fixpoint depth (cost : nat -> nat) (o : blk) : nat :=
  match o with
  | BRaw _ | BFixed _ | BUser _ => 1
  | BXored a b => 1 + Nat.max (depth cost a) (depth cost b)
  | BShifted a _ | BIncremented a | BR a | BS a => 1 + depth cost a
  | BL a => 17 + depth cost a
  | BIterKey a b c1 c2 =>
      1 + 20 * Z.to_nat (c2 - c1 + 1) + Nat.max 18 (Nat.max (depth cost a) (depth cost b))
  | BCached n => 1 + cost n
  | BEncrypted a k => 173 + Nat.max (depth cost a) (1 + cost (10 * k + 9)%nat)
  | BIfHighBit a b => 2 + Nat.max (1 + depth cost a) (depth cost b)
  end.

Lemma sem_transform env j : forall o, sem env (transform o j) = KL_transform (sem env o) j.
Proof. induction j as [|j IH]; intros o; [reflexivity|]. cbn [transform KL_transform]. apply IH. Qed.

Lemma pure_transform j : forall o : blk, pure o -> pure (transform o j).
Proof. induction j as [|j IH]; intros o H; [exact H|]. cbn [transform]. now apply IH. Qed.

Lemma depth_transform cost j : forall o, depth cost (transform o j) = (j + depth cost o)%nat.
Proof. induction j as [|j IH]; intros o; [reflexivity|]. cbn [transform]. rewrite IH. cbn [depth]. lia. Qed.

Lemma sem_generate env j : forall a b i c2,
  (o <- generate j a b i c2 ;; sem env o) = KIterKey_generate j (sem env a) (sem env b) i c2.
Proof.
  induction j as [|j IH]; intros a b i c2; cbn [generate KIterKey_generate];
    destruct (c2 <? i)%Z; try reflexivity.
  destruct (i =? _)%Z; [reflexivity|]. cbv zeta. rewrite IH. reflexivity.
Qed.

Lemma pure_generate j : forall (a b : blk) i c2 o, pure a -> pure b -> generate j a b i c2 = Ok o -> pure o.
Proof.
  induction j as [|j IH]; intros a b i c2 o Ha Hb; cbn [generate];
    destruct (c2 <? i)%Z; intros H; try discriminate; try (now injection H as <-).
  destruct (i =? _)%Z; [discriminate|]. cbv zeta in H.
  apply (IH _ _ _ _ _ Hb) in H; [exact H|]. cbn [pure]. tauto.
Qed.

Lemma depth_generate cost D j : forall a b i c2 o,
  (18 <= D)%nat -> (depth cost a <= D)%nat -> (depth cost b <= D)%nat ->
  generate j a b i c2 = Ok o -> (depth cost o <= 20 * j + D)%nat.
Proof.
  revert D. induction j as [|j IH]; intros D a b i c2 o HD Ha Hb; cbn [generate];
    destruct (c2 <? i)%Z; intros H; try discriminate; try (injection H as <-; lia).
  destruct (i =? _)%Z; [discriminate|]. cbv zeta in H.
  apply (IH (20 + D)%nat) in H; [lia|lia|lia|]. cbn [depth]. lia.
Qed.

Lemma pure_encrypt k (o : blk) : pure o -> pure (encrypt k o).
Proof. intros H. unfold encrypt, encrypt_step, round_key. cbn [pure]. tauto. Qed.

Definition cost_grows (cost : nat -> nat) : Prop :=
  forall k j, (j <= 9)%nat -> (cost (10 * k + j) <= cost (10 * k + 9))%nat.

Lemma depth_encrypt cost k o : cost_grows cost ->
  (Datatypes.S (depth cost (encrypt k o)) <= depth cost (BEncrypted o k))%nat.
Proof.
  intros Hc. unfold encrypt, encrypt_step, round_key. cbv zeta. cbn [depth].
  pose proof (Hc k 0%nat ltac:(lia)). pose proof (Hc k 1%nat ltac:(lia)).
  pose proof (Hc k 2%nat ltac:(lia)). pose proof (Hc k 3%nat ltac:(lia)).
  pose proof (Hc k 4%nat ltac:(lia)). pose proof (Hc k 5%nat ltac:(lia)).
  pose proof (Hc k 6%nat ltac:(lia)). pose proof (Hc k 7%nat ltac:(lia)).
  pose proof (Hc k 8%nat ltac:(lia)). lia.
Qed.

Lemma sem_encrypt env k o : sem env (encrypt k o) = KEncrypted (sem env o) (env k).
Proof.
  unfold encrypt, encrypt_step, KEncrypted, Key_encrypt, KuzModel.encryptStep, round_key. cbv zeta.
  cbn [sem].
  assert (Hdiv : forall j, (j < 10)%nat -> ((10 * k + j) / 10 = k)%nat).
  { intros j Hj. symmetry. now apply (Nat.div_unique _ _ _ j). }
  assert (Hmod : forall j, (j < 10)%nat -> ((10 * k + j) mod 10 = j)%nat).
  { intros j Hj. symmetry. now apply (Nat.mod_unique _ _ k). }
  rewrite !Hdiv, !Hmod by lia. reflexivity.
Qed.

(** The keys of [env] come from the key data. *)
Definition keys_of (env : nat -> kkey) : Prop :=
  forall k, env k = Key_blocks (sem env (fst (data k))) (sem env (snd (data k))).

Lemma schedule h l (K := Key_blocks h l) :
  k1 K = h /\ k2 K = l /\
  k3 K = KIterKey (k1 K) (k2 K) 1 8 /\ k4 K = KIterKey (k1 K) (k2 K) 1 7 /\
  k5 K = KIterKey (k3 K) (k4 K) 9 16 /\ k6 K = KIterKey (k3 K) (k4 K) 9 15 /\
  k7 K = KIterKey (k5 K) (k6 K) 17 24 /\ k8 K = KIterKey (k5 K) (k6 K) 17 23 /\
  k9 K = KIterKey (k7 K) (k8 K) 25 32 /\ k10 K = KIterKey (k7 K) (k8 K) 25 31.
Proof. unfold K, Key_blocks, KCached. cbn [k1 k2 k3 k4 k5 k6 k7 k8 k9 k10]. generalize KIterKey. auto 10. Qed.

Lemma sem_heap env : keys_of env -> forall n, sem env (heap n) = rk (env (n / 10)%nat) (n mod 10).
Proof.
  intros He n. unfold heap, DeepModel.heap, round_key.
  pose proof (Nat.mod_upper_bound n 10 ltac:(discriminate)) as Hm.
  set (k := (n / 10)%nat) in *. set (j := (n mod 10)%nat) in *. clearbody k j.
  assert (Hdiv : forall j, (j < 10)%nat -> ((10 * k + j) / 10 = k)%nat).
  { intros i Hi. symmetry. now apply (Nat.div_unique _ _ _ i). }
  assert (Hmod : forall j, (j < 10)%nat -> ((10 * k + j) mod 10 = j)%nat).
  { intros i Hi. symmetry. now apply (Nat.mod_unique _ _ k). }
  pose proof (schedule (sem env (fst (data k))) (sem env (snd (data k)))) as H. rewrite <- (He k) in H.
  cbv zeta in H.
  destruct H as (H0 & H1 & H2 & H3 & H4 & H5 & H6 & H7 & H8 & H9).
  do 10 (destruct j as [|j];
    [cbn [sem]; rewrite ?Hdiv, ?Hmod by lia; cbn [rk]; try (symmetry; assumption)|]).
  lia.
Qed.

Definition consistent (env : nat -> kkey) (s : state) : Prop :=
  forall n v, st_cache s n = Some v -> rk (env (n / 10)%nat) (n mod 10) = Ok v.

(** [x] computes [r] from every consistent state and keeps the state consistent. *)
Definition gives {A} env (x : M state A) (r : res A) : Prop :=
  forall s, consistent env s -> fst (x s) = r /\ consistent env (snd (x s)).

Lemma gives_lift {A} env (r : res A) : gives env (lift r) r.
Proof. intros s Hs. now split. Qed.

Lemma gives_bind {A B} env (x : M state A) r (f : A -> M state B) (g : A -> res B) :
  gives env x r -> (forall a, r = Ok a -> gives env (f a) (g a)) -> gives env (mbind x f) (bind r g).
Proof.
  intros Hx Hf s Hs. destruct (Hx s Hs) as [E1 C1]. unfold mbind. destruct (x s) as [r' s'].
  cbn [fst snd] in *. subst r'. destruct r as [a|e|u|]; cbn [bind]; try (now split).
  now apply (Hf a).
Qed.

Lemma KXored_strict a b : KXored a b = (x <- a ;; y <- b ;; KXored (Ok x) (Ok y)).
Proof. destruct a as [[? ?]| | |]; reflexivity. Qed.
Lemma KShifted_strict a n : KShifted m a n = (x <- a ;; KShifted m (Ok x) n).
Proof. now destruct a as [[? ?]| | |]. Qed.
Lemma KIncremented_strict a : KIncremented a = (x <- a ;; KIncremented (Ok x)).
Proof. now destruct a as [[? ?]| | |]. Qed.
Lemma KR_strict a : KR a = (x <- a ;; KR (Ok x)).
Proof. now destruct a as [[? ?]| | |]. Qed.
Lemma KS_strict a : KS a = (x <- a ;; KS (Ok x)).
Proof. now destruct a as [[? ?]| | |]. Qed.

Section Pure.
Context (env : nat -> kkey) (cost : nat -> nat).
Context (He : keys_of env) (Hc : cost_grows cost).
Context (Hp : forall n, pure (heap n)) (Hh : forall n, (depth cost (heap n) <= cost n)%nat).

Lemma value_gives d : forall o, pure o -> (depth cost o <= d)%nat -> gives env (value d o) (sem env o).
Proof.
  induction d as [|d IH]; intros o Ho Hd; [destruct o; cbn [depth] in Hd; lia|].
  destruct o; cbn [DeepModel.value sem]; cbn [depth] in Hd; cbn [pure] in Ho.
  - apply gives_lift.
  - apply gives_lift.
  - destruct Ho.
  - rewrite KXored_strict. apply gives_bind; [apply IH; [tauto|lia]|]. intros x _.
    apply gives_bind; [apply IH; [tauto|lia]|]. intros y _. apply gives_lift.
  - rewrite KShifted_strict. apply gives_bind; [apply IH; [tauto|lia]|]. intros x _. apply gives_lift.
  - rewrite KIncremented_strict. apply gives_bind; [apply IH; [tauto|lia]|]. intros x _. apply gives_lift.
  - rewrite KR_strict. apply gives_bind; [apply IH; [tauto|lia]|]. intros x _. apply gives_lift.
  - unfold KL. rewrite <- sem_transform. apply IH; [now apply pure_transform|].
    rewrite depth_transform. lia.
  - rewrite KS_strict. apply gives_bind; [apply IH; [tauto|lia]|]. intros x _. apply gives_lift.
  - unfold KIterKey. rewrite <- sem_generate. apply gives_bind; [apply gives_lift|].
    intros t Ht. apply IH.
    + now apply (pure_generate _ _ _ _ _ _ (proj2 Ho) (proj1 Ho) Ht).
    + apply (depth_generate cost (Nat.max 18 (Nat.max (depth cost o1) (depth cost o2)))) in Ht; lia.
  - intros s Hs. destruct (st_cache s n) as [v|] eqn:E.
    + cbn [fst snd]. split; [|exact Hs]. symmetry. now apply Hs.
    + pose proof (Hh n) as Hn. destruct (IH (heap n) (Hp n) ltac:(lia) s Hs) as [E1 C1].
      rewrite (sem_heap env He) in E1. destruct (value d (heap n) s) as [r s']. cbn [fst snd] in *.
      destruct r as [v|e|u|]; cbn [fst snd]; (split; [exact E1|]); try exact C1.
      intros i x. cbn [fill evaluated st_cache]. destruct (Nat.eqb_spec i n) as [->|Hne]; [|apply C1].
      intros H. injection H as <-. now symmetry.
  - rewrite <- sem_encrypt. apply IH; [now apply pure_encrypt|].
    pose proof (depth_encrypt cost k o Hc) as H. cbn [depth] in H. lia.
  - unfold KXoredIfHighBit.
    apply gives_bind; [apply IH; [tauto|lia]|]. intros [x y] _. cbv beta iota zeta. cbn [snd].
    change (KShifted m (sem env o1) 1) with (sem env (BShifted o1 1)).
    change (KXored (sem env (BShifted o1 1)) (sem env o2)) with (sem env (BXored (BShifted o1 1) o2)).
    destruct (_ =? 0); (apply IH; [cbn [pure]; tauto|cbn [depth]; lia]).
Qed.

Lemma values_gives d os : Forall pure os -> Forall (fun o => (depth cost o <= d)%nat) os ->
  forall s, consistent env s -> fst (values m data d os s) = map (sem env) os /\
                                consistent env (snd (values m data d os s)).
Proof.
  induction os as [|o os IH]; intros H1 H2 s Hs; [now split|].
  inversion H1; subst. inversion H2; subst. cbn [values map].
  destruct (value_gives d o ltac:(assumption) ltac:(assumption) s Hs) as [E1 C1].
  destruct (value d o s) as [x s1]. cbn [fst snd] in *.
  destruct (IH ltac:(assumption) ltac:(assumption) s1 C1) as [E2 C2].
  destruct (values m data d os s1) as [xs s2]. cbn [fst snd] in *. split; [now subst|exact C2].
Qed.

(** Imit. *)
Lemma dimit_loop_sem {I} (ops : iter_ops I) k fuel : forall iter b,
  kimit_loop fuel ops (env k) iter (sem env b) =
  ('(it, o) <- dimit_loop fuel ops k iter b ;; Ok (it, sem env o)).
Proof.
  induction fuel as [|fuel IH]; intros iter b; [reflexivity|]. cbn [kimit_loop dimit_loop].
  destruct (deref iter) as [i| | |]; try reflexivity. cbn [bind].
  destruct (it_last ops i) as [[]| | |]; try reflexivity. cbn [bind].
  destruct (it_value ops i) as [v| | |]; try reflexivity. cbn [bind].
  destruct (it_next ops i) as [n| | |]; try reflexivity. cbn [bind].
  rewrite <- IH. reflexivity.
Qed.

Lemma dimit_object_sem {I} (ops : iter_ops I) k fuel iter :
  KImit fuel m ops iter (env k) = (o <- dimit_object fuel ops iter k ;; sem env o).
Proof.
  unfold KImit, dimit_object. destruct iter as [it| | |]; try reflexivity. cbn [bind].
  change KRaw0 with (sem env (BRaw (0, 0))). rewrite dimit_loop_sem.
  destruct (dimit_loop fuel ops k it (BRaw (0, 0))) as [[it' b]| | |]; try reflexivity. cbn [bind].
  destruct (deref it') as [i| | |]; try reflexivity. cbn [bind].
  destruct (it_value ops i) as [v| | |]; try reflexivity. cbn [bind].
  destruct (it_size ops i) as [sz| | |]; try reflexivity. cbn [bind].
  destruct (sz =? kblock_size); reflexivity.
Qed.

Lemma dimit_loop_depth {I} (ops : iter_ops I) k D : (2 + cost (10 * k + 9) <= D)%nat ->
  forall fuel iter b it o, pure b -> (depth cost b <= D)%nat ->
  dimit_loop fuel ops k iter b = Ok (it, o) -> pure o /\ (174 + depth cost o <= 174 * fuel + D)%nat.
Proof.
  intros HD fuel. revert D HD. induction fuel as [|fuel IH]; intros D HD iter b it o Hb Hd; [discriminate|].
  cbn [dimit_loop].
  destruct (deref iter) as [i| | |]; try discriminate. cbn [bind].
  destruct (it_last ops i) as [[]| | |]; try discriminate; cbn [bind].
  - intros H. injection H as <- <-. split; [exact Hb|lia].
  - destruct (it_value ops i) as [v| | |]; try discriminate. cbn [bind].
    destruct (it_next ops i) as [n| | |]; try discriminate. cbn [bind].
    intros H. apply (IH (174 + D)%nat) in H; [|lia|cbn [pure]; tauto|cbn [depth]; lia].
    split; [tauto|lia].
Qed.

Lemma dimit_object_depth {I} (ops : iter_ops I) k fuel iter o :
  dimit_object fuel ops iter k = Ok o ->
  pure o /\ (depth cost o <= 174 * fuel + (180 + cost (10 * k + 9)))%nat.
Proof.
  unfold dimit_object. destruct iter as [it| | |]; try discriminate. cbn [bind].
  destruct (dimit_loop fuel ops k it (BRaw (0, 0))) as [[it' b]| | |] eqn:E; try discriminate. cbn [bind].
  assert (Hf : (1 <= fuel)%nat) by (destruct fuel; [discriminate|lia]).
  apply (dimit_loop_depth ops k (2 + cost (10 * k + 9)) (Nat.le_refl _)) in E; [|exact Logic.I|cbn [depth]; lia].
  destruct (deref it') as [i| | |]; try discriminate. cbn [bind].
  destruct (it_value ops i) as [v| | |]; try discriminate. cbn [bind].
  destruct (it_size ops i) as [sz| | |]; try discriminate. cbn [bind].
  intros H. apply Ok_inj in H. subst o. destruct E as [E1 E2].
  destruct (sz =? kblock_size); cbn [pure depth]; (split; [tauto|lia]).
Qed.
End Pure.

(** ** How deep the calls must nest *)

(** The first chain of calls: value() calls value() of its first operand before
    anything else happens. *)
Fixpoint spine (o : blk) : nat :=
  match o with
  | BRaw _ | BFixed _ | BUser _ | BCached _ | BIterKey _ _ _ _ => 1
  | BXored a _ | BShifted a _ | BIncremented a | BR a | BS a | BIfHighBit a _ => 1 + spine a
  | BL a => 17 + spine a
  | BEncrypted a _ => 173 + spine a
  end.

Lemma spine_transform j : forall o, spine (transform o j) = (j + spine o)%nat.
Proof. induction j as [|j IH]; intros o; [reflexivity|]. cbn [transform]. rewrite IH. cbn [spine]. lia. Qed.

Lemma spine_encrypt k o : spine (encrypt k o) = (172 + spine o)%nat.
Proof. unfold encrypt, encrypt_step. cbn [spine]. lia. Qed.

Lemma mbind_overflow {A B} (x : M state A) (f : A -> M state B) s :
  x s = (OutOfFuel, s) -> mbind x f s = (OutOfFuel, s).
Proof. intros H. unfold mbind. now rewrite H. Qed.

Lemma spine_overflow d : forall o s, (d < spine o)%nat -> value d o s = (OutOfFuel, s).
Proof.
  induction d as [|d IH]; intros o s Hd; [reflexivity|].
  destruct o; cbn [DeepModel.value]; cbn [spine] in Hd; try lia;
    try (apply mbind_overflow, IH; lia).
  - apply IH. rewrite spine_transform. lia.
  - apply IH. rewrite spine_encrypt. lia.
Qed.

Lemma dimit_loop_spine {I} (ops : iter_ops I) k vs : forall fuel p b,
  presents ops (Ok p) vs -> (List.length vs <= fuel)%nat ->
  exists i o, dimit_loop fuel ops k p b = Ok (Some i, o) /\
    advance ops (List.length vs - 1) p = Ok (Some i) /\
    (exists v, it_value ops i = Ok v) /\ (174 + spine o = 174 * List.length vs + spine b)%nat.
Proof.
  induction vs as [|x vs IH]; intros fuel p b [Hne Hv] Hf; [now destruct Hne|].
  destruct fuel as [|fuel]; [cbn in Hf; lia|]. cbn [dimit_loop].
  destruct (Hv 0%nat) as [H0 Hl]; [cbn; lia|].
  apply ask_deref in H0. destruct H0 as (i & Hi & H0). cbn [advance] in Hi. injection Hi as ->.
  apply ask_deref in Hl. destruct Hl as (i' & Hi & Hl). cbn [advance] in Hi. injection Hi as <-.
  cbn [deref bind]. rewrite Hl. cbn [bind nth] in *.
  destruct vs as [|y vs].
  - cbn [List.length Nat.eqb]. exists i, b. split; [reflexivity|]. split; [reflexivity|]. split; [eauto|lia].
  - cbn [List.length Nat.eqb]. rewrite H0. cbn [bind].
    assert (Hn : exists q, it_next ops i = Ok q).
    { destruct (Hv 1%nat) as [H1 _]; [cbn; lia|]. apply ask_deref in H1.
      destruct H1 as (j & Hj & _). rewrite advance_S in Hj. cbn [deref bind] in Hj.
      destruct (it_next ops i) as [q| | |]; try discriminate. eauto. }
    destruct Hn as [q Hq]. rewrite Hq. cbn [bind].
    destruct (IH fuel q (BEncrypted (BXored b (BRaw x)) k)) as (j & o & H1 & H2 & H3 & H4).
    + split; [discriminate|]. intros n Hn.
      destruct (Hv (Datatypes.S n)) as [Ha Hb']; [cbn [List.length] in *; lia|].
      unfold block_at, last_at in *. rewrite <- (ask_next _ _ i q n Hq) in Ha.
      rewrite <- (ask_next _ _ i q n Hq) in Hb'. split; assumption.
    + cbn [List.length] in *. lia.
    + exists j, o. split; [exact H1|]. cbn [List.length] in *. split; [|split; [exact H3|]].
      * replace (Datatypes.S (Datatypes.S (List.length vs)) - 1)%nat
          with (Datatypes.S (Datatypes.S (List.length vs) - 1)) by lia.
        rewrite advance_S. cbn [deref bind]. rewrite Hq. exact H2.
      * rewrite H4. cbn [spine]. lia.
Qed.

Lemma dimit_object_spine {I} (ops : iter_ops I) k fuel p vs sz :
  presents ops p vs -> size_at ops p (List.length vs - 1) = Ok sz -> (List.length vs <= fuel)%nat ->
  exists o, dimit_object fuel ops p k = Ok o /\ spine o = (174 * List.length vs + 2)%nat.
Proof.
  intros Hp Hs Hf.
  assert (Hp' : exists q, p = Ok q).
  { destruct Hp as [Hne Hp]. destruct (Hp 0%nat) as [H _]; [destruct vs; [congruence|cbn; lia]|].
    unfold block_at, ask in H. destruct p; try discriminate. eauto. }
  destruct Hp' as [q ->].
  destruct (dimit_loop_spine ops k vs fuel q (BRaw (0, 0)) Hp Hf) as (i & o & H1 & H2 & (v & H3) & H4).
  unfold dimit_object. cbn [bind]. rewrite H1. cbn [bind deref]. rewrite H3. cbn [bind].
  apply ask_deref in Hs. destruct Hs as (j & Hj & Hs). rewrite H2 in Hj. injection Hj as <-.
  rewrite Hs. cbn [bind]. cbv zeta. eexists. split; [reflexivity|].
  assert (0 < List.length vs)%nat by (destruct Hp as [Hne _]; destruct vs; [congruence|cbn; lia]).
  cbn [spine] in H4. destruct (sz =? kblock_size); cbn [spine]; lia.
Qed.

Lemma dimit_overflow {I} (ops : iter_ops I) k d fuel p vs sz s :
  presents ops p vs -> size_at ops p (List.length vs - 1) = Ok sz -> (List.length vs <= fuel)%nat ->
  (d <= 174 * List.length vs + 1)%nat ->
  DImit m data d fuel ops p k s = (OutOfFuel, s).
Proof.
  intros Hp Hs Hf Hd. destruct (dimit_object_spine ops k fuel p vs sz Hp Hs Hf) as (o & H1 & H2).
  unfold DImit. rewrite H1. unfold mbind, lift. apply spine_overflow. lia.
Qed.

Lemma spine_counter iv n : spine (counter_object iv n) = (1 + n)%nat.
Proof. induction n as [|n IH]; [reflexivity|]. cbn [counter_object spine]. lia. Qed.

Lemma dctr_overflow d it iv n k s v s1 : (d <= n + 174)%nat ->
  value (pred d) it s = (Ok v, s1) -> DCTR_value m data d it iv n k s = (OutOfFuel, s1) \/ d = O.
Proof.
  intros Hd H. destruct d as [|d]; [now right|left]. cbn [pred] in H.
  unfold DCTR_value. cbn [DeepModel.value]. unfold mbind at 1. rewrite H.
  unfold mbind at 1. rewrite spine_overflow; [reflexivity|]. cbn [spine]. rewrite spine_counter. lia.
Qed.

(** ** Every key data has its keys and costs *)

Section Order.
Context (Hd : built_in_order data).

Lemma sem_ext env env' k : (forall i, (i < k)%nat -> env i = env' i) ->
  forall o, below (10 * k) o -> sem env o = sem env' o.
Proof.
  intros H. induction o; cbn [below sem]; intros Hb; try reflexivity;
    try (rewrite IHo1, IHo2 by tauto; reflexivity); try (rewrite IHo by tauto; reflexivity).
  - rewrite H; [reflexivity|]. apply Nat.div_lt_upper_bound; lia.
  - rewrite IHo by tauto. rewrite H by lia. reflexivity.
Qed.

Fixpoint envs (n : nat) : nat -> kkey :=
  match n with
  | O => fun _ => Key_blocks OutOfFuel OutOfFuel
  | Datatypes.S n' => fun k => Key_blocks (sem (envs n') (fst (data k))) (sem (envs n') (snd (data k)))
  end.

Lemma envs_stable n : forall n' k, (k < n)%nat -> (k < n')%nat -> envs n k = envs n' k.
Proof.
  induction n as [|n IH]; intros n' k H1 H2; [lia|]. destruct n' as [|n']; [lia|].
  cbn [envs]. destruct (Hd k) as [B1 B2].
  rewrite (sem_ext (envs n) (envs n') k) by (try exact B1; intros i Hi; apply IH; lia).
  rewrite (sem_ext (envs n) (envs n') k) by (try exact B2; intros i Hi; apply IH; lia).
  reflexivity.
Qed.

Definition env_of (k : nat) : kkey := envs (Datatypes.S k) k.

Lemma env_of_keys : keys_of env_of.
Proof.
  intros k. unfold env_of at 1. cbn [envs]. destruct (Hd k) as [B1 B2].
  rewrite (sem_ext (envs k) env_of k) by (try exact B1; intros i Hi; apply envs_stable; lia).
  rewrite (sem_ext (envs k) env_of k) by (try exact B2; intros i Hi; apply envs_stable; lia).
  reflexivity.
Qed.

Definition step_cost (j : nat) : nat :=
  match j with
  | 0%nat | 1%nat => 0 | 2%nat | 3%nat => 179 | 4%nat | 5%nat => 341 | 6%nat | 7%nat => 503 | _ => 665
  end%nat.

Definition cost_of (base : nat -> nat) (n : nat) : nat := (base (n / 10) + step_cost (n mod 10))%nat.

Lemma depth_ext c c' k : (forall i, (i < 10 * k)%nat -> c i = c' i) ->
  forall o, below (10 * k) o -> depth c o = depth c' o.
Proof.
  intros H. induction o; cbn [below depth]; intros Hb; try reflexivity;
    try (rewrite IHo1, IHo2 by tauto; reflexivity); try (rewrite IHo by tauto; reflexivity).
  - now rewrite H.
  - rewrite IHo by tauto. rewrite H by lia. reflexivity.
Qed.

Fixpoint bases (n : nat) : nat -> nat :=
  match n with
  | O => fun _ => O
  | Datatypes.S n' => fun k =>
      Nat.max (depth (cost_of (bases n')) (fst (data k))) (depth (cost_of (bases n')) (snd (data k)))
  end.

Lemma bases_stable n : forall n' k, (k < n)%nat -> (k < n')%nat -> bases n k = bases n' k.
Proof.
  induction n as [|n IH]; intros n' k H1 H2; [lia|]. destruct n' as [|n']; [lia|].
  cbn [bases]. destruct (Hd k) as [B1 B2].
  assert (E : forall i, (i < 10 * k)%nat -> cost_of (bases n) i = cost_of (bases n') i).
  { intros i Hi. assert (i / 10 < k)%nat by (apply Nat.div_lt_upper_bound; lia).
    unfold cost_of. now rewrite (IH n' (i / 10)%nat) by lia. }
  now rewrite (depth_ext _ _ k E _ B1), (depth_ext _ _ k E _ B2).
Qed.

Definition base_of (k : nat) : nat := bases (Datatypes.S k) k.

Lemma base_of_depth k : base_of k =
  Nat.max (depth (cost_of base_of) (fst (data k))) (depth (cost_of base_of) (snd (data k))).
Proof.
  unfold base_of at 1. cbn [bases]. destruct (Hd k) as [B1 B2].
  assert (E : forall i, (i < 10 * k)%nat -> cost_of (bases k) i = cost_of base_of i).
  { intros i Hi. assert (i / 10 < k)%nat by (apply Nat.div_lt_upper_bound; lia).
    unfold cost_of, base_of. now rewrite (bases_stable k (Datatypes.S (i / 10)) (i / 10)%nat) by lia. }
  now rewrite (depth_ext _ _ k E _ B1), (depth_ext _ _ k E _ B2).
Qed.
End Order.

Lemma divmod10 k j : (j < 10)%nat -> ((10 * k + j) / 10 = k /\ (10 * k + j) mod 10 = j)%nat.
Proof using. clear. intros Hj. split; symmetry; [now apply (Nat.div_unique _ _ _ j)|now apply (Nat.mod_unique _ _ k)]. Qed.

Lemma cost_of_grows base : cost_grows (cost_of base).
Proof using.
  clear. intros k j Hj. unfold cost_of. destruct (divmod10 k j) as [-> ->]; [lia|].
  destruct (divmod10 k 9) as [-> ->]; [lia|]. cbn [step_cost].
  do 10 (destruct j as [|j]; [cbn [step_cost]; lia|]). lia.
Qed.

Lemma depth_pos c o : (1 <= depth c o)%nat.
Proof. destruct o; cbn [depth]; lia. Qed.

Lemma cost_of_heap base :
  (forall k, Nat.max (depth (cost_of base) (fst (data k))) (depth (cost_of base) (snd (data k))) <= base k)%nat ->
  forall n, (depth (cost_of base) (heap n) <= cost_of base n)%nat.
Proof.
  intros Hb n. unfold heap, DeepModel.heap, round_key. unfold cost_of at 2.
  pose proof (Nat.mod_upper_bound n 10 ltac:(discriminate)) as Hm.
  set (k := (n / 10)%nat) in *. set (j := (n mod 10)%nat) in *. clearbody k j.
  assert (Hc : forall i, (i < 10)%nat -> cost_of base (10 * k + i) = (base k + step_cost i)%nat).
  { intros i Hi. unfold cost_of. now destruct (divmod10 k i Hi) as [-> ->]. }
  pose proof (Hb k) as H.
  pose proof (depth_pos (cost_of base) (fst (data k))) as Hp.
  do 10 (destruct j as [|j]; [cbn [depth]; rewrite ?Hc by lia; cbn [step_cost];
         repeat match goal with |- context [Z.to_nat ?x] => let v := eval vm_compute in (Z.to_nat x) in change (Z.to_nat x) with v end; lia|]).
  lia.
Qed.

Lemma pure_heap : pure_data data -> forall n, pure (heap n).
Proof.
  intros Hp n. unfold heap, DeepModel.heap, round_key. destruct (Hp (n / 10)%nat) as [P1 P2].
  set (k := (n / 10)%nat) in *. set (j := (n mod 10)%nat) in *. clearbody k j.
  do 10 (destruct j as [|j]; [cbn [pure]; tauto|]). cbn [pure]. tauto.
Qed.

Lemma fresh_consistent env w : consistent env (fresh w).
Proof. intros n v. discriminate. Qed.

(** Sharing the caches gives what new objects would give. *)
Lemma values_as_fresh os : built_in_order data -> pure_data data -> Forall pure os ->
  exists d0, forall d w, (d0 <= d)%nat ->
  fst (values m data d os (fresh w)) = map (fun o => fst (value d o (fresh w))) os.
Proof.
  intros Hd Hp Ho. pose (cost := cost_of base_of).
  exists (list_max (map (depth cost) os)). intros d w Hm.
  assert (HF : Forall (fun o => (depth cost o <= d)%nat) os).
  { pose proof (proj1 (list_max_le (map (depth cost) os) d) Hm) as H.
    clear -H. induction os as [|o os IH]; [constructor|]. cbn [map] in H. inversion H; subst.
    constructor; auto. }
  assert (Hh : forall n, (depth cost (heap n) <= cost n)%nat).
  { apply cost_of_heap. intros k. rewrite <- base_of_depth by exact Hd. lia. }
  pose proof (env_of_keys Hd) as He. pose proof (cost_of_grows base_of) as Hc.
  destruct (values_gives env_of cost He Hc (pure_heap Hp) Hh d os Ho HF (fresh w) (fresh_consistent _ _)) as [-> _].
  apply map_ext_in. intros o Hin. symmetry.
  apply (value_gives env_of cost He Hc (pure_heap Hp) Hh d o); [| |apply fresh_consistent].
  - rewrite Forall_forall in Ho. now apply Ho.
  - rewrite Forall_forall in HF. now apply HF.
Qed.
End Proofs.

(** ** Key data of two fixed blocks *)

Section Fixed.
Context {W : Type} (m : mode) (kd : nat -> kblock * kblock).
Notation data := (@fixed_data W kd).

Definition key_of (k : nat) : kkey := Key_blocks (fst (kd k)) (snd (kd k)).
Definition fcost : nat -> nat := cost_of (fun _ => 1%nat).

Lemma fixed_keys : keys_of m data key_of.
Proof. now intros k. Qed.
Lemma fixed_order : built_in_order data.
Proof. now intros k. Qed.
Lemma fixed_pure : pure_data data.
Proof. now intros k. Qed.
Lemma fixed_heap n : (depth fcost (heap data n) <= fcost n)%nat.
Proof. apply cost_of_heap. intros k. cbn. lia. Qed.
Lemma fcost9 k : fcost (10 * k + 9) = 666%nat.
Proof. unfold fcost, cost_of. destruct (divmod10 k 9) as [_ ->]; [lia|reflexivity]. Qed.

Lemma value_fixed d o : pure o -> (depth fcost o <= d)%nat ->
  gives key_of (value m data d o) (sem m key_of o).
Proof.
  apply value_gives; [apply fixed_keys|apply cost_of_grows|apply pure_heap, fixed_pure|apply fixed_heap].
Qed.

Lemma values_encrypted d (calls : list (kblock * nat)) w : (840 <= d)%nat ->
  fst (values m data d (map (fun c => BEncrypted (BFixed (fst c)) (snd c)) calls) (fresh w)) =
  map (fun c => KEncrypted (fst c) (Key_blocks (fst (kd (snd c))) (snd (kd (snd c))))) calls.
Proof.
  intros Hd.
  destruct (values_gives m data key_of fcost fixed_keys (cost_of_grows _) (pure_heap data fixed_pure)
              fixed_heap d (map (fun c => BEncrypted (BFixed (fst c)) (snd c)) calls)) with (s := fresh w)
    as [-> _].
  - apply Forall_map, Forall_forall. now intros c _.
  - apply Forall_map, Forall_forall. intros c _. cbn [depth]. rewrite fcost9. lia.
  - apply fresh_consistent.
  - rewrite map_map. reflexivity.
Qed.

Lemma dimit_fixed {I} (ops : iter_ops I) k d fuel iter w :
  (174 * fuel + 846 <= d)%nat ->
  fst (DImit m data d fuel ops iter k (fresh w)) =
  KImit fuel m ops iter (Key_blocks (fst (kd k)) (snd (kd k))).
Proof.
  intros Hd. change (Key_blocks _ _) with (key_of k).
  rewrite (dimit_object_sem m (W := W) key_of). unfold DImit, mbind, lift.
  destruct (dimit_object fuel ops iter k) as [o| | |] eqn:E; try reflexivity. cbn [bind].
  destruct (dimit_object_depth data fcost (pure_heap data fixed_pure) fixed_heap ops k fuel iter o E) as [P D]. rewrite fcost9 in D.
  apply value_fixed; [exact P|lia|apply fresh_consistent].
Qed.

Lemma depth_counter c iv n : depth c (@counter_object W iv n) = (1 + n)%nat.
Proof. induction n as [|n IH]; [reflexivity|]. cbn [counter_object depth]. lia. Qed.
Lemma pure_counter iv n : pure (@counter_object W iv n).
Proof. induction n as [|n IH]; [exact I|exact IH]. Qed.
Lemma sem_counter env iv n : sem m env (@counter_object W iv n) = Nat.iter n KIncremented (Ok (0, iv)).
Proof. induction n as [|n IH]; [reflexivity|]. cbn [counter_object sem Nat.iter nat_rect]. now rewrite IH. Qed.

Lemma dctr_fixed d r iv n k w : (n + 841 <= d)%nat ->
  fst (DCTR_value m data d (BFixed r) iv n k (fresh w)) =
  KXored r (KEncrypted (Nat.iter n KIncremented (Ok (0, iv))) (Key_blocks (fst (kd k)) (snd (kd k)))).
Proof.
  intros Hd. rewrite <- (sem_counter key_of). change (Key_blocks _ _) with (key_of k).
  change (KXored _ _) with (sem m key_of (@BXored W (BFixed r) (BEncrypted (counter_object iv n) k))).
  apply value_fixed; [cbn [pure]; split; [exact I|apply pure_counter]| |apply fresh_consistent].
  cbn [depth]. rewrite depth_counter, fcost9. lia.
Qed.
End Fixed.

(** ** Streams in memory *)

Lemma mem_overflow {W} m (kd : nat -> @blk W * @blk W) d fuel words k s :
  8 * len words < 2 ^ 64 -> words <> [] -> len words mod 2 = 0 ->
  len words <= 2 * N.of_nat fuel -> N.of_nat d <= 87 * len words + 1 ->
  DImit m kd d fuel (ItMemory_ops (Some words)) (StMemory_iter true words) k s = (OutOfFuel, s).
Proof.
  intros Hs Hne He Hf Hd. unfold len in *.
  destruct words as [|x words]; [congruence|]. set (all := x :: words) in *.
  assert (Hl : (0 < List.length all)%nat) by (cbn; lia). clearbody all.
  pose proof (N.div_mod (N.of_nat (List.length all)) 2 ltac:(discriminate)) as E. rewrite He, N.add_0_r in E.
  pose proof (word_pairs_length all _ E) as HL. unfold len in HL.
  set (h := N.of_nat (List.length all) / 2) in *. clearbody h.
  apply (dimit_overflow m kd _ k d fuel _ (word_pairs all) 16).
  - now apply mem_presents.
  - apply mem_size; [exact Hs|]. unfold len. lia.
  - lia.
  - lia.
Qed.
