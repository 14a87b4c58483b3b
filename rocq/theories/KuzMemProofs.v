(** Proofs for C102. *)
From Verif Require Import Base KuzModel DeepModel SpecDeep SpecIter SpecEff Lib DeepProofs KuzMemModel.
From Coq Require Import Lia.
Local Open Scope N_scope.

(** ** Memory that never runs out *)
Section Same.
Context {W : Type} (m : mode) (data : nat -> @blk W * @blk W).
Notation mem_value := (mem_value (mret tt) m data).
Notation value := (value m data).

Lemma taken_same {B} (f : M state B) s : (_ <-- taken (W := W) (mret tt) ;; f) s = f s.
Proof. unfold mbind, taken, mret. now destruct s. Qed.

Lemma mbind_ext {A B S} (x y : M S A) (f g : A -> M S B) : (forall s, x s = y s) ->
  (forall a s, f a s = g a s) -> forall s, mbind x f s = mbind y g s.
Proof. intros H1 H2 s. unfold mbind. rewrite H1. destruct (y s) as [[a| | |] s']; auto. Qed.

Lemma mem_value_same d : forall o s, mem_value d o s = value d o s.
Proof.
  induction d as [|d IH]; intros o s; [reflexivity|].
  destruct o; cbn [KuzMemModel.mem_value DeepModel.value]; try reflexivity;
    rewrite ?taken_same; try reflexivity;
    try (apply mbind_ext; [apply IH|reflexivity]); try apply IH.
  - apply mbind_ext; [apply IH|]. intros x s1. apply mbind_ext; [apply IH|reflexivity].
  - apply mbind_ext; [reflexivity|]. intros t s1. apply IH.
  - destruct (st_cache s n); [reflexivity|]. now rewrite IH.
  - apply mbind_ext; [apply IH|]. intros x s1. rewrite taken_same. destruct (_ =? 0); apply IH.
Qed.
End Same.

(** ** Memory that may run out *)
Section Proofs.
Context {W : Type} (alloc : M W unit) (m : mode) (data : nat -> @blk W * @blk W).
Context (Ha : or_throws alloc (Ok tt)).
(** In these worlds there is memory enough for ever. *)
Context (enough : W -> Prop).
Context (Hw : forall w, enough w -> fst (alloc w) = Ok tt /\ enough (snd (alloc w))).
Notation blk := (@blk W).
Notation state := (@state W).
Notation mem_value := (mem_value alloc m data).
Notation heap := (heap data).
Notation taken := (taken alloc).

(** As [gives], but memory may run out. *)
Definition tries {A} env (x : M state A) (r : res A) : Prop :=
  forall s, consistent env s ->
    consistent env (snd (x s)) /\
    (fst (x s) = r \/ exists w e, fst (alloc w) = Throw e /\ fst (x s) = Throw e) /\
    (enough (st_world s) -> fst (x s) = r /\ enough (st_world (snd (x s)))).

Lemma tries_lift {A} env (r : res A) : tries env (lift r) r.
Proof. intros s Hs. cbn. auto. Qed.

Lemma tries_bind {A B} env (x : M state A) r (f : A -> M state B) (g : A -> res B) :
  tries env x r -> (forall a, r = Ok a -> tries env (f a) (g a)) -> tries env (mbind x f) (bind r g).
Proof.
  intros Hx Hf s Hs. destruct (Hx s Hs) as (C1 & E1 & G1). unfold mbind. destruct (x s) as [r' s'].
  cbn [fst snd] in *. destruct E1 as [->|(w & e & Ew & ->)].
  - destruct r as [a|e|u|]; cbn [bind fst snd]; try (split; [exact C1|]; split; [now left|]; intros H; split; [reflexivity|now apply G1]).
    destruct (Hf a eq_refl s' C1) as (C2 & E2 & G2). split; [exact C2|]. split; [exact E2|].
    intros H. apply G2, G1, H.
  - cbn [fst snd]. split; [exact C1|]. split; [right; eauto|]. intros H. destruct (G1 H) as [E _]. subst r. cbn [bind].
    split; [reflexivity|now apply G1].
Qed.

Lemma tries_taken {B} env (f : M state B) r : tries env f r -> tries env (_ <-- taken ;; f) r.
Proof.
  intros Hf s Hs. unfold mbind, KuzMemModel.taken. destruct (alloc (st_world s)) as [a w] eqn:E.
  pose proof (Ha (st_world s)) as H1. pose proof (Hw (st_world s)) as H2. rewrite E in H1, H2. cbn [fst snd] in H1, H2.
  destruct H1 as [->|[e ->]].
  - destruct (Hf (State (st_cache s) w (st_log s)) Hs) as (C & E2 & G). split; [exact C|]. split; [exact E2|].
    intros He. apply G. now apply H2.
  - cbn [fst snd]. split; [exact Hs|]. split; [right; exists (st_world s), e; now rewrite E|].
    intros He. now destruct (H2 He) as [F _].
Qed.

Section Pure.
Context (env : nat -> kkey) (cost : nat -> nat).
Context (He : keys_of m data env) (Hc : cost_grows cost).
Context (Hp : forall n, pure (heap n)) (Hh : forall n, (depth cost (heap n) <= cost n)%nat).
Notation sem := (sem m env).

Lemma mem_value_tries d : forall o, pure o -> (depth cost o <= d)%nat -> tries env (mem_value d o) (sem o).
Proof.
  induction d as [|d IH]; intros o Ho Hd; [destruct o; cbn [depth] in Hd; lia|].
  destruct o; cbn [KuzMemModel.mem_value DeepProofs.sem]; cbn [depth] in Hd; cbn [pure] in Ho.
  - apply tries_lift.
  - apply tries_taken, tries_lift.
  - destruct Ho.
  - rewrite KXored_strict. apply tries_bind; [apply IH; [tauto|lia]|]. intros x _.
    apply tries_bind; [apply IH; [tauto|lia]|]. intros y _. apply tries_lift.
  - rewrite KShifted_strict. apply tries_bind; [apply IH; [tauto|lia]|]. intros x _. apply tries_lift.
  - rewrite KIncremented_strict. apply tries_bind; [apply IH; [tauto|lia]|]. intros x _. apply tries_lift.
  - rewrite KR_strict. apply tries_bind; [apply IH; [tauto|lia]|]. intros x _. apply tries_lift.
  - unfold KL. rewrite <- sem_transform. apply tries_taken, IH; [now apply pure_transform|].
    rewrite (depth_transform data). lia.
  - rewrite KS_strict. apply tries_bind; [apply IH; [tauto|lia]|]. intros x _. apply tries_lift.
  - unfold KIterKey. rewrite <- sem_generate. apply tries_taken, tries_bind; [apply tries_lift|].
    intros t Ht. apply IH.
    + now apply (pure_generate data _ _ _ _ _ _ (proj2 Ho) (proj1 Ho) Ht).
    + apply (depth_generate data cost (Nat.max 18 (Nat.max (depth cost o1) (depth cost o2)))) in Ht; lia.
  - intros s Hs. destruct (st_cache s n) as [v|] eqn:E.
    + cbn [fst snd]. split; [exact Hs|]. rewrite (Hs n v E). auto.
    + pose proof (Hh n) as Hn. destruct (IH (heap n) (Hp n) ltac:(lia) s Hs) as (C1 & E1 & G1).
      rewrite (sem_heap m data env He) in E1, G1. destruct (mem_value d (heap n) s) as [r s']. cbn [fst snd] in *.
      destruct r as [v|e|u|]; cbn [fst snd]; (split; [|split; [exact E1|exact G1]]); try exact C1.
      intros i x. cbn [fill evaluated st_cache]. destruct (Nat.eqb_spec i n) as [->|Hne]; [|apply C1].
      intros H. injection H as <-. destruct E1 as [E1|(w & e & _ & E1)]; [now symmetry|discriminate].
  - rewrite <- (sem_encrypt m data). apply tries_taken, IH; [now apply (pure_encrypt data)|].
    pose proof (depth_encrypt data cost k o Hc) as H. cbn [depth] in H. lia.
  - unfold KXoredIfHighBit.
    apply tries_bind; [apply IH; [tauto|lia]|]. intros [x y] _. apply tries_taken. cbv beta iota zeta. cbn [snd].
    change (KShifted m (sem o1) 1) with (sem (BShifted o1 1)).
    change (KXored (sem (BShifted o1 1)) (sem o2)) with (sem (BXored (BShifted o1 1) o2)).
    destruct (_ =? 0); (apply IH; [cbn [pure]; tauto|cbn [depth]; lia]).
Qed.

Lemma mem_values_tries d os : Forall pure os -> Forall (fun o => (depth cost o <= d)%nat) os ->
  forall s, consistent env s ->
    consistent env (snd (mem_values alloc m data d os s)) /\
    Forall2 (fun r x => r = x \/ exists w e, fst (alloc w) = Throw e /\ r = Throw e)
      (fst (mem_values alloc m data d os s)) (map sem os) /\
    (enough (st_world s) -> fst (mem_values alloc m data d os s) = map sem os).
Proof.
  induction os as [|o os IH]; intros H1 H2 s Hs; [cbn; split; [exact Hs|]; split; [constructor|reflexivity]|].
  inversion H1; subst. inversion H2; subst. cbn [mem_values map].
  destruct (mem_value_tries d o ltac:(assumption) ltac:(assumption) s Hs) as (C1 & E1 & G1).
  destruct (mem_value d o s) as [x s1]. cbn [fst snd] in *.
  destruct (IH ltac:(assumption) ltac:(assumption) s1 C1) as (C2 & E2 & G2).
  destruct (mem_values alloc m data d os s1) as [xs s2]. cbn [fst snd] in *.
  split; [exact C2|]. split; [now constructor|]. intros H. destruct (G1 H) as [-> Hs1]. now rewrite (G2 Hs1).
Qed.

(** Imit. *)
Lemma mem_imit_loop_tries {I} (ops : iter_ops I) k fuel : forall iter b,
  tries env (mem_imit_loop alloc fuel ops k iter b) (dimit_loop fuel ops k iter b).
Proof.
  induction fuel as [|fuel IH]; intros iter b; [apply tries_lift|]. cbn [mem_imit_loop dimit_loop].
  apply tries_bind; [apply tries_lift|]. intros i _. apply tries_bind; [apply tries_lift|]. intros [|] _; [apply tries_lift|].
  apply tries_bind; [apply tries_lift|]. intros v _. apply tries_taken.
  apply tries_bind; [apply tries_lift|]. intros n _. apply IH.
Qed.

Lemma mem_imit_object_tries {I} (ops : iter_ops I) k fuel iter :
  tries env (mem_imit_object alloc fuel ops iter k) (dimit_object fuel ops iter k).
Proof.
  unfold mem_imit_object, dimit_object. apply tries_bind; [apply tries_lift|]. intros it _. apply tries_taken.
  apply tries_bind; [apply mem_imit_loop_tries|]. intros [it' b] _. apply tries_taken. cbv zeta.
  apply tries_bind; [apply tries_lift|]. intros i _. apply tries_bind; [apply tries_lift|]. intros v _. apply tries_taken.
  apply tries_bind; [apply tries_lift|]. intros sz _. apply tries_taken, tries_lift.
Qed.
End Pure.
End Proofs.

(** ** Keys of two fixed blocks *)
Section Fixed.
Context {W : Type} (alloc : M W unit) (m : mode) (kd : nat -> kblock * kblock).
Context (Ha : or_throws alloc (Ok tt)) (enough : W -> Prop).
Context (Hw : forall w, enough w -> fst (alloc w) = Ok tt /\ enough (snd (alloc w))).
Notation data := (@fixed_data W kd).

Lemma mem_fixed d o : pure o -> (depth fcost o <= d)%nat ->
  tries alloc enough (key_of kd) (mem_value alloc m data d o) (sem m (key_of kd) o).
Proof.
  apply (mem_value_tries alloc m data Ha enough Hw (key_of kd) fcost);
    [apply fixed_keys|apply cost_of_grows|apply pure_heap, fixed_pure|apply fixed_heap].
Qed.

Lemma mem_encrypted d (calls : list (kblock * nat)) s : (840 <= d)%nat -> consistent (key_of kd) s ->
  let os := map (fun c => BEncrypted (BFixed (fst c)) (snd c)) calls in
  let xs := map (fun c => KEncrypted (fst c) (Key_blocks (fst (kd (snd c))) (snd (kd (snd c))))) calls in
  consistent (key_of kd) (snd (mem_values alloc m data d os s)) /\
  Forall2 (fun r x => r = x \/ exists w e, fst (alloc w) = Throw e /\ r = Throw e)
    (fst (mem_values alloc m data d os s)) xs /\
  (enough (st_world s) -> fst (mem_values alloc m data d os s) = xs).
Proof.
  intros Hd Hs os xs.
  replace xs with (map (sem m (key_of kd) (W := W)) os) by (unfold os, xs; rewrite map_map; reflexivity).
  apply (mem_values_tries alloc m data Ha enough Hw (key_of kd) fcost);
    [apply fixed_keys|apply cost_of_grows|apply pure_heap, fixed_pure|apply fixed_heap| | |exact Hs].
  - apply Forall_map, Forall_forall. now intros c _.
  - apply Forall_map, Forall_forall. intros c _. cbn [depth]. rewrite (fcost9 kd). lia.
Qed.

Lemma mem_imit {I} (ops : iter_ops I) k d fuel iter s : (174 * fuel + 846 <= d)%nat -> consistent (key_of kd) s ->
  let r := mem_DImit alloc m data d fuel ops iter k s in
  let x := KImit fuel m ops iter (Key_blocks (fst (kd k)) (snd (kd k))) in
  consistent (key_of kd) (snd r) /\
  (fst r = x \/ exists w e, fst (alloc w) = Throw e /\ fst r = Throw e) /\
  (enough (st_world s) -> fst r = x).
Proof.
  intros Hd Hs r x. unfold x. change (Key_blocks _ _) with (key_of kd k).
  rewrite (dimit_object_sem m (W := W) (key_of kd)). unfold r, mem_DImit.
  assert (T : tries alloc enough (key_of kd) (mem_DImit alloc m data d fuel ops iter k)
                (o <- dimit_object fuel ops iter k ;; sem (W := W) m (key_of kd) o)).
  { apply tries_bind; [now apply mem_imit_object_tries|]. intros o E.
    destruct (dimit_object_depth data fcost (pure_heap data (fixed_pure kd)) (fixed_heap kd) ops k fuel iter o E) as [P D].
    rewrite (fcost9 kd) in D. apply mem_fixed; [exact P|lia]. }
  destruct (T s Hs) as (A & B & C). split; [exact A|]. split; [exact B|]. intros H. now apply C.
Qed.

Lemma mem_ctr d r iv n k s : (n + 841 <= d)%nat -> consistent (key_of kd) s ->
  let c := fst (mem_CTR_value alloc m data d (BFixed r) iv n k s) in
  let x := KXored r (KEncrypted (Nat.iter n KIncremented (Ok (0, iv))) (Key_blocks (fst (kd k)) (snd (kd k)))) in
  (c = x \/ exists w e, fst (alloc w) = Throw e /\ c = Throw e) /\ (enough (st_world s) -> c = x).
Proof.
  intros Hd Hs c x. unfold c, x. rewrite <- (sem_counter m (W := W) (key_of kd)).
  change (Key_blocks _ _) with (key_of kd k).
  change (KXored _ _) with (sem m (key_of kd) (@BXored W (BFixed r) (BEncrypted (counter_object iv n) k))).
  assert (T : tries alloc enough (key_of kd) (mem_CTR_value alloc m data d (BFixed r) iv n k)
                (sem m (key_of kd) (@BXored W (BFixed r) (BEncrypted (counter_object iv n) k)))).
  { unfold mem_CTR_value. apply tries_taken; [exact Ha|exact Hw|].
    apply mem_fixed; [cbn [pure]; split; [exact I|apply pure_counter]|].
    cbn [depth]. rewrite (depth_counter kd), (fcost9 kd). lia. }
  destruct (T s Hs) as (_ & B & C). split; [exact B|]. intros H. now apply C.
Qed.
End Fixed.

(** ** C102 *)

Lemma no_promise {W} (alloc : M W unit) :
  forall w, (fun _ : W => False) w -> fst (alloc w) = Ok tt /\ (fun _ : W => False) (snd (alloc w)).
Proof. intros w []. Qed.

Lemma c102_encrypt {W} (alloc : M W unit) (m : mode) (kd : nat -> kblock * kblock) (calls : list (kblock * nat)) w d :
  or_throws alloc (Ok tt) -> (840 <= d)%nat ->
  Forall2 (fun r x => r = x \/ exists w e, fst (alloc w) = Throw e /\ r = Throw e)
    (fst (mem_values alloc m (fixed_data kd) d (map (fun c => BEncrypted (BFixed (fst c)) (snd c)) calls) (fresh w)))
    (map (fun c => KEncrypted (fst c) (Key_blocks (fst (kd (snd c))) (snd (kd (snd c))))) calls).
Proof.
  intros Ha Hd. apply (mem_encrypted alloc m kd Ha _ (no_promise alloc) d calls (fresh w) Hd), fresh_consistent.
Qed.

Lemma c102_recovers {W} (alloc : M W unit) (enough : W -> Prop) (m : mode) (kd : nat -> kblock * kblock)
    (before after : list (kblock * nat)) w d rs s :
  or_throws alloc (Ok tt) -> (forall w, enough w -> fst (alloc w) = Ok tt /\ enough (snd (alloc w))) -> (840 <= d)%nat ->
  mem_values alloc m (fixed_data kd) d (map (fun c => BEncrypted (BFixed (fst c)) (snd c)) before) (fresh w) = (rs, s) ->
  enough (st_world s) ->
  fst (mem_values alloc m (fixed_data kd) d (map (fun c => BEncrypted (BFixed (fst c)) (snd c)) after) s) =
  map (fun c => KEncrypted (fst c) (Key_blocks (fst (kd (snd c))) (snd (kd (snd c))))) after.
Proof.
  intros Ha Hw Hd E. destruct (mem_encrypted alloc m kd Ha enough Hw d before (fresh w) Hd (fresh_consistent _ w)) as (C & _).
  cbv zeta in C. rewrite E in C. cbn [snd] in C. now apply (mem_encrypted alloc m kd Ha enough Hw d after s Hd C).
Qed.

Lemma c102_imit {W I} (alloc : M W unit) (enough : W -> Prop) (m : mode) (kd : nat -> kblock * kblock)
    (before : list (kblock * nat)) (ops : iter_ops I) iter k fuel w d rs s :
  or_throws alloc (Ok tt) -> (forall w, enough w -> fst (alloc w) = Ok tt /\ enough (snd (alloc w))) ->
  (174 * fuel + 846 <= d)%nat ->
  mem_values alloc m (fixed_data kd) d (map (fun c => BEncrypted (BFixed (fst c)) (snd c)) before) (fresh w) = (rs, s) ->
  let r := fst (mem_DImit alloc m (fixed_data kd) d fuel ops iter k s) in
  let x := KImit fuel m ops iter (Key_blocks (fst (kd k)) (snd (kd k))) in
  (r = x \/ exists w e, fst (alloc w) = Throw e /\ r = Throw e) /\ (enough (st_world s) -> r = x).
Proof.
  intros Ha Hw Hd E r x. destruct (mem_encrypted alloc m kd Ha enough Hw d before (fresh w) ltac:(lia) (fresh_consistent _ w)) as (C & _).
  cbv zeta in C. rewrite E in C. cbn [snd] in C. now apply (mem_imit alloc m kd Ha enough Hw ops k d fuel iter s Hd C).
Qed.

Lemma c102_ctr {W} (alloc : M W unit) (enough : W -> Prop) (m : mode) (kd : nat -> kblock * kblock)
    (before : list (kblock * nat)) r iv n k w d rs s :
  or_throws alloc (Ok tt) -> (forall w, enough w -> fst (alloc w) = Ok tt /\ enough (snd (alloc w))) ->
  (n + 841 <= d)%nat ->
  mem_values alloc m (fixed_data kd) d (map (fun c => BEncrypted (BFixed (fst c)) (snd c)) before) (fresh w) = (rs, s) ->
  let c := fst (mem_CTR_value alloc m (fixed_data kd) d (BFixed r) iv n k s) in
  let x := KXored r (KEncrypted (Nat.iter n KIncremented (Ok (0, iv))) (Key_blocks (fst (kd k)) (snd (kd k)))) in
  (c = x \/ exists w e, fst (alloc w) = Throw e /\ c = Throw e) /\ (enough (st_world s) -> c = x).
Proof.
  intros Ha Hw Hd E c x. destruct (mem_encrypted alloc m kd Ha enough Hw d before (fresh w) ltac:(lia) (fresh_consistent _ w)) as (C & _).
  cbv zeta in C. rewrite E in C. cbn [snd] in C. now apply (mem_ctr alloc m kd Ha enough Hw d r iv n k s Hd C).
Qed.

Lemma c102_any {W} (alloc : M W unit) (m : mode) (data : nat -> @blk W * @blk W) (os : list blk) :
  or_throws alloc (Ok tt) -> built_in_order data -> pure_data data -> Forall pure os ->
  exists d0, forall d w, (d0 <= d)%nat ->
  Forall2 (fun r o => r = fst (value m data d o (fresh w)) \/ exists w e, fst (alloc w) = Throw e /\ r = Throw e)
    (fst (mem_values alloc m data d os (fresh w))) os.
Proof.
  intros Ha Hd Hp Ho. pose (cost := cost_of (base_of data)).
  exists (list_max (map (depth cost) os)). intros d w Hm.
  assert (HF : Forall (fun o => (depth cost o <= d)%nat) os).
  { pose proof (proj1 (list_max_le (map (depth cost) os) d) Hm) as H.
    clear -H. induction os as [|o os IH]; [constructor|]. cbn [map] in H. inversion H; subst.
    constructor; auto. }
  assert (Hh : forall n, (depth cost (heap data n) <= cost n)%nat).
  { apply cost_of_heap. intros k. rewrite <- (base_of_depth data) by exact Hd. lia. }
  pose proof (env_of_keys m data Hd) as He. pose proof (cost_of_grows (base_of data)) as Hc.
  destruct (mem_values_tries alloc m data Ha _ (no_promise alloc) (env_of m data) cost He Hc (pure_heap data Hp) Hh d os Ho HF
              (fresh w) (fresh_consistent _ _)) as (_ & H & _).
  revert H. generalize (fst (mem_values alloc m data d os (fresh w))). clear -He Hc Hp Hh Ho HF.
  induction os as [|o os IH]; intros rs H; inversion H as [|r x rs' xs Hr Hrs]; subst; constructor.
  - inversion Ho; subst. inversion HF; subst.
    rewrite (proj1 (value_gives m data (env_of m data) cost He Hc (pure_heap data Hp) Hh d o ltac:(assumption) ltac:(assumption)
               (fresh w) (fresh_consistent _ _))).
    exact Hr.
  - inversion Ho; subst. inversion HF; subst. now apply IH.
Qed.
