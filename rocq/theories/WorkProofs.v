(** Proofs about WorkModel.v. *)
From Verif Require Import Base MagmaModel Streams KuzModel DeepModel DeepMagma WorkModel SpecDeep SpecIter Lib.
From Verif Require Import SpecModes SpecStreams ByteProofs SourceProofs MacProofs KuzStreamProofs DeepProofs DeepMagmaProofs.
From Coq Require Import ZifyNat ZifyN ZifyBool Lia.
Local Open Scope N_scope.
Ltac Zify.zify_post_hook ::= idtac.

Section Proofs.
Context {W : Type} (m : mode) (data : nat -> @blk W * @blk W).
Notation blk := (@blk W).
Notation state := (@state W).
Notation value := (value m data).
Notation calls := (calls m data).
Notation heap := (heap data).

(** Calls when all caches are filled, at most. *)
Fixpoint gcost (n a b : nat) : nat :=
  match n with O => b | Datatypes.S k => gcost k b (38 + a + b) end.

Fixpoint tcost (o : blk) : nat :=
  match o with
  | BRaw _ | BFixed _ | BUser _ | BCached _ => 1
  | BXored a b => 1 + tcost a + tcost b
  | BShifted a _ | BIncremented a | BR a | BS a => 1 + tcost a
  | BL a => 17 + tcost a
  | BIterKey ka kb c1 c2 => 1 + gcost (Z.to_nat (c2 - c1 + 1)) (tcost kb) (tcost ka)
  | BEncrypted a _ => 183 + tcost a
  | BIfHighBit a b => 3 + 2 * tcost a + tcost b
  end%nat.

Lemma gcost_ge n : forall a b, (b <= gcost n a b)%nat.
Proof. induction n as [|n IH]; intros a b; cbn [gcost]; [lia|]. specialize (IH b (38 + a + b)%nat). lia. Qed.

Lemma tcost_transform j : forall o, tcost (transform o j) = (j + tcost o)%nat.
Proof. induction j as [|j IH]; intros o; [reflexivity|]. cbn [transform]. rewrite IH. cbn [tcost]. lia. Qed.

Lemma tcost_encrypt k o : tcost (encrypt k o) = (182 + tcost o)%nat.
Proof. unfold encrypt, encrypt_step, round_key. cbn [tcost]. lia. Qed.

Lemma tcost_generate j : forall (a b : blk) i c2 o, generate j a b i c2 = Ok o ->
  (tcost o <= gcost j (tcost a) (tcost b))%nat.
Proof.
  induction j as [|j IH]; intros a b i c2 o; cbn [generate]; destruct (c2 <? i)%Z; intros H; try discriminate.
  - injection H as <-. cbn [gcost]. lia.
  - injection H as <-. apply (gcost_ge (Datatypes.S j)).
  - destruct (i =? _)%Z; [discriminate|]. cbv zeta in H. apply IH in H. cbn [tcost] in H. cbn [gcost].
    replace (38 + tcost a + tcost b)%nat with (1 + tcost a + (17 + (1 + (1 + tcost b + (17 + 1)))))%nat by lia. exact H.
Qed.

(** What the empty caches below [n] will cost. *)
Definition due (s : state) (n : nat) : nat := match st_cache s n with Some _ => O | None => tcost (heap n) end.
Fixpoint pot (n : nat) (s : state) : nat :=
  match n with O => O | Datatypes.S k => (pot k s + due s k)%nat end.

Lemma pot_mono n n' s : (n <= n')%nat -> (pot n s <= pot n' s)%nat.
Proof. induction 1; cbn [pot]; lia. Qed.

Lemma pot_ext n s s' : (forall i, (i < n)%nat -> st_cache s i = st_cache s' i) -> pot n s = pot n s'.
Proof.
  induction n as [|n IH]; intros H; [reflexivity|]. cbn [pot]. rewrite IH by (intros i Hi; apply H; lia).
  unfold due. rewrite (H n) by lia. reflexivity.
Qed.

Lemma pot_kept n0 n s s' : (n0 <= n)%nat -> kept n0 s s' -> (pot n s' + pot n0 s = pot n s + pot n0 s')%nat.
Proof.
  intros Hn Hk. induction Hn as [|n Hn IH]; [lia|]. cbn [pot]. unfold due. rewrite (Hk n) by lia. lia.
Qed.

Lemma pot_fill n0 v s : st_cache s n0 = None -> forall n, (n0 < n)%nat ->
  (pot n (fill n0 v (evaluated n0 s)) + tcost (heap n0) = pot n s)%nat.
Proof.
  intros E. induction 1 as [|n Hn IH].
  - cbn [pot]. unfold due at 1 2. cbn [fill evaluated st_cache]. rewrite Nat.eqb_refl, E.
    rewrite (pot_ext n0 (fill n0 v (evaluated n0 s)) s); [lia|]. intros i Hi. cbn [fill evaluated st_cache].
    replace (Nat.eqb i n0) with false by lia. reflexivity.
  - cbn [pot]. unfold due. cbn [fill evaluated st_cache]. replace (Nat.eqb n n0) with false by lia. lia.
Qed.

Lemma pot_most n s : (pot n s <= pot n (State (fun _ => None) (st_world s) []))%nat.
Proof.
  induction n as [|n IH]; [cbn; lia|]. cbn [pot]. unfold due at 1 2. cbn [st_cache]. destruct (st_cache s n); lia.
Qed.

Lemma kept_bind {A B} n s (x : M state A) (f : A -> M state B) :
  kept n s (snd (x s)) -> (forall a s', x s = (Ok a, s') -> kept n s' (snd (f a s'))) ->
  kept n s (snd (mbind x f s)).
Proof.
  intros Hx Hf. unfold mbind. destruct (x s) as [r s'] eqn:E. cbn [snd] in Hx.
  destruct r as [a|e|u|]; try exact Hx. apply (kept_trans n s s'); [exact Hx|]. now apply (Hf a).
Qed.

Lemma value_kept (Hd : built_in_order data) d : forall (o : blk) n s,
  below n o -> kept n s (snd (value d o s)).
Proof.
  induction d as [|d IH]; intros o n s Ho; [apply kept_refl|].
  destruct o; cbn [DeepModel.value]; cbn [below] in Ho.
  - apply kept_refl.
  - apply kept_refl.
  - destruct (f (st_world s)) as [r w]. cbn [snd]. now intros i _.
  - apply kept_bind; [now apply IH|]. intros x s1 _. apply kept_bind; [now apply IH|]. intros y s2 _. apply kept_refl.
  - apply kept_bind; [now apply IH|]. intros x s1 _. apply kept_refl.
  - apply kept_bind; [now apply IH|]. intros x s1 _. apply kept_refl.
  - apply kept_bind; [now apply IH|]. intros x s1 _. apply kept_refl.
  - apply IH. now apply below_transform.
  - apply kept_bind; [now apply IH|]. intros x s1 _. apply kept_refl.
  - apply kept_bind; [apply kept_refl|]. intros t s1 E. apply IH.
    unfold lift in E. injection E as E _. now apply (below_generate data n _ _ _ _ _ _ (proj2 Ho) (proj1 Ho) E).
  - destruct (st_cache s n0) as [v|] eqn:E; [apply kept_refl|].
    pose proof (IH (heap n0) n0 s (below_heap data n0 Hd)) as H.
    destruct (value d (heap n0) s) as [r s'] eqn:Ev. cbn [snd] in H.
    assert (H' : kept n s s') by (intros i Hi; apply H; lia).
    destruct r as [v|e|u|]; try exact H'. cbn [snd].
    intros i Hi. cbn [fill evaluated st_cache]. replace (Nat.eqb i n0) with false by lia. now apply H'.
  - apply IH. now apply (below_encrypt data).
  - apply kept_bind; [now apply IH|]. intros x s1 _. destruct (_ =? 0); apply IH; cbn [below]; tauto.
Qed.

(** The statement of the induction: calls are paid by the object itself and by the caches
    that it fills. *)
Definition paid (n c t : nat) (s : state) (r : res (N * N) * state) : Prop :=
  match r with
  | (Ok _, s') => c + pot n s' <= t + pot n s
  | _ => c <= t + pot n s
  end%nat.

Lemma calls_paid (Hd : built_in_order data) d : forall (o : blk) n s,
  below n o -> paid n (calls d o s) (tcost o) s (value d o s).
Proof.
  induction d as [|d IH]; intros o n s Ho; [cbn; lia|].
  assert (one : forall a (f : N * N -> res (N * N)), below n a ->
    paid n (Datatypes.S (calls d a s)) (1 + tcost a) s ((x <-- value d a ;; lift (f x)) s)).
  { intros a f Ha. specialize (IH a n s Ha). unfold mbind. destruct (value d a s) as [[x| | |] s1]; cbn [paid] in *; try lia.
    unfold lift. destruct (f x); cbn [paid]; lia. }
  assert (tail : forall o' t, below n o' -> (1 + tcost o' <= t)%nat -> paid n (Datatypes.S (calls d o' s)) t s (value d o' s)).
  { intros o' t Ho' Ht. specialize (IH o' n s Ho'). destruct (value d o' s) as [[x| | |] s1]; cbn [paid] in *; lia. }
  destruct o; cbn [DeepModel.value WorkModel.calls tcost]; cbn [below] in Ho.
  - cbn. lia.
  - unfold lift. destruct r; cbn; lia.
  - destruct (f (st_world s)) as [r w]. pose proof (pot_ext n s (State (st_cache s) w (st_log s)) (fun _ _ => eq_refl)) as E.
    destruct r; cbn [paid]; lia.
  - pose proof (IH o1 n s (proj1 Ho)) as H1. unfold mbind at 1.
    destruct (value d o1 s) as [[x| | |] s1]; cbn [paid after] in *; try lia.
    pose proof (IH o2 n s1 (proj2 Ho)) as H2. unfold mbind.
    destruct (value d o2 s1) as [[y| | |] s2]; cbn [paid] in *; try lia.
    unfold lift. destruct (KXored _ _); cbn [paid]; lia.
  - now apply one.
  - now apply one.
  - now apply one.
  - apply tail; [now apply below_transform|]. rewrite tcost_transform. lia.
  - now apply one.
  - unfold mbind, lift. destruct (generate _ _ _ _ _) as [t| | |] eqn:E; try (cbn [paid]; lia).
    apply tail; [now apply (below_generate data n _ _ _ _ _ _ (proj2 Ho) (proj1 Ho) E)|]. apply tcost_generate in E. lia.
  - destruct (st_cache s n0) as [v|] eqn:E; [cbn [paid]; lia|].
    pose proof (IH (heap n0) n0 s (below_heap data n0 Hd)) as H.
    pose proof (value_kept Hd d (heap n0) n0 s (below_heap data n0 Hd)) as K.
    destruct (value d (heap n0) s) as [r s'] eqn:Ev. cbn [snd] in K.
    assert (P : (pot n0 s + tcost (heap n0) <= pot n s)%nat).
    { pose proof (pot_mono (Datatypes.S n0) n s Ho) as P. cbn [pot] in P. unfold due in P. rewrite E in P. exact P. }
    destruct r as [v|e|u|]; cbn [paid] in *; try lia.
    pose proof (pot_kept n0 n s s' ltac:(lia) K) as Q. pose proof (K n0 (Nat.le_refl _)) as E'. rewrite E in E'.
    pose proof (pot_fill n0 v s' (eq_sym E') n Ho) as F || pose proof (pot_fill n0 v s' E' n Ho) as F. lia.
  - apply tail; [now apply (below_encrypt data)|]. rewrite tcost_encrypt. lia.
  - pose proof (IH o1 n s (proj1 Ho)) as H1. unfold mbind at 1.
    destruct (value d o1 s) as [[x| | |] s1]; cbn [paid after] in *; try lia.
    destruct (_ =? 0).
    + assert (Hb : below n (BShifted o1 1)) by tauto. specialize (IH _ n s1 Hb). cbn [tcost] in IH.
      destruct (value d (BShifted o1 1) s1) as [[y| | |] s2]; cbn [paid] in *; lia.
    + assert (Hb : below n (BXored (BShifted o1 1) o2)) by (cbn [below]; tauto). specialize (IH _ n s1 Hb). cbn [tcost] in IH.
      destruct (value d (BXored (BShifted o1 1) o2) s1) as [[y| | |] s2]; cbn [paid] in *; lia.
Qed.

Definition bound (n : nat) : nat := (fix sum n := match n with O => O | Datatypes.S k => sum k + tcost (heap k) end)%nat n.

Lemma pot_bound n s : (pot n s <= bound n)%nat.
Proof. induction n as [|n IH]; [cbn; lia|]. cbn [pot bound]. unfold due. fold (bound n). destruct (st_cache s n); lia. Qed.

Lemma calls_bound (Hd : built_in_order data) d o n s : below n o -> (calls d o s <= tcost o + bound n)%nat.
Proof.
  intros Ho. pose proof (calls_paid Hd d o n s Ho) as H. pose proof (pot_bound n s).
  destruct (value d o s) as [[x| | |] s1]; cbn [paid] in H; lia.
Qed.

(** ** kuznyechik::Imit *)

Lemma dimit_loop_cost {I} (ops : iter_ops I) k n vs : (10 * k + 9 < n)%nat -> forall fuel p b it o,
  presents ops (Ok p) vs -> dimit_loop fuel ops k p b = Ok (it, o) -> below n b ->
  below n o /\ (185 + tcost o <= 185 * List.length vs + tcost b)%nat.
Proof.
  intros Hk. induction vs as [|x vs IH]; intros fuel p b it o [Hne Hv] E Hb; [now destruct Hne|].
  destruct fuel as [|fuel]; [discriminate|]. cbn [dimit_loop] in E.
  destruct (Hv 0%nat) as [H0 Hl]; [cbn; lia|].
  apply ask_deref in H0. destruct H0 as (i & Hi & H0). cbn [advance] in Hi. injection Hi as ->.
  apply ask_deref in Hl. destruct Hl as (i' & Hi & Hl). cbn [advance] in Hi. injection Hi as <-.
  cbn [deref bind] in E. rewrite Hl in E. cbn [bind nth] in *.
  destruct vs as [|y vs].
  - cbn [List.length Nat.eqb] in E. injection E as _ <-. split; [exact Hb|]. cbn [List.length]. lia.
  - cbn [List.length Nat.eqb] in E. rewrite H0 in E. cbn [bind] in E.
    destruct (it_next ops i) as [q| | |] eqn:Hq; try discriminate. cbn [bind] in E.
    apply IH in E.
    + destruct E as [E1 E2]. split; [exact E1|]. cbn [tcost List.length] in *. lia.
    + split; [discriminate|]. intros j Hn.
      destruct (Hv (Datatypes.S j)) as [Ha Hb']; [cbn [List.length] in *; lia|].
      unfold block_at, last_at in *. rewrite <- (ask_next _ _ i q j Hq) in Ha.
      rewrite <- (ask_next _ _ i q j Hq) in Hb'. split; assumption.
    + cbn [below]. tauto.
Qed.

Lemma imit_linear (Hd : built_in_order data) k : exists B, forall I (ops : iter_ops I) d fuel p vs s,
  presents ops p vs -> (imit_calls m data d fuel ops p k s <= 185 * List.length vs + B)%nat.
Proof.
  exists (800 + bound (10 * k + 10))%nat. intros I ops d fuel p vs s Hp. unfold imit_calls, dimit_object.
  destruct p as [it| | |]; try (cbn [bind]; lia). cbn [bind].
  destruct (dimit_loop fuel ops k it (BRaw (0, 0))) as [[it' b]| | |] eqn:E; try (cbn [bind]; lia). cbn [bind].
  destruct (dimit_loop_cost ops k (10 * k + 10) vs ltac:(lia) _ _ _ _ _ Hp E Logic.I) as [B1 B2].
  destruct (deref it') as [i| | |]; try (cbn [bind]; lia). cbn [bind].
  destruct (it_value ops i) as [v| | |]; try (cbn [bind]; lia). cbn [bind]. cbv zeta.
  destruct (it_size ops i) as [sz| | |]; try (cbn [bind]; lia). cbn [bind].
  match goal with |- (calls d ?o s <= _)%nat => pose proof (calls_bound Hd d o (10 * k + 10) s) as H; assert (Hb : below (10 * k + 10) o) end.
  { destruct (sz =? kblock_size); cbn [below]; repeat split; try assumption; lia. }
  specialize (H Hb). destruct (sz =? kblock_size); cbn [tcost] in *; lia.
Qed.

(** ** CTR *)

Lemma calls_spine d : forall o s, (Nat.min d (spine o) <= calls d o s)%nat.
Proof.
  induction d as [|d IH]; intros o s; [lia|].
  destruct o; cbn [WorkModel.calls spine]; try lia;
    try (match goal with |- context [calls d ?a s] => pose proof (IH a s) end; lia).
  - pose proof (IH (transform o 16) s) as H. rewrite (spine_transform data) in H. lia.
  - pose proof (IH (encrypt k o) s) as H. rewrite (spine_encrypt data) in H. lia.
Qed.

Lemma ctr_block_lower d iv k i v s : (i + 176 <= d)%nat ->
  (i + 176 <= calls d (BXored (BRaw v) (BEncrypted (counter_object iv i) k)) s)%nat.
Proof.
  intros Hd. destruct d as [|[|d]]; [lia|lia|]. cbn [WorkModel.calls].
  change (value (Datatypes.S d) (BRaw v) s) with (Ok v : res (N * N), s). cbn [after].
  match goal with |- (_ <= Datatypes.S (1 + ?x))%nat => change x with (calls (Datatypes.S d) (BEncrypted (counter_object iv i) k) s) end.
  pose proof (calls_spine (Datatypes.S d) (BEncrypted (counter_object iv i) k) s) as H.
  cbn [spine] in H. rewrite (spine_counter data) in H. lia.
Qed.

Lemma ctr_lower d iv k vs : forall i s, (i + List.length vs + 175 <= d)%nat ->
  (List.length vs * (2 * i + List.length vs + 351) <= 2 * ctr_calls m data d iv k i vs s)%nat.
Proof.
  induction vs as [|v vs IH]; intros i s Hd; [cbn; lia|]. cbn [List.length] in Hd.
  cbn [ctr_calls]. cbv zeta.
  pose proof (ctr_block_lower d iv k i v s ltac:(lia)) as H1.
  specialize (IH (Datatypes.S i) (snd (value d (BXored (BRaw v) (BEncrypted (counter_object iv i) k)) s)) ltac:(lia)).
  cbn [List.length]. nia.
Qed.

Lemma tcost_counter iv n : tcost (counter_object iv n) = (1 + n)%nat.
Proof. induction n as [|n IH]; [reflexivity|]. cbn [counter_object tcost]. lia. Qed.
Lemma below_counter iv n j : below j (@counter_object W iv n).
Proof. induction n as [|n IH]; [exact I|exact IH]. Qed.

Lemma ctr_upper (Hd : built_in_order data) d iv k vs : forall i s,
  (2 * ctr_calls m data d iv k i vs s <= List.length vs * (2 * i + List.length vs + 2 * (186 + bound (10 * k + 10))))%nat.
Proof.
  induction vs as [|v vs IH]; intros i s; [cbn; lia|].
  cbn [ctr_calls]. cbv zeta.
  pose proof (calls_bound Hd d (BXored (BRaw v) (BEncrypted (counter_object iv i) k)) (10 * k + 10) s) as H1.
  cbn [below tcost] in H1. rewrite tcost_counter in H1.
  specialize (H1 ltac:(repeat split; [apply below_counter|lia])).
  specialize (IH (Datatypes.S i) (snd (value d (BXored (BRaw v) (BEncrypted (counter_object iv i) k)) s))).
  cbn [List.length]. set (b := bound _) in *. clearbody b. nia.
Qed.
End Proofs.

(** ** magma::Imit *)

Section Magma.
Context (m : mode).

Fixpoint mcost (o : mblk) : nat :=
  match o with
  | MRaw _ => 1
  | MXored a b => 1 + mcost a + mcost b
  | MShifted a _ | MSwapped a | MForwarded a _ | MBackwarded a _ => 1 + mcost a
  | MEncrypted a _ => 6 + mcost a
  | MImitShifted a => 4 + 2 * mcost a
  | MFinalKey _ _ => 41
  end%nat.

Lemma mcalls_bound d : forall o, (mcalls m d o <= mcost o)%nat.
Proof.
  induction d as [|d IH]; intros o; [cbn; lia|]. destruct o; cbn [mcalls mcost]; try lia;
    try (pose proof (IH o); lia).
  - pose proof (IH o1). pose proof (IH o2). destruct (mvalue m d o1); lia.
  - match goal with |- context [mcalls m d ?a] => pose proof (IH a) as H end. cbn [mcost] in H. lia.
  - pose proof (IH o) as H. destruct (mvalue m d o) as [x| | |]; try lia.
    pose proof (IH (MShifted o 1)) as H1. pose proof (IH (MXored (MShifted o 1) (MRaw (BlkRaw64 0x1b)))) as H2.
    cbn [mcost] in H1, H2. destruct (_ =? 0); lia.
  - cbv zeta. destruct (Nat.eqb size 8).
    + match goal with |- context [mcalls m d ?a] => pose proof (IH a) as H end. cbn [mcost] in H. lia.
    + match goal with |- context [mcalls m d ?a] => pose proof (IH a) as H end. cbn [mcost] in H. lia.
Qed.

Context {W St : Type} (rd : reader W St) (R : St -> W -> bytes -> Prop).

Lemma loop_cost k (HR : delivers8 rd R) n : forall b s o w rest fk blk w', R s w rest ->
  nmloop n (dm_imit_step m rd k) (b, s, o) w = (Ok (fk, blk), w') ->
  (mcost blk <= mcost o + 9 + List.length rest /\ mcost fk = 41)%nat.
Proof.
  induction n as [|n IH]; intros b s o w rest fk blk w' Hs; [discriminate|]. cbn [nmloop].
  unfold dm_imit_step at 1. unfold mbind at 1 2, lift. destruct (imit_load m b) as [v| | |]; try discriminate.
  destruct (Nat.ltb _ _).
  { intros H. injection H as <- <- _. cbn [mcost]. lia. }
  unfold mbind at 1. change (N.of_nat block_size) with 8. destruct (HR s w rest Hs) as (s1 & w1 & E & R1). rewrite E.
  destruct (firstn 8 rest) as [|y b'] eqn:Eb.
  { intros H. injection H as <- <- _. cbn [mcost]. lia. }
  cbn [mret]. destruct (Nat.le_gt_cases 8 (List.length rest)) as [L|L].
  - intros H. apply (IH _ _ _ _ _ _ _ _ R1) in H. cbn [mcost] in H. rewrite skipn_length in H. lia.
  - (* the last, short read *)
    destruct n as [|n]; [discriminate|]. cbn [nmloop]. unfold dm_imit_step at 1. unfold mbind at 1 2, lift.
    destruct (imit_load m (y :: b')) as [v'| | |]; try discriminate.
    assert (Lb : (List.length (y :: b') < 8)%nat) by (rewrite <- Eb, firstn_length; lia).
    replace (Nat.ltb (List.length (y :: b')) block_size) with true by (unfold block_size; lia).
    assert (1 <= List.length rest)%nat by (destruct rest; [discriminate|cbn; lia]).
    intros H'. injection H' as <- <- _. cbn [mcost]. lia.
Qed.

Lemma magma_imit_linear (HR : delivers8 rd R) d fuel data s k w : R s w data ->
  (magma_imit_calls m rd d fuel s k w <= List.length data + 60)%nat.
Proof.
  intros Hs. unfold magma_imit_calls. unfold mbind. change (N.of_nat block_size) with 8.
  destruct (HR s w data Hs) as (s1 & w1 & E & R1). rewrite E. rewrite mloop_nm.
  destruct (nmloop _ _ _ w1) as [[[fk blk]| | |] w2] eqn:El; try lia.
  apply (loop_cost k HR _ _ _ _ _ _ _ _ _ R1) in El. cbn [mcost] in El. rewrite skipn_length in El.
  pose proof (mcalls_bound d (MEncrypted (MXored blk fk) k)) as H. cbn [mcost] in H. lia.
Qed.
End Magma.
