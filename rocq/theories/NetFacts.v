(** Keys shared between threads: what PropNet.v needs, from the lemmas of NetProofs.v. *)
From Verif Require Import Base Text MagmaModel KuzModel DeepModel ConcModel NetModel SpecText SpecMagma SpecStreams SpecDeep SpecConc SpecGost.
From Verif Require Import ByteProofs SboxProofs MagmaSpecProofs StreamProofs DeepProofs ConcProofs NetProofs.
From Coq Require Import ZifyNat ZifyN ZifyBool Lia.
Local Open Scope N_scope.
Ltac Zify.zify_post_hook ::= idtac.

(** ** Lists of calls of which something is known *)

Lemma Forall2_in {B A} (P : res A -> prog A -> Prop) (f : B -> prog A) (g : B -> res A) (calls : list (list B)) :
  Forall (Forall (fun x => P (g x) (f x))) calls ->
  Forall2 (Forall2 P) (map (map g) calls) (map (map f) calls).
Proof.
  induction 1 as [|js calls H _ IH]; [constructor|]. constructor; [|exact IH].
  induction H; constructor; auto.
Qed.

Lemma results_in {A B} (f : B -> prog A) (g : B -> res A) n val can mo m calls tr c i t :
  Forall (Forall (fun x => fine n val can (fun _ _ => False) (g x) (f x))) calls ->
  mo <> PSO -> memory_ok n val can m ->
  exec mo (start m (map (map f) calls)) tr c -> nth_error (c_threads c) i = Some t ->
  exists js, nth_error calls i = Some js /\ answered g js t.
Proof.
  intros Hf Hmo Hm He Ht.
  destruct (exec_results n val can mo m (map (map f) calls) (map (map g) calls) tr c i t Hmo Hm
              (Forall2_in _ f g calls Hf) He Ht) as (rs & rest & E1 & E2 & E3).
  rewrite nth_error_map in E1. destruct (nth_error calls i) as [js|]; [|discriminate]. injection E1 as <-.
  exists js. split; [reflexivity|]. split.
  - rewrite <- firstn_map, E2, firstn_app, firstn_all, Nat.sub_diag. cbn [firstn]. now rewrite app_nil_r.
  - intros H. rewrite (E3 H), app_nil_r in E2. now symmetry.
Qed.

Lemma quiet_in {A B} (f : B -> prog A) (g : B -> res A) mo m calls tr c :
  Forall (Forall (fun x => read_only m (g x) (f x))) calls ->
  exec mo (start m (map (map f) calls)) tr c ->
  ~ race tr /\ forall i t, nth_error (c_threads c) i = Some t ->
    exists js, nth_error calls i = Some js /\ answered g js t.
Proof.
  intros Hf He.
  destruct (exec_quiet mo m (map (map f) calls) (map (map g) calls) tr c (Forall2_in _ f g calls Hf) He) as [R Q].
  split; [now apply reads_no_race|]. intros i t Ht. destruct (proj2 Q i t Ht) as (_ & rs & rest & E1 & E2 & E3).
  rewrite nth_error_map in E1. destruct (nth_error calls i) as [js|]; [|discriminate]. injection E1 as <-.
  exists js. split; [reflexivity|]. split.
  - rewrite <- firstn_map, E2, firstn_app, firstn_all, Nat.sub_diag. cbn [firstn]. now rewrite app_nil_r.
  - intros H. rewrite H in E3. inversion E3; subst. now rewrite app_nil_r in E2.
Qed.

(** ** Kuznyechik *)

Section Fixed.
Context (m : mode) (kd : nat -> kblock * kblock).
Notation data := (@fixed_data unit kd).
Notation env := (key_of kd).
Notation bval := (bval env).
Notation bcan := (bcan env).

Lemma enc_depth d b k : (840 <= d)%nat -> (depth fcost (@BEncrypted unit (BFixed b) k) <= d)%nat.
Proof. intros Hd. cbn [depth]. rewrite (fcost9 kd). lia. Qed.

Lemma kencrypt_fine d c : (840 <= d)%nat ->
  fine bsize bval bcan (fun _ _ => False) (KEncrypted (fst c) (env (snd c))) (kencrypt_prog m kd d c).
Proof.
  intros Hd. destruct c as [b k]. cbn [fst snd].
  apply (does_call _ _ _ (fun A => @value_prog unit A m data d (BEncrypted (BFixed b) k))
    (sem m env (@BEncrypted unit (BFixed b) k))).
  apply (value_does m data env fcost (fixed_keys m kd) (cost_of_grows _) (pure_heap data (fixed_pure kd)) (fixed_heap kd));
    [exact I|now apply enc_depth].
Qed.

Lemma kencrypt_ensures d c :
  ensures (fun n => exists j, (j < 10)%nat /\ n = (10 * snd c + j)%nat) (kencrypt_prog m kd d c).
Proof.
  apply (value_en m data d (BEncrypted (BFixed (fst c)) (snd c))). intros v. apply en_ret. cbn [asks].
  intros o [(j & Hj & ->) H]. apply H. right. now exists j.
Qed.

Lemma kencrypt_ro d c mem e : (840 <= d)%nat ->
  (forall j, (j < 10)%nat -> filled mem e (10 * snd c + j)) ->
  read_only mem (KEncrypted (fst c) (e (snd c))) (kencrypt_prog m kd d c).
Proof.
  intros Hd Hf. destruct c as [b k]. cbn [fst snd] in *.
  apply (ro_call mem (fun A => @value_prog unit A m data d (BEncrypted (BFixed b) k))
    (sem m e (@BEncrypted unit (BFixed b) k))).
  apply (value_ro m data mem e fcost (cost_of_grows _)); [exact I|cbn [within]; tauto|now apply enc_depth].
Qed.

Lemma spine_step d (b kn : @blk unit) (k : N * N -> prog (N * N)) :
  exists k', value_prog m data (19 + d) (encrypt_step b kn) k =
    value_prog m data d b (fun x => value_prog m data d kn (k' x)).
Proof. eexists (fun x y => _). cbn [Nat.add value_prog encrypt_step transform]. reflexivity. Qed.

Lemma vp_fixed d v (k : N * N -> prog (N * N)) : value_prog m data (S d) (BFixed (Ok v)) k = k v.
Proof. reflexivity. Qed.
Lemma vp_cached d n (k : N * N -> prog (N * N)) :
  value_prog m data (S d) (BCached n) k = blk_call n (value_prog m data d (heap data n)) k.
Proof. reflexivity. Qed.
Lemma vp_xored d a b (k : N * N -> prog (N * N)) : value_prog m data (S d) (BXored a b) k =
  value_prog m data d a (fun x => value_prog m data d b (fun y => plift (KXored (Ok x) (Ok y)) k)).
Proof. reflexivity. Qed.
Lemma vp_encrypted d a n (k : N * N -> prog (N * N)) :
  value_prog m data (S d) (BEncrypted a n) k = value_prog m data d (encrypt n a) k.
Proof. reflexivity. Qed.

Lemma spine_steps ks : forall d b (k : N * N -> prog (N * N)),
  ks <> [] ->
  exists k', value_prog m data (19 * List.length ks + d) (fold_left encrypt_step ks b) k =
    value_prog m data d b (fun x => value_prog m data d (hd (BRaw (0, 0)) ks) (k' x)).
Proof.
  induction ks as [|kn ks IH]; intros d b k Hne; [congruence|]. cbn [fold_left hd List.length].
  destruct ks as [|kn' ks]; [apply spine_step|].
  destruct (IH (19 + d)%nat (encrypt_step b kn) k) as [k1 E1]; [discriminate|].
  replace (19 * S (List.length (kn' :: ks)) + d)%nat with (19 * List.length (kn' :: ks) + (19 + d))%nat by lia.
  rewrite E1. apply spine_step.
Qed.

Lemma kencrypt_spine d v k : (840 <= d)%nat ->
  exists d' k', kencrypt_prog m kd d (Ok v, k) = blk_call (10 * k) (value_prog m data (S d') (fst (data k))) k'.
Proof.
  intros Hd. destruct (Nat.le_exists_sub 176 d) as (e & -> & _); [lia|].
  exists (S e). unfold kencrypt_prog, blk_value_prog. fold data. cbn [fst snd].
  replace (e + 176)%nat with (S (S (19 * List.length (map (@round_key unit k) (seq 0 9)) + S (S (S e)))))
    by (rewrite map_length, seq_length; lia).
  rewrite vp_encrypted. unfold encrypt. cbv zeta. rewrite vp_xored.
  match goal with |- context [value_prog m data (19 * _ + ?d) ?t ?f] =>
    destruct (spine_steps (map (@round_key unit k) (seq 0 9)) d (BFixed (Ok v)) f) as [k' E] end; [discriminate|].
  cbn [map seq fold_left hd] in E. cbn [map seq]. rewrite E. clear E. rewrite vp_fixed. unfold round_key. rewrite vp_cached.
  rewrite Nat.add_0_r. exists (k' v). f_equal. f_equal.
  unfold heap. destruct (divmod10 k 0) as [H1 H2]; [lia|]. rewrite Nat.add_0_r in H1, H2. rewrite H1, H2. reflexivity.
Qed.

Lemma kencrypt_pending d v k h : (840 <= d)%nat -> fst (kd k) = Ok h ->
  reads_flag (10 * k) (kencrypt_prog m kd d (Ok v, k)) /\ pending (10 * k) (kencrypt_prog m kd d (Ok v, k)).
Proof.
  intros Hd Hk. destruct (kencrypt_spine d v k Hd) as (d' & k' & ->).
  cbn [fixed_data fst]. rewrite Hk. apply (blk_call_pending (10 * k) h).
Qed.

Lemma warm_memory d first : (840 <= d)%nat ->
  let r := alone_calls new_objects (map (kencrypt_prog m kd d) first) in
  fst r = map (fun c => KEncrypted (fst c) (env (snd c))) first /\
  forall c v, In c first -> KEncrypted (fst c) (env (snd c)) = Ok v ->
  forall j, (j < 10)%nat -> filled (snd r) env (10 * snd c + j).
Proof.
  intros Hd r.
  destruct (alone_calls_fine (kencrypt_prog m kd d) (fun c => KEncrypted (fst c) (env (snd c))) bsize bval bcan
    (fun c n => exists j, (j < 10)%nat /\ n = (10 * snd c + j)%nat) first
    (fun c => kencrypt_fine d c Hd) (kencrypt_ensures d) new_objects (new_ok _ _ _)) as (E & M & _ & F).
  fold r in E, M, F. split; [exact E|]. intros c v Hc Hv j Hj.
  assert (Hfl : m_flag (snd r) (10 * snd c + j) = true) by (apply (F c v); [exact Hc|exact Hv|now exists j]).
  split; [exact Hfl|]. destruct (M _ Hfl) as [[u Hu] W].
  pose proof (W 0%nat ltac:(unfold bsize; lia)) as W0. pose proof (W 1%nat ltac:(unfold bsize; lia)) as W1.
  rewrite W0, W1. unfold NetProofs.bval. rewrite Hu. fold (round_value env (10 * snd c + j)). rewrite Hu. now destruct u.
Qed.
End Fixed.

Definition zero_key : kkey :=
  let z := Ok (0, 0) in KKey z z z z z z z z z z.

Lemma zero_rk j : rk zero_key j = Ok (0, 0).
Proof. unfold rk. do 9 (destruct j as [|j]; [reflexivity|]). reflexivity. Qed.

Lemma kuz_early m kd d x y k v : (840 <= d)%nat ->
  KEncrypted x (key_of kd k) = Ok v ->
  exists tr c, exec PSO (start new_objects (map (map (kencrypt_prog m kd d)) [[(x, k)]; [(y, k)]])) tr c /\
    map (fun t => t_results t) (c_threads c) = [[Ok v]; [KEncrypted y zero_key]].
Proof.
  intros Hd Hv. cbn [map].
  destruct (alone_fine bsize (bval (key_of kd)) (bcan (key_of kd)) (kencrypt_prog m kd d (x, k)) new_objects
    (fun _ _ => False) (KEncrypted x (key_of kd k)) (new_ok _ _ _)) as [E _]; [tauto|now apply (kencrypt_fine m kd d (x, k))|].
  rewrite <- Hv, <- E. apply early_flags. intros mem Hw Hf.
  apply (kencrypt_ro m kd d (y, k) mem (fun _ => zero_key) Hd). cbn [snd]. intros j Hj. split.
  - rewrite Hf. destruct (alone_ensures (kencrypt_prog m kd d (x, k)) new_objects _ (kencrypt_ensures m kd d (x, k))) as [_ F].
    apply (F v); [now rewrite E|now exists j].
  - rewrite !Hw. apply zero_rk.
Qed.

(** Key data and blocks made of any objects. *)
Lemma any_objects {W} (m : mode) (data : nat -> @blk W * @blk W) (calls : list (list blk)) :
  built_in_order data -> pure_data data -> Forall (Forall pure) calls ->
  exists d0, forall d w, (d0 <= d)%nat ->
  (forall mo tr c i t, mo <> PSO ->
   exec mo (start new_objects (map (map (blk_value_prog m data d)) calls)) tr c ->
   nth_error (c_threads c) i = Some t ->
   exists os, nth_error calls i = Some os /\ answered (fun o => fst (value m data d o (fresh w))) os t) /\
  fst (alone_calls new_objects (map (blk_value_prog m data d) (List.concat calls))) =
  fst (values m data d (List.concat calls) (fresh w)).
Proof.
  intros Hd Hp Ho. pose (cost := cost_of (base_of data)). pose (env := env_of m data).
  exists (list_max (map (depth cost) (List.concat calls))). intros d w Hm.
  assert (HF : forall o, In o (List.concat calls) -> (depth cost o <= d)%nat).
  { pose proof (proj1 (list_max_le (map (depth cost) (List.concat calls)) d) Hm) as H.
    rewrite Forall_map, Forall_forall in H. exact H. }
  assert (HP : forall o, In o (List.concat calls) -> pure o).
  { intros o Hin. apply in_concat in Hin. destruct Hin as (os & H1 & H2). rewrite Forall_forall in Ho.
    specialize (Ho os H1). rewrite Forall_forall in Ho. now apply Ho. }
  assert (Hh : forall n, (depth cost (heap data n) <= cost n)%nat).
  { apply cost_of_heap. intros k. rewrite <- base_of_depth by exact Hd. lia. }
  pose proof (env_of_keys m data Hd) as He. pose proof (cost_of_grows (base_of data)) as Hc.
  assert (HD : forall o, In o (List.concat calls) ->
    fine bsize (bval env) (bcan env) (fun _ _ => False) (sem m env o) (blk_value_prog m data d o)).
  { intros o Hin. apply (does_call _ _ _ (fun A => @value_prog W A m data d o)).
    now apply (value_does m data env cost He Hc (pure_heap data Hp) Hh); [apply HP|apply HF]. }
  assert (HV : forall o, In o (List.concat calls) -> fst (value m data d o (fresh w)) = sem m env o).
  { intros o Hin. apply (value_gives m data env cost He Hc (pure_heap data Hp) Hh d o); [now apply HP|now apply HF|apply fresh_consistent]. }
  split.
  - intros mo tr c i t Hmo. apply (results_in _ _ bsize (bval env) (bcan env)); [|exact Hmo|apply new_ok].
    apply Forall_forall. intros os Hos. apply Forall_forall. intros o Hin.
    assert (Hi : In o (List.concat calls)) by (apply in_concat; now exists os).
    rewrite (HV o Hi). now apply HD.
  - destruct (values_gives m data env cost He Hc (pure_heap data Hp) Hh d (List.concat calls)) with (s := fresh w) as [-> _];
      [now apply Forall_forall|now apply Forall_forall|apply fresh_consistent|].
    revert HD. generalize (List.concat calls) as os. clear -Hd. intros os HD. generalize (new_ok bsize (bval env) (bcan env)).
    generalize new_objects. induction os as [|o os IH]; intros mem Hmem; [reflexivity|]. cbn [map alone_calls].
    destruct (alone_fine bsize (bval env) (bcan env) (blk_value_prog m data d o) mem (fun _ _ => False) (sem m env o) Hmem) as [E M];
      [tauto|apply HD; now left|].
    destruct (alone mem (blk_value_prog m data d o)) as [r1 m1]. cbn [fst snd] in *.
    specialize (IH (fun o H => HD o (or_intror H)) m1 M).
    destruct (alone_calls m1 _) as [rs m2]. cbn [fst] in *. now rewrite E, IH.
Qed.

(** ** Magma *)

(** Whatever holds of key() and of code without shared data, and is kept by sequencing, holds
    of the whole encryption. *)
Section Closed.
Context (o : nat) (kd kd' : keydata) (sb : sbox).
Context (J : forall A, (forall B, (A -> prog B) -> prog B) -> res A -> Prop).
Context (J_lift : forall A (r : res A), J A (fun B => @plift A B r) r).
Context (J_bind : forall A C (x : forall B, (A -> prog B) -> prog B) r (f : A -> forall B, (C -> prog B) -> prog B) h,
  J A x r -> (forall a, J C (f a) (h a)) -> J C (fun B k => x B (fun a => f a B k)) (bind r h)).
Context (J_key : forall i, J N (fun B => @key_call B o kd i) (kd' i)).
Notation lk := (Some (LazyKey kd' sb)).

Lemma J_transform v i : J N (fun B => @transform_prog B o kd sb v i) (ptr_transform lk v i).
Proof.
  unfold transform_prog. cbn [ptr_transform]. unfold lazy_transform. cbn [key_data key_sbox].
  apply (J_bind N N (fun B => @key_call B o kd i) (kd' i) (fun kw B k => plift (sb (w32 (w32 kw + v))) (fun r => k (w32 r)))); [apply J_key|].
  intros kw. apply (J_bind N N (fun B => plift (sb (w32 (w32 kw + v)))) _ (fun r B k => k (w32 r))); [apply J_lift|].
  intros r. apply (J_lift N (Ok (w32 r))).
Qed.

Ltac round := match goal with |- J _ (fun B k => transform_prog _ _ _ ?v ?i (fun t => @?f t B k)) (bind ?r ?h) =>
  apply (J_bind N (N * N) (fun B => @transform_prog B o kd sb v i) r (fun t B k => f t B k) h); [apply J_transform|];
  let t := fresh in intros t; cbv beta zeta end.

Lemma J_forwarded ab : J (N * N) (fun B => @forwarded_prog B o kd sb ab) (BlkForwarded (Ok ab) lk).
Proof.
  destruct ab as [a b]. unfold forwarded_prog, BlkForwarded. cbn [bind]. do 8 round. apply (J_lift _ (Ok _)).
Qed.

Lemma J_backwarded ab : J (N * N) (fun B => @backwarded_prog B o kd sb ab) (BlkBackwarded (Ok ab) lk).
Proof.
  destruct ab as [a b]. unfold backwarded_prog, BlkBackwarded. cbn [bind]. do 8 round. apply (J_lift _ (Ok _)).
Qed.

Lemma forwarded_strict r k : BlkForwarded r k = bind r (fun x => BlkForwarded (Ok x) k).
Proof. now destruct r. Qed.
Lemma backwarded_strict r k : BlkBackwarded r k = bind r (fun x => BlkBackwarded (Ok x) k).
Proof. now destruct r. Qed.

Lemma J_encrypted ab : J (N * N) (fun B => @encrypted_prog B o kd sb ab) (BlkEncrypted (Ok ab) lk).
Proof.
  unfold encrypted_prog, BlkEncrypted.
  replace (BlkSwapped _) with
    (bind (BlkForwarded (Ok ab) lk) (fun x => bind (BlkForwarded (Ok x) lk) (fun x => bind (BlkForwarded (Ok x) lk)
      (fun x => bind (BlkBackwarded (Ok x) lk) (fun x => Ok (snd x, fst x)))))).
  2:{ rewrite (backwarded_strict (BlkForwarded _ _)), (forwarded_strict (BlkForwarded (BlkForwarded _ _) _)), (forwarded_strict (BlkForwarded _ _)).
      destruct (BlkForwarded (Ok ab) lk) as [x| | |]; [|reflexivity..]. cbn [bind].
      destruct (BlkForwarded (Ok x) lk) as [y| | |]; [|reflexivity..]. cbn [bind].
      destruct (BlkForwarded (Ok y) lk) as [z| | |]; [|reflexivity..]. cbn [bind].
      destruct (BlkBackwarded (Ok z) lk) as [[? ?]| | |]; reflexivity. }
  apply (J_bind _ _ (fun B => @forwarded_prog B o kd sb ab) _ (fun x B k => forwarded_prog o kd sb x (fun x => forwarded_prog o kd sb x (fun x =>
    backwarded_prog o kd sb x (fun x => k (snd x, fst x)))))); [apply J_forwarded|intros x].
  apply (J_bind _ _ (fun B => @forwarded_prog B o kd sb x) _ (fun x B k => forwarded_prog o kd sb x (fun x =>
    backwarded_prog o kd sb x (fun x => k (snd x, fst x))))); [apply J_forwarded|intros y].
  apply (J_bind _ _ (fun B => @forwarded_prog B o kd sb y) _ (fun x B k =>
    backwarded_prog o kd sb x (fun x => k (snd x, fst x)))); [apply J_forwarded|intros z].
  apply (J_bind _ _ (fun B => @backwarded_prog B o kd sb z) _ (fun x B k => k (snd x, fst x))); [apply J_backwarded|intros u].
  apply (J_lift _ (Ok _)).
Qed.

Lemma J_decrypted ab : J (N * N) (fun B => @decrypted_prog B o kd sb ab) (BlkDecrypted (Ok ab) lk).
Proof.
  unfold decrypted_prog, BlkDecrypted.
  replace (BlkSwapped _) with
    (bind (BlkForwarded (Ok ab) lk) (fun x => bind (BlkBackwarded (Ok x) lk) (fun x => bind (BlkBackwarded (Ok x) lk)
      (fun x => bind (BlkBackwarded (Ok x) lk) (fun x => Ok (snd x, fst x)))))).
  2:{ rewrite (backwarded_strict (BlkBackwarded (BlkBackwarded _ _) _)), (backwarded_strict (BlkBackwarded _ _)), (backwarded_strict (BlkForwarded _ _)).
      destruct (BlkForwarded (Ok ab) lk) as [x| | |]; [|reflexivity..]. cbn [bind].
      destruct (BlkBackwarded (Ok x) lk) as [y| | |]; [|reflexivity..]. cbn [bind].
      destruct (BlkBackwarded (Ok y) lk) as [z| | |]; [|reflexivity..]. cbn [bind].
      destruct (BlkBackwarded (Ok z) lk) as [[? ?]| | |]; reflexivity. }
  apply (J_bind _ _ (fun B => @forwarded_prog B o kd sb ab) _ (fun x B k => backwarded_prog o kd sb x (fun x => backwarded_prog o kd sb x (fun x =>
    backwarded_prog o kd sb x (fun x => k (snd x, fst x)))))); [apply J_forwarded|intros x].
  apply (J_bind _ _ (fun B => @backwarded_prog B o kd sb x) _ (fun x B k => backwarded_prog o kd sb x (fun x =>
    backwarded_prog o kd sb x (fun x => k (snd x, fst x))))); [apply J_backwarded|intros y].
  apply (J_bind _ _ (fun B => @backwarded_prog B o kd sb y) _ (fun x B k =>
    backwarded_prog o kd sb x (fun x => k (snd x, fst x)))); [apply J_backwarded|intros z].
  apply (J_bind _ _ (fun B => @backwarded_prog B o kd sb z) _ (fun x B k => k (snd x, fst x))); [apply J_backwarded|intros u].
  apply (J_lift _ (Ok _)).
Qed.
End Closed.

Section Magma.
Context (o : nat) (kd : keydata) (sb : sbox) (val : nat -> N) (Hl : loads kd val).

Lemma cached_answer i : KeyCachedData kd i = answer val i.
Proof.
  unfold KeyCachedData. change [0; 1; 2; 3; 4; 5; 6; 7]%Z with (map Z.of_nat (seq 0 8)).
  assert (E : mapM kd (map Z.of_nat (seq 0 8)) = Ok (map val (seq 0 8))).
  { cbn [seq map mapM]. rewrite !(fun i H => proj1 (Hl i H)) by lia. reflexivity. }
  rewrite E. cbn [bind]. unfold at_int, answer. destruct (0 <=? i)%Z eqn:H0; [|reflexivity]. cbn [andb].
  destruct (i <? 8)%Z eqn:H1.
  - assert (H : i = 0%Z \/ i = 1%Z \/ i = 2%Z \/ i = 3%Z \/ i = 4%Z \/ i = 5%Z \/ i = 6%Z \/ i = 7%Z) by lia.
    repeat (destruct H as [->|H]; [reflexivity|]). now subst.
  - unfold at_. cbn [seq map]. unfold len. cbn [List.length]. 
    destruct (Z.to_N i <? N.of_nat 8) eqn:H2; [lia|reflexivity].
Qed.

Definition mcan (n : nat) : Prop := True.

Lemma request_fine q : fine (fun _ => 8%nat) (fun _ => val) mcan (fun _ _ => False)
  (respond (LazyKey (KeyCachedData kd) sb) q) (request_prog o kd sb q).
Proof.
  assert (K : forall i, does (fun _ => 8%nat) (fun _ => val) mcan (fun B => @key_call B o kd i) (KeyCachedData kd i)).
  { intros i. rewrite cached_answer. now apply (key_does (fun _ => 8%nat) (fun _ => val)). }
  destruct q as [ab|ab]; cbn [respond request_prog].
  - apply (does_call _ _ _ (fun B => @encrypted_prog B o kd sb ab)).
    apply (J_encrypted o kd (KeyCachedData kd) sb (@does (fun _ => 8%nat) (fun _ => val) mcan)); [intros; apply does_lift| |exact K].
    intros A C x r f h H1 H2. apply does_bind; [exact H1|]. intros a _. apply H2.
  - apply (does_call _ _ _ (fun B => @decrypted_prog B o kd sb ab)).
    apply (J_decrypted o kd (KeyCachedData kd) sb (@does (fun _ => 8%nat) (fun _ => val) mcan)); [intros; apply does_lift| |exact K].
    intros A C x r f h H1 H2. apply does_bind; [exact H1|]. intros a _. apply H2.
Qed.

Lemma request_pending q : reads_flag o (request_prog o kd sb q) /\ pending o (request_prog o kd sb q).
Proof. destruct q as [[a b]|[a b]]; now apply (key_call_pending o kd val 0). Qed.
End Magma.

Section MagmaRo.
Context (o : nat) (kd : keydata) (sb : sbox) (mem : memory) (Hf : m_flag mem o = true).

Lemma key_ro i : ro mem (fun B => @key_call B o kd i) (answer (m_word mem o) i).
Proof.
  intros B k g Hk. unfold key_call. constructor. rewrite Hf. unfold key_read. unfold answer in *.
  destruct (_ && _)%bool; cbn [bind]; [|constructor]. constructor. now apply Hk.
Qed.

Lemma request_ro q : read_only mem (respond (LazyKey (answer (m_word mem o)) sb) q) (request_prog o kd sb q).
Proof.
  destruct q as [ab|ab]; cbn [respond request_prog].
  - apply (ro_call mem (fun B => @encrypted_prog B o kd sb ab)).
    apply (J_encrypted o kd (answer (m_word mem o)) sb (@ro mem)); [intros; apply ro_lift| |exact key_ro].
    intros A C x r f h H1 H2. apply ro_bind; [exact H1|]. intros a _. apply H2.
  - apply (ro_call mem (fun B => @decrypted_prog B o kd sb ab)).
    apply (J_decrypted o kd (answer (m_word mem o)) sb (@ro mem)); [intros; apply ro_lift| |exact key_ro].
    intros A C x r f h H1 H2. apply ro_bind; [exact H1|]. intros a _. apply H2.
Qed.
End MagmaRo.

Lemma respond_ext kd kd' sb q : (forall i, (0 <= i < 8)%Z -> kd i = kd' i) ->
  respond (LazyKey kd sb) q = respond (LazyKey kd' sb) q.
Proof.
  intros H.
  assert (T : forall v i, (0 <= i < 8)%Z -> ptr_transform (Some (LazyKey kd sb)) v i = ptr_transform (Some (LazyKey kd' sb)) v i).
  { intros v i Hi. cbn [ptr_transform]. unfold lazy_transform. cbn [key_data key_sbox]. now rewrite H. }
  assert (F : forall r, BlkForwarded r (Some (LazyKey kd sb)) = BlkForwarded r (Some (LazyKey kd' sb))).
  { intros [[a b]| | |]; [|reflexivity..]. unfold BlkForwarded. cbn [bind].
    do 8 (rewrite T by lia; match goal with |- bind ?x _ = bind ?x _ => destruct x; [|reflexivity..] end; cbn [bind]).
    reflexivity. }
  assert (G : forall r, BlkBackwarded r (Some (LazyKey kd sb)) = BlkBackwarded r (Some (LazyKey kd' sb))).
  { intros [[a b]| | |]; [|reflexivity..]. unfold BlkBackwarded. cbn [bind].
    do 8 (rewrite T by lia; match goal with |- bind ?x _ = bind ?x _ => destruct x; [|reflexivity..] end; cbn [bind]).
    reflexivity. }
  destruct q as [ab|ab]; cbn [respond]; [unfold BlkEncrypted|unfold BlkDecrypted]; now rewrite !F, !G.
Qed.

Lemma request_ensures o kd sb q : ensures (eq o) (request_prog o kd sb q).
Proof.
  assert (L : forall A B (r : res A) (k : A -> prog B) S, (forall a, ensures S (k a)) -> ensures S (plift r k)).
  { intros A B r k S H. destruct r; cbn [plift]; [apply H|apply en_fail; discriminate..]. }
  assert (R : forall B i (k : N -> prog B) S, (forall v, ensures S (k v)) -> ensures S (key_read o i k)).
  { intros B i k S H. unfold key_read. destruct (_ && _)%bool; [|apply en_fail; discriminate]. now apply en_rdword. }
  assert (D : forall B n i (p : prog B) S, ensures S p -> ensures S (key_load o kd n i p)).
  { intros B n. induction n as [|n IH]; intros i p S H; [exact H|]. cbn [key_load]. apply L. intros v. apply en_wrword. auto. }
  assert (T : forall B v i (k : N -> prog B) S, (forall v, ensures (fun x => S x /\ x <> o) (k v)) -> ensures S (transform_prog o kd sb v i k)).
  { intros B v i k S H. unfold transform_prog, key_call. apply en_rdflag.
    - apply R. intros u. apply L. intros r. apply H.
    - apply D. apply en_wrflag. apply R. intros u. apply L. intros r. apply H. }
  assert (T0 : forall B v i (k : N -> prog B), (forall v, ensures (fun x => o = x /\ x <> o) (k v)) ->
    ensures (fun x => o = x /\ x <> o) (transform_prog o kd sb v i k)).
  { intros B v i k H. apply T. intros u. eapply ensures_weaken; [|apply H]. cbv beta. tauto. }
  assert (E : forall r : res (N * N), ensures (fun x => o = x /\ x <> o) (Ret r)).
  { intros r. apply en_ret. intros x [-> H]. now apply H. }
  destruct q as [[a b]|[a b]]; cbn [request_prog]; [unfold encrypted_prog|unfold decrypted_prog];
    unfold forwarded_prog, backwarded_prog; (apply T; intros ?); do 31 (apply T0; intros ?); apply E.
Qed.

Lemma request_warm o kd sb val first : loads kd val -> first <> [] ->
  (forall q, In q first -> exists v, respond (LazyKey (KeyCachedData kd) sb) q = Ok v) ->
  let r := alone_calls new_objects (map (request_prog o kd sb) first) in
  fst r = map (respond (LazyKey (KeyCachedData kd) sb)) first /\
  forall q, read_only (snd r) (respond (LazyKey (KeyCachedData kd) sb) q) (request_prog o kd sb q).
Proof.
  intros Hl Hne Hok r.
  destruct (alone_calls_fine (request_prog o kd sb) (respond (LazyKey (KeyCachedData kd) sb)) (fun _ => 8%nat) (fun _ => val) mcan
    (fun _ => eq o) first (request_fine o kd sb val Hl) (request_ensures o kd sb) new_objects (new_ok _ _ _)) as (E & M & _ & F).
  fold r in E, M, F. split; [exact E|]. intros q.
  assert (Hfl : m_flag (snd r) o = true).
  { destruct first as [|q0 first]; [congruence|]. destruct (Hok q0 (or_introl eq_refl)) as [v Hv].
    apply (F q0 v); [now left|exact Hv|reflexivity]. }
  rewrite (respond_ext (KeyCachedData kd) (answer (m_word (snd r) o)) sb q); [now apply request_ro|].
  intros i Hi. rewrite (cached_answer kd val Hl). unfold answer. destruct (_ && _)%bool eqn:Eb; [|reflexivity].
  f_equal. symmetry. apply (M o Hfl). lia.
Qed.

Lemma magma_early o kd sb val p q v : loads kd val ->
  respond (LazyKey (KeyCachedData kd) sb) p = Ok v ->
  exists tr c, exec PSO (start new_objects (map (map (request_prog o kd sb)) [[p]; [q]])) tr c /\
    map (fun t => t_results t) (c_threads c) = [[Ok v]; [respond (LazyKey_native (repeat 0 8) sb) q]].
Proof.
  intros Hl Hv. cbn [map].
  destruct (alone_fine (fun _ => 8%nat) (fun _ => val) mcan (request_prog o kd sb p) new_objects
    (fun _ _ => False) (respond (LazyKey (KeyCachedData kd) sb) p) (new_ok _ _ _)) as [E _]; [tauto|now apply (request_fine o kd sb val)|].
  rewrite <- Hv, <- E. apply early_flags. intros mem Hw Hf.
  assert (Hfl : m_flag mem o = true).
  { rewrite Hf. destruct (alone_ensures (request_prog o kd sb p) new_objects _ (request_ensures o kd sb p)) as [_ F].
    apply (F v); [now rewrite E|reflexivity]. }
  unfold LazyKey_native. rewrite (respond_ext _ (answer (m_word mem o)) sb q); [now apply request_ro|].
  intros i Hi. unfold KeyDataNative, answer, at_int.
  assert (H : i = 0%Z \/ i = 1%Z \/ i = 2%Z \/ i = 3%Z \/ i = 4%Z \/ i = 5%Z \/ i = 6%Z \/ i = 7%Z) by lia.
  repeat (destruct H as [->|H]; [cbn; now rewrite Hw|]). subst. cbn. now rewrite Hw.
Qed.

Lemma string_loads s : List.length s = 64%nat -> Forall hex_digit s ->
  loads (KeyDataString s) (key_word (number s)).
Proof.
  intros Hl Hs i Hi. split; [|apply N.mod_lt; discriminate].
  rewrite KeyDataString_hex by assumption. f_equal. now apply number_slice.
Qed.

Lemma raw_halves x : x < 2 ^ 64 -> BlkRaw64 x = Ok (halves x).
Proof. apply BlkRaw64_halves. Qed.

Lemma magma_early_string s x y :
  List.length s = 64%nat -> Forall hex_digit s -> x < 2 ^ 64 -> y < 2 ^ 64 ->
  exists tr c,
    exec PSO (start new_objects (map (map (request_prog 0 (KeyDataString s) SboxR3412))
      [[Encrypt (halves x)]; [Encrypt (halves y)]])) tr c /\
    map (fun t => t_results t) (c_threads c) =
      [[Ok (halves (Magma_E (number s) x))]; [Ok (halves (Magma_E 0 y))]].
Proof.
  intros Hl Hs Hx Hy.
  assert (Ex : BlkEncrypted (BlkRaw64 x) (Some (LazyKey_string s)) = Ok (halves (Magma_E (number s) x)))
    by exact (proj1 (BlkEncrypted_spec _ _ x (LazyKey_string_computes s Hl Hs) Hx)).
  rewrite raw_halves in Ex by exact Hx.
  assert (C : computes (Some (LazyKey_native (repeat 0 8) SboxR3412)) (fun i => g (key_word 0 i))).
  { unfold LazyKey_native, g.
    apply (lazy_computes _ _ (key_word 0) (fun v => rotl11 (subst_digits Pi v))); [|intros v _; apply SboxR3412_total].
    intros i Hi. do 8 (destruct i as [|i]; [reflexivity|]). lia. }
  assert (Ey : BlkEncrypted (BlkRaw64 y) (Some (LazyKey_native (repeat 0 8) SboxR3412)) = Ok (halves (Magma_E 0 y)))
    by exact (proj1 (BlkEncrypted_spec _ _ y C Hy)).
  rewrite raw_halves in Ey by exact Hy.
  destruct (magma_early 0 (KeyDataString s) SboxR3412 (key_word (number s)) (Encrypt (halves x)) (Encrypt (halves y)) _
    (string_loads s Hl Hs) Ex) as (tr & c & H1 & H2).
  exists tr, c. split; [exact H1|]. rewrite H2. cbn [respond]. rewrite Ey. reflexivity.
Qed.

Lemma magma_values_string o s mo (calls : list (list (bool * N))) tr c i t :
  List.length s = 64%nat -> Forall hex_digit s -> mo <> PSO ->
  Forall (Forall (fun c => snd c < 2 ^ 64)) calls ->
  exec mo (start new_objects (map (map (fun c : bool * N => request_prog o (KeyDataString s) SboxR3412
    (if fst c then Encrypt (halves (snd c)) else Decrypt (halves (snd c))))) calls)) tr c ->
  nth_error (c_threads c) i = Some t ->
  exists js, nth_error calls i = Some js /\
    answered (fun c : bool * N => Ok (halves (if fst c then Magma_E (number s) (snd c) else Magma_D (number s) (snd c)))) js t.
Proof.
  intros Hl Hs Hmo Hx. pose proof (string_loads s Hl Hs) as HL.
  apply (results_in _ _ (fun _ => 8%nat) (fun _ => key_word (number s)) mcan); [|exact Hmo|apply new_ok].
  apply Forall_forall. intros js Hjs. apply Forall_forall. intros [e x] Hin. cbn [fst snd].
  rewrite Forall_forall in Hx. specialize (Hx js Hjs). rewrite Forall_forall in Hx. specialize (Hx _ Hin). cbn [snd] in Hx.
  assert (E : respond (LazyKey (KeyCachedData (KeyDataString s)) SboxR3412)
    (if e then Encrypt (halves x) else Decrypt (halves x)) = Ok (halves (if e then Magma_E (number s) x else Magma_D (number s) x))).
  { destruct e; cbn [respond]; rewrite <- raw_halves by exact Hx.
    - exact (proj1 (BlkEncrypted_spec _ _ x (LazyKey_string_computes s Hl Hs) Hx)).
    - exact (proj1 (BlkDecrypted_spec _ _ x (LazyKey_string_computes s Hl Hs) Hx)). }
  rewrite <- E. now apply (request_fine o (KeyDataString s) SboxR3412 _ HL).
Qed.

(** ** GOST 28147-89 *)

Lemma native_key ws i : List.length ws = 8%nat -> (i < 8)%nat -> KeyDataNative ws (Z.of_nat i) = Ok (nth i ws 0).
Proof.
  intros Hw Hi. unfold KeyDataNative, at_int. rewrite (proj2 (Z.leb_le _ _)) by lia.
  replace (Z.to_N (Z.of_nat i)) with (N.of_nat i) by lia.
  rewrite at_ok with (d := 0) by (unfold len; lia). now rewrite Nat2N.id.
Qed.

Lemma gost_ciphers kd sb ts ws : Forall nibble_table ts -> List.length ts = 8%nat ->
  (forall i, (i < 8)%nat -> kd (Z.of_nat i) = Ok (nth i ws 0)) ->
  (forall v, v < 2 ^ 32 -> sb v = Ok (subst_digits ts v)) ->
  let k := KLazy (LazyKey kd (SboxTwisted sb)) in
  enciphers k (encryption (gost_round ts ws)) /\ deciphers k (decryption (gost_round ts ws)).
Proof.
  intros Ht Hn Hk Hs k.
  assert (C : computes (Some (LazyKey kd (SboxTwisted sb))) (gost_round ts ws)).
  { apply (lazy_computes _ _ (fun i => nth i ws 0) (fun v => rotl11 (subst_digits ts v))); [exact Hk|].
    intros v Hv. pose proof (subst_digits_lt ts v Ht) as Hd. unfold len in Hd. rewrite Hn in Hd.
    split; [|now apply rotl11_lt]. apply SboxTwisted_ok; [now apply Hs|exact Hd]. }
  split; [now apply computes_enciphers|now apply computes_deciphers].
Qed.

Lemma native_nibble (ws t0 t1 t2 t3 t4 t5 t6 t7 : list N) :
  List.length ws = 8%nat -> Forall nibble_table [t0; t1; t2; t3; t4; t5; t6; t7] ->
  let k := KLazy (LazyKey_native ws (SboxTwisted
             (SboxNibble (map Z.of_N t0) (map Z.of_N t1) (map Z.of_N t2) (map Z.of_N t3)
                         (map Z.of_N t4) (map Z.of_N t5) (map Z.of_N t6) (map Z.of_N t7)))) in
  enciphers k (encryption (gost_round [t0; t1; t2; t3; t4; t5; t6; t7] ws)) /\
  deciphers k (decryption (gost_round [t0; t1; t2; t3; t4; t5; t6; t7] ws)).
Proof.
  intros Hw Ht. apply gost_ciphers; [exact Ht|reflexivity|intros i Hi; now apply native_key|].
  intros v _. repeat match goal with H : Forall _ (_ :: _) |- _ => inversion H; clear H; subst end.
  now apply SboxNibble_ok.
Qed.

Lemma native_packed (ws uz : list N) (ts : list (list N)) :
  List.length ws = 8%nat -> packed uz ts -> Forall nibble_table ts -> List.length ts = 8%nat ->
  let k := KLazy (LazyKey_native ws (SboxTwisted (SboxByte uz))) in
  enciphers k (encryption (gost_round ts ws)) /\ deciphers k (decryption (gost_round ts ws)).
Proof.
  intros Hw Hp Ht Hn. apply gost_ciphers; [exact Ht|exact Hn|intros i Hi; now apply native_key|].
  intros v Hv. now apply SboxByte_ok.
Qed.

Lemma string_packed (s : str) (uz : list N) (ts : list (list N)) :
  List.length s = 64%nat -> Forall hex_digit s ->
  packed uz ts -> Forall nibble_table ts -> List.length ts = 8%nat ->
  let k := KLazy (LazyKey_string_sbox s (SboxTwisted (SboxByte uz))) in
  let ws := map (key_word (number s)) (seq 0 8) in
  enciphers k (encryption (gost_round ts ws)) /\ deciphers k (decryption (gost_round ts ws)).
Proof.
  intros Hl Hs Hp Ht Hn. apply gost_ciphers; [exact Ht|exact Hn| |intros v Hv; now apply SboxByte_ok].
  intros i Hi. rewrite (nth_indep _ 0 (key_word (number s) 0)) by (rewrite map_length, seq_length; lia).
  rewrite map_nth, seq_nth by exact Hi. apply KeyCachedData_ok; [|exact Hi].
  intros j Hj. rewrite KeyDataString_hex by assumption. f_equal. now apply number_slice.
Qed.
