(** Proofs for C99 and C100: the outcome of the project's own tests. *)
From Verif Require Import Base Text MagmaModel Streams KuzModel CacheModel HarnessModel SuiteModel SpecSuite Lib.
Local Open Scope N_scope.

(** ** The library, changed where no test looks *)
Definition among (l : list (N * N)) (lo hi : N) : bool := existsb (fun p => (fst p =? lo) && (snd p =? hi))%bool l.
Definition same_list (a b : list N) : bool := if list_eq_dec N.eq_dec a b then true else false.

Definition patched {W} (m : mode) (u : versions W) : versions W := {|
  v_encrypt := fun b k => match b with
                          | Ok (lo, hi) => if among encrypted_blocks lo hi then BlkEncrypted b k else v_encrypt u b k
                          | _ => v_encrypt u b k end;
  v_decrypt := fun b k => match b with
                          | Ok (lo, hi) => if among decrypted_blocks lo hi then BlkDecrypted b k else v_decrypt u b k
                          | _ => v_decrypt u b k end;
  v_base := fun k x => if existsb (N.eqb x) base_blocks then EncryptionBase_transform k x else v_base u k x;
  v_ecb_write := fun o d => if same_list d stream_data then ECBSink_write TestSink_write o d else v_ecb_write u o d;
  v_ecb_read := fun o n => if n =? 2 ^ 64 - 1 then ECBSource_read Hex64Source_read m o n else v_ecb_read u o n;
  v_cfb_write := fun o d => if same_list d stream_data then magma_CFBSink_write TestSink_write m o d else v_cfb_write u o d;
  v_cfb_finalize := fun o => match mcs_plain o with
                             | [] => magma_CFBSink_finalize TestSink_write m o
                             | _ => v_cfb_finalize u o end;
  v_imit := fun t k => if same_list t standard_text then magma_Imit Hex64Source_read m fuel t k else v_imit u t k;
  v_kencrypt := fun b k => match b with
                           | Ok (lo, hi) => if among kuz_blocks lo hi then KEncrypted b k else v_kencrypt u b k
                           | _ => v_kencrypt u b k end;
  v_kimit := fun d k => if same_list d memory then KImit 8 m (ItMemory_ops (Some d)) (StMemory_iter true d) k
                        else v_kimit u d k;
  v_dataimit := v_dataimit u |}.

Lemma among_in l lo hi : among l lo hi = true -> In (lo, hi) l.
Proof.
  unfold among. intros H. apply existsb_exists in H. destruct H as ([x y] & I & E). cbn [fst snd] in E.
  apply andb_true_iff in E. destruct E as [E1 E2]. apply N.eqb_eq in E1, E2. now subst.
Qed.

Lemma same_list_eq a b : same_list a b = true -> a = b.
Proof. unfold same_list. now destruct (list_eq_dec N.eq_dec a b). Qed.

Lemma patched_nearly {W} m (u : versions W) : nearly (patched m u) u.
Proof.
  assert (A : forall l lo hi, ~ In (lo, hi) l -> among l lo hi = false)
    by (intros l lo hi H; destruct (among l lo hi) eqn:E; [|reflexivity]; now apply among_in in E).
  assert (L : forall a b, a <> b -> same_list a b = false)
    by (intros a b H; destruct (same_list a b) eqn:E; [|reflexivity]; now apply same_list_eq in E).
  unfold nearly, patched. cbn [v_encrypt v_decrypt v_base v_ecb_write v_ecb_read v_cfb_write v_cfb_finalize v_imit
    v_kencrypt v_kimit v_dataimit].
  split; [intros; now rewrite A|]. split; [intros; now rewrite A|]. split.
  { intros k x H. destruct (existsb (N.eqb x) base_blocks) eqn:E; [|reflexivity]. exfalso. apply H.
    apply existsb_exists in E. destruct E as (y & I & E). apply N.eqb_eq in E. now subst. }
  split; [intros; now rewrite L|]. split; [intros o n H; now rewrite (proj2 (N.eqb_neq _ _) H)|].
  split; [intros; now rewrite L|]. split; [intros o H; now destruct (mcs_plain o)|].
  split; [intros; now rewrite L|]. split; [intros; now rewrite A|]. split; [intros; now rewrite L|reflexivity].
Qed.

Section Suite.
Context {W : Type}.

Lemma all_pass_app ts1 ts2 : Forall (@passes W) ts1 ->
  forall w, exists w', all_pass (ts1 ++ ts2) w = all_pass ts2 w'.
Proof.
  induction 1 as [|t ts H _ IH]; intros w; [now exists w|]. cbn [app all_pass].
  destruct (H w) as (w1 & ->). destruct (IH w1) as (w2 & E). exists w2. unfold mbind. rewrite E.
  destruct (all_pass ts2 w2) as [[[]| | |] w3]; reflexivity.
Qed.

Lemma all_pass_all ts : Forall (@passes W) ts -> forall w, exists w', all_pass ts w = (Ok true, w').
Proof.
  intros H w. destruct (all_pass_app ts [] H w) as (w' & E). rewrite app_nil_r in E. exists w'. exact E.
Qed.

Lemma passes_lift r : r = Ok true -> @passes W (lift r).
Proof. intros -> w. now exists w. Qed.

Lemma Forall_pass_nil : Forall (@passes W) [].
Proof. constructor. Qed.
Lemma Forall_pass_cons t ts : passes t -> Forall (@passes W) ts -> Forall (@passes W) (t :: ts).
Proof. now constructor. Qed.

Lemma same_text_refl t : same_text t t = true.
Proof. unfold same_text. now destruct (list_eq_dec N.eq_dec t t). Qed.

Lemma cached_key_passes engine : answers engine -> Forall (@passes W) (KeyCachedDataTest engine).
Proof.
  intros H. apply Forall_pass_cons; [|apply Forall_pass_nil]. intros w.
  set (random := fun _ : Z => v <-- engine ;; mret (w32 v)).
  assert (R : forall i w, exists v w', random i w = (Ok v, w')).
  { intros i w0. destruct (H w0) as (v & w1 & E). exists (w32 v), w1. unfold random, mbind. now rewrite E. }
  clearbody random.
  assert (L : exists a0 a1 a2 a3 a4 a5 a6 a7 w', kc_load random 8 0 (repeat 0 8) w = (Ok tt, ([a0; a1; a2; a3; a4; a5; a6; a7], w'))).
  { do 8 (cbn [kc_load]; match goal with |- context [random ?i ?v] =>
      let E := fresh in let w' := fresh in destruct (R i v) as (? & w' & E); rewrite E; clear E end).
    cbn [kc_load repeat set_nth]. now repeat eexists. }
  destruct L as (a0 & a1 & a2 & a3 & a4 & a5 & a6 & a7 & w' & L). exists w'.
  set (key := [a0; a1; a2; a3; a4; a5; a6; a7]) in *.
  assert (C : forall v, at_int key v = fst (kc_call random v (KCache true key, w'))) by reflexivity.
  assert (T : exists t, repr_calls (kc_call random) 8 0 (KCache true key, w') = (Ok t, (KCache true key, w'))).
  { unfold key. cbn [repr_calls]. unfold mbind, kc_call, mret. cbn [kc_cached kc_key]. cbn -[put_hex htonl app]. now eexists. }
  destruct T as (t & T).
  assert (F : repr_calls (kc_call random) 8 0 (kcache_init, w) = (Ok t, (KCache true key, w'))).
  { rewrite <- T. cbn [repr_calls]. unfold mbind at 1. unfold mbind at 8.
    replace (kc_call random 0 (kcache_init, w)) with (kc_call random 0 (KCache true key, w')); [reflexivity|].
    unfold kc_call, kcache_init. cbn [kc_cached kc_key]. rewrite repeat_length, L. reflexivity. }
  cbv zeta. unfold mbind at 1. rewrite F. unfold mbind at 1. rewrite T. unfold mret. now rewrite same_text_refl.
Qed.

Lemma cached_block_passes device : answers device -> Forall (@passes W) (BlkCachedTest device).
Proof.
  intros H. apply Forall_pass_cons; [|apply Forall_pass_nil]. intros w.
  destruct (H w) as (a & w1 & E1). destruct (H w1) as (b & w2 & E2). exists w2. cbv zeta.
  unfold repr_call, bc_call, bcache_init, mbind, mret. cbn [bc_loaded bc_state]. rewrite E1, E2. cbn [bc_loaded bc_state].
  rewrite same_text_refl. reflexivity.
Qed.

Ltac pure := apply passes_lift; vm_compute; reflexivity.
Ltac each tac := repeat (apply Forall_pass_cons; [tac|]); apply Forall_pass_nil.
Ltac direct := intros w; exists w; vm_compute; reflexivity.

Lemma hex64_passes : Forall (@passes W) Hex64SourceTest.
Proof. each ltac:(direct). Qed.

Lemma kuz_key_part :
  exists k, Key_string kuz_text = Ok k /\ k = KKey
  (Ok (0x0011223344556677, 0x8899aabbccddeeff)) (Ok (0x0123456789abcdef, 0xfedcba9876543210))
  (Ok (0x228d6aef8cc78c44, 0xdb31485315694343)) (Ok (0x15ebadc40a9ffd04, 0x3d4553d8e9cfec68))
  (Ok (0xd3e59246f429f1ac, 0x57646468c44a5e28)) (Ok (0xb532e82834da581b, 0xbd079435165c6432))
  (Ok (0x705727265a0098b1, 0x51e640757e8745de)) (Ok (0xd72a91a22286f984, 0x5a7925017b9fdd3e))
  (Ok (0xa5f32f73cdb6e517, 0xbb44e25378c73123)) (Ok (0x755dbaa88e4a4043, 0x72e9dd7416bcf45b)).
Proof. eexists. split; [|reflexivity]. vm_compute. reflexivity. Qed.

Lemma iter_keys_value : exists l, iter_keys = Ok l /\ l = map Ok
  [(0x0011223344556677, 0x8899aabbccddeeff); (0x0123456789abcdef, 0xfedcba9876543210);
   (0x228d6aef8cc78c44, 0xdb31485315694343); (0x15ebadc40a9ffd04, 0x3d4553d8e9cfec68);
   (0xd3e59246f429f1ac, 0x57646468c44a5e28); (0xb532e82834da581b, 0xbd079435165c6432);
   (0x705727265a0098b1, 0x51e640757e8745de); (0xd72a91a22286f984, 0x5a7925017b9fdd3e);
   (0xa5f32f73cdb6e517, 0xbb44e25378c73123); (0x755dbaa88e4a4043, 0x72e9dd7416bcf45b)].
Proof. eexists. split; [|reflexivity]. vm_compute. reflexivity. Qed.

Lemma kuz_plain m : Forall (@passes W) BlkIncrementedTest /\ Forall (@passes W) BlkIterKeyTest /\
  Forall (@passes W) BlkLTest /\ Forall (@passes W) BlkRawTest /\ Forall (@passes W) BlkRTest /\
  Forall (@passes W) (BlkShiftedTest m) /\ Forall (@passes W) BlkSTest /\ Forall (@passes W) BlkXoredTest /\
  Forall (@passes W) kuz_KeyDataStringTest /\ Forall (@passes W) StCTREncryptedTest.
Proof.
  split; [unfold BlkIncrementedTest; each ltac:(pure)|].
  split.
  { destruct iter_keys_value as (l & I & ->). unfold BlkIterKeyTest, iter_key_test. rewrite I. cbn [bind].
    each ltac:(pure). }
  split; [unfold BlkLTest; each ltac:(pure)|]. split; [unfold BlkRawTest; each ltac:(pure)|].
  split; [unfold BlkRTest; each ltac:(pure)|]. split; [unfold BlkShiftedTest; destruct m; each ltac:(pure)|].
  split; [unfold BlkSTest; each ltac:(pure)|]. split; [unfold BlkXoredTest; each ltac:(pure)|].
  split; [unfold kuz_KeyDataStringTest; each ltac:(pure)|].
  destruct kuz_key_part as (k & E & ->). unfold StCTREncryptedTest, ctr_test; rewrite E; cbn [bind]; each ltac:(pure).
Qed.

Lemma magma_plain m : Forall (@passes W) (gost_CFBSinkTest m) /\ Forall (@passes W) (gost_CFBSourceTest m) /\
  Forall (@passes W) BlkStringTest /\ Forall (@passes W) BlkSwappedTest /\ Forall (@passes W) (magma_CFBSourceTest m) /\
  Forall (@passes W) KeyDataNativeTest /\ Forall (@passes W) KeyDataStringTest /\
  Forall (@passes W) SboxNibbleTest /\ Forall (@passes W) SboxTwistedTest.
Proof.
  split; [unfold gost_CFBSinkTest; destruct m; each ltac:(direct)|].
  split; [unfold gost_CFBSourceTest; destruct m; each ltac:(direct)|].
  split; [unfold BlkStringTest; each ltac:(pure)|]. split; [unfold BlkSwappedTest; each ltac:(pure)|].
  split; [unfold magma_CFBSourceTest; destruct m; each ltac:(direct)|].
  split; [unfold KeyDataNativeTest; each ltac:(pure)|]. split; [unfold KeyDataStringTest; each ltac:(pure)|].
  split; [unfold SboxNibbleTest; each ltac:(pure)|unfold SboxTwistedTest; each ltac:(pure)].
Qed.

(** The tests of the functions that are parameters. *)
Section Versions.
Context (m : mode) (v : versions W) (Hv : v = goost m \/ exists u, v = patched m u).

Ltac version := destruct Hv as [->|(u & ->)].

Lemma version_blocks : Forall (@passes W) (gost_BlkEncryptedTest m v) /\ Forall (@passes W) (BlkDecryptedTest v) /\
  Forall (@passes W) (BlkEncryptedTest v) /\ Forall (@passes W) (EncryptionBaseTest v).
Proof.
  split; [version; unfold gost_BlkEncryptedTest; destruct m; each ltac:(pure)|].
  split; [version; unfold BlkDecryptedTest; each ltac:(pure)|].
  split; [version; unfold BlkEncryptedTest; each ltac:(pure)|].
  version; unfold EncryptionBaseTest; each ltac:(pure).
Qed.

Lemma version_streams : Forall (@passes W) (magma_CFBSinkTest m v) /\ Forall (@passes W) (ECBSinkTest m v) /\
  Forall (@passes W) (ECBSourceTest m v).
Proof.
  split; [version; unfold magma_CFBSinkTest; destruct m; each ltac:(direct)|].
  split; [version; unfold ECBSinkTest; destruct m; each ltac:(direct)|].
  version; unfold ECBSourceTest; destruct m; each ltac:(direct).
Qed.

Lemma version_kuz : Forall (@passes W) (kuz_BlkEncryptedTest v) /\ Forall (@passes W) (kuz_ImitTest v).
Proof.
  destruct kuz_key_part as (k & E & ->).
  split; [unfold kuz_BlkEncryptedTest, kuz_encrypted; rewrite E; cbn [bind]; version; each ltac:(pure)|].
  unfold kuz_ImitTest, imit_of_memory; rewrite E; cbn [bind]; version; destruct m; each ltac:(pure).
Qed.
End Versions.

Lemma version_imit g v : v = goost (X86 g) \/ (exists u, v = patched (X86 g) u) -> Forall (@passes W) (magma_ImitTest v).
Proof. intros [->|(u & ->)]; unfold magma_ImitTest; each ltac:(direct). Qed.

Lemma imit_iso : exists t, @magma_ImitTest W (goost ISO) = [t] /\ forall w, t w = (Undef WideShift, w).
Proof. unfold magma_ImitTest. eexists. split; [reflexivity|]. intros w. vm_compute. reflexivity. Qed.

Lemma all_pass_undef t ts u w : t w = (Undef u, w) -> @all_pass W (t :: ts) w = (Undef u, w).
Proof. intros E. cbn [all_pass]. now rewrite E. Qed.

Lemma suite_split m (v : versions W) engine device : Hex64SourceTest ++ gost_tests m v ++ kuz_tests m v device ++ magma_tests m v engine =
  before_imit m v device ++ magma_ImitTest v ++ after_imit engine.
Proof. unfold magma_tests, before_imit, after_imit. now rewrite !app_assoc. Qed.

Lemma before_passes m (v : versions W) device : v = goost m \/ (exists u, v = patched m u) -> answers device ->
  Forall (@passes W) (before_imit m v device).
Proof.
  intros Hv Hd. unfold before_imit, gost_tests, kuz_tests. rewrite !Forall_app.
  destruct (version_blocks m v Hv) as (gE & dE & eE & bE). destruct (version_streams m v Hv) as (cS & eS & eR).
  destruct (version_kuz m v Hv) as (kE & kI). destruct (kuz_plain m) as (k1 & k2 & k3 & k4 & k5 & k6 & k7 & k8 & k9 & k10).
  destruct (magma_plain m) as (gS & gR & bS & bW & cR & _).
  exact (conj hex64_passes (conj (conj gE (conj gS gR))
    (conj (conj (cached_block_passes device Hd) (conj kE (conj k1 (conj k2 (conj k3 (conj k4 (conj k5 (conj k6 (conj k7
      (conj k8 (conj kI (conj k9 k10))))))))))))
    (conj dE (conj eE (conj bS (conj bW (conj cS (conj cR (conj eS (conj eR bE))))))))))).
Qed.

Lemma after_passes (engine : M W N) : answers engine -> Forall (@passes W) (after_imit engine).
Proof.
  intros He. unfold after_imit. rewrite !Forall_app.
  destruct (magma_plain ISO) as (_ & _ & _ & _ & _ & a1 & a2 & a3 & a4).
  exact (conj (cached_key_passes engine He) (conj a1 (conj a2 (conj a3 a4)))).
Qed.

Lemma suite_version g (v : versions W) (engine device : M W N) w : v = goost (X86 g) \/ (exists u, v = patched (X86 g) u) ->
  answers engine -> answers device -> fst (goost_test (X86 g) v engine device w) = Ok 0%Z.
Proof.
  intros Hv He Hd. unfold goost_test, mbind. rewrite suite_split.
  destruct (all_pass_all (before_imit (X86 g) v device ++ magma_ImitTest v ++ after_imit engine)
    ltac:(rewrite !Forall_app; exact (conj (before_passes _ _ _ Hv Hd) (conj (version_imit g v Hv) (after_passes _ He)))) w)
    as (w' & ->). reflexivity.
Qed.

Theorem suite_x86 g (engine device : M W N) w : answers engine -> answers device ->
  fst (goost_test (X86 g) (goost (X86 g)) engine device w) = Ok 0%Z.
Proof. apply suite_version. now left. Qed.

Theorem suite_iso (engine device : M W N) w : answers device -> fst (goost_test ISO (goost ISO) engine device w) = Undef WideShift.
Proof.
  intros Hd. unfold goost_test, mbind. rewrite suite_split.
  destruct (all_pass_app (before_imit ISO (goost ISO) device) (magma_ImitTest (goost ISO) ++ after_imit engine)
    (before_passes _ _ _ (or_introl eq_refl) Hd) w) as (w' & ->).
  destruct imit_iso as (t & -> & E). cbn [app]. now rewrite (all_pass_undef _ _ _ _ (E w')).
Qed.

Theorem suite_iso_rest (engine device : M W N) : answers engine -> answers device ->
  Forall passes (before_imit ISO (goost ISO) device ++ after_imit engine).
Proof.
  intros He Hd. rewrite Forall_app. exact (conj (before_passes _ _ _ (or_introl eq_refl) Hd) (after_passes _ He)).
Qed.

Theorem suite_blind g (u : versions W) (engine device : M W N) : answers engine -> answers device ->
  exists v, nearly v u /\ forall w, fst (goost_test (X86 g) v engine device w) = Ok 0%Z.
Proof.
  intros He Hd. exists (patched (X86 g) u). split; [apply patched_nearly|]. intros w. apply suite_version; eauto.
Qed.
End Suite.

Theorem package_example m : example_main (W := unit) (goost m) = Ok 0%Z.
Proof.
  destruct kuz_key_part as (k & E & ->). unfold example_main, imit_of_memory. rewrite E. cbn [bind].
  destruct m; vm_compute; reflexivity.
Qed.

Lemma all_pass_turn {W} (ts : list (M W bool)) : forall w w',
  all_pass ts w = (Ok true, w') <-> pass_in_turn ts w w'.
Proof.
  induction ts as [|t ts IH]; intros w w'; cbn [all_pass].
  - split; intros H; [injection H as <-; constructor|inversion H; reflexivity].
  - split.
    + unfold mbind, mret. intros H. destruct (t w) as [[b| | |] w1] eqn:E; try discriminate H.
      * destruct (all_pass ts w1) as [[r| | |] w2] eqn:E2; try discriminate H.
        cbn [lift] in H. injection H as Hb <-. apply andb_prop in Hb as [-> ->].
        econstructor; [exact E|]. now apply IH.
      * destruct (all_pass ts w1) as [[r| | |] w2]; discriminate H.
    + intros H. inversion H as [|t' ts' a w1 c E P]; subst. rewrite E.
      apply IH in P. unfold mbind. rewrite P. reflexivity.
Qed.

Lemma suite_status {W} m (v : versions W) engine device w :
  fst (goost_test m v engine device w) = Ok 0%Z <->
  exists w', pass_in_turn (before_imit m v device ++ magma_ImitTest v ++ after_imit engine) w w'.
Proof.
  unfold goost_test. rewrite suite_split. unfold mbind, mret, lift.
  destruct (all_pass (before_imit m v device ++ magma_ImitTest v ++ after_imit engine) w) as [r w'] eqn:E.
  split.
  - destruct r as [[]| | |]; intros H; try discriminate H. exists w'. now apply all_pass_turn.
  - intros [w2 P]. apply all_pass_turn in P. rewrite P in E. injection E as <- <-. reflexivity.
Qed.
