(** Proofs for C95: messages with one MAC. *)
From Verif Require Import Base Lib Text MagmaModel Streams KuzModel SpecText SpecMagma SpecModes SpecStreams SpecMac SpecIter SpecKuz SpecWeak
  MagmaSpecProofs ByteProofs SourceProofs StreamProofs StreamFacts TowerProofs MacProofs KuzProofs KuzStreamProofs KuzFacts KeyMore WeakProofs.
From Coq Require Import ZifyNat ZifyN.
Local Open Scope N_scope.
Ltac Zify.zify_post_hook ::= idtac.

Section Chain.
Context (n : N) (E : N -> N).
Hypothesis E_bound : forall x, x < 2 ^ n -> E x < 2 ^ n.
Hypothesis E_inj : forall x y, x < 2 ^ n -> y < 2 ^ n -> E x = E y -> x = y.
Let ok (l : list N) := Forall (fun x => x < 2 ^ n) l.

Lemma chain_app a : forall st t, a <> [] -> t <> [] -> chain E st (a ++ t) = chain E (E (chain E st a)) t.
Proof.
  induction a as [|p [|q r] IH]; intros st t Ha Ht; [now contradict Ha| |].
  - destruct t as [|x t]; [now contradict Ht|]. reflexivity.
  - change ((p :: q :: r) ++ t) with (p :: q :: r ++ t).
    change (chain E st (p :: q :: r ++ t)) with (chain E (E (N.lxor st p)) ((q :: r) ++ t)).
    rewrite IH by (assumption || discriminate). reflexivity.
Qed.

Lemma cbc_same K a b : K < 2 ^ n -> ok a -> ok b -> a <> [] -> b <> [] ->
  cbc_mac E K 0 a = cbc_mac E K 0 b <-> chain E 0 a = chain E 0 b.
Proof.
  intros HK Ha Hb Na Nb. rewrite !cbc_mac_chain by assumption.
  assert (L0 : 0 < 2 ^ n) by apply pow2_pos.
  pose proof (chain_bound n E E_bound a 0 L0 Ha) as La. pose proof (chain_bound n E E_bound b 0 L0 Hb) as Lb.
  split; [|now intros ->]. intros H. apply E_inj in H; [|now apply lxor_lt..]. now apply lxor_inj_r in H.
Qed.

Lemma chain_same_app a b t : ok a -> ok b -> ok t -> a <> [] -> b <> [] ->
  chain E 0 (a ++ t) = chain E 0 (b ++ t) <-> chain E 0 a = chain E 0 b.
Proof.
  intros Ha Hb Ht Na Nb. destruct t as [|x t]; [now rewrite !app_nil_r|].
  assert (L0 : 0 < 2 ^ n) by apply pow2_pos.
  pose proof (chain_bound n E E_bound a 0 L0 Ha) as La. pose proof (chain_bound n E E_bound b 0 L0 Hb) as Lb.
  rewrite !chain_app by (assumption || discriminate). split; [|now intros ->].
  intros H. apply (chain_inj n E E_bound E_inj) in H; [|now apply E_bound..|exact Ht]. now apply E_inj.
Qed.

Lemma cbc_extend K K' a b t : K < 2 ^ n -> K' < 2 ^ n -> ok a -> ok b -> ok t -> a <> [] -> b <> [] ->
  cbc_mac E K 0 a = cbc_mac E K 0 b <-> cbc_mac E K' 0 (a ++ t) = cbc_mac E K' 0 (b ++ t).
Proof.
  intros HK HK' Ha Hb Ht Na Nb. rewrite (cbc_same K) by assumption.
  rewrite (cbc_same K'); [now rewrite chain_same_app|assumption|now apply Forall_app..| |].
  - intros H. apply app_eq_nil in H as [H _]. now apply Na.
  - intros H. apply app_eq_nil in H as [H _]. now apply Nb.
Qed.
End Chain.

Lemma whole_blocks_nonempty d : (List.length d mod 8 = 0)%nat -> d <> [] -> blocks8 d <> [].
Proof.
  intros H N. pose proof (Nat.div_mod (List.length d) 8 ltac:(lia)) as D.
  assert (L : (8 <= List.length d)%nat).
  { destruct d; [now contradict N|]. cbn [List.length] in *. lia. }
  rewrite <- (firstn_skipn 8 d), blocks8_cons; [discriminate|]. rewrite firstn_length. lia.
Qed.

Lemma app_mod (d t : bytes) : (List.length d mod 8 = 0)%nat -> (List.length (d ++ t) mod 8 = List.length t mod 8)%nat.
Proof. intros H. rewrite app_length, Nat.add_mod, H, Nat.add_0_l, Nat.mod_mod by lia. reflexivity. Qed.

Lemma x86_app E d t : (List.length d mod 8 = 0)%nat -> d <> [] ->
  imit_x86 E (d ++ t) =
  cbc_mac E (if Nat.eqb (List.length t mod 8) 0 then K1 E 64 0x1b else K2 E 64 0x1b) 0 (blocks8 d ++ blocks8 t).
Proof.
  intros Hd Nd. rewrite <- blocks8_app by exact Hd. rewrite <- (app_mod d t Hd). unfold imit_x86.
  destruct (d ++ t) eqn:Ed; [|reflexivity]. apply app_eq_nil in Ed as [Ed _]. now contradict Nd.
Qed.

Lemma x86_extend k E d1 d2 t : enciphers k E -> whole d1 -> whole d2 -> Forall u8 t -> d1 <> [] -> d2 <> [] ->
  imit_x86 E d1 = imit_x86 E d2 <-> imit_x86 E (d1 ++ t) = imit_x86 E (d2 ++ t).
Proof.
  intros HE [M1 U1] [M2 U2] Ut N1 N2. rewrite !x86_app by assumption.
  rewrite <- (app_nil_r d1) at 1. rewrite <- (app_nil_r d2) at 1. rewrite !x86_app by assumption.
  cbn [List.length]. change (blocks8 []) with (@nil N). rewrite !app_nil_r.
  apply (cbc_extend 64 E (enciphers_lt _ _ HE) (enciphers_inj _ _ HE)); auto using blocks8_bound, whole_blocks_nonempty.
  - apply K1_lt.
  - destruct (Nat.eqb _ _); [apply K1_lt|apply K2_lt].
Qed.

Lemma x86_same E d1 d2 : imit_x86 E d1 = imit_x86 E d2 <->
  Ok (halves (imit_x86 E d1)) = Ok (halves (imit_x86 E d2)).
Proof. split; [now intros ->|]. intros H. apply halves_inj. congruence. Qed.

Lemma imit_extend {W St} (rd : reader W St) g (R : St -> W -> bytes -> Prop) k E
    (s1 s2 s1' s2' : St) (w1 w2 w1' w2' : W) (d1 d2 t : bytes) fuel :
  enciphers (KLazy k) E -> delivers8 rd R -> whole d1 -> whole d2 -> Forall u8 t -> d1 <> [] -> d2 <> [] ->
  R s1 w1 d1 -> R s2 w2 d2 -> R s1' w1' (d1 ++ t) -> R s2' w2' (d2 ++ t) ->
  (List.length (d1 ++ t) / 8 + 1 <= Pos.to_nat fuel)%nat -> (List.length (d2 ++ t) / 8 + 1 <= Pos.to_nat fuel)%nat ->
  (fst (magma_Imit rd (X86 g) fuel s1 (Some k) w1) = fst (magma_Imit rd (X86 g) fuel s2 (Some k) w2) <->
   fst (magma_Imit rd (X86 g) fuel s1' (Some k) w1') = fst (magma_Imit rd (X86 g) fuel s2' (Some k) w2')).
Proof.
  intros HE HR W1 W2 Ut N1 N2 R1 R2 R1' R2' F1 F2.
  assert (LE : forall d, (List.length d / 8 <= List.length (d ++ t) / 8)%nat)
    by (intros d; apply Nat.div_le_mono; [lia|]; rewrite app_length; lia).
  pose proof (LE d1). pose proof (LE d2). destruct W1 as [M1 U1], W2 as [M2 U2].
  destruct (imit_delivers rd g R k E s1 w1 d1 fuel) as [? ->]; [assumption..|lia|].
  destruct (imit_delivers rd g R k E s2 w2 d2 fuel) as [? ->]; [assumption..|lia|].
  destruct (imit_delivers rd g R k E s1' w1' (d1 ++ t) fuel) as [? ->]; [try assumption..|]; [now apply Forall_app|].
  destruct (imit_delivers rd g R k E s2' w2' (d2 ++ t) fuel) as [? ->]; [try assumption..|]; [now apply Forall_app|].
  cbn [fst]. rewrite !mac_of_x86. rewrite <- !x86_same.
  apply (x86_extend (KLazy k)); try assumption; now split.
Qed.

(** ** Collisions from encrypted blocks *)

Lemma lxor_back a b : N.lxor a (N.lxor a b) = b.
Proof. now rewrite <- N.lxor_assoc, N.lxor_nilpotent, N.lxor_0_l. Qed.

Lemma cbc_collision n E K q p t : (forall x, x < 2 ^ n -> E x < 2 ^ n) ->
  cbc_mac E K 0 (q :: N.lxor (E q) p :: t) = cbc_mac E K 0 (p :: t).
Proof.
  intros HE. rewrite !cbc_mac_chain by discriminate. f_equal. f_equal.
  change (chain E 0 (q :: N.lxor (E q) p :: t)) with (chain E (E (N.lxor 0 q)) (N.lxor (E q) p :: t)).
  rewrite N.lxor_0_l. destruct t as [|x t].
  - cbn [chain]. now rewrite lxor_back, N.lxor_0_l.
  - change (chain E (E q) (N.lxor (E q) p :: x :: t)) with (chain E (E (N.lxor (E q) (N.lxor (E q) p))) (x :: t)).
    change (chain E 0 (p :: x :: t)) with (chain E (E (N.lxor 0 p)) (x :: t)). now rewrite lxor_back, N.lxor_0_l.
Qed.

Lemma of_le8 (q : bytes) : Forall u8 q -> List.length q = 8%nat -> of_le q < 2 ^ 64.
Proof. intros U L. pose proof (of_le_lt q U) as B. unfold len in B. rewrite L in B. exact B. Qed.

Lemma ecb_one_block {W} k E q (w : W) : transforms k E -> Forall u8 q -> List.length q = 8%nat ->
  ECBSink_write TestSink_write (ECBSink [] k) q w = (Ok (ECBSink (to_le 8 (E (of_le q))) k), w).
Proof.
  intros HE Uq Lq. pose proof (of_le8 q Uq Lq) as L. destruct (HE (of_le q) L) as [ET _].
  do 8 (destruct q as [|? q]; [discriminate Lq|]). destruct q; [|discriminate Lq].
  unfold ECBSink_write. cbn [es_key es_sink ecb_write_loop]. cbv zeta. cbn [app List.length Nat.eqb].
  unfold mbind, lift. unfold bytes in *. rewrite ET. unfold TestSink_write, mret. cbn [app]. reflexivity.
Qed.

Lemma imit_collision {W St} (rd : reader W St) g (R : St -> W -> bytes -> Prop) k E
    (s1 s2 : St) (w1 w2 : W) (q p t c : bytes) o (w w' : W) fuel :
  enciphers (KLazy k) E -> delivers8 rd R -> Forall u8 q -> Forall u8 p -> Forall u8 t ->
  List.length q = 8%nat -> List.length p = 8%nat ->
  ECBSink_write TestSink_write (ECBSink [] (KLazy k)) q w = (Ok o, w') -> es_sink o = c ->
  R s1 w1 (p ++ t) -> R s2 w2 (q ++ xor2 c p ++ t) ->
  (List.length (p ++ t) / 8 + 2 <= Pos.to_nat fuel)%nat ->
  exists v w1' w2', magma_Imit rd (X86 g) fuel s1 (Some k) w1 = (Ok v, w1') /\
                    magma_Imit rd (X86 g) fuel s2 (Some k) w2 = (Ok v, w2').
Proof.
  intros HE HR Uq Up Ut Lq Lp HW Ho R1 R2 Hf.
  rewrite (ecb_one_block (KLazy k) E q w (enciphers_transforms' _ _ HE) Uq Lq) in HW.
  injection HW as <- <-. cbn [es_sink] in Ho. subst c.
  pose proof (of_le8 q Uq Lq) as Bq. pose proof (of_le8 p Up Lp) as Bp.
  pose proof (enciphers_lt _ _ HE) as EL. 
  set (y := xor2 (to_le 8 (E (of_le q))) p) in *.
  assert (Uy : Forall u8 y) by (apply xor2_u8; [apply to_le_u8|assumption]).
  assert (Ly : List.length y = 8%nat) by (unfold y; rewrite xor2_zip, zip_xor_length; rewrite to_le_length; congruence).
  assert (Ey : of_le y = N.lxor (E (of_le q)) (of_le p)).
  { unfold y. rewrite of_le_xor2 by (try (rewrite to_le_length; congruence); try apply to_le_u8; assumption).
    rewrite of_to_le_id; [reflexivity|]. now apply EL. }
  destruct (imit_delivers rd g R k E s1 w1 (p ++ t) fuel) as [? ->];
    [assumption|assumption|assumption|now apply Forall_app|lia|].
  assert (D : ((8 + 8 + List.length t) / 8 = (8 + List.length t) / 8 + 1)%nat).
  { replace (8 + 8 + List.length t)%nat with (8 + List.length t + 1 * 8)%nat by lia. now rewrite Nat.div_add by lia. }
  destruct (imit_delivers rd g R k E s2 w2 (q ++ y ++ t) fuel) as [? ->];
    [assumption|assumption|assumption|now repeat (apply Forall_app; split)
    |rewrite !app_length, Lq, Ly, Nat.add_assoc, D; rewrite app_length, Lp in Hf; lia|].
  eexists _, _, _. split; [reflexivity|]. do 3 f_equal. rewrite !mac_of_x86. rewrite app_assoc.
  rewrite !x86_app.
  - rewrite (blocks8_cons q y) by assumption. rewrite <- (app_nil_r y), <- (app_nil_r p).
    rewrite !blocks8_cons by assumption. change (blocks8 []) with (@nil N). cbn [app]. rewrite Ey.
    now apply (cbc_collision 64).
  - now rewrite Lp.
  - destruct p; discriminate.
  - rewrite app_length, Lq, Ly. reflexivity.
  - destruct q; discriminate.
Qed.

(** ** Kuznyechik *)

Lemma kpair_same x y x' y' : (x = y <-> x' = y') -> (Ok (kpair x) = Ok (kpair y) <-> Ok (kpair x') = Ok (kpair y')).
Proof.
  intros [H1 H2]. split; intros H.
  - rewrite H1; [reflexivity|]. apply kpair_inj. congruence.
  - rewrite H2; [reflexivity|]. apply kpair_inj. congruence.
Qed.

Lemma kimit_extend {I1 I2 I3 I4} (o1 : iter_ops I1) (o2 : iter_ops I2) (o3 : iter_ops I3) (o4 : iter_ops I4)
    k K m (ps qs ts : list N) p q p' q' fuel sz sz' :
  K < 2 ^ 256 -> kuz_enciphers k (Kuz_E K) ->
  Forall (fun x => x < 2 ^ 128) ps -> Forall (fun x => x < 2 ^ 128) qs -> Forall (fun x => x < 2 ^ 128) ts ->
  presents o1 p (map kpair ps) -> presents o2 q (map kpair qs) ->
  presents o3 p' (map kpair (ps ++ ts)) -> presents o4 q' (map kpair (qs ++ ts)) ->
  size_at o1 p (List.length ps - 1) = Ok sz -> size_at o2 q (List.length qs - 1) = Ok sz ->
  size_at o3 p' (List.length (ps ++ ts) - 1) = Ok sz' -> size_at o4 q' (List.length (qs ++ ts) - 1) = Ok sz' ->
  (List.length (ps ++ ts) <= fuel)%nat -> (List.length (qs ++ ts) <= fuel)%nat ->
  (KImit fuel m o1 p k = KImit fuel m o2 q k <-> KImit fuel m o3 p' k = KImit fuel m o4 q' k).
Proof.
  intros HK HE Hps Hqs Hts P1 P2 P3 P4 S1 S2 S3 S4 F1 F2.
  assert (Np : ps <> []) by (destruct P1 as [N _]; intros ->; now apply N).
  assert (Nq : qs <> []) by (destruct P2 as [N _]; intros ->; now apply N).
  pose proof (app_length ps ts). pose proof (app_length qs ts).
  assert (EI : forall x y, x < 2 ^ 128 -> y < 2 ^ 128 -> Kuz_E K x = Kuz_E K y -> x = y)
    by (intros x y; now apply Kuz_E_inj).
  revert HE EI. generalize (Kuz_E K) as E. intros E HE EI.
  rewrite (kimit_ok o1 k E HE m ps p fuel sz) by (assumption || lia).
  rewrite (kimit_ok o2 k E HE m qs q fuel sz) by (assumption || lia).
  rewrite (kimit_ok o3 k E HE m (ps ++ ts) p' fuel sz') by (try assumption; now apply Forall_app).
  rewrite (kimit_ok o4 k E HE m (qs ++ ts) q' fuel sz') by (try assumption; now apply Forall_app).
  apply kpair_same. apply (cbc_extend 128 E); try assumption.
  - intros x Hx. now apply HE.
  - destruct (sz =? 16); [apply K1_128_lt|apply K2_128_lt].
  - destruct (sz' =? 16); [apply K1_128_lt|apply K2_128_lt].
Qed.

Lemma kimit_collision {I1 I2} (o1 : iter_ops I1) (o2 : iter_ops I2) k E m (x y : N) (c : N * N) (ts : list N) p q fuel sz :
  kuz_enciphers k E -> x < 2 ^ 128 -> y < 2 ^ 128 -> Forall (fun x => x < 2 ^ 128) ts ->
  KEncrypted (Ok (kpair x)) k = Ok c ->
  presents o1 p (map kpair (y :: ts)) ->
  presents o2 q (kpair x :: xor_pair c (kpair y) :: map kpair ts) ->
  size_at o1 p (List.length ts) = Ok sz -> size_at o2 q (1 + List.length ts) = Ok sz ->
  (2 + List.length ts <= fuel)%nat ->
  exists v, KImit fuel m o1 p k = Ok v /\ KImit fuel m o2 q k = Ok v.
Proof.
  intros HE Hx Hy Hts HC P1 P2 S1 S2 Hf.
  destruct (HE x Hx) as [EX LX]. rewrite EX in HC. injection HC as <-.
  assert (EP : xor_pair (kpair (E x)) (kpair y) = kpair (N.lxor (E x) y)).
  { pose proof (KXored_kpair (E x) y) as H. unfold KXored in H. destruct (kpair (E x)) as [a1 a2], (kpair y) as [b1 b2].
    cbn [bind] in H. unfold xor_pair. cbn [fst snd]. congruence. }
  rewrite EP in P2.
  rewrite (kimit_ok o1 k E HE m (y :: ts) p fuel sz);
    [|now constructor|exact P1|cbn [List.length]; now rewrite Nat.sub_succ, Nat.sub_0_r|cbn [List.length]; lia].
  rewrite (kimit_ok o2 k E HE m (x :: N.lxor (E x) y :: ts) q fuel sz);
    [|constructor; [assumption|constructor; [now apply lxor_lt|assumption]]|exact P2
     |cbn [List.length]; now rewrite Nat.sub_succ, Nat.sub_0_r|cbn [List.length]; lia].
  eexists. split; [reflexivity|]. do 2 f_equal. apply (cbc_collision 128). intros z Hz. now apply HE.
Qed.

(** ** GOST 28147-89 *)

Lemma pad89_app d t : (List.length d mod 8 = 0)%nat -> (16 <= List.length d)%nat ->
  pad89 (d ++ t) = d ++ t ++ repeat 0 (8 * ((List.length t + 7) / 8) - List.length t).
Proof.
  intros Hm Hl. unfold pad89. rewrite <- app_assoc. do 3 f_equal. rewrite app_length.
  pose proof (Nat.div_mod (List.length d) 8 ltac:(lia)) as D. rewrite Hm, Nat.add_0_r in D.
  set (q := (List.length d / 8)%nat) in *.
  replace (List.length d + List.length t + 7)%nat with (List.length t + 7 + q * 8)%nat by lia.
  rewrite Nat.div_add by lia. lia.
Qed.

Lemma fold16_inj f ps : (forall x, x < 2 ^ 64 -> sixteen_rounds f x < 2 ^ 64) ->
  (forall i a, (i < 8)%nat -> a < 2 ^ 32 -> f i a < 2 ^ 32) ->
  Forall (fun x => x < 2 ^ 64) ps -> forall s s', s < 2 ^ 64 -> s' < 2 ^ 64 ->
  fold_left (fun s p => sixteen_rounds f (N.lxor s p)) ps s = fold_left (fun s p => sixteen_rounds f (N.lxor s p)) ps s' ->
  s = s'.
Proof.
  intros HE Hf. induction 1 as [|p ps Hp _ IH]; intros s s' Hs Hs' H; [exact H|]. cbn [fold_left] in H.
  apply IH in H; [|apply HE; now apply lxor_lt..]. apply sixteen_inj in H; [|assumption|now apply lxor_lt..].
  now apply lxor_inj_r in H.
Qed.

Lemma dataimit_same_extend k f d1 d2 t : round_functions k f -> whole d1 -> whole d2 -> Forall u8 t ->
  (16 <= List.length d1)%nat -> (16 <= List.length d2)%nat ->
  DataImit d1 (Some k) = DataImit d2 (Some k) <-> DataImit (d1 ++ t) (Some k) = DataImit (d2 ++ t) (Some k).
Proof.
  intros Hk [M1 U1] [M2 U2] Ut L1 L2.
  rewrite !(DataImit_ok k f) by (try assumption; now apply Forall_app).
  rewrite !pad89_app, !pad89_id by assumption.
  set (z := t ++ repeat 0 _).
  assert (Uz : Forall u8 z).
  { apply Forall_app. split; [assumption|]. apply Forall_forall. intros x Hx. apply repeat_spec in Hx. subst x. reflexivity. }
  rewrite !blocks8_app by assumption.
  assert (HE : forall x, x < 2 ^ 64 -> sixteen_rounds f x < 2 ^ 64) by (intros x Hx; now apply (ImitedBlock_ok k f x)).
  assert (Hf : forall i a, (i < 8)%nat -> a < 2 ^ 32 -> f i a < 2 ^ 32) by (intros i a Hi Ha; now apply Hk).
  unfold mac89. rewrite !fold_left_app.
  pose proof (mac89_lt f (blocks8 d1) HE (blocks8_bound _ U1) 0 eq_refl) as B1.
  pose proof (mac89_lt f (blocks8 d2) HE (blocks8_bound _ U2) 0 eq_refl) as B2.
  set (v1 := fold_left _ (blocks8 d1) 0) in *. set (v2 := fold_left _ (blocks8 d2) 0) in *.
  pose proof (mac89_lt f (blocks8 z) HE (blocks8_bound _ Uz) v1 B1) as C1.
  pose proof (mac89_lt f (blocks8 z) HE (blocks8_bound _ Uz) v2 B2) as C2.
  assert (same : forall x y, x < 2 ^ 64 -> y < 2 ^ 64 -> Ok (to_le 8 x) = Ok (to_le 8 y) <-> x = y).
  { intros x y Hx Hy. split; [|now intros ->]. intros H0. assert (H : to_le 8 x = to_le 8 y) by congruence.
    rewrite <- (of_to_le_id 8 x Hx), <- (of_to_le_id 8 y Hy). now f_equal. }
  rewrite !same by assumption. split; [now intros ->|]. intros H.
  exact (fold16_inj f _ HE Hf (blocks8_bound _ Uz) v1 v2 B1 B2 H).
Qed.

Lemma kimit_string_extend {I1 I2 I3 I4} (o1 : iter_ops I1) (o2 : iter_ops I2) (o3 : iter_ops I3) (o4 : iter_ops I4)
    s k m (ps qs ts : list N) p q p' q' fuel sz sz' :
  Forall hex_digit s -> List.length s = 64%nat -> Key_string s = Ok k ->
  Forall (fun x => x < 2 ^ 128) ps -> Forall (fun x => x < 2 ^ 128) qs -> Forall (fun x => x < 2 ^ 128) ts ->
  presents o1 p (map kpair ps) -> presents o2 q (map kpair qs) ->
  presents o3 p' (map kpair (ps ++ ts)) -> presents o4 q' (map kpair (qs ++ ts)) ->
  size_at o1 p (List.length ps - 1) = Ok sz -> size_at o2 q (List.length qs - 1) = Ok sz ->
  size_at o3 p' (List.length (ps ++ ts) - 1) = Ok sz' -> size_at o4 q' (List.length (qs ++ ts) - 1) = Ok sz' ->
  (List.length (ps ++ ts) <= fuel)%nat -> (List.length (qs ++ ts) <= fuel)%nat ->
  (KImit fuel m o1 p k = KImit fuel m o2 q k <-> KImit fuel m o3 p' k = KImit fuel m o4 q' k).
Proof.
  intros Hs Hl HS. destruct (string_enciphers s Hs Hl) as (k' & E' & HE).
  assert (k' = k) by congruence. subst k'. apply kimit_extend with (K := number s); [now apply number_64|exact HE].
Qed.
