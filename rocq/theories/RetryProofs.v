(** Proofs about writes that are repeated or resumed after a failure of the underlying sink. *)
From Verif Require Import Base MagmaModel Streams Lib SpecMagma SpecModes SpecStreams
  MagmaProofs MagmaSpecProofs ByteProofs SinkProofs SourceProofs StreamProofs StreamFacts TowerProofs MacProofs StreamMore.
From Coq Require Import ZifyNat ZifyN ZifyBool.
Local Open Scope N_scope.

(** ** Cutting off complete blocks *)

Lemma skip_complete n d : (8 * n <= List.length d)%nat ->
  complete (skipn (8 * n) d) = skipn (8 * n) (complete d) /\ leftover (skipn (8 * n) d) = leftover d.
Proof.
  intros H. unfold complete, leftover. rewrite skipn_length.
  pose proof (Nat.div_mod (List.length d) 8 ltac:(lia)) as D.
  pose proof (Nat.mod_upper_bound (List.length d) 8 ltac:(lia)) as U.
  set (q := (List.length d / 8)%nat) in *. set (r := (List.length d mod 8)%nat) in *.
  assert (Q : ((List.length d - 8 * n) / 8 = q - n)%nat)
    by (symmetry; apply (Nat.div_unique _ 8 _ r); lia).
  rewrite Q. split.
  - rewrite skipn_firstn_comm. f_equal. lia.
  - rewrite skipn_skipn. f_equal. lia.
Qed.

Lemma skip_blocks8 n : forall d, (8 * n <= List.length d)%nat -> blocks8 (skipn (8 * n) d) = skipn n (blocks8 d).
Proof.
  induction n as [|n IH]; intros d H; [reflexivity|].
  rewrite <- (firstn_skipn 8 d) at 2. rewrite blocks8_cons by (rewrite firstn_length; lia).
  change (skipn (Datatypes.S n) (of_le (firstn 8 d) :: blocks8 (skipn 8 d))) with (skipn n (blocks8 (skipn 8 d))).
  rewrite <- (IH (skipn 8 d)) by (rewrite skipn_length; lia). rewrite skipn_skipn. do 2 f_equal. lia.
Qed.

Lemma resumed_blocks n d : (8 * n <= List.length d)%nat ->
  blocks8 (complete (skipn (8 * n) d)) = skipn n (blocks8 (complete d)).
Proof.
  intros H. destruct (skip_complete n d H) as [-> _]. apply skip_blocks8.
  unfold complete. rewrite firstn_length. pose proof (Nat.div_mod (List.length d) 8 ltac:(lia)).
  pose proof (Nat.mod_upper_bound (List.length d) 8 ltac:(lia)). lia.
Qed.

Lemma complete_blocks_length d : Forall u8 d -> (8 * List.length (blocks8 (complete d)) <= List.length d)%nat.
Proof.
  intros H. rewrite blocks8_length by apply (complete_whole d H). unfold complete. rewrite firstn_length. lia.
Qed.

(** ** Continuing a CFB register *)

Lemma cfb_firstn E n : forall reg ps, firstn n (cfb_encrypt E reg ps) = cfb_encrypt E reg (firstn n ps).
Proof.
  induction n as [|n IH]; intros reg [|p ps]; try reflexivity.
  cbn [cfb_encrypt firstn]. cbv zeta. cbn [firstn]. now rewrite IH.
Qed.

Lemma cfb_skipn E n reg ps : reg <> [] ->
  cfb_encrypt E (shifted reg (firstn n (cfb_encrypt E reg ps))) (skipn n ps) = skipn n (cfb_encrypt E reg ps).
Proof.
  intros Hr. rewrite cfb_firstn. rewrite <- (firstn_skipn n ps) at 3. rewrite cfb_encrypt_app by exact Hr.
  destruct (Nat.le_gt_cases n (List.length ps)) as [H|H].
  - assert (L : List.length (cfb_encrypt E reg (firstn n ps)) = n)
      by (rewrite cfb_encrypt_length, firstn_length; lia).
    rewrite skipn_app, (skipn_all2 (cfb_encrypt E reg (firstn n ps))) by lia. rewrite L, Nat.sub_diag. reflexivity.
  - rewrite (skipn_all2 ps) by lia. cbn [cfb_encrypt]. rewrite app_nil_r. symmetry. apply skipn_all2.
    rewrite cfb_encrypt_length, firstn_length. lia.
Qed.

Lemma nth_shifted reg cs i : nth i (shifted reg cs) 0 = nth (List.length cs + i) (reg ++ cs) 0.
Proof. unfold shifted. now rewrite nth_skipn'. Qed.

(** ** Repeating *)

Lemma retry_general {W S A} (wr : writer W S) s cs (f : S -> A) (X : M (W * list bytes) A) w w1 w2 r1 o2 log1 log2 :
  (forall wl, X wl = (s' <-- writes (logged wr) s cs ;; mret (f s')) wl) ->
  X (w, []) = (r1, (w1, log1)) -> (forall o, r1 <> Ok o) ->
  X (w1, log1) = (Ok o2, (w2, log2)) ->
  log1 <> [] /\ (exists rest, cs = log1 ++ rest) /\ log2 = log1 ++ cs.
Proof.
  intros HX H1 Hf H2. rewrite HX in H1, H2.
  assert (A1 : log1 <> [] /\ exists rest, cs = log1 ++ rest).
  { apply failing_bind in H1. destruct H1 as [(s1 & w1' & _ & H1)|(rest & -> & b & c & _ & _ & -> & _)].
    - injection H1 as <- _ _. now elim (Hf (f s1)).
    - split; [destruct b; discriminate|eauto]. }
  destruct A1 as [A1 A2]. split; [exact A1|]. split; [exact A2|].
  unfold mbind in H2. destruct (writes (logged wr) s cs (w1, log1)) as [r [w' l']] eqn:E.
  apply writes_logged in E. destruct E as [(s' & -> & -> & _)|(sent & rest & _ & _ & E)].
  - injection H2 as _ _ <-. reflexivity.
  - destruct r as [s'|e|u|]; try discriminate. now elim (sink_failure_map _ _ _ _ _ _ mret E s').
Qed.

Lemma magma_retry {W S} (wr : writer W S) m k E ivl ivr p s data w w1 w2 r1 o2 log1 log2 :
  enciphers k E -> ivl < 2 ^ 64 -> ivr < 2 ^ 64 -> (List.length p < 8)%nat -> Forall u8 p -> Forall u8 data ->
  magma_CFBSink_write (logged wr) m (MagmaCFBSink s k ivl ivr p) data (w, []) = (r1, (w1, log1)) ->
  (forall o, r1 <> Ok o) ->
  magma_CFBSink_write (logged wr) m (MagmaCFBSink s k ivl ivr p) data (w1, log1) = (Ok o2, (w2, log2)) ->
  let cs := map (to_le 8) (cfb_encrypt E [ivl; ivr] (blocks8 (complete (p ++ data)))) in
  log1 <> [] /\ (exists rest, cs = log1 ++ rest) /\ log2 = log1 ++ cs.
Proof.
  intros HE Hl Hr Hp U1 U2 H1 Hf H2 cs.
  refine (retry_general wr s cs _ _ w w1 w2 r1 o2 log1 log2 _ H1 Hf H2).
  intros wl. now apply magma_write_general.
Qed.

Lemma gost_retry {W S} (wr : writer W S) m k E iv p s data w w1 w2 r1 o2 log1 log2 :
  enciphers k E -> iv < 2 ^ 64 -> (List.length p < 8)%nat -> Forall u8 p -> Forall u8 data ->
  gost_CFBSink_write (logged wr) m (GostCFBSink s k iv p) data (w, []) = (r1, (w1, log1)) ->
  (forall o, r1 <> Ok o) ->
  gost_CFBSink_write (logged wr) m (GostCFBSink s k iv p) data (w1, log1) = (Ok o2, (w2, log2)) ->
  let cs := map (to_le 8) (cfb_encrypt E [iv] (blocks8 (complete (p ++ data)))) in
  log1 <> [] /\ (exists rest, cs = log1 ++ rest) /\ log2 = log1 ++ cs.
Proof.
  intros HE Hl Hp U1 U2 H1 Hf H2 cs.
  refine (retry_general wr s cs _ _ w w1 w2 r1 o2 log1 log2 _ H1 Hf H2).
  intros wl. now apply gost_write_general.
Qed.

Lemma ecb_retry {W S} (wr : writer W S) k E s data w w1 w2 r1 o2 log1 log2 :
  transforms k E -> whole data ->
  ECBSink_write (logged wr) (ECBSink s k) data (w, []) = (r1, (w1, log1)) -> (forall o, r1 <> Ok o) ->
  ECBSink_write (logged wr) (ECBSink s k) data (w1, log1) = (Ok o2, (w2, log2)) ->
  let cs := map (to_le 8) (ecb E (blocks8 data)) in
  log1 <> [] /\ (exists rest, cs = log1 ++ rest) /\ log2 = log1 ++ cs.
Proof.
  intros HE Hw H1 Hf H2 cs. destruct (whole_complete _ Hw) as [Ec El].
  refine (retry_general wr s cs (fun s' => ECBSink s' k) _ w w1 w2 r1 o2 log1 log2 _ H1 Hf H2).
  intros wl. rewrite (ecb_write_total _ k E) by (assumption || apply Hw). rewrite Ec, El. reflexivity.
Qed.

(** ** Resuming *)

Lemma logged_more {W S} (wr : writer W S) : never_fails wr -> forall cs s w l,
  exists s' w', writes (logged wr) s cs (w, l) = (Ok s', (w', l ++ cs)).
Proof. exact (never_fails_writes wr). Qed.

Lemma map_firstn_skipn n (cs : list N) : map (to_le 8) (firstn n cs) ++ map (to_le 8) (skipn n cs) = map (to_le 8) cs.
Proof. now rewrite <- map_app, firstn_skipn. Qed.

Lemma unbroken {W S A} (wr : writer W S) s cs (f : S -> A) w r w' l :
  (s' <-- writes (logged wr) s cs ;; mret (f s')) (w, []) = (Ok r, (w', l)) -> exists s', r = f s' /\ l = cs.
Proof.
  intros H. apply failing_bind in H. destruct H as [(s1 & w1 & _ & H)|(rest & _ & H)].
  - injection H as <- _ <-. eauto.
  - now elim (sink_failure_map _ _ _ _ _ _ mret H r).
Qed.

Lemma enciphered_lt k E reg ps : enciphers k E -> reg_ok reg -> Forall (fun x => x < 2 ^ 64) ps ->
  Forall b64 (cfb_encrypt E reg ps).
Proof.
  intros HE. revert reg. induction ps as [|p ps IH]; intros reg [Hn Hr] Hp; [constructor|].
  inversion Hp as [|? ? Hp1 Hp2]; subst. cbn [cfb_encrypt]. cbv zeta.
  assert (C : b64 (N.lxor p (E (hd 0 reg)))).
  { apply lxor_lt; [exact Hp1|]. apply (enciphers_lt _ _ HE). destruct reg; [reflexivity|]. now inversion Hr. }
  constructor; [exact C|]. apply IH; [|exact Hp2]. split; [destruct (tl reg); discriminate|].
  apply Forall_app. split; [|now constructor]. destruct reg; [constructor|]. now inversion Hr.
Qed.

Lemma magma_resume {W S} (wr : writer W S) m k E ivl ivr p s s3 data w w3 wR oR logR n :
  enciphers k E -> ivl < 2 ^ 64 -> ivr < 2 ^ 64 -> (List.length p < 8)%nat -> Forall u8 p -> Forall u8 data ->
  never_fails wr ->
  magma_CFBSink_write (logged wr) m (MagmaCFBSink s k ivl ivr p) data (w, []) = (Ok oR, (wR, logR)) ->
  (n <= List.length logR)%nat ->
  let reg := [ivl; ivr] ++ map of_le (firstn n logR) in
  exists o3 w3',
    magma_CFBSink_write (logged wr) m (magma_CFBSink_init s3 k (nth n reg 0) (nth (n + 1) reg 0))
      (skipn (8 * n) (p ++ data)) (w3, firstn n logR) = (Ok o3, (w3', logR)) /\
    mcs_ivl o3 = mcs_ivl oR /\ mcs_ivr o3 = mcs_ivr oR /\ mcs_plain o3 = mcs_plain oR.
Proof.
  intros HE Hl Hr Hp U1 U2 Hn HR Hk reg.
  rewrite (magma_write_general (logged wr) m E) in HR by assumption.
  assert (Hok : reg_ok [ivl; ivr]) by (split; [discriminate|repeat constructor; assumption]).
  assert (U : Forall u8 (p ++ data)) by now apply Forall_app.
  pose proof (enciphered_lt k E [ivl; ivr] _ HE Hok (blocks8_bound _ (proj2 (complete_whole _ U)))) as HC.
  set (cs := cfb_encrypt E [ivl; ivr] (blocks8 (complete (p ++ data)))) in *.
  apply unbroken in HR. destruct HR as (s' & -> & ->). rewrite map_length in Hk.
  assert (Hn8 : (8 * n <= List.length (p ++ data))%nat).
  { pose proof (complete_blocks_length _ U). unfold cs in Hk. rewrite cfb_encrypt_length in Hk. lia. }
  assert (Er : reg = [ivl; ivr] ++ firstn n cs).
  { unfold reg. rewrite firstn_map, map_map. f_equal.
    rewrite <- (map_id (firstn n cs)) at 2. apply map_ext_Forall.
    apply (Forall_impl _ (fun a (H : b64 a) => of_to_le_id 8 a H)). now apply Forall_firstn. }
  assert (Ln : List.length (firstn n cs) = n) by (rewrite firstn_length; lia).
  assert (R0 : nth n reg 0 = nth 0 (shifted [ivl; ivr] (firstn n cs)) 0)
    by (rewrite nth_shifted, Ln, <- Er; f_equal; lia).
  assert (R1 : nth (n + 1) reg 0 = nth 1 (shifted [ivl; ivr] (firstn n cs)) 0)
    by (rewrite nth_shifted, Ln, <- Er; reflexivity).
  pose proof (shifted_ok [ivl; ivr] (firstn n cs) Hok (Forall_firstn _ _ _ HC)) as Hok2.
  pose proof (shifted_length [ivl; ivr] (firstn n cs)) as L2. cbn [List.length] in L2.
  pose proof (reg2 _ L2) as E2. rewrite R0, R1. clear Er R0 R1.
  unfold magma_CFBSink_init. rewrite (magma_write_general (logged wr) m E).
  2-6: try assumption; try (cbn; lia); try constructor.
  2: rewrite E2 in Hok2; destruct Hok2 as [_ Hok2]; inversion Hok2 as [|? ? A ?]; exact A.
  2: rewrite E2 in Hok2; destruct Hok2 as [_ Hok2]; inversion Hok2 as [|? ? ? A]; inversion A; assumption.
  2: now apply Forall_skipn.
  cbn [app]. rewrite resumed_blocks by exact Hn8. rewrite <- E2.
  replace (cfb_encrypt E (shifted [ivl; ivr] (firstn n cs)) (skipn n (blocks8 (complete (p ++ data)))))
    with (skipn n cs) by (symmetry; apply cfb_skipn; discriminate).
  rewrite (proj2 (skip_complete n _ Hn8)).
  destruct (logged_more wr Hn (map (to_le 8) (skipn n cs)) s3 w3 (firstn n (map (to_le 8) cs))) as (s4 & w4 & E4).
  rewrite (mbind_ok _ _ _ _ _ E4). rewrite firstn_map, map_firstn_skipn.
  do 2 eexists. split; [reflexivity|]. cbn [mcs_ivl mcs_ivr mcs_plain].
  rewrite shifted_app by discriminate. now rewrite firstn_skipn.
Qed.

Lemma gost_resume {W S} (wr : writer W S) m k E iv p s s3 data w w3 wR oR logR n :
  enciphers k E -> iv < 2 ^ 64 -> (List.length p < 8)%nat -> Forall u8 p -> Forall u8 data ->
  never_fails wr ->
  gost_CFBSink_write (logged wr) m (GostCFBSink s k iv p) data (w, []) = (Ok oR, (wR, logR)) ->
  (n <= List.length logR)%nat ->
  let reg := [iv] ++ map of_le (firstn n logR) in
  exists o3 w3',
    gost_CFBSink_write (logged wr) m (gost_CFBSink_init s3 k (nth n reg 0))
      (skipn (8 * n) (p ++ data)) (w3, firstn n logR) = (Ok o3, (w3', logR)) /\
    gcs_iv o3 = gcs_iv oR /\ gcs_plain o3 = gcs_plain oR.
Proof.
  intros HE Hl Hp U1 U2 Hn HR Hk reg.
  rewrite (gost_write_general (logged wr) m E) in HR by assumption.
  assert (Hok : reg_ok [iv]) by (split; [discriminate|repeat constructor; assumption]).
  assert (U : Forall u8 (p ++ data)) by now apply Forall_app.
  pose proof (enciphered_lt k E [iv] _ HE Hok (blocks8_bound _ (proj2 (complete_whole _ U)))) as HC.
  set (cs := cfb_encrypt E [iv] (blocks8 (complete (p ++ data)))) in *.
  apply unbroken in HR. destruct HR as (s' & -> & ->). rewrite map_length in Hk.
  assert (Hn8 : (8 * n <= List.length (p ++ data))%nat).
  { pose proof (complete_blocks_length _ U). unfold cs in Hk. rewrite cfb_encrypt_length in Hk. lia. }
  assert (Er : reg = [iv] ++ firstn n cs).
  { unfold reg. rewrite firstn_map, map_map. f_equal.
    rewrite <- (map_id (firstn n cs)) at 2. apply map_ext_Forall.
    apply (Forall_impl _ (fun a (H : b64 a) => of_to_le_id 8 a H)). now apply Forall_firstn. }
  assert (Ln : List.length (firstn n cs) = n) by (rewrite firstn_length; lia).
  assert (R0 : nth n reg 0 = nth 0 (shifted [iv] (firstn n cs)) 0)
    by (rewrite nth_shifted, Ln, <- Er; f_equal; lia).
  pose proof (shifted_ok [iv] (firstn n cs) Hok (Forall_firstn _ _ _ HC)) as Hok2.
  pose proof (shifted_length [iv] (firstn n cs)) as L2. cbn [List.length] in L2.
  pose proof (reg1 _ L2) as E2. rewrite R0. clear Er R0.
  unfold gost_CFBSink_init. rewrite (gost_write_general (logged wr) m E).
  2-6: try assumption; try (cbn; lia); try constructor.
  2: rewrite E2 in Hok2; destruct Hok2 as [_ Hok2]; inversion Hok2 as [|? ? A ?]; exact A.
  2: now apply Forall_skipn.
  cbn [app]. rewrite resumed_blocks by exact Hn8. rewrite <- E2.
  replace (cfb_encrypt E (shifted [iv] (firstn n cs)) (skipn n (blocks8 (complete (p ++ data)))))
    with (skipn n cs) by (symmetry; apply cfb_skipn; discriminate).
  rewrite (proj2 (skip_complete n _ Hn8)).
  destruct (logged_more wr Hn (map (to_le 8) (skipn n cs)) s3 w3 (firstn n (map (to_le 8) cs))) as (s4 & w4 & E4).
  rewrite (mbind_ok _ _ _ _ _ E4). rewrite firstn_map, map_firstn_skipn.
  do 2 eexists. split; [reflexivity|]. cbn [gcs_iv gcs_plain].
  rewrite shifted_app by discriminate. now rewrite firstn_skipn.
Qed.
