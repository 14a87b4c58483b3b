(** Proofs about the sinks. *)
From Verif Require Import Base MagmaModel Streams Lib SpecMagma SpecModes SpecStreams MagmaProofs MagmaSpecProofs ByteProofs.
From Coq Require Import ZifyNat ZifyN ZifyBool.
Local Open Scope N_scope.

Lemma mbind_mret_l {W A B} (a : A) (f : A -> M W B) w : mbind (mret a) f w = f a w.
Proof. reflexivity. Qed.

Lemma writes_app {W S} (wr : writer W S) a b s w :
  writes wr s (a ++ b) w = (s' <-- writes wr s a ;; writes wr s' b) w.
Proof.
  revert s w. induction a as [|c a IH]; intros s w; [reflexivity|].
  cbn [app writes]. rewrite mbind_assoc. apply mbind_ext; [reflexivity|]. intros. apply IH.
Qed.

(** ** ECBSink *)
Section ECB.
Context {W S : Type} (wr : writer W S) (k : key).

Lemma ecb_loop_app a b p s w :
  ecb_write_loop wr k (a ++ b) p s w =
  (x <-- ecb_write_loop wr k a p s ;; let '(p, s) := x in ecb_write_loop wr k b p s) w.
Proof.
  revert p s w. induction a as [|x a IH]; intros p s w; [reflexivity|].
  cbn [app ecb_write_loop]. cbv zeta. destruct (Nat.eqb _ 8).
  - rewrite mbind_assoc. apply mbind_ext; [reflexivity|]. intros e w1.
    rewrite mbind_assoc. apply mbind_ext; [reflexivity|]. intros; apply IH.
  - apply IH.
Qed.

Lemma ecb_loop_short d : forall p s w, (List.length p + List.length d < 8)%nat ->
  ecb_write_loop wr k d p s w = (Ok (p ++ d, s), w).
Proof.
  induction d as [|b d IH]; intros p s w H.
  - rewrite app_nil_r. reflexivity.
  - cbn [ecb_write_loop]. cbv zeta. cbn [List.length] in H. rewrite app_length. cbn [List.length].
    rewrite (proj2 (Nat.eqb_neq _ 8)) by lia. rewrite IH by (rewrite app_length; cbn; lia).
    now rewrite <- app_assoc.
Qed.

Lemma ecb_loop_block a s w : List.length a = 8%nat ->
  ecb_write_loop wr k a [] s w =
  (e <-- lift (EncryptionBase_transform k (of_le a)) ;; s' <-- wr s (to_le 8 e) ;; mret ([], s')) w.
Proof.
  intros H. destruct (list8 a H) as (b0 & b1 & b2 & b3 & b4 & b5 & b6 & b7 & ->). reflexivity.
Qed.

Lemma ecb_loop_whole d : (List.length d mod 8 = 0)%nat -> forall s w,
  ecb_write_loop wr k d [] s w =
  (s' <-- encrypt_send wr (EncryptionBase_transform k) s (blocks8 d) ;; mret ([], s')) w.
Proof.
  revert d. apply (chunk_ind 8 (fun d => forall s w, ecb_write_loop wr k d [] s w =
    (s' <-- encrypt_send wr (EncryptionBase_transform k) s (blocks8 d) ;; mret ([], s')) w)).
  - lia.
  - reflexivity.
  - intros b r Hb IH s w. rewrite ecb_loop_app, blocks8_cons by assumption.
    cbn [encrypt_send]. rewrite mbind_assoc.
    etransitivity; [apply mbind_ext; [apply ecb_loop_block, Hb|intros ? ?; reflexivity]|].
    rewrite mbind_assoc. apply mbind_ext; [reflexivity|]. intros e w1.
    rewrite !mbind_assoc. apply mbind_ext; [reflexivity|]. intros s1 w2.
    unfold mbind at 1. cbn [mret]. apply IH.
Qed.

Lemma ECBSink_write_general s data w :
  ECBSink_write wr (ECBSink s k) data w =
  (s' <-- encrypt_send wr (EncryptionBase_transform k) s (blocks8 (complete data)) ;;
   match leftover data with
   | [] => mret (ECBSink s' k)
   | _ :: _ => mthrow (RuntimeError "Unaligned ECB encryption")
   end) w.
Proof.
  unfold ECBSink_write. cbn [es_key es_sink]. rewrite <- (complete_leftover data) at 1.
  etransitivity.
  { apply mbind_ext; [|intros ? ?; reflexivity]. rewrite ecb_loop_app.
    etransitivity; [apply mbind_ext; [apply ecb_loop_whole, complete_length|intros ? ?; reflexivity]|].
    reflexivity. }
  rewrite !mbind_assoc. apply mbind_ext; [reflexivity|]. intros s' w1.
  rewrite mbind_mret_l. cbv beta zeta. unfold mbind.
  rewrite ecb_loop_short by (cbn [List.length]; apply leftover_length). reflexivity.
Qed.

Lemma encrypt_send_total E bs : transforms k E -> Forall (fun x => x < 2 ^ 64) bs -> forall s w,
  encrypt_send wr (EncryptionBase_transform k) s bs w =
  writes wr s (map (to_le 8) (ecb E bs)) w.
Proof.
  intros HE. induction bs as [|b bs IH]; intros HF s w; [reflexivity|].
  inversion HF; subst. cbn [encrypt_send ecb map writes].
  destruct (HE b) as [Eb _]; [assumption|]. rewrite Eb.
  change (mbind (lift (Ok (E b))) ?f w) with (f (E b) w).
  cbv beta. apply mbind_ext; [reflexivity|]. intros. now apply IH.
Qed.
End ECB.

(** ** The common core of both CFBSinks: the register is a list *)
Section CFB.
Context {W S : Type} (wr : writer W S) (m : mode) (k : key).

Fixpoint cfb_loop (data p : bytes) (s : S) (reg : list N) : M W (S * list N * bytes) :=
  match data with
  | [] => mret (s, reg, p)
  | b :: rest =>
      let p := p ++ [b] in
      if Nat.eqb (List.length p) 8 then
        '(first, second) <-- lift (BlkEncrypted (BlkRaw64 (hd 0 reg)) (cast_lazy k)) ;;
        c <-- lift (sink_xor m p first second) ;;
        s <-- wr s c ;;
        cfb_loop rest [] s (tl reg ++ [of_le (firstn 8 c)])
      else cfb_loop rest p s reg
  end.

Lemma magma_loop_core data : forall p s rl rr w,
  magma_cfb_write_loop wr m k data p s rl rr w =
  (x <-- cfb_loop data p s [rl; rr] ;;
   let '(s, reg, p) := x in mret (s, nth 0 reg 0, nth 1 reg 0, p)) w.
Proof.
  induction data as [|b data IH]; intros p s rl rr w; [reflexivity|].
  cbn [magma_cfb_write_loop cfb_loop]. cbv zeta. unfold block_size.
  destruct (Nat.eqb _ 8); [|apply IH].
  rewrite mbind_assoc. apply mbind_ext; [reflexivity|]. intros [f1 f2] w1.
  rewrite mbind_assoc. apply mbind_ext; [reflexivity|]. intros c w2.
  rewrite mbind_assoc. apply mbind_ext; [reflexivity|]. intros; apply IH.
Qed.

Lemma gost_loop_core data : forall p s l w,
  gost_cfb_write_loop wr m k data p s l w =
  (x <-- cfb_loop data p s [l] ;;
   let '(s, reg, p) := x in mret (s, nth 0 reg 0, p)) w.
Proof.
  induction data as [|b data IH]; intros p s l w; [reflexivity|].
  cbn [gost_cfb_write_loop cfb_loop]. cbv zeta. unfold block_size.
  destruct (Nat.eqb _ 8); [|apply IH].
  rewrite mbind_assoc. apply mbind_ext; [reflexivity|]. intros [f1 f2] w1.
  rewrite mbind_assoc. apply mbind_ext; [reflexivity|]. intros c w2.
  rewrite mbind_assoc. apply mbind_ext; [reflexivity|]. intros; apply IH.
Qed.

(** The register keeps its length. *)
Lemma cfb_loop_reg data : forall p s reg w s' reg' p' w', reg <> [] ->
  cfb_loop data p s reg w = (Ok (s', reg', p'), w') -> List.length reg' = List.length reg.
Proof.
  induction data as [|b data IH]; intros p s reg w s' reg' p' w' Hr H.
  - injection H as <- <- <- <-. reflexivity.
  - cbn [cfb_loop] in H. cbv zeta in H. destruct (Nat.eqb _ 8); [|eapply IH; eassumption].
    apply mbind_ok_inv in H. destruct H as ([f1 f2] & w1 & _ & H).
    apply mbind_ok_inv in H. destruct H as (c & w2 & _ & H).
    apply mbind_ok_inv in H. destruct H as (s1 & w3 & _ & H).
    apply IH in H; [|intros A; apply app_eq_nil in A; destruct A; discriminate].
    rewrite H, app_length. destruct reg; [contradiction|]. cbn [tl List.length]. lia.
Qed.

Lemma cfb_loop_app a b p s reg w :
  cfb_loop (a ++ b) p s reg w =
  (x <-- cfb_loop a p s reg ;; let '(s, reg, p) := x in cfb_loop b p s reg) w.
Proof.
  revert p s reg w. induction a as [|x a IH]; intros p s reg w; [reflexivity|].
  cbn [app cfb_loop]. cbv zeta. destruct (Nat.eqb _ 8).
  - rewrite mbind_assoc. apply mbind_ext; [reflexivity|]. intros [f1 f2] w1.
    rewrite mbind_assoc. apply mbind_ext; [reflexivity|]. intros c w2.
    rewrite mbind_assoc. apply mbind_ext; [reflexivity|]. intros; apply IH.
  - apply IH.
Qed.

Lemma cfb_loop_short d : forall p s reg w, (List.length p + List.length d < 8)%nat ->
  cfb_loop d p s reg w = (Ok (s, reg, p ++ d), w).
Proof.
  induction d as [|b d IH]; intros p s reg w H.
  - rewrite app_nil_r. reflexivity.
  - cbn [cfb_loop]. cbv zeta. cbn [List.length] in H. rewrite app_length. cbn [List.length].
    rewrite (proj2 (Nat.eqb_neq _ 8)) by lia. rewrite IH by (rewrite app_length; cbn; lia).
    now rewrite <- app_assoc.
Qed.

(** Pending bytes are as good as data still to come. *)
Lemma cfb_loop_pending p d s reg w : (List.length p < 8)%nat ->
  cfb_loop d p s reg w = cfb_loop (p ++ d) [] s reg w.
Proof.
  intros H. rewrite cfb_loop_app. unfold mbind. rewrite (cfb_loop_short p) by (cbn [List.length]; lia). reflexivity.
Qed.

Lemma cfb_loop_block a s reg w : List.length a = 8%nat ->
  cfb_loop a [] s reg w =
  ('(first, second) <-- lift (BlkEncrypted (BlkRaw64 (hd 0 reg)) (cast_lazy k)) ;;
   c <-- lift (sink_xor m a first second) ;;
   s <-- wr s c ;;
   mret (s, tl reg ++ [of_le (firstn 8 c)], [])) w.
Proof.
  intros H. destruct (list8 a H) as (b0 & b1 & b2 & b3 & b4 & b5 & b6 & b7 & ->). reflexivity.
Qed.

Definition reg_ok (reg : list N) : Prop := reg <> [] /\ Forall (fun x => x < 2 ^ 64) reg.

Lemma reg_ok_shift reg c : reg_ok reg -> c < 2 ^ 64 -> reg_ok (tl reg ++ [c]).
Proof.
  intros [Hn Hf] Hc. split; [destruct (tl reg); discriminate|].
  apply Forall_app. split; [|auto]. destruct reg; [contradiction|]. now inversion Hf.
Qed.

Lemma hd_lt reg : reg_ok reg -> hd 0 reg < 2 ^ 64.
Proof. intros [Hn Hf]. destruct reg; [contradiction|]. now inversion Hf. Qed.

Lemma cfb_loop_block_total E a s reg w :
  enciphers k E -> reg_ok reg -> List.length a = 8%nat -> Forall u8 a ->
  let c := N.lxor (of_le a) (E (hd 0 reg)) in
  c < 2 ^ 64 /\
  cfb_loop a [] s reg w = (s' <-- wr s (to_le 8 c) ;; mret (s', tl reg ++ [c], [])) w.
Proof.
  intros HE Hr Ha Hb c. destruct (HE (hd 0 reg) (hd_lt reg Hr)) as [E1 L1].
  assert (Lc : c < 2 ^ 64) by (apply lxor_lt; [now apply of_le_8_lt|exact L1]).
  split; [exact Lc|]. rewrite cfb_loop_block by assumption. rewrite E1.
  unfold mbind at 1. cbn [lift halves]. rewrite sink_xor_ok by assumption.
  unfold mbind at 1. cbn [lift]. fold c.
  apply mbind_ext; [reflexivity|]. intros. do 4 f_equal.
  rewrite firstn_all2 by (rewrite to_le_length; lia). now rewrite (of_to_le_id 8).
Qed.

(** The register after sending [cs]. *)
Definition shifted (reg cs : list N) : list N := skipn (List.length cs) (reg ++ cs).

Lemma shifted_cons reg c cs : reg <> [] -> shifted reg (c :: cs) = shifted (tl reg ++ [c]) cs.
Proof.
  intros H. destruct reg as [|r reg]; [contradiction|]. unfold shifted.
  cbn [tl app List.length skipn]. now rewrite <- app_assoc.
Qed.

Lemma shifted_nil reg : shifted reg [] = reg.
Proof. unfold shifted. now rewrite app_nil_r. Qed.

Lemma shifted_length reg cs : List.length (shifted reg cs) = List.length reg.
Proof. unfold shifted. rewrite skipn_length, app_length. lia. Qed.

Lemma cfb_loop_whole E d : enciphers k E -> whole d -> forall s reg w, reg_ok reg ->
  let cs := cfb_encrypt E reg (blocks8 d) in
  cfb_loop d [] s reg w =
  (s' <-- writes wr s (map (to_le 8) cs) ;; mret (s', shifted reg cs, [])) w.
Proof.
  intros HE [Hl Hb]. revert Hb. revert d Hl.
  apply (chunk_ind 8 (fun d => Forall u8 d -> forall s reg w, reg_ok reg ->
    let cs := cfb_encrypt E reg (blocks8 d) in
    cfb_loop d [] s reg w =
    (s' <-- writes wr s (map (to_le 8) cs) ;; mret (s', shifted reg cs, [])) w)).
  - lia.
  - intros _ s reg w Hr. intros cs. subst cs. rewrite blocks8_nil. cbn [cfb_encrypt map writes]. rewrite mbind_mret_l, shifted_nil. reflexivity.
  - intros a r Ha IH HF s reg w Hr. apply Forall_app in HF. destruct HF as [H1 H2].
    rewrite blocks8_cons by assumption. cbn [cfb_encrypt map writes]. cbv zeta.
    rewrite cfb_loop_app.
    destruct (cfb_loop_block_total E a s reg w HE Hr Ha H1) as [Lc Eb].
    rewrite shifted_cons by apply Hr.
    etransitivity; [apply mbind_ext; [exact Eb|intros ? ?; reflexivity]|].
    rewrite !mbind_assoc. apply mbind_ext; [reflexivity|]. intros s1 w1.
    unfold mbind at 1. cbn [mret]. apply IH; [assumption|]. now apply reg_ok_shift.
Qed.

Lemma cfb_loop_general E d : enciphers k E -> Forall u8 d -> forall s reg w, reg_ok reg ->
  let cs := cfb_encrypt E reg (blocks8 (complete d)) in
  cfb_loop d [] s reg w =
  (s' <-- writes wr s (map (to_le 8) cs) ;; mret (s', shifted reg cs, leftover d)) w.
Proof.
  intros HE Hb s reg w Hr cs. rewrite <- (complete_leftover d) at 1. rewrite cfb_loop_app.
  etransitivity; [apply mbind_ext; [apply (cfb_loop_whole E _ HE (complete_whole d Hb) s reg w Hr)|
    intros ? ?; reflexivity]|].
  rewrite mbind_assoc. apply mbind_ext; [reflexivity|]. intros s1 w1.
  unfold mbind. cbn [mret]. rewrite cfb_loop_short by (cbn [List.length]; apply leftover_length).
  reflexivity.
Qed.
End CFB.

Lemma cfb_encrypt_length E reg ps : List.length (cfb_encrypt E reg ps) = List.length ps.
Proof. revert reg. induction ps; intros; cbn [cfb_encrypt List.length]; cbv zeta; cbn; auto. Qed.

Lemma cfb_decrypt_length E reg ps : List.length (cfb_decrypt E reg ps) = List.length ps.
Proof. revert reg. induction ps; intros; cbn [cfb_decrypt List.length]; auto. Qed.

Lemma cfb_decrypt_encrypt E ps : forall reg, cfb_decrypt E reg (cfb_encrypt E reg ps) = ps.
Proof.
  induction ps as [|p ps IH]; intros reg; [reflexivity|]. cbn [cfb_encrypt cfb_decrypt]. cbv zeta.
  rewrite IH, lxor_cancel_r. reflexivity.
Qed.

Lemma cfb_encrypt_decrypt E ps : forall reg, cfb_encrypt E reg (cfb_decrypt E reg ps) = ps.
Proof.
  induction ps as [|p ps IH]; intros reg; [reflexivity|]. cbn [cfb_encrypt cfb_decrypt]. cbv zeta.
  rewrite lxor_cancel_r, IH. reflexivity.
Qed.

Lemma cfb_encrypt_lt E ps : (forall x, x < 2 ^ 64 -> E x < 2 ^ 64) ->
  forall reg, reg_ok reg -> Forall (fun x => x < 2 ^ 64) ps ->
  Forall (fun x => x < 2 ^ 64) (cfb_encrypt E reg ps).
Proof.
  intros HE. induction ps as [|p ps IH]; intros reg Hr Hp; [constructor|].
  inversion Hp; subst. cbn [cfb_encrypt]. cbv zeta.
  assert (N.lxor p (E (hd 0 reg)) < 2 ^ 64) by (apply lxor_lt; auto using hd_lt).
  constructor; auto using reg_ok_shift.
Qed.

Lemma cfb_decrypt_lt E ps : (forall x, x < 2 ^ 64 -> E x < 2 ^ 64) ->
  forall reg, reg_ok reg -> Forall (fun x => x < 2 ^ 64) ps ->
  Forall (fun x => x < 2 ^ 64) (cfb_decrypt E reg ps).
Proof.
  intros HE. induction ps as [|p ps IH]; intros reg Hr Hp; [constructor|].
  inversion Hp; subst. cbn [cfb_decrypt].
  assert (N.lxor p (E (hd 0 reg)) < 2 ^ 64) by (apply lxor_lt; auto using hd_lt).
  constructor; auto using reg_ok_shift.
Qed.

(** ** Splitting *)

Section Split.
Context {W S : Type} (wr : writer W S) (m : mode).

Lemma magma_write_app o a b w :
  magma_CFBSink_write wr m o (a ++ b) w =
  (o' <-- magma_CFBSink_write wr m o a ;; magma_CFBSink_write wr m o' b) w.
Proof.
  unfold magma_CFBSink_write. rewrite mbind_assoc.
  etransitivity; [apply mbind_ext; [apply magma_loop_core|intros ? ?; reflexivity]|].
  symmetry.
  etransitivity; [apply mbind_ext; [apply magma_loop_core|intros ? ?; reflexivity]|].
  symmetry. rewrite !mbind_assoc.
  etransitivity; [apply mbind_ext; [apply cfb_loop_app|intros ? ?; reflexivity]|].
  rewrite mbind_assoc.
  unfold mbind at 1. unfold mbind at 3.
  destruct (cfb_loop wr m (mcs_key o) a (mcs_plain o) (mcs_sink o) [mcs_ivl o; mcs_ivr o] w)
    as [[[[s reg] p]|e|u|] w1] eqn:E; try reflexivity.
  apply cfb_loop_reg in E; [|discriminate].
  destruct reg as [|x [|y [|]]]; try discriminate E. cbn [nth].
  unfold mbind at 3. cbn [mret]. unfold mbind at 3. cbn [mret].
  cbn [mcs_key mcs_plain mcs_sink mcs_ivl mcs_ivr].
  symmetry. etransitivity; [apply mbind_ext; [apply magma_loop_core|intros ? ?; reflexivity]|].
  rewrite mbind_assoc. reflexivity.
Qed.

Lemma gost_write_app o a b w :
  gost_CFBSink_write wr m o (a ++ b) w =
  (o' <-- gost_CFBSink_write wr m o a ;; gost_CFBSink_write wr m o' b) w.
Proof.
  unfold gost_CFBSink_write. rewrite mbind_assoc.
  etransitivity; [apply mbind_ext; [apply gost_loop_core|intros ? ?; reflexivity]|].
  symmetry.
  etransitivity; [apply mbind_ext; [apply gost_loop_core|intros ? ?; reflexivity]|].
  symmetry. rewrite !mbind_assoc.
  etransitivity; [apply mbind_ext; [apply cfb_loop_app|intros ? ?; reflexivity]|].
  rewrite mbind_assoc.
  unfold mbind at 1. unfold mbind at 3.
  destruct (cfb_loop wr m (gcs_key o) a (gcs_plain o) (gcs_sink o) [gcs_iv o] w)
    as [[[[s reg] p]|e|u|] w1] eqn:E; try reflexivity.
  apply cfb_loop_reg in E; [|discriminate].
  destruct reg as [|x [|]]; try discriminate E. cbn [nth].
  unfold mbind at 3. cbn [mret]. unfold mbind at 3. cbn [mret].
  cbn [gcs_key gcs_plain gcs_sink gcs_iv].
  symmetry. etransitivity; [apply mbind_ext; [apply gost_loop_core|intros ? ?; reflexivity]|].
  rewrite mbind_assoc. reflexivity.
Qed.

Lemma magma_writes_concat chunks : forall o w,
  writes (magma_CFBSink_write wr m) o chunks w = magma_CFBSink_write wr m o (List.concat chunks) w.
Proof.
  induction chunks as [|c r IH]; intros o w.
  - destruct o. reflexivity.
  - cbn [writes List.concat]. rewrite magma_write_app. apply mbind_ext; [reflexivity|]. auto.
Qed.

Lemma gost_writes_concat chunks : forall o w,
  writes (gost_CFBSink_write wr m) o chunks w = gost_CFBSink_write wr m o (List.concat chunks) w.
Proof.
  induction chunks as [|c r IH]; intros o w.
  - destruct o. reflexivity.
  - cbn [writes List.concat]. rewrite gost_write_app. apply mbind_ext; [reflexivity|]. auto.
Qed.

(** ** What a CFBSink sends *)

Lemma magma_write_general E k ivl ivr p s data w :
  enciphers k E -> ivl < 2 ^ 64 -> ivr < 2 ^ 64 -> (List.length p < 8)%nat ->
  Forall u8 p -> Forall u8 data ->
  let cs := cfb_encrypt E [ivl; ivr] (blocks8 (complete (p ++ data))) in
  magma_CFBSink_write wr m (MagmaCFBSink s k ivl ivr p) data w =
  (s' <-- writes wr s (map (to_le 8) cs) ;;
   mret (MagmaCFBSink s' k (nth 0 (shifted [ivl; ivr] cs) 0) (nth 1 (shifted [ivl; ivr] cs) 0)
                      (leftover (p ++ data)))) w.
Proof.
  intros HE H1 H2 Hp Hb1 Hb2 cs. unfold magma_CFBSink_write.
  cbn [mcs_key mcs_plain mcs_sink mcs_ivl mcs_ivr].
  etransitivity; [apply mbind_ext; [apply magma_loop_core|intros ? ?; reflexivity]|].
  rewrite mbind_assoc.
  assert (Hr : reg_ok [ivl; ivr]) by (split; [discriminate|auto]).
  etransitivity; [apply mbind_ext; [rewrite cfb_loop_pending by assumption;
    apply (cfb_loop_general wr m k E (p ++ data) HE); [now apply Forall_app|exact Hr]|
    intros ? ?; reflexivity]|].
  fold cs. rewrite mbind_assoc. reflexivity.
Qed.

Lemma gost_write_general E k iv p s data w :
  enciphers k E -> iv < 2 ^ 64 -> (List.length p < 8)%nat ->
  Forall u8 p -> Forall u8 data ->
  let cs := cfb_encrypt E [iv] (blocks8 (complete (p ++ data))) in
  gost_CFBSink_write wr m (GostCFBSink s k iv p) data w =
  (s' <-- writes wr s (map (to_le 8) cs) ;;
   mret (GostCFBSink s' k (nth 0 (shifted [iv] cs) 0) (leftover (p ++ data)))) w.
Proof.
  intros HE H1 Hp Hb1 Hb2 cs. unfold gost_CFBSink_write.
  cbn [gcs_key gcs_plain gcs_sink gcs_iv].
  etransitivity; [apply mbind_ext; [apply gost_loop_core|intros ? ?; reflexivity]|].
  rewrite mbind_assoc.
  assert (Hr : reg_ok [iv]) by (split; [discriminate|auto]).
  etransitivity; [apply mbind_ext; [rewrite cfb_loop_pending by assumption;
    apply (cfb_loop_general wr m k E (p ++ data) HE); [now apply Forall_app|exact Hr]|
    intros ? ?; reflexivity]|].
  fold cs. rewrite mbind_assoc. reflexivity.
Qed.
End Split.

(** ** A sink that fails *)

Lemma writes_logged {W S} (wr : writer W S) chunks : forall s w l r w' l',
  writes (logged wr) s chunks (w, l) = (r, (w', l')) ->
  (exists s', r = Ok s' /\ l' = l ++ chunks /\ writes wr s chunks w = (Ok s', w')) \/
  (exists sent rest, l' = l ++ sent /\ chunks = sent ++ rest /\ sink_failure wr s sent w r w').
Proof.
  induction chunks as [|c chunks IH]; intros s w l r w' l' H.
  - left. injection H as <- <- <-. exists s. rewrite app_nil_r. auto.
  - cbn [writes] in H. unfold mbind at 1 in H. unfold logged in H at 1.
    destruct (wr s c w) as [[s1|e|u|] w1] eqn:E.
    + apply IH in H. destruct H as [(s' & -> & -> & H)|(sent & rest & -> & -> & H)].
      * left. exists s'. rewrite <- app_assoc. split; [reflexivity|]. split; [reflexivity|].
        cbn [writes]. unfold mbind. now rewrite E.
      * right. exists (c :: sent), rest. rewrite <- app_assoc. split; [reflexivity|].
        split; [reflexivity|]. destruct H as (before & d & s2 & w2 & -> & Hb & Hf).
        exists (c :: before), d, s2, w2. split; [reflexivity|]. split; [|exact Hf].
        cbn [writes]. unfold mbind. now rewrite E.
    + injection H as <- <- <-. right. exists [c], chunks. split; [reflexivity|].
      split; [reflexivity|]. exists [], c, s, w. rewrite E. auto.
    + injection H as <- <- <-. right. exists [c], chunks. split; [reflexivity|].
      split; [reflexivity|]. exists [], c, s, w. rewrite E. auto.
    + injection H as <- <- <-. right. exists [c], chunks. split; [reflexivity|].
      split; [reflexivity|]. exists [], c, s, w. rewrite E. auto.
Qed.
