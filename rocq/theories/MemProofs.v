(** Proofs for C98: memory that may run out. *)
From Verif Require Import Base MagmaModel Streams EffModel MemModel SpecModes SpecStreams SpecEff Lib ByteProofs SinkProofs
  StreamProofs StreamFacts SourceProofs StreamMore KeyMore TowerProofs CrashProofs PortProofs EffProofs.
Local Open Scope N_scope.

(** ** Enough memory *)
Section Same.
Context {W : Type} (k : act_key W).
Let free : M W unit := mret tt.

Lemma mret_bind {A B} (a : A) (f : A -> M W B) w : mbind (mret a) f w = f a w.
Proof. reflexivity. Qed.

Section Sinks.
Context {S : Type} (wr : writer W S) (m : mode).

Lemma mem_same_ecb_loop data : forall p s w, mem_ecb_loop free wr k data p s w = act_ecb_loop wr k data p s w.
Proof.
  induction data as [|b data IH]; intros p s w; [reflexivity|]. cbn [mem_ecb_loop act_ecb_loop]. cbv zeta.
  unfold free at 1. rewrite mret_bind. destruct (Nat.eqb _ _); [|apply IH].
  apply mbind_ext; [reflexivity|]. intros e w'. apply mbind_ext; [reflexivity|]. intros s' w''. apply IH.
Qed.

Lemma mem_same_ecb s data w : mem_ECBSink_write free wr k s data w = act_ECBSink_write wr k s data w.
Proof.
  unfold mem_ECBSink_write, act_ECBSink_write. unfold mbind at 1 3. rewrite mem_same_ecb_loop.
  destruct (act_ecb_loop wr k data [] s w) as [[[p s1]|e|u|] w']; reflexivity.
Qed.

Lemma mem_same_magma_loop data : forall p s rl rr w,
  mem_magma_loop free wr m k data p s rl rr w = act_magma_loop wr m k data p s rl rr w.
Proof.
  induction data as [|b data IH]; intros p s rl rr w; [reflexivity|]. cbn [mem_magma_loop act_magma_loop]. cbv zeta.
  unfold free at 1. rewrite mret_bind. destruct (Nat.eqb _ _); [|apply IH].
  change (mbind free (fun _ => ?x)) with x.
  apply mbind_ext; [reflexivity|]. intros [f1 f2] w'. apply mbind_ext; [reflexivity|]. intros c w''. apply mbind_ext; [reflexivity|]. intros s' w3. apply IH.
Qed.

Lemma mem_same_gost_loop data : forall p s l w,
  mem_gost_loop free wr m k data p s l w = act_gost_loop wr m k data p s l w.
Proof.
  induction data as [|b data IH]; intros p s l w; [reflexivity|]. cbn [mem_gost_loop act_gost_loop]. cbv zeta.
  unfold free at 1. rewrite mret_bind. destruct (Nat.eqb _ _); [|apply IH].
  change (mbind free (fun _ => ?x)) with x.
  apply mbind_ext; [reflexivity|]. intros [f1 f2] w'. apply mbind_ext; [reflexivity|]. intros c w''. apply mbind_ext; [reflexivity|]. intros s' w3. apply IH.
Qed.

Lemma mem_same_sinks s rl rr p data w :
  mem_ECBSink_write (mret tt) wr k s data w = act_ECBSink_write wr k s data w /\
  mem_magma_CFBSink_write (mret tt) wr m k (s, rl, rr, p) data w = act_magma_CFBSink_write wr m k (s, rl, rr, p) data w /\
  mem_magma_CFBSink_finalize (mret tt) wr m k (s, rl, rr, p) w = act_magma_CFBSink_finalize wr m k (s, rl, rr, p) w /\
  mem_gost_CFBSink_write (mret tt) wr m k (s, rl, p) data w = act_gost_CFBSink_write wr m k (s, rl, p) data w /\
  mem_gost_CFBSink_finalize (mret tt) wr m k (s, rl, p) w = act_gost_CFBSink_finalize wr m k (s, rl, p) w.
Proof.
  split; [apply mem_same_ecb|]. split; [apply (mem_same_magma_loop data p s rl rr w)|]. split; [now destruct p|].
  split; [apply (mem_same_gost_loop data p s rl w)|now destruct p].
Qed.
End Sinks.

Section Sources.
Context {St : Type} (rd : reader W St) (m : mode).

Lemma mem_same_magma_step size st w : mem_magma_step free rd m k size st w = act_magma_step rd m k size st w.
Proof.
  destruct st as [[[[s p] rl] rr] r]. unfold mem_magma_step, act_magma_step. destruct (len r <? size); [|reflexivity].
  reflexivity.
Qed.

Lemma mem_same_gost_step size st w : mem_gost_step free rd m k size st w = act_gost_step rd m k size st w.
Proof.
  destruct st as [[[s p] l] r]. unfold mem_gost_step, act_gost_step. destruct (len r <? size); [|reflexivity].
  reflexivity.
Qed.

Lemma mem_same_sources s p rl rr size w :
  mem_ECBSource_read (mret tt) rd m k (inl s) size w = act_ECBSource_read rd m k (inl s) size w /\
  mem_magma_CFBSource_read (mret tt) rd m k (s, p, rl, rr) size w = act_magma_CFBSource_read rd m k (s, p, rl, rr) size w /\
  mem_gost_CFBSource_read (mret tt) rd m k (s, p, rl) size w = act_gost_CFBSource_read rd m k (s, p, rl) size w.
Proof.
  split; [unfold mem_ECBSource_read, act_ECBSource_read; destruct (size <? _); reflexivity|]. split.
  - unfold mem_magma_CFBSource_read, act_magma_CFBSource_read. rewrite mret_bind. unfold mbind. rewrite !mloop_nm.
    rewrite (nmloop_ext _ _ (mem_same_magma_step size)).
    destruct (nmloop _ _ _ w) as [[[[[[? ?] ?] ?] ?]| | |] ?]; reflexivity.
  - unfold mem_gost_CFBSource_read, act_gost_CFBSource_read. rewrite mret_bind. unfold mbind. rewrite !mloop_nm.
    rewrite (nmloop_ext _ _ (mem_same_gost_step size)).
    destruct (nmloop _ _ _ w) as [[[[[? ?] ?] ?]| | |] ?]; reflexivity.
Qed.
End Sources.
End Same.

(** ** Not enough memory *)
Section Scarce.
Context {W1 W2 : Type} (alloc : M W2 unit) (Ha : or_throws alloc (Ok tt)).
Context (a : act_key W2) (k : key) (H : unreliable a k).
Let take : M (W1 * W2) unit := on_right alloc.

Lemma faulty_take : faulty take (Ok tt). Proof. apply faulty_right, Ha. Qed.
Lemma faulty_after {A} (x : M (W1 * W2) A) r : faulty x r -> faulty (_ <-- take ;; x) r.
Proof. intros Hx. apply (faulty_bind take (Ok tt) (fun _ => x) (fun _ => r)); [apply faulty_take|now intros _]. Qed.

(** Taking memory, then [x]. *)
Lemma take_step {B} (x : M (W1 * W2) B) w1 w2 out w1' w2' :
  mbind take (fun _ => x) (w1, w2) = (out, (w1', w2')) ->
  (exists e, out = Throw e /\ w1' = w1) \/ (exists w3, x (w1, w3) = (out, (w1', w2'))).
Proof.
  intros E. unfold mbind in E. destruct (faulty_take w1 w2) as (w3 & [E1|(e & E1)]); rewrite E1 in E; [right; eauto|].
  injection E as <- <- <-. left. eauto.
Qed.

Section Sinks.
Context {S : Type} (wr : writer W1 S) (m : mode).

Lemma scarce_magma_loop data : forall p s rl rr w1 w2 out w1' w2',
  mem_magma_loop take (left_writer wr) m (right_key a) data p s rl rr (w1, w2) = (out, (w1', w2')) ->
  cut_short data (fun d => magma_cfb_write_loop wr m k d p s rl rr) out w1 w1'.
Proof.
  induction data as [|b data IH]; intros p s rl rr w1 w2 out w1' w2' E; cbn [mem_magma_loop] in E.
  - destruct (take_step _ _ _ _ _ _ E) as [(e & -> & ->)|(w3 & E1)].
    + right. exists e, [], []. eexists. split; [reflexivity|]. split; reflexivity.
    + left. injection E1 as <- <- <-. reflexivity.
  - destruct (take_step _ _ _ _ _ _ E) as [(e & -> & ->)|(w0 & E0)].
    { right. exists e, [], (b :: data). eexists. split; [reflexivity|]. split; reflexivity. }
    clear E. rename E0 into E. cbv zeta in E. unfold cut_short. cbn [magma_cfb_write_loop]. cbv zeta.
    destruct (Nat.eqb (List.length (p ++ [b])) block_size) eqn:L8.
    + destruct (faulty_step _ _ _ _ _ _ _ _ (faulty_after _ _ (faulty_encrypted a k H _)) E) as
        [(e & -> & ->)|[([f1 f2] & w3 & Er & E2)|[(e & Er & -> & ->)|[(u & Er & -> & ->)|(Er & -> & ->)]]]].
      * right. exists e, [], (b :: data). eexists. split; [reflexivity|]. split; reflexivity.
      * destruct (faulty_step _ _ _ _ _ _ _ _ (faulty_after _ _ (faulty_lift _)) E2) as
          [(e & -> & ->)|[(c & w5 & Ec & E5)|[(e & Ec & -> & ->)|[(u & Ec & -> & ->)|(Ec & -> & ->)]]]];
          [right; exists e, [], (b :: data); eexists; split; [reflexivity|]; split; reflexivity
          | |left; unfold mbind, lift; rewrite Er, Ec; reflexivity..].
        destruct (left_step _ _ _ _ _ _ E5) as [(s1 & w4 & Es & E3)|F].
        -- destruct (IH _ _ _ _ _ _ _ _ _ E3) as [P|(e & d1 & d2 & v1 & -> & -> & P)].
           ++ left. unfold mbind, lift. rewrite Er, Ec, Es. exact P.
           ++ right. exists e, (b :: d1), d2, v1. split; [reflexivity|]. split; [reflexivity|].
              cbn [magma_cfb_write_loop]. cbv zeta. rewrite L8. unfold mbind, lift. rewrite Er, Ec, Es. exact P.
        -- left. unfold mbind at 1 2, lift. rewrite Er, Ec. apply F.
      * left. unfold mbind, lift. now rewrite Er.
      * left. unfold mbind, lift. now rewrite Er.
      * left. unfold mbind, lift. now rewrite Er.
    + destruct (IH _ _ _ _ _ _ _ _ _ E) as [P|(e & d1 & d2 & v1 & -> & -> & P)]; [left; exact P|].
      right. exists e, (b :: d1), d2, v1. split; [reflexivity|]. split; [reflexivity|].
      cbn [magma_cfb_write_loop]. cbv zeta. rewrite L8. exact P.
Qed.

Lemma scarce_gost_loop data : forall p s l w1 w2 out w1' w2',
  mem_gost_loop take (left_writer wr) m (right_key a) data p s l (w1, w2) = (out, (w1', w2')) ->
  cut_short data (fun d => gost_cfb_write_loop wr m k d p s l) out w1 w1'.
Proof.
  induction data as [|b data IH]; intros p s l w1 w2 out w1' w2' E; cbn [mem_gost_loop] in E.
  - destruct (take_step _ _ _ _ _ _ E) as [(e & -> & ->)|(w3 & E1)].
    + right. exists e, [], []. eexists. split; [reflexivity|]. split; reflexivity.
    + left. injection E1 as <- <- <-. reflexivity.
  - destruct (take_step _ _ _ _ _ _ E) as [(e & -> & ->)|(w0 & E0)].
    { right. exists e, [], (b :: data). eexists. split; [reflexivity|]. split; reflexivity. }
    clear E. rename E0 into E. cbv zeta in E. unfold cut_short. cbn [gost_cfb_write_loop]. cbv zeta.
    destruct (Nat.eqb (List.length (p ++ [b])) block_size) eqn:L8.
    + destruct (faulty_step _ _ _ _ _ _ _ _ (faulty_after _ _ (faulty_encrypted a k H _)) E) as
        [(e & -> & ->)|[([f1 f2] & w3 & Er & E2)|[(e & Er & -> & ->)|[(u & Er & -> & ->)|(Er & -> & ->)]]]].
      * right. exists e, [], (b :: data). eexists. split; [reflexivity|]. split; reflexivity.
      * destruct (faulty_step _ _ _ _ _ _ _ _ (faulty_after _ _ (faulty_lift _)) E2) as
          [(e & -> & ->)|[(c & w5 & Ec & E5)|[(e & Ec & -> & ->)|[(u & Ec & -> & ->)|(Ec & -> & ->)]]]];
          [right; exists e, [], (b :: data); eexists; split; [reflexivity|]; split; reflexivity
          | |left; unfold mbind, lift; rewrite Er, Ec; reflexivity..].
        destruct (left_step _ _ _ _ _ _ E5) as [(s1 & w4 & Es & E3)|F].
        -- destruct (IH _ _ _ _ _ _ _ _ E3) as [P|(e & d1 & d2 & v1 & -> & -> & P)].
           ++ left. unfold mbind, lift. rewrite Er, Ec, Es. exact P.
           ++ right. exists e, (b :: d1), d2, v1. split; [reflexivity|]. split; [reflexivity|].
              cbn [gost_cfb_write_loop]. cbv zeta. rewrite L8. unfold mbind, lift. rewrite Er, Ec, Es. exact P.
        -- left. unfold mbind at 1 2, lift. rewrite Er, Ec. apply F.
      * left. unfold mbind, lift. now rewrite Er.
      * left. unfold mbind, lift. now rewrite Er.
      * left. unfold mbind, lift. now rewrite Er.
    + destruct (IH _ _ _ _ _ _ _ _ E) as [P|(e & d1 & d2 & v1 & -> & -> & P)]; [left; exact P|].
      right. exists e, (b :: d1), d2, v1. split; [reflexivity|]. split; [reflexivity|].
      cbn [gost_cfb_write_loop]. cbv zeta. rewrite L8. exact P.
Qed.

Theorem scarce_magma s rl rr p data w1 w2 out w1' w2' :
  mem_magma_CFBSink_write take (left_writer wr) m (right_key a) (s, rl, rr, p) data (w1, w2) = (out, (w1', w2')) ->
  (o <-- magma_CFBSink_write wr m (MagmaCFBSink s k rl rr p) data ;;
   mret (mcs_sink o, mcs_ivl o, mcs_ivr o, mcs_plain o)) w1 = (out, w1') \/
  exists e d1 d2 o, out = Throw e /\ data = d1 ++ d2 /\
    magma_CFBSink_write wr m (MagmaCFBSink s k rl rr p) d1 w1 = (Ok o, w1').
Proof.
  intros E. destruct (take_step _ _ _ _ _ _ E) as [(e & -> & ->)|(w0 & E0)].
  { right. exists e, [], data. eexists. split; [reflexivity|]. split; reflexivity. }
  destruct (scarce_magma_loop _ _ _ _ _ _ _ _ _ _ E0) as [P|(e & d1 & d2 & [[[? ?] ?] ?] & -> & -> & P)].
  - left. rewrite <- same_magma. unfold act_magma_CFBSink_write. rewrite same_magma_loop. exact P.
  - right. exists e, d1, d2. eexists. split; [reflexivity|]. split; [reflexivity|].
    unfold magma_CFBSink_write. cbn [mcs_key mcs_sink mcs_ivl mcs_ivr mcs_plain]. unfold mbind. rewrite P. reflexivity.
Qed.

Theorem scarce_gost s l p data w1 w2 out w1' w2' :
  mem_gost_CFBSink_write take (left_writer wr) m (right_key a) (s, l, p) data (w1, w2) = (out, (w1', w2')) ->
  (o <-- gost_CFBSink_write wr m (GostCFBSink s k l p) data ;; mret (gcs_sink o, gcs_iv o, gcs_plain o)) w1
    = (out, w1') \/
  exists e d1 d2 o, out = Throw e /\ data = d1 ++ d2 /\
    gost_CFBSink_write wr m (GostCFBSink s k l p) d1 w1 = (Ok o, w1').
Proof.
  intros E. destruct (take_step _ _ _ _ _ _ E) as [(e & -> & ->)|(w0 & E0)].
  { right. exists e, [], data. eexists. split; [reflexivity|]. split; reflexivity. }
  destruct (scarce_gost_loop _ _ _ _ _ _ _ _ _ E0) as [P|(e & d1 & d2 & [[? ?] ?] & -> & -> & P)].
  - left. rewrite <- same_gost. unfold act_gost_CFBSink_write. rewrite same_gost_loop. exact P.
  - right. exists e, d1, d2. eexists. split; [reflexivity|]. split; [reflexivity|].
    unfold gost_CFBSink_write. cbn [gcs_key gcs_sink gcs_iv gcs_plain]. unfold mbind. rewrite P. reflexivity.
Qed.

Lemma scarce_ecb_blocks data : forall p s w1 w2 out w1' w2', (List.length p < 8)%nat ->
  mem_ecb_loop take (left_writer wr) (right_key a) data p s (w1, w2) = (out, (w1', w2')) ->
  ecb_write_loop wr k data p s w1 = (out, w1') \/
  exists e d1 d2 s', out = Throw e /\ p ++ data = d1 ++ d2 /\ ecb_write_loop wr k d1 [] s w1 = (Ok ([], s'), w1').
Proof.
  induction data as [|b data IH]; intros p s w1 w2 out w1' w2' L E.
  - left. injection E as <- <- <-. reflexivity.
  - cbn [mem_ecb_loop] in E. destruct (take_step _ _ _ _ _ _ E) as [(e & -> & ->)|(w0 & E0)].
    { right. exists e, [], (p ++ b :: data), s. auto. }
    clear E. rename E0 into E. cbv zeta in E. cbn [ecb_write_loop]. cbv zeta.
    destruct (Nat.eqb (List.length (p ++ [b])) 8) eqn:L8.
    + destruct (faulty_step _ _ _ _ _ _ _ _ (faulty_base a k H _) E) as
        [(e & -> & ->)|[(v & w3 & Er & E2)|[(e & Er & -> & ->)|[(u & Er & -> & ->)|(Er & -> & ->)]]]].
      * right. exists e, [], (p ++ b :: data), s. auto.
      * destruct (left_step _ _ _ _ _ _ E2) as [(s1 & w4 & Es & E3)|F].
        -- assert (L0 : (List.length (@nil N) < 8)%nat) by (cbn; lia).
           destruct (IH _ _ _ _ _ _ _ L0 E3) as [P|(e & d1 & d2 & s' & -> & Ed & P)].
           ++ left. unfold mbind, lift. rewrite Er, Es. exact P.
           ++ right. exists e, (p ++ b :: d1), d2, s'. split; [reflexivity|]. split.
              { cbn [app] in Ed. subst data. now rewrite <- app_assoc. }
              rewrite (ecb_gather k wr) by exact L. cbn [ecb_write_loop app]. cbv zeta. rewrite L8.
              unfold mbind, lift. rewrite Er, Es. exact P.
        -- left. unfold mbind at 1, lift. rewrite Er. apply F.
      * left. unfold mbind, lift. now rewrite Er.
      * left. unfold mbind, lift. now rewrite Er.
      * left. unfold mbind, lift. now rewrite Er.
    + assert (L1 : (List.length (p ++ [b]) < 8)%nat)
        by (apply Nat.eqb_neq in L8; rewrite app_length in *; cbn [List.length] in *; lia).
      destruct (IH _ _ _ _ _ _ _ L1 E) as [P|(e & d1 & d2 & s' & -> & Ed & P)]; [left; exact P|].
      right. exists e, d1, d2, s'. rewrite <- app_assoc in Ed. auto.
Qed.

(** The whole blocks of data that was gone through. *)
Lemma ecb_through data : forall p s w q s' w', (List.length p < 8)%nat ->
  ecb_write_loop wr k data p s w = (Ok (q, s'), w') ->
  exists d1, p ++ data = d1 ++ q /\ ecb_write_loop wr k d1 [] s w = (Ok ([], s'), w').
Proof.
  induction data as [|b data IH]; intros p s w q s' w' L E; cbn [ecb_write_loop] in E.
  - injection E as <- <- <-. exists []. split; [now rewrite app_nil_r|reflexivity].
  - cbv zeta in E. destruct (Nat.eqb (List.length (p ++ [b])) 8) eqn:L8.
    + unfold mbind, lift in E. destruct (EncryptionBase_transform k (of_le (p ++ [b]))) as [e| | |] eqn:Ee; try discriminate E.
      destruct (wr s (to_le 8 e) w) as [[s1| | |] w1] eqn:Ew; try discriminate E.
      assert (L0 : (List.length (@nil N) < 8)%nat) by (cbn; lia).
      destruct (IH _ _ _ _ _ _ L0 E) as (d1 & Ed & P). cbn [app] in Ed. exists (p ++ b :: d1). split.
      { subst data. now rewrite <- app_assoc. }
      rewrite (ecb_gather k wr) by exact L. cbn [ecb_write_loop app]. cbv zeta. rewrite L8.
      unfold mbind, lift. rewrite Ee, Ew. exact P.
    + assert (L1 : (List.length (p ++ [b]) < 8)%nat)
        by (apply Nat.eqb_neq in L8; rewrite app_length in *; cbn [List.length] in *; lia).
      destruct (IH _ _ _ _ _ _ L1 E) as (d1 & Ed & P). exists d1. rewrite <- app_assoc in Ed. auto.
Qed.

Theorem scarce_ecb s data w1 w2 out w1' w2' :
  mem_ECBSink_write take (left_writer wr) (right_key a) s data (w1, w2) = (out, (w1', w2')) ->
  (o <-- ECBSink_write wr (ECBSink s k) data ;; mret (es_sink o)) w1 = (out, w1') \/
  exists e d1 d2 o, out = Throw e /\ data = d1 ++ d2 /\ ECBSink_write wr (ECBSink s k) d1 w1 = (Ok o, w1').
Proof.
  intros E. unfold mem_ECBSink_write in E. unfold mbind at 1 in E.
  destruct (mem_ecb_loop take (left_writer wr) (right_key a) data [] s (w1, w2)) as [r [w1a w2a]] eqn:El.
  assert (L0 : (List.length (@nil N) < 8)%nat) by (cbn; lia).
  assert (ok : forall d s' w, ecb_write_loop wr k d [] s w1 = (Ok ([], s'), w) ->
    ECBSink_write wr (ECBSink s k) d w1 = (Ok (ECBSink s' k), w)).
  { intros d s' w P. unfold ECBSink_write. cbn [es_key es_sink]. unfold mbind. rewrite P. reflexivity. }
  destruct (scarce_ecb_blocks _ _ _ _ _ _ _ _ L0 El) as [P|(e & d1 & d2 & s' & -> & Ed & P)].
  - destruct r as [[p s1]|e|u|]; [|left; unfold ECBSink_write; cbn [es_key es_sink]; unfold mbind; rewrite P;
      injection E as <- <- <-; reflexivity..].
    destruct (take_step _ _ _ _ _ _ E) as [(e & -> & ->)|(w3 & E3)].
    + right. destruct (ecb_through _ _ _ _ _ _ _ L0 P) as (d1 & Ed & P1). cbn [app] in Ed.
      exists e, d1, p. eexists. split; [reflexivity|]. split; [exact Ed|]. eapply ok, P1.
    + left. unfold ECBSink_write. cbn [es_key es_sink]. unfold mbind. rewrite P.
      destruct p; injection E3 as <- <- <-; reflexivity.
  - right. injection E as <- <- <-. exists e, d1, d2. eexists. split; [reflexivity|]. split; [exact Ed|]. eapply ok, P.
Qed.

Theorem scarce_magma_finalize s rl rr p w1 w2 out w1' w2' :
  mem_magma_CFBSink_finalize take (left_writer wr) m (right_key a) (s, rl, rr, p) (w1, w2) = (out, (w1', w2')) ->
  magma_CFBSink_finalize wr m (MagmaCFBSink s k rl rr p) w1 = (out, w1') \/ (exists e, out = Throw e /\ w1' = w1).
Proof.
  unfold mem_magma_CFBSink_finalize, magma_CFBSink_finalize. cbn [mcs_key mcs_sink mcs_ivl mcs_ivr mcs_plain].
  destruct p as [|b p]; intros E; [injection E as <- <- <-; now left|].
  destruct (faulty_step _ _ _ _ _ _ _ _ (faulty_after _ _ (faulty_encrypted a k H _)) E) as
    [(e & -> & ->)|[([f1 f2] & w3 & Er & E2)|[(e & Er & -> & ->)|[(u & Er & -> & ->)|(Er & -> & ->)]]]];
    [right; eauto| |left; unfold mbind, lift; rewrite Er; reflexivity..].
  destruct (faulty_step _ _ _ _ _ _ _ _ (faulty_after _ _ (faulty_lift _)) E2) as
    [(e & -> & ->)|[(c & w5 & Ec & E5)|[(e & Ec & -> & ->)|[(u & Ec & -> & ->)|(Ec & -> & ->)]]]];
    [right; eauto| |left; unfold mbind, lift; rewrite Er, Ec; reflexivity..].
  left. unfold mbind, lift. rewrite Er, Ec.
  unfold left_writer, on_left in E5. destruct (wr s c w1) as [[]]; injection E5 as <- <- <-; reflexivity.
Qed.

Theorem scarce_gost_finalize s l p w1 w2 out w1' w2' :
  mem_gost_CFBSink_finalize take (left_writer wr) m (right_key a) (s, l, p) (w1, w2) = (out, (w1', w2')) ->
  gost_CFBSink_finalize wr m (GostCFBSink s k l p) w1 = (out, w1') \/ (exists e, out = Throw e /\ w1' = w1).
Proof.
  unfold mem_gost_CFBSink_finalize, gost_CFBSink_finalize. cbn [gcs_key gcs_sink gcs_iv gcs_plain].
  destruct p as [|b p]; intros E; [injection E as <- <- <-; now left|].
  destruct (faulty_step _ _ _ _ _ _ _ _ (faulty_after _ _ (faulty_encrypted a k H _)) E) as
    [(e & -> & ->)|[([f1 f2] & w3 & Er & E2)|[(e & Er & -> & ->)|[(u & Er & -> & ->)|(Er & -> & ->)]]]];
    [right; eauto| |left; unfold mbind, lift; rewrite Er; reflexivity..].
  destruct (faulty_step _ _ _ _ _ _ _ _ (faulty_after _ _ (faulty_lift _)) E2) as
    [(e & -> & ->)|[(c & w5 & Ec & E5)|[(e & Ec & -> & ->)|[(u & Ec & -> & ->)|(Ec & -> & ->)]]]];
    [right; eauto| |left; unfold mbind, lift; rewrite Er, Ec; reflexivity..].
  left. unfold mbind, lift. rewrite Er, Ec.
  unfold left_writer, on_left in E5. destruct (wr s c w1) as [[]]; injection E5 as <- <- <-; reflexivity.
Qed.
End Sinks.

Section Sources.
Context {St : Type} (rd : reader W1 St) (m : mode).

Theorem scarce_ecb_read s size w1 w2 out w1' w2' :
  mem_ECBSource_read take (left_reader rd) m (right_key a) (inl s) size (w1, w2) = (out, (w1', w2')) ->
  ('(b, o) <-- ECBSource_read rd m (ECBSource s k) size ;; mret (b, as_sum o)) w1 = (out, w1') \/
  exists e n, out = Throw e /\ after rd s w1 w1' n /\ (n <= 1)%nat.
Proof.
  rewrite <- same_ecb_read. unfold mem_ECBSource_read, act_ECBSource_read. destruct (size <? _); intros E.
  { destruct (take_step _ _ _ _ _ _ E) as [(e & -> & ->)|(w3 & E3)].
    - right. exists e, 0%nat. split; [reflexivity|]. split; [apply after_0|lia].
    - injection E3 as <- <- <-. now left. }
  destruct (left_step _ _ _ _ _ _ E) as [([p s1] & w3 & Es & E2)|F]; [|left; apply F].
  cbv beta iota in E2. unfold mbind at 1. rewrite Es. destruct p as [|b p]; [injection E2 as <- <- <-; now left|].
  unfold mbind at 1, lift at 1. unfold mbind at 1, lift at 1 in E2.
  destruct (read8 m (b :: p)) as [buf|e|u|]; [|injection E2 as <- <- <-; now left..].
  assert (D : forall w : W1, act_BlkDecrypted (lift (BlkRaw_bytes buf)) (act_cast (quiet k)) w =
      lift (BlkDecrypted (BlkRaw_bytes buf) (cast_lazy k)) w) by (intros; apply mimics_decrypted).
  assert (one : after rd s w1 w3 1) by (eapply after_S; [exact Es|apply after_0]).
  destruct (faulty_step _ _ _ _ _ _ _ _ (faulty_after _ _ (faulty_decrypted a k H _)) E2) as
    [(e & -> & ->)|[([f1 f2] & w4 & Er & E3)|[(e & Er & -> & ->)|[(u & Er & -> & ->)|(Er & -> & ->)]]]];
    [right; exists e, 1%nat; auto
    |
    |left; unfold mbind at 1; rewrite D; unfold lift; rewrite Er; reflexivity..].
  destruct (faulty_step _ _ _ _ _ _ _ _ (faulty_after _ _ (faulty_lift _)) E3) as
    [(e & -> & ->)|[(c & w5 & Ec & E5)|[(e & Ec & -> & ->)|[(u & Ec & -> & ->)|(Ec & -> & ->)]]]];
    [right; exists e, 1%nat; auto| |left; unfold mbind at 1; rewrite D; unfold mbind, lift; rewrite Er, Ec; reflexivity..].
  left. unfold mbind at 1. rewrite D. unfold mbind, lift. rewrite Er, Ec. injection E5 as <- <- <-. reflexivity.
Qed.

Lemma scarce_magma_steps size n : forall s p rl rr res w1 w2 out w1' w2',
  nmloop n (mem_magma_step take (left_reader rd) m (right_key a) size) (s, p, rl, rr, res) (w1, w2) = (out, (w1', w2')) ->
  (nmloop n (act_magma_step rd m (quiet k) size) (s, p, rl, rr, res) w1 = (out, w1') /\
   ((exists v, out = Ok v) -> exists j, after rd s w1 w1' j)) \/
  exists e j, out = Throw e /\ after rd s w1 w1' j.
Proof.
  assert (Z : forall s w1, exists j, after rd s w1 w1 j) by (intros; exists 0%nat; apply after_0).
  induction n as [|n IH]; intros s p rl rr res w1 w2 out w1' w2' E.
  { injection E as <- <- <-. left. split; [reflexivity|]. intros [v [=]]. }
  cbn [nmloop] in E |- *. unfold mem_magma_step at 1 in E. unfold act_magma_step at 1.
  destruct (len res <? size); [|injection E as <- <- <-; left; split; [reflexivity|auto]].
  rewrite mbind_assoc in E. destruct (take_step _ _ _ _ _ _ E) as [(e & -> & ->)|(w0 & E0)].
  { right. exists e, 0%nat. split; [reflexivity|apply after_0]. }
  clear E. rename E0 into E.
  destruct (drain p res size) as [res1 p1].
  destruct (len res1 =? size); [injection E as <- <- <-; left; split; [reflexivity|auto]|].
  assert (D : forall w : W1, act_BlkEncrypted (lift (BlkRaw64 rl)) (act_cast (quiet k)) w =
      lift (BlkEncrypted (BlkRaw64 rl) (cast_lazy k)) w) by (intros; apply mimics_encrypted).
  rewrite mbind_assoc in E. rewrite mbind_assoc.
  destruct (faulty_step _ _ _ _ _ _ _ _ (faulty_after _ _ (faulty_encrypted a k H _)) E) as
    [(e & -> & ->)|[([f1 f2] & w4 & Er & E3)|[(e & Er & -> & ->)|[(u & Er & -> & ->)|(Er & -> & ->)]]]].
  { right. exists e, 0%nat. split; [reflexivity|apply after_0]. }
  2-4: left; split; [unfold mbind at 1; rewrite D; unfold lift; rewrite Er; reflexivity|intros [v [=]]].
  unfold mbind at 1. rewrite D. unfold lift at 1. rewrite Er. cbv beta iota in E3 |- *.
  rewrite mbind_assoc in E3. rewrite mbind_assoc.
  destruct (left_step _ _ _ _ _ _ E3) as [([p2 s2] & w5 & Es & E4)|F].
  2: { left. split; [apply F|]. intros [v ->]. specialize (F (fun _ => lift (Throw BadWeakPtr))). unfold mbind, lift in F.
       destruct (rd s 8 w1) as [[]]; discriminate F. }
  unfold mbind at 1. rewrite Es. cbv beta iota in E4 |- *.
  assert (one : after rd s w1 w5 1) by (eapply after_S; [exact Es|apply after_0]).
  destruct p2 as [|b2 p2]; [injection E4 as <- <- <-; left; split; [reflexivity|eauto]|].
  unfold mbind, lift in E4 |- *.
  destruct (load_reg m (b2 :: p2)) as [r2|e|u|]; [|injection E4 as <- <- <-; left; split; [reflexivity|eauto]..].
  destruct (source_xor m (b2 :: p2) f1 f2) as [p3|e|u|]; [|injection E4 as <- <- <-; left; split; [reflexivity|eauto]..].
  destruct (IH _ _ _ _ _ _ _ _ _ _ E4) as [[P Q]|(e & j & -> & P)].
  - left. split; [exact P|]. intros V. destruct (Q V) as [j Hj]. exists (Datatypes.S j). eapply after_S; eauto.
  - right. exists e, (Datatypes.S j). split; [reflexivity|]. eapply after_S; eauto.
Qed.

Lemma scarce_gost_steps size n : forall s p r res w1 w2 out w1' w2',
  nmloop n (mem_gost_step take (left_reader rd) m (right_key a) size) (s, p, r, res) (w1, w2) = (out, (w1', w2')) ->
  (nmloop n (act_gost_step rd m (quiet k) size) (s, p, r, res) w1 = (out, w1') /\
   ((exists v, out = Ok v) -> exists j, after rd s w1 w1' j)) \/
  exists e j, out = Throw e /\ after rd s w1 w1' j.
Proof.
  assert (Z : forall s w1, exists j, after rd s w1 w1 j) by (intros; exists 0%nat; apply after_0).
  induction n as [|n IH]; intros s p r res w1 w2 out w1' w2' E.
  { injection E as <- <- <-. left. split; [reflexivity|]. intros [v [=]]. }
  cbn [nmloop] in E |- *. unfold mem_gost_step at 1 in E. unfold act_gost_step at 1.
  destruct (len res <? size); [|injection E as <- <- <-; left; split; [reflexivity|auto]].
  rewrite mbind_assoc in E. destruct (take_step _ _ _ _ _ _ E) as [(e & -> & ->)|(w0 & E0)].
  { right. exists e, 0%nat. split; [reflexivity|apply after_0]. }
  clear E. rename E0 into E.
  destruct (drain p res size) as [res1 p1].
  destruct (len res1 =? size); [injection E as <- <- <-; left; split; [reflexivity|auto]|].
  assert (D : forall w : W1, act_BlkEncrypted (lift (BlkRaw64 r)) (act_cast (quiet k)) w =
      lift (BlkEncrypted (BlkRaw64 r) (cast_lazy k)) w) by (intros; apply mimics_encrypted).
  rewrite mbind_assoc in E. rewrite mbind_assoc.
  destruct (faulty_step _ _ _ _ _ _ _ _ (faulty_after _ _ (faulty_encrypted a k H _)) E) as
    [(e & -> & ->)|[([f1 f2] & w4 & Er & E3)|[(e & Er & -> & ->)|[(u & Er & -> & ->)|(Er & -> & ->)]]]].
  { right. exists e, 0%nat. split; [reflexivity|apply after_0]. }
  2-4: left; split; [unfold mbind at 1; rewrite D; unfold lift; rewrite Er; reflexivity|intros [v [=]]].
  unfold mbind at 1. rewrite D. unfold lift at 1. rewrite Er. cbv beta iota in E3 |- *.
  rewrite mbind_assoc in E3. rewrite mbind_assoc.
  destruct (left_step _ _ _ _ _ _ E3) as [([p2 s2] & w5 & Es & E4)|F].
  2: { left. split; [apply F|]. intros [v ->]. specialize (F (fun _ => lift (Throw BadWeakPtr))). unfold mbind, lift in F.
       destruct (rd s 8 w1) as [[]]; discriminate F. }
  unfold mbind at 1. rewrite Es. cbv beta iota in E4 |- *.
  assert (one : after rd s w1 w5 1) by (eapply after_S; [exact Es|apply after_0]).
  destruct p2 as [|b2 p2]; [injection E4 as <- <- <-; left; split; [reflexivity|eauto]|].
  unfold mbind, lift in E4 |- *.
  destruct (load_reg m (b2 :: p2)) as [r2|e|u|]; [|injection E4 as <- <- <-; left; split; [reflexivity|eauto]..].
  destruct (source_xor m (b2 :: p2) f1 f2) as [p3|e|u|]; [|injection E4 as <- <- <-; left; split; [reflexivity|eauto]..].
  destruct (IH _ _ _ _ _ _ _ _ _ E4) as [[P Q]|(e & j & -> & P)].
  - left. split; [exact P|]. intros V. destruct (Q V) as [j Hj]. exists (Datatypes.S j). eapply after_S; eauto.
  - right. exists e, (Datatypes.S j). split; [reflexivity|]. eapply after_S; eauto.
Qed.

Theorem scarce_magma_read s p rl rr size w1 w2 out w1' w2' :
  mem_magma_CFBSource_read take (left_reader rd) m (right_key a) (s, p, rl, rr) size (w1, w2) = (out, (w1', w2')) ->
  ('(b, o) <-- magma_CFBSource_read rd m (MagmaCFBSource s k rl rr p) size ;;
   mret (b, (mcr_source o, mcr_plain o, mcr_ivl o, mcr_ivr o))) w1 = (out, w1') \/
  exists e n, out = Throw e /\ after rd s w1 w1' n.
Proof.
  rewrite <- same_magma_read. unfold mem_magma_CFBSource_read, act_magma_CFBSource_read. intros E.
  destruct (take_step _ _ _ _ _ _ E) as [(e & -> & ->)|(w0 & E0)].
  { right. exists e, 0%nat. split; [reflexivity|apply after_0]. }
  clear E. unfold mbind at 1 in E0. unfold mbind at 1. rewrite mloop_nm in E0. rewrite mloop_nm.
  destruct (nmloop _ _ _ (w1, w0)) as [r [w1a w2a]] eqn:E.
  destruct (scarce_magma_steps _ _ _ _ _ _ _ _ _ _ _ _ E) as [[P Q]|(e & j & -> & P)].
  - destruct (nmloop _ _ _ w1) as [rx wx] eqn:EX. injection P as -> ->.
    destruct r as [[[[[? ?] ?] ?] ?]|e|u|]; [|left; injection E0 as <- <- <-; reflexivity..].
    destruct (take_step _ _ _ _ _ _ E0) as [(e & -> & ->)|(w3 & E3)].
    + right. destruct (Q ltac:(eauto)) as [j Hj]. eauto.
    + left. injection E3 as <- <- <-. reflexivity.
  - right. injection E0 as <- <- <-. eauto.
Qed.

Theorem scarce_gost_read s p r size w1 w2 out w1' w2' :
  mem_gost_CFBSource_read take (left_reader rd) m (right_key a) (s, p, r) size (w1, w2) = (out, (w1', w2')) ->
  ('(b, o) <-- gost_CFBSource_read rd m (GostCFBSource s k r p) size ;;
   mret (b, (gcr_source o, gcr_plain o, gcr_iv o))) w1 = (out, w1') \/
  exists e n, out = Throw e /\ after rd s w1 w1' n.
Proof.
  rewrite <- same_gost_read. unfold mem_gost_CFBSource_read, act_gost_CFBSource_read. intros E.
  destruct (take_step _ _ _ _ _ _ E) as [(e & -> & ->)|(w0 & E0)].
  { right. exists e, 0%nat. split; [reflexivity|apply after_0]. }
  clear E. unfold mbind at 1 in E0. unfold mbind at 1. rewrite mloop_nm in E0. rewrite mloop_nm.
  destruct (nmloop _ _ _ (w1, w0)) as [r0 [w1a w2a]] eqn:E.
  destruct (scarce_gost_steps _ _ _ _ _ _ _ _ _ _ _ E) as [[P Q]|(e & j & -> & P)].
  - destruct (nmloop _ _ _ w1) as [rx wx] eqn:EX. injection P as -> ->.
    destruct r0 as [[[[? ?] ?] ?]|e|u|]; [|left; injection E0 as <- <- <-; reflexivity..].
    destruct (take_step _ _ _ _ _ _ E0) as [(e & -> & ->)|(w3 & E3)].
    + right. destruct (Q ltac:(eauto)) as [j Hj]. eauto.
    + left. injection E3 as <- <- <-. reflexivity.
  - right. injection E0 as <- <- <-. eauto.
Qed.
End Sources.
End Scarce.
