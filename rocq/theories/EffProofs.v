(** Proofs about keys that act on the world. *)
From Verif Require Import Base MagmaModel Streams EffModel SpecModes SpecStreams SpecEff Lib ByteProofs SinkProofs
  StreamProofs StreamFacts SourceProofs StreamMore KeyMore TowerProofs CrashProofs.
Local Open Scope N_scope.

(** ** Functions as keys *)
Section Same.
Context {W : Type}.

Definition mimics {A} (x : M W A) (r : res A) : Prop := forall w, x w = (r, w).

Lemma mimics_lift {A} (r : res A) : mimics (lift r) r.
Proof. intros w. reflexivity. Qed.

Lemma mimics_ret {A} (a : A) : mimics (mret a) (Ok a).
Proof. intros w. reflexivity. Qed.

Lemma mimics_bind {A B} (x : M W A) r (f : A -> M W B) g :
  mimics x r -> (forall a, mimics (f a) (g a)) -> mimics (mbind x f) (bind r g).
Proof. intros Hx Hf w. unfold mbind. rewrite Hx. destruct r; cbn [bind]; [apply Hf|reflexivity..]. Qed.

Lemma mimics_pair {A B C} (x : M W (A * B)) r (f : A -> B -> M W C) g :
  mimics x r -> (forall a b, mimics (f a b) (g a b)) ->
  mimics ('(a, b) <-- x ;; f a b) ('(a, b) <- r ;; g a b).
Proof. intros Hx Hf. apply mimics_bind; [exact Hx|]. intros [a b]. apply Hf. Qed.

Lemma mimics_key k v i : mimics (act_key_transform (quiet k) v i) (key_transform k v i).
Proof.
  destruct k as [lk|f]; cbn [quiet act_key_transform key_transform].
  - unfold act_lazy_transform, lazy_transform. cbn [al_data al_sbox].
    apply mimics_bind; [apply mimics_lift|]. intros kw.
    apply mimics_bind; [apply mimics_lift|]. intros r. apply mimics_ret.
  - apply mimics_bind; [apply mimics_lift|]. intros r. apply mimics_ret.
Qed.

Lemma mimics_ptr k v i : mimics (act_ptr_transform (act_cast (quiet k)) v i) (ptr_transform (cast_lazy k) v i).
Proof.
  destruct k as [lk|f]; [|apply mimics_lift].
  exact (mimics_key (KLazy lk) v i).
Qed.

Ltac rounds := repeat (cbv zeta; apply mimics_bind; [first [apply mimics_key|apply mimics_ptr]|intros ?]); apply mimics_ret.

Lemma mimics_base k blk : mimics (act_EncryptionBase (quiet k) blk) (EncryptionBase_transform k blk).
Proof. unfold act_EncryptionBase, EncryptionBase_transform. cbv zeta. rounds. Qed.

Lemma mimics_forward k x b : mimics x b ->
  mimics (act_BlkForwarded x (act_cast (quiet k))) (BlkForwarded b (cast_lazy k)).
Proof. intros H. apply mimics_pair; [exact H|]. intros a1 b1. rounds. Qed.

Lemma mimics_backward k x b : mimics x b ->
  mimics (act_BlkBackwarded x (act_cast (quiet k))) (BlkBackwarded b (cast_lazy k)).
Proof. intros H. apply mimics_pair; [exact H|]. intros a1 b1. rounds. Qed.

Lemma mimics_swap x b : mimics x b -> mimics (act_BlkSwapped x) (BlkSwapped b).
Proof. intros H. apply mimics_pair; [exact H|]. intros. apply mimics_ret. Qed.

Lemma mimics_encrypted k b :
  mimics (act_BlkEncrypted (lift b) (act_cast (quiet k))) (BlkEncrypted b (cast_lazy k)).
Proof. unfold act_BlkEncrypted, BlkEncrypted. repeat first [apply mimics_swap|apply mimics_backward|apply mimics_forward|apply mimics_lift]. Qed.

Lemma mimics_decrypted k b :
  mimics (act_BlkDecrypted (lift b) (act_cast (quiet k))) (BlkDecrypted b (cast_lazy k)).
Proof. unfold act_BlkDecrypted, BlkDecrypted. repeat first [apply mimics_swap|apply mimics_backward|apply mimics_forward|apply mimics_lift]. Qed.

Lemma mimics_lifted {A} (x : M W A) r w : mimics x r -> x w = lift r w.
Proof. intros H. apply H. Qed.
End Same.

Section SameStreams.
Context {W : Type}.

Lemma same_ecb_loop {S} (wr : writer W S) k data : forall p s w,
  act_ecb_loop wr (quiet k) data p s w = ecb_write_loop wr k data p s w.
Proof.
  induction data as [|b data IH]; intros p s w; [reflexivity|].
  cbn [act_ecb_loop ecb_write_loop]. cbv zeta. destruct (Nat.eqb _ 8); [|apply IH].
  apply mbind_ext; [apply mimics_base|]. intros e w1. apply mbind_ext; [reflexivity|]. intros; apply IH.
Qed.

Lemma same_ecb {S} (wr : writer W S) k s data w :
  act_ECBSink_write wr (quiet k) s data w =
  (o <-- ECBSink_write wr (ECBSink s k) data ;; mret (es_sink o)) w.
Proof.
  unfold act_ECBSink_write, ECBSink_write. cbn [es_key es_sink]. rewrite mbind_assoc.
  apply mbind_ext; [apply same_ecb_loop|]. intros [p s1] w1. destruct p; reflexivity.
Qed.

Lemma same_magma_loop {S} (wr : writer W S) m k data : forall p s rl rr w,
  act_magma_loop wr m (quiet k) data p s rl rr w = magma_cfb_write_loop wr m k data p s rl rr w.
Proof.
  induction data as [|b data IH]; intros p s rl rr w; [reflexivity|].
  cbn [act_magma_loop magma_cfb_write_loop]. cbv zeta. destruct (Nat.eqb _ _); [|apply IH].
  apply mbind_ext; [apply mimics_encrypted|]. intros [f1 f2] w1. apply mbind_ext; [reflexivity|]. intros c w2.
  apply mbind_ext; [reflexivity|]. intros; apply IH.
Qed.

Lemma same_gost_loop {S} (wr : writer W S) m k data : forall p s l w,
  act_gost_loop wr m (quiet k) data p s l w = gost_cfb_write_loop wr m k data p s l w.
Proof.
  induction data as [|b data IH]; intros p s l w; [reflexivity|].
  cbn [act_gost_loop gost_cfb_write_loop]. cbv zeta. destruct (Nat.eqb _ _); [|apply IH].
  apply mbind_ext; [apply mimics_encrypted|]. intros [f1 f2] w1. apply mbind_ext; [reflexivity|]. intros c w2.
  apply mbind_ext; [reflexivity|]. intros; apply IH.
Qed.

Lemma same_magma {S} (wr : writer W S) m k s rl rr p data w :
  act_magma_CFBSink_write wr m (quiet k) (s, rl, rr, p) data w =
  (o <-- magma_CFBSink_write wr m (MagmaCFBSink s k rl rr p) data ;;
   mret (mcs_sink o, mcs_ivl o, mcs_ivr o, mcs_plain o)) w.
Proof.
  unfold act_magma_CFBSink_write, magma_CFBSink_write. cbn [mcs_key mcs_sink mcs_ivl mcs_ivr mcs_plain].
  rewrite mbind_assoc. rewrite same_magma_loop. symmetry. etransitivity; [|apply mbind_mret_r].
  apply mbind_ext; [reflexivity|]. intros [[[? ?] ?] ?] ?. reflexivity.
Qed.

Lemma same_gost {S} (wr : writer W S) m k s l p data w :
  act_gost_CFBSink_write wr m (quiet k) (s, l, p) data w =
  (o <-- gost_CFBSink_write wr m (GostCFBSink s k l p) data ;; mret (gcs_sink o, gcs_iv o, gcs_plain o)) w.
Proof.
  unfold act_gost_CFBSink_write, gost_CFBSink_write. cbn [gcs_key gcs_sink gcs_iv gcs_plain].
  rewrite mbind_assoc. rewrite same_gost_loop. symmetry. etransitivity; [|apply mbind_mret_r].
  apply mbind_ext; [reflexivity|]. intros [[? ?] ?] ?. reflexivity.
Qed.

Lemma same_magma_finalize {S} (wr : writer W S) m k s rl rr p w :
  act_magma_CFBSink_finalize wr m (quiet k) (s, rl, rr, p) w =
  magma_CFBSink_finalize wr m (MagmaCFBSink s k rl rr p) w.
Proof.
  unfold act_magma_CFBSink_finalize, magma_CFBSink_finalize. cbn [mcs_key mcs_sink mcs_ivl mcs_ivr mcs_plain].
  destruct p as [|b p]; [reflexivity|].
  apply mbind_ext; [apply mimics_encrypted|]. intros [f1 f2] w1. apply mbind_ext; [reflexivity|]. intros c w2.
  symmetry. apply mbind_mret_r.
Qed.

Lemma same_gost_finalize {S} (wr : writer W S) m k s l p w :
  act_gost_CFBSink_finalize wr m (quiet k) (s, l, p) w =
  gost_CFBSink_finalize wr m (GostCFBSink s k l p) w.
Proof.
  unfold act_gost_CFBSink_finalize, gost_CFBSink_finalize. cbn [gcs_key gcs_sink gcs_iv gcs_plain].
  destruct p as [|b p]; [reflexivity|].
  apply mbind_ext; [apply mimics_encrypted|]. intros [f1 f2] w1. apply mbind_ext; [reflexivity|]. intros c w2.
  symmetry. apply mbind_mret_r.
Qed.

Definition as_sum {St} (o : ecb_source St) : St + St := match o with ECBSource s _ => inl s | ECBBare s => inr s end.

Lemma same_ecb_read {St} (rd : reader W St) m k s size w :
  act_ECBSource_read rd m (quiet k) (inl s) size w =
  ('(b, o) <-- ECBSource_read rd m (ECBSource s k) size ;; mret (b, as_sum o)) w.
Proof.
  unfold act_ECBSource_read, ECBSource_read. destruct (size <? _); [reflexivity|].
  rewrite mbind_assoc. apply mbind_ext; [reflexivity|]. intros [p s1] w1.
  destruct p as [|b p]; [reflexivity|].
  rewrite mbind_assoc. apply mbind_ext; [reflexivity|]. intros buf w2.
  rewrite mbind_assoc. apply mbind_ext; [apply mimics_decrypted|]. intros [f1 f2] w3.
  rewrite mbind_assoc. apply mbind_ext; [reflexivity|]. reflexivity.
Qed.

Lemma mloop_ext {S R} p (f g : S -> M W (S + R)) s w :
  (forall s w, f s w = g s w) -> mloop p f s w = mloop p g s w.
Proof.
  intros H. unfold mloop. rewrite !ploop_nloop. revert s w. induction (Pos.to_nat p) as [|n IH]; intros s w; [reflexivity|].
  cbn [nloop]. rewrite H. destruct (g s w) as [[[s1|r]|e|u|] w1]; try reflexivity. apply IH.
Qed.

Lemma same_magma_read {St} (rd : reader W St) m k s p rl rr size w :
  act_magma_CFBSource_read rd m (quiet k) (s, p, rl, rr) size w =
  ('(b, o) <-- magma_CFBSource_read rd m (MagmaCFBSource s k rl rr p) size ;;
   mret (b, (mcr_source o, mcr_plain o, mcr_ivl o, mcr_ivr o))) w.
Proof.
  unfold act_magma_CFBSource_read, magma_CFBSource_read. cbn [mcr_key mcr_source mcr_plain mcr_ivl mcr_ivr].
  rewrite mbind_assoc. apply mbind_ext; [|intros [[[[? ?] ?] ?] ?] ?; reflexivity].
  apply mloop_ext. intros [[[[s0 p0] a] b] res] w0. unfold act_magma_step, magma_cfb_read_step.
  destruct (len res <? size); [|reflexivity]. destruct (drain p0 res size) as [res1 p1].
  destruct (len res1 =? size); [reflexivity|].
  apply mbind_ext; [apply mimics_encrypted|]. intros [f1 f2] w1. reflexivity.
Qed.

Lemma same_gost_read {St} (rd : reader W St) m k s p r size w :
  act_gost_CFBSource_read rd m (quiet k) (s, p, r) size w =
  ('(b, o) <-- gost_CFBSource_read rd m (GostCFBSource s k r p) size ;;
   mret (b, (gcr_source o, gcr_plain o, gcr_iv o))) w.
Proof.
  unfold act_gost_CFBSource_read, gost_CFBSource_read. cbn [gcr_key gcr_source gcr_plain gcr_iv].
  rewrite mbind_assoc. apply mbind_ext; [|intros [[[? ?] ?] ?] ?; reflexivity].
  apply mloop_ext. intros [[[s0 p0] a] res] w0. unfold act_gost_step, gost_cfb_read_step.
  destruct (len res <? size); [|reflexivity]. destruct (drain p0 res size) as [res1 p1].
  destruct (len res1 =? size); [reflexivity|].
  apply mbind_ext; [apply mimics_encrypted|]. intros [f1 f2] w1. reflexivity.
Qed.
End SameStreams.

(** ** Keys that fail now and then *)
Section Faulty.
Context {W1 W2 : Type}.

Definition faulty {A} (x : M (W1 * W2) A) (r : res A) : Prop :=
  forall w1 w2, exists w2', x (w1, w2) = (r, (w1, w2')) \/ exists e, x (w1, w2) = (Throw e, (w1, w2')).

Lemma faulty_lift {A} (r : res A) : faulty (lift r) r.
Proof. intros w1 w2. exists w2. now left. Qed.

Lemma faulty_ret {A} (a : A) : faulty (mret a) (Ok a).
Proof. intros w1 w2. exists w2. now left. Qed.

Lemma faulty_bind {A B} (x : M (W1 * W2) A) r (f : A -> M (W1 * W2) B) g :
  faulty x r -> (forall a, faulty (f a) (g a)) -> faulty (mbind x f) (bind r g).
Proof.
  intros Hx Hf w1 w2. unfold mbind. destruct (Hx w1 w2) as (w3 & [E|(e & E)]); rewrite E.
  - destruct r as [a|e|u|]; cbn [bind]; [apply Hf| | |]; exists w3; now left.
  - exists w3. right. now exists e.
Qed.

Lemma faulty_pair {A B C} (x : M (W1 * W2) (A * B)) r (f : A -> B -> M (W1 * W2) C) g :
  faulty x r -> (forall a b, faulty (f a b) (g a b)) ->
  faulty ('(a, b) <-- x ;; f a b) ('(a, b) <- r ;; g a b).
Proof. intros Hx Hf. apply faulty_bind; [exact Hx|]. intros [a b]. apply Hf. Qed.

Lemma faulty_right {A} (x : M W2 A) r : or_throws x r -> faulty (on_right x) r.
Proof.
  intros H w1 w2. unfold on_right. destruct (H w2) as [E|(e & E)]; destruct (x w2) as [r' w2'];
    cbn [fst] in E; subst r'; exists w2'; [now left|right; now exists e].
Qed.

Context (a : act_key W2) (k : key) (H : unreliable a k).

Lemma faulty_key v i : faulty (act_key_transform (right_key a) v i) (key_transform k v i).
Proof.
  destruct a as [al|f], k as [lk|g]; try contradiction; cbn [right_key act_key_transform key_transform].
  - destruct H as [H1 H2]. unfold act_lazy_transform, lazy_transform. cbn [al_data al_sbox].
    apply faulty_bind; [apply faulty_right, H1|]. intros kw.
    apply faulty_bind; [apply faulty_right, H2|]. intros r. apply faulty_ret.
  - apply faulty_bind; [apply faulty_right, H|]. intros r. apply faulty_ret.
Qed.

Lemma faulty_ptr v i : faulty (act_ptr_transform (act_cast (right_key a)) v i) (ptr_transform (cast_lazy k) v i).
Proof.
  pose proof (faulty_key v i) as F.
  destruct a as [al|f], k as [lk|g]; try contradiction; [exact F|apply faulty_lift].
Qed.

Ltac rounds := repeat (cbv zeta; apply faulty_bind; [first [apply faulty_key|apply faulty_ptr]|intros ?]); apply faulty_ret.

Lemma faulty_base blk : faulty (act_EncryptionBase (right_key a) blk) (EncryptionBase_transform k blk).
Proof. unfold act_EncryptionBase, EncryptionBase_transform. cbv zeta. rounds. Qed.

Lemma faulty_forward x b : faulty x b ->
  faulty (act_BlkForwarded x (act_cast (right_key a))) (BlkForwarded b (cast_lazy k)).
Proof. intros Hx. apply faulty_pair; [exact Hx|]. intros a1 b1. rounds. Qed.

Lemma faulty_backward x b : faulty x b ->
  faulty (act_BlkBackwarded x (act_cast (right_key a))) (BlkBackwarded b (cast_lazy k)).
Proof. intros Hx. apply faulty_pair; [exact Hx|]. intros a1 b1. rounds. Qed.

Lemma faulty_swap x b : faulty x b -> faulty (act_BlkSwapped x) (BlkSwapped b).
Proof. intros Hx. apply faulty_pair; [exact Hx|]. intros. apply faulty_ret. Qed.

Lemma faulty_encrypted b :
  faulty (act_BlkEncrypted (lift b) (act_cast (right_key a))) (BlkEncrypted b (cast_lazy k)).
Proof. unfold act_BlkEncrypted, BlkEncrypted. repeat first [apply faulty_swap|apply faulty_backward|apply faulty_forward|apply faulty_lift]. Qed.

Lemma faulty_decrypted b :
  faulty (act_BlkDecrypted (lift b) (act_cast (right_key a))) (BlkDecrypted b (cast_lazy k)).
Proof. unfold act_BlkDecrypted, BlkDecrypted. repeat first [apply faulty_swap|apply faulty_backward|apply faulty_forward|apply faulty_lift]. Qed.

(** One step of a stream: [x] is what the key does, [f] what follows. *)
Lemma faulty_step {A B} (x : M (W1 * W2) A) r (f : A -> M (W1 * W2) B) w1 w2 out w1' w2' :
  faulty x r -> mbind x f (w1, w2) = (out, (w1', w2')) ->
  (exists e, out = Throw e /\ w1' = w1) \/
  (exists v w3, r = Ok v /\ f v (w1, w3) = (out, (w1', w2'))) \/
  (exists e, r = Throw e /\ out = Throw e /\ w1' = w1) \/
  (exists u, r = Undef u /\ out = Undef u /\ w1' = w1) \/
  (r = OutOfFuel /\ out = OutOfFuel /\ w1' = w1).
Proof.
  intros Hx E. unfold mbind in E. destruct (Hx w1 w2) as (w3 & [E1|(e & E1)]); rewrite E1 in E.
  - destruct r as [v|e|u|].
    + right; left. eauto.
    + injection E as <- <- <-. left. eauto.
    + injection E as <- <- <-. do 3 right. left. eauto.
    + injection E as <- <- <-. do 4 right. eauto.
  - injection E as <- <- <-. left. eauto.
Qed.

Lemma left_step {S B} (x : M W1 S) (f : S -> M (W1 * W2) B) w1 w2 out w :
  mbind (on_left x) f (w1, w2) = (out, w) ->
  (exists v w3, x w1 = (Ok v, w3) /\ f v (w3, w2) = (out, w)) \/
  (forall g : S -> M W1 B, mbind x g w1 = (out, fst w)).
Proof.
  unfold mbind, on_left. destruct (x w1) as [[v|e|u|] w3]; intros E; [left; eauto|right..]; injection E as <- <-; reflexivity.
Qed.

Section FaultySinks.
Context {S : Type} (wr : writer W1 S) (m : mode).

Definition cut_short {A} (data : bytes) (pure : bytes -> M W1 A) (out : res A) (w1 w1' : W1) : Prop :=
  pure data w1 = (out, w1') \/
  exists e d1 d2 v, out = Throw e /\ data = d1 ++ d2 /\ pure d1 w1 = (Ok v, w1').

Lemma faulty_magma_loop data : forall p s rl rr w1 w2 out w1' w2',
  act_magma_loop (left_writer wr) m (right_key a) data p s rl rr (w1, w2) = (out, (w1', w2')) ->
  cut_short data (fun d => magma_cfb_write_loop wr m k d p s rl rr) out w1 w1'.
Proof.
  induction data as [|b data IH]; intros p s rl rr w1 w2 out w1' w2' E.
  - left. injection E as <- <- <-. reflexivity.
  - cbn [act_magma_loop] in E. cbv zeta in E. unfold cut_short. cbn [magma_cfb_write_loop]. cbv zeta.
    destruct (Nat.eqb (List.length (p ++ [b])) block_size) eqn:L8.
    + destruct (faulty_step _ _ _ _ _ _ _ _ (faulty_encrypted _) E) as
        [(e & -> & ->)|[([f1 f2] & w3 & Er & E2)|[(e & Er & -> & ->)|[(u & Er & -> & ->)|(Er & -> & ->)]]]].
      * right. exists e, [], (b :: data). eexists. split; [reflexivity|]. split; reflexivity.
      * destruct (sink_xor m (p ++ [b]) f1 f2) as [c|e|u|] eqn:Ec;
          [|injection E2 as <- <- <-; left; unfold mbind, lift; rewrite Er, Ec; reflexivity..].
        change (mbind (lift (Ok c)) ?f (w1, w3)) with (f c (w1, w3)) in E2. cbv beta in E2.
        destruct (left_step _ _ _ _ _ _ E2) as [(s1 & w4 & Es & E3)|F].
        -- destruct (IH _ _ _ _ _ _ _ _ _ E3) as [P|(e & d1 & d2 & v1 & -> & -> & P)].
           ++ left. unfold mbind, lift. rewrite Er, Ec, Es. exact P.
           ++ right. exists e, (b :: d1), d2, v1. split; [reflexivity|]. split; [reflexivity|].
              cbn [magma_cfb_write_loop]. cbv zeta. rewrite L8. unfold mbind, lift. rewrite Er, Ec, Es. exact P.
        -- left. unfold mbind at 1 2, lift. rewrite Er, Ec. apply F.
      * left. unfold mbind, lift. now rewrite Er.
      * left. unfold mbind, lift. now rewrite Er.
      * left. unfold mbind, lift. now rewrite Er.
    + destruct (IH _ _ _ _ _ _ _ _ _ E) as [P|(e & d1 & d2 & v1 & -> & -> & P)]; [left; exact P|].
      right. exists e, (b :: d1), d2, v1. split; [reflexivity|]. split; [reflexivity|].
      cbn [magma_cfb_write_loop]. cbv zeta. rewrite L8. exact P.
Qed.

Lemma faulty_gost_loop data : forall p s l w1 w2 out w1' w2',
  act_gost_loop (left_writer wr) m (right_key a) data p s l (w1, w2) = (out, (w1', w2')) ->
  cut_short data (fun d => gost_cfb_write_loop wr m k d p s l) out w1 w1'.
Proof.
  induction data as [|b data IH]; intros p s l w1 w2 out w1' w2' E.
  - left. injection E as <- <- <-. reflexivity.
  - cbn [act_gost_loop] in E. cbv zeta in E. unfold cut_short. cbn [gost_cfb_write_loop]. cbv zeta.
    destruct (Nat.eqb (List.length (p ++ [b])) block_size) eqn:L8.
    + destruct (faulty_step _ _ _ _ _ _ _ _ (faulty_encrypted _) E) as
        [(e & -> & ->)|[([f1 f2] & w3 & Er & E2)|[(e & Er & -> & ->)|[(u & Er & -> & ->)|(Er & -> & ->)]]]].
      * right. exists e, [], (b :: data). eexists. split; [reflexivity|]. split; reflexivity.
      * destruct (sink_xor m (p ++ [b]) f1 f2) as [c|e|u|] eqn:Ec;
          [|injection E2 as <- <- <-; left; unfold mbind, lift; rewrite Er, Ec; reflexivity..].
        change (mbind (lift (Ok c)) ?f (w1, w3)) with (f c (w1, w3)) in E2. cbv beta in E2.
        destruct (left_step _ _ _ _ _ _ E2) as [(s1 & w4 & Es & E3)|F].
        -- destruct (IH _ _ _ _ _ _ _ _ E3) as [P|(e & d1 & d2 & v1 & -> & -> & P)].
           ++ left. unfold mbind, lift. rewrite Er, Ec, Es. exact P.
           ++ right. exists e, (b :: d1), d2, v1. split; [reflexivity|]. split; [reflexivity|].
              cbn [gost_cfb_write_loop]. cbv zeta. rewrite L8. unfold mbind, lift. rewrite Er, Ec, Es. exact P.
        -- left. unfold mbind at 1 2, lift. rewrite Er, Ec. apply F.
      * left. unfold mbind, lift. now rewrite Er.
      * left. unfold mbind, lift. now rewrite Er.
      * left. unfold mbind, lift. now rewrite Er.
    + destruct (IH _ _ _ _ _ _ _ _ E) as [P|(e & d1 & d2 & v1 & -> & -> & P)]; [left; exact P|].
      right. exists e, (b :: d1), d2, v1. split; [reflexivity|]. split; [reflexivity|].
      cbn [gost_cfb_write_loop]. cbv zeta. rewrite L8. exact P.
Qed.

Theorem faulty_magma s rl rr p data w1 w2 out w1' w2' :
  act_magma_CFBSink_write (left_writer wr) m (right_key a) (s, rl, rr, p) data (w1, w2) = (out, (w1', w2')) ->
  (o <-- magma_CFBSink_write wr m (MagmaCFBSink s k rl rr p) data ;;
   mret (mcs_sink o, mcs_ivl o, mcs_ivr o, mcs_plain o)) w1 = (out, w1') \/
  exists e d1 d2 o, out = Throw e /\ data = d1 ++ d2 /\
    magma_CFBSink_write wr m (MagmaCFBSink s k rl rr p) d1 w1 = (Ok o, w1').
Proof.
  intros E. destruct (faulty_magma_loop _ _ _ _ _ _ _ _ _ _ E) as [P|(e & d1 & d2 & [[[? ?] ?] ?] & -> & -> & P)].
  - left. rewrite <- same_magma. unfold act_magma_CFBSink_write. rewrite same_magma_loop. exact P.
  - right. exists e, d1, d2. eexists. split; [reflexivity|]. split; [reflexivity|].
    unfold magma_CFBSink_write. cbn [mcs_key mcs_sink mcs_ivl mcs_ivr mcs_plain]. unfold mbind. rewrite P. reflexivity.
Qed.

Theorem faulty_gost s l p data w1 w2 out w1' w2' :
  act_gost_CFBSink_write (left_writer wr) m (right_key a) (s, l, p) data (w1, w2) = (out, (w1', w2')) ->
  (o <-- gost_CFBSink_write wr m (GostCFBSink s k l p) data ;; mret (gcs_sink o, gcs_iv o, gcs_plain o)) w1
    = (out, w1') \/
  exists e d1 d2 o, out = Throw e /\ data = d1 ++ d2 /\
    gost_CFBSink_write wr m (GostCFBSink s k l p) d1 w1 = (Ok o, w1').
Proof.
  intros E. destruct (faulty_gost_loop _ _ _ _ _ _ _ _ _ E) as [P|(e & d1 & d2 & [[? ?] ?] & -> & -> & P)].
  - left. rewrite <- same_gost. unfold act_gost_CFBSink_write. rewrite same_gost_loop. exact P.
  - right. exists e, d1, d2. eexists. split; [reflexivity|]. split; [reflexivity|].
    unfold gost_CFBSink_write. cbn [gcs_key gcs_sink gcs_iv gcs_plain]. unfold mbind. rewrite P. reflexivity.
Qed.

(** Bytes that do not complete a block are only gathered. *)
Lemma ecb_gather q : forall p s d, (List.length (p ++ q) < 8)%nat ->
  ecb_write_loop wr k (q ++ d) p s = ecb_write_loop wr k d (p ++ q) s.
Proof.
  induction q as [|b q IH]; intros p s d L; [now rewrite app_nil_r|].
  cbn [ecb_write_loop app]. cbv zeta.
  rewrite app_length in L. cbn [List.length] in L.
  replace (Nat.eqb (List.length (p ++ [b])) 8) with false
    by (symmetry; apply Nat.eqb_neq; rewrite app_length; cbn [List.length]; lia).
  rewrite IH; rewrite <- app_assoc; [reflexivity|]. cbn [app]. rewrite app_length. cbn [List.length]. lia.
Qed.

Lemma faulty_ecb_blocks data : forall p s w1 w2 out w1' w2', (List.length p < 8)%nat ->
  act_ecb_loop (left_writer wr) (right_key a) data p s (w1, w2) = (out, (w1', w2')) ->
  ecb_write_loop wr k data p s w1 = (out, w1') \/
  exists e d1 d2 s', out = Throw e /\ p ++ data = d1 ++ d2 /\ ecb_write_loop wr k d1 [] s w1 = (Ok ([], s'), w1').
Proof.
  induction data as [|b data IH]; intros p s w1 w2 out w1' w2' L E.
  - left. injection E as <- <- <-. reflexivity.
  - cbn [act_ecb_loop] in E. cbv zeta in E. cbn [ecb_write_loop]. cbv zeta.
    destruct (Nat.eqb (List.length (p ++ [b])) 8) eqn:L8.
    + destruct (faulty_step _ _ _ _ _ _ _ _ (faulty_base _) E) as
        [(e & -> & ->)|[(v & w3 & Er & E2)|[(e & Er & -> & ->)|[(u & Er & -> & ->)|(Er & -> & ->)]]]].
      * right. exists e, [], (p ++ b :: data), s. auto.
      * destruct (left_step _ _ _ _ _ _ E2) as [(s1 & w4 & Es & E3)|F].
        -- assert (L0 : (List.length (@nil N) < 8)%nat) by (cbn; lia).
           destruct (IH _ _ _ _ _ _ _ L0 E3) as [P|(e & d1 & d2 & s' & -> & Ed & P)].
           ++ left. unfold mbind, lift. rewrite Er, Es. exact P.
           ++ right. exists e, (p ++ b :: d1), d2, s'. split; [reflexivity|]. split.
              { cbn [app] in Ed. subst data. now rewrite <- app_assoc. }
              rewrite ecb_gather by exact L. cbn [ecb_write_loop app]. cbv zeta. rewrite L8.
              unfold mbind, lift. rewrite Er, Es. exact P.
        -- left. unfold mbind at 1, lift. rewrite Er. apply F.
      * left. unfold mbind, lift. now rewrite Er.
      * left. unfold mbind, lift. now rewrite Er.
      * left. unfold mbind, lift. now rewrite Er.
    + assert (L1 : (List.length (p ++ [b]) < 8)%nat)
        by (apply Nat.eqb_neq in L8; rewrite app_length in *; cbn [List.length] in *; lia).
      destruct (IH _ _ _ _ _ _ _ L1 E) as [P|(e & d1 & d2 & s' & -> & Ed & P)]; [left; exact P|].
      right. exists e, d1, d2, s'. rewrite <- app_assoc in Ed. auto.
Qed.

Theorem faulty_ecb s data w1 w2 out w1' w2' :
  act_ECBSink_write (left_writer wr) (right_key a) s data (w1, w2) = (out, (w1', w2')) ->
  (o <-- ECBSink_write wr (ECBSink s k) data ;; mret (es_sink o)) w1 = (out, w1') \/
  exists e d1 d2 o, out = Throw e /\ data = d1 ++ d2 /\ ECBSink_write wr (ECBSink s k) d1 w1 = (Ok o, w1').
Proof.
  intros E. rewrite <- same_ecb. unfold act_ECBSink_write in E |- *.
  destruct (act_ecb_loop (left_writer wr) (right_key a) data [] s (w1, w2)) as [r [w1a w2a]] eqn:El.
  assert (L0 : (List.length (@nil N) < 8)%nat) by (cbn; lia).
  destruct (faulty_ecb_blocks _ _ _ _ _ _ _ _ L0 El) as [P|(e & d1 & d2 & s' & -> & Ed & P)].
  - left. unfold mbind in E |- *. rewrite El in E. rewrite same_ecb_loop, P.
    destruct r as [[[|? ?] ?]|e|u|]; injection E as <- <- <-; reflexivity.
  - right. unfold mbind in E. rewrite El in E. injection E as <- <- <-.
    exists e, d1, d2. eexists. split; [reflexivity|]. split; [exact Ed|].
    unfold ECBSink_write. cbn [es_key es_sink]. unfold mbind. rewrite P. reflexivity.
Qed.

Theorem faulty_magma_finalize s rl rr p w1 w2 out w1' w2' :
  act_magma_CFBSink_finalize (left_writer wr) m (right_key a) (s, rl, rr, p) (w1, w2) = (out, (w1', w2')) ->
  magma_CFBSink_finalize wr m (MagmaCFBSink s k rl rr p) w1 = (out, w1') \/ (exists e, out = Throw e /\ w1' = w1).
Proof.
  unfold act_magma_CFBSink_finalize, magma_CFBSink_finalize. cbn [mcs_key mcs_sink mcs_ivl mcs_ivr mcs_plain].
  destruct p as [|b p]; intros E; [injection E as <- <- <-; now left|].
  destruct (faulty_step _ _ _ _ _ _ _ _ (faulty_encrypted _) E) as
    [(e & -> & ->)|[([f1 f2] & w3 & Er & E2)|[(e & Er & -> & ->)|[(u & Er & -> & ->)|(Er & -> & ->)]]]];
    [right; eauto|left; unfold mbind, lift; rewrite Er ..]; [|reflexivity..].
  unfold mbind, lift in E2. destruct (sink_xor m (b :: p) f2 f1); [|injection E2 as <- <- <-; reflexivity..].
  unfold left_writer, on_left in E2. destruct (wr s a0 w1) as [[]]; injection E2 as <- <- <-; reflexivity.
Qed.

Theorem faulty_gost_finalize s l p w1 w2 out w1' w2' :
  act_gost_CFBSink_finalize (left_writer wr) m (right_key a) (s, l, p) (w1, w2) = (out, (w1', w2')) ->
  gost_CFBSink_finalize wr m (GostCFBSink s k l p) w1 = (out, w1') \/ (exists e, out = Throw e /\ w1' = w1).
Proof.
  unfold act_gost_CFBSink_finalize, gost_CFBSink_finalize. cbn [gcs_key gcs_sink gcs_iv gcs_plain].
  destruct p as [|b p]; intros E; [injection E as <- <- <-; now left|].
  destruct (faulty_step _ _ _ _ _ _ _ _ (faulty_encrypted _) E) as
    [(e & -> & ->)|[([f1 f2] & w3 & Er & E2)|[(e & Er & -> & ->)|[(u & Er & -> & ->)|(Er & -> & ->)]]]];
    [right; eauto|left; unfold mbind, lift; rewrite Er ..]; [|reflexivity..].
  unfold mbind, lift in E2. destruct (sink_xor m (b :: p) f2 f1); [|injection E2 as <- <- <-; reflexivity..].
  unfold left_writer, on_left in E2. destruct (wr s a0 w1) as [[]]; injection E2 as <- <- <-; reflexivity.
Qed.
End FaultySinks.

Section FaultySources.
Context {St : Type} (rd : reader W1 St) (m : mode).

(** [n] reads of a block succeeded, and no more were made. *)
Definition after (s : St) (w1 w1' : W1) (n : nat) : Prop :=
  exists bs s', reads rd s (repeat 8 n) w1 = (Ok (bs, s'), w1').

Lemma after_0 s w1 : after s w1 w1 0.
Proof. exists [], s. reflexivity. Qed.

Lemma after_S s w1 b s1 w2 w3 n : rd s 8 w1 = (Ok (b, s1), w2) -> after s1 w2 w3 n -> after s w1 w3 (Datatypes.S n).
Proof.
  intros E (bs & s' & R). exists (b :: bs), s'. cbn [repeat reads]. unfold mbind. rewrite E, R. reflexivity.
Qed.

Theorem faulty_ecb_read s size w1 w2 out w1' w2' :
  act_ECBSource_read (left_reader rd) m (right_key a) (inl s) size (w1, w2) = (out, (w1', w2')) ->
  ('(b, o) <-- ECBSource_read rd m (ECBSource s k) size ;; mret (b, as_sum o)) w1 = (out, w1') \/
  exists e, out = Throw e /\ after s w1 w1' 1.
Proof.
  rewrite <- same_ecb_read. unfold act_ECBSource_read. destruct (size <? _); intros E.
  { injection E as <- <- <-. now left. }
  destruct (left_step _ _ _ _ _ _ E) as [([p s1] & w3 & Es & E2)|F]; [|left; apply F].
  cbv beta iota in E2. unfold mbind at 1. rewrite Es. destruct p as [|b p]; [injection E2 as <- <- <-; now left|].
  unfold mbind at 1, lift at 1. unfold mbind at 1, lift at 1 in E2.
  destruct (read8 m (b :: p)) as [buf|e|u|]; [|injection E2 as <- <- <-; now left..].
  assert (D : forall w : W1, act_BlkDecrypted (lift (BlkRaw_bytes buf)) (act_cast (quiet k)) w =
      lift (BlkDecrypted (BlkRaw_bytes buf) (cast_lazy k)) w) by (intros; apply mimics_decrypted).
  destruct (faulty_step _ _ _ _ _ _ _ _ (faulty_decrypted _) E2) as
    [(e & -> & ->)|[([f1 f2] & w4 & Er & E3)|[(e & Er & -> & ->)|[(u & Er & -> & ->)|(Er & -> & ->)]]]];
    [right; exists e; split; [reflexivity|eapply after_S; [exact Es|apply after_0]]
    |left; unfold mbind at 1; rewrite D; unfold lift; rewrite Er ..]; [|reflexivity..].
  unfold mbind, lift in E3 |- *.
  destruct (write8 m (b :: p) (to_le 4 f1 ++ to_le 4 f2)); injection E3 as <- <- <-; reflexivity.
Qed.

Lemma faulty_magma_steps size n : forall s p rl rr res w1 w2 out w1' w2',
  nmloop n (act_magma_step (left_reader rd) m (right_key a) size) (s, p, rl, rr, res) (w1, w2) = (out, (w1', w2')) ->
  nmloop n (act_magma_step rd m (quiet k) size) (s, p, rl, rr, res) w1 = (out, w1') \/
  exists e j, out = Throw e /\ after s w1 w1' j.
Proof.
  induction n as [|n IH]; intros s p rl rr res w1 w2 out w1' w2' E; [injection E as <- <- <-; now left|].
  cbn [nmloop] in E |- *. unfold act_magma_step at 1 in E. unfold act_magma_step at 1.
  destruct (len res <? size); [|injection E as <- <- <-; now left].
  destruct (drain p res size) as [res1 p1]. destruct (len res1 =? size); [injection E as <- <- <-; now left|].
  assert (D : forall w : W1, act_BlkEncrypted (lift (BlkRaw64 rl)) (act_cast (quiet k)) w =
      lift (BlkEncrypted (BlkRaw64 rl) (cast_lazy k)) w) by (intros; apply mimics_encrypted).
  rewrite mbind_assoc in E. rewrite mbind_assoc.
  destruct (faulty_step _ _ _ _ _ _ _ _ (faulty_encrypted _) E) as
    [(e & -> & ->)|[([f1 f2] & w4 & Er & E3)|[(e & Er & -> & ->)|[(u & Er & -> & ->)|(Er & -> & ->)]]]].
  { right. exists e, 0%nat. split; [reflexivity|apply after_0]. }
  2-4: left; unfold mbind at 1; rewrite D; unfold lift; rewrite Er; reflexivity.
  unfold mbind at 1. rewrite D. unfold lift at 1. rewrite Er. cbv beta iota in E3 |- *.
  rewrite mbind_assoc in E3. rewrite mbind_assoc.
  destruct (left_step _ _ _ _ _ _ E3) as [([p2 s2] & w5 & Es & E4)|F]; [|left; apply F].
  unfold mbind at 1. rewrite Es. cbv beta iota in E4 |- *.
  destruct p2 as [|b2 p2]; [injection E4 as <- <- <-; now left|].
  unfold mbind, lift in E4 |- *.
  destruct (load_reg m (b2 :: p2)) as [r2|e|u|]; [|injection E4 as <- <- <-; now left..].
  destruct (source_xor m (b2 :: p2) f1 f2) as [p3|e|u|]; [|injection E4 as <- <- <-; now left..].
  destruct (IH _ _ _ _ _ _ _ _ _ _ E4) as [P|(e & j & -> & P)]; [left; exact P|].
  right. exists e, (Datatypes.S j). split; [reflexivity|]. eapply after_S; eauto.
Qed.

Lemma faulty_gost_steps size n : forall s p r res w1 w2 out w1' w2',
  nmloop n (act_gost_step (left_reader rd) m (right_key a) size) (s, p, r, res) (w1, w2) = (out, (w1', w2')) ->
  nmloop n (act_gost_step rd m (quiet k) size) (s, p, r, res) w1 = (out, w1') \/
  exists e j, out = Throw e /\ after s w1 w1' j.
Proof.
  induction n as [|n IH]; intros s p r res w1 w2 out w1' w2' E; [injection E as <- <- <-; now left|].
  cbn [nmloop] in E |- *. unfold act_gost_step at 1 in E. unfold act_gost_step at 1.
  destruct (len res <? size); [|injection E as <- <- <-; now left].
  destruct (drain p res size) as [res1 p1]. destruct (len res1 =? size); [injection E as <- <- <-; now left|].
  assert (D : forall w : W1, act_BlkEncrypted (lift (BlkRaw64 r)) (act_cast (quiet k)) w =
      lift (BlkEncrypted (BlkRaw64 r) (cast_lazy k)) w) by (intros; apply mimics_encrypted).
  rewrite mbind_assoc in E. rewrite mbind_assoc.
  destruct (faulty_step _ _ _ _ _ _ _ _ (faulty_encrypted _) E) as
    [(e & -> & ->)|[([f1 f2] & w4 & Er & E3)|[(e & Er & -> & ->)|[(u & Er & -> & ->)|(Er & -> & ->)]]]].
  { right. exists e, 0%nat. split; [reflexivity|apply after_0]. }
  2-4: left; unfold mbind at 1; rewrite D; unfold lift; rewrite Er; reflexivity.
  unfold mbind at 1. rewrite D. unfold lift at 1. rewrite Er. cbv beta iota in E3 |- *.
  rewrite mbind_assoc in E3. rewrite mbind_assoc.
  destruct (left_step _ _ _ _ _ _ E3) as [([p2 s2] & w5 & Es & E4)|F]; [|left; apply F].
  unfold mbind at 1. rewrite Es. cbv beta iota in E4 |- *.
  destruct p2 as [|b2 p2]; [injection E4 as <- <- <-; now left|].
  unfold mbind, lift in E4 |- *.
  destruct (load_reg m (b2 :: p2)) as [r2|e|u|]; [|injection E4 as <- <- <-; now left..].
  destruct (source_xor m (b2 :: p2) f1 f2) as [p3|e|u|]; [|injection E4 as <- <- <-; now left..].
  destruct (IH _ _ _ _ _ _ _ _ _ E4) as [P|(e & j & -> & P)]; [left; exact P|].
  right. exists e, (Datatypes.S j). split; [reflexivity|]. eapply after_S; eauto.
Qed.

Theorem faulty_magma_read s p rl rr size w1 w2 out w1' w2' :
  act_magma_CFBSource_read (left_reader rd) m (right_key a) (s, p, rl, rr) size (w1, w2) = (out, (w1', w2')) ->
  ('(b, o) <-- magma_CFBSource_read rd m (MagmaCFBSource s k rl rr p) size ;;
   mret (b, (mcr_source o, mcr_plain o, mcr_ivl o, mcr_ivr o))) w1 = (out, w1') \/
  exists e n, out = Throw e /\ after s w1 w1' n.
Proof.
  rewrite <- same_magma_read. unfold act_magma_CFBSource_read. unfold mbind. rewrite !mloop_nm.
  destruct (nmloop _ _ _ (w1, w2)) as [r [w1a w2a]] eqn:E. intros E2.
  destruct (faulty_magma_steps _ _ _ _ _ _ _ _ _ _ _ _ E) as [P|(e & j & -> & P)].
  - left. destruct (nmloop _ _ _ w1) as [rx wx] eqn:EX.
    injection P as -> ->.
    destruct r as [[[[[? ?] ?] ?] ?]|e|u|]; injection E2 as <- <- <-; reflexivity.
  - right. injection E2 as <- <- <-. eauto.
Qed.

Theorem faulty_gost_read s p r size w1 w2 out w1' w2' :
  act_gost_CFBSource_read (left_reader rd) m (right_key a) (s, p, r) size (w1, w2) = (out, (w1', w2')) ->
  ('(b, o) <-- gost_CFBSource_read rd m (GostCFBSource s k r p) size ;;
   mret (b, (gcr_source o, gcr_plain o, gcr_iv o))) w1 = (out, w1') \/
  exists e n, out = Throw e /\ after s w1 w1' n.
Proof.
  rewrite <- same_gost_read. unfold act_gost_CFBSource_read. unfold mbind. rewrite !mloop_nm.
  destruct (nmloop _ _ _ (w1, w2)) as [r0 [w1a w2a]] eqn:E. intros E2.
  destruct (faulty_gost_steps _ _ _ _ _ _ _ _ _ _ _ E) as [P|(e & j & -> & P)].
  - left. destruct (nmloop _ _ _ w1) as [rx wx] eqn:EX.
    injection P as -> ->.
    destruct r0 as [[[[? ?] ?] ?]|e|u|]; injection E2 as <- <- <-; reflexivity.
  - right. injection E2 as <- <- <-. eauto.
Qed.
End FaultySources.
End Faulty.

(** ** Records of the calls *)
Section Traced.
Context {W : Type}.

Definition traced {A} (x : M (W * list call) A) (full : list call) : Prop :=
  forall w l, exists r w' l', x (w, l) = (r, (w', l ++ l')) /\ recorded l' full r.

Lemma traced_lift {A} (r : res A) : traced (lift r) [].
Proof. intros w l. exists r, w, []. rewrite app_nil_r. split; [reflexivity|]. now exists []. Qed.

Lemma traced_ret {A} (v : A) : traced (mret v) [].
Proof. exact (traced_lift (Ok v)). Qed.

Lemma traced_noted {A} c (x : M W A) : traced (noted c x) [c].
Proof.
  intros w l. unfold noted. destruct (x w) as [r w']. exists r, w', [c]. split; [reflexivity|]. now exists [].
Qed.

(** What need not happen at all. *)
Lemma traced_fails {A} (r : res A) full : (forall v, r <> Ok v) -> traced (lift r) full.
Proof.
  intros H w l. exists r, w, []. rewrite app_nil_r. split; [reflexivity|]. exists full. split; [reflexivity|].
  intros v E. destruct (H v E).
Qed.

Lemma traced_bind {A B} (x : M (W * list call) A) f1 (f : A -> M (W * list call) B) f2 :
  traced x f1 -> (forall v, traced (f v) f2) -> traced (mbind x f) (f1 ++ f2).
Proof.
  intros Hx Hf w l. destruct (Hx w l) as (r & w1 & l1 & E & rest & -> & Q). unfold mbind. rewrite E.
  destruct r as [v|e|u|].
  - rewrite (Q v eq_refl), app_nil_r. destruct (Hf v w1 (l ++ l1)) as (r2 & w2 & l2 & E2 & rest2 & -> & Q2).
    exists r2, w2, (l1 ++ l2). rewrite E2, !app_assoc. split; [reflexivity|]. exists rest2. auto.
  - exists (Throw e), w1, l1. split; [reflexivity|]. exists (rest ++ f2). rewrite app_assoc. split; [reflexivity|discriminate].
  - exists (Undef u), w1, l1. split; [reflexivity|]. exists (rest ++ f2). rewrite app_assoc. split; [reflexivity|discriminate].
  - exists OutOfFuel, w1, l1. split; [reflexivity|]. exists (rest ++ f2). rewrite app_assoc. split; [reflexivity|discriminate].
Qed.

Lemma traced_lift_bind {A B} (r : res A) (f : A -> M (W * list call) B) f2 :
  (forall v, r = Ok v -> traced (f v) f2) -> traced (mbind (lift r) f) f2.
Proof.
  intros H. destruct r as [v|e|u|].
  - intros w l. apply (H v eq_refl).
  - apply (traced_fails (Throw e)). discriminate.
  - apply (traced_fails (Undef u)). discriminate.
  - apply (traced_fails OutOfFuel). discriminate.
Qed.

Lemma traced_pair {A B C} (x : M (W * list call) (A * B)) f1 (f : A -> B -> M (W * list call) C) f2 :
  traced x f1 -> (forall a b, traced (f a b) f2) -> traced ('(a, b) <-- x ;; f a b) (f1 ++ f2).
Proof. intros Hx Hf. apply traced_bind; [exact Hx|]. intros [a b]. apply Hf. Qed.

Context (a : act_key W).

Lemma traced_key v i : traced (act_key_transform (noted_key a) v i) (round_calls a i).
Proof.
  destruct a as [al|f]; cbn [noted_key act_key_transform round_calls].
  - unfold act_lazy_transform. cbn [al_data al_sbox].
    apply (traced_bind _ [_] _ [_]); [apply traced_noted|]. intros kw.
    apply (traced_bind _ [_] _ []); [apply traced_noted|]. intros r. apply traced_ret.
  - apply (traced_bind _ [_] _ []); [apply traced_noted|]. intros r. apply traced_ret.
Qed.

Lemma traced_ptr v i : traced (act_ptr_transform (act_cast (noted_key a)) v i) (round_calls a i).
Proof.
  pose proof (traced_key v i) as F. destruct a as [al|f]; [exact F|]. apply (traced_fails (Undef NullDeref)). discriminate.
Qed.

Lemma block_calls_app o1 o2 : block_calls a (o1 ++ o2) = block_calls a o1 ++ block_calls a o2.
Proof. apply flat_map_app. Qed.

Ltac round1 := match goal with |- traced _ (block_calls _ (?i :: ?o)) =>
    change (block_calls a (i :: o)) with (round_calls a i ++ block_calls a o);
    apply traced_bind; [first [apply traced_key|apply traced_ptr]|intros ?; cbv zeta] end.
Ltac rounds := repeat round1; apply traced_ret.

Lemma traced_base blk : traced (act_EncryptionBase (noted_key a) blk) (block_calls a encrypt_order).
Proof. unfold act_EncryptionBase. cbv zeta. unfold encrypt_order, up, down. cbn [app]. rounds. Qed.

Lemma traced_forward x f : traced x f ->
  traced (act_BlkForwarded x (act_cast (noted_key a))) (f ++ block_calls a up).
Proof. intros Hx. apply traced_pair; [exact Hx|]. intros a1 b1. unfold up. rounds. Qed.

Lemma traced_backward x f : traced x f ->
  traced (act_BlkBackwarded x (act_cast (noted_key a))) (f ++ block_calls a down).
Proof. intros Hx. apply traced_pair; [exact Hx|]. intros a1 b1. unfold down. rounds. Qed.

Lemma traced_swap x f : traced x f -> traced (act_BlkSwapped x) f.
Proof. intros Hx. rewrite <- (app_nil_r f). apply traced_pair; [exact Hx|]. intros. apply traced_ret. Qed.

Lemma traced_encrypted b :
  traced (act_BlkEncrypted (lift b) (act_cast (noted_key a))) (block_calls a encrypt_order).
Proof.
  unfold encrypt_order. rewrite !block_calls_app, !app_assoc.
  apply traced_swap, traced_backward, traced_forward, traced_forward, (traced_forward _ []), traced_lift.
Qed.

Lemma traced_decrypted b :
  traced (act_BlkDecrypted (lift b) (act_cast (noted_key a))) (block_calls a decrypt_order).
Proof.
  unfold decrypt_order. rewrite !block_calls_app, !app_assoc.
  apply traced_swap, traced_backward, traced_backward, traced_backward, (traced_forward _ []), traced_lift.
Qed.

Definition per_block (n : nat) : list call := List.concat (repeat (block_calls a encrypt_order ++ [CallWrite 8]) n).

Lemma per_block_S n : per_block (Datatypes.S n) = block_calls a encrypt_order ++ [CallWrite 8] ++ per_block n.
Proof. unfold per_block. cbn [repeat List.concat]. now rewrite <- app_assoc. Qed.

Lemma next_count (p : bytes) b (data : bytes) : List.length (p ++ [b]) <> 8%nat ->
  (List.length p + List.length (b :: data))%nat = (List.length (p ++ [b]) + List.length data)%nat.
Proof. intros _. rewrite app_length. cbn [List.length]. lia. Qed.

Lemma full_count (p : bytes) b (data : bytes) : List.length (p ++ [b]) = 8%nat ->
  ((List.length p + List.length (b :: data)) / 8 = Datatypes.S ((List.length (@nil N) + List.length data) / 8))%nat.
Proof.
  rewrite app_length. cbn [List.length]. intros H.
  replace (List.length p + Datatypes.S (List.length data))%nat with (1 * 8 + List.length data)%nat by lia.
  rewrite Nat.div_add_l by lia. reflexivity.
Qed.

Section TracedSinks.
Context {S : Type} (wr : writer W S) (m : mode).

Lemma traced_write s d : traced (noted_writer wr s d) [CallWrite (List.length d)].
Proof. apply traced_noted. Qed.

Lemma traced_write8 s d : List.length d = 8%nat -> traced (noted_writer wr s d) [CallWrite 8].
Proof. intros <-. apply traced_noted. Qed.

Lemma traced_ecb_loop data : forall p s, (List.length p < 8)%nat ->
  traced (act_ecb_loop (noted_writer wr) (noted_key a) data p s) (per_block ((List.length p + List.length data) / 8)).
Proof.
  induction data as [|b data IH]; intros p s L.
  - rewrite Nat.add_0_r, Nat.div_small by exact L. apply traced_ret.
  - cbn [act_ecb_loop]. cbv zeta. destruct (Nat.eqb_spec (List.length (p ++ [b])) 8) as [L8|L8].
    + rewrite full_count by exact L8. rewrite per_block_S.
      apply traced_bind; [apply traced_base|]. intros e.
      apply traced_bind; [apply traced_write8, to_le_length|]. intros s1. apply IH. cbn. lia.
    + rewrite next_count by exact L8. apply IH. rewrite app_length in *. cbn [List.length] in *. lia.
Qed.

Lemma sink_xor_8 p f1 f2 c : List.length p = 8%nat -> sink_xor m p f1 f2 = Ok c -> List.length c = 8%nat.
Proof.
  intros L E. rewrite <- (app_nil_r p), sink_xor_long in E by exact L. apply Ok_inj in E. subst c.
  rewrite app_nil_r. destruct (list8 p L) as (b0 & b1 & b2 & b3 & b4 & b5 & b6 & b7 & ->). reflexivity.
Qed.

Lemma traced_magma_loop data : forall p s rl rr, (List.length p < 8)%nat ->
  traced (act_magma_loop (noted_writer wr) m (noted_key a) data p s rl rr)
    (per_block ((List.length p + List.length data) / 8)).
Proof.
  induction data as [|b data IH]; intros p s rl rr L.
  - rewrite Nat.add_0_r, Nat.div_small by exact L. apply traced_ret.
  - cbn [act_magma_loop]. cbv zeta. destruct (Nat.eqb_spec (List.length (p ++ [b])) block_size) as [L8|L8].
    + rewrite full_count by exact L8. rewrite per_block_S.
      apply traced_bind; [apply traced_encrypted|]. intros [f1 f2].
      apply traced_lift_bind. intros c Ec.
      apply traced_bind; [apply traced_write8, (sink_xor_8 _ _ _ _ L8 Ec)|]. intros s1. apply IH. cbn. lia.
    + change block_size with 8%nat in L8.
      rewrite next_count by exact L8. apply IH. rewrite app_length in *. cbn [List.length] in *. lia.
Qed.

Lemma traced_gost_loop data : forall p s l, (List.length p < 8)%nat ->
  traced (act_gost_loop (noted_writer wr) m (noted_key a) data p s l)
    (per_block ((List.length p + List.length data) / 8)).
Proof.
  induction data as [|b data IH]; intros p s l L.
  - rewrite Nat.add_0_r, Nat.div_small by exact L. apply traced_ret.
  - cbn [act_gost_loop]. cbv zeta. destruct (Nat.eqb_spec (List.length (p ++ [b])) block_size) as [L8|L8].
    + rewrite full_count by exact L8. rewrite per_block_S.
      apply traced_bind; [apply traced_encrypted|]. intros [f1 f2].
      apply traced_lift_bind. intros c Ec.
      apply traced_bind; [apply traced_write8, (sink_xor_8 _ _ _ _ L8 Ec)|]. intros s1. apply IH. cbn. lia.
    + change block_size with 8%nat in L8.
      rewrite next_count by exact L8. apply IH. rewrite app_length in *. cbn [List.length] in *. lia.
Qed.

Theorem traced_ecb s data :
  traced (act_ECBSink_write (noted_writer wr) (noted_key a) s data) (per_block (List.length data / 8)).
Proof.
  unfold act_ECBSink_write. intros w l.
  assert (L0 : (List.length (@nil N) < 8)%nat) by (cbn; lia).
  destruct (traced_ecb_loop data [] s L0 w l) as (r & w' & l' & E & rest & F & Q). unfold mbind. rewrite E.
  change (List.length [] + List.length data)%nat with (List.length data) in F.
  destruct r as [[p s1]|e|u|].
  - rewrite (Q _ eq_refl) in F. destruct p.
    + exists (Ok s1), w', l'. split; [reflexivity|]. exists []. auto.
    + eexists (Throw _), w', l'. split; [reflexivity|]. exists []. auto.
  - exists (Throw e), w', l'. split; [reflexivity|]. exists rest. split; [exact F|discriminate].
  - exists (Undef u), w', l'. split; [reflexivity|]. exists rest. split; [exact F|discriminate].
  - exists OutOfFuel, w', l'. split; [reflexivity|]. exists rest. split; [exact F|discriminate].
Qed.

Lemma foldM_length {B} (f : bytes -> B -> res bytes) (l : list B) : forall c c',
  (forall c b c', f c b = Ok c' -> List.length c' = List.length c) ->
  foldM f l c = Ok c' -> List.length c' = List.length c.
Proof.
  induction l as [|b l IH]; intros c c' H E; cbn [foldM] in E; [apply Ok_inj in E; now subst|].
  destruct (f c b) as [c1|e|u|] eqn:E1; cbn [bind] in E; [|discriminate..].
  rewrite (IH _ _ H E). exact (H _ _ _ E1).
Qed.

Lemma sink_xor_length p f1 f2 c : sink_xor m p f1 f2 = Ok c -> List.length c = List.length p.
Proof.
  apply foldM_length. intros c0 b c' E. destruct (xor_at m c0 (0 + b) (byte_of f1 b)) eqn:E1; cbn [bind] in E; [|discriminate..].
  apply xor_at_length in E, E1. congruence.
Qed.

Definition final_calls (p : bytes) : list call :=
  match p with [] => [] | _ :: _ => block_calls a encrypt_order ++ [CallWrite (List.length p)] end.

Theorem traced_magma_finalize s rl rr p :
  traced (act_magma_CFBSink_finalize (noted_writer wr) m (noted_key a) (s, rl, rr, p)) (final_calls p).
Proof.
  destruct p as [|b p]; [apply traced_ret|]. unfold act_magma_CFBSink_finalize, final_calls.
  apply traced_bind; [apply traced_encrypted|]. intros [f1 f2]. apply traced_lift_bind. intros c Ec.
  rewrite <- (sink_xor_length _ _ _ _ Ec). apply traced_write.
Qed.

Theorem traced_gost_finalize s l p :
  traced (act_gost_CFBSink_finalize (noted_writer wr) m (noted_key a) (s, l, p)) (final_calls p).
Proof.
  destruct p as [|b p]; [apply traced_ret|]. unfold act_gost_CFBSink_finalize, final_calls.
  apply traced_bind; [apply traced_encrypted|]. intros [f1 f2]. apply traced_lift_bind. intros c Ec.
  rewrite <- (sink_xor_length _ _ _ _ Ec). apply traced_write.
Qed.
End TracedSinks.

Section TracedSources.
Context {St : Type} (rd : reader W St) (m : mode).

Definition per_read (n : nat) : list call := List.concat (repeat (block_calls a encrypt_order ++ [CallRead 8]) n).

Lemma per_read_S n : per_read (Datatypes.S n) = block_calls a encrypt_order ++ [CallRead 8] ++ per_read n.
Proof. unfold per_read. cbn [repeat List.concat]. now rewrite <- app_assoc. Qed.

Theorem traced_ecb_read s size w l : exists r w' l',
  act_ECBSource_read (noted_reader rd) m (noted_key a) (inl s) size (w, l) = (r, (w', l ++ l')) /\
  (exists rest, CallRead 8 :: block_calls a decrypt_order = l' ++ rest) /\
  (size < 8 -> l' = []) /\
  (forall b o, r = Ok (b, o) ->
     l' = match b with [] => [CallRead 8] | _ :: _ => CallRead 8 :: block_calls a decrypt_order end).
Proof.
  unfold act_ECBSource_read. destruct (N.ltb_spec size (N.of_nat block_size)) as [L|L].
  { eexists (Throw _), w, []. rewrite app_nil_r. split; [reflexivity|]. split; [now eexists|].
    split; [reflexivity|discriminate]. }
  unfold noted_reader, noted. unfold mbind at 1. destruct (rd s 8 w) as [[[p s1]|e|u|] w1].
  2-4: eexists _, w1, [CallRead 8]; split; [reflexivity|]; split; [now eexists|];
       split; [change (N.of_nat block_size) with 8 in L; lia|discriminate].
  destruct p as [|b p].
  { eexists _, w1, [CallRead 8]; split; [reflexivity|]; split; [now eexists|].
    split; [change (N.of_nat block_size) with 8 in L; lia|]. intros b o E. now injection E as <- <-. }
  match goal with |- exists r w' l', ?x = _ /\ _ => pose (y := x) end.
  assert (T : traced (buf <-- lift (read8 m (b :: p)) ;;
            '(first, second) <-- act_BlkDecrypted (lift (BlkRaw_bytes buf)) (act_cast (noted_key a)) ;;
            p' <-- lift (write8 m (b :: p) (to_le 4 first ++ to_le 4 second)) ;;
            mret (p', @inl St St s1)) (block_calls a decrypt_order)).
  { apply traced_lift_bind. intros buf _. rewrite <- (app_nil_r (block_calls a decrypt_order)).
    apply traced_pair; [apply traced_decrypted|]. intros f1 f2. apply traced_lift_bind. intros. apply traced_ret. }
  destruct (T w1 (l ++ [CallRead 8])) as (r & w2 & l2 & E & rest & F & Q).
  exists r, w2, (CallRead 8 :: l2).
  split; [rewrite E; now rewrite <- app_assoc|]. split; [exists rest; rewrite F; reflexivity|].
  split; [change (N.of_nat block_size) with 8 in L; lia|].
  intros b0 o ->. rewrite (Q _ eq_refl), app_nil_r in F. subst l2. destruct b0; [|reflexivity].
  exfalso. clear T Q y L. revert E. unfold mbind, lift.
  destruct (read8 m (b :: p)) as [buf|e|u|]; [|discriminate..].
  destruct (act_BlkDecrypted _ _ _) as [[[f1 f2]|e|u|] w3]; [|discriminate..].
  destruct (write8 m (b :: p) (to_le 4 f1 ++ to_le 4 f2)) as [p'|e|u|] eqn:Ew; [|discriminate..].
  apply write8_length in Ew; [|now rewrite app_length, !to_le_length]. intros E. injection E as -> _ _.
  discriminate Ew.
Qed.

Lemma traced_magma_steps size n : forall s p rl rr res w l, exists j r w' l',
  nmloop n (act_magma_step (noted_reader rd) m (noted_key a) size) (s, p, rl, rr, res) (w, l) = (r, (w', l ++ l')) /\
  recorded l' (per_read j) r.
Proof.
  induction n as [|n IH]; intros s p rl rr res w l.
  { exists 0%nat, OutOfFuel, w, []. rewrite app_nil_r. split; [reflexivity|]. now exists []. }
  cbn [nmloop]. unfold act_magma_step at 1.
  destruct (len res <? size).
  2: { exists 0%nat. eexists _, w, []. rewrite app_nil_r. split; [reflexivity|]. now exists []. }
  destruct (drain p res size) as [res1 p1]. destruct (len res1 =? size).
  { exists 0%nat. eexists _, w, []. rewrite app_nil_r. split; [reflexivity|]. now exists []. }
  match goal with |- context [mbind ?x ?g (w, l)] => set (body := x) end. unfold mbind at 1.
  assert (T : traced body (block_calls a encrypt_order ++ [CallRead 8] ++ [])).
  { unfold body. apply traced_pair; [apply traced_encrypted|]. intros f1 f2.
    apply traced_pair; [apply traced_noted|]. intros p2 s2. destruct p2 as [|b2 p2]; [apply traced_ret|].
    apply traced_lift_bind. intros r2 _. apply traced_lift_bind. intros p3 _. apply traced_ret. }
  destruct (T w l) as (r & w1 & l1 & E & rest & F & Q). rewrite E.
  assert (F1 : forall j, per_read (Datatypes.S j) = (l1 ++ rest) ++ per_read j).
  { intros j. rewrite per_read_S, <- F. rewrite app_nil_r, <- !app_assoc. reflexivity. }
  destruct r as [[[[[[s2 p2] rl2] rr2] res2]|v]|e|u|].
  - rewrite (Q _ eq_refl), app_nil_r in F1.
    destruct (IH s2 p2 rl2 rr2 res2 w1 (l ++ l1)) as (j & r & w2 & l2 & E2 & rest2 & F2 & Q2).
    exists (Datatypes.S j), r, w2, (l1 ++ l2). rewrite E2, !app_assoc. split; [reflexivity|].
    exists rest2. rewrite F1, F2, app_assoc. auto.
  - exists 1%nat. eexists _, w1, l1. split; [reflexivity|]. exists [].
    rewrite (F1 0%nat), (Q _ eq_refl), !app_nil_r. auto.
  - exists 1%nat. eexists _, w1, l1. split; [reflexivity|]. exists rest. rewrite (F1 0%nat), app_nil_r. split; [reflexivity|discriminate].
  - exists 1%nat. eexists _, w1, l1. split; [reflexivity|]. exists rest. rewrite (F1 0%nat), app_nil_r. split; [reflexivity|discriminate].
  - exists 1%nat. eexists _, w1, l1. split; [reflexivity|]. exists rest. rewrite (F1 0%nat), app_nil_r. split; [reflexivity|discriminate].
Qed.

Lemma traced_gost_steps size n : forall s p r0 res w l, exists j r w' l',
  nmloop n (act_gost_step (noted_reader rd) m (noted_key a) size) (s, p, r0, res) (w, l) = (r, (w', l ++ l')) /\
  recorded l' (per_read j) r.
Proof.
  induction n as [|n IH]; intros s p r0 res w l.
  { exists 0%nat, OutOfFuel, w, []. rewrite app_nil_r. split; [reflexivity|]. now exists []. }
  cbn [nmloop]. unfold act_gost_step at 1.
  destruct (len res <? size).
  2: { exists 0%nat. eexists _, w, []. rewrite app_nil_r. split; [reflexivity|]. now exists []. }
  destruct (drain p res size) as [res1 p1]. destruct (len res1 =? size).
  { exists 0%nat. eexists _, w, []. rewrite app_nil_r. split; [reflexivity|]. now exists []. }
  match goal with |- context [mbind ?x ?g (w, l)] => set (body := x) end. unfold mbind at 1.
  assert (T : traced body (block_calls a encrypt_order ++ [CallRead 8] ++ [])).
  { unfold body. apply traced_pair; [apply traced_encrypted|]. intros f1 f2.
    apply traced_pair; [apply traced_noted|]. intros p2 s2. destruct p2 as [|b2 p2]; [apply traced_ret|].
    apply traced_lift_bind. intros r2 _. apply traced_lift_bind. intros p3 _. apply traced_ret. }
  destruct (T w l) as (r & w1 & l1 & E & rest & F & Q). rewrite E.
  assert (F1 : forall j, per_read (Datatypes.S j) = (l1 ++ rest) ++ per_read j).
  { intros j. rewrite per_read_S, <- F. rewrite app_nil_r, <- !app_assoc. reflexivity. }
  destruct r as [[[[[s2 p2] r2] res2]|v]|e|u|].
  - rewrite (Q _ eq_refl), app_nil_r in F1.
    destruct (IH s2 p2 r2 res2 w1 (l ++ l1)) as (j & r & w2 & l2 & E2 & rest2 & F2 & Q2).
    exists (Datatypes.S j), r, w2, (l1 ++ l2). rewrite E2, !app_assoc. split; [reflexivity|].
    exists rest2. rewrite F1, F2, app_assoc. auto.
  - exists 1%nat. eexists _, w1, l1. split; [reflexivity|]. exists [].
    rewrite (F1 0%nat), (Q _ eq_refl), !app_nil_r. auto.
  - exists 1%nat. eexists _, w1, l1. split; [reflexivity|]. exists rest. rewrite (F1 0%nat), app_nil_r. split; [reflexivity|discriminate].
  - exists 1%nat. eexists _, w1, l1. split; [reflexivity|]. exists rest. rewrite (F1 0%nat), app_nil_r. split; [reflexivity|discriminate].
  - exists 1%nat. eexists _, w1, l1. split; [reflexivity|]. exists rest. rewrite (F1 0%nat), app_nil_r. split; [reflexivity|discriminate].
Qed.

Theorem traced_magma_read o size w l : exists j r w' l',
  act_magma_CFBSource_read (noted_reader rd) m (noted_key a) o size (w, l) = (r, (w', l ++ l')) /\
  recorded l' (per_read j) r.
Proof.
  destruct o as [[[s p] rl] rr]. unfold act_magma_CFBSource_read. unfold mbind. rewrite !mloop_nm.
  destruct (traced_magma_steps size (Pos.to_nat (N.succ_pos size)) s p rl rr [] w l)
    as (j & r & w' & l' & E & rest & F & Q).
  destruct (nmloop _ _ _ (w, l)) as [rx wx]. injection E as -> ->.
  exists j. destruct r as [[[[[? ?] ?] ?] ?]|e|u|].
  - eexists _, w', l'. split; [reflexivity|]. exists rest. split; [exact F|]. intros. apply (Q _ eq_refl).
  - eexists _, w', l'. split; [reflexivity|]. exists rest. split; [exact F|discriminate].
  - eexists _, w', l'. split; [reflexivity|]. exists rest. split; [exact F|discriminate].
  - eexists _, w', l'. split; [reflexivity|]. exists rest. split; [exact F|discriminate].
Qed.

Theorem traced_gost_read o size w l : exists j r w' l',
  act_gost_CFBSource_read (noted_reader rd) m (noted_key a) o size (w, l) = (r, (w', l ++ l')) /\
  recorded l' (per_read j) r.
Proof.
  destruct o as [[s p] r0]. unfold act_gost_CFBSource_read. unfold mbind. rewrite !mloop_nm.
  destruct (traced_gost_steps size (Pos.to_nat (N.succ_pos size)) s p r0 [] w l)
    as (j & r & w' & l' & E & rest & F & Q).
  destruct (nmloop _ _ _ (w, l)) as [rx wx]. injection E as -> ->.
  exists j. destruct r as [[[[? ?] ?] ?]|e|u|].
  - eexists _, w', l'. split; [reflexivity|]. exists rest. split; [exact F|]. intros. apply (Q _ eq_refl).
  - eexists _, w', l'. split; [reflexivity|]. exists rest. split; [exact F|discriminate].
  - eexists _, w', l'. split; [reflexivity|]. exists rest. split; [exact F|discriminate].
  - eexists _, w', l'. split; [reflexivity|]. exists rest. split; [exact F|discriminate].
Qed.
End TracedSources.
End Traced.
