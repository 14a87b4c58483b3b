(** Proofs for C110: what the streams show to an observer of the machine. *)
From Verif Require Import Base Text MagmaModel Streams Lib SpecText SpecMagma LeakModel SpecLeak LeakProofs
  SpecMac MagmaProofs ByteProofs MacProofs StreamLeakModel.
Local Open Scope N_scope.

(** ** The results are those of Streams.v *)

Lemma bind_ret_r {A} (x : res A) : (y <- x ;; Ok y) = x.
Proof. now destruct x. Qed.

Section Same.
Context (kd : keydata) (sbt : tsbox) (sb : sbox).
Hypothesis Hsb : forall v, fst (sbt v) = sb v.
Let k := KLazy (LazyKey kd sb).

Lemma base_same x : fst (EncryptionBase_t kd sbt x) = EncryptionBase_transform k x.
Proof.
  unfold EncryptionBase_t, EncryptionBase_transform. cbv zeta.
  do 32 (rewrite fst_tbind, (lazy_same kd sbt sb Hsb); apply bind_ext; intros; cbv beta). reflexivity.
Qed.

Lemma block_same x : fst (block_t kd sbt x) = BlkEncrypted (BlkRaw64 x) (Some (LazyKey kd sb)).
Proof. apply (Encrypted_same kd sbt sb Hsb). Qed.

Section SameSinks.
Context {W S : Type} (put : S -> bytes -> res S) (m : mode).
Let wr : writer W S := fun s d => lift (put s d).

Lemma fst_mbind_lift {A B} (r : res A) (f : A -> M W B) w :
  fst ((x <-- lift r ;; f x) w) = bind r (fun x => fst (f x w)).
Proof. unfold mbind, lift. now destruct r. Qed.

Lemma fst_test {A} b (x : T A) : fst (_ <~ test b ;; x) = fst x.
Proof. reflexivity. Qed.

Lemma ecb_loop_same data : forall p s w,
  fst (ecb_loop_t kd sbt put data p s) = fst (ecb_write_loop wr k data p s w).
Proof.
  induction data as [|b data IH]; intros p s w; [reflexivity|].
  cbn [ecb_loop_t ecb_write_loop]. rewrite fst_test. cbv zeta. rewrite fst_test.
  destruct (Nat.eqb (List.length (p ++ [b])) 8); [|apply IH].
  rewrite fst_tbind, base_same, fst_mbind_lift. apply bind_ext. intros e. cbv beta.
  rewrite fst_tbind. unfold wr at 1. rewrite fst_mbind_lift. apply bind_ext. intros s1. apply IH.
Qed.

Lemma ecb_write_same s data w :
  fst (ECBSink_write_t kd sbt put s data) =
  bind (fst (ECBSink_write wr (ECBSink s k) data w)) (fun o => Ok (es_sink o)).
Proof.
  unfold ECBSink_write_t, ECBSink_write. cbn [es_key es_sink].
  rewrite fst_tbind, (ecb_loop_same data [] s w). unfold mbind at 1.
  destruct (ecb_write_loop wr k data [] s w) as [[[p s1]| | |] w1]; try reflexivity.
  cbn [fst bind]. cbv zeta. rewrite fst_test. destruct p; reflexivity.
Qed.

Lemma gost_loop_same data : forall p s l w,
  fst (gost_cfb_write_t kd sbt put m data p s l) = fst (gost_cfb_write_loop wr m k data p s l w).
Proof.
  induction data as [|b data IH]; intros p s l w; [reflexivity|].
  cbn [gost_cfb_write_t gost_cfb_write_loop]. rewrite fst_test. cbv zeta. rewrite fst_test.
  destruct (Nat.eqb (List.length (p ++ [b])) block_size); [|apply IH].
  rewrite fst_tbind, block_same. cbn [k cast_lazy]. rewrite fst_mbind_lift. apply bind_ext. intros [f1 f2]. cbv beta.
  rewrite fst_tbind, fst_mbind_lift. cbn [tlift fst]. apply bind_ext. intros c.
  rewrite fst_tbind. unfold wr at 1. rewrite fst_mbind_lift. apply bind_ext. intros s1. apply IH.
Qed.

Lemma magma_loop_same data : forall p s rl rr w,
  fst (magma_cfb_write_t kd sbt put m data p s rl rr) = fst (magma_cfb_write_loop wr m k data p s rl rr w).
Proof.
  induction data as [|b data IH]; intros p s rl rr w; [reflexivity|].
  cbn [magma_cfb_write_t magma_cfb_write_loop]. rewrite fst_test. cbv zeta. rewrite fst_test.
  destruct (Nat.eqb (List.length (p ++ [b])) block_size); [|apply IH].
  rewrite fst_tbind, block_same. cbn [k cast_lazy]. rewrite fst_mbind_lift. apply bind_ext. intros [f1 f2]. cbv beta.
  rewrite fst_tbind, fst_mbind_lift. cbn [tlift fst]. apply bind_ext. intros c.
  rewrite fst_tbind. unfold wr at 1. rewrite fst_mbind_lift. apply bind_ext. intros s1. apply IH.
Qed.

Lemma gost_write_same s l p data w :
  fst (gost_cfb_write_t kd sbt put m data p s l) =
  bind (fst (gost_CFBSink_write wr m (GostCFBSink s k l p) data w))
       (fun o => Ok (gcs_sink o, gcs_iv o, gcs_plain o)).
Proof.
  rewrite (gost_loop_same data p s l w). unfold gost_CFBSink_write. cbn [gcs_key gcs_plain gcs_sink gcs_iv].
  unfold mbind. destruct (gost_cfb_write_loop wr m k data p s l w) as [[[[s1 l1] p1]| | |] w1]; reflexivity.
Qed.

Lemma magma_write_same s rl rr p data w :
  fst (magma_cfb_write_t kd sbt put m data p s rl rr) =
  bind (fst (magma_CFBSink_write wr m (MagmaCFBSink s k rl rr p) data w))
       (fun o => Ok (mcs_sink o, mcs_ivl o, mcs_ivr o, mcs_plain o)).
Proof.
  rewrite (magma_loop_same data p s rl rr w). unfold magma_CFBSink_write. cbn [mcs_key mcs_plain mcs_sink mcs_ivl mcs_ivr].
  unfold mbind. destruct (magma_cfb_write_loop wr m k data p s rl rr w) as [[[[[s1 l1] r1] p1]| | |] w1]; reflexivity.
Qed.

Lemma finalize_same s l rr p w :
  fst (cfb_finalize_t kd sbt put m p s l) = fst (gost_CFBSink_finalize wr m (GostCFBSink s k l p) w) /\
  fst (cfb_finalize_t kd sbt put m p s l) = fst (magma_CFBSink_finalize wr m (MagmaCFBSink s k l rr p) w).
Proof.
  unfold cfb_finalize_t, gost_CFBSink_finalize, magma_CFBSink_finalize.
  cbn [gcs_key gcs_plain gcs_sink gcs_iv mcs_key mcs_plain mcs_sink mcs_ivl mcs_ivr]. cbv zeta.
  rewrite fst_test. destruct p as [|b p]; [split; reflexivity|].
  cbn [List.length Nat.eqb negb]. set (q := b :: p). cbn [k cast_lazy].
  rewrite fst_tbind, block_same, !fst_mbind_lift.
  split; apply bind_ext; intros [f1 f2]; cbv beta iota;
    rewrite fst_tbind, fst_mbind_lift; cbn [tlift fst]; apply bind_ext; intros c; cbv beta;
    unfold wr; rewrite fst_mbind_lift; cbn [mret lift fst]; now rewrite bind_ret_r.
Qed.
End SameSinks.

Lemma dataimit_loop_same fuel : forall state data,
  fst (dataimit_loop_t kd sbt fuel state data) = dataimit_loop fuel (Some (LazyKey kd sb)) state data.
Proof.
  induction fuel as [|f IH]; intros state [|d ds]; try reflexivity.
  cbn [dataimit_loop_t dataimit_loop]. rewrite fst_test. set (data := d :: ds).
  rewrite fst_tbind. cbn [tlift fst]. apply bind_ext. intros [st rest]. cbv beta iota.
  unfold dataimit_block, ImitedBlock. rewrite fst_tbind. cbn [tlift fst].
  destruct (read8 ISO st) as [buf| | |]; try reflexivity. cbn [bind].
  rewrite fst_tbind, !(Forwarded_same kd sbt sb Hsb). cbn [tlift fst].
  destruct (BlkForwarded (BlkForwarded (BlkRaw_bytes buf) (Some (LazyKey kd sb))) (Some (LazyKey kd sb)))
    as [[f1 f2]| | |]; try reflexivity. cbn [bind].
  rewrite fst_tbind. cbn [tlift fst]. apply bind_ext. intros st2. apply IH.
Qed.

Lemma dataimit_same data : fst (DataImit_t kd sbt data) = DataImit data (Some (LazyKey kd sb)).
Proof.
  unfold DataImit_t, DataImit. rewrite fst_tbind. cbn [dataimit_pad_t fst bind]. apply dataimit_loop_same.
Qed.
End Same.

(** ** Which tables are read and which way the branches go follows from lengths alone *)

Definition shows {A} (x : T A) (P : A -> Prop) (tb : list N) (br : list event) : Prop :=
  exists v, fst x = Ok v /\ P v /\ tables (snd x) = tb /\ branches (snd x) = br.

(** The same without success. *)
Definition seen {A} (x : T A) (tb : list N) (br : list event) : Prop :=
  tables (snd x) = tb /\ branches (snd x) = br.

Lemma shows_seen {A} (x : T A) P tb br : shows x P tb br -> seen x tb br.
Proof. intros (v & _ & _ & H). exact H. Qed.

Lemma shows_bind {A B} (x : T A) (f : A -> T B) P Q t1 t2 b1 b2 :
  shows x P t1 b1 -> (forall v, P v -> shows (f v) Q t2 b2) -> shows (tbind x f) Q (t1 ++ t2) (b1 ++ b2).
Proof.
  intros (v & Hv & HP & Ht & Hb) Hf. destruct (Hf v HP) as (u & Hu & HQ & Ht' & Hb'). exists u.
  split; [now rewrite fst_tbind, Hv|split; [exact HQ|]].
  rewrite (snd_tbind _ _ _ Hv), tables_app, branches_app. now rewrite Ht, Ht', Hb, Hb'.
Qed.

Lemma seen_bind {A B} (x : T A) (f : A -> T B) P t1 t2 b1 b2 :
  shows x P t1 b1 -> (forall v, P v -> seen (f v) t2 b2) -> seen (tbind x f) (t1 ++ t2) (b1 ++ b2).
Proof.
  intros (v & Hv & HP & Ht & Hb) Hf. destruct (Hf v HP) as [Ht' Hb']. split;
    rewrite (snd_tbind _ _ _ Hv), ?tables_app, ?branches_app; congruence.
Qed.

Lemma shows_ret {A} (v : A) (P : A -> Prop) : P v -> shows (tret v) P [] [].
Proof. intros H. exists v. auto. Qed.

Lemma shows_lift {A} (r : res A) v (P : A -> Prop) : r = Ok v -> P v -> shows (tlift r) P [] [].
Proof. intros -> H. exists v. auto. Qed.

Lemma shows_test b : shows (test b) (fun _ => True) [] [Branch b].
Proof. exists tt. auto. Qed.

Lemma shows_quiet {A} (x : T A) tb : quiet x tb -> shows x (fun _ => True) tb [].
Proof. intros ([v Hv] & Ht & Hb). exists v. auto. Qed.

Lemma seen_silent {A B} (x : T A) (f : A -> T B) P t b :
  shows x P t b -> (forall v, snd (f v) = []) -> seen (tbind x f) t b.
Proof.
  intros H Hf. rewrite <- (app_nil_r t), <- (app_nil_r b). eapply seen_bind; [exact H|].
  intros v _. split; now rewrite Hf.
Qed.

Lemma sink_xor_eight m p f g : List.length p = 8%nat -> exists c, sink_xor m p f g = Ok c.
Proof.
  intros H. do 8 (destruct p as [|? p]; [discriminate H|]). destruct p; [|discriminate H].
  eexists. reflexivity.
Qed.

(** The blocks of [n] bytes that follow [q] bytes. *)
Fixpoint loop_tables (blk : list N) (n q : nat) : list N :=
  match n with
  | O => []
  | S n => if Nat.eqb (q + 1) 8 then blk ++ loop_tables blk n 0 else loop_tables blk n (q + 1)
  end.
Fixpoint loop_branches (n q : nat) : list event :=
  match n with
  | O => [Branch false]
  | S n => Branch true :: Branch (Nat.eqb (q + 1) 8) ::
           (if Nat.eqb (q + 1) 8 then loop_branches n 0 else loop_branches n (q + 1))
  end.
Fixpoint loop_rest (n q : nat) : nat :=
  match n with
  | O => q
  | S n => if Nat.eqb (q + 1) 8 then loop_rest n 0 else loop_rest n (q + 1)
  end.

Section Flow.
Context (kd : keydata) (ws : list N) (sb : tsbox) (tb : list N).
Hypothesis Hkd : words_of kd ws.
Hypothesis Hsb : forall v, v < 2 ^ 32 -> quiet (sb v) tb.
Let blk := List.concat (repeat tb 32).

Lemma quiet_base x : quiet (EncryptionBase_t kd sb x) blk.
Proof.
  unfold EncryptionBase_t. cbv zeta. eapply eq_rect.
  - do 32 (apply quiet_bind; [apply (quiet_tr kd ws sb tb Hkd Hsb); lia|intros]; cbv zeta). apply quiet_ret.
  - unfold blk. cbn [repeat List.concat]. reflexivity.
Qed.

Lemma quiet_block x : quiet (block_t kd sb x) blk.
Proof. apply (quiet_encrypted kd ws sb tb Hkd Hsb (w32 x, w32 (N.shiftr x 32))). Qed.

Section FlowSinks.
Context {S : Type} (put : S -> bytes -> res S) (m : mode).
Hypothesis Hput : forall s d, exists s', put s d = Ok s'.

Lemma shows_put s d : shows (tlift (put s d)) (fun _ => True) [] [].
Proof. destruct (Hput s d) as [s' E]. now apply (shows_lift _ s'). Qed.

Lemma shows_step {A} b (x : T A) P t l : shows x P t l -> shows (_ <~ test b ;; x) P t (Branch b :: l).
Proof.
  intros H. change (Branch b :: l) with ([Branch b] ++ l). rewrite <- (app_nil_l t).
  eapply shows_bind; [apply shows_test|]. intros _ _. exact H.
Qed.

Lemma shows_blk {A B} (x : T A) (f : A -> T B) Q t b : quiet x blk -> (forall v, shows (f v) Q t b) ->
  shows (tbind x f) Q (blk ++ t) b.
Proof.
  intros Hx Hf. rewrite <- (app_nil_l b). eapply shows_bind; [apply shows_quiet, Hx|]. intros v _. apply Hf.
Qed.

Lemma shows_pure {A B} (r : res A) (f : A -> T B) v Q t b : r = Ok v -> shows (f v) Q t b ->
  shows (tbind (tlift r) f) Q t b.
Proof.
  intros -> Hf. rewrite <- (app_nil_l b), <- (app_nil_l t).
  eapply (shows_bind _ _ (fun u => u = v)); [now apply (shows_lift _ v)|]. intros u ->. exact Hf.
Qed.

Lemma ecb_loop_shows data : forall p s,
  shows (ecb_loop_t kd sb put data p s)
        (fun v => List.length (fst v) = loop_rest (List.length data) (List.length p))
        (loop_tables blk (List.length data) (List.length p)) (loop_branches (List.length data) (List.length p)).
Proof.
  induction data as [|b data IH]; intros p s.
  - cbn [ecb_loop_t List.length loop_tables loop_branches loop_rest]. apply shows_step. now apply shows_ret.
  - cbn [ecb_loop_t List.length loop_tables loop_branches loop_rest]. cbv zeta.
    pose proof (app_length p [b]) as L. cbn [List.length] in L. rewrite L.
    apply shows_step, shows_step.
    destruct (Nat.eqb (List.length p + 1) 8).
    + apply shows_blk; [apply quiet_base|]. intros e. cbv beta.
      destruct (Hput s (to_le 8 e)) as [s' E]. apply (shows_pure _ _ s' _ _ _ E). apply (IH [] s').
    + rewrite <- L. apply IH.
Qed.

Lemma ecb_write_seen s data :
  seen (ECBSink_write_t kd sb put s data)
       (loop_tables blk (List.length data) 0)
       (loop_branches (List.length data) 0 ++ [Branch (negb (Nat.eqb (loop_rest (List.length data) 0) 0))]).
Proof.
  unfold ECBSink_write_t. rewrite <- (app_nil_r (loop_tables _ _ _)).
  eapply seen_bind; [apply (ecb_loop_shows data [] s)|].
  intros [p s1] H. cbn [fst] in H. cbv zeta. rewrite H.
  destruct (Nat.eqb _ 0); split; reflexivity.
Qed.

Lemma gost_write_shows data : forall p s l,
  shows (gost_cfb_write_t kd sb put m data p s l)
        (fun v => List.length (snd v) = loop_rest (List.length data) (List.length p))
        (loop_tables blk (List.length data) (List.length p)) (loop_branches (List.length data) (List.length p)).
Proof.
  induction data as [|b data IH]; intros p s l.
  - cbn [gost_cfb_write_t List.length loop_tables loop_branches loop_rest]. apply shows_step. now apply shows_ret.
  - cbn [gost_cfb_write_t List.length loop_tables loop_branches loop_rest]. cbv zeta.
    pose proof (app_length p [b]) as L. cbn [List.length] in L. unfold block_size. rewrite L.
    apply shows_step, shows_step.
    destruct (Nat.eqb_spec (List.length p + 1) 8) as [E8|E8].
    + apply shows_blk; [apply quiet_block|]. intros [f1 f2].
      destruct (sink_xor_eight m (p ++ [b]) f1 f2 (eq_trans L E8)) as [c Ec].
      apply (shows_pure _ _ c _ _ _ Ec).
      destruct (Hput s c) as [s' E]. apply (shows_pure _ _ s' _ _ _ E). apply (IH [] s').
    + rewrite <- L. apply IH.
Qed.

Lemma magma_write_shows data : forall p s rl rr,
  shows (magma_cfb_write_t kd sb put m data p s rl rr)
        (fun v => List.length (snd v) = loop_rest (List.length data) (List.length p))
        (loop_tables blk (List.length data) (List.length p)) (loop_branches (List.length data) (List.length p)).
Proof.
  induction data as [|b data IH]; intros p s rl rr.
  - cbn [magma_cfb_write_t List.length loop_tables loop_branches loop_rest]. apply shows_step. now apply shows_ret.
  - cbn [magma_cfb_write_t List.length loop_tables loop_branches loop_rest]. cbv zeta.
    pose proof (app_length p [b]) as L. cbn [List.length] in L. unfold block_size. rewrite L.
    apply shows_step, shows_step.
    destruct (Nat.eqb_spec (List.length p + 1) 8) as [E8|E8].
    + apply shows_blk; [apply quiet_block|]. intros [f1 f2].
      destruct (sink_xor_eight m (p ++ [b]) f1 f2 (eq_trans L E8)) as [c Ec].
      apply (shows_pure _ _ c _ _ _ Ec).
      destruct (Hput s c) as [s' E]. apply (shows_pure _ _ s' _ _ _ E). apply (IH [] s').
    + rewrite <- L. apply IH.
Qed.

Lemma finalize_seen p s l :
  seen (cfb_finalize_t kd sb put m p s l)
       (if Nat.eqb (List.length p) 0 then [] else blk) [Branch (negb (Nat.eqb (List.length p) 0))].
Proof.
  unfold cfb_finalize_t. cbv zeta.
  destruct (Nat.eqb (List.length p) 0); cbn [negb]; [split; reflexivity|].
  change (seen (_ <~ test true ;;
    '(first, second) <~ block_t kd sb l ;; c <~ tlift (sink_xor m p second first) ;; tlift (put s c))
    ([] ++ blk) ([Branch true] ++ [])).
  eapply seen_bind; [apply shows_test|]. intros _ _.
  eapply seen_silent; [apply shows_quiet, quiet_block|]. intros [f1 f2].
  unfold tbind, tlift. cbn [fst snd]. destruct (sink_xor m p f2 f1) as [c| | |]; reflexivity.
Qed.
End FlowSinks.

Fixpoint mac_tables (n : nat) : list N :=
  match n with O => [] | S n => List.concat (repeat tb 16) ++ mac_tables n end.

Lemma quiet_imited x : quiet (BlkForwarded_t kd sb (BlkForwarded_t kd sb (tret x))) (List.concat (repeat tb 16)).
Proof.
  eapply eq_rect.
  - apply (quiet_forwarded kd ws sb tb Hkd Hsb), (quiet_forwarded kd ws sb tb Hkd Hsb), quiet_ret.
  - cbn [repeat List.concat]. now rewrite !app_nil_r, !app_nil_l, <- !app_assoc.
Qed.


Lemma xor_bytes_eight st data : List.length st = 8%nat -> (8 <= List.length data)%nat ->
  exists st', xor_bytes st data = Ok (st', skipn 8 data) /\ List.length st' = 8%nat.
Proof.
  intros H H'. do 8 (destruct st as [|? st]; [discriminate H|]). destruct st; [|discriminate H].
  do 8 (destruct data as [|? data]; [cbn [List.length] in H'; lia|]).
  eexists. split; reflexivity.
Qed.

Lemma dataimit_loop_shows n : forall fuel st data, List.length st = 8%nat ->
  List.length data = (8 * n)%nat -> (n <= fuel)%nat ->
  shows (dataimit_loop_t kd sb fuel st data) (fun _ => True) (mac_tables n)
        (repeat (Branch true) n ++ [Branch false]).
Proof.
  induction n as [|n IH]; intros fuel st data Hst Hd Hf.
  - destruct data; [|cbn [List.length] in Hd; lia]. destruct fuel; apply shows_step, shows_ret, I.
  - destruct fuel as [|f]; [lia|].
    destruct (xor_bytes_eight st data Hst ltac:(lia)) as (st1 & E1 & L1).
    destruct data as [|d data]; [cbn [List.length] in Hd; lia|].
    cbn [dataimit_loop_t mac_tables repeat app]. set (D := d :: data) in *. apply shows_step.
    apply (shows_pure _ _ _ _ _ _ E1). apply (shows_pure _ _ _ _ _ _ (read8_ok ISO st1 L1)).
    rewrite <- (app_nil_l (repeat (Branch true) n ++ [Branch false])).
    eapply shows_bind; [apply shows_quiet, quiet_imited|]. intros [f1 f2] _.
    apply (shows_pure _ _ _ _ _ _ (write8_ok ISO st1 _ L1)).
    apply IH; [reflexivity| |lia]. rewrite skipn_length. lia.
Qed.
End Flow.

(** ** The accesses say what the data is *)

Lemma lookups_tables l : List.length (lookups l) = List.length (tables l).
Proof. induction l as [|[] l IH]; cbn; auto. Qed.

Lemma w32_add_inj2 w a a' : a < 2 ^ 32 -> a' < 2 ^ 32 -> w32 (w32 w + a) = w32 (w32 w + a') -> a = a'.
Proof. unfold w32. change (2 ^ 32) with 4294967296. intros. lia. Qed.

Section RevealData.
Context (kd : keydata) (ws : list N) (sb : tsbox) (n : nat).
Hypothesis Hkd : words_of kd ws.
Hypothesis Hsb : reveals sb n.

Lemma data_step {A} i a a' (f f' : N -> T A) : (0 <= i < 8)%Z -> a < 2 ^ 32 -> a' < 2 ^ 32 ->
  agree (lookups (snd (tbind (lazy_transform_t kd sb a i) f)))
        (lookups (snd (tbind (lazy_transform_t kd sb a' i) f'))) ->
  a = a' /\ exists t, t < 2 ^ 32 /\ agree (lookups (snd (f t))) (lookups (snd (f' t))).
Proof.
  intros Hi Ha Ha' H. destruct Hkd as (_ & _ & W). destruct Hsb as (Hans & Hlen & Hinj).
  pose proof (W (Z.to_nat i) ltac:(lia)) as E0. rewrite Z2Nat.id in E0 by lia.
  set (w := nth (Z.to_nat i) ws 0) in *.
  assert (E : forall a,
    snd (lazy_transform_t kd sb a i) = snd (sb (w32 (w32 w + a))) /\
    forall r, fst (sb (w32 (w32 w + a))) = Ok r -> fst (lazy_transform_t kd sb a i) = Ok (w32 r)).
  { intros a0. unfold lazy_transform_t.
    destruct (Hans (w32 (w32 w + a0)) (w32_lt _)) as [r Hr].
    split.
    - rewrite (snd_tbind _ _ w) by exact E0. cbn [tlift snd app].
      rewrite (snd_tbind _ _ r) by exact Hr. cbn [tret tlift snd]. apply app_nil_r.
    - intros r' Hr'. rewrite fst_tbind. cbn [tlift fst]. rewrite E0. cbn [bind].
      rewrite fst_tbind, Hr'. reflexivity. }
  destruct (E a) as [S1 F1]. destruct (E a') as [S2 F2].
  destruct (Hans (w32 (w32 w + a)) (w32_lt _)) as [r Hr].
  destruct (Hans (w32 (w32 w + a')) (w32_lt _)) as [r' Hr'].
  rewrite (snd_tbind _ _ _ (F1 r Hr)), (snd_tbind _ _ _ (F2 r' Hr')) in H.
  rewrite S1, S2, !lookups_app in H.
  apply agree_app in H; [|now rewrite !Hlen by apply w32_lt].
  destruct H as [HE HA]. apply Hinj in HE; [|apply w32_lt..].
  assert (Er : r = r') by (rewrite HE in Hr; rewrite Hr in Hr'; now injection Hr').
  split; [eapply w32_add_inj2; eassumption|]. exists (w32 r). split; [apply w32_lt|]. now subst r'.
Qed.

Lemma two_rounds {A} a b a' b' (g g' : N -> N -> T A) :
  a < 2 ^ 32 -> b < 2 ^ 32 -> a' < 2 ^ 32 -> b' < 2 ^ 32 ->
  agree (lookups (snd (tbind (lazy_transform_t kd sb a 0) (fun t =>
                       tbind (lazy_transform_t kd sb (N.lxor b t) 1) (g t)))))
        (lookups (snd (tbind (lazy_transform_t kd sb a' 0) (fun t =>
                       tbind (lazy_transform_t kd sb (N.lxor b' t) 1) (g' t))))) ->
  a = a' /\ b = b'.
Proof.
  intros Ha Hb Ha' Hb' H. apply data_step in H; [|lia|assumption..]. destruct H as [-> (t & Ht & H)].
  apply data_step in H; [|lia|now apply lxor_lt..]. destruct H as [H _]. split; [reflexivity|].
  apply (f_equal (fun z => N.lxor z t)) in H. now rewrite !N.lxor_assoc, N.lxor_nilpotent, !N.lxor_0_r in H.
Qed.

Lemma base_reveals x x' : x < 2 ^ 64 -> x' < 2 ^ 64 ->
  lookups (snd (EncryptionBase_t kd sb x)) = lookups (snd (EncryptionBase_t kd sb x')) -> x = x'.
Proof.
  intros Hx Hx' H. apply agree_refl in H. unfold EncryptionBase_t in H. cbv zeta in H.
  eapply two_rounds in H; rewrite ?land_ones32; try apply w32_lt.
  rewrite !land_ones32, !w32_shiftr in H by assumption. destruct H as [H1 H2].
  unfold w32 in H1. change (2 ^ 32) with 4294967296 in *. lia.
Qed.

Lemma imited_reveals a b a' b' : a < 2 ^ 32 -> b < 2 ^ 32 -> a' < 2 ^ 32 -> b' < 2 ^ 32 ->
  lookups (snd (BlkForwarded_t kd sb (BlkForwarded_t kd sb (tret (a, b))))) =
  lookups (snd (BlkForwarded_t kd sb (BlkForwarded_t kd sb (tret (a', b'))))) -> a = a' /\ b = b'.
Proof.
  intros Ha Hb Ha' Hb' H.
  destruct (strict_starts (BlkForwarded_t kd sb) (BlkForwarded_t kd sb (tret (a, b))) (strict_forwarded kd sb)) as [r E].
  destruct (strict_starts (BlkForwarded_t kd sb) (BlkForwarded_t kd sb (tret (a', b'))) (strict_forwarded kd sb)) as [r' E'].
  rewrite E, E', !lookups_app in H. apply agree_refl, agree_prefix in H. clear E E'.
  unfold BlkForwarded_t in H.
  rewrite !(snd_tbind (tret (a, b)) _ (a, b)), !(snd_tbind (tret (a', b')) _ (a', b')) in H by reflexivity.
  cbn [tret tlift snd app] in H. eapply two_rounds in H; assumption.
Qed.

Context (tb : list N).
Hypothesis Hq : forall v, v < 2 ^ 32 -> quiet (sb v) tb.

Lemma test_lookups {A} b (x : T A) : lookups (snd (_ <~ test b ;; x)) = lookups (snd x).
Proof. reflexivity. Qed.

Lemma base_length x : List.length (lookups (snd (EncryptionBase_t kd sb x))) = List.length (List.concat (repeat tb 32)).
Proof. rewrite lookups_tables. destruct (quiet_base kd ws sb tb Hkd Hq x) as (_ & -> & _). reflexivity. Qed.

Lemma imited_length x : List.length (lookups (snd (BlkForwarded_t kd sb (BlkForwarded_t kd sb (tret x))))) =
  List.length (List.concat (repeat tb 16)).
Proof. rewrite lookups_tables. destruct (quiet_imited kd ws sb tb Hkd Hq x) as (_ & -> & _). reflexivity. Qed.

Section RevealSinks.
Context {S S' : Type} (put : S -> bytes -> res S) (put' : S' -> bytes -> res S').
Hypothesis Hput : forall s d, exists s1, put s d = Ok s1.
Hypothesis Hput' : forall s d, exists s1, put' s d = Ok s1.

Lemma ecb_loop_reveals data : forall data' p p' s s',
  List.length data = List.length data' -> List.length p = List.length p' -> (List.length p < 8)%nat ->
  (Nat.modulo (List.length p + List.length data) 8 = 0)%nat ->
  Forall u8 (p ++ data) -> Forall u8 (p' ++ data') ->
  lookups (snd (ecb_loop_t kd sb put data p s)) = lookups (snd (ecb_loop_t kd sb put' data' p' s')) ->
  p ++ data = p' ++ data'.
Proof.
  induction data as [|b data IH]; intros [|b' data'] p p' s s' HL HP HP8 HM HB HB' H; try discriminate HL.
  - cbn [List.length] in HM. rewrite Nat.add_0_r, Nat.mod_small in HM by exact HP8.
    destruct p; [|discriminate HM]. destruct p'; [reflexivity|discriminate HP].
  - cbn [ecb_loop_t] in H. cbv zeta in H. rewrite !test_lookups in H.
    assert (A : p ++ b :: data = (p ++ [b]) ++ data) by now rewrite <- app_assoc.
    assert (A' : p' ++ b' :: data' = (p' ++ [b']) ++ data') by now rewrite <- app_assoc.
    rewrite A in *. rewrite A' in *. clear A A'.
    assert (L : List.length (p ++ [b]) = List.length (p' ++ [b'])) by (rewrite !app_length; cbn; lia).
    assert (L1 : List.length (p ++ [b]) = Datatypes.S (List.length p)) by (rewrite app_length; cbn; lia).
    cbn [List.length] in HM, HL. injection HL as HL.
    rewrite <- L in H.
    destruct (Nat.eqb_spec (List.length (p ++ [b])) 8) as [E8|E8].
    + apply Forall_app in HB as [HB1 HB2]. apply Forall_app in HB' as [HB1' HB2'].
      destruct (quiet_base kd ws sb tb Hkd Hq (of_le (p ++ [b]))) as ([e He] & _).
      destruct (quiet_base kd ws sb tb Hkd Hq (of_le (p' ++ [b']))) as ([e' He'] & _).
      destruct (Hput s (to_le 8 e)) as [s1 E1]. destruct (Hput' s' (to_le 8 e')) as [s1' E1'].
      rewrite (snd_tbind _ _ _ He), (snd_tbind _ _ _ He') in H.
      rewrite (snd_tbind (tlift (put s (to_le 8 e))) _ s1) in H by exact E1.
      rewrite (snd_tbind (tlift (put' s' (to_le 8 e'))) _ s1') in H by exact E1'.
      cbn [tlift snd app] in H. rewrite !lookups_app in H.
      apply agree_refl, agree_app in H; [|now rewrite !base_length].
      destruct H as [H1 H2].
      apply base_reveals in H1; [|apply of_le_8_lt; [assumption|congruence]..].
      apply of_le_inj in H1; [|assumption..]. rewrite H1. f_equal.
      assert (H3 : lookups (snd (ecb_loop_t kd sb put data [] s1)) = lookups (snd (ecb_loop_t kd sb put' data' [] s1'))).
      { assert (Q : List.length (lookups (snd (ecb_loop_t kd sb put data [] s1))) =
                    List.length (lookups (snd (ecb_loop_t kd sb put' data' [] s1')))).
        { rewrite !lookups_tables.
          destruct (ecb_loop_shows kd ws sb tb Hkd Hq put Hput data [] s1) as (? & _ & _ & -> & _).
          destruct (ecb_loop_shows kd ws sb tb Hkd Hq put' Hput' data' [] s1') as (? & _ & _ & -> & _).
          now rewrite HL. }
        rewrite <- (app_nil_r (lookups (snd (ecb_loop_t kd sb put data [] s1)))) in H2.
        rewrite <- (app_nil_r (lookups (snd (ecb_loop_t kd sb put' data' [] s1')))) in H2.
        now apply (agree_app _ _ _ _ Q) in H2. }
      apply (IH data' [] [] s1 s1'); try assumption; try reflexivity; [cbn; lia|].
      cbn [List.length]. rewrite L1 in E8.
      replace (List.length p + Datatypes.S (List.length data))%nat with (List.length data + 1 * 8)%nat in HM by lia.
      now rewrite Nat.mod_add in HM by discriminate.
    + apply (IH data' (p ++ [b]) (p' ++ [b']) s s'); try assumption; [lia|].
      rewrite L1. replace (Datatypes.S (List.length p) + List.length data)%nat
        with (List.length p + Datatypes.S (List.length data))%nat by lia. exact HM.
Qed.

Lemma ecb_reveals s s' data data' : List.length data = List.length data' ->
  Nat.modulo (List.length data) 8 = 0%nat -> Forall u8 data -> Forall u8 data' ->
  lookups (snd (ECBSink_write_t kd sb put s data)) = lookups (snd (ECBSink_write_t kd sb put' s' data')) ->
  data = data'.
Proof.
  intros HL HM HB HB' H. apply (ecb_loop_reveals data data' [] [] s s'); try assumption; [reflexivity|cbn; lia|].
  destruct (ecb_loop_shows kd ws sb tb Hkd Hq put Hput data [] s) as ([p s1] & E & P & _).
  destruct (ecb_loop_shows kd ws sb tb Hkd Hq put' Hput' data' [] s') as ([p' s1'] & E' & P' & _).
  unfold ECBSink_write_t in H. rewrite (snd_tbind _ _ _ E), (snd_tbind _ _ _ E') in H.
  cbv zeta in H. rewrite !lookups_app, !test_lookups in H.
  destruct (negb (Nat.eqb (List.length p) 0)), (negb (Nat.eqb (List.length p') 0));
    cbn [tlift tret snd lookups filter] in H; rewrite !app_nil_r in H; exact H.
Qed.
End RevealSinks.

Lemma take8 (d : bytes) : (8 <= List.length d)%nat ->
  exists x r, d = x ++ r /\ List.length x = 8%nat /\ List.length r = (List.length d - 8)%nat.
Proof.
  intros H. exists (firstn 8 d), (skipn 8 d). rewrite firstn_skipn, firstn_length, skipn_length.
  split; [reflexivity|split; lia].
Qed.

Lemma zip_xor_u8 a : forall b, Forall u8 a -> Forall u8 b -> Forall u8 (zip_xor a b).
Proof.
  induction a as [|x a IH]; intros [|y b] Ha Hb; cbn [zip_xor]; try constructor; try assumption.
  - inversion_clear Ha. inversion_clear Hb. now apply (lxor_lt x y 8).
  - inversion_clear Ha. inversion_clear Hb. now apply IH.
Qed.

Lemma zip_xor_inj a : forall b c, List.length a = List.length b -> List.length a = List.length c ->
  zip_xor a b = zip_xor a c -> b = c.
Proof.
  induction a as [|x a IH]; intros [|y b] [|z c] Hb Hc H; try discriminate; [reflexivity|].
  cbn [zip_xor] in H. injection H as H1 H2. f_equal; [|apply IH; [now injection Hb|now injection Hc|exact H2]].
  apply (f_equal (N.lxor x)) in H1. now rewrite <- !N.lxor_assoc, N.lxor_nilpotent, !N.lxor_0_l in H1.
Qed.

Lemma raw_bytes_words v : List.length v = 8%nat -> Forall u8 v ->
  exists a b, BlkRaw_bytes v = Ok (a, b) /\ a < 2 ^ 32 /\ b < 2 ^ 32 /\ v = to_le 4 a ++ to_le 4 b.
Proof.
  intros L B. exists (of_le (firstn 4 v)), (of_le (firstn 4 (skipn 4 v))).
  assert (L1 : List.length (firstn 4 v) = 4%nat) by (rewrite firstn_length; lia).
  assert (L2 : List.length (skipn 4 v) = 4%nat) by (rewrite skipn_length; lia).
  rewrite (firstn_all2 (skipn 4 v)) by lia.
  assert (B1 : Forall u8 (firstn 4 v)) by (rewrite <- (firstn_skipn 4 v) in B; now apply Forall_app in B).
  assert (B2 : Forall u8 (skipn 4 v)) by (rewrite <- (firstn_skipn 4 v) in B; now apply Forall_app in B).
  pose proof (of_le_lt _ B1) as H1. pose proof (of_le_lt _ B2) as H2. unfold len in H1, H2. rewrite L1 in H1. rewrite L2 in H2.
  change (2 ^ (8 * N.of_nat 4)) with (2 ^ 32) in *.
  split; [unfold BlkRaw_bytes, BlkRaw2; now rewrite (firstn_all2 (skipn 4 v)) by lia|].
  split; [exact H1|split; [exact H2|]].
  pose proof (to_of_le _ B1) as E1. rewrite L1 in E1. pose proof (to_of_le _ B2) as E2. rewrite L2 in E2.
  rewrite E1, E2. now rewrite firstn_skipn.
Qed.

Lemma dataimit_loop_reveals n0 : forall fuel st data data', List.length st = 8%nat -> Forall u8 st ->
  List.length data = (8 * n0)%nat -> List.length data' = (8 * n0)%nat -> (n0 <= fuel)%nat ->
  Forall u8 data -> Forall u8 data' ->
  lookups (snd (dataimit_loop_t kd sb fuel st data)) = lookups (snd (dataimit_loop_t kd sb fuel st data')) ->
  data = data'.
Proof.
  induction n0 as [|n0 IH]; intros fuel st data data' Hst Bst Hd Hd' Hf HB HB' H.
  - destruct data; [|cbn [List.length] in Hd; lia]. destruct data'; [reflexivity|cbn [List.length] in Hd'; lia].
  - destruct fuel as [|f]; [lia|].
    assert (G : forall d, List.length d = (8 * Datatypes.S n0)%nat -> Forall u8 d -> exists x r a b f1 f2,
      d = x ++ r /\ List.length x = 8%nat /\ List.length r = (8 * n0)%nat /\ Forall u8 r /\
      a < 2 ^ 32 /\ b < 2 ^ 32 /\ zip_xor st x = to_le 4 a ++ to_le 4 b /\
      fst (BlkForwarded_t kd sb (BlkForwarded_t kd sb (tret (a, b)))) = Ok (f1, f2) /\
      lookups (snd (dataimit_loop_t kd sb (Datatypes.S f) st d)) =
      lookups (snd (BlkForwarded_t kd sb (BlkForwarded_t kd sb (tret (a, b))))) ++
      lookups (snd (dataimit_loop_t kd sb f (to_le 4 f1 ++ to_le 4 f2) r))).
    { intros d Ld Bd. destruct (take8 d ltac:(lia)) as (x & r & -> & Lx & Lr).
      apply Forall_app in Bd as [Bx Br].
      assert (Lz : List.length (zip_xor st x) = 8%nat) by (rewrite zip_xor_length; lia).
      destruct (raw_bytes_words (zip_xor st x) Lz (zip_xor_u8 st x Bst Bx)) as (a & b & E & Ha & Hb & Ez).
      destruct (quiet_imited kd ws sb tb Hkd Hq (a, b)) as ([[f1 f2] F] & _).
      exists x, r, a, b, f1, f2. repeat (split; [first [assumption|reflexivity|lia]|]).
      assert (X : xor_bytes st (x ++ r) = Ok (zip_xor st x, r)) by (apply xor_bytes_ok; lia).
      destruct x as [|y x]; [discriminate Lx|]. cbn [app] in *. cbn [dataimit_loop_t].
      rewrite test_lookups.
      rewrite (snd_tbind (tlift (xor_bytes st (y :: x ++ r))) _ (zip_xor st (y :: x), r)) by exact X.
      cbn [tlift snd app].
      rewrite (snd_tbind (tlift (read8 ISO (zip_xor st (y :: x)))) _ (zip_xor st (y :: x)))
        by (apply read8_ok; exact Lz).
      cbn [tlift snd app]. rewrite E. fold (@tret (N * N) (a, b)).
      rewrite (snd_tbind _ _ _ F), lookups_app. f_equal.
      rewrite (snd_tbind (tlift (write8 ISO _ _)) _ (to_le 4 f1 ++ to_le 4 f2)) by (apply write8_ok; exact Lz).
      reflexivity. }
    destruct (G data Hd HB) as (x & r & a & b & f1 & f2 & -> & Lx & Lr & Br & Ha & Hb & Z & F & E).
    destruct (G data' Hd' HB') as (x' & r' & a' & b' & f1' & f2' & -> & Lx' & Lr' & Br' & Ha' & Hb' & Z' & F' & E').
    rewrite E, E' in H. clear E E' G. apply agree_refl, agree_app in H; [|now rewrite !imited_length].
    destruct H as [H1 H2]. apply imited_reveals in H1; [|assumption..]. destruct H1 as [-> ->].
    assert (Ex : x = x') by (apply (zip_xor_inj st); [lia|lia|congruence]).
    rewrite F in F'. injection F' as <- <-. subst x'. f_equal.
    apply (IH f (to_le 4 f1 ++ to_le 4 f2)); try assumption; try lia.
    + rewrite app_length, !to_le_length. reflexivity.
    + apply Forall_app. split; apply to_le_u8.
    + assert (Q : List.length (lookups (snd (dataimit_loop_t kd sb f (to_le 4 f1 ++ to_le 4 f2) r))) =
                  List.length (lookups (snd (dataimit_loop_t kd sb f (to_le 4 f1 ++ to_le 4 f2) r')))).
      { rewrite !lookups_tables.
        destruct (dataimit_loop_shows kd ws sb tb Hkd Hq n0 f (to_le 4 f1 ++ to_le 4 f2) r eq_refl Lr ltac:(lia))
          as (? & _ & _ & -> & _).
        destruct (dataimit_loop_shows kd ws sb tb Hkd Hq n0 f (to_le 4 f1 ++ to_le 4 f2) r' eq_refl Lr' ltac:(lia))
          as (? & _ & _ & -> & _). reflexivity. }
      rewrite <- (app_nil_r (lookups (snd (dataimit_loop_t kd sb f _ r)))) in H2.
      rewrite <- (app_nil_r (lookups (snd (dataimit_loop_t kd sb f _ r')))) in H2.
      now apply (agree_app _ _ _ _ Q) in H2.
Qed.

Lemma pad_events data : lookups (snd (dataimit_pad_t data)) = [].
Proof.
  cbn [dataimit_pad_t snd]. rewrite !lookups_app.
  assert (R : forall j, lookups (repeat (Branch true) j) = []) by (clear; induction j as [|j IH]; [reflexivity|exact IH]).
  now rewrite !R.
Qed.

Lemma pad_length data : exists k, List.length (dataimit_pad data) = (8 * k)%nat.
Proof.
  rewrite pad89_ok. pose proof (pad89_mod data) as H. exists (List.length (pad89 data) / 8)%nat.
  pose proof (Nat.div_mod (List.length (pad89 data)) 8 ltac:(discriminate)) as D. lia.
Qed.

Lemma dataimit_reveals data data' : List.length data = List.length data' -> Forall u8 data -> Forall u8 data' ->
  lookups (snd (DataImit_t kd sb data)) = lookups (snd (DataImit_t kd sb data')) -> data = data'.
Proof.
  intros HL HB HB' H. unfold DataImit_t in H.
  rewrite !(snd_tbind (dataimit_pad_t _) _ (dataimit_pad _)) in H by reflexivity.
  rewrite !lookups_app, !pad_events in H. cbn [app] in H.
  assert (P : exists z, Forall u8 z /\ dataimit_pad data = data ++ z /\ dataimit_pad data' = data' ++ z).
  { rewrite !pad89_ok. unfold pad89. rewrite <- HL. eexists. split; [|split; reflexivity].
    apply Forall_forall. intros y Hy. apply repeat_spec in Hy. subst y. reflexivity. }
  destruct P as (z & Bz & E & E'). destruct (pad_length data) as [n0 Hn].
  assert (L : List.length (dataimit_pad data) = List.length (dataimit_pad data')) by (rewrite E, E', !app_length; lia).
  rewrite <- L in H.
  apply (dataimit_loop_reveals n0) in H; try (rewrite <- ?L; lia); try reflexivity.
  - rewrite E, E' in H. now apply app_inv_tail in H.
  - apply Forall_forall. intros y Hy. apply repeat_spec in Hy. subst y. reflexivity.
  - rewrite E. now apply Forall_app.
  - rewrite E'. now apply Forall_app.
Qed.

Definition pad_branches (j : nat) : list event :=
  repeat (Branch true) (16 - j) ++ [Branch false] ++
  repeat (Branch true) ((8 - (j + (16 - j)) mod 8) mod 8) ++ [Branch false].

Lemma pad_shows data : shows (dataimit_pad_t data) (fun p => p = dataimit_pad data) [] (pad_branches (List.length data)).
Proof.
  exists (dataimit_pad data). split; [reflexivity|split; [reflexivity|]].
  assert (R : forall j, tables (repeat (Branch true) j) = []) by (clear; induction j as [|j IH]; [reflexivity|exact IH]).
  assert (R' : forall j, branches (repeat (Branch true) j) = repeat (Branch true) j)
    by (clear; induction j as [|j IH]; [reflexivity|cbn; f_equal; exact IH]).
  cbn [dataimit_pad_t snd]. unfold pad_branches. rewrite !tables_app, !branches_app, !R, !R'.
  rewrite app_length, repeat_length. split; reflexivity.
Qed.

Lemma dataimit_seen data k : List.length (dataimit_pad data) = (8 * k)%nat ->
  seen (DataImit_t kd sb data) (mac_tables tb k)
       (pad_branches (List.length data) ++ repeat (Branch true) k ++ [Branch false]).
Proof.
  intros Hk. unfold DataImit_t. rewrite <- (app_nil_l (mac_tables tb k)).
  eapply seen_bind; [apply pad_shows|]. intros p ->. eapply shows_seen.
  apply (dataimit_loop_shows kd ws sb tb Hkd Hq k); [reflexivity|exact Hk|lia].
Qed.
End RevealData.

(** ** What CFB keeps hidden: the last block *)

Section Last.
Context (kd : keydata) (ws : list N) (sb : tsbox) (tb : list N).
Hypothesis Hkd : words_of kd ws.
Hypothesis Hsb : forall v, v < 2 ^ 32 -> quiet (sb v) tb.
Context {S S' : Type} (put : S -> bytes -> res S) (put' : S' -> bytes -> res S') (m m' : mode).
Hypothesis Hput : forall s d, exists s1, put s d = Ok s1.
Hypothesis Hput' : forall s d, exists s1, put' s d = Ok s1.

Lemma test_events {A} b (x : T A) : snd (_ <~ test b ;; x) = Branch b :: snd x.
Proof. reflexivity. Qed.

(** Fewer than 8 bytes in all: no block is encrypted. *)
Lemma gost_short b : forall b' p p' s s' l l', List.length b = List.length b' -> List.length p = List.length p' ->
  (List.length p + List.length b < 8)%nat ->
  snd (gost_cfb_write_t kd sb put m b p s l) = snd (gost_cfb_write_t kd sb put' m' b' p' s' l').
Proof.
  induction b as [|x b IH]; intros [|x' b'] p p' s s' l l' HL HP H8; try discriminate HL; [reflexivity|].
  cbn [List.length] in H8, HL. injection HL as HL.
  assert (L : List.length (p ++ [x]) = Datatypes.S (List.length p)) by (rewrite app_length; cbn; lia).
  assert (L' : List.length (p' ++ [x']) = Datatypes.S (List.length p)) by (rewrite app_length; cbn; lia).
  cbn [gost_cfb_write_t]. cbv zeta. rewrite !test_events, L, L'.
  replace (Nat.eqb (Datatypes.S (List.length p)) block_size) with false
    by (symmetry; apply Nat.eqb_neq; unfold block_size; lia).
  f_equal. f_equal. apply IH; [exact HL|congruence|rewrite L; lia].
Qed.

(** Fewer than 16: the block that is encrypted is the register, not the data. *)
Lemma gost_last b : forall b' p p' s s' l, List.length b = List.length b' -> List.length p = List.length p' ->
  (List.length p < 8)%nat -> (List.length p + List.length b < 16)%nat ->
  snd (gost_cfb_write_t kd sb put m b p s l) = snd (gost_cfb_write_t kd sb put' m' b' p' s' l).
Proof.
  induction b as [|x b IH]; intros [|x' b'] p p' s s' l HL HP HP8 H8; try discriminate HL; [reflexivity|].
  cbn [List.length] in H8, HL. injection HL as HL.
  assert (L : List.length (p ++ [x]) = Datatypes.S (List.length p)) by (rewrite app_length; cbn; lia).
  assert (L' : List.length (p' ++ [x']) = Datatypes.S (List.length p)) by (rewrite app_length; cbn; lia).
  cbn [gost_cfb_write_t]. cbv zeta. rewrite !test_events, L, L'. f_equal. f_equal.
  destruct (Nat.eqb_spec (Datatypes.S (List.length p)) block_size) as [E|E]; unfold block_size in E.
  - destruct (quiet_block kd ws sb tb Hkd Hsb l) as ([[f1 f2] F] & _).
    rewrite !(snd_tbind (block_t kd sb l) _ (f1, f2)) by exact F. f_equal.
    destruct (sink_xor_eight m (p ++ [x]) f1 f2 ltac:(lia)) as [c Ec].
    destruct (sink_xor_eight m' (p' ++ [x']) f1 f2 ltac:(lia)) as [c' Ec'].
    rewrite (snd_tbind (tlift (sink_xor m (p ++ [x]) f1 f2)) _ c) by exact Ec.
    rewrite (snd_tbind (tlift (sink_xor m' (p' ++ [x']) f1 f2)) _ c') by exact Ec'.
    destruct (Hput s c) as [s1 E1]. destruct (Hput' s' c') as [s1' E1'].
    rewrite (snd_tbind (tlift (put s c)) _ s1) by exact E1.
    rewrite (snd_tbind (tlift (put' s' c')) _ s1') by exact E1'. cbn [tlift snd app].
    apply gost_short; [exact HL|reflexivity|cbn [List.length]; lia].
  - apply IH; [exact HL|congruence|lia|lia].
Qed.

Lemma sink_xor_mode p f g : List.length p = 8%nat -> sink_xor m p f g = sink_xor m' p f g.
Proof.
  intros H. do 8 (destruct p as [|? p]; [discriminate H|]). destruct p; [|discriminate H]. reflexivity.
Qed.

Lemma gost_prefix a : forall b b' p s s' l, List.length b = List.length b' -> (List.length b < 16)%nat ->
  (List.length p < 8)%nat -> (Nat.modulo (List.length p + List.length a) 8 = 0)%nat ->
  snd (gost_cfb_write_t kd sb put m (a ++ b) p s l) = snd (gost_cfb_write_t kd sb put' m' (a ++ b') p s' l).
Proof.
  induction a as [|x a IH]; intros b b' p s s' l HL H16 HP8 HM.
  - cbn [List.length] in HM. rewrite Nat.add_0_r, Nat.mod_small in HM by exact HP8.
    cbn [app]. apply gost_last; [exact HL|reflexivity|lia|lia].
  - assert (L : List.length (p ++ [x]) = Datatypes.S (List.length p)) by (rewrite app_length; cbn; lia).
    cbn [List.length] in HM.
    cbn [app gost_cfb_write_t]. cbv zeta. rewrite !test_events, L. f_equal. f_equal.
    destruct (Nat.eqb_spec (Datatypes.S (List.length p)) block_size) as [E|E]; unfold block_size in E.
    + destruct (quiet_block kd ws sb tb Hkd Hsb l) as ([[f1 f2] F] & _).
      rewrite !(snd_tbind (block_t kd sb l) _ (f1, f2)) by exact F. f_equal.
      destruct (sink_xor_eight m (p ++ [x]) f1 f2 ltac:(lia)) as [c Ec].
      assert (Ec' : sink_xor m' (p ++ [x]) f1 f2 = Ok c) by (rewrite <- sink_xor_mode by lia; exact Ec).
      rewrite (snd_tbind (tlift (sink_xor m (p ++ [x]) f1 f2)) _ c) by exact Ec.
      rewrite (snd_tbind (tlift (sink_xor m' (p ++ [x]) f1 f2)) _ c) by exact Ec'.
      destruct (Hput s c) as [s1 E1]. destruct (Hput' s' c) as [s1' E1'].
      rewrite (snd_tbind (tlift (put s c)) _ s1) by exact E1.
      rewrite (snd_tbind (tlift (put' s' c)) _ s1') by exact E1'. cbn [tlift snd app].
      apply IH; [exact HL|exact H16|cbn; lia|]. cbn [List.length].
      replace (List.length p + Datatypes.S (List.length a))%nat with (List.length a + 1 * 8)%nat in HM by lia.
      now rewrite Nat.mod_add in HM by discriminate.
    + apply IH; [exact HL|exact H16|lia|]. rewrite L.
      replace (Datatypes.S (List.length p) + List.length a)%nat with (List.length p + Datatypes.S (List.length a))%nat by lia.
      exact HM.
Qed.
(** magma::CFBSink encrypts the register before the last: two blocks stay hidden. *)
Lemma magma_short b : forall b' p p' s s' l l' r r', List.length b = List.length b' -> List.length p = List.length p' ->
  (List.length p + List.length b < 8)%nat ->
  snd (magma_cfb_write_t kd sb put m b p s l r) = snd (magma_cfb_write_t kd sb put' m' b' p' s' l' r').
Proof.
  induction b as [|x b IH]; intros [|x' b'] p p' s s' l l' r r' HL HP H8; try discriminate HL; [reflexivity|].
  cbn [List.length] in H8, HL. injection HL as HL.
  assert (L : List.length (p ++ [x]) = Datatypes.S (List.length p)) by (rewrite app_length; cbn; lia).
  assert (L' : List.length (p' ++ [x']) = Datatypes.S (List.length p)) by (rewrite app_length; cbn; lia).
  cbn [magma_cfb_write_t]. cbv zeta. rewrite !test_events, L, L'.
  replace (Nat.eqb (Datatypes.S (List.length p)) block_size) with false
    by (symmetry; apply Nat.eqb_neq; unfold block_size; lia).
  f_equal. f_equal. apply IH; [exact HL|congruence|rewrite L; lia].
Qed.

Lemma magma_two b : forall b' p p' s s' l r r', List.length b = List.length b' -> List.length p = List.length p' ->
  (List.length p < 8)%nat -> (List.length p + List.length b < 16)%nat ->
  snd (magma_cfb_write_t kd sb put m b p s l r) = snd (magma_cfb_write_t kd sb put' m' b' p' s' l r').
Proof.
  induction b as [|x b IH]; intros [|x' b'] p p' s s' l r r' HL HP HP8 H8; try discriminate HL; [reflexivity|].
  cbn [List.length] in H8, HL. injection HL as HL.
  assert (L : List.length (p ++ [x]) = Datatypes.S (List.length p)) by (rewrite app_length; cbn; lia).
  assert (L' : List.length (p' ++ [x']) = Datatypes.S (List.length p)) by (rewrite app_length; cbn; lia).
  cbn [magma_cfb_write_t]. cbv zeta. rewrite !test_events, L, L'. f_equal. f_equal.
  destruct (Nat.eqb_spec (Datatypes.S (List.length p)) block_size) as [E|E]; unfold block_size in E.
  - destruct (quiet_block kd ws sb tb Hkd Hsb l) as ([[f1 f2] F] & _).
    rewrite !(snd_tbind (block_t kd sb l) _ (f1, f2)) by exact F. f_equal.
    destruct (sink_xor_eight m (p ++ [x]) f1 f2 ltac:(lia)) as [c Ec].
    destruct (sink_xor_eight m' (p' ++ [x']) f1 f2 ltac:(lia)) as [c' Ec'].
    rewrite (snd_tbind (tlift (sink_xor m (p ++ [x]) f1 f2)) _ c) by exact Ec.
    rewrite (snd_tbind (tlift (sink_xor m' (p' ++ [x']) f1 f2)) _ c') by exact Ec'.
    destruct (Hput s c) as [s1 E1]. destruct (Hput' s' c') as [s1' E1'].
    rewrite (snd_tbind (tlift (put s c)) _ s1) by exact E1.
    rewrite (snd_tbind (tlift (put' s' c')) _ s1') by exact E1'. cbn [tlift snd app].
    apply magma_short; [exact HL|reflexivity|cbn [List.length]; lia].
  - apply IH; [exact HL|congruence|lia|lia].
Qed.

Lemma magma_last b : forall b' p p' s s' l r, List.length b = List.length b' -> List.length p = List.length p' ->
  (List.length p < 8)%nat -> (List.length p + List.length b < 24)%nat ->
  snd (magma_cfb_write_t kd sb put m b p s l r) = snd (magma_cfb_write_t kd sb put' m' b' p' s' l r).
Proof.
  induction b as [|x b IH]; intros [|x' b'] p p' s s' l r HL HP HP8 H8; try discriminate HL; [reflexivity|].
  cbn [List.length] in H8, HL. injection HL as HL.
  assert (L : List.length (p ++ [x]) = Datatypes.S (List.length p)) by (rewrite app_length; cbn; lia).
  assert (L' : List.length (p' ++ [x']) = Datatypes.S (List.length p)) by (rewrite app_length; cbn; lia).
  cbn [magma_cfb_write_t]. cbv zeta. rewrite !test_events, L, L'. f_equal. f_equal.
  destruct (Nat.eqb_spec (Datatypes.S (List.length p)) block_size) as [E|E]; unfold block_size in E.
  - destruct (quiet_block kd ws sb tb Hkd Hsb l) as ([[f1 f2] F] & _).
    rewrite !(snd_tbind (block_t kd sb l) _ (f1, f2)) by exact F. f_equal.
    destruct (sink_xor_eight m (p ++ [x]) f1 f2 ltac:(lia)) as [c Ec].
    destruct (sink_xor_eight m' (p' ++ [x']) f1 f2 ltac:(lia)) as [c' Ec'].
    rewrite (snd_tbind (tlift (sink_xor m (p ++ [x]) f1 f2)) _ c) by exact Ec.
    rewrite (snd_tbind (tlift (sink_xor m' (p' ++ [x']) f1 f2)) _ c') by exact Ec'.
    destruct (Hput s c) as [s1 E1]. destruct (Hput' s' c') as [s1' E1'].
    rewrite (snd_tbind (tlift (put s c)) _ s1) by exact E1.
    rewrite (snd_tbind (tlift (put' s' c')) _ s1') by exact E1'. cbn [tlift snd app].
    apply magma_two; [exact HL|reflexivity|cbn [List.length]; lia|cbn [List.length]; lia].
  - apply IH; [exact HL|congruence|lia|lia].
Qed.

Lemma magma_prefix a : forall b b' p s s' l r, List.length b = List.length b' -> (List.length b < 24)%nat ->
  (List.length p < 8)%nat -> (Nat.modulo (List.length p + List.length a) 8 = 0)%nat ->
  snd (magma_cfb_write_t kd sb put m (a ++ b) p s l r) = snd (magma_cfb_write_t kd sb put' m' (a ++ b') p s' l r).
Proof.
  induction a as [|x a IH]; intros b b' p s s' l r HL H24 HP8 HM.
  - cbn [List.length] in HM. rewrite Nat.add_0_r, Nat.mod_small in HM by exact HP8.
    cbn [app]. apply magma_last; [exact HL|reflexivity|lia|lia].
  - assert (L : List.length (p ++ [x]) = Datatypes.S (List.length p)) by (rewrite app_length; cbn; lia).
    cbn [List.length] in HM.
    cbn [app magma_cfb_write_t]. cbv zeta. rewrite !test_events, L. f_equal. f_equal.
    destruct (Nat.eqb_spec (Datatypes.S (List.length p)) block_size) as [E|E]; unfold block_size in E.
    + destruct (quiet_block kd ws sb tb Hkd Hsb l) as ([[f1 f2] F] & _).
      rewrite !(snd_tbind (block_t kd sb l) _ (f1, f2)) by exact F. f_equal.
      destruct (sink_xor_eight m (p ++ [x]) f1 f2 ltac:(lia)) as [c Ec].
      assert (Ec' : sink_xor m' (p ++ [x]) f1 f2 = Ok c) by (rewrite <- sink_xor_mode by lia; exact Ec).
      rewrite (snd_tbind (tlift (sink_xor m (p ++ [x]) f1 f2)) _ c) by exact Ec.
      rewrite (snd_tbind (tlift (sink_xor m' (p ++ [x]) f1 f2)) _ c) by exact Ec'.
      destruct (Hput s c) as [s1 E1]. destruct (Hput' s' c) as [s1' E1'].
      rewrite (snd_tbind (tlift (put s c)) _ s1) by exact E1.
      rewrite (snd_tbind (tlift (put' s' c)) _ s1') by exact E1'. cbn [tlift snd app].
      apply IH; [exact HL|exact H24|cbn; lia|]. cbn [List.length].
      replace (List.length p + Datatypes.S (List.length a))%nat with (List.length a + 1 * 8)%nat in HM by lia.
      now rewrite Nat.mod_add in HM by discriminate.
    + apply IH; [exact HL|exact H24|lia|]. rewrite L.
      replace (Datatypes.S (List.length p) + List.length a)%nat with (List.length p + Datatypes.S (List.length a))%nat by lia.
      exact HM.
Qed.
End Last.

(** All blocks before it are seen. *)

Lemma zip_xor_inj_l a : forall b c, List.length a = List.length b -> List.length a = List.length c ->
  zip_xor b a = zip_xor c a -> b = c.
Proof.
  induction a as [|x a IH]; intros [|y b] [|z c] Hb Hc H; try discriminate; [reflexivity|].
  cbn [zip_xor] in H. injection H as H1 H2. f_equal; [|apply IH; [now injection Hb|now injection Hc|exact H2]].
  apply (f_equal (fun v => N.lxor v x)) in H1. now rewrite !N.lxor_assoc, N.lxor_nilpotent, !N.lxor_0_r in H1.
Qed.

Lemma sink_xor_zip m p f g : List.length p = 8%nat -> sink_xor m p f g = Ok (zip_xor p (to_le 4 f ++ to_le 4 g)).
Proof.
  intros Hp. rewrite !to_le_4. destruct (list8 p Hp) as (b0 & b1 & b2 & b3 & b4 & b5 & b6 & b7 & ->). reflexivity.
Qed.

Section Earlier.
Context (kd : keydata) (ws : list N) (sb : tsbox) (tb : list N) (n : nat).
Hypothesis Hkd : words_of kd ws.
Hypothesis Hsb : forall v, v < 2 ^ 32 -> quiet (sb v) tb.
Hypothesis Hrev : reveals sb n.

Lemma block_reveals x x' : x < 2 ^ 64 -> x' < 2 ^ 64 ->
  lookups (snd (block_t kd sb x)) = lookups (snd (block_t kd sb x')) -> x = x'.
Proof.
  intros Hx Hx' H. unfold block_t in H.
  change (tlift (BlkRaw64 x)) with (tret (w32 x, w32 (N.shiftr x 32))) in H.
  change (tlift (BlkRaw64 x')) with (tret (w32 x', w32 (N.shiftr x' 32))) in H.
  rewrite !w32_shiftr in H by assumption.
  destruct (encrypted_starts kd sb (tret (w32 x, x / 2 ^ 32))) as [r E].
  destruct (encrypted_starts kd sb (tret (w32 x', x' / 2 ^ 32))) as [r' E'].
  rewrite E, E', !lookups_app in H. apply agree_refl, agree_prefix in H. clear E E'.
  unfold BlkForwarded_t in H.
  rewrite !(snd_tbind (tret (w32 x, x / 2 ^ 32)) _ (w32 x, x / 2 ^ 32)) in H by reflexivity.
  rewrite !(snd_tbind (tret (w32 x', x' / 2 ^ 32)) _ (w32 x', x' / 2 ^ 32)) in H by reflexivity.
  cbn [tret tlift snd app] in H.
  apply (two_rounds kd ws sb n Hkd Hrev) in H; try apply w32_lt;
    [|apply N.div_lt_upper_bound; [discriminate|exact Hx]|apply N.div_lt_upper_bound; [discriminate|exact Hx']].
  destruct H as [H1 H2]. unfold w32 in H1. change (2 ^ 32) with 4294967296 in *. lia.
Qed.

Lemma block_length x : List.length (lookups (snd (block_t kd sb x))) = List.length (List.concat (repeat tb 32)).
Proof. rewrite lookups_tables. destruct (quiet_block kd ws sb tb Hkd Hsb x) as (_ & -> & _). reflexivity. Qed.

Lemma gost_block {S} (put : S -> bytes -> res S) m x r s l : (forall s d, exists s1, put s d = Ok s1) ->
  List.length x = 8%nat ->
  exists f1 f2 s1, fst (block_t kd sb l) = Ok (f1, f2) /\
    lookups (snd (gost_cfb_write_t kd sb put m (x ++ r) [] s l)) =
    lookups (snd (block_t kd sb l)) ++
    lookups (snd (gost_cfb_write_t kd sb put m r [] s1 (of_le (zip_xor x (to_le 4 f1 ++ to_le 4 f2))))).
Proof.
  intros Hput Lx. destruct (quiet_block kd ws sb tb Hkd Hsb l) as ([[f1 f2] F] & _).
  destruct (Hput s (zip_xor x (to_le 4 f1 ++ to_le 4 f2))) as [s1 E1].
  exists f1, f2, s1. split; [exact F|].
  pose proof (sink_xor_zip m x f1 f2 Lx) as X.
  assert (Lz : List.length (zip_xor x (to_le 4 f1 ++ to_le 4 f2)) = 8%nat)
    by (rewrite zip_xor_length; rewrite ?app_length, ?to_le_length; lia).
  destruct (list8 x Lx) as (b0 & b1 & b2 & b3 & b4 & b5 & b6 & b7 & Ex).
  rewrite Ex at 1. cbn [app gost_cfb_write_t]. cbv zeta. rewrite !test_lookups.
  cbn [app List.length Nat.eqb block_size]. rewrite <- Ex.
  rewrite !test_lookups. rewrite (snd_tbind _ _ _ F), lookups_app. f_equal.
  rewrite (snd_tbind (tlift (sink_xor m x f1 f2)) _ _) by exact X.
  rewrite (snd_tbind (tlift (put s _)) _ s1) by exact E1. cbn [tlift snd app].
  rewrite (firstn_all2 (zip_xor x _)) by lia. reflexivity.
Qed.

Lemma gost_reveals {S S'} (put : S -> bytes -> res S) (put' : S' -> bytes -> res S') m m' :
  (forall s d, exists s1, put s d = Ok s1) -> (forall s d, exists s1, put' s d = Ok s1) ->
  forall j data data' s s' l l', List.length data = (8 * (j + 1))%nat -> List.length data' = (8 * (j + 1))%nat ->
  Forall u8 data -> Forall u8 data' -> l < 2 ^ 64 -> l' < 2 ^ 64 ->
  lookups (snd (gost_cfb_write_t kd sb put m data [] s l)) =
  lookups (snd (gost_cfb_write_t kd sb put' m' data' [] s' l')) ->
  l = l' /\ firstn (8 * j) data = firstn (8 * j) data'.
Proof.
  intros Hput Hput'. induction j as [|j IH]; intros data data' s s' l l' Hd Hd' B B' Hl Hl' H;
    destruct (take8 data ltac:(lia)) as (x & r & -> & Lx & Lr);
    destruct (take8 data' ltac:(lia)) as (x' & r' & -> & Lx' & Lr');
    apply Forall_app in B as [Bx Br]; apply Forall_app in B' as [Bx' Br'];
    destruct (gost_block put m x r s l Hput Lx) as (f1 & f2 & s1 & F & E);
    destruct (gost_block put' m' x' r' s' l' Hput' Lx') as (f1' & f2' & s1' & F' & E');
    rewrite E, E' in H; clear E E'; apply agree_refl, agree_app in H; try (now rewrite !block_length);
    destruct H as [H1 H2]; apply block_reveals in H1; try assumption; subst l'.
  - split; reflexivity.
  - split; [reflexivity|]. rewrite F in F'. injection F' as <- <-.
    set (c := zip_xor x (to_le 4 f1 ++ to_le 4 f2)) in *. set (c' := zip_xor x' (to_le 4 f1 ++ to_le 4 f2)) in *.
    assert (Lc : List.length c = 8%nat) by (unfold c; rewrite zip_xor_length; rewrite ?app_length, ?to_le_length; lia).
    assert (Lc' : List.length c' = 8%nat) by (unfold c'; rewrite zip_xor_length; rewrite ?app_length, ?to_le_length; lia).
    assert (Bf : Forall u8 (to_le 4 f1 ++ to_le 4 f2)) by (apply Forall_app; split; apply to_le_u8).
    assert (Bc : Forall u8 c) by now apply zip_xor_u8. assert (Bc' : Forall u8 c') by now apply zip_xor_u8.
    rewrite app_length in Hd, Hd'.
    assert (Q : List.length (lookups (snd (gost_cfb_write_t kd sb put m r [] s1 (of_le c)))) =
                List.length (lookups (snd (gost_cfb_write_t kd sb put' m' r' [] s1' (of_le c'))))).
    { rewrite !lookups_tables.
      destruct (gost_write_shows kd ws sb tb Hkd Hsb put m Hput r [] s1 (of_le c)) as (? & _ & _ & -> & _).
      destruct (gost_write_shows kd ws sb tb Hkd Hsb put' m' Hput' r' [] s1' (of_le c')) as (? & _ & _ & -> & _).
      do 2 f_equal. lia. }
    rewrite <- (app_nil_r (lookups (snd (gost_cfb_write_t kd sb put m r [] s1 (of_le c))))) in H2.
    rewrite <- (app_nil_r (lookups (snd (gost_cfb_write_t kd sb put' m' r' [] s1' (of_le c'))))) in H2.
    apply (agree_app _ _ _ _ Q) in H2. destruct H2 as [H2 _].
    apply IH in H2; try assumption; try lia; try (now apply of_le_8_lt).
    destruct H2 as [Hc Hr]. apply of_le_inj in Hc; try assumption; [|lia].
    apply zip_xor_inj_l in Hc; [|rewrite app_length, !to_le_length; lia..]. subst x'.
    replace (8 * Datatypes.S j)%nat with (List.length x + 8 * j)%nat by lia.
    rewrite !firstn_app_2. now rewrite Hr.
Qed.
Lemma magma_block {S} (put : S -> bytes -> res S) m x r s l rr : (forall s d, exists s1, put s d = Ok s1) ->
  List.length x = 8%nat ->
  exists f1 f2 s1, fst (block_t kd sb l) = Ok (f1, f2) /\
    lookups (snd (magma_cfb_write_t kd sb put m (x ++ r) [] s l rr)) =
    lookups (snd (block_t kd sb l)) ++
    lookups (snd (magma_cfb_write_t kd sb put m r [] s1 rr (of_le (zip_xor x (to_le 4 f1 ++ to_le 4 f2))))).
Proof.
  intros Hput Lx. destruct (quiet_block kd ws sb tb Hkd Hsb l) as ([[f1 f2] F] & _).
  destruct (Hput s (zip_xor x (to_le 4 f1 ++ to_le 4 f2))) as [s1 E1].
  exists f1, f2, s1. split; [exact F|].
  pose proof (sink_xor_zip m x f1 f2 Lx) as X.
  assert (Lz : List.length (zip_xor x (to_le 4 f1 ++ to_le 4 f2)) = 8%nat)
    by (rewrite zip_xor_length; rewrite ?app_length, ?to_le_length; lia).
  destruct (list8 x Lx) as (b0 & b1 & b2 & b3 & b4 & b5 & b6 & b7 & Ex).
  rewrite Ex at 1. cbn [app magma_cfb_write_t]. cbv zeta. rewrite !test_lookups.
  cbn [app List.length Nat.eqb block_size]. rewrite <- Ex.
  rewrite !test_lookups. rewrite (snd_tbind _ _ _ F), lookups_app. f_equal.
  rewrite (snd_tbind (tlift (sink_xor m x f1 f2)) _ _) by exact X.
  rewrite (snd_tbind (tlift (put s _)) _ s1) by exact E1. cbn [tlift snd app].
  rewrite (firstn_all2 (zip_xor x _)) by lia. reflexivity.
Qed.

Lemma magma_reveals {S S'} (put : S -> bytes -> res S) (put' : S' -> bytes -> res S') m m' :
  (forall s d, exists s1, put s d = Ok s1) -> (forall s d, exists s1, put' s d = Ok s1) ->
  forall j data data' s s' l l' q q', List.length data = (8 * (j + 2))%nat -> List.length data' = (8 * (j + 2))%nat ->
  Forall u8 data -> Forall u8 data' -> l < 2 ^ 64 -> l' < 2 ^ 64 -> q < 2 ^ 64 -> q' < 2 ^ 64 ->
  lookups (snd (magma_cfb_write_t kd sb put m data [] s l q)) =
  lookups (snd (magma_cfb_write_t kd sb put' m' data' [] s' l' q')) ->
  l = l' /\ q = q' /\ firstn (8 * j) data = firstn (8 * j) data'.
Proof.
  intros Hput Hput'.
  assert (Step : forall data data' s s' l l' q q',
    List.length data = List.length data' -> (8 <= List.length data)%nat ->
    Forall u8 data -> Forall u8 data' -> l < 2 ^ 64 -> l' < 2 ^ 64 ->
    lookups (snd (magma_cfb_write_t kd sb put m data [] s l q)) =
    lookups (snd (magma_cfb_write_t kd sb put' m' data' [] s' l' q')) ->
    l = l' /\ exists x x' r r' f s1 s1', data = x ++ r /\ data' = x' ++ r' /\ List.length x = 8%nat /\
      List.length x' = 8%nat /\ List.length f = 8%nat /\ Forall u8 (zip_xor x f) /\ Forall u8 (zip_xor x' f) /\
      Forall u8 r /\ Forall u8 r' /\
      lookups (snd (magma_cfb_write_t kd sb put m r [] s1 q (of_le (zip_xor x f)))) =
      lookups (snd (magma_cfb_write_t kd sb put' m' r' [] s1' q' (of_le (zip_xor x' f))))).
  { intros data data' s s' l l' q q' HL H8 B B' Hl Hl' H.
    destruct (take8 data H8) as (x & r & -> & Lx & Lr).
    destruct (take8 data' ltac:(lia)) as (x' & r' & -> & Lx' & Lr').
    apply Forall_app in B as [Bx Br]; apply Forall_app in B' as [Bx' Br'].
    destruct (magma_block put m x r s l q Hput Lx) as (f1 & f2 & s1 & F & E).
    destruct (magma_block put' m' x' r' s' l' q' Hput' Lx') as (f1' & f2' & s1' & F' & E').
    rewrite E, E' in H. clear E E'. apply agree_refl, agree_app in H; [|now rewrite !block_length].
    destruct H as [H1 H2]. apply block_reveals in H1; [|assumption..]. subst l'. split; [reflexivity|].
    rewrite F in F'. injection F' as <- <-. rewrite !app_length in HL.
    assert (Bf : Forall u8 (to_le 4 f1 ++ to_le 4 f2)) by (apply Forall_app; split; apply to_le_u8).
    exists x, x', r, r', (to_le 4 f1 ++ to_le 4 f2), s1, s1'.
    split; [reflexivity|split; [reflexivity|split; [exact Lx|split; [exact Lx'|]]]].
    split; [now rewrite app_length, !to_le_length|].
    split; [now apply zip_xor_u8|split; [now apply zip_xor_u8|split; [exact Br|split; [exact Br'|]]]].
    set (c := of_le (zip_xor x (to_le 4 f1 ++ to_le 4 f2))) in *.
    set (c' := of_le (zip_xor x' (to_le 4 f1 ++ to_le 4 f2))) in *.
    assert (Q : List.length (lookups (snd (magma_cfb_write_t kd sb put m r [] s1 q c))) =
                List.length (lookups (snd (magma_cfb_write_t kd sb put' m' r' [] s1' q' c')))).
    { rewrite !lookups_tables.
      destruct (magma_write_shows kd ws sb tb Hkd Hsb put m Hput r [] s1 q c) as (? & _ & _ & -> & _).
      destruct (magma_write_shows kd ws sb tb Hkd Hsb put' m' Hput' r' [] s1' q' c') as (? & _ & _ & -> & _).
      do 2 f_equal. lia. }
    rewrite <- (app_nil_r (lookups (snd (magma_cfb_write_t kd sb put m r [] s1 q c)))) in H2.
    rewrite <- (app_nil_r (lookups (snd (magma_cfb_write_t kd sb put' m' r' [] s1' q' c')))) in H2.
    apply (agree_app _ _ _ _ Q) in H2. exact (proj1 H2). }
  induction j as [|j IH]; intros data data' s s' l l' q q' Hd Hd' B B' Hl Hl' Hq Hq' H;
    apply Step in H; try assumption; try lia;
    destruct H as (-> & x & x' & r & r' & f & s1 & s1' & -> & -> & Lx & Lx' & Lf & Bc & Bc' & Br & Br' & H);
    rewrite app_length in Hd, Hd'; (split; [reflexivity|]).
  - apply Step in H; try assumption; try lia. destruct H as [-> _]. split; reflexivity.
  - assert (Lc : List.length (zip_xor x f) = 8%nat) by (rewrite zip_xor_length; lia).
    assert (Lc' : List.length (zip_xor x' f) = 8%nat) by (rewrite zip_xor_length; lia).
    apply IH in H; try assumption; try lia; try (now apply of_le_8_lt).
    destruct H as (-> & Hc & Hr). split; [reflexivity|].
    apply of_le_inj in Hc; try assumption; [|lia]. apply zip_xor_inj_l in Hc; [|lia..]. subst x'.
    replace (8 * Datatypes.S j)%nat with (List.length x + 8 * j)%nat by lia.
    rewrite !firstn_app_2. now rewrite Hr.
Qed.
End Earlier.

(** ** For keys given as text, with the tables of SboxR3412 *)

Lemma key_words s : Forall hex_digit s -> List.length s = 64%nat ->
  words_of (key_data (LazyKey_string s)) (map (key_word (number s)) (seq 0 8)).
Proof. apply words_string. Qed.

Section TextKeys.
Context {S S' : Type} (put : S -> bytes -> res S) (put' : S' -> bytes -> res S') (m m' : mode) (k k' : str).
Hypothesis Hput : forall s d, exists s1, put s d = Ok s1.
Hypothesis Hput' : forall s d, exists s1, put' s d = Ok s1.
Hypothesis Hk : Forall hex_digit k.
Hypothesis Hl : List.length k = 64%nat.
Hypothesis Hk' : Forall hex_digit k'.
Hypothesis Hl' : List.length k' = 64%nat.
Let kd := key_data (LazyKey_string k).
Let kd' := key_data (LazyKey_string k').

Lemma seen_both {A B} (x : T A) (y : T B) t b : seen x t b -> seen y t b ->
  branches (snd x) = branches (snd y) /\ tables (snd x) = tables (snd y).
Proof. intros [T1 B1] [T2 B2]. split; congruence. Qed.

Lemma text_ecb_flow s s' data data' : List.length data = List.length data' ->
  branches (snd (ECBSink_write_t kd SboxR3412_t put s data)) = branches (snd (ECBSink_write_t kd' SboxR3412_t put' s' data')) /\
  tables (snd (ECBSink_write_t kd SboxR3412_t put s data)) = tables (snd (ECBSink_write_t kd' SboxR3412_t put' s' data')).
Proof.
  intros HL. eapply seen_both.
  - apply (ecb_write_seen kd _ SboxR3412_t _ (key_words k Hk Hl) quiet_R3412 put Hput).
  - rewrite HL. apply (ecb_write_seen kd' _ SboxR3412_t _ (key_words k' Hk' Hl') quiet_R3412 put' Hput').
Qed.

Lemma text_gost_flow s s' l l' p p' data data' : List.length data = List.length data' -> List.length p = List.length p' ->
  branches (snd (gost_cfb_write_t kd SboxR3412_t put m data p s l)) =
  branches (snd (gost_cfb_write_t kd' SboxR3412_t put' m' data' p' s' l')) /\
  tables (snd (gost_cfb_write_t kd SboxR3412_t put m data p s l)) =
  tables (snd (gost_cfb_write_t kd' SboxR3412_t put' m' data' p' s' l')).
Proof.
  intros HL HP. eapply seen_both.
  - eapply shows_seen, (gost_write_shows kd _ SboxR3412_t _ (key_words k Hk Hl) quiet_R3412 put m Hput).
  - rewrite HL, HP. eapply shows_seen, (gost_write_shows kd' _ SboxR3412_t _ (key_words k' Hk' Hl') quiet_R3412 put' m' Hput').
Qed.

Lemma text_magma_flow s s' l r l' r' p p' data data' : List.length data = List.length data' -> List.length p = List.length p' ->
  branches (snd (magma_cfb_write_t kd SboxR3412_t put m data p s l r)) =
  branches (snd (magma_cfb_write_t kd' SboxR3412_t put' m' data' p' s' l' r')) /\
  tables (snd (magma_cfb_write_t kd SboxR3412_t put m data p s l r)) =
  tables (snd (magma_cfb_write_t kd' SboxR3412_t put' m' data' p' s' l' r')).
Proof.
  intros HL HP. eapply seen_both.
  - eapply shows_seen, (magma_write_shows kd _ SboxR3412_t _ (key_words k Hk Hl) quiet_R3412 put m Hput).
  - rewrite HL, HP. eapply shows_seen, (magma_write_shows kd' _ SboxR3412_t _ (key_words k' Hk' Hl') quiet_R3412 put' m' Hput').
Qed.

Lemma text_finalize_flow s s' l l' p p' : List.length p = List.length p' ->
  branches (snd (cfb_finalize_t kd SboxR3412_t put m p s l)) = branches (snd (cfb_finalize_t kd' SboxR3412_t put' m' p' s' l')) /\
  tables (snd (cfb_finalize_t kd SboxR3412_t put m p s l)) = tables (snd (cfb_finalize_t kd' SboxR3412_t put' m' p' s' l')).
Proof.
  intros HP. eapply seen_both.
  - apply (finalize_seen kd _ SboxR3412_t _ (key_words k Hk Hl) quiet_R3412 put m).
  - rewrite HP. apply (finalize_seen kd' _ SboxR3412_t _ (key_words k' Hk' Hl') quiet_R3412 put' m').
Qed.

Lemma text_dataimit_flow data data' : List.length data = List.length data' ->
  branches (snd (DataImit_t kd SboxR3412_t data)) = branches (snd (DataImit_t kd' SboxR3412_t data')) /\
  tables (snd (DataImit_t kd SboxR3412_t data)) = tables (snd (DataImit_t kd' SboxR3412_t data')).
Proof.
  intros HL. destruct (pad_length data) as [j Hj].
  assert (Hj' : List.length (dataimit_pad data') = (8 * j)%nat).
  { rewrite <- Hj, !pad89_ok. unfold pad89. rewrite !app_length, !repeat_length, HL. reflexivity. }
  eapply seen_both.
  - apply (dataimit_seen kd _ SboxR3412_t (key_words k Hk Hl) _ quiet_R3412 data j Hj).
  - rewrite HL. apply (dataimit_seen kd' _ SboxR3412_t (key_words k' Hk' Hl') _ quiet_R3412 data' j Hj').
Qed.

Lemma text_ecb_reveals s s' data data' : List.length data = List.length data' ->
  Nat.modulo (List.length data) 8 = 0%nat -> Forall u8 data -> Forall u8 data' ->
  lookups (snd (ECBSink_write_t kd SboxR3412_t put s data)) = lookups (snd (ECBSink_write_t kd SboxR3412_t put' s' data')) ->
  data = data'.
Proof.
  apply (ecb_reveals kd _ SboxR3412_t 8 (key_words k Hk Hl) R3412_reveals _ quiet_R3412 put put' Hput Hput').
Qed.

Lemma text_dataimit_reveals data data' : List.length data = List.length data' -> Forall u8 data -> Forall u8 data' ->
  lookups (snd (DataImit_t kd SboxR3412_t data)) = lookups (snd (DataImit_t kd SboxR3412_t data')) -> data = data'.
Proof.
  apply (dataimit_reveals kd _ SboxR3412_t 8 (key_words k Hk Hl) R3412_reveals _ quiet_R3412).
Qed.

Lemma text_gost_reveals j data data' s s' l l' :
  List.length data = (8 * (j + 1))%nat -> List.length data' = (8 * (j + 1))%nat ->
  Forall u8 data -> Forall u8 data' -> l < 2 ^ 64 -> l' < 2 ^ 64 ->
  lookups (snd (gost_cfb_write_t kd SboxR3412_t put m data [] s l)) =
  lookups (snd (gost_cfb_write_t kd SboxR3412_t put' m' data' [] s' l')) ->
  l = l' /\ firstn (8 * j) data = firstn (8 * j) data'.
Proof.
  apply (gost_reveals kd _ SboxR3412_t _ 8 (key_words k Hk Hl) quiet_R3412 R3412_reveals put put' m m' Hput Hput').
Qed.

Lemma text_gost_last a b b' s s' l : List.length b = List.length b' -> (List.length b < 16)%nat ->
  Nat.modulo (List.length a) 8 = 0%nat ->
  snd (gost_cfb_write_t kd SboxR3412_t put m (a ++ b) [] s l) = snd (gost_cfb_write_t kd SboxR3412_t put' m' (a ++ b') [] s' l).
Proof.
  intros HL H16 HM.
  apply (gost_prefix kd _ SboxR3412_t _ (key_words k Hk Hl) quiet_R3412 put put' m m' Hput Hput');
    [exact HL|exact H16|apply Nat.lt_0_succ|exact HM].
Qed.

Lemma text_magma_reveals j data data' s s' l l' q q' :
  List.length data = (8 * (j + 2))%nat -> List.length data' = (8 * (j + 2))%nat ->
  Forall u8 data -> Forall u8 data' -> l < 2 ^ 64 -> l' < 2 ^ 64 -> q < 2 ^ 64 -> q' < 2 ^ 64 ->
  lookups (snd (magma_cfb_write_t kd SboxR3412_t put m data [] s l q)) =
  lookups (snd (magma_cfb_write_t kd SboxR3412_t put' m' data' [] s' l' q')) ->
  l = l' /\ q = q' /\ firstn (8 * j) data = firstn (8 * j) data'.
Proof.
  apply (magma_reveals kd _ SboxR3412_t _ 8 (key_words k Hk Hl) quiet_R3412 R3412_reveals put put' m m' Hput Hput').
Qed.

Lemma text_magma_last a b b' s s' l q : List.length b = List.length b' -> (List.length b < 24)%nat ->
  Nat.modulo (List.length a) 8 = 0%nat ->
  snd (magma_cfb_write_t kd SboxR3412_t put m (a ++ b) [] s l q) =
  snd (magma_cfb_write_t kd SboxR3412_t put' m' (a ++ b') [] s' l q).
Proof.
  intros HL H24 HM.
  apply (magma_prefix kd _ SboxR3412_t _ (key_words k Hk Hl) quiet_R3412 put put' m m' Hput Hput');
    [exact HL|exact H24|apply Nat.lt_0_succ|exact HM].
Qed.
End TextKeys.
