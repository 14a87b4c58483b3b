(** Proofs for C107: MACs with keys that fail and memory that runs out. *)
From Verif Require Import Base MagmaModel Streams EffModel MemModel MacMemModel SpecModes SpecStreams SpecEff Lib
  ByteProofs SourceProofs EffProofs MemProofs.
From Coq Require Import Lia.
Local Open Scope N_scope.

Lemma lift_bind {W A B} (r : res A) (f : A -> M W B) w :
  mbind (lift r) f w =
  match r with Ok v => f v w | Throw e => (Throw e, w) | Undef u => (Undef u, w) | OutOfFuel => (OutOfFuel, w) end.
Proof. reflexivity. Qed.

(** ** Enough memory *)
Section Same.
Context {W : Type} (k : key).
Let a : act_key W := quiet k.
Let free : M W unit := mret tt.

Lemma free_bind {B} (f : unit -> M W B) w : mbind free f w = f tt w.
Proof. reflexivity. Qed.

Lemma same_after {A} (x : M W A) r : mimics x r -> mimics (_ <-- free ;; x) r.
Proof. intros H w. exact (H w). Qed.

Lemma same_xored (x y : @act_block W) b c : mimics x b -> mimics y c -> mimics (act_BlkXored x y) (BlkXored b c).
Proof.
  intros Hx Hy. apply mimics_pair; [exact Hx|]. intros a1 a2. apply mimics_pair; [exact Hy|].
  intros b1 b2. apply mimics_ret.
Qed.

Lemma same_shifted m (x : @act_block W) b n : mimics x b -> mimics (act_BlkShifted m x n) (BlkShifted m b n).
Proof.
  intros Hx. apply mimics_pair; [exact Hx|]. intros f s.
  repeat (apply mimics_bind; [apply mimics_lift|intros ?]). apply mimics_ret.
Qed.

Lemma same_enc (x : @act_block W) b : mimics x b -> mimics (act_BlkEncrypted x (act_cast a)) (BlkEncrypted b (cast_lazy k)).
Proof.
  intros H. unfold act_BlkEncrypted, BlkEncrypted.
  apply mimics_swap, mimics_backward, mimics_forward, mimics_forward, mimics_forward, H.
Qed.

Lemma same_imit_shifted m (x : @act_block W) b : mimics x b -> mimics (mem_ImitShifted free m x) (BlkImitShifted m b).
Proof.
  intros Hx. unfold mem_ImitShifted, BlkImitShifted. apply same_after.
  apply mimics_pair; [exact Hx|]. intros f s. destruct (_ =? 0); [now apply same_shifted|].
  apply same_after. apply same_xored; [now apply same_shifted|apply mimics_lift].
Qed.

Lemma same_final m n : mimics (mem_ImitFinalKey free m (act_cast a) n) (BlkImitFinalKey m (cast_lazy k) n).
Proof.
  unfold mem_ImitFinalKey, BlkImitFinalKey. apply same_after.
  pose proof (same_imit_shifted m _ _ (same_enc (lift BlkRaw0) BlkRaw0 (mimics_lift _))) as H.
  cbv zeta. destruct (Nat.eqb n 8); [exact H|]. now apply same_imit_shifted.
Qed.

Section Imit.
Context {St : Type} (rd : reader W St) (m : mode).

Definition blocks_same (r : res (@act_block W * @act_block W)) (r' : res (block * block)) : Prop :=
  match r, r' with
  | Ok (fa, ba), Ok (f, b) => mimics fa f /\ mimics ba b
  | Throw e, Throw e' => e = e'
  | Undef u, Undef u' => u = u'
  | OutOfFuel, OutOfFuel => True
  | _, _ => False
  end.

Lemma same_imit_steps n : forall b s x blk w r w', mimics x blk ->
  nmloop n (mem_imit_step free rd m (act_cast a)) (b, s, x) w = (r, w') ->
  exists r', nmloop n (imit_step rd m (cast_lazy k)) (b, s, blk) w = (r', w') /\ blocks_same r r'.
Proof.
  induction n as [|n IH]; intros b s x blk w r w' Hx E.
  { injection E as <- <-. exists OutOfFuel. now split. }
  cbn [nmloop] in E |- *. unfold mem_imit_step at 1 in E. unfold imit_step at 1.
  rewrite mbind_assoc in E. rewrite free_bind in E. cbv beta zeta in E |- *.
  rewrite mbind_assoc, lift_bind in E. rewrite mbind_assoc, lift_bind.
  destruct (imit_load m b) as [v|e|u|];
    [|injection E as <- <-; eexists; split; [reflexivity|cbn; auto; fail]..].
  rewrite mbind_assoc in E. rewrite free_bind in E. cbv beta in E |- *.
  pose proof (same_xored x (lift (BlkRaw64 v)) blk (BlkRaw64 v) Hx (mimics_lift _)) as Hb.
  destruct (Nat.ltb (List.length b) block_size).
  { injection E as <- <-. eexists. split; [reflexivity|]. split; [apply same_final|exact Hb]. }
  rewrite mbind_assoc in E. rewrite mbind_assoc. unfold mbind at 1 in E. unfold mbind at 1.
  destruct (rd s (N.of_nat block_size) w) as [[[b1 s1]|e|u|] w1];
    [|injection E as <- <-; eexists; split; [reflexivity|cbn; auto; fail]..].
  destruct b1 as [|c b1].
  { injection E as <- <-. eexists. split; [reflexivity|]. split; [apply same_final|exact Hb]. }
  apply (IH (c :: b1) s1 _ (BlkEncrypted (BlkXored blk (BlkRaw64 v)) (cast_lazy k)) w1 r w' (same_enc _ _ Hb) E).
Qed.

Lemma same_imit fuel s w : mem_Imit free rd m (act_cast a) fuel s w = magma_Imit rd m fuel s (cast_lazy k) w.
Proof.
  unfold mem_Imit, magma_Imit. rewrite free_bind. unfold mbind at 1. symmetry. unfold mbind at 1. symmetry.
  destruct (rd s (N.of_nat block_size) w) as [[[b s1]|e|u|] w1]; try reflexivity.
  unfold mbind at 1. symmetry. unfold mbind at 1. symmetry. rewrite !mloop_nm.
  destruct (nmloop _ (mem_imit_step _ _ _ _) _ w1) as [r w2] eqn:E.
  destruct (same_imit_steps _ b s1 (lift BlkRaw0) BlkRaw0 w1 r w2 (mimics_lift _) E) as (r' & E' & R).
  destruct (nmloop _ (imit_step _ _ _) _ w1) as [q w3] eqn:E2. assert (X : (q, w3) = (r', w2)) by (first [exact E'|rewrite <- E2; exact E']).
  injection X as -> ->.
  destruct r as [[fa ba]|e|u|], r' as [[f bb]|e'|u'|]; try contradiction; [|cbn in R; subst; reflexivity..].
  destruct R as [R1 R2]. rewrite free_bind.
  apply (same_enc _ _ (same_xored _ _ _ _ R2 R1)).
Qed.
End Imit.

Lemma same_dataimit_loop n : forall state data,
  mimics (mem_dataimit_loop free (act_cast a) n state data) (dataimit_loop n (cast_lazy k) state data).
Proof.
  induction n as [|n IH]; intros state data; destruct data as [|d data]; cbn [mem_dataimit_loop dataimit_loop];
    [apply mimics_ret|apply mimics_lift|apply mimics_ret|].
  apply mimics_pair; [apply mimics_lift|]. intros st rest.
  apply mimics_bind; [|intros st'; apply IH]. unfold mem_dataimit_block, dataimit_block.
  apply mimics_bind; [apply mimics_lift|]. intros buf. apply mimics_pair; [|intros; apply mimics_lift].
  unfold mem_ImitedBlock, ImitedBlock. apply same_after. apply mimics_forward, mimics_forward, mimics_lift.
Qed.

Lemma same_dataimit data w : mem_DataImit free (act_cast a) data w = (DataImit data (cast_lazy k), w).
Proof. exact (same_dataimit_loop (List.length (dataimit_pad data)) (repeat 0 8) (dataimit_pad data) w). Qed.
End Same.

(** ** Memory that runs out, keys that fail *)
Section Scarce.
Context {W1 W2 : Type} (alloc : M W2 unit) (Ha : or_throws alloc (Ok tt)).
Context (a : act_key W2) (k : key) (H : unreliable a k).
Let take : M (W1 * W2) unit := on_right alloc.
Let ka : option (act_lazy (W1 * W2)) := act_cast (right_key a).

Lemma f_after {A} (x : M (W1 * W2) A) r : faulty x r -> faulty (_ <-- take ;; x) r.
Proof. apply faulty_after. exact Ha. Qed.

Lemma f_xored (x y : @act_block (W1 * W2)) b c : faulty x b -> faulty y c -> faulty (act_BlkXored x y) (BlkXored b c).
Proof.
  intros Hx Hy. apply faulty_pair; [exact Hx|]. intros a1 a2. apply faulty_pair; [exact Hy|].
  intros b1 b2. apply faulty_ret.
Qed.

Lemma f_shifted m (x : @act_block (W1 * W2)) b n : faulty x b -> faulty (act_BlkShifted m x n) (BlkShifted m b n).
Proof.
  intros Hx. apply faulty_pair; [exact Hx|]. intros f s.
  repeat (apply faulty_bind; [apply faulty_lift|intros ?]). apply faulty_ret.
Qed.

Lemma f_enc (x : @act_block (W1 * W2)) b : faulty x b -> faulty (act_BlkEncrypted x ka) (BlkEncrypted b (cast_lazy k)).
Proof.
  intros Hx. unfold act_BlkEncrypted, BlkEncrypted. apply faulty_swap.
  apply faulty_backward; [exact H|]. do 3 (apply faulty_forward; [exact H|]). exact Hx.
Qed.

Lemma f_imit_shifted m x b : faulty x b -> faulty (mem_ImitShifted take m x) (BlkImitShifted m b).
Proof.
  intros Hx. unfold mem_ImitShifted, BlkImitShifted. apply f_after.
  apply faulty_pair; [exact Hx|]. intros f s. destruct (_ =? 0); [now apply f_shifted|].
  apply f_after. apply f_xored; [now apply f_shifted|apply faulty_lift].
Qed.

Lemma f_final m n : faulty (mem_ImitFinalKey take m ka n) (BlkImitFinalKey m (cast_lazy k) n).
Proof.
  unfold mem_ImitFinalKey, BlkImitFinalKey. apply f_after.
  pose proof (f_imit_shifted m _ _ (f_enc (lift BlkRaw0) BlkRaw0 (faulty_lift _))) as F.
  cbv zeta. destruct (Nat.eqb n 8); [exact F|]. now apply f_imit_shifted.
Qed.

Section Imit.
Context {St : Type} (rd : reader W1 St) (m : mode).

Definition blocks_faulty (r : res (@act_block (W1 * W2) * @act_block (W1 * W2))) (r' : res (block * block)) : Prop :=
  match r, r' with
  | Ok (fa, ba), Ok (f, b) => faulty fa f /\ faulty ba b
  | Throw e, Throw e' => e = e'
  | Undef u, Undef u' => u = u'
  | OutOfFuel, OutOfFuel => True
  | _, _ => False
  end.

Lemma imit_steps n : forall b s x blk w1 w2 r w1' w2', faulty x blk ->
  nmloop n (mem_imit_step take (left_reader rd) m ka) (b, s, x) (w1, w2) = (r, (w1', w2')) ->
  (exists r', nmloop n (imit_step rd m (cast_lazy k)) (b, s, blk) w1 = (r', w1') /\ blocks_faulty r r' /\
    ((exists v, r = Ok v) -> exists j, after rd s w1 w1' j)) \/
  exists e j, r = Throw e /\ after rd s w1 w1' j.
Proof.
  assert (Z : forall s w1, exists j, after rd s w1 w1 j) by (intros; exists 0%nat; apply after_0).
  induction n as [|n IH]; intros b s x blk w1 w2 r w1' w2' Hx E.
  { injection E as <- <- <-. left. exists OutOfFuel. split; [reflexivity|]. split; [exact I|]. intros [v [=]]. }
  cbn [nmloop] in E |- *. unfold mem_imit_step at 1 in E. unfold imit_step at 1.
  rewrite mbind_assoc in E. destruct (take_step alloc Ha _ _ _ _ _ _ E) as [(e & -> & ->)|(w3 & E3)].
  { right. exists e, 0%nat. split; [reflexivity|apply after_0]. }
  clear E. cbv beta zeta in E3 |- *. rewrite mbind_assoc, lift_bind in E3. rewrite mbind_assoc, lift_bind.
  destruct (imit_load m b) as [v|e|u|];
    [|injection E3 as <- <- <-; left; eexists; split; [reflexivity|split; [cbn; auto; fail|intros [? [=]]]]..].
  rewrite mbind_assoc in E3. cbv beta in E3 |- *.
  destruct (take_step alloc Ha _ _ _ _ _ _ E3) as [(e & -> & ->)|(w4 & E4)].
  { right. exists e, 0%nat. split; [reflexivity|apply after_0]. }
  clear E3.
  pose proof (f_xored x (lift (BlkRaw64 v)) blk (BlkRaw64 v) Hx (faulty_lift _)) as Hb.
  set (fin := mem_ImitFinalKey take m ka (List.length b)) in *.
  assert (Hf : faulty fin (BlkImitFinalKey m (cast_lazy k) (List.length b))) by apply f_final. clearbody fin.
  set (xb := act_BlkXored x (lift (BlkRaw64 v))) in *. clearbody xb.
  destruct (Nat.ltb (List.length b) block_size).
  { injection E4 as <- <- <-. left. eexists. split; [reflexivity|]. split; [now split|]. auto. }
  rewrite mbind_assoc in E4. rewrite mbind_assoc.
  destruct (left_step _ _ _ _ _ _ E4) as [([b1 s1] & w5 & Es & E5)|F].
  2: { left. unfold mbind at 1. cbn [fst] in F.
       pose proof (F (fun _ w => (OutOfFuel, w))) as F1. pose proof (F (fun _ w => (Throw BadWeakPtr, w))) as F2.
       unfold mbind in F1, F2.
       destruct (rd s (N.of_nat block_size) w1) as [[[b1 s1]|e|u|] w5] eqn:Es.
       - congruence.
       - injection F1 as <- <-. eexists. split; [reflexivity|]. split; [reflexivity|]. intros [? [=]].
       - injection F1 as <- <-. eexists. split; [reflexivity|]. split; [reflexivity|]. intros [? [=]].
       - injection F1 as <- <-. eexists. split; [reflexivity|]. split; [exact I|]. intros [? [=]]. }
  assert (one : after rd s w1 w5 1) by (eapply after_S; [exact Es|apply after_0]).
  unfold mbind at 1. rewrite Es. cbv beta iota in E5 |- *.
  destruct b1 as [|c b1].
  { injection E5 as <- <- <-. left. eexists. split; [reflexivity|]. split; [now split|]. eauto. }
  rewrite mbind_assoc in E5. destruct (take_step alloc Ha _ _ _ _ _ _ E5) as [(e & -> & ->)|(w6 & E6)].
  { right. eauto. }
  rewrite mret_bind in E6. rewrite mret_bind.
  destruct (IH _ _ _ (BlkEncrypted (BlkXored blk (BlkRaw64 v)) (cast_lazy k)) _ _ _ _ _ (f_enc _ _ Hb) E6)
    as [(r' & P & Q & R)|(e & j & -> & P)].
  - left. exists r'. split; [exact P|]. split; [exact Q|]. intros V. destruct (R V) as [j Hj].
    exists (Datatypes.S j). eapply after_S; eauto.
  - right. exists e, (Datatypes.S j). split; [reflexivity|]. eapply after_S; eauto.
Qed.

Lemma scarce_imit fuel s w1 w2 out w1' w2' :
  mem_Imit take (left_reader rd) m ka fuel s (w1, w2) = (out, (w1', w2')) ->
  magma_Imit rd m fuel s (cast_lazy k) w1 = (out, w1') \/
  exists e j, out = Throw e /\ after rd s w1 w1' j.
Proof.
  unfold mem_Imit, magma_Imit. intros E.
  destruct (take_step alloc Ha _ _ _ _ _ _ E) as [(e & -> & ->)|(w3 & E3)].
  { right. exists e, 0%nat. split; [reflexivity|apply after_0]. }
  clear E. destruct (left_step _ _ _ _ _ _ E3) as [([b s1] & w4 & Es & E4)|F]; [|left; apply F].
  unfold mbind at 1. rewrite Es. cbv beta iota in E4 |- *.
  unfold mbind at 1 in E4. unfold mbind at 1. rewrite mloop_nm in E4. rewrite mloop_nm.
  destruct (nmloop _ (mem_imit_step _ _ _ _) _ (w4, w3)) as [r [wa wb]] eqn:E.
  destruct (imit_steps _ b s1 (lift BlkRaw0) BlkRaw0 w4 w3 r wa wb (faulty_lift _) E)
    as [(r' & P & Q & R)|(e & j & -> & P)].
  - destruct (nmloop _ (imit_step _ _ _) _ w4) as [q w6] eqn:E2. assert (X : (q, w6) = (r', wa)) by (first [exact P|rewrite <- E2; exact P]).
    injection X as -> ->. destruct r as [[fa ba]|e|u|], r' as [[f bb]|e'|u'|]; try contradiction;
      [|left; injection E4 as <- <- <-; cbn in Q; subst; reflexivity..].
    destruct Q as [Q1 Q2]. destruct (R ltac:(eauto)) as [j Hj].
    assert (A : after rd s w1 wa (Datatypes.S j)) by (eapply after_S; eauto).
    destruct (take_step alloc Ha _ _ _ _ _ _ E4) as [(e & -> & ->)|(w5 & E5)]; [right; eauto|].
    destruct (f_enc _ _ (f_xored _ _ _ _ Q2 Q1) wa w5) as (w6 & [X|(e & X)]); rewrite X in E5; injection E5 as <- <- <-.
    + now left.
    + right. eauto.
  - injection E4 as <- <- <-. right. exists e, (Datatypes.S j). split; [reflexivity|]. eapply after_S; eauto.
Qed.
End Imit.

Lemma f_dataimit_loop n : forall state data,
  faulty (mem_dataimit_loop take ka n state data) (dataimit_loop n (cast_lazy k) state data).
Proof.
  induction n as [|n IH]; intros state data; destruct data as [|d data]; cbn [mem_dataimit_loop dataimit_loop];
    [apply faulty_ret|apply faulty_lift|apply faulty_ret|].
  apply faulty_pair; [apply faulty_lift|]. intros st rest.
  apply faulty_bind; [|intros st'; apply IH]. unfold mem_dataimit_block, dataimit_block.
  apply faulty_bind; [apply faulty_lift|]. intros buf. apply faulty_pair; [|intros; apply faulty_lift].
  unfold mem_ImitedBlock, ImitedBlock. apply f_after. do 2 (apply faulty_forward; [exact H|]). apply faulty_lift.
Qed.

Lemma scarce_dataimit data : faulty (mem_DataImit take ka data) (DataImit data (cast_lazy k)).
Proof. unfold mem_DataImit, DataImit. apply f_after, f_after. cbv zeta. apply f_dataimit_loop. Qed.
End Scarce.
