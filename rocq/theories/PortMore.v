(** Proofs about the CFB streams and magma::Imit on other machines. *)
From Verif Require Import Base Text MagmaModel Streams KuzModel PortModel Lib SpecText SpecMagma SpecModes SpecStreams
  SpecMac SpecPort MagmaProofs MagmaSpecProofs BlockProofs ByteProofs SinkProofs SourceProofs StreamProofs StreamFacts
  MacProofs PortProofs.
From Coq Require Import ZifyNat ZifyN ZifyBool.
Local Open Scope N_scope.
Ltac Zify.zify_post_hook ::= idtac.

(** ** CFB sinks *)
Section Sinks.
Context (mc : machine) {W S : Type} (wr : writer W S) (m : mode).

Lemma cfb_on_reg k data : forall p s reg w s' reg' p' w', reg <> [] ->
  cfb_loop_on mc wr m k data p s reg w = (Ok (s', reg', p'), w') -> List.length reg' = List.length reg.
Proof.
  induction data as [|b data IH]; intros p s reg w s' reg' p' w' Hr H.
  - injection H as <- <- <- <-. reflexivity.
  - cbn [cfb_loop_on] in H. cbv zeta in H. destruct (Nat.eqb _ 8); [|eapply IH; eassumption].
    apply mbind_ok_inv in H. destruct H as ([f1 f2] & w1 & _ & H).
    apply mbind_ok_inv in H. destruct H as (c & w2 & _ & H).
    apply mbind_ok_inv in H. destruct H as (s1 & w3 & _ & H).
    apply IH in H; [|intros A; apply app_eq_nil in A; destruct A; discriminate].
    rewrite H, app_length. destruct reg; [contradiction|]. cbn [tl List.length]. lia.
Qed.

Lemma magma_on_write_app o a b w :
  magma_CFBSink_write_on mc wr m o (a ++ b) w =
  (o' <-- magma_CFBSink_write_on mc wr m o a ;; magma_CFBSink_write_on mc wr m o' b) w.
Proof.
  unfold magma_CFBSink_write_on. rewrite mbind_assoc.
  etransitivity; [apply mbind_ext; [apply magma_on_core|intros ? ?; reflexivity]|].
  symmetry.
  etransitivity; [apply mbind_ext; [apply magma_on_core|intros ? ?; reflexivity]|].
  symmetry. rewrite !mbind_assoc.
  etransitivity; [apply mbind_ext; [apply cfb_on_app|intros ? ?; reflexivity]|].
  rewrite mbind_assoc.
  unfold mbind at 1. unfold mbind at 3.
  destruct (cfb_loop_on mc wr m (mcs_key o) a (mcs_plain o) (mcs_sink o) [mcs_ivl o; mcs_ivr o] w)
    as [[[[s reg] p]|e|u|] w1] eqn:E; try reflexivity.
  apply cfb_on_reg in E; [|discriminate].
  destruct reg as [|x [|y [|]]]; try discriminate E. cbn [nth].
  unfold mbind at 3. cbn [mret]. unfold mbind at 3. cbn [mret].
  cbn [mcs_key mcs_plain mcs_sink mcs_ivl mcs_ivr].
  symmetry. etransitivity; [apply mbind_ext; [apply magma_on_core|intros ? ?; reflexivity]|].
  rewrite mbind_assoc. reflexivity.
Qed.

Lemma gost_on_write_app o a b w :
  gost_CFBSink_write_on mc wr m o (a ++ b) w =
  (o' <-- gost_CFBSink_write_on mc wr m o a ;; gost_CFBSink_write_on mc wr m o' b) w.
Proof.
  unfold gost_CFBSink_write_on. rewrite mbind_assoc.
  etransitivity; [apply mbind_ext; [apply gost_on_core|intros ? ?; reflexivity]|].
  symmetry.
  etransitivity; [apply mbind_ext; [apply gost_on_core|intros ? ?; reflexivity]|].
  symmetry. rewrite !mbind_assoc.
  etransitivity; [apply mbind_ext; [apply cfb_on_app|intros ? ?; reflexivity]|].
  rewrite mbind_assoc.
  unfold mbind at 1. unfold mbind at 3.
  destruct (cfb_loop_on mc wr m (gcs_key o) a (gcs_plain o) (gcs_sink o) [gcs_iv o] w)
    as [[[[s reg] p]|e|u|] w1] eqn:E; try reflexivity.
  apply cfb_on_reg in E; [|discriminate].
  destruct reg as [|x [|]]; try discriminate E. cbn [nth].
  unfold mbind at 3. cbn [mret]. unfold mbind at 3. cbn [mret].
  cbn [gcs_key gcs_plain gcs_sink gcs_iv].
  symmetry. etransitivity; [apply mbind_ext; [apply gost_on_core|intros ? ?; reflexivity]|].
  rewrite mbind_assoc. reflexivity.
Qed.

Lemma magma_on_concat chunks : forall o w,
  writes (magma_CFBSink_write_on mc wr m) o chunks w = magma_CFBSink_write_on mc wr m o (List.concat chunks) w.
Proof.
  induction chunks as [|c r IH]; intros o w.
  - destruct o. reflexivity.
  - cbn [writes List.concat]. rewrite magma_on_write_app. apply mbind_ext; [reflexivity|]. auto.
Qed.

Lemma gost_on_concat chunks : forall o w,
  writes (gost_CFBSink_write_on mc wr m) o chunks w = gost_CFBSink_write_on mc wr m o (List.concat chunks) w.
Proof.
  induction chunks as [|c r IH]; intros o w.
  - destruct o. reflexivity.
  - cbn [writes List.concat]. rewrite gost_on_write_app. apply mbind_ext; [reflexivity|]. auto.
Qed.
End Sinks.

Lemma magma_on_blocks mc {W S} (wr : writer W S) m k E ivl ivr s chunks w :
  enciphers k E -> ivl < 2 ^ 64 -> ivr < 2 ^ 64 -> whole (List.concat chunks) -> never_fails wr ->
  exists o s' w' log,
    writes (magma_CFBSink_write_on mc (logged wr) m) (magma_CFBSink_init s k ivl ivr) chunks (w, [])
      = (Ok o, (w', log)) /\
    magma_CFBSink_finalize (logged wr) m o (w', log) = (Ok s', (w', log)) /\
    log = map (to_le 8) (cfb_encrypt (fun x => E (sw mc x)) [sw mc ivl; sw mc ivr] (blocks8 (List.concat chunks))).
Proof.
  intros HE H1 H2 Hw Hn. destruct (whole_complete _ Hw) as [Ec El].
  rewrite magma_on_concat. unfold magma_CFBSink_write_on.
  cbn [magma_CFBSink_init mcs_key mcs_plain mcs_sink mcs_ivl mcs_ivr].
  destruct (cfb_on_general mc (logged wr) m k E HE (List.concat chunks) (proj2 Hw) s [ivl; ivr] (w, []) (reg2_ok _ _ H1 H2))
    as (reg' & A1 & A2 & A3 & A4). cbn [map] in A4. rewrite Ec, El in A4.
  set (cs := cfb_encrypt (fun x => E (sw mc x)) [sw mc ivl; sw mc ivr] (blocks8 (List.concat chunks))) in *.
  destruct (never_fails_writes wr Hn (map (to_le 8) cs) s w []) as (s' & w' & E1).
  rewrite (mbind_ok _ _ _ _ _ E1) in A4.
  eexists _, _, _, _. split.
  { etransitivity; [apply mbind_ext; [apply magma_on_core|intros ? ?; reflexivity]|].
    rewrite mbind_assoc. rewrite (mbind_ok _ _ _ _ _ A4). reflexivity. }
  split; reflexivity.
Qed.

Lemma gost_on_blocks mc {W S} (wr : writer W S) m k E iv s chunks w :
  enciphers k E -> iv < 2 ^ 64 -> whole (List.concat chunks) -> never_fails wr ->
  exists o s' w' log,
    writes (gost_CFBSink_write_on mc (logged wr) m) (gost_CFBSink_init s k iv) chunks (w, [])
      = (Ok o, (w', log)) /\
    gost_CFBSink_finalize (logged wr) m o (w', log) = (Ok s', (w', log)) /\
    log = map (to_le 8) (cfb_encrypt (fun x => E (sw mc x)) [sw mc iv] (blocks8 (List.concat chunks))).
Proof.
  intros HE H1 Hw Hn. destruct (whole_complete _ Hw) as [Ec El].
  rewrite gost_on_concat. unfold gost_CFBSink_write_on.
  cbn [gost_CFBSink_init gcs_key gcs_plain gcs_sink gcs_iv].
  destruct (cfb_on_general mc (logged wr) m k E HE (List.concat chunks) (proj2 Hw) s [iv] (w, []) (reg1_ok _ H1))
    as (reg' & A1 & A2 & A3 & A4). cbn [map] in A4. rewrite Ec, El in A4.
  set (cs := cfb_encrypt (fun x => E (sw mc x)) [sw mc iv] (blocks8 (List.concat chunks))) in *.
  destruct (never_fails_writes wr Hn (map (to_le 8) cs) s w []) as (s' & w' & E1).
  rewrite (mbind_ok _ _ _ _ _ E1) in A4.
  eexists _, _, _, _. split.
  { etransitivity; [apply mbind_ext; [apply gost_on_core|intros ? ?; reflexivity]|].
    rewrite mbind_assoc. rewrite (mbind_ok _ _ _ _ _ A4). reflexivity. }
  split; reflexivity.
Qed.

(** ** CFB sources *)

Section Core.
Context (mc : machine) {W St Reg : Type} (rd : reader W St) (m : mode) (k : key)
        (cur : Reg -> N) (push : Reg -> N -> Reg).

Definition core_step_on (size : N) (st : St * bytes * Reg * bytes)
  : M W ((St * bytes * Reg * bytes) + (St * bytes * Reg * bytes)) :=
  let '(s, p, r, res) := st in
  if len res <? size then
    let (res, p) := drain p res size in
    if len res =? size then mret (inr (s, p, r, res))
    else
      '(first, second) <-- lift (BlkEncrypted (BlkRaw64 (cur r)) (cast_lazy k)) ;;
      '(p, s) <-- rd s 8 ;;
      match p with
      | [] => mret (inr (s, [], r, res))
      | _ :: _ =>
          c <-- lift (load_reg_on mc m p) ;;
          p <-- lift (source_xor m p first second) ;;
          mret (inl (s, p, push r c, res))
      end
  else mret (inr (s, p, r, res)).

Context (E : N -> N) (regl : Reg -> list N) (R : St -> W -> bytes -> Prop).
Hypothesis HE : enciphers k E.
Hypothesis HR : delivers8 rd R.
Hypothesis Hcur : forall r, hd 0 (regl r) = cur r.
Hypothesis Hpush : forall r c, regl (push r c) = tl (regl r) ++ [c].

Definition plain_on (p : bytes) (r : Reg) (data : bytes) : bytes :=
  p ++ unblocks8 (cfb_decrypt (fun x => E (sw mc x)) (map (sw mc) (regl r)) (blocks8 data)).

Lemma core_delivers_on size : forall n s w p r res data,
  R s w data -> whole data -> reg_ok (regl r) -> (List.length res <= N.to_nat size)%nat ->
  (1 <= n)%nat ->
  (N.to_nat size - List.length res + match p with [] => 1 | _ => 0 end <= n)%nat ->
  let z := (N.to_nat size - List.length res)%nat in
  exists s' w' p' r' data',
    nmloop n (core_step_on size) (s, p, r, res) w =
      (Ok (s', p', r', res ++ firstn z (plain_on p r data)), w') /\
    R s' w' data' /\ whole data' /\ reg_ok (regl r') /\
    plain_on p' r' data' = skipn z (plain_on p r data).
Proof.
  induction n as [|n IH]; intros s w p r res data HRs Hw Hr Hl Hn Hf z; [lia|].
  cbn [nmloop]. unfold core_step_on at 1.
  destruct (len res <? size) eqn:El.
  2:{ unfold len in El. assert (z = 0%nat) by (unfold z; lia). rewrite H.
      exists s, w, p, r, data. cbn [firstn skipn]. rewrite app_nil_r.
      repeat split; auto; apply Hw || apply Hr. }
  unfold len in El. rewrite drain_ok by assumption. fold z.
  assert (Hz : (0 < z)%nat) by (unfold z; lia).
  destruct (len (res ++ firstn z p) =? size) eqn:Eq.
  { unfold len in Eq. rewrite app_length, firstn_length in Eq.
    assert (z <= List.length p)%nat by (unfold z in *; lia).
    exists s, w, (skipn z p), r, data. rewrite mbind_mret_l.
    unfold plain_on. rewrite firstn_app, skipn_app.
    replace (z - List.length p)%nat with 0%nat by lia. cbn [firstn skipn]. rewrite app_nil_r.
    repeat split; auto; apply Hw || apply Hr. }
  unfold len in Eq. rewrite app_length, firstn_length in Eq.
  assert (Hp : (List.length p < z)%nat) by (unfold z in *; lia).
  rewrite (firstn_all2 p) by lia. clear Eq.
  assert (Lc : cur r < 2 ^ 64) by (rewrite <- Hcur; now apply hd_lt).
  destruct (HE (cur r) Lc) as [E1 L1].
  assert (Hhd : hd 0 (map (sw mc) (regl r)) = sw mc (cur r)).
  { rewrite <- Hcur. destruct (regl r); [now destruct Hr|reflexivity]. }
  rewrite E1. destruct (HR s w data HRs) as (s1 & w1 & Er & HR1).
  destruct (whole_cases data Hw) as [->|(a & b & -> & Ha & Hu & Hwb)].
  - exists s1, w1, [], r, [].
    rewrite mbind_assoc. change (mbind (lift (Ok ?x)) ?f w) with (f x w). cbn [halves].
    rewrite mbind_assoc. unfold mbind at 1. rewrite Er. rewrite firstn_nil.
    rewrite mbind_mret_l.
    rewrite skipn_nil in HR1. unfold plain_on. rewrite blocks8_nil. cbn [cfb_decrypt].
    change (unblocks8 []) with (@nil N). rewrite !app_nil_r.
    rewrite firstn_all2, skipn_all2 by lia.
    repeat split; auto; try apply Hw; try apply Hr.
  - rewrite firstn_app_exact in Er by assumption. rewrite skipn_app_exact in HR1 by assumption.
    set (x := N.lxor (of_le a) (E (cur r))).
    assert (Lx : x < 2 ^ 64) by (apply lxor_lt; [now apply of_le_8_lt|exact L1]).
    assert (La : of_le a < 2 ^ 64) by now apply of_le_8_lt.
    set (p1 := to_le 8 x). set (r1 := push r (sw mc (of_le a))).
    assert (Hr1 : reg_ok (regl r1)).
    { unfold r1. rewrite Hpush. apply reg_ok_shift; [exact Hr|now apply sw_lt]. }
    assert (Hp1 : List.length p1 = 8%nat) by apply to_le_length.
    destruct (IH s1 w1 p1 r1 (res ++ p) b HR1 Hwb Hr1) as (s' & w' & p' & r' & d' & En & A1 & A2 & A3 & A4).
    + rewrite app_length. unfold z in *; lia.
    + destruct p; cbn [List.length] in *; unfold z in *; lia.
    + rewrite app_length. change (match p1 with [] => 1 | _ => 0 end)%nat with 0%nat.
      destruct p; cbn [List.length] in *; unfold z in *; lia.
    + rewrite app_length in En, A4.
      replace (N.to_nat size - (List.length res + List.length p))%nat
        with (z - List.length p)%nat in En, A4 by (unfold z; lia).
      exists s', w', p', r', d'.
      assert (Epl : plain_on p r (a ++ b) = p ++ plain_on p1 r1 b).
      { unfold plain_on. f_equal. rewrite blocks8_cons by assumption. cbn [cfb_decrypt].
        rewrite Hhd, sw_twice by exact Lc. unfold r1. rewrite Hpush, map_app. cbn [map].
        rewrite sw_twice by exact La. replace (map (sw mc) (tl (regl r))) with (tl (map (sw mc) (regl r)))
          by now destruct (regl r). reflexivity. }
      rewrite Epl. split.
      * rewrite mbind_assoc. change (mbind (lift (Ok ?y)) ?f w) with (f y w). cbn [halves].
        rewrite mbind_assoc. unfold mbind at 1. rewrite Er.
        destruct a as [|a0 a']; [discriminate|]. cbv iota.
        rewrite load_reg_on_ok, source_xor_ok by assumption. fold x. fold p1. fold r1.
        rewrite mbind_assoc. change (mbind (lift (Ok ?y)) ?f w1) with (f y w1). cbv beta.
        rewrite mbind_assoc. change (mbind (lift (Ok ?y)) ?f w1) with (f y w1). cbv beta.
        etransitivity; [exact En|]. rewrite <- app_assoc.
        rewrite (firstn_app z p), (firstn_all2 p) by lia. reflexivity.
      * split; [exact A1|]. split; [exact A2|]. split; [exact A3|].
        rewrite A4. rewrite (skipn_app z p), (skipn_all2 p) by lia. reflexivity.
Qed.
End Core.

Definition magma_left_on mc {W St} (k : key) (E : N -> N) (R : St -> W -> bytes -> Prop)
    (o : magma_cfb_source St) (w : W) (plain : bytes) : Prop :=
  mcr_key o = k /\ mcr_ivl o < 2 ^ 64 /\ mcr_ivr o < 2 ^ 64 /\
  exists cipher, R (mcr_source o) w cipher /\ whole cipher /\
    plain = mcr_plain o ++ unblocks8 (cfb_decrypt (fun x => E (sw mc x))
                                        [sw mc (mcr_ivl o); sw mc (mcr_ivr o)] (blocks8 cipher)).

Definition gost_left_on mc {W St} (k : key) (E : N -> N) (R : St -> W -> bytes -> Prop)
    (o : gost_cfb_source St) (w : W) (plain : bytes) : Prop :=
  gcr_key o = k /\ gcr_iv o < 2 ^ 64 /\
  exists cipher, R (gcr_source o) w cipher /\ whole cipher /\
    plain = gcr_plain o ++ unblocks8 (cfb_decrypt (fun x => E (sw mc x)) [sw mc (gcr_iv o)] (blocks8 cipher)).

Section CFBSource.
Context (mc : machine) {W St : Type} (rd : reader W St) (m : mode).

Lemma magma_read_core_on o size w :
  magma_CFBSource_read_on mc rd m o size w =
  (x <-- nmloop (Datatypes.S (N.to_nat size)) (core_step_on mc rd m (mcr_key o) fst mpush size)
           (mcr_source o, mcr_plain o, (mcr_ivl o, mcr_ivr o), []) ;;
   let '(s, p, r, res) := x in mret (res, MagmaCFBSource s (mcr_key o) (fst r) (snd r) p)) w.
Proof.
  unfold magma_CFBSource_read_on.
  set (f := fun st : St * bytes * (N * N) * bytes =>
              let '(s, p, r, res) := st in (s, p, fst r, snd r, res)).
  etransitivity; [apply mbind_ext; [rewrite mloop_nm|intros ? ?; reflexivity]|].
  - change (mcr_source o, mcr_plain o, mcr_ivl o, mcr_ivr o, @nil N)
      with (f (mcr_source o, mcr_plain o, (mcr_ivl o, mcr_ivr o), [])).
    apply (nmloop_map f (core_step_on mc rd m (mcr_key o) fst mpush size)).
    intros [[[s p] [rl rr]] res] w1. unfold core_step_on, magma_cfb_read_step_on, f. cbn [fst snd].
    destruct (len res <? size); [|reflexivity].
    destruct (drain p res size) as [res1 p1]. destruct (len res1 =? size); [reflexivity|].
    rewrite mbind_assoc. apply mbind_ext; [reflexivity|]. intros [f1 f2] w2.
    rewrite mbind_assoc. apply mbind_ext; [reflexivity|]. intros [[|q0 q] s1] w3; [reflexivity|].
    rewrite mbind_assoc. apply mbind_ext; [reflexivity|]. intros c w4.
    rewrite mbind_assoc. apply mbind_ext; [reflexivity|]. intros p2 w5. reflexivity.
  - rewrite mbind_assoc. replace (Pos.to_nat (N.succ_pos size)) with (Datatypes.S (N.to_nat size)).
    + apply mbind_ext; [reflexivity|]. intros [[[s p] [rl rr]] res] w1. reflexivity.
    + destruct size; cbn [N.succ_pos N.to_nat]; lia.
Qed.

Lemma gost_read_core_on o size w :
  gost_CFBSource_read_on mc rd m o size w =
  (x <-- nmloop (Datatypes.S (N.to_nat size)) (core_step_on mc rd m (gcr_key o) (fun r => r) gpush size)
           (gcr_source o, gcr_plain o, gcr_iv o, []) ;;
   let '(s, p, r, res) := x in mret (res, GostCFBSource s (gcr_key o) r p)) w.
Proof.
  unfold gost_CFBSource_read_on. apply mbind_ext; [|intros ? ?; reflexivity].
  rewrite mloop_nm. replace (Pos.to_nat (N.succ_pos size)) with (Datatypes.S (N.to_nat size));
    [reflexivity|]. destruct size; cbn [N.succ_pos N.to_nat]; lia.
Qed.

Context (k : key) (E : N -> N) (R : St -> W -> bytes -> Prop)
        (HE : enciphers k E) (HR : delivers8 rd R).

Lemma magma_delivers_on : delivers (magma_CFBSource_read_on mc rd m) (magma_left_on mc k E R).
Proof.
  intros o w plain size (<- & H1 & H2 & cipher & Hs & Hw & ->). rewrite magma_read_core_on.
  destruct (core_delivers_on mc rd m (mcr_key o) fst mpush E mreg R HE HR (fun _ => eq_refl) (fun _ _ => eq_refl)
    size (Datatypes.S (N.to_nat size)) (mcr_source o) w (mcr_plain o) (mcr_ivl o, mcr_ivr o) [] cipher)
    as (s' & w' & p' & r' & d' & A1 & A2 & A3 & A4 & A5); auto.
  - now apply reg2_ok.
  - cbn; lia.
  - lia.
  - cbn [List.length]. destruct (mcr_plain o); lia.
  - cbn [List.length] in *. rewrite Nat.sub_0_r in *.
    exists (MagmaCFBSource s' (mcr_key o) (fst r') (snd r') p'), w'.
    split; [etransitivity; [exact (mbind_ok _ _ _ _ _ A1)|reflexivity]|].
    destruct A4 as [_ A4]. unfold mreg in A4. inversion A4; subst. inversion H4; subst.
    split; [reflexivity|]. split; [assumption|]. split; [assumption|]. exists d'.
    split; [exact A2|]. split; [exact A3|]. symmetry. exact A5.
Qed.

Lemma gost_delivers_on : delivers (gost_CFBSource_read_on mc rd m) (gost_left_on mc k E R).
Proof.
  intros o w plain size (<- & H1 & cipher & Hs & Hw & ->). rewrite gost_read_core_on.
  destruct (core_delivers_on mc rd m (gcr_key o) (fun r => r) gpush E greg R HE HR (fun _ => eq_refl) (fun _ _ => eq_refl)
    size (Datatypes.S (N.to_nat size)) (gcr_source o) w (gcr_plain o) (gcr_iv o) [] cipher)
    as (s' & w' & p' & r' & d' & A1 & A2 & A3 & A4 & A5); auto.
  - now apply reg1_ok.
  - cbn; lia.
  - lia.
  - cbn [List.length]. destruct (gcr_plain o); lia.
  - cbn [List.length] in *. rewrite Nat.sub_0_r in *.
    exists (GostCFBSource s' (gcr_key o) r' p'), w'.
    split; [etransitivity; [exact (mbind_ok _ _ _ _ _ A1)|reflexivity]|].
    destruct A4 as [_ A4]. unfold greg in A4. inversion A4; subst.
    split; [reflexivity|]. split; [assumption|]. exists d'.
    split; [exact A2|]. split; [exact A3|]. symmetry. exact A5.
Qed.

Lemma magma_reads_on s w cipher ivl ivr sizes : ivl < 2 ^ 64 -> ivr < 2 ^ 64 -> R s w cipher -> whole cipher ->
  exists o' w', reads (magma_CFBSource_read_on mc rd m) (magma_CFBSource_init s k ivl ivr) sizes w =
    (Ok (served (unblocks8 (cfb_decrypt (fun x => E (sw mc x)) [sw mc ivl; sw mc ivr] (blocks8 cipher))) sizes, o'), w').
Proof.
  intros H1 H2 Hs Hw. apply (delivers_reads _ _ sizes magma_delivers_on).
  split; [reflexivity|]. split; [assumption|]. split; [assumption|]. exists cipher. auto.
Qed.

Lemma gost_reads_on s w cipher iv sizes : iv < 2 ^ 64 -> R s w cipher -> whole cipher ->
  exists o' w', reads (gost_CFBSource_read_on mc rd m) (gost_CFBSource_init s k iv) sizes w =
    (Ok (served (unblocks8 (cfb_decrypt (fun x => E (sw mc x)) [sw mc iv] (blocks8 cipher))) sizes, o'), w').
Proof.
  intros H1 Hs Hw. apply (delivers_reads _ _ sizes gost_delivers_on).
  split; [reflexivity|]. split; [assumption|]. exists cipher. auto.
Qed.
End CFBSource.

(** ** Round trips on one machine *)

Lemma sw_E_lt mc k E : enciphers k E -> forall x, x < 2 ^ 64 -> E (sw mc x) < 2 ^ 64.
Proof. intros HE x Hx. apply HE. now apply sw_lt. Qed.

Lemma magma_round_trip_on mc {W S} (wr : writer W S) m k E ivl ivr s chunks w :
  enciphers k E -> ivl < 2 ^ 64 -> ivr < 2 ^ 64 -> whole (List.concat chunks) -> never_fails wr ->
  exists o s' w' log,
    writes (magma_CFBSink_write_on mc (logged wr) m) (magma_CFBSink_init s k ivl ivr) chunks (w, [])
      = (Ok o, (w', log)) /\
    magma_CFBSink_finalize (logged wr) m o (w', log) = (Ok s', (w', log)) /\
    forall W2 St (rd : reader W2 St) (R : St -> W2 -> bytes -> Prop) m2 src w2 sizes,
      delivers8 rd R -> R src w2 (List.concat log) ->
      exists o2 w3,
        reads (magma_CFBSource_read_on mc rd m2) (magma_CFBSource_init src k ivl ivr) sizes w2 =
        (Ok (served (List.concat chunks) sizes, o2), w3).
Proof.
  intros HE H1 H2 Hw Hn.
  destruct (magma_on_blocks mc wr m k E ivl ivr s chunks w HE H1 H2 Hw Hn) as (o & s' & w' & log & A & B & ->).
  eexists _, _, _, _. split; [exact A|]. split; [exact B|].
  intros W2 St rd R m2 src w2 sizes HR Hs. rewrite concat_map_to_le in Hs.
  destruct (magma_reads_on mc rd m2 k E R HE HR src w2 _ ivl ivr sizes H1 H2 Hs (unblocks8_whole _))
    as (o2 & w3 & Er).
  rewrite blocks8_unblocks8 in Er.
  - rewrite cfb_decrypt_encrypt, unblocks8_blocks8 in Er by exact Hw. eauto.
  - apply cfb_encrypt_lt; [now apply (sw_E_lt mc k)|apply reg2_ok; now apply sw_lt|now apply blocks8_lt].
Qed.

Lemma gost_round_trip_on mc {W S} (wr : writer W S) m k E iv s chunks w :
  enciphers k E -> iv < 2 ^ 64 -> whole (List.concat chunks) -> never_fails wr ->
  exists o s' w' log,
    writes (gost_CFBSink_write_on mc (logged wr) m) (gost_CFBSink_init s k iv) chunks (w, [])
      = (Ok o, (w', log)) /\
    gost_CFBSink_finalize (logged wr) m o (w', log) = (Ok s', (w', log)) /\
    forall W2 St (rd : reader W2 St) (R : St -> W2 -> bytes -> Prop) m2 src w2 sizes,
      delivers8 rd R -> R src w2 (List.concat log) ->
      exists o2 w3,
        reads (gost_CFBSource_read_on mc rd m2) (gost_CFBSource_init src k iv) sizes w2 =
        (Ok (served (List.concat chunks) sizes, o2), w3).
Proof.
  intros HE H1 Hw Hn.
  destruct (gost_on_blocks mc wr m k E iv s chunks w HE H1 Hw Hn) as (o & s' & w' & log & A & B & ->).
  eexists _, _, _, _. split; [exact A|]. split; [exact B|].
  intros W2 St rd R m2 src w2 sizes HR Hs. rewrite concat_map_to_le in Hs.
  destruct (gost_reads_on mc rd m2 k E R HE HR src w2 _ iv sizes H1 Hs (unblocks8_whole _))
    as (o2 & w3 & Er).
  rewrite blocks8_unblocks8 in Er.
  - rewrite cfb_decrypt_encrypt, unblocks8_blocks8 in Er by exact Hw. eauto.
  - apply cfb_encrypt_lt; [now apply (sw_E_lt mc k)|apply reg1_ok; now apply sw_lt|now apply blocks8_lt].
Qed.

(** ** The blocks that no byte order can change *)

Lemma cfb_encrypt_prefix F G reg1 reg2 ps n :
  (forall i, (i < n)%nat -> F (nth i reg1 0) = G (nth i reg2 0)) ->
  (n <= List.length reg1)%nat -> (n <= List.length reg2)%nat ->
  firstn n (cfb_encrypt F reg1 ps) = firstn n (cfb_encrypt G reg2 ps).
Proof.
  revert reg1 reg2 ps. induction n as [|n IH]; intros reg1 reg2 ps H H1 H2; [reflexivity|].
  destruct ps as [|p ps]; [reflexivity|]. cbn [cfb_encrypt firstn]. cbv zeta.
  destruct reg1 as [|a reg1]; [cbn in H1; lia|]. destruct reg2 as [|b reg2]; [cbn in H2; lia|].
  cbn [hd tl]. pose proof (H 0%nat ltac:(lia)) as H0. cbn [nth] in H0. rewrite H0. f_equal.
  cbn [List.length] in *. apply IH.
  - intros i Hi. specialize (H (Datatypes.S i) ltac:(lia)). cbn [nth] in H.
    rewrite !app_nth1 by lia. exact H.
  - rewrite app_length. lia.
  - rewrite app_length. lia.
Qed.

(** ** magma::Imit *)

Section Imit.
Context (mc : machine) {W St : Type} (rd : reader W St).

Definition val (b : bytes) : N := of_mem mc (b ++ repeat 0 (8 - List.length b)).

Lemma val_lt b : (List.length b <= 8)%nat -> Forall u8 b -> val b < 2 ^ 64.
Proof.
  intros Hl Hu.
  assert (U : Forall u8 (b ++ repeat 0 (8 - List.length b))).
  { apply Forall_app. split; [assumption|]. apply Forall_forall. intros x Hx. apply repeat_spec in Hx. now subst. }
  assert (L : List.length (b ++ repeat 0 (8 - List.length b)) = 8%nat)
    by (rewrite app_length, repeat_length; lia).
  unfold val. rewrite of_mem_8 by assumption. apply sw_lt. now apply of_le_8_lt.
Qed.

Lemma imit_load_on_ok m b : (0 < List.length b <= 8)%nat -> imit_load_on mc m b = Ok (val b).
Proof.
  intros H. unfold imit_load_on. replace (Nat.ltb 8 (List.length b)) with false by lia.
  destruct b; [cbn in H; lia|]. now destruct m.
Qed.

Lemma imit_loop_on m k E t s2 w2 s1 w1 : enciphers (KLazy k) E ->
  rd s1 8 w1 = (Ok (t, s2), w2) -> (List.length t < 8)%nat -> Forall u8 t ->
  forall bs b s w st n, block8 b -> Forall block8 bs -> st < 2 ^ 64 ->
  reads rd s (repeat 8 (List.length bs)) w = (Ok (bs, s1), w1) ->
  (List.length bs + 2 <= n)%nat \/ t = [] /\ (List.length bs + 1 <= n)%nat ->
  nmloop n (imit_step_on mc rd m (Some k)) (b, s, Ok (halves st)) w =
  (Ok (BlkImitFinalKey m (Some k) (match t with [] => 8 | _ => List.length t end),
       Ok (halves (chain E st (map val (b :: bs) ++ match t with [] => [] | _ => [val t] end)))), w2).
Proof.
  intros HE Ht Lt Ut. pose proof (enciphers_lt _ _ HE) as LE.
  assert (LV : forall b, block8 b -> val b < 2 ^ 64) by (intros b0 [B1 B2]; apply val_lt; [lia|assumption]).
  induction bs as [|c bs IH]; intros b s w st n Hb Hbs Hst Hr Hn.
  - injection Hr as -> ->.
    destruct n as [|n]; [cbn in Hn; lia|]. cbn [nmloop]. unfold imit_step_on at 1.
    rewrite imit_load_on_ok by (destruct Hb; lia).
    unfold mbind at 1 2. cbn [lift].
    replace (Nat.ltb (List.length b) block_size) with false by (unfold block_size; destruct Hb; lia).
    unfold mbind at 1. change (N.of_nat block_size) with 8. rewrite Ht.
    assert (EX : BlkXored (Ok (halves st)) (BlkRaw64 (val b)) = Ok (halves (N.lxor st (val b)))).
    { rewrite BlkRaw64_halves by now apply LV. apply BlkXored_halves. }
    rewrite EX. destruct t as [|y t].
    + destruct Hb as [Lb _]. rewrite Lb. reflexivity.
    + destruct Hn as [Hn|[? _]]; [|discriminate]. destruct n as [|n]; [cbn in Hn; lia|].
      cbn [mret nmloop]. unfold imit_step_on at 1. rewrite imit_load_on_ok by (cbn [List.length] in *; lia).
      unfold mbind at 1 2. cbn [lift].
      replace (Nat.ltb (List.length (y :: t)) block_size) with true by (unfold block_size; lia).
      assert (Lx : N.lxor st (val b) < 2 ^ 64) by (apply lxor_lt; [exact Hst|now apply LV]).
      rewrite <- (BlkRaw64_halves (N.lxor st (val b))) by exact Lx.
      destruct (HE _ Lx) as [EE EL]. cbn [cast_lazy] in EE. rewrite EE.
      rewrite (BlkRaw64_halves (val (y :: t))) by (apply val_lt; [lia|assumption]).
      rewrite BlkXored_halves. reflexivity.
  - cbn [List.length repeat] in Hr. apply reads_cons in Hr.
    destruct Hr as (c' & bs' & s3 & w3 & E1 & Hr1 & Hr2). injection E1 as <- <-.
    inversion Hbs as [|? ? Hc Hbs']; subst. cbn [List.length] in Hn.
    destruct n as [|n]; [lia|]. cbn [nmloop]. unfold imit_step_on at 1.
    rewrite imit_load_on_ok by (destruct Hb; lia).
    unfold mbind at 1 2. cbn [lift].
    replace (Nat.ltb (List.length b) block_size) with false by (unfold block_size; destruct Hb; lia).
    unfold mbind at 1. change (N.of_nat block_size) with 8. rewrite Hr1.
    assert (EX : BlkXored (Ok (halves st)) (BlkRaw64 (val b)) = Ok (halves (N.lxor st (val b)))).
    { rewrite BlkRaw64_halves by now apply LV. apply BlkXored_halves. }
    rewrite EX. assert (Lx : N.lxor st (val b) < 2 ^ 64) by (apply lxor_lt; [exact Hst|now apply LV]).
    rewrite <- (BlkRaw64_halves (N.lxor st (val b))) by exact Lx.
    destruct (HE _ Lx) as [EE EL]. cbn [cast_lazy] in EE. rewrite EE.
    destruct c as [|y c]; [destruct Hc; discriminate|]. cbn [mret].
    rewrite IH; try assumption; [|destruct Hn as [Hn|[Hn1 Hn2]]; [left; lia|right; split; [exact Hn1|lia]]].
    reflexivity.
Qed.

Definition imit_pieces_on (E : N -> N) (bs : list (list N)) (t : list N) : N :=
  match bs, t with
  | _ :: _, [] => cbc_mac E (K1 E 64 0x1b) 0 (map val bs)
  | _, _ => cbc_mac E (K2 E 64 0x1b) 0 (map val bs ++ [val t])
  end.

Lemma imit_general_on g k E bs t s s1 s2 w w1 w2 fuel :
  enciphers (KLazy k) E ->
  reads rd s (repeat 8 (List.length bs)) w = (Ok (bs, s1), w1) -> Forall block8 bs ->
  rd s1 8 w1 = (Ok (t, s2), w2) -> (List.length t < 8)%nat -> Forall u8 t ->
  (List.length bs + 1 <= Pos.to_nat fuel)%nat ->
  magma_Imit_on mc rd (X86 g) fuel s (Some k) w = (Ok (halves (imit_pieces_on E bs t)), w2).
Proof.
  intros HE Hr Hbs Ht Lt Ut Hf. unfold magma_Imit_on. change (N.of_nat block_size) with 8.
  pose proof (enciphers_lt _ _ HE) as LE.
  assert (LV : forall b, block8 b -> val b < 2 ^ 64) by (intros b0 [B1 B2]; apply val_lt; [lia|assumption]).
  assert (Lk : forall n, (if Nat.eqb n 8 then K1 E 64 0x1b else K2 E 64 0x1b) < 2 ^ 64)
    by (intros n; destruct (Nat.eqb n 8); auto using K1_lt, K2_lt).
  assert (Lvt : val t < 2 ^ 64) by (apply val_lt; [lia|assumption]).
  destruct bs as [|b bs].
  - injection Hr as -> ->. rewrite (mbind_ok _ _ _ _ _ Ht).
    unfold mbind at 1. rewrite mloop_nm. destruct (Pos.to_nat fuel) as [|n]; [cbn in Hf; lia|].
    assert (El : imit_load_on mc (X86 g) t = Ok (val t)).
    { unfold imit_load_on. replace (Nat.ltb 8 (List.length t)) with false by lia. now destruct t. }
    cbn [nmloop]. unfold imit_step_on at 1. rewrite El. unfold mbind at 1 2. cbn [lift].
    replace (Nat.ltb (List.length t) block_size) with true by (unfold block_size; lia).
    cbn [mret]. rewrite BlkRaw0_halves, (BlkRaw64_halves (val t)) by exact Lvt.
    rewrite BlkXored_halves, (final_key_x86 g k E) by assumption.
    replace (Nat.eqb (List.length t) 8) with false by lia.
    rewrite BlkXored_halves, N.lxor_0_l.
    rewrite (encrypt_halves k E) by (try apply lxor_lt; auto using K2_lt).
    cbn [lift imit_pieces_on map app]. destruct t; reflexivity.
  - cbn [List.length repeat] in Hr. apply reads_cons in Hr.
    destruct Hr as (b' & bs' & s3 & w3 & E1 & Hr1 & Hr2). injection E1 as <- <-.
    inversion Hbs as [|? ? Hb Hbs']; subst. rewrite (mbind_ok _ _ _ _ _ Hr1).
    unfold mbind at 1. rewrite mloop_nm, BlkRaw0_halves.
    rewrite (imit_loop_on (X86 g) k E t s2 w2 s1 w1 HE Ht Lt Ut bs b s3 w3 0); auto; try reflexivity;
      [|cbn [List.length] in Hf; destruct t; [right; split; [reflexivity|lia]|left; lia]].
    rewrite (final_key_x86 g k E) by assumption. rewrite BlkXored_halves.
    rewrite (encrypt_halves k E); [|assumption|].
    + unfold lift. f_equal. f_equal. f_equal. destruct t as [|y t]; cbn [imit_pieces_on].
      * rewrite app_nil_r, cbc_mac_chain by discriminate. reflexivity.
      * replace (Nat.eqb (List.length (y :: t)) 8) with false by lia.
        rewrite cbc_mac_chain by (now destruct bs). reflexivity.
    + apply lxor_lt; [|apply Lk]. apply chain_lt; [exact LE|reflexivity|].
      apply Forall_app. split.
      * constructor; [now apply LV|]. apply Forall_forall. intros x Hx. apply in_map_iff in Hx.
        destruct Hx as (c & <- & Hc). apply LV. rewrite Forall_forall in Hbs'. auto.
      * destruct t; constructor; [exact Lvt|constructor].
Qed.

Lemma imit_delivers_on g (R : St -> W -> bytes -> Prop) k E s w data fuel :
  enciphers (KLazy k) E -> delivers8 rd R -> R s w data -> Forall u8 data -> data <> [] ->
  (List.length data / 8 + 1 <= Pos.to_nat fuel)%nat ->
  exists w', magma_Imit_on mc rd (X86 g) fuel s (Some k) w =
    (Ok (halves (cbc_mac E (if Nat.eqb (List.length data mod 8) 0 then K1 E 64 0x1b else K2 E 64 0x1b)
                         0 (map val (pieces 8 data)))), w').
Proof.
  intros HE HR Hs Hu Hd Hf.
  destruct (delivers8_pieces rd R HR (List.length data / 8) s w data Hs) as (bs & s1 & w1 & E1 & R1 & L1 & C1 & F1).
  { pose proof (Nat.div_mod (List.length data) 8). lia. }
  destruct (HR s1 w1 _ R1) as (s2 & w2 & E2 & R2).
  fold (leftover data) in E2. fold (complete data) in C1.
  pose proof (leftover_length data) as Ll. rewrite firstn_all2 in E2 by lia.
  exists w2. rewrite <- L1 in E1.
  rewrite (imit_general_on g k E bs (leftover data) s s1 s2 w w1 w2); try assumption.
  - do 2 f_equal. f_equal. rewrite <- leftover_mod.
    pose proof (complete_leftover data) as Ec. pose proof (complete_length data) as Cl.
    assert (Ep : pieces 8 data = bs ++ match leftover data with [] => [] | _ => [leftover data] end).
    { rewrite <- (pieces_concat bs) by assumption. rewrite C1.
      destruct (leftover data) as [|y t] eqn:El.
      - rewrite app_nil_r in Ec. rewrite app_nil_r. now rewrite Ec.
      - rewrite <- Ec at 1. now rewrite pieces_app_short by (assumption || (cbn [List.length] in *; lia)). }
    rewrite Ep. destruct (leftover data) as [|y t] eqn:El.
    + rewrite app_nil_r in *. cbn [List.length Nat.eqb]. unfold imit_pieces_on.
      destruct bs; [|reflexivity]. cbn [List.concat] in C1. rewrite <- C1 in Ec. now subst.
    + change (Nat.eqb (List.length (y :: t)) 0) with false. cbv iota. rewrite map_app.
      unfold imit_pieces_on. now destruct bs.
  - apply concat_block8; [|assumption]. rewrite C1. now apply Forall_firstn.
  - now apply Forall_skipn.
  - lia.
Qed.
End Imit.

(** ** ECB on one machine *)

Lemma ecb_sink_blocks_on mc {W S} (wr : writer W S) heap k E s data w :
  allowed mc heap -> transforms k E -> whole data -> never_fails wr ->
  exists s' w',
    ECBSink_write_on mc (logged wr) heap (ECBSink s k) data (w, []) =
    (Ok (ECBSink s' k), (w', map (to_le 8) (ecb (fun x => sw mc (E (sw mc x))) (blocks8 data)))).
Proof.
  intros Ha HE Hw Hn. destruct (whole_complete _ Hw) as [Ec El].
  rewrite (ECBSink_on mc (logged wr) heap Ha k E) by (exact HE || apply Hw). rewrite Ec, El.
  destruct (never_fails_writes wr Hn (map (to_le 8) (map (fun x => sw mc (E (sw mc x))) (blocks8 data))) s w [])
    as (s' & w' & E1).
  exists s', w'. rewrite (mbind_ok _ _ _ _ _ E1). reflexivity.
Qed.

Lemma ecb_reads_on mc {W St} (rd : reader W St) m heap k D (R : St -> W -> bytes -> Prop) s w cipher sizes :
  allowed mc heap -> deciphers k D -> block_source rd R -> R s w cipher -> whole cipher ->
  Forall (fun n => 8 <= n) sizes ->
  exists o' w', reads (ECBSource_read_on mc rd m heap) (ECBSource s k) sizes w =
    (Ok (served (unblocks8 (ecb (fun x => hsw mc (D (hsw mc x))) (blocks8 cipher))) (map (fun _ => 8) sizes), o'), w').
Proof.
  intros Ha HD HR Hs Hw Hz.
  exact (delivers_blocks_reads _ _ sizes (ecb_delivers_on mc rd m heap Ha k D R HD HR) Hz _ _ _
           (ecb_left_init k _ R s w _ Hs Hw)).
Qed.

Lemma swap_both x : swap_in_halves (swap_bytes x) = (x mod 2 ^ 32) * 2 ^ 32 + (x / 2 ^ 32) mod 2 ^ 32.
Proof.
  set (a := to_le 4 x). set (b := to_le 4 (x / 2 ^ 32)).
  assert (Ua : Forall u8 (rev a)) by apply rev_u8, to_le_u8.
  assert (Ub : Forall u8 (rev b)) by apply rev_u8, to_le_u8.
  assert (La : List.length (rev a) = 4%nat) by (rewrite rev_length; apply to_le_length).
  assert (Lb : List.length (rev b) = 4%nat) by (rewrite rev_length; apply to_le_length).
  assert (E : swap_bytes x = of_le (rev a) * 2 ^ 32 + of_le (rev b)).
  { unfold swap_bytes. change 8%nat with (4 + 4)%nat. rewrite to_le_app.
    change (8 * N.of_nat 4) with 32. fold a b. rewrite rev_app_distr, of_le_app. unfold len. rewrite Lb.
    change (8 * N.of_nat 4) with 32. ring. }
  pose proof (of_le_4_lt _ Ub Lb) as Hb.
  assert (D : swap_bytes x / 2 ^ 32 = of_le (rev a)).
  { rewrite E, N.div_add_l, (N.div_small (of_le (rev b))) by (assumption || discriminate). apply N.add_0_r. }
  assert (M : swap_bytes x mod 2 ^ 32 = of_le (rev b)).
  { rewrite E, N.add_comm, N.mod_add by discriminate. now apply N.mod_small. }
  unfold swap_in_halves. rewrite D, M.
  assert (Ta : to_le 4 (of_le (rev a)) = rev a) by (rewrite <- La; now apply to_of_le).
  assert (Tb : to_le 4 (of_le (rev b)) = rev b) by (rewrite <- Lb; now apply to_of_le).
  rewrite Ta, Tb, !rev_involutive. unfold a, b. rewrite !of_to_le. reflexivity.
Qed.

(** Storage that is not aligned. *)
Lemma ecb_loop_misaligned mc {W S} (wr : writer W S) heap k : m_strict mc = true -> heap mod 8 <> 0 ->
  forall data p s w, (List.length p < 8 <= List.length p + List.length data)%nat ->
  ecb_write_loop_on mc wr heap k data p s w = (Undef Misaligned, w).
Proof.
  intros Hm Ha. assert (A : access mc heap 8 = Undef Misaligned).
  { unfold access. rewrite Hm. destruct (N.eqb_spec (heap mod 8) 0) as [E|E]; [now elim Ha|reflexivity]. }
  induction data as [|b rest IH]; intros p s w H; cbn [List.length] in H; [lia|]. cbn [ecb_write_loop_on].
  assert (L : List.length (p ++ [b]) = Datatypes.S (List.length p)) by (rewrite app_length; cbn; lia).
  destruct (Nat.eqb (List.length (p ++ [b])) 8) eqn:El.
  - unfold mbind, lift. now rewrite A.
  - apply Nat.eqb_neq in El. apply IH. rewrite L in *. lia.
Qed.

Lemma BlkRaw_misaligned mc heap b : m_strict mc = true -> heap mod 4 <> 0 -> BlkRaw_mem mc heap b = Undef Misaligned.
Proof.
  intros Hm Ha. unfold BlkRaw_mem, access. rewrite Hm.
  destruct (N.eqb_spec (heap mod 4) 0) as [E|E]; [now elim Ha|reflexivity].
Qed.

Lemma streams_misaligned mc {W S St} (wr : writer W S) (rd : reader W St) m heap : m_strict mc = true ->
  (heap mod 8 <> 0 -> forall o data w, (8 <= List.length data)%nat ->
     ECBSink_write_on mc wr heap o data w = (Undef Misaligned, w)) /\
  (heap mod 4 <> 0 -> forall s k n w p s' w', 8 <= n -> rd s 8 w = (Ok (p, s'), w') -> (8 <= List.length p)%nat ->
     ECBSource_read_on mc rd m heap (ECBSource s k) n w = (Undef Misaligned, w')) /\
  (heap mod 4 <> 0 -> forall data k, DataImit_on mc heap data k = Undef Misaligned).
Proof.
  intros Hm. split; [|split].
  - intros Ha o data w H. unfold ECBSink_write_on. unfold mbind at 1.
    rewrite ecb_loop_misaligned by (cbn [List.length]; first [assumption|lia]). reflexivity.
  - intros Ha s k n w p s' w' Hn Hr Hp. unfold ECBSource_read_on. change (N.of_nat block_size) with 8.
    replace (n <? 8) with false by lia. unfold mbind at 1. rewrite Hr.
    destruct p as [|x p]; [cbn in Hp; lia|]. unfold mbind at 1, lift at 1. unfold read8.
    replace (Nat.leb 8 (List.length (x :: p))) with true by lia.
    unfold mbind at 1, lift at 1. rewrite BlkRaw_misaligned by assumption. reflexivity.
  - intros Ha data k. unfold DataImit_on.
    assert (L : (16 <= List.length (dataimit_pad data))%nat)
      by (unfold dataimit_pad; rewrite !app_length, !repeat_length; lia).
    remember (dataimit_pad data) as p eqn:Ep. clear Ep.
    do 8 (destruct p as [|? p]; [cbn [List.length] in L; lia|]).
    cbn [List.length dataimit_loop_on repeat xor_bytes bind]. unfold dataimit_block_on. cbn [read8 List.length Nat.leb firstn bind].
    rewrite BlkRaw_misaligned by assumption. reflexivity.
Qed.
