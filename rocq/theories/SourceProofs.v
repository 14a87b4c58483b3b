(** Proofs about the sources. *)
From Verif Require Import Base MagmaModel Streams Lib SpecMagma SpecModes SpecStreams MagmaProofs MagmaSpecProofs ByteProofs SinkProofs.
From Coq Require Import ZifyNat ZifyN ZifyBool.
Local Open Scope N_scope.
Ltac Zify.zify_post_hook ::= Z.div_mod_to_equations.

(** ** Loops *)

Fixpoint nmloop {W S R} (n : nat) (step : S -> M W (S + R)) (s : S) : M W R :=
  match n with
  | O => fun w => (OutOfFuel, w)
  | Datatypes.S n' => x <-- step s ;; match x with inl s' => nmloop n' step s' | inr r => mret r end
  end.

Lemma mloop_nm {W S R} p (step : S -> M W (S + R)) s w :
  mloop p step s w = nmloop (Pos.to_nat p) step s w.
Proof.
  unfold mloop. rewrite ploop_nloop. generalize (Pos.to_nat p) as n. intros n.
  revert s w. induction n as [|n IH]; intros s w; [reflexivity|].
  cbn [nloop nmloop]. unfold mbind.
  destruct (step s w) as [[[s1|r]|e|u|] w1]; try reflexivity. apply IH.
Qed.

Definition map_sum {A B} (f : A -> B) (x : A + A) : B + B :=
  match x with inl a => inl (f a) | inr a => inr (f a) end.

Lemma nmloop_map {W A B} (f : A -> B) (st1 : A -> M W (A + A)) (st2 : B -> M W (B + B)) :
  (forall a w, st2 (f a) w = (x <-- st1 a ;; mret (map_sum f x)) w) ->
  forall n a w, nmloop n st2 (f a) w = (x <-- nmloop n st1 a ;; mret (f x)) w.
Proof.
  intros H. induction n as [|n IH]; intros a w; [reflexivity|].
  cbn [nmloop]. rewrite mbind_assoc.
  etransitivity; [apply mbind_ext; [apply H|intros ? ?; reflexivity]|].
  rewrite mbind_assoc. apply mbind_ext; [reflexivity|].
  intros [a1|a1] w1; rewrite !mbind_mret_l; cbn [map_sum]; [apply IH|reflexivity].
Qed.

(** ** The common core of both CFBSources *)

Lemma drain_ok size : forall p res, (List.length res <= N.to_nat size)%nat ->
  drain p res size = (res ++ firstn (N.to_nat size - List.length res) p,
                      skipn (N.to_nat size - List.length res) p).
Proof.
  induction p as [|b p IH]; intros res H.
  - cbn [drain]. now rewrite firstn_nil, skipn_nil, app_nil_r.
  - cbn [drain]. destruct (len res <? size) eqn:E.
    + unfold len in E. rewrite IH by (rewrite app_length; cbn [List.length]; lia).
      rewrite app_length. cbn [List.length].
      replace (N.to_nat size - List.length res)%nat
        with (Datatypes.S (N.to_nat size - (List.length res + 1)))%nat by lia.
      cbn [firstn skipn]. now rewrite <- app_assoc.
    + unfold len in E. replace (N.to_nat size - List.length res)%nat with 0%nat by lia.
      cbn [firstn skipn]. now rewrite app_nil_r.
Qed.

Lemma inner_reads_0 a : inner_reads 0 a = 0%nat.
Proof. reflexivity. Qed.

Lemma inner_reads_end n : (0 < n)%nat -> inner_reads n 0 = 1%nat.
Proof. intros H. unfold inner_reads. destruct (Nat.leb_spec n 0); [lia|reflexivity]. Qed.

Lemma inner_reads_step n a : (0 < n)%nat ->
  inner_reads n (8 + a) = Datatypes.S (inner_reads (n - 8) a).
Proof.
  intros H. unfold inner_reads. destruct (Nat.leb_spec n (8 + a)), (Nat.leb_spec (n - 8) a); lia.
Qed.

Section Core.
Context {W St Reg : Type} (rd : reader W St) (m : mode) (k : key)
        (cur : Reg -> N) (push : Reg -> N -> Reg).

Definition core_step (size : N) (st : St * bytes * Reg * bytes)
  : M W ((St * bytes * Reg * bytes) + (St * bytes * Reg * bytes)) :=
  let '(s, p, r, res) := st in
  if len res <? size then
    let (res, p) := drain p res size in
    if len res =? size then mret (inr (s, p, r, res))
    else
      '(first, second) <-- lift (BlkEncrypted (BlkRaw64 (cur r)) (cast_lazy k)) ;;
      '(p, s) <-- rd s 8 ;;
      match p with
      | [] => mret (inr (s, [], r, res))
      | _ :: _ =>
          c <-- lift (load_reg m p) ;;
          p <-- lift (source_xor m p first second) ;;
          mret (inl (s, p, push r c, res))
      end
  else mret (inr (s, p, r, res)).

Section Deliver.
Context (E : N -> N) (regl : Reg -> list N) (R : St -> W -> bytes -> Prop).
Hypothesis HE : enciphers k E.
Hypothesis HR : delivers8 rd R.
Hypothesis Hcur : forall r, hd 0 (regl r) = cur r.
Hypothesis Hpush : forall r c, regl (push r c) = tl (regl r) ++ [c].

Definition plain_of (p : bytes) (r : Reg) (data : bytes) : bytes :=
  p ++ unblocks8 (cfb_decrypt E (regl r) (blocks8 data)).

Lemma core_delivers size : forall n s w p r res data,
  R s w data -> whole data -> reg_ok (regl r) -> (List.length res <= N.to_nat size)%nat ->
  (1 <= n)%nat ->
  (N.to_nat size - List.length res + match p with [] => 1 | _ => 0 end <= n)%nat ->
  let z := (N.to_nat size - List.length res)%nat in
  exists s' w' p' r' data' bs,
    nmloop n (core_step size) (s, p, r, res) w =
      (Ok (s', p', r', res ++ firstn z (plain_of p r data)), w') /\
    R s' w' data' /\ whole data' /\ reg_ok (regl r') /\
    plain_of p' r' data' = skipn z (plain_of p r data) /\
    reads rd s (repeat 8 (inner_reads (z - List.length p) (List.length data))) w = (Ok (bs, s'), w').
Proof.
  induction n as [|n IH]; intros s w p r res data HRs Hw Hr Hl Hn Hf z; [lia|].
  cbn [nmloop]. unfold core_step at 1.
  destruct (len res <? size) eqn:El.
  2:{ unfold len in El. assert (z = 0%nat) by (unfold z; lia). rewrite H.
      exists s, w, p, r, data, []. cbn [firstn skipn]. rewrite app_nil_r.
      cbn [Nat.sub]. rewrite inner_reads_0. repeat split; auto; apply Hw || apply Hr. }
  unfold len in El. rewrite drain_ok by assumption. fold z.
  assert (Hz : (0 < z)%nat) by (unfold z; lia).
  destruct (len (res ++ firstn z p) =? size) eqn:Eq.
  { unfold len in Eq. rewrite app_length, firstn_length in Eq.
    assert (z <= List.length p)%nat by (unfold z in *; lia).
    exists s, w, (skipn z p), r, data, []. rewrite mbind_mret_l.
    replace (z - List.length p)%nat with 0%nat by lia. rewrite inner_reads_0.
    unfold plain_of. rewrite firstn_app, skipn_app.
    replace (z - List.length p)%nat with 0%nat by lia. cbn [firstn skipn]. rewrite app_nil_r.
    repeat split; auto; apply Hw || apply Hr. }
  unfold len in Eq. rewrite app_length, firstn_length in Eq.
  assert (Hp : (List.length p < z)%nat) by (unfold z in *; lia).
  rewrite (firstn_all2 p) by lia. clear Eq.
  destruct (HE (cur r)) as [E1 L1]; [rewrite <- Hcur; now apply hd_lt|].
  rewrite E1. destruct (HR s w data HRs) as (s1 & w1 & Er & HR1).
  destruct (whole_cases data Hw) as [->|(a & b & -> & Ha & Hu & Hwb)].
  - exists s1, w1, [], r, [], [[]].
    rewrite mbind_assoc. change (mbind (lift (Ok ?x)) ?f w) with (f x w). cbn [halves].
    rewrite mbind_assoc. unfold mbind at 1. rewrite Er. rewrite firstn_nil.
    rewrite mbind_mret_l. rewrite inner_reads_end by (cbn [List.length]; lia). cbn [repeat].
    rewrite skipn_nil in HR1. unfold plain_of. rewrite blocks8_nil. cbn [cfb_decrypt].
    change (unblocks8 []) with (@nil N). rewrite !app_nil_r.
    rewrite firstn_all2, skipn_all2 by lia.
    repeat split; auto; try apply Hw; try apply Hr.
    cbn [reads]. unfold mbind at 1. rewrite Er, firstn_nil. reflexivity.
  - rewrite firstn_app_exact in Er by assumption. rewrite skipn_app_exact in HR1 by assumption.
    set (x := N.lxor (of_le a) (E (cur r))).
    assert (Lx : x < 2 ^ 64) by (apply lxor_lt; [now apply of_le_8_lt|exact L1]).
    set (p1 := to_le 8 x). set (r1 := push r (of_le a)).
    assert (Hr1 : reg_ok (regl r1)).
    { unfold r1. rewrite Hpush. apply reg_ok_shift; [exact Hr|now apply of_le_8_lt]. }
    assert (Hp1 : List.length p1 = 8%nat) by apply to_le_length.
    destruct (IH s1 w1 p1 r1 (res ++ p) b HR1 Hwb Hr1) as (s' & w' & p' & r' & d' & bs & En & A1 & A2 & A3 & A4 & A5).
    + rewrite app_length. unfold z in *; lia.
    + destruct p; cbn [List.length] in *; unfold z in *; lia.
    + rewrite app_length. change (match p1 with [] => 1 | _ => 0 end)%nat with 0%nat.
      destruct p; cbn [List.length] in *; unfold z in *; lia.
    + rewrite app_length in En, A4, A5.
      replace (N.to_nat size - (List.length res + List.length p))%nat
        with (z - List.length p)%nat in En, A4, A5 by (unfold z; lia).
      exists s', w', p', r', d', (a :: bs).
      assert (Epl : plain_of p r (a ++ b) = p ++ plain_of p1 r1 b).
      { unfold plain_of. f_equal. rewrite blocks8_cons by assumption. cbn [cfb_decrypt].
        rewrite Hcur. unfold r1. rewrite Hpush. reflexivity. }
      rewrite Epl. split.
      * rewrite mbind_assoc. change (mbind (lift (Ok ?y)) ?f w) with (f y w). cbn [halves].
        rewrite mbind_assoc. unfold mbind at 1. rewrite Er.
        destruct a as [|a0 a']; [discriminate|]. cbv iota.
        rewrite load_reg_ok, source_xor_ok by assumption. fold x. fold p1. fold r1.
        rewrite mbind_assoc. change (mbind (lift (Ok ?y)) ?f w1) with (f y w1). cbv beta.
        rewrite mbind_assoc. change (mbind (lift (Ok ?y)) ?f w1) with (f y w1). cbv beta.
        etransitivity; [exact En|]. rewrite <- app_assoc.
        rewrite (firstn_app z p), (firstn_all2 p) by lia. reflexivity.
      * split; [exact A1|]. split; [exact A2|]. split; [exact A3|]. split.
        -- rewrite A4. rewrite (skipn_app z p), (skipn_all2 p) by lia. reflexivity.
        -- rewrite app_length, Ha, inner_reads_step by lia. cbn [repeat reads].
           unfold mbind at 1. rewrite Er. rewrite Hp1 in A5. unfold mbind at 1.
           rewrite A5. reflexivity.
Qed.
End Deliver.
End Core.

(** ** Termination and number of inner reads, against every source *)

Lemma xor_nth_length c i x : List.length (xor_nth c i x) = List.length c.
Proof. revert i. induction c; intros [|i]; cbn; auto. Qed.

Lemma xor_at_length m c i x c' : xor_at m c i x = Ok c' -> List.length c' = List.length c.
Proof.
  unfold xor_at. destruct (Nat.ltb i (List.length c)).
  - intros H. injection H as <-. apply xor_nth_length.
  - destruct m; [discriminate|]. congruence.
Qed.

Lemma xor_at_fuel m c i x : xor_at m c i x <> OutOfFuel.
Proof. unfold xor_at. destruct (Nat.ltb _ _), m; discriminate. Qed.

Lemma foldM_inv {A B} (f : A -> B -> res A) (P : A -> Prop) l :
  (forall a b, P a -> match f a b with Ok a' => P a' | OutOfFuel => False | _ => True end) ->
  forall a, P a -> match foldM f l a with Ok a' => P a' | OutOfFuel => False | _ => True end.
Proof.
  intros H. induction l as [|b l IH]; intros a Pa; [exact Pa|].
  cbn [foldM]. pose proof (H a b Pa) as X. destruct (f a b); cbn [bind]; [apply IH; exact X|exact I|exact I|exact X].
Qed.

Lemma source_xor_length m p f s :
  match source_xor m p f s with
  | Ok p' => List.length p' = List.length p
  | OutOfFuel => False
  | _ => True
  end.
Proof.
  unfold source_xor.
  apply (foldM_inv _ (fun q => List.length q = List.length p)); [|reflexivity].
  intros q i Hq.
  assert (A : forall c j e, List.length c = List.length p ->
    match (if Nat.leb j (List.length c) then xor_at m c j e else Ok c) with
    | Ok c' => List.length c' = List.length p | OutOfFuel => False | _ => True end).
  { intros c j e Hc. destruct (Nat.leb j (List.length c)); [|exact Hc].
    destruct (xor_at m c j e) eqn:X; auto; [apply xor_at_length in X; congruence|].
    now apply (xor_at_fuel m c j e). }
  pose proof (A q (0 + i)%nat (byte_of f i) Hq) as A1.
  destruct (if Nat.leb (0 + i) (List.length q) then _ else _); cbn [bind];
    [apply A; exact A1|exact I|exact I|exact A1].
Qed.

Lemma load_reg_cases m p :
  match load_reg m p with OutOfFuel => False | Throw _ => False | _ => True end.
Proof.
  unfold load_reg, read8. destruct (Nat.ltb _ _); [exact I|]. destruct (Nat.leb _ _); [exact I|].
  destruct m; exact I.
Qed.

Section Terminate.
Context {W St Reg : Type} (rd : reader W St) (m : mode) (k : key)
        (cur : Reg -> N) (push : Reg -> N -> Reg).
Hypothesis Hrd : forall s w, fst (rd s 8 w) <> OutOfFuel.
Hypothesis Hk : forall x, BlkEncrypted (BlkRaw64 x) (cast_lazy k) <> OutOfFuel.

Lemma core_terminates size : forall n s w c p r res,
  (List.length res <= N.to_nat size)%nat -> (1 <= n)%nat ->
  (N.to_nat size - List.length res + match p with [] => 1 | _ => 0 end <= n)%nat ->
  exists o w' c', nmloop n (core_step (counted rd) m k cur push size) (s, p, r, res) (w, c) = (o, (w', c')) /\
    o <> OutOfFuel /\ c <= c' /\
    (N.to_nat (c' - c) <= N.to_nat size - List.length res - List.length p)%nat.
Proof.
  induction n as [|n IH]; intros s w c p r res Hl Hn Hf; [lia|].
  cbn [nmloop]. unfold core_step at 1.
  destruct (len res <? size) eqn:El.
  2:{ eexists _, w, c. split; [reflexivity|]. split; [discriminate|]. lia. }
  unfold len in El. rewrite drain_ok by assumption.
  set (z := (N.to_nat size - List.length res)%nat) in *.
  assert (Hz : (0 < z)%nat) by (unfold z; lia).
  destruct (len (res ++ firstn z p) =? size) eqn:Eq.
  { eexists _, w, c. split; [reflexivity|]. split; [discriminate|]. lia. }
  unfold len in Eq. rewrite app_length, firstn_length in Eq.
  assert (Hp : (List.length p < z)%nat) by (unfold z in *; lia).
  rewrite (firstn_all2 p) by lia. clear Eq.
  pose proof (Hk (cur r)) as Hkr.
  rewrite mbind_assoc. unfold mbind at 1, lift at 1.
  destruct (BlkEncrypted (BlkRaw64 (cur r)) (cast_lazy k)) as [[f1 f2]|e|u|].
  2,3: eexists _, w, c; split; [reflexivity|]; split; [discriminate|lia].
  2: contradiction.
  rewrite mbind_assoc. unfold mbind at 1. unfold counted at 1.
  pose proof (Hrd s w) as Hs. destruct (rd s 8 w) as [[[q s1]|e|u|] w1]; cbn [fst] in Hs.
  2,3: eexists _, w1, (c + 1); split; [reflexivity|]; split; [discriminate|lia].
  2: contradiction.
  destruct q as [|q0 q'] eqn:Eq.
  { eexists _, w1, (c + 1); split; [reflexivity|]; split; [discriminate|lia]. }
  rewrite <- Eq in *.
  rewrite mbind_assoc. unfold mbind at 1, lift at 1. pose proof (load_reg_cases m q) as Hlr.
  destruct (load_reg m q) as [v|e|u|]; [|contradiction| |contradiction].
  2: eexists _, w1, (c + 1); split; [reflexivity|]; split; [discriminate|lia].
  rewrite mbind_assoc. unfold mbind at 1, lift at 1. pose proof (source_xor_length m q f1 f2) as Hsx.
  destruct (source_xor m q f1 f2) as [q1|e|u|]; [| | |contradiction].
  2,3: eexists _, w1, (c + 1); split; [reflexivity|]; split; [discriminate|lia].
  rewrite mbind_mret_l.
  assert (Hq1 : (1 <= List.length q1)%nat) by (rewrite Hsx, Eq; cbn [List.length]; lia).
  destruct (IH s1 w1 (c + 1) q1 (push r v) (res ++ p)) as (o & w' & c' & A1 & A2 & A3 & A4).
  - rewrite app_length. unfold z in *. lia.
  - destruct p; cbn [List.length] in *; unfold z in *; lia.
  - rewrite app_length. destruct q1; [cbn in Hq1; lia|].
    destruct p; cbn [List.length] in *; unfold z in *; lia.
  - exists o, w', c'. split; [exact A1|]. split; [exact A2|].
    rewrite app_length in A4. unfold z in *. lia.
Qed.
End Terminate.
