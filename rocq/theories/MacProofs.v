(** Proofs about magma::Imit and gost89::DataImit. *)
From Verif Require Import Base MagmaModel Streams Lib SpecText SpecMagma SpecModes SpecStreams SpecMac.
From Verif Require Import TextProofs MagmaProofs MagmaSpecProofs BlockProofs ByteProofs SinkProofs SourceProofs StreamProofs.
From Coq Require Import ZifyNat ZifyN ZifyBool.
Local Open Scope N_scope.

(** Full blocks [bs], then an incomplete or empty rest [t]. *)
Definition imit_pieces (E : N -> N) (bs : list (list N)) (t : list N) : N :=
  match bs, t with
  | _ :: _, [] => cbc_mac E (K1 E 64 0x1b) 0 (map of_le bs)
  | _, _ => cbc_mac E (K2 E 64 0x1b) 0 (map of_le bs ++ [of_le t])
  end.

(** ** Chaining *)

Fixpoint chain (E : N -> N) (st : N) (ps : list N) : N :=
  match ps with
  | [] => st
  | [p] => N.lxor st p
  | p :: r => chain E (E (N.lxor st p)) r
  end.

Lemma cbc_mac_chain E K ps : forall st, ps <> [] -> cbc_mac E K st ps = E (N.lxor (chain E st ps) K).
Proof.
  induction ps as [|p [|q r] IH]; intros st H; [now elim H|reflexivity|].
  change (cbc_mac E K st (p :: q :: r)) with (cbc_mac E K (E (N.lxor st p)) (q :: r)).
  change (chain E st (p :: q :: r)) with (chain E (E (N.lxor st p)) (q :: r)).
  apply IH. discriminate.
Qed.

Lemma chain_lt E ps : E_lt E -> forall st, st < 2 ^ 64 -> Forall (fun x => x < 2 ^ 64) ps ->
  chain E st ps < 2 ^ 64.
Proof.
  intros HE. induction ps as [|p [|q r] IH]; intros st Hs H; [exact Hs| |]; inversion H; subst.
  - now apply lxor_lt.
  - change (chain E st (p :: q :: r)) with (chain E (E (N.lxor st p)) (q :: r)).
    apply IH; [|assumption]. apply HE. now apply lxor_lt.
Qed.

(** ** Doubling *)

Lemma BlkXored_halves x y : BlkXored (Ok (halves x)) (Ok (halves y)) = Ok (halves (N.lxor x y)).
Proof. unfold halves. cbn [BlkXored bind]. now rewrite lxor_mod, lxor_div. Qed.

Lemma high_bit_32 x : x < 2 ^ 64 ->
  (N.land (x / 2 ^ 32) 0x80000000 =? 0) = negb (N.testbit x 63).
Proof.
  intros H. change 0x80000000 with (2 ^ 31).
  rewrite <- N.shiftr_div_pow2.
  destruct (N.testbit x 63) eqn:E; cbn [negb].
  - apply N.eqb_neq. intros C.
    assert (N.testbit (N.land (N.shiftr x 32) (2 ^ 31)) 31 = false) by (rewrite C; apply N.bits_0).
    rewrite N.land_spec, N.pow2_bits_true, N.shiftr_spec in H0 by lia.
    change (31 + 32) with 63 in H0. rewrite E in H0. discriminate.
  - apply N.eqb_eq, N.bits_inj_iff. intros i. rewrite N.land_spec, N.bits_0.
    destruct (N.eq_dec i 31) as [->|Hi].
    + rewrite N.shiftr_spec by lia. change (31 + 32) with 63. now rewrite E.
    + rewrite (N.pow2_bits_false 31 i) by lia. apply andb_false_r.
Qed.

Lemma double_lt n B x : B < 2 ^ n -> double n B x < 2 ^ n.
Proof.
  intros H. unfold double. destruct (N.testbit x (n - 1)); [apply lxor_lt|]; auto using mod_pow2_lt.
Qed.

Lemma BlkImitShifted_x86 g x : x < 2 ^ 64 ->
  BlkImitShifted (X86 g) (Ok (halves x)) = Ok (halves (double 64 0x1b x)).
Proof.
  intros H. unfold BlkImitShifted.
  pose proof (halves_lt x H) as [L1 L2].
  destruct (BlkShifted_x86_ok g (fst (halves x)) (snd (halves x)) 1 L1 L2) as (lo & hi & E1 & M1 & M2 & E2);
    [lia|].
  rewrite <- surjective_pairing in E1. rewrite E1.
  cbn [halves fst snd] in E2. rewrite split_join in E2.
  change (2 ^ Z.to_N 1) with 2 in E2.
  cbn [halves bind]. rewrite high_bit_32 by assumption.
  unfold double. change (64 - 1) with 63.
  assert (E3 : (lo, hi) = halves ((2 * x) mod 2 ^ 64)).
  { rewrite (N.mul_comm 2 x), <- E2. symmetry. now apply (halves_join (lo, hi)). }
  rewrite E3. destruct (N.testbit x 63); cbn [negb]; [|reflexivity].
  rewrite BlkRaw64_halves by reflexivity. apply BlkXored_halves.
Qed.

Lemma BlkImitShifted_iso b : BlkImitShifted ISO (Ok b) = Undef WideShift.
Proof.
  unfold BlkImitShifted. rewrite BlkShifted_iso_undef. destruct b as [lo hi]. cbn [bind].
  now destruct (N.land hi 0x80000000 =? 0).
Qed.

Lemma skipn_skipn {A} a b (l : list A) : skipn a (skipn b l) = skipn (a + b) l.
Proof.
  revert l. induction b as [|b IH]; intros l; [now rewrite Nat.add_0_r|].
  rewrite Nat.add_succ_r. destruct l as [|x l]; [now rewrite !skipn_nil|]. apply IH.
Qed.

Section Imit.
Context {W St : Type} (rd : reader W St).

Lemma final_key_x86 g k E n : enciphers (KLazy k) E ->
  BlkImitFinalKey (X86 g) (Some k) n =
  Ok (halves (if Nat.eqb n 8 then K1 E 64 0x1b else K2 E 64 0x1b)).
Proof.
  intros HE. destruct (HE 0 eq_refl) as [E0 L0]. cbn [cast_lazy] in E0.
  unfold BlkImitFinalKey, BlkRaw0. rewrite E0, BlkImitShifted_x86 by assumption.
  destruct (Nat.eqb n 8); [reflexivity|]. rewrite BlkImitShifted_x86; [reflexivity|].
  now apply double_lt.
Qed.

Lemma final_key_iso k E n : enciphers (KLazy k) E -> BlkImitFinalKey ISO (Some k) n = Undef WideShift.
Proof.
  intros HE. destruct (HE 0 eq_refl) as [E0 L0]. cbn [cast_lazy] in E0.
  unfold BlkImitFinalKey, BlkRaw0. rewrite E0, BlkImitShifted_iso.
  now destruct (Nat.eqb n 8).
Qed.

Lemma shifted_iso_not_ok b v : BlkImitShifted ISO b <> Ok v.
Proof.
  destruct b as [x| | |]; [rewrite BlkImitShifted_iso|..]; discriminate.
Qed.

Lemma final_key_iso_not_ok k n v : BlkImitFinalKey ISO k n <> Ok v.
Proof. unfold BlkImitFinalKey. destruct (Nat.eqb n 8); apply shifted_iso_not_ok. Qed.

Lemma BlkEncrypted_ok_inv b k v : BlkEncrypted b k = Ok v -> exists x, b = Ok x.
Proof. destruct b; [eauto|discriminate..]. Qed.

Lemma BlkXored_ok_inv a b v : BlkXored a b = Ok v -> exists x y, a = Ok x /\ b = Ok y.
Proof. destruct a as [[]| | |]; [|discriminate..]. destruct b as [[]| | |]; [eauto|discriminate..]. Qed.

(** The key handed out by the loop is always some final key. *)
Lemma imit_loop_key m k n : forall st w fk blk w',
  nmloop n (imit_step rd m k) st w = (Ok (fk, blk), w') -> exists sz, fk = BlkImitFinalKey m k sz.
Proof.
  induction n as [|n IH]; intros [[b s] blk0] w fk blk w' H; [discriminate|].
  cbn [nmloop] in H. apply mbind_ok_inv in H. destruct H as (x & w1 & H1 & H2).
  unfold imit_step in H1. apply mbind_ok_inv in H1. destruct H1 as (v & w0 & _ & H1).
  destruct (Nat.ltb (List.length b) block_size).
  - injection H1 as <- <-. injection H2 as <- _ _. eauto.
  - apply mbind_ok_inv in H1. destruct H1 as ([b1 s1] & w2 & _ & H1). destruct b1 as [|y b1].
    + injection H1 as <- <-. injection H2 as <- _ _. eauto.
    + injection H1 as <- <-. exact (IH _ _ _ _ _ H2).
Qed.

Lemma imit_iso_never fuel s k w v w' : magma_Imit rd ISO fuel s k w <> (Ok v, w').
Proof.
  intros H. unfold magma_Imit in H.
  apply mbind_ok_inv in H. destruct H as ([b s1] & w1 & _ & H).
  apply mbind_ok_inv in H. destruct H as ([fk blk] & w2 & H1 & H2).
  rewrite mloop_nm in H1. apply imit_loop_key in H1. destruct H1 as [sz ->].
  injection H2 as H2 _. apply BlkEncrypted_ok_inv in H2. destruct H2 as [x H2].
  apply BlkXored_ok_inv in H2. destruct H2 as (a & c & _ & H2).
  now apply final_key_iso_not_ok in H2.
Qed.

(** ** The loop *)

Definition block8 (b : bytes) : Prop := List.length b = 8%nat /\ Forall u8 b.

Lemma block8_lt b : block8 b -> of_le b < 2 ^ 64.
Proof. intros [H1 H2]. now apply of_le_8_lt. Qed.

Lemma short_lt b : (List.length b < 8)%nat -> Forall u8 b -> of_le b < 2 ^ 64.
Proof.
  intros H Hb. pose proof (of_le_lt b Hb). eapply N.lt_le_trans; [eassumption|].
  apply N.pow_le_mono_r; unfold len; lia.
Qed.

Lemma imit_load_ok m b : (0 < List.length b <= 8)%nat -> imit_load m b = Ok (of_le b).
Proof.
  intros H. unfold imit_load. replace (Nat.ltb 8 (List.length b)) with false by lia.
  destruct b; [cbn in H; lia|]. now destruct m.
Qed.

Lemma reads_cons s n ns w bs s' w' :
  reads rd s (n :: ns) w = (Ok (bs, s'), w') ->
  exists b r s1 w1, bs = b :: r /\ rd s n w = (Ok (b, s1), w1) /\ reads rd s1 ns w1 = (Ok (r, s'), w').
Proof.
  cbn [reads]. intros H. apply mbind_ok_inv in H. destruct H as ([b s1] & w1 & H1 & H).
  apply mbind_ok_inv in H. destruct H as ([r s2] & w2 & H2 & H). injection H as <- <- <-.
  exists b, r, s1, w1. auto.
Qed.

Lemma imit_loop m k E t s2 w2 s1 w1 : enciphers (KLazy k) E ->
  rd s1 8 w1 = (Ok (t, s2), w2) -> (List.length t < 8)%nat -> Forall u8 t ->
  forall bs b s w st n, block8 b -> Forall block8 bs -> st < 2 ^ 64 ->
  reads rd s (repeat 8 (List.length bs)) w = (Ok (bs, s1), w1) ->
  (List.length bs + 2 <= n)%nat \/ t = [] /\ (List.length bs + 1 <= n)%nat ->
  nmloop n (imit_step rd m (Some k)) (b, s, Ok (halves st)) w =
  (Ok (BlkImitFinalKey m (Some k) (match t with [] => 8 | _ => List.length t end),
       Ok (halves (chain E st (map of_le (b :: bs) ++ match t with [] => [] | _ => [of_le t] end)))), w2).
Proof.
  intros HE Ht Lt Ut. pose proof (enciphers_lt _ _ HE) as LE.
  induction bs as [|c bs IH]; intros b s w st n Hb Hbs Hst Hr Hn.
  - injection Hr as -> ->.
    destruct n as [|n]; [cbn in Hn; lia|]. cbn [nmloop]. unfold imit_step at 1.
    rewrite imit_load_ok by (destruct Hb; lia).
    unfold mbind at 1 2. cbn [lift].
    replace (Nat.ltb (List.length b) block_size) with false by (unfold block_size; destruct Hb; lia).
    unfold mbind at 1. change (N.of_nat block_size) with 8. rewrite Ht.
    assert (EX : BlkXored (Ok (halves st)) (BlkRaw64 (of_le b)) = Ok (halves (N.lxor st (of_le b)))).
    { rewrite BlkRaw64_halves by now apply block8_lt. apply BlkXored_halves. }
    rewrite EX. destruct t as [|y t].
    + destruct Hb as [Lb _]. rewrite Lb. reflexivity.
    + destruct Hn as [Hn|[? _]]; [|discriminate]. destruct n as [|n]; [cbn in Hn; lia|].
      cbn [mret nmloop]. unfold imit_step at 1. rewrite imit_load_ok by (cbn [List.length] in *; lia).
      unfold mbind at 1 2. cbn [lift].
      replace (Nat.ltb (List.length (y :: t)) block_size) with true by (unfold block_size; lia).
      assert (Lx : N.lxor st (of_le b) < 2 ^ 64) by (apply lxor_lt; [exact Hst|now apply block8_lt]).
      rewrite <- (BlkRaw64_halves (N.lxor st (of_le b))) by exact Lx.
      destruct (HE _ Lx) as [EE EL]. cbn [cast_lazy] in EE. rewrite EE.
      rewrite BlkRaw64_halves by now apply short_lt. rewrite BlkXored_halves. reflexivity.
  - cbn [List.length repeat] in Hr. apply reads_cons in Hr.
    destruct Hr as (c' & bs' & s3 & w3 & E1 & Hr1 & Hr2). injection E1 as <- <-.
    inversion Hbs as [|? ? Hc Hbs']; subst. cbn [List.length] in Hn.
    destruct n as [|n]; [lia|]. cbn [nmloop]. unfold imit_step at 1.
    rewrite imit_load_ok by (destruct Hb; lia).
    unfold mbind at 1 2. cbn [lift].
    replace (Nat.ltb (List.length b) block_size) with false by (unfold block_size; destruct Hb; lia).
    unfold mbind at 1. change (N.of_nat block_size) with 8. rewrite Hr1.
    assert (EX : BlkXored (Ok (halves st)) (BlkRaw64 (of_le b)) = Ok (halves (N.lxor st (of_le b)))).
    { rewrite BlkRaw64_halves by now apply block8_lt. apply BlkXored_halves. }
    rewrite EX. assert (Lx : N.lxor st (of_le b) < 2 ^ 64) by (apply lxor_lt; [exact Hst|now apply block8_lt]).
    rewrite <- (BlkRaw64_halves (N.lxor st (of_le b))) by exact Lx.
    destruct (HE _ Lx) as [EE EL]. cbn [cast_lazy] in EE. rewrite EE.
    destruct c as [|y c]; [destruct Hc; discriminate|]. cbn [mret].
    rewrite IH; try assumption; [|destruct Hn as [Hn|[Hn1 Hn2]]; [left; lia|right; split; [exact Hn1|lia]]].
    reflexivity.
Qed.

Lemma BlkRaw0_halves : BlkRaw0 = Ok (halves 0).
Proof. reflexivity. Qed.

Lemma encrypt_halves k E x : enciphers (KLazy k) E -> x < 2 ^ 64 ->
  BlkEncrypted (Ok (halves x)) (Some k) = Ok (halves (E x)).
Proof. intros HE Hx. rewrite <- BlkRaw64_halves by assumption. now apply HE. Qed.

Lemma K1_lt E : K1 E 64 0x1b < 2 ^ 64.
Proof. now apply double_lt. Qed.
Lemma K2_lt E : K2 E 64 0x1b < 2 ^ 64.
Proof. now apply double_lt. Qed.

Lemma blocks8_of_le_lt bs : Forall block8 bs -> Forall (fun x => x < 2 ^ 64) (map of_le bs).
Proof. induction 1; constructor; auto using block8_lt. Qed.

Lemma imit_general g k E bs t s s1 s2 w w1 w2 fuel :
  enciphers (KLazy k) E ->
  reads rd s (repeat 8 (List.length bs)) w = (Ok (bs, s1), w1) -> Forall block8 bs ->
  rd s1 8 w1 = (Ok (t, s2), w2) -> (List.length t < 8)%nat -> Forall u8 t ->
  (List.length bs + 1 <= Pos.to_nat fuel)%nat ->
  magma_Imit rd (X86 g) fuel s (Some k) w = (Ok (halves (imit_pieces E bs t)), w2).
Proof.
  intros HE Hr Hbs Ht Lt Ut Hf. unfold magma_Imit. change (N.of_nat block_size) with 8.
  pose proof (enciphers_lt _ _ HE) as LE.
  assert (Lk : forall n, (if Nat.eqb n 8 then K1 E 64 0x1b else K2 E 64 0x1b) < 2 ^ 64)
    by (intros n; destruct (Nat.eqb n 8); auto using K1_lt, K2_lt).
  destruct bs as [|b bs].
  - injection Hr as -> ->. rewrite (mbind_ok _ _ _ _ _ Ht).
    unfold mbind at 1. rewrite mloop_nm. destruct (Pos.to_nat fuel) as [|n]; [cbn in Hf; lia|].
    assert (El : imit_load (X86 g) t = Ok (of_le t)).
    { unfold imit_load. replace (Nat.ltb 8 (List.length t)) with false by lia. now destruct t. }
    cbn [nmloop]. unfold imit_step at 1. rewrite El. unfold mbind at 1 2. cbn [lift].
    replace (Nat.ltb (List.length t) block_size) with true by (unfold block_size; lia).
    cbn [mret]. rewrite BlkRaw0_halves, BlkRaw64_halves by now apply short_lt.
    rewrite BlkXored_halves, (final_key_x86 g k E) by assumption.
    replace (Nat.eqb (List.length t) 8) with false by lia.
    rewrite BlkXored_halves, N.lxor_0_l.
    rewrite (encrypt_halves k E) by (try apply lxor_lt; auto using short_lt, K2_lt).
    cbn [lift imit_pieces map app]. destruct t; reflexivity.
  - cbn [List.length repeat] in Hr. apply reads_cons in Hr.
    destruct Hr as (b' & bs' & s3 & w3 & E1 & Hr1 & Hr2). injection E1 as <- <-.
    inversion Hbs as [|? ? Hb Hbs']; subst. rewrite (mbind_ok _ _ _ _ _ Hr1).
    unfold mbind at 1. rewrite mloop_nm, BlkRaw0_halves.
    rewrite (imit_loop (X86 g) k E t s2 w2 s1 w1 HE Ht Lt Ut bs b s3 w3 0); auto; try reflexivity;
      [|cbn [List.length] in Hf; destruct t; [right; split; [reflexivity|lia]|left; lia]].
    rewrite (final_key_x86 g k E) by assumption. rewrite BlkXored_halves.
    rewrite (encrypt_halves k E); [|assumption|].
    + unfold lift. f_equal. f_equal. f_equal. destruct t as [|y t]; cbn [imit_pieces].
      * rewrite app_nil_r, cbc_mac_chain by discriminate. reflexivity.
      * replace (Nat.eqb (List.length (y :: t)) 8) with false by lia.
        rewrite cbc_mac_chain by (now destruct bs). reflexivity.
    + apply lxor_lt; [|apply Lk]. apply chain_lt; [exact LE|reflexivity|].
      apply Forall_app. split; [now apply blocks8_of_le_lt|].
      destruct t; constructor; [now apply short_lt|constructor].
Qed.

Lemma imit_iso_whole k E b bs s s1 s2 w w1 w2 fuel :
  enciphers (KLazy k) E ->
  reads rd s (repeat 8 (List.length (b :: bs))) w = (Ok (b :: bs, s1), w1) -> Forall block8 (b :: bs) ->
  rd s1 8 w1 = (Ok ([], s2), w2) ->
  (List.length (b :: bs) <= Pos.to_nat fuel)%nat ->
  magma_Imit rd ISO fuel s (Some k) w = (Undef WideShift, w2).
Proof.
  intros HE Hr Hbs Ht Hf. unfold magma_Imit. change (N.of_nat block_size) with 8.
  cbn [List.length repeat] in Hr. apply reads_cons in Hr.
  destruct Hr as (b' & bs' & s3 & w3 & E1 & Hr1 & Hr2). injection E1 as <- <-.
  inversion Hbs as [|? ? Hb Hbs']; subst. rewrite (mbind_ok _ _ _ _ _ Hr1).
  unfold mbind at 1. rewrite mloop_nm, BlkRaw0_halves. cbn [List.length] in Hf.
  rewrite (imit_loop ISO k E [] s2 w2 s1 w1 HE Ht) with (bs := bs) (b := b) (s := s3); auto; try reflexivity.
  - rewrite (final_key_iso k E) by assumption.
    match goal with |- lift (BlkEncrypted (BlkXored (Ok ?p) _) _) _ = _ => destruct p end. reflexivity.
  - cbn. lia.
  - right. split; [reflexivity|lia].
Qed.

(** ** Sources that deliver given bytes *)

Lemma delivers8_pieces (R : St -> W -> bytes -> Prop) : delivers8 rd R ->
  forall n s w data, R s w data -> (8 * n <= List.length data)%nat ->
  exists bs s' w', reads rd s (repeat 8 n) w = (Ok (bs, s'), w') /\ R s' w' (skipn (8 * n) data) /\ List.length bs = n /\ List.concat bs = firstn (8 * n) data /\ Forall (fun b => List.length b = 8%nat) bs.
Proof.
  intros H. induction n as [|n IH]; intros s w data Hs Hl.
  - exists [], s, w. repeat split; auto. 
  - destruct (H s w data Hs) as (s1 & w1 & E1 & R1).
    destruct (IH s1 w1 _ R1) as (bs & s2 & w2 & E2 & R2 & L2 & C2 & F2).
    { rewrite skipn_length. lia. }
    exists (firstn 8 data :: bs), s2, w2. split; [|split; [|split; [|split]]].
    + cbn [repeat reads]. rewrite (mbind_ok _ _ _ _ _ E1). now rewrite (mbind_ok _ _ _ _ _ E2).
    + replace (8 * S n)%nat with (8 * n + 8)%nat by lia. rewrite <- skipn_skipn. exact R2.
    + cbn. lia.
    + cbn [List.concat]. rewrite C2. rewrite <- (firstn_skipn 8 data) at 3.
      replace (8 * S n)%nat with (8 + 8 * n)%nat by lia. 
      rewrite firstn_app, firstn_firstn, firstn_length.
      replace (Nat.min 8 (List.length data)) with 8%nat by lia.
      replace (Nat.min (8 + 8 * n) 8) with 8%nat by lia.
      do 2 f_equal. lia.
    + constructor; [rewrite firstn_length; lia|assumption].
Qed.

Lemma concat_block8 bs : Forall u8 (List.concat bs) -> Forall (fun b => List.length b = 8%nat) bs ->
  Forall block8 bs.
Proof.
  induction bs as [|b bs IH]; intros Hu Hl; [constructor|]. cbn [List.concat] in Hu.
  apply Forall_app in Hu. inversion Hl; subst. constructor; [split|apply IH]; tauto.
Qed.

Lemma blocks8_concat bs : Forall (fun b => List.length b = 8%nat) bs -> 
  blocks8 (List.concat bs) = map of_le bs.
Proof.
  induction 1 as [|b bs Hb H IH]; [reflexivity|]. cbn [List.concat map].
  rewrite blocks8_cons by assumption. now rewrite IH.
Qed.

Definition mac_of (E : N -> N) (data : bytes) : N :=
  imit_pieces E (pieces 8 (complete data)) (leftover data).

Lemma pieces_concat bs : Forall (fun b => List.length b = 8%nat) bs -> pieces 8 (List.concat bs) = bs.
Proof.
  induction 1 as [|b bs Hb H IH]; [reflexivity|]. cbn [List.concat].
  rewrite pieces_cons by (assumption || lia). now rewrite IH.
Qed.

Lemma imit_delivers g (R : St -> W -> bytes -> Prop) k E s w data fuel :
  enciphers (KLazy k) E -> delivers8 rd R -> R s w data -> Forall u8 data ->
  (List.length data / 8 + 1 <= Pos.to_nat fuel)%nat ->
  exists w', magma_Imit rd (X86 g) fuel s (Some k) w = (Ok (halves (mac_of E data)), w').
Proof.
  intros HE HR Hs Hu Hf.
  destruct (delivers8_pieces R HR (List.length data / 8) s w data Hs) as (bs & s1 & w1 & E1 & R1 & L1 & C1 & F1).
  { pose proof (Nat.div_mod (List.length data) 8). lia. }
  destruct (HR s1 w1 _ R1) as (s2 & w2 & E2 & R2).
  fold (leftover data) in E2. fold (complete data) in C1.
  pose proof (leftover_length data) as Ll. rewrite firstn_all2 in E2 by lia.
  exists w2. unfold mac_of. rewrite <- C1, pieces_concat by assumption.
  rewrite <- L1 in E1. apply (imit_general g k E bs (leftover data) s s1 s2 w w1 w2); try assumption.
  - apply concat_block8; [|assumption]. rewrite C1. now apply Forall_firstn.
  - now apply Forall_skipn.
  - lia.
Qed.

Lemma mac_of_whole E data : whole data -> data <> [] -> mac_of E data = mac E 64 0x1b (blocks8 data).
Proof.
  intros Hw Hd. unfold mac_of. destruct (whole_complete data Hw) as [-> ->].
  unfold imit_pieces, mac, blocks8. destruct (pieces 8 data) as [|b bs] eqn:Ep; [|reflexivity].
  destruct data; [now elim Hd|discriminate].
Qed.

Lemma imit_iso_delivers (R : St -> W -> bytes -> Prop) k E s w data fuel :
  enciphers (KLazy k) E -> delivers8 rd R -> R s w data -> whole data -> data <> [] ->
  (List.length data / 8 <= Pos.to_nat fuel)%nat ->
  exists w', magma_Imit rd ISO fuel s (Some k) w = (Undef WideShift, w').
Proof.
  intros HE HR Hs Hw Hd Hf. pose proof (Nat.div_mod (List.length data) 8). destruct Hw as [Hm Hu].
  destruct (delivers8_pieces R HR (List.length data / 8) s w data Hs) as (bs & s1 & w1 & E1 & R1 & L1 & C1 & F1); [lia|].
  destruct (HR s1 w1 _ R1) as (s2 & w2 & E2 & R2).
  rewrite firstn_all2 in C1 by lia.
  rewrite (skipn_all2 data) in E2 by lia. cbn [firstn] in E2.
  exists w2. rewrite <- L1 in E1. destruct bs as [|b bs]; [now elim Hd|].
  apply (imit_iso_whole k E b bs s s1 s2 w w1 w2); try assumption; [|lia].
  apply concat_block8; [|assumption]. now rewrite C1.
Qed.

End Imit.

Lemma pieces_app_short a t : (List.length a mod 8 = 0)%nat -> (0 < List.length t < 8)%nat ->
  pieces 8 (a ++ t) = pieces 8 a ++ [t].
Proof.
  intros Ha Ht. revert a Ha.
  apply (chunk_ind 8 (fun a => pieces 8 (a ++ t) = pieces 8 a ++ [t])); [lia| |].
  - cbn [app]. rewrite pieces_nil. cbn [app]. unfold pieces. destruct t as [|x t]; [cbn in Ht; lia|].
    cbn [List.length cut]. rewrite firstn_all2, skipn_all2 by lia. now destruct t.
  - intros b r Hb IH. rewrite <- app_assoc, (pieces_cons 8 b (r ++ t)), (pieces_cons 8 b r), IH by (assumption || lia). reflexivity.
Qed.

Lemma leftover_mod data : (List.length (leftover data) = List.length data mod 8)%nat.
Proof.
  unfold leftover. rewrite skipn_length. pose proof (Nat.div_mod (List.length data) 8). lia.
Qed.

Lemma mac_of_x86 E data : mac_of E data = imit_x86 E data.
Proof.
  destruct data as [|x data']; [reflexivity|]. set (data := x :: data'). unfold imit_x86.
  replace (match data with [] => _ | _ => _ end) with
    (cbc_mac E (if Nat.eqb (List.length data mod 8) 0 then K1 E 64 0x1b else K2 E 64 0x1b)
       0 (blocks8 data)) by reflexivity.
  unfold mac_of. rewrite <- leftover_mod. unfold blocks8.
  pose proof (complete_leftover data) as Ec. pose proof (leftover_length data).
  pose proof (complete_length data) as Cl.
  destruct (leftover data) as [|y t] eqn:El.
  - rewrite app_nil_r in Ec. cbn [List.length Nat.eqb]. rewrite Ec.
    unfold imit_pieces. destruct (pieces 8 data) eqn:Ep; [discriminate Ep|reflexivity].
  - change (Nat.eqb (List.length (y :: t)) 0) with false. cbv iota.
    rewrite <- Ec at 2. rewrite pieces_app_short, map_app by (assumption || (cbn [List.length] in *; lia)).
    unfold imit_pieces. now destruct (pieces 8 (complete data)).
Qed.

(** ** Zero extension *)

Lemma of_le_zeros n : of_le (repeat 0 n) = 0.
Proof. induction n as [|n IH]; [reflexivity|]. cbn [repeat of_le]. rewrite IH. reflexivity. Qed.

Lemma of_le_app_zeros t n : of_le (t ++ repeat 0 n) = of_le t.
Proof. rewrite of_le_app, of_le_zeros. lia. Qed.

Lemma mac_of_zeros E data n :
  (List.length data mod 8 <> 0)%nat -> (List.length data mod 8 + n < 8)%nat ->
  mac_of E (data ++ repeat 0 n) = mac_of E data.
Proof.
  intros Hd Hn. rewrite <- leftover_mod in *. unfold mac_of.
  pose proof (complete_leftover data) as Ec. pose proof (complete_length data) as Cl.
  assert (H : complete (data ++ repeat 0 n) = complete data /\
              leftover (data ++ repeat 0 n) = leftover data ++ repeat 0 n).
  { rewrite <- Ec at 1 3. rewrite <- app_assoc. apply complete_app; [assumption|].
    rewrite app_length, repeat_length. lia. }
  destruct H as [-> ->]. set (t := leftover data) in *. unfold imit_pieces.
  rewrite of_le_app_zeros. destruct t as [|y t]; [now elim Hd|].
  destruct (pieces 8 (complete data)); reflexivity.
Qed.

(** ** Changes confined to one block *)

Section Detect.
Context (n : N) (E : N -> N).
Hypothesis E_bound : forall x, x < 2 ^ n -> E x < 2 ^ n.
Hypothesis E_inj : forall x y, x < 2 ^ n -> y < 2 ^ n -> E x = E y -> x = y.
Let ok (l : list N) := Forall (fun x => x < 2 ^ n) l.

Lemma chain_bound ps : forall st, st < 2 ^ n -> ok ps -> chain E st ps < 2 ^ n.
Proof.
  induction ps as [|p [|q r] IH]; intros st Hs H; [exact Hs| |]; inversion H; subst.
  - now apply lxor_lt.
  - change (chain E st (p :: q :: r)) with (chain E (E (N.lxor st p)) (q :: r)).
    apply IH; [|assumption]. apply E_bound. now apply lxor_lt.
Qed.

Lemma chain_inj ps : forall s1 s2, s1 < 2 ^ n -> s2 < 2 ^ n -> ok ps ->
  chain E s1 ps = chain E s2 ps -> s1 = s2.
Proof.
  induction ps as [|p [|q r] IH]; intros s1 s2 H1 H2 Ho H; [exact H| |]; inversion Ho; subst.
  - exact (lxor_inj_r _ _ _ H).
  - apply (lxor_inj_r p). apply E_inj; [now apply lxor_lt..|].
    apply IH; auto using lxor_lt.
Qed.

Lemma chain_detects before : forall st p q after, st < 2 ^ n -> ok before -> ok after ->
  p < 2 ^ n -> q < 2 ^ n ->
  chain E st (before ++ p :: after) = chain E st (before ++ q :: after) -> p = q.
Proof.
  induction before as [|b before IH]; intros st p q after Hs Hb Ha Hp Hq H.
  - cbn [app] in H. destruct after as [|a after].
    + exact (lxor_inj_l _ _ _ H).
    + change (chain E st (p :: a :: after)) with (chain E (E (N.lxor st p)) (a :: after)) in H.
      change (chain E st (q :: a :: after)) with (chain E (E (N.lxor st q)) (a :: after)) in H.
      apply chain_inj in H; auto using lxor_lt. apply E_inj in H; auto using lxor_lt.
      exact (lxor_inj_l _ _ _ H).
  - inversion Hb; subst. apply (IH (E (N.lxor st b)) p q after); auto using lxor_lt.
    destruct before; exact H.
Qed.

Lemma cbc_mac_detects K ps qs : K < 2 ^ n -> ok ps -> ok qs -> differ_once ps qs ->
  cbc_mac E K 0 ps <> cbc_mac E K 0 qs.
Proof.
  intros HK Hp Hq (before & p & q & after & -> & -> & Hd) H.
  unfold ok in *. rewrite Forall_app in Hp, Hq. destruct Hp as [Hb Hp]. destruct Hq as [_ Hq].
  inversion Hp; subst. inversion Hq; subst.
  assert (0 < 2 ^ n) by apply pow2_pos.
  rewrite !cbc_mac_chain in H by (now destruct before).
  apply E_inj in H; [|apply lxor_lt; auto; apply chain_bound; auto; apply Forall_app; auto..].
  apply lxor_inj_r in H. apply Hd. now apply (chain_detects before 0 p q after).
Qed.
End Detect.

Lemma enciphers_inj k E : enciphers k E ->
  forall x y, x < 2 ^ 64 -> y < 2 ^ 64 -> E x = E y -> x = y.
Proof.
  intros HE x y Hx Hy H. destruct (enciphers_lazy _ _ HE) as [lk ->].
  destruct (HE x Hx) as [Ex _]. destruct (HE y Hy) as [Ey _]. cbn [cast_lazy] in *.
  rewrite BlkRaw64_halves in Ex, Ey by assumption.
  apply halves_inj. unfold halves in Ex, Ey. apply decrypted_encrypted in Ex, Ey.
  rewrite H in Ex. unfold halves. congruence.
Qed.

Lemma short_or_block_lt b : (List.length b <= 8)%nat -> Forall u8 b -> of_le b < 2 ^ 64.
Proof.
  intros H Hb. pose proof (of_le_lt b Hb). eapply N.lt_le_trans; [eassumption|].
  apply N.pow_le_mono_r; unfold len; lia.
Qed.

Lemma cut_lt f : forall l, Forall u8 l -> Forall (fun x => x < 2 ^ 64) (map of_le (cut f 8 l)).
Proof.
  induction f as [|f IH]; intros l Hl; [constructor|]. destruct l as [|x l]; [constructor|].
  cbn [cut map]. constructor.
  - apply short_or_block_lt; [rewrite firstn_length; lia|now apply Forall_firstn].
  - apply IH. now apply Forall_skipn.
Qed.

Lemma blocks8_bound d : Forall u8 d -> Forall (fun x => x < 2 ^ 64) (blocks8 d).
Proof. apply cut_lt. Qed.

Lemma imit_x86_detects k E d1 d2 : enciphers k E -> Forall u8 d1 -> Forall u8 d2 ->
  List.length d1 = List.length d2 -> differ_once (blocks8 d1) (blocks8 d2) ->
  imit_x86 E d1 <> imit_x86 E d2.
Proof.
  intros HE U1 U2 Hl Hd. unfold imit_x86.
  destruct d1 as [|x d1]; destruct d2 as [|y d2]; try discriminate Hl.
  - destruct Hd as ([|? ?] & p & q & after & H & _); discriminate H.
  - rewrite Hl. apply (cbc_mac_detects 64); auto using blocks8_bound.
    + exact (enciphers_lt _ _ HE).
    + exact (enciphers_inj _ _ HE).
    + destruct (Nat.eqb (List.length (y :: d2) mod 8) 0); auto using K1_lt, K2_lt.
Qed.

(** ** gost89::DataImit *)

Lemma pad89_ok data : dataimit_pad data = pad89 data.
Proof.
  unfold dataimit_pad, pad89. rewrite <- app_assoc, <- repeat_app. do 2 f_equal.
  rewrite app_length, repeat_length.
  pose proof (Nat.div_mod (List.length data + 7) 8).
  pose proof (Nat.mod_upper_bound (List.length data + 7) 8).
  destruct (Nat.le_gt_cases 16 (List.length data)) as [H1|H1].
  - replace (16 - List.length data)%nat with 0%nat by lia. rewrite Nat.add_0_r. cbn [Nat.add].
    pose proof (Nat.div_mod (List.length data) 8). pose proof (Nat.mod_upper_bound (List.length data) 8).
    set (r := (List.length data mod 8)%nat) in *. set (q := (List.length data / 8)%nat) in *.
    destruct (Nat.eq_dec r 0) as [E|E].
    + rewrite E. change ((8 - 0) mod 8)%nat with 0%nat. lia.
    + rewrite Nat.mod_small by lia. lia.
  - replace (List.length data + (16 - List.length data))%nat with 16%nat by lia.
    change ((8 - 16 mod 8) mod 8)%nat with 0%nat. lia.
Qed.

Lemma pad89_mod data : (List.length (pad89 data) mod 8 = 0)%nat.
Proof.
  unfold pad89. rewrite app_length, repeat_length.
  pose proof (Nat.div_mod (List.length data + 7) 8).
  pose proof (Nat.mod_upper_bound (List.length data + 7) 8).
  set (q := ((List.length data + 7) / 8)%nat) in *.
  replace (List.length data + (Nat.max 16 (8 * q) - List.length data))%nat
    with (Nat.max 2 q * 8)%nat by lia.
  apply Nat.mod_mul. lia.
Qed.

Lemma pad89_whole data : Forall u8 data -> whole (pad89 data).
Proof.
  intros H. split; [apply pad89_mod|]. apply Forall_app. split; [assumption|].
  apply Forall_forall. intros x Hx. apply repeat_spec in Hx. subst. reflexivity.
Qed.

Lemma xor_bytes_ok state b rest : List.length state = List.length b ->
  xor_bytes state (b ++ rest) = Ok (zip_xor state b, rest).
Proof.
  revert b. induction state as [|s st IH]; intros [|d b] H; try discriminate H; [reflexivity|].
  cbn [app xor_bytes zip_xor]. rewrite IH by (now injection H). reflexivity.
Qed.

Lemma ImitedBlock_ok k f x : round_functions k f -> x < 2 ^ 64 ->
  ImitedBlock (BlkRaw64 x) (Some k) = Ok (halves (sixteen_rounds f x)) /\ sixteen_rounds f x < 2 ^ 64.
Proof.
  intros Hk Hx. assert (Hc : computes_tr (ptr_transform (Some k)) f) by exact Hk.
  unfold ImitedBlock. rewrite BlkRaw64_halves, !BlkForwarded_fwd by assumption. cbn [bind].
  pose proof (halves_lt x Hx) as L0.
  destruct (fwd_rounds _ f (halves x) Hc L0) as [E1 L1]. rewrite E1. cbn [bind].
  destruct (fwd_rounds _ f _ Hc (pair_lt_flip _ _ L1)) as [E2 L2]. rewrite E2.
  rewrite flip_flip in *. rewrite <- rounds_app in *.
  change (flat up ++ flat up) with (seq 0 8 ++ seq 0 8) in *.
  change (flip (halves x)) with (x / 2 ^ 32, x mod 2 ^ 32) in *. fold (rounds f) in *.
  unfold sixteen_rounds. fold (rounds f (seq 0 8 ++ seq 0 8) (x / 2 ^ 32, x mod 2 ^ 32)).
  set (p := rounds f (seq 0 8 ++ seq 0 8) (x / 2 ^ 32, x mod 2 ^ 32)) in *. cbv zeta.
  split.
  - f_equal. symmetry. apply (halves_join (flip p)). now apply pair_lt_flip.
  - destruct L2. apply (split_lt _ _ 32 32); assumption.
Qed.

Lemma dataimit_loop_ok k f : round_functions k f ->
  forall data, (List.length data mod 8 = 0)%nat -> Forall u8 data ->
  forall fuel st, (List.length data <= fuel)%nat -> st < 2 ^ 64 ->
  dataimit_loop fuel (Some k) (to_le 8 st) data =
  Ok (to_le 8 (fold_left (fun s p => sixteen_rounds f (N.lxor s p)) (blocks8 data) st)).
Proof.
  intros Hk.
  apply (chunk_ind 8 (fun data => Forall u8 data -> forall fuel st,
    (List.length data <= fuel)%nat -> st < 2 ^ 64 ->
    dataimit_loop fuel (Some k) (to_le 8 st) data =
    Ok (to_le 8 (fold_left (fun s p => sixteen_rounds f (N.lxor s p)) (blocks8 data) st)))); [lia| |].
  - intros _ fuel st _ _. now destruct fuel.
  - intros b r Hb IH Hu fuel st Hf Hs. apply Forall_app in Hu. destruct Hu as [Ub Ur].
    rewrite app_length, Hb in Hf. destruct fuel as [|fuel]; [lia|].
    rewrite blocks8_cons by assumption. cbn [fold_left].
    destruct b as [|x b]; [discriminate Hb|]. cbn [app dataimit_loop].
    change (x :: b ++ r) with ((x :: b) ++ r).
    rewrite xor_bytes_ok by (now rewrite to_le_length). cbn [bind].
    assert (Ez : zip_xor (to_le 8 st) (x :: b) = to_le 8 (N.lxor st (of_le (x :: b)))).
    { rewrite to_le_lxor. f_equal. rewrite <- Hb. symmetry. now apply to_of_le. }
    rewrite Ez. assert (Lb : of_le (x :: b) < 2 ^ 64) by now apply of_le_8_lt.
    assert (Lx : N.lxor st (of_le (x :: b)) < 2 ^ 64) by now apply lxor_lt.
    unfold dataimit_block. rewrite read8_ok by apply to_le_length. cbn [bind].
    rewrite BlkRaw_bytes_ok by (apply to_le_u8 || apply to_le_length).
    rewrite of_to_le_id by exact Lx.
    destruct (ImitedBlock_ok k f _ Hk Lx) as [E1 L1]. rewrite E1. cbn [bind halves].
    rewrite write8_ok by apply to_le_length. cbn [bind].
    rewrite <- to_le_8_halves. apply IH; [assumption|lia|exact L1].
Qed.

Lemma DataImit_ok k f data : round_functions k f -> Forall u8 data ->
  DataImit data (Some k) = Ok (to_le 8 (mac89 (sixteen_rounds f) (blocks8 (pad89 data)))).
Proof.
  intros Hk Hu. unfold DataImit. cbv zeta. rewrite pad89_ok. destruct (pad89_whole data Hu) as [Hm Hp].
  change (repeat 0 8) with (to_le 8 0).
  rewrite (dataimit_loop_ok k f Hk) by (auto; reflexivity). reflexivity.
Qed.

Lemma hex_round_functions s : List.length s = 64%nat -> Forall hex_digit s ->
  round_functions (LazyKey_string s) (fun i => g (key_word (number s) i)).
Proof. intros Hl Hs. exact (LazyKey_string_computes s Hl Hs). Qed.

Lemma total_round_functions k : total_key k -> exists f, round_functions k f.
Proof. intros H. destruct (total_computes k H) as [f Hf]. exists f. exact Hf. Qed.

(** ** Facts stated in PropMac.v *)

Lemma imit_zero_extension {W St} (rd : reader W St) g (R : St -> W -> bytes -> Prop) k E
    s1 s2 w1 w2 data n fuel :
  enciphers (KLazy k) E -> delivers8 rd R -> Forall u8 data ->
  R s1 w1 data -> R s2 w2 (data ++ repeat 0 n) ->
  (List.length data mod 8 <> 0)%nat -> (List.length data mod 8 + n < 8)%nat ->
  (List.length data / 8 + 1 <= Pos.to_nat fuel)%nat ->
  exists t w1' w2',
    magma_Imit rd (X86 g) fuel s1 (Some k) w1 = (Ok t, w1') /\
    magma_Imit rd (X86 g) fuel s2 (Some k) w2 = (Ok t, w2').
Proof.
  intros HE HR Hu H1 H2 Hd Hn Hf.
  destruct (imit_delivers rd g R k E s1 w1 data fuel) as [w1' E1]; try assumption.
  destruct (imit_delivers rd g R k E s2 w2 (data ++ repeat 0 n) fuel) as [w2' E2]; try assumption.
  - apply Forall_app. split; [assumption|].
    apply Forall_forall. intros x Hx. apply repeat_spec in Hx. subst. reflexivity.
  - rewrite app_length, repeat_length.
    pose proof (Nat.div_mod (List.length data) 8).
    replace ((List.length data + n) / 8)%nat with (List.length data / 8)%nat; [assumption|].
    apply (Nat.div_unique _ 8 _ (List.length data mod 8 + n)); lia.
  - rewrite mac_of_zeros in E2 by assumption. eauto.
Qed.

Lemma imit_detects {W St} (rd : reader W St) g (R : St -> W -> bytes -> Prop) k E
    s1 s2 w1 w2 d1 d2 fuel :
  enciphers (KLazy k) E -> delivers8 rd R -> R s1 w1 d1 -> R s2 w2 d2 ->
  Forall u8 d1 -> Forall u8 d2 -> List.length d1 = List.length d2 ->
  differ_once (blocks8 d1) (blocks8 d2) ->
  (List.length d1 / 8 + 1 <= Pos.to_nat fuel)%nat ->
  exists t1 t2 w1' w2',
    magma_Imit rd (X86 g) fuel s1 (Some k) w1 = (Ok t1, w1') /\
    magma_Imit rd (X86 g) fuel s2 (Some k) w2 = (Ok t2, w2') /\ t1 <> t2.
Proof.
  intros HE HR H1 H2 U1 U2 Hl Hd Hf.
  destruct (imit_delivers rd g R k E s1 w1 d1 fuel) as [w1' E1]; try assumption.
  destruct (imit_delivers rd g R k E s2 w2 d2 fuel) as [w2' E2]; try assumption; [now rewrite <- Hl|].
  rewrite mac_of_x86 in E1, E2.
  exists (halves (imit_x86 E d1)), (halves (imit_x86 E d2)), w1', w2'. split; [exact E1|]. split; [exact E2|].
  intros C. apply halves_inj in C. now apply (imit_x86_detects _ E d1 d2 HE) in C.
Qed.

Lemma imit_short_read {W St} (rd : reader W St) g k E bs t s s1 s2 w w1 w2 fuel :
  enciphers (KLazy k) E ->
  reads rd s (repeat 8 (List.length bs)) w = (Ok (bs, s1), w1) ->
  Forall (fun b => List.length b = 8%nat /\ Forall u8 b) bs ->
  rd s1 8 w1 = (Ok (t, s2), w2) -> (0 < List.length t < 8)%nat -> Forall u8 t ->
  (List.length bs + 1 <= Pos.to_nat fuel)%nat ->
  magma_Imit rd (X86 g) fuel s (Some k) w =
  (Ok (halves (cbc_mac E (K2 E 64 0x1b) 0 (map of_le (bs ++ [t])))), w2).
Proof.
  intros HE Hr Hbs Ht Lt Ut Hf.
  rewrite (imit_general rd g k E bs t s s1 s2 w w1 w2 fuel); try assumption; [|lia].
  rewrite map_app. unfold imit_pieces. destruct t as [|y t]; [cbn in Lt; lia|].
  now destruct bs.
Qed.

Lemma DataImit_total k data : total_key k -> Forall u8 data ->
  exists t, DataImit data (Some k) = Ok t /\ List.length t = 8%nat /\ Forall u8 t.
Proof.
  intros Hk Hu. destruct (total_round_functions k Hk) as [f Hf].
  rewrite (DataImit_ok k f) by assumption. eexists. split; [reflexivity|].
  split; [apply to_le_length|apply to_le_u8].
Qed.

Lemma pad89_properties data :
  (exists n, pad89 data = data ++ repeat 0 n) /\
  (List.length (pad89 data) mod 8 = 0)%nat /\ (16 <= List.length (pad89 data))%nat /\
  (16 <= List.length data -> List.length data mod 8 = 0 -> pad89 data = data)%nat /\
  (List.length (pad89 data) < 16 + 1 \/ List.length (pad89 data) < List.length data + 8)%nat.
Proof.
  split; [unfold pad89; eauto|]. split; [apply pad89_mod|].
  assert (Hl : List.length (pad89 data) = Nat.max 16 (8 * ((List.length data + 7) / 8))).
  { unfold pad89. rewrite app_length, repeat_length. pose proof (Nat.div_mod (List.length data + 7) 8).
    pose proof (Nat.mod_upper_bound (List.length data + 7) 8). lia. }
  rewrite Hl. pose proof (Nat.div_mod (List.length data + 7) 8).
  pose proof (Nat.mod_upper_bound (List.length data + 7) 8).
  split; [lia|]. split; [|lia].
  intros H1 H2. unfold pad89. pose proof (Nat.div_mod (List.length data) 8).
  replace (Nat.max _ _ - _)%nat with 0%nat by lia. apply app_nil_r.
Qed.
