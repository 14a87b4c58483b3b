(** Proofs about the stream classes at the level of their public methods. *)
From Verif Require Import Base MagmaModel Streams Lib SpecText SpecMagma SpecModes SpecStreams
  MagmaProofs MagmaSpecProofs BlockProofs ByteProofs SinkProofs SourceProofs.
From Coq Require Import ZifyNat ZifyN ZifyBool.
Local Open Scope N_scope.
Ltac Zify.zify_post_hook ::= idtac.

(** ** Keys *)

Lemma computes_enciphers lk f : computes (Some lk) f -> enciphers (KLazy lk) (encryption f).
Proof. intros H x Hx. exact (BlkEncrypted_spec _ _ x H Hx). Qed.

Lemma computes_deciphers lk f : computes (Some lk) f -> deciphers (KLazy lk) (decryption f).
Proof. intros H x Hx. exact (BlkDecrypted_spec _ _ x H Hx). Qed.

Lemma total_computes lk : total_key lk -> exists f, computes (Some lk) f.
Proof.
  intros H. exists (fun i a => match lazy_transform lk a (Z.of_nat i) with Ok t => t | _ => 0 end).
  intros i a Hi _. cbn [ptr_transform]. destruct (H a (Z.of_nat i)) as [t E]; [lia|].
  rewrite E. split; [reflexivity|]. unfold lazy_transform in E.
  destruct (key_data lk (Z.of_nat i)); cbn [bind] in E; try discriminate.
  destruct (key_sbox lk _); cbn [bind] in E; try discriminate. injection E as <-. apply w32_lt.
Qed.

Lemma total_ciphers lk : total_key lk ->
  exists E D, enciphers (KLazy lk) E /\ deciphers (KLazy lk) D.
Proof.
  intros H. destruct (total_computes lk H) as [f Hf].
  exists (encryption f), (decryption f). split; [now apply computes_enciphers|now apply computes_deciphers].
Qed.

Lemma hex_enciphers s : List.length s = 64%nat -> Forall hex_digit s ->
  enciphers (KLazy (LazyKey_string s)) (Magma_E (number s)).
Proof. intros Hl Hs. exact (computes_enciphers _ _ (LazyKey_string_computes s Hl Hs)). Qed.

Lemma hex_deciphers s : List.length s = 64%nat -> Forall hex_digit s ->
  deciphers (KLazy (LazyKey_string s)) (Magma_D (number s)).
Proof. intros Hl Hs. exact (computes_deciphers _ _ (LazyKey_string_computes s Hl Hs)). Qed.

(** Without a LazyKey there is only a null pointer. *)
Lemma null_encrypted b : b <> OutOfFuel -> (forall e, b <> Throw e) -> (forall u, b <> Undef u) ->
  BlkEncrypted b None = Undef NullDeref.
Proof. intros H1 H2 H3. destruct b as [[x y]|e|u|]; [reflexivity| | |]; congruence. Qed.

Lemma mbind_ok {W A B} (x : M W A) (f : A -> M W B) w a w' :
  x w = (Ok a, w') -> mbind x f w = f a w'.
Proof. intros H. unfold mbind. now rewrite H. Qed.

(** ** Sources in general *)

Lemma delivers_8 {W St} (rd : reader W St) R : delivers rd R -> delivers8 rd R.
Proof. intros H s w data HR. apply (H s w data 8 HR). Qed.

Lemma delivers_block_source {W St} (rd : reader W St) R : delivers rd R -> block_source rd R.
Proof.
  intros H. split; [now apply delivers_8|]. intros s w n HR _.
  destruct (H s w [] n HR) as (s' & w' & E & HR'). rewrite firstn_nil in E. rewrite skipn_nil in HR'. eauto.
Qed.

Lemma delivers_blocks_block_source {W St} (rd : reader W St) R :
  delivers_blocks rd R -> block_source rd R.
Proof.
  intros H. split.
  - intros s w data HR. apply (H s w data 8 HR). lia.
  - intros s w n HR Hn. exact (H s w [] n HR Hn).
Qed.

Lemma delivers_reads {W St} (rd : reader W St) R sizes : delivers rd R -> forall s w data,
  R s w data -> exists s' w', reads rd s sizes w = (Ok (served data sizes, s'), w').
Proof.
  intros H. induction sizes as [|n r IH]; intros s w data HR; [eexists _, _; reflexivity|].
  destruct (H s w data n HR) as (s1 & w1 & E & HR1). destruct (IH _ _ _ HR1) as (s2 & w2 & E2).
  exists s2, w2. cbn [reads served]. unfold mbind at 1. rewrite E. unfold mbind at 1. rewrite E2. reflexivity.
Qed.

Lemma delivers_blocks_reads {W St} (rd : reader W St) R sizes : delivers_blocks rd R ->
  Forall (fun n => 8 <= n) sizes -> forall s w data, R s w data ->
  exists s' w', reads rd s sizes w = (Ok (served data (map (fun _ => 8) sizes), s'), w').
Proof.
  intros H. induction sizes as [|n r IH]; intros Hs s w data HR; [eexists _, _; reflexivity|]. inversion Hs; subst.
  destruct (H s w data n HR) as (s1 & w1 & E & HR1); [assumption|].
  destruct (IH H3 _ _ _ HR1) as (s2 & w2 & E2).
  exists s2, w2. cbn [reads served map]. unfold mbind at 1. rewrite E. unfold mbind at 1.
  rewrite E2. reflexivity.
Qed.

Lemma served_concat sizes : forall data,
  List.concat (served data sizes) = firstn (N.to_nat (total sizes)) data.
Proof.
  induction sizes as [|n r IH]; intros data; [reflexivity|].
  cbn [served List.concat total fold_right]. rewrite IH. fold (total r).
  rewrite N2Nat.inj_add. generalize (N.to_nat n) as a, (N.to_nat (total r)) as b. intros a b.
  revert data. induction a; intros [|x data]; cbn [firstn skipn Nat.add app]; try reflexivity.
  - now rewrite firstn_nil.
  - now rewrite IHa.
Qed.

Lemma MemSource_delivers {W} : delivers (@MemSource_read W) (fun s _ data => s = data).
Proof.
  intros s w data n ->. unfold MemSource_read, mret, len. destruct (N.of_nat (List.length data) <? n) eqn:E.
  - exists [], w. rewrite firstn_all2, skipn_all2 by lia. auto.
  - eexists _, w. split; reflexivity.
Qed.

(** ** CFBSource *)

Lemma reg2_ok a b : a < 2 ^ 64 -> b < 2 ^ 64 -> reg_ok [a; b].
Proof. split; [discriminate|auto]. Qed.
Lemma reg1_ok a : a < 2 ^ 64 -> reg_ok [a].
Proof. split; [discriminate|auto]. Qed.

Definition mreg (r : N * N) : list N := [fst r; snd r].
Definition mpush (r : N * N) (c : N) : N * N := (snd r, c).
Definition greg (r : N) : list N := [r].
Definition gpush (r : N) (c : N) : N := c.

Section CFBSource.
Context {W St : Type} (rd : reader W St) (m : mode).

Lemma magma_read_core o size w :
  magma_CFBSource_read rd m o size w =
  (x <-- nmloop (Datatypes.S (N.to_nat size)) (core_step rd m (mcr_key o) fst mpush size)
           (mcr_source o, mcr_plain o, (mcr_ivl o, mcr_ivr o), []) ;;
   let '(s, p, r, res) := x in mret (res, MagmaCFBSource s (mcr_key o) (fst r) (snd r) p)) w.
Proof.
  unfold magma_CFBSource_read.
  set (f := fun st : St * bytes * (N * N) * bytes =>
              let '(s, p, r, res) := st in (s, p, fst r, snd r, res)).
  etransitivity; [apply mbind_ext; [rewrite mloop_nm|intros ? ?; reflexivity]|].
  - change (mcr_source o, mcr_plain o, mcr_ivl o, mcr_ivr o, @nil N)
      with (f (mcr_source o, mcr_plain o, (mcr_ivl o, mcr_ivr o), [])).
    apply (nmloop_map f (core_step rd m (mcr_key o) fst mpush size)).
    intros [[[s p] [rl rr]] res] w1. unfold core_step, magma_cfb_read_step, f. cbn [fst snd].
    destruct (len res <? size); [|reflexivity].
    destruct (drain p res size) as [res1 p1]. destruct (len res1 =? size); [reflexivity|].
    rewrite mbind_assoc. apply mbind_ext; [reflexivity|]. intros [f1 f2] w2.
    rewrite mbind_assoc. apply mbind_ext; [reflexivity|]. intros [[|q0 q] s1] w3; [reflexivity|].
    rewrite mbind_assoc. apply mbind_ext; [reflexivity|]. intros c w4.
    rewrite mbind_assoc. apply mbind_ext; [reflexivity|]. intros p2 w5. reflexivity.
  - rewrite mbind_assoc. replace (Pos.to_nat (N.succ_pos size)) with (Datatypes.S (N.to_nat size)).
    + apply mbind_ext; [reflexivity|]. intros [[[s p] [rl rr]] res] w1. reflexivity.
    + destruct size; cbn [N.succ_pos N.to_nat]; lia.
Qed.

Lemma gost_read_core o size w :
  gost_CFBSource_read rd m o size w =
  (x <-- nmloop (Datatypes.S (N.to_nat size)) (core_step rd m (gcr_key o) (fun r => r) gpush size)
           (gcr_source o, gcr_plain o, gcr_iv o, []) ;;
   let '(s, p, r, res) := x in mret (res, GostCFBSource s (gcr_key o) r p)) w.
Proof.
  unfold gost_CFBSource_read. apply mbind_ext; [|intros ? ?; reflexivity].
  rewrite mloop_nm. replace (Pos.to_nat (N.succ_pos size)) with (Datatypes.S (N.to_nat size));
    [reflexivity|]. destruct size; cbn [N.succ_pos N.to_nat]; lia.
Qed.

Section Deliver.
Context (k : key) (E : N -> N) (R : St -> W -> bytes -> Prop)
        (HE : enciphers k E) (HR : delivers8 rd R).

Lemma magma_read_delivers o w cipher size :
  mcr_key o = k -> mcr_ivl o < 2 ^ 64 -> mcr_ivr o < 2 ^ 64 ->
  R (mcr_source o) w cipher -> whole cipher ->
  let plain := mcr_plain o ++ unblocks8 (cfb_decrypt E [mcr_ivl o; mcr_ivr o] (blocks8 cipher)) in
  exists o' w' bs, magma_CFBSource_read rd m o size w = (Ok (firstn (N.to_nat size) plain, o'), w') /\
    magma_cfb_left k E R o' w' (skipn (N.to_nat size) plain) /\
    reads rd (mcr_source o) (repeat 8 (inner_reads (N.to_nat size - List.length (mcr_plain o))
                                                   (List.length cipher))) w
      = (Ok (bs, mcr_source o'), w').
Proof.
  intros <- H1 H2 Hs Hw plain. rewrite magma_read_core.
  destruct (core_delivers rd m (mcr_key o) fst mpush E mreg R HE HR (fun _ => eq_refl) (fun _ _ => eq_refl)
    size (Datatypes.S (N.to_nat size)) (mcr_source o) w (mcr_plain o) (mcr_ivl o, mcr_ivr o) [] cipher)
    as (s' & w' & p' & r' & d' & bs & A1 & A2 & A3 & A4 & A5 & A6); auto.
  - now apply reg2_ok.
  - cbn; lia.
  - lia.
  - cbn [List.length]. destruct (mcr_plain o); lia.
  - cbn [List.length] in *. rewrite Nat.sub_0_r in *.
    exists (MagmaCFBSource s' (mcr_key o) (fst r') (snd r') p'), w', bs.
    split; [etransitivity; [exact (mbind_ok _ _ _ _ _ A1)|reflexivity]|]. split; [|exact A6].
    destruct A4 as [_ A4]. unfold mreg in A4. inversion A4; subst. inversion H4; subst.
    split; [reflexivity|]. split; [assumption|]. split; [assumption|]. exists d'.
    split; [exact A2|]. split; [exact A3|]. symmetry. exact A5.
Qed.

Lemma gost_read_delivers o w cipher size :
  gcr_key o = k -> gcr_iv o < 2 ^ 64 -> R (gcr_source o) w cipher -> whole cipher ->
  let plain := gcr_plain o ++ unblocks8 (cfb_decrypt E [gcr_iv o] (blocks8 cipher)) in
  exists o' w' bs, gost_CFBSource_read rd m o size w = (Ok (firstn (N.to_nat size) plain, o'), w') /\
    gost_cfb_left k E R o' w' (skipn (N.to_nat size) plain) /\
    reads rd (gcr_source o) (repeat 8 (inner_reads (N.to_nat size - List.length (gcr_plain o))
                                                   (List.length cipher))) w
      = (Ok (bs, gcr_source o'), w').
Proof.
  intros <- H1 Hs Hw plain. rewrite gost_read_core.
  destruct (core_delivers rd m (gcr_key o) (fun r => r) gpush E greg R HE HR (fun _ => eq_refl) (fun _ _ => eq_refl)
    size (Datatypes.S (N.to_nat size)) (gcr_source o) w (gcr_plain o) (gcr_iv o) [] cipher)
    as (s' & w' & p' & r' & d' & bs & A1 & A2 & A3 & A4 & A5 & A6); auto.
  - now apply reg1_ok.
  - cbn; lia.
  - lia.
  - cbn [List.length]. destruct (gcr_plain o); lia.
  - cbn [List.length] in *. rewrite Nat.sub_0_r in *.
    exists (GostCFBSource s' (gcr_key o) r' p'), w', bs.
    split; [etransitivity; [exact (mbind_ok _ _ _ _ _ A1)|reflexivity]|]. split; [|exact A6].
    destruct A4 as [_ A4]. unfold greg in A4. inversion A4; subst.
    split; [reflexivity|]. split; [assumption|]. exists d'.
    split; [exact A2|]. split; [exact A3|]. symmetry. exact A5.
Qed.

Lemma magma_delivers : delivers (magma_CFBSource_read rd m) (magma_cfb_left k E R).
Proof.
  intros o w plain n (Hk & H1 & H2 & cipher & Hs & Hw & ->).
  destruct (magma_read_delivers o w cipher n Hk H1 H2 Hs Hw) as (o' & w' & bs & A & B & _). eauto.
Qed.

Lemma gost_delivers : delivers (gost_CFBSource_read rd m) (gost_cfb_left k E R).
Proof.
  intros o w plain n (Hk & H1 & cipher & Hs & Hw & ->).
  destruct (gost_read_delivers o w cipher n Hk H1 Hs Hw) as (o' & w' & bs & A & B & _). eauto.
Qed.

Lemma magma_left_init s w cipher a b : a < 2 ^ 64 -> b < 2 ^ 64 -> R s w cipher -> whole cipher ->
  magma_cfb_left k E R (magma_CFBSource_init s k a b) w
    (unblocks8 (cfb_decrypt E [a; b] (blocks8 cipher))).
Proof.
  intros. split; [reflexivity|]. split; [assumption|]. split; [assumption|]. exists cipher. auto.
Qed.

Lemma gost_left_init s w cipher a : a < 2 ^ 64 -> R s w cipher -> whole cipher ->
  gost_cfb_left k E R (gost_CFBSource_init s k a) w
    (unblocks8 (cfb_decrypt E [a] (blocks8 cipher))).
Proof.
  intros. split; [reflexivity|]. split; [assumption|]. exists cipher. auto.
Qed.
End Deliver.
End CFBSource.

Lemma reads_counted {W St} (rd : reader W St) sizes : forall s w c bs s' w',
  reads rd s sizes w = (Ok (bs, s'), w') ->
  reads (counted rd) s sizes (w, c) = (Ok (bs, s'), (w', c + N.of_nat (List.length sizes))).
Proof.
  induction sizes as [|n r IH]; intros s w c bs s' w' H.
  - injection H as <- <- <-. cbn [reads List.length]. now rewrite N.add_0_r.
  - cbn [reads] in H. apply mbind_ok_inv in H. destruct H as ([b s1] & w1 & E & H).
    apply mbind_ok_inv in H. destruct H as ([bs1 s2] & w2 & E2 & H). injection H as <- <- <-.
    cbn [reads]. unfold mbind at 1. unfold counted at 1. rewrite E.
    unfold mbind at 1. rewrite (IH _ _ (c + 1) _ _ _ E2). unfold mret.
    cbn [List.length].
    replace (c + 1 + N.of_nat (List.length r)) with (c + N.of_nat (Datatypes.S (List.length r))) by lia.
    reflexivity.
Qed.

(** ** ECBSource *)

Section ECBSource.
Context {W St : Type} (rd : reader W St) (m : mode).

Lemma ecb_read_block k D R : deciphers k D -> delivers8 rd R -> forall s w cipher n,
  R s w cipher -> whole cipher -> 8 <= n ->
  exists o' w', ECBSource_read rd m (ECBSource s k) n w =
    (Ok (firstn 8 (unblocks8 (ecb D (blocks8 cipher))), o'), w') /\
    ecb_left k D R o' w' (skipn 8 (unblocks8 (ecb D (blocks8 cipher)))).
Proof.
  intros HD HR s w cipher n Hs Hw Hn.
  unfold ECBSource_read. replace (n <? N.of_nat block_size) with false by (unfold block_size; lia).
  destruct (HR s w cipher Hs) as (s1 & w1 & Er & HR1). unfold mbind at 1. rewrite Er.
  destruct (whole_cases cipher Hw) as [->|(a & b & -> & Ha & Hu & Hwb)].
  - rewrite firstn_nil, blocks8_nil. exists (ECBBare s1), w1. split; [reflexivity|].
    rewrite skipn_nil in HR1. split; [exact HR1|reflexivity].
  - rewrite firstn_app_exact by assumption. rewrite skipn_app_exact in HR1 by assumption.
    rewrite blocks8_cons by assumption.
    change (unblocks8 (ecb D (of_le a :: blocks8 b)))
      with (to_le 8 (D (of_le a)) ++ unblocks8 (ecb D (blocks8 b))).
    rewrite firstn_app_exact, skipn_app_exact by apply to_le_length.
    destruct (HD (of_le a) (of_le_8_lt a Hu Ha)) as [E1 L1].
    assert (NE : exists a0 a', a = a0 :: a') by (destruct a; [discriminate|eauto]).
    destruct NE as (a0 & a' & ->). unfold mbind, lift.
    rewrite read8_ok, BlkRaw_bytes_ok, E1 by assumption.
    change (halves (D (of_le (a0 :: a')))) with
      (fst (halves (D (of_le (a0 :: a')))), snd (halves (D (of_le (a0 :: a'))))).
    cbv iota beta. rewrite write8_ok, to_le_halves by assumption.
    exists (ECBSource s1 k), w1. split; [reflexivity|]. split; [reflexivity|]. exists b. auto.
Qed.

Lemma ecb_delivers k D R : deciphers k D -> block_source rd R ->
  delivers_blocks (ECBSource_read rd m) (ecb_left k D R).
Proof.
  intros HD [HR H0] [s k'|s] w plain n H Hn.
  - destruct H as (-> & cipher & Hs & Hw & ->). now apply ecb_read_block.
  - destruct H as [Hs ->]. destruct (H0 s w n Hs Hn) as (s' & w' & E & HR').
    exists (ECBBare s'), w'. cbn [ECBSource_read]. unfold mbind. rewrite E. rewrite firstn_nil, skipn_nil.
    split; [reflexivity|]. split; [exact HR'|reflexivity].
Qed.

Lemma ecb_left_init k D (R : St -> W -> bytes -> Prop) s w cipher : R s w cipher -> whole cipher ->
  ecb_left k D R (ECBSource s k) w (unblocks8 (ecb D (blocks8 cipher))).
Proof. intros. split; [reflexivity|]. exists cipher. auto. Qed.
End ECBSource.

(** ** Blocks of ciphertext and plaintext *)

Definition E_lt (E : N -> N) : Prop := forall x, x < 2 ^ 64 -> E x < 2 ^ 64.

Lemma enciphers_lt k E : enciphers k E -> E_lt E.
Proof. intros H x Hx. apply H. exact Hx. Qed.

Lemma deciphers_lt k E : deciphers k E -> E_lt E.
Proof. intros H x Hx. apply H. exact Hx. Qed.

Lemma transforms_lt k E : transforms k E -> E_lt E.
Proof. intros H x Hx. apply H. exact Hx. Qed.

Lemma ecb_lt E ps : E_lt E -> Forall (fun x => x < 2 ^ 64) ps -> Forall (fun x => x < 2 ^ 64) (ecb E ps).
Proof. intros HE H. induction H; cbn [ecb map]; constructor; auto. Qed.

Lemma ecb_ecb E D ps : (forall x, x < 2 ^ 64 -> D (E x) = x) ->
  Forall (fun x => x < 2 ^ 64) ps -> ecb D (ecb E ps) = ps.
Proof. intros HE H. induction H; cbn [ecb map]; [reflexivity|]. f_equal; auto. Qed.

Lemma concat_map_to_le l : List.concat (map (to_le 8) l) = unblocks8 l.
Proof. unfold unblocks8. now rewrite flat_map_concat_map. Qed.

Lemma unblocks8_inj a b : Forall (fun x => x < 2 ^ 64) a -> Forall (fun x => x < 2 ^ 64) b ->
  unblocks8 a = unblocks8 b -> a = b.
Proof. intros Ha Hb H. rewrite <- (blocks8_unblocks8 a), <- (blocks8_unblocks8 b) by assumption. congruence. Qed.

Lemma blocks8_inj a b : whole a -> whole b -> blocks8 a = blocks8 b -> a = b.
Proof. intros Ha Hb H. rewrite <- (unblocks8_blocks8 a), <- (unblocks8_blocks8 b) by assumption. congruence. Qed.

(** ** A sink that never fails *)

Lemma never_fails_writes {W S} (wr : writer W S) : never_fails wr ->
  forall chunks s w l, exists s' w', writes (logged wr) s chunks (w, l) = (Ok s', (w', l ++ chunks)).
Proof.
  intros H. induction chunks as [|c r IH]; intros s w l.
  - exists s, w. rewrite app_nil_r. reflexivity.
  - destruct (H s c w) as (s1 & w1 & E). destruct (IH s1 w1 (l ++ [c])) as (s2 & w2 & E2).
    exists s2, w2. cbn [writes]. unfold mbind at 1, logged at 1. rewrite E, E2.
    now rewrite <- app_assoc.
Qed.

(** ** CFB as a function of the position: decryption block j uses register cell j *)

Lemma cfb_decrypt_nth E cs : forall reg j, reg <> [] -> (j < List.length cs)%nat ->
  nth j (cfb_decrypt E reg cs) 0 = N.lxor (nth j cs 0) (E (nth j (reg ++ cs) 0)).
Proof.
  induction cs as [|c cs IH]; intros reg j Hr Hj; [cbn in Hj; lia|].
  cbn [cfb_decrypt]. destruct reg as [|r reg]; [contradiction|]. destruct j as [|j]; [reflexivity|].
  cbn [nth hd tl app]. cbn [List.length] in Hj. rewrite IH by (try lia; destruct reg; discriminate).
  do 2 f_equal. now rewrite <- app_assoc.
Qed.

(** ** Short pieces *)

Lemma sink_xor_short p f s : (List.length p < 8)%nat -> sink_xor ISO p f s = Undef OutOfBounds.
Proof.
  intros H. do 8 (destruct p as [|? p]; [reflexivity|]). cbn [List.length] in H. lia.
Qed.

Lemma read8_short p : (List.length p < 8)%nat -> read8 ISO p = Undef OutOfBounds.
Proof. intros H. unfold read8. destruct (Nat.leb_spec 8 (List.length p)); [lia|reflexivity]. Qed.
