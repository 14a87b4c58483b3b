(** Proofs about keys from containers. *)
From Verif Require Import Base Text MagmaModel Streams Lib SpecText SpecMagma SpecModes SpecStreams
  TextProofs SboxProofs MagmaProofs MagmaSpecProofs ByteProofs SinkProofs StreamProofs TowerProofs StreamFacts.
From Coq Require Import ZifyNat ZifyN ZifyBool.
Local Open Scope N_scope.
Ltac Zify.zify_post_hook ::= idtac.

Lemma written_facts bs s : written bs s ->
  List.length s = (2 * List.length bs)%nat /\ Forall hex_digit s /\ Forall u8 bs.
Proof.
  induction 1 as [|b c d bs s Hc Hd Hb H (IH1 & IH2 & IH3)]; [repeat constructor|].
  cbn [List.length]. split; [lia|]. split; [now repeat constructor|]. constructor; [|exact IH3].
  pose proof (digit_value_lt c). pose proof (digit_value_lt d). unfold u8. change (2 ^ 8) with 256. lia.
Qed.

Lemma written_number bs s : written bs s -> number s = of_le (rev bs).
Proof.
  induction 1 as [|b c d bs s Hc Hd Hb H IH]; [reflexivity|].
  destruct (written_facts _ _ H) as (Hl & _).
  cbn [number rev]. rewrite of_le_app, <- IH. cbn [of_le]. rewrite len_cons.
  assert (El : len (rev bs) = len bs) by (unfold len; now rewrite rev_length).
  assert (E : 2 ^ (8 * len bs) = 16 ^ len s).
  { change 16 with (2 ^ 4). rewrite <- N.pow_mul_r. f_equal. unfold len. lia. }
  rewrite El, E, N.pow_add_r, N.pow_1_r, Hb. lia.
Qed.

Lemma written_skipn n : forall bs s, written bs s -> written (skipn n bs) (skipn (2 * n) s).
Proof.
  induction n as [|n IH]; intros bs s H; [exact H|].
  replace (2 * Datatypes.S n)%nat with (Datatypes.S (Datatypes.S (2 * n))) by lia.
  destruct H; [rewrite !skipn_nil; constructor|]. cbn [skipn]. now apply IH.
Qed.

Lemma written_firstn n : forall bs s, written bs s -> written (firstn n bs) (firstn (2 * n) s).
Proof.
  induction n as [|n IH]; intros bs s H; [constructor|].
  replace (2 * Datatypes.S n)%nat with (Datatypes.S (Datatypes.S (2 * n))) by lia.
  destruct H; [constructor|]. cbn [firstn]. constructor; auto.
Qed.

Lemma skipn_skipn' {A} n : forall m (l : list A), skipn n (skipn m l) = skipn (m + n) l.
Proof.
  induction m as [|m IH]; intros l; [reflexivity|]. destruct l; [now rewrite !skipn_nil|]. apply IH.
Qed.

Lemma htonl_words_nth n : forall b i d, (i < n)%nat ->
  nth i (htonl_words n b) d = of_le (rev (firstn 4 (skipn (4 * i) b))).
Proof.
  induction n as [|n IH]; intros b i d Hi; [lia|]. destruct i as [|i]; [reflexivity|].
  cbn [htonl_words nth]. rewrite IH by lia. rewrite skipn_skipn'. now replace (4 + 4 * i)%nat with (4 * Datatypes.S i)%nat by lia.
Qed.

Lemma htonl_words_length n b : List.length (htonl_words n b) = n.
Proof. revert b. induction n as [|n IH]; intros b; [reflexivity|]. cbn [htonl_words List.length]. now rewrite IH. Qed.

Lemma copy_into_exact m n src : List.length src = n -> (0 < n)%nat -> copy_into m n src = Ok src.
Proof.
  intros Hl Hn. unfold copy_into. rewrite Hl, Nat.ltb_irrefl, Nat.sub_diag. cbn [repeat].
  rewrite app_nil_r. destruct src; [cbn in Hl; lia|]. now destruct m.
Qed.

Lemma copy_into_short m n src : (List.length src <= n)%nat -> src <> [] ->
  copy_into m n src = Ok (src ++ repeat 0 (n - List.length src)).
Proof.
  intros Hl Hs. unfold copy_into. replace (Nat.ltb n (List.length src)) with false by lia.
  destruct src; [congruence|]. now destruct m.
Qed.

Lemma copy_into_long m n src : (n < List.length src)%nat -> copy_into m n src = Undef Overflow.
Proof. intros Hl. unfold copy_into. now replace (Nat.ltb n (List.length src)) with true by lia. Qed.

(** The round functions of a container key. *)
Definition container_round (ts : list (list N)) (K : N) (i : nat) (a : N) : N :=
  rotl11 (subst_digits ts ((a + key_word K i) mod 2 ^ 32)).

Lemma container_words kb s i : written kb s -> List.length kb = 32%nat -> (i < 8)%nat ->
  nth i (htonl_words 8 kb) 0 = key_word (number s) i.
Proof.
  intros Hw Hl Hi. destruct (written_facts _ _ Hw) as (Hs & _).
  rewrite htonl_words_nth by exact Hi. rewrite <- number_slice by (exact Hi || lia).
  symmetry. apply written_number.
  pose proof (written_firstn 4 _ _ (written_skipn (4 * i) _ _ Hw)) as H.
  replace (2 * (4 * i))%nat with (8 * i)%nat in H by lia. exact H.
Qed.

Lemma container_computes kb s uz ts : written kb s -> List.length kb = 32%nat ->
  packed uz ts -> Forall nibble_table ts -> List.length ts = 8%nat ->
  computes (Some (LazyKey_native (htonl_words 8 kb) (SboxTwisted (SboxByte uz))))
           (container_round ts (number s)).
Proof.
  intros Hw Hl Hp Ht Hn. unfold LazyKey_native, container_round.
  apply (lazy_computes _ _ (key_word (number s)) (fun v => rotl11 (subst_digits ts v))).
  - intros i Hi. unfold KeyDataNative, at_int. rewrite (proj2 (Z.leb_le _ _)) by lia.
    replace (Z.to_N (Z.of_nat i)) with (N.of_nat i) by lia.
    rewrite at_ok with (d := 0) by (unfold len; rewrite htonl_words_length; lia).
    rewrite Nat2N.id. now rewrite (container_words kb s).
  - intros v Hv. pose proof (subst_digits_lt ts v Ht) as Hd. unfold len in Hd. rewrite Hn in Hd.
    split; [|now apply rotl11_lt]. apply SboxTwisted_ok; [now apply SboxByte_ok|exact Hd].
Qed.

Lemma makeKey_ok m kb mask uz : List.length kb = 32%nat -> List.length uz = 64%nat ->
  makeKey m (Container (Ok kb) mask (Ok uz)) =
  Ok (KLazy (LazyKey_native (htonl_words 8 kb) (SboxTwisted (SboxByte uz)))).
Proof.
  intros H1 H2. unfold makeKey. cbn [cont_key cont_sbox bind].
  rewrite (copy_into_exact m 32) by (assumption || lia). cbn [bind].
  rewrite (copy_into_exact m 64) by (assumption || lia). reflexivity.
Qed.

Lemma container_ciphers m kb s mask uz ts : written kb s -> List.length kb = 32%nat ->
  packed uz ts -> Forall nibble_table ts -> List.length ts = 8%nat ->
  exists k, makeKey m (Container (Ok kb) mask (Ok uz)) = Ok k /\
    enciphers k (encryption (fun i a => rotl11 (subst_digits ts ((a + key_word (number s) i) mod 2 ^ 32)))) /\
    deciphers k (decryption (fun i a => rotl11 (subst_digits ts ((a + key_word (number s) i) mod 2 ^ 32)))).
Proof.
  intros Hw Hl Hp Ht Hn. eexists. split; [apply makeKey_ok; [exact Hl|apply Hp]|].
  pose proof (container_computes kb s uz ts Hw Hl Hp Ht Hn) as H.
  split; [now apply computes_enciphers|now apply computes_deciphers].
Qed.

Lemma container_standard m kb s mask : written kb s -> List.length kb = 32%nat ->
  exists k, makeKey m (Container (Ok kb) mask (Ok Pi_packed)) = Ok k /\
    enciphers k (Magma_E (number s)) /\ deciphers k (Magma_D (number s)).
Proof.
  intros Hw Hl.
  exact (container_ciphers m kb s mask Pi_packed Pi Hw Hl Pi_packed_ok Pi_tables eq_refl).
Qed.

Lemma container_round_trip {W S} (wr : writer W S) m kb hex mask s chunks w :
  written kb hex -> List.length kb = 32%nat -> Forall whole chunks -> never_fails wr ->
  exists o s' w' w'' log,
    writes (ECBSink_write (logged wr)) (ECBSink s (KLazy (LazyKey_string hex))) chunks (w, [])
      = (Ok o, (w', log)) /\
    ECBSink_finalize o (w', log) = (Ok s', (w'', log)) /\
    forall W2 St (rd : reader W2 St) (R : St -> W2 -> bytes -> Prop) src w2 sizes,
      block_source rd R -> R src w2 (List.concat log) -> Forall (fun n => 8 <= n) sizes ->
      exists o1 o2 w3,
        ECBSource_container m src (Container (Ok kb) mask (Ok Pi_packed)) = Ok o1 /\
        reads (ECBSource_read rd m) o1 sizes w2 =
          (Ok (served (List.concat chunks) (map (fun _ => 8) sizes), o2), w3).
Proof.
  intros Hw Hl Hc Hn. destruct (written_facts _ _ Hw) as (L & Hd & _). rewrite Hl in L.
  pose proof (hex_enciphers hex L Hd) as HE. pose proof (hex_deciphers hex L Hd) as HD0.
  destruct (container_standard m kb hex mask Hw Hl) as (k & Hk & _ & HD).
  destruct (ecb_sink_blocks wr _ _ s chunks w (enciphers_transforms' _ _ HE) Hc Hn) as (s' & w' & Ew).
  exists (ECBSink s' (KLazy (LazyKey_string hex))), s', w', w'. eexists.
  split; [exact Ew|]. split; [reflexivity|].
  intros W2 St rd R src w2 sizes HR Hs Hz.
  pose proof (whole_concat chunks Hc) as Hwc. pose proof (blocks8_lt _ Hwc) as Hb.
  pose proof (ecb_lt (Magma_E (number hex)) _ (enciphers_lt _ _ HE) Hb) as Hcs.
  rewrite concat_map_to_le in Hs.
  pose proof (ecb_left_init k (Magma_D (number hex)) R src w2 _ Hs (unblocks8_whole _)) as HL.
  rewrite blocks8_unblocks8, ecb_ecb, unblocks8_blocks8 in HL; try assumption.
  - destruct (delivers_blocks_reads _ _ sizes (ecb_delivers rd m k _ R HD HR) Hz _ _ _ HL)
      as (o2 & w3 & Er).
    exists (ECBSource src k), o2, w3. split; [|exact Er].
    unfold ECBSource_container. rewrite Hk. reflexivity.
  - intros x Hx. exact (proj1 (deciphers_enciphers _ _ _ HE HD0 x Hx)).
Qed.

Lemma makeKey_mask m k mask mask' sb : makeKey m (Container k mask sb) = makeKey m (Container k mask' sb).
Proof. reflexivity. Qed.

Lemma makeKey_overflow m kb uz mask :
  ((32 < List.length kb)%nat -> makeKey m (Container (Ok kb) mask (Ok uz)) = Undef Overflow) /\
  ((0 < List.length kb <= 32)%nat -> (64 < List.length uz)%nat ->
     makeKey m (Container (Ok kb) mask (Ok uz)) = Undef Overflow).
Proof.
  split.
  - intros H. unfold makeKey. cbn [cont_key bind]. now rewrite copy_into_long.
  - intros H1 H2. unfold makeKey. cbn [cont_key cont_sbox bind].
    rewrite copy_into_short; [|lia|destruct kb; [cbn in H1; lia|discriminate]]. cbn [bind].
    now rewrite copy_into_long.
Qed.

Lemma makeKey_short m kb uz mask : (0 < List.length kb <= 32)%nat -> (0 < List.length uz <= 64)%nat ->
  makeKey m (Container (Ok kb) mask (Ok uz)) =
  makeKey m (Container (Ok (kb ++ repeat 0 (32 - List.length kb))) mask
                       (Ok (uz ++ repeat 0 (64 - List.length uz)))).
Proof.
  intros H1 H2. rewrite (makeKey_ok m (kb ++ _)).
  - unfold makeKey. cbn [cont_key cont_sbox bind].
    rewrite copy_into_short; [|lia|destruct kb; [cbn in H1; lia|discriminate]]. cbn [bind].
    rewrite copy_into_short; [|lia|destruct uz; [cbn in H2; lia|discriminate]]. reflexivity.
  - rewrite app_length, repeat_length. lia.
  - rewrite app_length, repeat_length. lia.
Qed.
