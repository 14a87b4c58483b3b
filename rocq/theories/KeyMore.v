(** Proofs about key material, substitution tables and gost89::DataImit beyond the
    standard cases (PropMore.v). *)
From Verif Require Import Base Text MagmaModel Streams SpecText SpecMagma SpecModes SpecStreams SpecMac SpecMore.
From Verif Require Import Lib ByteProofs MagmaProofs MagmaSpecProofs SboxProofs SinkProofs SourceProofs
  StreamProofs StreamFacts MacProofs StreamMore.
From Coq Require Import ZifyBool ZifyNat ZifyN.
Local Open Scope N_scope.

(** ** Substitution tables *)

Lemma at_cases {A} (l : list A) i : (exists x, at_ l i = Ok x) /\ i < len l \/ at_ l i = Undef OutOfBounds /\ len l <= i.
Proof.
  unfold at_. destruct (N.ltb_spec i (len l)) as [H|H]; [|auto]. left. split; [|assumption].
  destruct (nth_error l (N.to_nat i)) as [x|] eqn:E; [eauto|].
  apply nth_error_None in E. unfold len in H. lia.
Qed.

Lemma at_firstn {A} (l : list A) i n : i < N.of_nat n -> at_ (firstn n l) i = at_ l i.
Proof.
  intros H. unfold at_. unfold len. rewrite firstn_length.
  destruct (N.ltb_spec i (N.of_nat (Nat.min n (List.length l)))), (N.ltb_spec i (N.of_nat (List.length l))); try lia; auto.
  rewrite <- (firstn_skipn n l) at 2. rewrite nth_error_app1; [reflexivity|]. rewrite firstn_length. lia.
Qed.

Lemma digit_lt v k : N.land (N.shiftr v k) 0xf < 16.
Proof. rewrite land15. now apply N.mod_lt. Qed.

Lemma nibble_firstn v p k : nibble_transformN v (firstn 16 p) k = nibble_transformN v p k.
Proof. unfold nibble_transformN. cbv zeta. rewrite at_firstn; [reflexivity|apply digit_lt]. Qed.

Lemma nibble_extra p0 p1 p2 p3 p4 p5 p6 p7 v :
  SboxNibble p0 p1 p2 p3 p4 p5 p6 p7 v =
  SboxNibble (firstn 16 p0) (firstn 16 p1) (firstn 16 p2) (firstn 16 p3)
             (firstn 16 p4) (firstn 16 p5) (firstn 16 p6) (firstn 16 p7) v.
Proof. unfold SboxNibble. now rewrite !nibble_firstn. Qed.

Lemma nibble_cases v p k :
  (exists t, nibble_transformN v p k = Ok t) /\ N.land (N.shiftr v (k * 4)) 0xf < len p \/
  nibble_transformN v p k = Undef OutOfBounds /\ len p <= N.land (N.shiftr v (k * 4)) 0xf.
Proof.
  unfold nibble_transformN. cbv zeta.
  destruct (at_cases p (N.land (N.shiftr v (k * 4)) 0xf)) as [[[x ->] H]|[-> H]]; [left|right]; split; auto.
  eexists. reflexivity.
Qed.

Lemma nibble_total v p k : 16 <= len p -> exists t, nibble_transformN v p k = Ok t.
Proof.
  intros H. pose proof (digit_lt v (k * 4)).
  destruct (nibble_cases v p k) as [[? _]|[_ ?]]; [assumption|lia].
Qed.

Lemma nibble_no_other v p k : (exists t, nibble_transformN v p k = Ok t) \/ nibble_transformN v p k = Undef OutOfBounds.
Proof. destruct (nibble_cases v p k) as [[? _]|[? _]]; auto. Qed.

Lemma nibble_outcomes p0 p1 p2 p3 p4 p5 p6 p7 v :
  (exists t, SboxNibble p0 p1 p2 p3 p4 p5 p6 p7 v = Ok t) \/
  SboxNibble p0 p1 p2 p3 p4 p5 p6 p7 v = Undef OutOfBounds.
Proof.
  unfold SboxNibble.
  destruct (nibble_no_other v p0 0) as [[? ->]| ->]; [cbn [bind]|now right].
  destruct (nibble_no_other v p1 1) as [[? ->]| ->]; [cbn [bind]|now right].
  destruct (nibble_no_other v p2 2) as [[? ->]| ->]; [cbn [bind]|now right].
  destruct (nibble_no_other v p3 3) as [[? ->]| ->]; [cbn [bind]|now right].
  destruct (nibble_no_other v p4 4) as [[? ->]| ->]; [cbn [bind]|now right].
  destruct (nibble_no_other v p5 5) as [[? ->]| ->]; [cbn [bind]|now right].
  destruct (nibble_no_other v p6 6) as [[? ->]| ->]; [cbn [bind]|now right].
  destruct (nibble_no_other v p7 7) as [[? ->]| ->]; [cbn [bind]|now right].
  left. eexists. reflexivity.
Qed.

(** All digits 15. *)
Lemma nibble_all_ones p0 p1 p2 p3 p4 p5 p6 p7 t :
  SboxNibble p0 p1 p2 p3 p4 p5 p6 p7 (2 ^ 32 - 1) = Ok t ->
  Forall (fun p => 16 <= len p) [p0; p1; p2; p3; p4; p5; p6; p7].
Proof.
  unfold SboxNibble. intros H.
  assert (C : forall p k t, k < 8 -> nibble_transformN (2 ^ 32 - 1) p k = Ok t -> 16 <= len p).
  { intros p k u Hk Hu. destruct (nibble_cases (2 ^ 32 - 1) p k) as [[_ L]|[E _]]; [|congruence].
    assert (N.land (N.shiftr (2 ^ 32 - 1) (k * 4)) 15 = 15); [|lia].
    assert (k = 0 \/ k = 1 \/ k = 2 \/ k = 3 \/ k = 4 \/ k = 5 \/ k = 6 \/ k = 7) as Hc by lia.
    clear - Hc. repeat destruct Hc as [-> | Hc]; try reflexivity. subst. reflexivity. }
  repeat match type of H with
  | bind (nibble_transformN _ ?p ?k) _ = _ =>
      let E := fresh "E" in destruct (nibble_transformN (2 ^ 32 - 1) p k) eqn:E; [|discriminate H..]; cbn [bind] in H;
      apply C in E; [|reflexivity]
  end.
  repeat constructor; assumption.
Qed.

Lemma nibble_total_iff p0 p1 p2 p3 p4 p5 p6 p7 :
  (forall v, v < 2 ^ 32 -> exists t, SboxNibble p0 p1 p2 p3 p4 p5 p6 p7 v = Ok t) <->
  Forall (fun p => 16 <= len p) [p0; p1; p2; p3; p4; p5; p6; p7].
Proof.
  split.
  - intros H. destruct (H (2 ^ 32 - 1) eq_refl) as [t Ht]. eapply nibble_all_ones, Ht.
  - intros H v _. repeat match goal with H : Forall _ (_ :: _) |- _ => inversion H; subst; clear H end.
    unfold SboxNibble.
    repeat match goal with |- exists t, bind (nibble_transformN v ?p ?k) _ = _ =>
      let t := fresh "t" in let E := fresh "E" in destruct (nibble_total v p k ltac:(assumption)) as [t E]; rewrite E; cbn [bind] end.
    eexists. reflexivity.
Qed.

(** *** The packed form *)

Lemma zdigit_range x k : (0 <= k)%Z -> (0 <= Z.land (Z.shiftr x k) 0xf < 16)%Z.
Proof. intros H. change 0xf%Z with (Z.ones 4). rewrite Z.land_ones by lia. apply Z.mod_pos_bound. reflexivity. Qed.

Lemma zdigit_range0 x : (0 <= Z.land x 0xf < 16)%Z.
Proof. rewrite <- (Z.shiftr_0_r x) at 1 2. now apply zdigit_range. Qed.

Lemma at_int_cases {A} (l : list A) i : (0 <= i)%Z ->
  (exists x, at_int l i = Ok x) /\ (i < Z.of_N (len l))%Z \/ at_int l i = Undef OutOfBounds /\ (Z.of_N (len l) <= i)%Z.
Proof.
  intros H. unfold at_int. replace (0 <=? i)%Z with true by lia.
  destruct (at_cases l (Z.to_N i)) as [[? ?]|[? ?]]; [left|right]; (split; [assumption|lia]).
Qed.

Lemma at_int_firstn {A} (l : list A) i n : (i < Z.of_nat n)%Z -> at_int (firstn n l) i = at_int l i.
Proof.
  intros H. unfold at_int. destruct (Z.leb_spec 0 i); [|reflexivity]. apply at_firstn. lia.
Qed.

Lemma tab_firstn uz o i : (0 <= o < 4)%Z -> SboxByte64Tab (firstn 64 uz) o i = SboxByte64Tab uz o i.
Proof.
  intros Ho. unfold SboxByte64Tab. pose proof (zdigit_range i 4 ltac:(lia)). pose proof (zdigit_range0 i).
  rewrite !at_int_firstn by lia. reflexivity.
Qed.

Lemma byte_extra uz v : SboxByte uz v = SboxByte (firstn 64 uz) v.
Proof. unfold SboxByte, SboxByte_tabs. now rewrite !tab_firstn by lia. Qed.

Lemma tab_cases uz o i : (0 <= o < 4)%Z ->
  (exists t, SboxByte64Tab uz o i = Ok t) \/ SboxByte64Tab uz o i = Undef OutOfBounds /\ len uz < 64.
Proof.
  intros Ho. unfold SboxByte64Tab. pose proof (zdigit_range i 4 ltac:(lia)). pose proof (zdigit_range0 i).
  destruct (at_int_cases uz (Z.land (Z.shiftr i 4) 0xf * 4 + o)%Z ltac:(lia)) as [[[x ->] _]|[-> ?]];
    cbn [bind]; [|right; split; [reflexivity|lia]].
  destruct (at_int_cases uz (Z.land i 0xf * 4 + o)%Z ltac:(lia)) as [[[y ->] _]|[-> ?]];
    cbn [bind]; [|right; split; [reflexivity|lia]].
  left. eexists. reflexivity.
Qed.

Lemma byte_outcomes uz v :
  (exists t, SboxByte uz v = Ok t) \/ SboxByte uz v = Undef OutOfBounds /\ len uz < 64.
Proof.
  unfold SboxByte, SboxByte_tabs.
  destruct (tab_cases uz 0 (int_of_u32 v) ltac:(lia)) as [[? ->]|[-> ?]]; [cbn [bind]|now right].
  destruct (tab_cases uz 1 (int_of_u32 (N.shiftr v 8)) ltac:(lia)) as [[? ->]|[-> ?]]; [cbn [bind]|now right].
  destruct (tab_cases uz 2 (int_of_u32 (N.shiftr v 16)) ltac:(lia)) as [[? ->]|[-> ?]]; [cbn [bind]|now right].
  destruct (tab_cases uz 3 (int_of_u32 (N.shiftr v 24)) ltac:(lia)) as [[? ->]|[-> ?]]; [cbn [bind]|now right].
  left. eexists. reflexivity.
Qed.

Lemma byte_total_iff uz :
  (forall v, v < 2 ^ 32 -> exists t, SboxByte uz v = Ok t) <-> 64 <= len uz.
Proof.
  split.
  - intros H. destruct (H (2 ^ 32 - 1) eq_refl) as [t Ht]. unfold SboxByte, SboxByte_tabs in Ht.
    do 3 (ok_inv Ht). ok_inv Ht. clear - E2. unfold SboxByte64Tab in E2.
    match type of E2 with bind (at_int uz ?i) _ = _ => change i with 63%Z in E2 end.
    destruct (at_int_cases uz 63 ltac:(lia)) as [[_ ?]|[E _]]; [lia|]. rewrite E in E2. discriminate.
  - intros H v _. destruct (byte_outcomes uz v) as [?|[_ ?]]; [assumption|lia].
Qed.

(** ** Keys given as words *)

Lemma native_extra ws i : (i < 8)%Z -> KeyDataNative (firstn 8 ws) i = KeyDataNative ws i.
Proof. intros H. unfold KeyDataNative. now apply at_int_firstn. Qed.

Lemma at_int_ok {A} (l : list A) i d : (0 <= i < Z.of_nat (List.length l))%Z -> at_int l i = Ok (nth (Z.to_nat i) l d).
Proof.
  intros H. unfold at_int. replace (0 <=? i)%Z with true by lia.
  rewrite (at_ok l (Z.to_N i) d) by (unfold len; lia). f_equal. f_equal. lia.
Qed.

Lemma at_int_bad {A} (l : list A) i : ~ (0 <= i < Z.of_nat (List.length l))%Z -> at_int l i = Undef OutOfBounds.
Proof.
  intros H. unfold at_int. destruct (Z.leb_spec 0 i); [|reflexivity].
  unfold at_. replace (Z.to_N i <? len l) with false by (unfold len; lia). reflexivity.
Qed.

(** The first round whose word is missing ends the calculation, whatever the block. *)
Lemma native_short_fwd ws sb x : (List.length ws < 8)%nat ->
  (forall v, exists t, sb v = Ok t) ->
  fwd (ptr_transform (Some (LazyKey_native ws sb))) x = Undef OutOfBounds.
Proof.
  intros Hl Hsb. destruct x as [a b].
  assert (C : forall i v, (0 <= i)%Z ->
     (exists t, ptr_transform (Some (LazyKey_native ws sb)) v i = Ok t) /\ (i < Z.of_nat (List.length ws))%Z \/
     ptr_transform (Some (LazyKey_native ws sb)) v i = Undef OutOfBounds).
  { intros i v Hi. cbn [ptr_transform]. unfold lazy_transform, LazyKey_native. cbn [key_data key_sbox].
    unfold KeyDataNative. destruct (Z.lt_ge_cases i (Z.of_nat (List.length ws))) as [Hlt|Hge].
    - left. split; [|assumption]. rewrite (at_int_ok ws i 0) by lia. cbn [bind].
      destruct (Hsb (w32 (w32 (nth (Z.to_nat i) ws 0) + v))) as [t ->]. eexists. reflexivity.
    - right. rewrite at_int_bad by lia. reflexivity. }
  unfold fwd. generalize dependent (ptr_transform (Some (LazyKey_native ws sb))). intros T C.
  repeat match goal with |- bind (T ?v ?i) _ = _ =>
    let E := fresh "E" in destruct (C i v ltac:(lia)) as [[[? E] ?]|E]; rewrite E; cbn [bind]; [cbv zeta|reflexivity] end.
  lia.
Qed.

Lemma native_short ws sb x : (List.length ws < 8)%nat -> (forall v, exists t, sb v = Ok t) ->
  BlkEncrypted (Ok x) (Some (LazyKey_native ws sb)) = Undef OutOfBounds /\
  BlkDecrypted (Ok x) (Some (LazyKey_native ws sb)) = Undef OutOfBounds /\
  ImitedBlock (Ok x) (Some (LazyKey_native ws sb)) = Undef OutOfBounds.
Proof.
  intros Hl Hsb. pose proof (native_short_fwd ws sb x Hl Hsb) as H.
  unfold BlkEncrypted, BlkDecrypted, ImitedBlock. rewrite (BlkForwarded_fwd (Ok x)). cbn [bind]. rewrite H. auto.
Qed.

Lemma native_long ws sb v i : (i <= 7)%Z ->
  lazy_transform (LazyKey_native ws sb) v i = lazy_transform (LazyKey_native (firstn 8 ws) sb) v i.
Proof.
  intros H. unfold lazy_transform, LazyKey_native. cbn [key_data key_sbox].
  now rewrite native_extra by lia.
Qed.

(** Two keys with the same transformations encrypt alike. *)
Lemma fwd_ext (T T' : N -> Z -> res N) x : (forall v i, (0 <= i <= 7)%Z -> T v i = T' v i) -> fwd T x = fwd T' x.
Proof.
  intros H. destruct x as [a b]. unfold fwd.
  repeat (rewrite H by lia; apply bind_ext; intros ?; cbv zeta). reflexivity.
Qed.
Lemma bwd_ext (T T' : N -> Z -> res N) x : (forall v i, (0 <= i <= 7)%Z -> T v i = T' v i) -> bwd T x = bwd T' x.
Proof.
  intros H. destruct x as [a b]. unfold bwd.
  repeat (rewrite H by lia; apply bind_ext; intros ?; cbv zeta). reflexivity.
Qed.

Lemma native_extra_words ws sb b :
  BlkEncrypted b (Some (LazyKey_native ws sb)) = BlkEncrypted b (Some (LazyKey_native (firstn 8 ws) sb)) /\
  BlkDecrypted b (Some (LazyKey_native ws sb)) = BlkDecrypted b (Some (LazyKey_native (firstn 8 ws) sb)) /\
  ImitedBlock b (Some (LazyKey_native ws sb)) = ImitedBlock b (Some (LazyKey_native (firstn 8 ws) sb)).
Proof.
  assert (H : forall v i, (0 <= i <= 7)%Z -> ptr_transform (Some (LazyKey_native ws sb)) v i =
                                             ptr_transform (Some (LazyKey_native (firstn 8 ws) sb)) v i).
  { intros v i Hi. apply native_long. lia. }
  assert (F : forall b, BlkForwarded b (Some (LazyKey_native ws sb)) = BlkForwarded b (Some (LazyKey_native (firstn 8 ws) sb))).
  { intros c. rewrite !BlkForwarded_fwd. apply bind_ext. intros x. now apply fwd_ext. }
  assert (B : forall b, BlkBackwarded b (Some (LazyKey_native ws sb)) = BlkBackwarded b (Some (LazyKey_native (firstn 8 ws) sb))).
  { intros c. rewrite !BlkBackwarded_bwd. apply bind_ext. intros x. now apply bwd_ext. }
  unfold BlkEncrypted, BlkDecrypted, ImitedBlock. now rewrite !F, !B.
Qed.

(** ** KeyCachedData *)

Lemma mapM_length {A B} (f : A -> res B) l : forall r, mapM f l = Ok r -> List.length r = List.length l.
Proof.
  induction l as [|a l IH]; intros r H; cbn [mapM] in H; [now injection H as <-|].
  ok_inv H. ok_inv H. injection H as <-. cbn. f_equal. now apply IH.
Qed.

Lemma mapM_nth {A B} (f : A -> res B) l d d' : forall r i, mapM f l = Ok r -> (i < List.length l)%nat ->
  f (nth i l d) = Ok (nth i r d').
Proof.
  induction l as [|a l IH]; intros r i H Hi; cbn [mapM] in H; [cbn in Hi; lia|].
  ok_inv H. ok_inv H. injection H as <-. destruct i as [|i]; [assumption|]. cbn [nth]. apply IH; [assumption|]. cbn in Hi. lia.
Qed.

Lemma cached_same kd i : (0 <= i <= 7)%Z ->
  (forall j, (0 <= j <= 7)%Z -> exists w, kd j = Ok w) -> KeyCachedData kd i = kd i.
Proof.
  intros Hi H. unfold KeyCachedData.
  destruct (mapM kd [0; 1; 2; 3; 4; 5; 6; 7]%Z) as [ws| | |] eqn:E.
  - cbn [bind]. pose proof (mapM_length _ _ _ E) as L. cbn in L.
    rewrite (at_int_ok ws i 0) by lia.
    pose proof (mapM_nth kd _ 0%Z 0 _ (Z.to_nat i) E ltac:(cbn; lia)) as F. rewrite <- F. f_equal.
    assert (i = 0 \/ i = 1 \/ i = 2 \/ i = 3 \/ i = 4 \/ i = 5 \/ i = 6 \/ i = 7)%Z as Hc by lia.
    clear - Hc. repeat destruct Hc as [-> | Hc]; try reflexivity. subst. reflexivity.
  - exfalso. destruct (H 0%Z), (H 1%Z), (H 2%Z), (H 3%Z), (H 4%Z), (H 5%Z), (H 6%Z), (H 7%Z); try lia.
    cbn [mapM] in E. rewrite H0, H1, H2, H3, H4, H5, H6, H7 in E. discriminate.
  - exfalso. destruct (H 0%Z), (H 1%Z), (H 2%Z), (H 3%Z), (H 4%Z), (H 5%Z), (H 6%Z), (H 7%Z); try lia.
    cbn [mapM] in E. rewrite H0, H1, H2, H3, H4, H5, H6, H7 in E. discriminate.
  - exfalso. destruct (H 0%Z), (H 1%Z), (H 2%Z), (H 3%Z), (H 4%Z), (H 5%Z), (H 6%Z), (H 7%Z); try lia.
    cbn [mapM] in E. rewrite H0, H1, H2, H3, H4, H5, H6, H7 in E. discriminate.
Qed.

Lemma cached_outside kd i : ~ (0 <= i <= 7)%Z ->
  (forall j, (0 <= j <= 7)%Z -> exists w, kd j = Ok w) -> KeyCachedData kd i = Undef OutOfBounds.
Proof.
  intros Hi H. unfold KeyCachedData.
  destruct (H 0%Z), (H 1%Z), (H 2%Z), (H 3%Z), (H 4%Z), (H 5%Z), (H 6%Z), (H 7%Z); try lia.
  cbn [mapM]. rewrite H0, H1, H2, H3, H4, H5, H6, H7. cbn [bind].
  apply at_int_bad. cbn [List.length]. lia.
Qed.

Lemma string_outside s i : List.length s = 64%nat -> ~ (0 <= i <= 7)%Z ->
  KeyDataString s i = Throw (RuntimeError "Wrong key index").
Proof.
  intros Hl Hi. unfold KeyDataString. replace (len s =? 64) with true by (unfold len; lia). cbn [negb].
  now rewrite (proj2 (wrong_index i) Hi).
Qed.

Lemma mapM_first_failure {A B} (f : A -> res B) a b l e :
  (forall x, In x a -> exists y, f x = Ok y) -> f b = Throw e -> mapM f (a ++ b :: l) = Throw e.
Proof.
  intros Ha Hb. induction a as [|x a IH]; cbn [mapM app].
  - now rewrite Hb.
  - destruct (Ha x (or_introl eq_refl)) as [y ->]. cbn [bind]. rewrite IH; [reflexivity|].
    intros z Hz. apply Ha. now right.
Qed.

Lemma cached_eager kd j e i : (0 <= j <= 7)%Z -> kd j = Throw e ->
  (forall l, (0 <= l < j)%Z -> exists w, kd l = Ok w) -> KeyCachedData kd i = Throw e.
Proof.
  intros Hj He H. unfold KeyCachedData.
  replace (mapM kd [0; 1; 2; 3; 4; 5; 6; 7]%Z) with (@Throw (list N) e); [reflexivity|]. symmetry.
  set (l := [0; 1; 2; 3; 4; 5; 6; 7]%Z).
  replace l with (firstn (Z.to_nat j) l ++ j :: skipn (Datatypes.S (Z.to_nat j)) l).
  - apply mapM_first_failure; [|assumption]. intros x Hx. apply H.
    assert (j = 0 \/ j = 1 \/ j = 2 \/ j = 3 \/ j = 4 \/ j = 5 \/ j = 6 \/ j = 7)%Z as Hc by lia. subst l. clear - Hc Hx.
    repeat destruct Hc as [-> | Hc]; try subst j; vm_compute in Hx; intuition lia.
  - assert (j = 0 \/ j = 1 \/ j = 2 \/ j = 3 \/ j = 4 \/ j = 5 \/ j = 6 \/ j = 7)%Z as Hc by lia. clear - Hc.
    repeat destruct Hc as [-> | Hc]; try subst j; reflexivity.
Qed.

(** ** Key strings of the wrong length *)

Lemma cached_wrong_size s i : List.length s <> 64%nat ->
  KeyCachedData (KeyDataString s) i = Throw (RuntimeError "Wrong key size").
Proof.
  intros H. apply (cached_eager _ 0%Z); [lia| |intros; lia].
  unfold KeyDataString. replace (len s =? 64) with false by (unfold len; lia). reflexivity.
Qed.

Lemma wrong_size_transform s sb v i : List.length s <> 64%nat ->
  lazy_transform (LazyKey_string_sbox s sb) v i = Throw (RuntimeError "Wrong key size").
Proof.
  intros H. unfold lazy_transform, LazyKey_string_sbox. cbn [key_data]. now rewrite cached_wrong_size.
Qed.

Lemma wrong_size_blocks s sb x : List.length s <> 64%nat ->
  BlkEncrypted (Ok x) (Some (LazyKey_string_sbox s sb)) = Throw (RuntimeError "Wrong key size") /\
  BlkDecrypted (Ok x) (Some (LazyKey_string_sbox s sb)) = Throw (RuntimeError "Wrong key size") /\
  BlkForwarded (Ok x) (Some (LazyKey_string_sbox s sb)) = Throw (RuntimeError "Wrong key size") /\
  (forall y, EncryptionBase_transform (KLazy (LazyKey_string_sbox s sb)) y = Throw (RuntimeError "Wrong key size")).
Proof.
  intros H.
  assert (F : forall z, BlkForwarded (Ok z) (Some (LazyKey_string_sbox s sb)) = Throw (RuntimeError "Wrong key size")).
  { intros [a b]. unfold BlkForwarded. cbn [bind ptr_transform]. now rewrite wrong_size_transform. }
  unfold BlkEncrypted, BlkDecrypted. rewrite !F.
  split; [reflexivity|]. split; [reflexivity|]. split; [reflexivity|].
  intros y. unfold EncryptionBase_transform. cbv zeta. cbn [key_transform]. now rewrite wrong_size_transform.
Qed.

Section BadKey.
Context (ks : str) (sb : sbox) (Hk : List.length ks <> 64%nat).
Let k := KLazy (LazyKey_string_sbox ks sb).
Let bad := RuntimeError "Wrong key size".

Lemma bad_encrypted x : BlkEncrypted (Ok x) (cast_lazy k) = Throw bad.
Proof. now apply wrong_size_blocks. Qed.
Lemma bad_decrypted x : BlkDecrypted (Ok x) (cast_lazy k) = Throw bad.
Proof. now apply wrong_size_blocks. Qed.

Section Sinks.
Context {W S : Type} (wr : writer W S) (m : mode).

Lemma bad_ecb_loop data : forall p s w, (List.length p < 8)%nat ->
  ecb_write_loop wr k data p s w =
  if Nat.ltb (List.length p + List.length data) 8 then (Ok (p ++ data, s), w) else (Throw bad, w).
Proof.
  induction data as [|b data IH]; intros p s w Hp.
  - cbn [ecb_write_loop List.length]. rewrite Nat.add_0_r, app_nil_r.
    replace (Nat.ltb (List.length p) 8) with true by lia. reflexivity.
  - cbn [ecb_write_loop]. rewrite app_length. cbn [List.length].
    destruct (Nat.eqb_spec (List.length p + 1) 8) as [H8|H8].
    + replace (Nat.ltb _ 8) with false by lia.
      destruct (wrong_size_blocks ks sb (0, 0) Hk) as (_ & _ & _ & HB).
      unfold k. rewrite HB. reflexivity.
    + rewrite IH by (rewrite app_length; cbn; lia). rewrite app_length, <- app_assoc. cbn [List.length app].
      replace (List.length p + 1 + List.length data)%nat with (List.length p + Datatypes.S (List.length data))%nat by lia.
      reflexivity.
Qed.

Lemma bad_ecb_write s data w : data <> [] ->
  ECBSink_write wr (ECBSink s k) data w =
  (Throw (if Nat.ltb (List.length data) 8 then RuntimeError "Unaligned ECB encryption" else bad), w).
Proof.
  intros H. unfold ECBSink_write. cbn [es_key es_sink]. unfold mbind. rewrite bad_ecb_loop by (cbn; lia).
  cbn [List.length Nat.add app]. destruct (Nat.ltb (List.length data) 8); [|reflexivity].
  destruct data; [now elim H|reflexivity].
Qed.

Lemma bad_magma_loop data : forall p s rl rr w, (List.length p < 8)%nat ->
  magma_cfb_write_loop wr m k data p s rl rr w =
  if Nat.ltb (List.length p + List.length data) 8 then (Ok (s, rl, rr, p ++ data), w) else (Throw bad, w).
Proof.
  induction data as [|b data IH]; intros p s rl rr w Hp.
  - cbn [magma_cfb_write_loop List.length]. rewrite Nat.add_0_r, app_nil_r.
    replace (Nat.ltb (List.length p) 8) with true by lia. reflexivity.
  - cbn [magma_cfb_write_loop]. rewrite app_length. cbn [List.length]. unfold block_size.
    destruct (Nat.eqb_spec (List.length p + 1) 8) as [H8|H8].
    + replace (Nat.ltb _ 8) with false by lia. unfold BlkRaw64, BlkRaw2. rewrite bad_encrypted. reflexivity.
    + rewrite IH by (rewrite app_length; cbn; lia). rewrite app_length, <- app_assoc. cbn [List.length app].
      replace (List.length p + 1 + List.length data)%nat with (List.length p + Datatypes.S (List.length data))%nat by lia.
      reflexivity.
Qed.

Lemma bad_magma_write s ivl ivr p data w : (List.length p < 8)%nat ->
  magma_CFBSink_write wr m (MagmaCFBSink s k ivl ivr p) data w =
  (if Nat.ltb (List.length p + List.length data) 8 then Ok (MagmaCFBSink s k ivl ivr (p ++ data)) else Throw bad, w).
Proof.
  intros H. unfold magma_CFBSink_write. cbn [mcs_sink mcs_key mcs_ivl mcs_ivr mcs_plain]. unfold mbind.
  rewrite bad_magma_loop by assumption. now destruct (Nat.ltb _ 8).
Qed.

Lemma bad_magma_finalize s ivl ivr p w : p <> [] ->
  magma_CFBSink_finalize wr m (MagmaCFBSink s k ivl ivr p) w = (Throw bad, w).
Proof.
  intros H. unfold magma_CFBSink_finalize. cbn [mcs_sink mcs_key mcs_ivl mcs_ivr mcs_plain].
  destruct p; [now elim H|]. unfold BlkRaw64, BlkRaw2. rewrite bad_encrypted. reflexivity.
Qed.

Lemma bad_gost_loop data : forall p s l w, (List.length p < 8)%nat ->
  gost_cfb_write_loop wr m k data p s l w =
  if Nat.ltb (List.length p + List.length data) 8 then (Ok (s, l, p ++ data), w) else (Throw bad, w).
Proof.
  induction data as [|b data IH]; intros p s l w Hp.
  - cbn [gost_cfb_write_loop List.length]. rewrite Nat.add_0_r, app_nil_r.
    replace (Nat.ltb (List.length p) 8) with true by lia. reflexivity.
  - cbn [gost_cfb_write_loop]. rewrite app_length. cbn [List.length]. unfold block_size.
    destruct (Nat.eqb_spec (List.length p + 1) 8) as [H8|H8].
    + replace (Nat.ltb _ 8) with false by lia. unfold BlkRaw64, BlkRaw2. rewrite bad_encrypted. reflexivity.
    + rewrite IH by (rewrite app_length; cbn; lia). rewrite app_length, <- app_assoc. cbn [List.length app].
      replace (List.length p + 1 + List.length data)%nat with (List.length p + Datatypes.S (List.length data))%nat by lia.
      reflexivity.
Qed.

Lemma bad_gost_write s iv p data w : (List.length p < 8)%nat ->
  gost_CFBSink_write wr m (GostCFBSink s k iv p) data w =
  (if Nat.ltb (List.length p + List.length data) 8 then Ok (GostCFBSink s k iv (p ++ data)) else Throw bad, w).
Proof.
  intros H. unfold gost_CFBSink_write. cbn [gcs_sink gcs_key gcs_iv gcs_plain]. unfold mbind.
  rewrite bad_gost_loop by assumption. now destruct (Nat.ltb _ 8).
Qed.

Lemma bad_gost_finalize s iv p w : p <> [] ->
  gost_CFBSink_finalize wr m (GostCFBSink s k iv p) w = (Throw bad, w).
Proof.
  intros H. unfold gost_CFBSink_finalize. cbn [gcs_sink gcs_key gcs_iv gcs_plain].
  destruct p; [now elim H|]. unfold BlkRaw64, BlkRaw2. rewrite bad_encrypted. reflexivity.
Qed.
End Sinks.

Section Sources.
Context {W St : Type} (rd : reader W St) (m : mode).

Lemma bad_core {Reg} (cur : Reg -> N) push size n s r w : 0 < size ->
  nmloop (Datatypes.S n) (core_step rd m k cur push size) (s, [], r, []) w = (Throw bad, w).
Proof.
  intros H. cbn [nmloop core_step]. change (len (@nil N)) with 0.
  replace (0 <? size) with true by lia. cbn [drain]. replace (0 =? size) with false by lia.
  change (len (@nil N)) with 0. replace (0 =? size) with false by lia.
  unfold BlkRaw64, BlkRaw2. rewrite bad_encrypted. reflexivity.
Qed.

Lemma bad_magma_read s ivl ivr size w : 0 < size ->
  magma_CFBSource_read rd m (magma_CFBSource_init s k ivl ivr) size w = (Throw bad, w).
Proof.
  intros H. rewrite magma_read_core. unfold mbind.
  unfold magma_CFBSource_init. cbn [mcr_source mcr_key mcr_ivl mcr_ivr mcr_plain].
  now rewrite bad_core.
Qed.

Lemma bad_gost_read s iv size w : 0 < size ->
  gost_CFBSource_read rd m (gost_CFBSource_init s k iv) size w = (Throw bad, w).
Proof.
  intros H. rewrite gost_read_core. unfold mbind.
  unfold gost_CFBSource_init. cbn [gcr_source gcr_key gcr_iv gcr_plain].
  now rewrite bad_core.
Qed.

(** ECBSource asks for data first; whatever whole block comes, the key is reported. *)
Lemma bad_ecb_read s size w p s' w' : 8 <= size -> rd s 8 w = (Ok (p, s'), w') -> List.length p = 8%nat ->
  ECBSource_read rd m (ECBSource s k) size w = (Throw bad, w').
Proof.
  intros H Er Hp. unfold ECBSource_read. replace (size <? N.of_nat block_size) with false by (unfold block_size; lia).
  rewrite (mbind_ok _ _ _ _ _ Er). destruct p as [|a p]; [discriminate|].
  unfold read8. rewrite Hp. cbn [Nat.leb]. unfold mbind at 1, lift at 1.
  unfold BlkRaw_bytes, BlkRaw2. rewrite bad_decrypted. reflexivity.
Qed.
End Sources.
End BadKey.

(** ** CFBSource returns at most what was asked for *)

Lemma core_modest {W St Reg} (rd : reader W St) m k (cur : Reg -> N) push size : forall n s p r res w s' p' r' res' w',
  (List.length res <= N.to_nat size)%nat ->
  nmloop n (core_step rd m k cur push size) (s, p, r, res) w = (Ok (s', p', r', res'), w') ->
  (List.length res' <= N.to_nat size)%nat.
Proof.
  induction n as [|n IH]; intros s p r res w s' p' r' res' w' Hr H; [discriminate|].
  cbn [nmloop] in H. apply mbind_ok_inv in H. destruct H as (x & w1 & H1 & H2).
  cbn [core_step] in H1. destruct (len res <? size).
  2:{ injection H1 as <- <-. injection H2 as <- <- <- <- <-. assumption. }
  rewrite drain_ok in H1 by assumption.
  assert (Hr2 : (List.length (res ++ firstn (N.to_nat size - List.length res) p) <= N.to_nat size)%nat).
  { rewrite app_length, firstn_length. lia. }
  destruct (len _ =? size).
  { injection H1 as <- <-. injection H2 as <- <- <- <- <-. assumption. }
  apply mbind_ok_inv in H1. destruct H1 as ([e1 e2] & w2 & _ & H1).
  apply mbind_ok_inv in H1. destruct H1 as ([q s1] & w3 & _ & H1).
  destruct q as [|q0 q'].
  { injection H1 as <- <-. injection H2 as <- <- <- <- <-. assumption. }
  apply mbind_ok_inv in H1. destruct H1 as (c & w4 & _ & H1).
  apply mbind_ok_inv in H1. destruct H1 as (q2 & w5 & _ & H1).
  injection H1 as <- <-. eapply IH, H2. assumption.
Qed.

Lemma magma_modest {W St} (rd : reader W St) m : modest (magma_CFBSource_read rd m).
Proof.
  intros o n w b o' w' H. rewrite magma_read_core in H.
  apply mbind_ok_inv in H. destruct H as ([[[s p] r] res] & w1 & H1 & H2). injection H2 as <- <- <-.
  apply core_modest in H1; [|cbn; lia]. unfold len. lia.
Qed.

Lemma gost_modest {W St} (rd : reader W St) m : modest (gost_CFBSource_read rd m).
Proof.
  intros o n w b o' w' H. rewrite gost_read_core in H.
  apply mbind_ok_inv in H. destruct H as ([[[s p] r] res] & w1 & H1 & H2). injection H2 as <- <- <-.
  apply core_modest in H1; [|cbn; lia]. unfold len. lia.
Qed.

Lemma write8_length m p d p' : List.length d = 8%nat -> write8 m p d = Ok p' -> List.length p' = List.length p.
Proof.
  intros Hd H. unfold write8 in H. destruct (Nat.leb_spec 8 (List.length p)).
  - apply Ok_inj in H. subst p'. rewrite app_length, skipn_length. lia.
  - destruct m; [discriminate|]. apply Ok_inj in H. subst p'. rewrite firstn_length. lia.
Qed.

Lemma ecb_modest {W St} (rd : reader W St) m : modest rd -> modest (ECBSource_read rd m).
Proof.
  intros Hm o n w b o' w' H. destruct o as [s k|s]; cbn [ECBSource_read] in H.
  - destruct (N.ltb_spec n (N.of_nat block_size)) as [|Hn]; [discriminate|].
    change (N.of_nat block_size) with 8 in Hn.
    apply mbind_ok_inv in H. destruct H as ([p s1] & w1 & H1 & H). apply Hm in H1.
    destruct p as [|p0 p']; [injection H as <- <- <-; unfold len; cbn; lia|].
    apply mbind_ok_inv in H. destruct H as (buf & w2 & _ & H).
    apply mbind_ok_inv in H. destruct H as ([f1 f2] & w3 & _ & H).
    apply mbind_ok_inv in H. destruct H as (q & w4 & H4 & H). injection H as <- <- <-.
    apply (f_equal fst) in H4. cbn [fst lift] in H4. apply write8_length in H4; [|reflexivity].
    unfold len in *. lia.
  - apply mbind_ok_inv in H. destruct H as ([p s1] & w1 & H1 & H). injection H as <- <- <-. eapply Hm, H1.
Qed.

(** ** gost89::DataImit: changes in one block, and padding *)

Lemma rounds_lt f order : (forall i a, In i order -> a < 2 ^ 32 -> f i a < 2 ^ 32) ->
  forall p, pair_lt 32 p -> pair_lt 32 (rounds f order p).
Proof.
  unfold rounds. induction order as [|i order IH]; intros Hf p Hp; [exact Hp|].
  cbn [fold_left]. apply IH; [intros; apply Hf; [now right|assumption]|].
  destruct p as [a1 a0]. destruct Hp as [H1 H0]. cbn [fst snd] in *. cbn [G]. split; cbn [fst snd]; [assumption|].
  apply lxor_lt; [apply Hf; [now left|assumption]|assumption].
Qed.

Lemma rounds_inj f order : forall p q, rounds f order p = rounds f order q -> p = q.
Proof.
  unfold rounds. induction order as [|i order IH]; intros p q H; [exact H|].
  cbn [fold_left] in H. apply IH in H. destruct p as [a1 a0], q as [b1 b0]. cbn [G] in H.
  injection H as -> H. f_equal. now apply lxor_inj_l in H.
Qed.

Lemma sixteen_inj f x y : (forall i a, (i < 8)%nat -> a < 2 ^ 32 -> f i a < 2 ^ 32) ->
  x < 2 ^ 64 -> y < 2 ^ 64 -> sixteen_rounds f x = sixteen_rounds f y -> x = y.
Proof.
  intros Hf Hx Hy H. unfold sixteen_rounds in H. cbv zeta in H.
  change (fold_left (fun p i => G (f i) p) ?l ?q) with (rounds f l q) in H.
  assert (Hf' : forall i a, In i (seq 0 8 ++ seq 0 8) -> a < 2 ^ 32 -> f i a < 2 ^ 32).
  { intros i a Hi. apply Hf. apply in_app_iff in Hi. rewrite !in_seq in Hi. lia. }
  assert (Hp : forall z, z < 2 ^ 64 -> pair_lt 32 (z / 2 ^ 32, z mod 2 ^ 32)).
  { intros z Hz. destruct (halves_lt z Hz). now split. }
  pose proof (rounds_lt f _ Hf' _ (Hp x Hx)) as [Hx1 Hx0].
  pose proof (rounds_lt f _ Hf' _ (Hp y Hy)) as [Hy1 Hy0].
  destruct (rounds f _ (x / 2 ^ 32, x mod 2 ^ 32)) as [p1 p0] eqn:Ex.
  destruct (rounds f _ (y / 2 ^ 32, y mod 2 ^ 32)) as [q1 q0] eqn:Ey. cbn [fst snd] in *.
  assert (p1 = q1 /\ p0 = q0) as [-> ->].
  { pose proof (f_equal (fun z => z / 2 ^ 32) H) as Hd. pose proof (f_equal (fun z => z mod 2 ^ 32) H) as Hm.
    cbv beta in *. rewrite !split_div in Hd by assumption. rewrite !split_mod in Hm by assumption. auto. }
  rewrite <- Ey in Ex. apply rounds_inj in Ex. injection Ex as E1 E2.
  rewrite (N.div_mod x (2 ^ 32)), (N.div_mod y (2 ^ 32)) by discriminate. now rewrite E1, E2.
Qed.

Section Mac89.
Context (E : N -> N) (HElt : forall x, x < 2 ^ 64 -> E x < 2 ^ 64)
        (HEinj : forall x y, x < 2 ^ 64 -> y < 2 ^ 64 -> E x = E y -> x = y).
Let step := fun s p => E (N.lxor s p).

Lemma mac_steps_lt ps : forall s, s < 2 ^ 64 -> Forall (fun x => x < 2 ^ 64) ps -> fold_left step ps s < 2 ^ 64.
Proof.
  induction ps as [|p ps IH]; intros s Hs H; [exact Hs|]. inversion H; subst.
  cbn [fold_left]. apply IH; [|assumption]. apply HElt, lxor_lt; assumption.
Qed.

Lemma mac_steps_inj ps : forall s t, s < 2 ^ 64 -> t < 2 ^ 64 -> Forall (fun x => x < 2 ^ 64) ps ->
  fold_left step ps s = fold_left step ps t -> s = t.
Proof.
  induction ps as [|p ps IH]; intros s t Hs Ht H He; [exact He|]. inversion H; subst.
  cbn [fold_left] in He. apply IH in He; try assumption; try (apply HElt, lxor_lt; assumption).
  apply HEinj in He; try (apply lxor_lt; assumption). exact (lxor_inj_r _ _ _ He).
Qed.

Lemma mac89_detects ps qs : Forall (fun x => x < 2 ^ 64) ps -> Forall (fun x => x < 2 ^ 64) qs ->
  differ_once ps qs -> mac89 E ps <> mac89 E qs.
Proof.
  intros Hp Hq (before & p & q & after & -> & -> & Hd) H. unfold mac89 in H. fold step in H.
  rewrite !fold_left_app in H. cbn [fold_left] in H.
  rewrite Forall_app in Hp, Hq. destruct Hp as [Hb Hp]. destruct Hq as [_ Hq]. inversion Hp; inversion Hq; subst.
  assert (Hs : fold_left step before 0 < 2 ^ 64) by now apply mac_steps_lt.
  apply mac_steps_inj in H; try assumption; try (apply HElt, lxor_lt; assumption).
  apply HEinj in H; try (apply lxor_lt; assumption). apply Hd. exact (lxor_inj_l _ _ _ H).
Qed.
End Mac89.

Lemma blocks8_zeros q : blocks8 (repeat 0 (8 * q)) = repeat 0 q.
Proof.
  induction q as [|q IH]; [reflexivity|].
  replace (8 * Datatypes.S q)%nat with (8 + 8 * q)%nat by lia. rewrite repeat_app.
  rewrite blocks8_cons by reflexivity. rewrite IH. reflexivity.
Qed.

Lemma blocks8_one t : (0 < List.length t < 8)%nat -> blocks8 t = [of_le t].
Proof.
  intros H. do 8 (destruct t as [|? t]; [cbn in H; try lia; reflexivity|]). cbn in H. lia.
Qed.

Lemma blocks8_zero_fill n : forall d z, (List.length d <= n)%nat -> ((List.length d + z) mod 8 = 0)%nat ->
  blocks8 (d ++ repeat 0 z) = blocks8 d ++ repeat 0 ((List.length d + z) / 8 - (List.length d + 7) / 8).
Proof.
  induction n as [|n IH]; intros d z Hn Hz.
  - destruct d; [|cbn in Hn; lia]. cbn [List.length Nat.add app] in *.
    pose proof (Nat.div_mod z 8 ltac:(lia)). rewrite Hz in H. rewrite H at 1.
    rewrite Nat.add_0_r, blocks8_zeros. change (blocks8 []) with (@nil N). cbn [app]. f_equal.
    change (7 / 8)%nat with 0%nat. lia.
  - destruct (Nat.le_gt_cases 8 (List.length d)) as [H8|H8].
    + rewrite <- (firstn_skipn 8 d) at 1 2. assert (L : List.length (firstn 8 d) = 8%nat) by (rewrite firstn_length; lia).
      rewrite <- app_assoc. rewrite (blocks8_cons (firstn 8 d) (skipn 8 d)), (blocks8_cons (firstn 8 d)) by assumption.
      cbn [app]. f_equal. rewrite IH; [|rewrite skipn_length; lia|]; rewrite skipn_length.
      * do 2 f_equal. set (l := List.length d) in *.
        assert (X1 : (l + z = (l - 8 + z) + 1 * 8)%nat) by lia. assert (X2 : (l + 7 = (l - 8 + 7) + 1 * 8)%nat) by lia.
        rewrite X1, X2, !Nat.div_add by lia. lia.
      * replace (List.length d + z)%nat with ((List.length d - 8 + z) + 1 * 8)%nat in Hz by lia.
        rewrite Nat.mod_add in Hz by lia. assumption.
    + destruct d as [|x d'] eqn:Ed; [apply (IH []); [cbn; lia|assumption]|]. rewrite <- Ed in *.
      assert (Hl : (0 < List.length d)%nat) by (rewrite Ed; cbn; lia). clear Ed.
      pose proof (Nat.div_mod (List.length d + z) 8 ltac:(lia)) as Hd. rewrite Hz, Nat.add_0_r in Hd.
      set (q := ((List.length d + z) / 8)%nat) in *.
      assert (Hq : (1 <= q)%nat) by lia.
      replace z with ((8 - List.length d) + 8 * (q - 1))%nat by lia.
      rewrite repeat_app, app_assoc, blocks8_cons by (rewrite app_length, repeat_length; lia).
      rewrite of_le_app_zeros, blocks8_zeros, blocks8_one by lia. cbn [app]. f_equal. f_equal.
      replace (List.length d + 7)%nat with ((List.length d - 1) + 1 * 8)%nat by lia. rewrite Nat.div_add by lia.
      rewrite (Nat.div_small (List.length d - 1)) by lia. lia.
Qed.

Lemma pad89_blocks d : blocks8 (pad89 d) =
  blocks8 d ++ repeat 0 ((List.length (pad89 d)) / 8 - (List.length d + 7) / 8).
Proof.
  unfold pad89 at 1. set (z := (Nat.max 16 _ - _)%nat).
  assert (L : List.length (pad89 d) = (List.length d + z)%nat) by (unfold pad89; now rewrite app_length, repeat_length).
  rewrite (blocks8_zero_fill (List.length d)); [now rewrite L|lia|]. rewrite <- L. apply pad89_mod.
Qed.

Lemma pad89_length_same d1 d2 : List.length d1 = List.length d2 -> List.length (pad89 d1) = List.length (pad89 d2).
Proof. intros H. unfold pad89. rewrite !app_length, !repeat_length. now rewrite H. Qed.

Lemma DataImit_detects k f d1 d2 : round_functions k f -> Forall u8 d1 -> Forall u8 d2 ->
  List.length d1 = List.length d2 -> differ_once (blocks8 d1) (blocks8 d2) ->
  exists t1 t2, DataImit d1 (Some k) = Ok t1 /\ DataImit d2 (Some k) = Ok t2 /\ t1 <> t2.
Proof.
  intros Hk U1 U2 Hl Hd. eexists _, _. split; [apply (DataImit_ok k f); assumption|]. split; [apply (DataImit_ok k f); assumption|].
  assert (Hf : forall i a, (i < 8)%nat -> a < 2 ^ 32 -> f i a < 2 ^ 32) by (intros; now apply Hk).
  assert (HElt : forall x, x < 2 ^ 64 -> sixteen_rounds f x < 2 ^ 64) by (intros x Hx; now apply (ImitedBlock_ok k f x)).
  assert (HEi : forall x y, x < 2 ^ 64 -> y < 2 ^ 64 -> sixteen_rounds f x = sixteen_rounds f y -> x = y)
    by (intros; eapply sixteen_inj; eassumption).
  assert (B1 : Forall (fun x => x < 2 ^ 64) (blocks8 (pad89 d1))) by (apply blocks8_bound; now apply pad89_whole).
  assert (B2 : Forall (fun x => x < 2 ^ 64) (blocks8 (pad89 d2))) by (apply blocks8_bound; now apply pad89_whole).
  intros H. apply (f_equal of_le) in H.
  rewrite !of_to_le_id in H by (apply (mac_steps_lt _ HElt); [reflexivity|assumption]).
  revert H. apply mac89_detects; try assumption.
  rewrite !pad89_blocks, (pad89_length_same d1 d2 Hl), Hl.
  destruct Hd as (before & p & q & after & -> & -> & Hd).
  exists before, p, q. eexists. split; [now rewrite <- app_assoc|]. split; [now rewrite <- app_assoc|assumption].
Qed.

Lemma pad89_zeros d n : (List.length d + n <= List.length (pad89 d))%nat -> pad89 (d ++ repeat 0 n) = pad89 d.
Proof.
  intros H. unfold pad89 in *. rewrite app_length, repeat_length in *. rewrite <- app_assoc, <- repeat_app. do 2 f_equal.
  set (l := List.length d) in *.
  pose proof (Nat.div_mod (l + 7) 8 ltac:(lia)). pose proof (Nat.mod_upper_bound (l + 7) 8 ltac:(lia)).
  pose proof (Nat.div_mod (l + n + 7) 8 ltac:(lia)). pose proof (Nat.mod_upper_bound (l + n + 7) 8 ltac:(lia)).
  lia.
Qed.

Lemma DataImit_zeros d n k : (List.length d + n <= List.length (pad89 d))%nat ->
  DataImit (d ++ repeat 0 n) k = DataImit d k.
Proof. intros H. unfold DataImit. cbv zeta. now rewrite !pad89_ok, pad89_zeros. Qed.
