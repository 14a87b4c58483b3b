(** Proofs about Kuznyechik on other machines. *)
From Verif Require Import Base Text MagmaModel Streams KuzModel PortModel Lib SpecPort ByteProofs SpecKuz KuzProofs PortProofs.
From Coq Require Import ZifyNat ZifyN ZifyBool.
Local Open Scope N_scope.
Ltac Zify.zify_post_hook ::= idtac.

(** ** Kuznyechik on machines that insist on alignment *)

Lemma KR_misaligned mc a x y : m_strict mc = true -> (a + 1) mod 8 <> 0 ->
  KR_on mc a (Ok (x, y)) = Undef Misaligned.
Proof.
  intros Hs Ha. unfold KR_on. cbn [bind]. unfold KRaw_mem, access. rewrite Hs.
  apply N.eqb_neq in Ha. rewrite Ha. reflexivity.
Qed.

Lemma KL_undef mc stack n u : KL_transform_on mc stack (Undef u) n = Undef u.
Proof. induction n as [|n IH]; [reflexivity|]. exact IH. Qed.

Lemma KL_misaligned mc stack v : m_strict mc = true -> (stack 15%nat + 1) mod 8 <> 0 ->
  KL_on mc stack (Ok v) = Undef Misaligned.
Proof.
  intros Hs Ha. unfold KL_on. destruct v as [x y].
  change (KL_transform_on mc stack (Ok (x, y)) 16)
    with (KL_transform_on mc stack (KR_on mc (stack 15%nat) (Ok (x, y))) 15).
  rewrite KR_misaligned by assumption. apply KL_undef.
Qed.

Lemma kpair_lt x : x < 2 ^ 128 -> fst (kpair x) < 2 ^ 64 /\ snd (kpair x) < 2 ^ 64.
Proof.
  intros H. unfold kpair. cbn [fst snd]. split; [apply N.mod_lt; discriminate|].
  apply N.div_lt_upper_bound; [discriminate|]. exact H.
Qed.

Lemma KS_on_kpair mc x : x < 2 ^ 128 -> KS_on mc (Ok (kpair x)) = Ok (kpair (SpecKuz.S x)).
Proof.
  intros H. rewrite <- KS_kpair by assumption. destruct (kpair_lt x H) as [A B].
  destruct (kpair x). now apply KS_same.
Qed.

Lemma Key_misaligned mc stack h l x : m_strict mc = true -> (stack 15%nat + 1) mod 8 <> 0 ->
  h < 2 ^ 128 -> x < 2 ^ 128 ->
  Key_encrypt_on mc stack (Key_blocks_on mc stack (Ok (kpair h)) l) (Ok (kpair x)) = Undef Misaligned.
Proof.
  intros Hs Ha Hh Hx. unfold Key_encrypt_on.
  assert (E : encryptStep_on mc stack (Ok (kpair x)) (k1 (Key_blocks_on mc stack (Ok (kpair h)) l)) = Undef Misaligned).
  { unfold encryptStep_on, Key_blocks_on. cbn [k1]. unfold KCached. rewrite KXored_kpair by assumption.
    rewrite KS_on_kpair by now apply lxor_lt. now apply KL_misaligned. }
  rewrite E. assert (U : forall b, encryptStep_on mc stack (Undef Misaligned) b = Undef Misaligned).
  { intros b. unfold encryptStep_on. cbn [KXored bind KS_on]. apply KL_undef. }
  now rewrite !U.
Qed.

(** ** Kuznyechik on another byte order *)

Definition kswap (mc : machine) (b : kblock) : kblock := '(x, y) <- b ;; Ok (sw mc x, sw mc y).

Lemma KR_swapped mc a x y : m_strict mc = false ->
  KR_on mc a (Ok (x, y)) = kswap mc (KR (Ok (sw mc x, sw mc y))).
Proof.
  intros Hs. unfold KR_on, KR, kswap, KRaw_mem, KRaw_bytes, KRaw, access. rewrite Hs. cbn [bind andb].
  rewrite !to_mem_8. set (d := skipn 1 _ ++ _).
  assert (L : List.length d = 16%nat).
  { unfold d. rewrite app_length, skipn_length, app_length, !to_le_length. reflexivity. }
  assert (U : Forall u8 d).
  { unfold d. apply Forall_app. split.
    - apply Forall_skipn, Forall_app. split; apply to_le_u8.
    - constructor; [|constructor]. unfold u8, w8. apply N.mod_lt. discriminate. }
  assert (L1 : List.length (firstn 8 d) = 8%nat) by (rewrite firstn_length, L; reflexivity).
  assert (L2 : List.length (firstn 8 (skipn 8 d)) = 8%nat) by (rewrite firstn_length, skipn_length, L; reflexivity).
  rewrite (of_mem_8 mc (firstn 8 d) (Forall_firstn _ _ _ U) L1).
  rewrite (of_mem_8 mc (firstn 8 (skipn 8 d)) (Forall_firstn _ _ _ (Forall_skipn _ _ _ U)) L2). reflexivity.
Qed.

Definition kblock_lt (b : kblock) : Prop := exists x y, b = Ok (x, y) /\ x < 2 ^ 64 /\ y < 2 ^ 64.

Lemma kblock_lt_kpair b : kblock_lt b -> exists x, b = Ok (kpair x) /\ x < 2 ^ 128.
Proof.
  intros (x & y & -> & Hx & Hy). exists (y * 2 ^ 64 + x). split.
  - unfold kpair. rewrite N.div_add_l, N.div_small by (assumption || discriminate).
    rewrite N.add_comm, N.mod_add, N.mod_small by (assumption || discriminate). now rewrite N.add_0_r.
  - change (2 ^ 128) with (2 ^ 64 * 2 ^ 64). nia.
Qed.

Lemma kpair_kblock_lt x : x < 2 ^ 128 -> kblock_lt (Ok (kpair x)).
Proof. intros H. destruct (kpair_lt x H). exists (fst (kpair x)), (snd (kpair x)). now destruct (kpair x). Qed.

Lemma KR_lt b : kblock_lt b -> kblock_lt (KR b).
Proof.
  intros Hb. destruct (kblock_lt_kpair b Hb) as (x & -> & Hx). rewrite KR_kpair by assumption.
  apply kpair_kblock_lt. now apply R_lt.
Qed.

Lemma kswap_lt mc b : kblock_lt b -> kblock_lt (kswap mc b).
Proof. intros (x & y & -> & Hx & Hy). exists (sw mc x), (sw mc y). split; [reflexivity|]. split; now apply sw_lt. Qed.

Lemma kswap_twice mc b : kblock_lt b -> kswap mc (kswap mc b) = b.
Proof. intros (x & y & -> & Hx & Hy). cbn [kswap bind]. now rewrite !sw_twice. Qed.

Lemma KL_transform_swapped mc stack n : m_strict mc = false -> forall b, kblock_lt b ->
  KL_transform_on mc stack b n = kswap mc (KL_transform (kswap mc b) n).
Proof.
  intros Hs. induction n as [|n IH]; intros b Hb.
  - cbn [KL_transform_on KL_transform]. now rewrite kswap_twice.
  - cbn [KL_transform_on KL_transform].
    assert (E : KR_on mc (stack n) b = kswap mc (KR (kswap mc b))).
    { destruct Hb as (x & y & -> & _). now apply KR_swapped. }
    rewrite E, IH by now apply kswap_lt, KR_lt, kswap_lt.
    rewrite kswap_twice by now apply KR_lt, kswap_lt. reflexivity.
Qed.

Lemma KL_swapped mc stack b : m_strict mc = false -> kblock_lt b ->
  KL_on mc stack b = kswap mc (KL (kswap mc b)).
Proof. intros Hs Hb. now apply KL_transform_swapped. Qed.
