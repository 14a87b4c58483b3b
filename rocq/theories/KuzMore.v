(** Proofs for PropKuzMore.v. *)
From Verif Require Import Base Text MagmaModel KuzModel SpecText SpecMagma SpecModes SpecKuz SpecIter SpecFail.
From Verif Require Import Lib KuzProofs KuzStreamProofs KuzFacts.
From Coq Require Import Lia.
Local Open Scope N_scope.

Lemma xor_pair_shuffle a b k : xor_pair (xor_pair a k) (xor_pair b k) = xor_pair a b.
Proof.
  destruct a, b, k. unfold xor_pair. cbn [fst snd].
  assert (H : forall x y z, N.lxor (N.lxor x z) (N.lxor y z) = N.lxor x y).
  { intros x y z. rewrite N.lxor_assoc, (N.lxor_comm z), N.lxor_assoc, N.lxor_nilpotent, N.lxor_0_r.
    reflexivity. }
  now rewrite !H.
Qed.

Lemma ctr_reuse {I J} (ops : iter_ops I) (ops' : iter_ops J) k E iv p q n v w :
  kuz_enciphers k E -> iv < 2 ^ 64 -> block_at ops p n = Ok v -> block_at ops' q n = Ok w ->
  exists c d, block_at (ItCTR_ops ops k) (StCTR_iter p iv) n = Ok c /\
    block_at (ItCTR_ops ops' k) (StCTR_iter q iv) n = Ok d /\ xor_pair c d = xor_pair v w.
Proof.
  intros HE Hiv Hv Hw. rewrite !(ctr_block _ k E) by assumption. rewrite Hv, Hw. cbn [bind].
  do 2 eexists. split; [reflexivity|]. split; [reflexivity|]. apply xor_pair_shuffle.
Qed.

(** Flipping bits of a ciphertext block flips the same bits of the plaintext block. *)
Lemma ctr_malleable {I J} (ops : iter_ops I) (ops' : iter_ops J) k E iv p q n c d :
  kuz_enciphers k E -> iv < 2 ^ 64 -> block_at ops p n = Ok c -> block_at ops' q n = Ok (xor_pair c d) ->
  exists v, block_at (ItCTR_ops ops k) (StCTR_iter p iv) n = Ok v /\
    block_at (ItCTR_ops ops' k) (StCTR_iter q iv) n = Ok (xor_pair v d).
Proof.
  intros HE Hiv Hv Hw. rewrite !(ctr_block _ k E) by assumption. rewrite Hv, Hw. cbn [bind].
  eexists. split; [reflexivity|]. f_equal. destruct c, d, (kpair (E (counter 128 iv (N.of_nat n)))).
  unfold xor_pair. cbn [fst snd]. f_equal; rewrite !N.lxor_assoc; f_equal; apply N.lxor_comm.
Qed.

Lemma ctr_fails {I} (ops : iter_ops I) k E iv p n e : kuz_enciphers k E -> iv < 2 ^ 64 ->
  (fails_at (ItCTR_ops ops k) (StCTR_iter p iv) n e <-> fails_at ops p n e).
Proof.
  intros HE Hiv. unfold fails_at.
  assert (B : forall i, (exists v, block_at (ItCTR_ops ops k) (StCTR_iter p iv) i = Ok v) <->
                        (exists v, block_at ops p i = Ok v)).
  { intros i. rewrite (ctr_block _ k E) by assumption.
    destruct (block_at ops p i); cbn [bind]; split; intros [v Hv]; try discriminate; eauto. }
  assert (T : block_at (ItCTR_ops ops k) (StCTR_iter p iv) n = Throw e <-> block_at ops p n = Throw e).
  { rewrite (ctr_block _ k E) by assumption.
    destruct (block_at ops p n); cbn [bind]; split; intros Hv; try discriminate; congruence. }
  rewrite !ctr_last, !ctr_size by exact Hiv.
  assert (C : (forall i, (i < n)%nat ->
    (exists v, block_at (ItCTR_ops ops k) (StCTR_iter p iv) i = Ok v) /\
      last_at (ItCTR_ops ops k) (StCTR_iter p iv) i = Ok false) <->
    (forall i, (i < n)%nat -> (exists v, block_at ops p i = Ok v) /\ last_at ops p i = Ok false)).
  { split; intros H i Hi; specialize (H i Hi); rewrite ctr_last in * by exact Hiv;
      (split; [now apply B|tauto]). }
  rewrite C.
  assert (D : (exists v, last_at ops p n = Ok true /\
       block_at (ItCTR_ops ops k) (StCTR_iter p iv) n = Ok v /\ size_at ops p n = Throw e) <->
     (exists v, last_at ops p n = Ok true /\ block_at ops p n = Ok v /\ size_at ops p n = Throw e)).
  { specialize (B n). split; intros (v & H1 & H2 & H3).
    - destruct B as [B _]. destruct B as [u Hu]; eauto.
    - destruct B as [_ B]. destruct B as [u Hu]; eauto. }
  rewrite D.
  assert (F : (exists l, last_at ops p n = Ok l /\
       block_at (ItCTR_ops ops k) (StCTR_iter p iv) n = Throw e) <->
     (exists l, last_at ops p n = Ok l /\ block_at ops p n = Throw e)).
  { split; intros (l & H1 & H2); exists l; split; auto; now apply T. }
  rewrite F. tauto.
Qed.

Lemma ask_shift {I A} (ops : iter_ops I) (f : I -> res A) i q n :
  it_next ops i = q -> ask ops f (Ok (Some i)) (Datatypes.S n) = ask ops f q n.
Proof.
  intros <-. unfold ask. cbn [bind advance deref]. now destruct (it_next ops i).
Qed.

Lemma loop_fails {I} (ops : iter_ops I) k e : forall n p blk fuel, fails_at ops (Ok p) n e -> (n < fuel)%nat ->
  kimit_loop fuel ops k p blk = Throw e \/
  exists i b, kimit_loop fuel ops k p blk = Ok (Some i, b) /\
    (it_value ops i = Throw e \/ exists v, it_value ops i = Ok v /\ it_size ops i = Throw e).
Proof.
  induction n as [|n IH]; intros p blk fuel [H1 H2] Hf; (destruct fuel as [|fuel]; [lia|]).
  - unfold last_at, block_at, size_at, ask in H2. cbn [bind advance] in H2. cbn [kimit_loop].
    destruct p as [i|]; cbn [deref bind] in *;
      [|destruct H2 as [H2|[(l & H2 & _)|(v & H2 & _)]]; discriminate].
    destruct H2 as [H2|[(l & H2 & H3)|(v & H2 & H3 & H4)]]; rewrite H2; cbn [bind].
    + now left.
    + destruct l; [|left; now rewrite H3].
      right. exists i, blk. split; [reflexivity|now left].
    + right. exists i, blk. split; [reflexivity|]. right. now exists v.
  - cbn [kimit_loop]. pose proof (H1 0%nat ltac:(lia)) as [[v Hv] Hl].
    unfold last_at, block_at, ask in Hv, Hl. cbn [bind advance] in Hv, Hl.
    destruct p as [i|]; cbn [deref bind] in *; [|discriminate].
    rewrite Hl, Hv. cbn [bind]. destruct (it_next ops i) as [q|x| |] eqn:Eq; cbn [bind].
    + apply IH; [|lia]. split.
      * intros j Hj. specialize (H1 (Datatypes.S j) ltac:(lia)). unfold block_at, last_at in *.
        now rewrite !(ask_shift ops _ i _ _ Eq) in H1.
      * unfold block_at, last_at, size_at in *. now rewrite !(ask_shift ops _ i _ _ Eq) in H2.
    + unfold block_at, last_at, size_at in H2. rewrite !(ask_shift ops _ i _ _ Eq) in H2.
      unfold ask in H2. cbn [bind] in H2.
      destruct H2 as [H2|[(l & H2 & _)|(z & H2 & _)]]; try discriminate. left. congruence.
    + unfold block_at, last_at, size_at in H2. rewrite !(ask_shift ops _ i _ _ Eq) in H2.
      unfold ask in H2. cbn [bind] in H2.
      destruct H2 as [H2|[(l & H2 & _)|(z & H2 & _)]]; discriminate.
    + unfold block_at, last_at, size_at in H2. rewrite !(ask_shift ops _ i _ _ Eq) in H2.
      unfold ask in H2. cbn [bind] in H2.
      destruct H2 as [H2|[(l & H2 & _)|(z & H2 & _)]]; discriminate.
Qed.

Lemma kimit_fails {I} (ops : iter_ops I) k m e p n fuel : fails_at ops p n e -> (n < fuel)%nat ->
  KImit fuel m ops p k = Throw e.
Proof.
  intros H Hf. unfold KImit. destruct p as [p|x|u|].
  - cbn [bind]. destruct (loop_fails ops k e n p KRaw0 fuel H Hf) as [->|(i & b & -> & Hi)]; [reflexivity|].
    cbn [bind deref]. destruct Hi as [-> | (v & -> & Hz)]; cbn [bind]; [reflexivity|]. now rewrite Hz.
  - destruct H as [_ H]. unfold last_at, ask in H. cbn [bind] in *.
    destruct H as [H|[(l & H & _)|(v & H & _)]]; try discriminate. congruence.
  - destruct H as [_ H]. unfold last_at, ask in H. cbn [bind] in *.
    destruct H as [H|[(l & H & _)|(v & H & _)]]; discriminate.
  - destruct H as [_ H]. unfold last_at, ask in H. cbn [bind] in *.
    destruct H as [H|[(l & H & _)|(v & H & _)]]; discriminate.
Qed.
