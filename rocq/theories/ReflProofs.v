(** Proofs for C96 and C97: blocks whose encryption is cut short by the order of the keys. *)
From Verif Require Import Base Lib Text MagmaModel Streams SpecMagma SpecText SpecMac MagmaProofs MagmaSpecProofs BlockProofs StreamProofs MacProofs WeakProofs.
Local Open Scope N_scope.

Section Refl.
Context (k : lazykey) (f : nat -> N -> N).
Hypothesis Hk : round_functions k f.
Let tr := ptr_transform (Some k).

Lemma fwd_ok x : pair_lt 32 x -> exists y, fwd tr x = Ok y /\ pair_lt 32 y.
Proof. intros Hx. destruct (fwd_rounds tr f x Hk Hx) as [E L]. eexists. split; [exact E|]. now apply pair_lt_flip. Qed.

Lemma bwd_ok x : pair_lt 32 x -> exists y, bwd tr x = Ok y /\ pair_lt 32 y.
Proof. intros Hx. destruct (bwd_rounds tr f x Hk Hx) as [E L]. eexists. split; [exact E|]. now apply pair_lt_flip. Qed.

Lemma bwd_swap x : pair_lt 32 x -> exists a b, bwd tr x = Ok (a, b) /\ pair_lt 32 (b, a) /\ fwd tr (b, a) = Ok (snd x, fst x).
Proof.
  intros Hx. destruct (bwd_ok x Hx) as ([a b] & E & [L1 L2]). exists a, b. split; [exact E|].
  split; [now split|]. destruct x as [c d]. exact (fwd_bwd tr _ _ _ _ E).
Qed.

Lemma fwd_inj x x' y : fwd tr x = Ok y -> fwd tr x' = Ok y -> x = x'.
Proof.
  destruct x, x', y. intros H H'. apply bwd_fwd in H, H'. rewrite H in H'. congruence.
Qed.

(** The blocks that one, two, three groups of rounds take to [y]. *)
Definition back (x : N * N) : N * N := match bwd tr x with Ok (a, b) => (a, b) | _ => (0, 0) end.
Definition turned (x : N * N) : N * N := (snd x, fst x).

Lemma back_ok x : pair_lt 32 x ->
  pair_lt 32 (back x) /\ fwd tr (turned (back x)) = Ok (turned x).
Proof.
  intros Hx. destruct (bwd_swap x Hx) as (a & b & E & [L1 L2] & F). unfold back. rewrite E.
  split; [now split|]. exact F.
Qed.

Lemma back_inj x x' : pair_lt 32 x -> pair_lt 32 x' -> back x = back x' -> x = x'.
Proof.
  intros Hx Hx' H. destruct (back_ok x Hx) as [_ F]. destruct (back_ok x' Hx') as [_ F']. rewrite H, F' in F.
  destruct x, x'. unfold turned in F. cbn [fst snd] in F. congruence.
Qed.

Lemma turned_lt x : pair_lt 32 x -> pair_lt 32 (turned x).
Proof. intros [A B]. now split. Qed.

Lemma encrypted_is_imited x y1 y2 y3 : fwd tr x = Ok y1 -> fwd tr y1 = Ok y2 -> fwd tr y2 = Ok y3 ->
  BlkEncrypted (Ok x) (Some k) = ImitedBlock (Ok x) (Some k) <-> fst y3 = snd y3.
Proof.
  intros E1 E2 E3. unfold BlkEncrypted, ImitedBlock, BlkSwapped. rewrite !BlkForwarded_fwd, BlkBackwarded_bwd.
  cbn [bind]. fold tr. rewrite E1. cbn [bind]. rewrite E2. cbn [bind]. rewrite E3. cbn [bind].
  destruct y2 as [a b], y3 as [c d]. cbn [fst snd]. pose proof (bwd_fwd tr _ _ _ _ E3) as B. split.
  - intros H. destruct (bwd tr (c, d)) as [[z1 z2]| | |] eqn:E4; cbn [bind] in H; try discriminate H.
    injection H as -> ->. apply fwd_bwd in E4. rewrite E3 in E4. congruence.
  - intros ->. rewrite B. reflexivity.
Qed.

Definition cut_short (h : N) : N * N := turned (back (back (back (h, h)))).

Lemma diag_lt h : h < 2 ^ 32 -> pair_lt 32 (h, h). Proof. now split. Qed.

Lemma cut_short_ok h : h < 2 ^ 32 -> pair_lt 32 (cut_short h) /\
  BlkEncrypted (Ok (cut_short h)) (Some k) = ImitedBlock (Ok (cut_short h)) (Some k).
Proof.
  intros Hh. destruct (back_ok _ (diag_lt h Hh)) as [L1 F1]. destruct (back_ok _ L1) as [L2 F2].
  destruct (back_ok _ L2) as [L3 F3]. split; [now apply turned_lt|].
  apply (proj2 (encrypted_is_imited _ _ _ _ F3 F2 F1)). reflexivity.
Qed.

Lemma cut_short_inj h h' : h < 2 ^ 32 -> h' < 2 ^ 32 -> cut_short h = cut_short h' -> h = h'.
Proof.
  intros Hh Hh' E. destruct (back_ok _ (diag_lt h Hh)) as [L1 _]. destruct (back_ok _ L1) as [L2 _].
  destruct (back_ok _ (diag_lt h' Hh')) as [L1' _]. destruct (back_ok _ L1') as [L2' _].
  assert (E' : back (back (back (h, h))) = back (back (back (h', h')))).
  { unfold cut_short, turned in E. destruct (back (back (back (h, h)))), (back (back (back (h', h')))).
    cbn [fst snd] in E. congruence. }
  apply back_inj in E'; [|assumption..]. apply back_inj in E'; [|assumption..].
  apply back_inj in E'; [|now apply diag_lt..]. congruence.
Qed.

Lemma cut_short_all x : pair_lt 32 x ->
  BlkEncrypted (Ok x) (Some k) = ImitedBlock (Ok x) (Some k) -> exists h, h < 2 ^ 32 /\ x = cut_short h.
Proof.
  intros Hx H. destruct (fwd_ok x Hx) as (y1 & E1 & L1). destruct (fwd_ok y1 L1) as (y2 & E2 & L2).
  destruct (fwd_ok y2 L2) as (y3 & E3 & L3). apply (encrypted_is_imited x y1 y2 y3 E1 E2 E3) in H.
  destruct y3 as [h h']. cbn [fst snd] in H. subst h'. exists h. destruct L3 as [Hh _]. split; [exact Hh|].
  destruct (back_ok _ (diag_lt h Hh)) as [M1 F1]. destruct (back_ok _ M1) as [M2 F2].
  destruct (back_ok _ M2) as [_ F3].
  rewrite <- (fwd_inj _ _ _ E3 F1) in F2. rewrite <- (fwd_inj _ _ _ E2 F2) in F3. exact (fwd_inj _ _ _ E1 F3).
Qed.

Theorem reflection :
  exists P : N -> N * N,
    (forall h, h < 2 ^ 32 -> fst (P h) < 2 ^ 32 /\ snd (P h) < 2 ^ 32 /\
       BlkEncrypted (Ok (P h)) (Some k) = ImitedBlock (Ok (P h)) (Some k)) /\
    (forall h h', h < 2 ^ 32 -> h' < 2 ^ 32 -> P h = P h' -> h = h') /\
    (forall x, fst x < 2 ^ 32 -> snd x < 2 ^ 32 ->
       BlkEncrypted (Ok x) (Some k) = ImitedBlock (Ok x) (Some k) -> exists h, h < 2 ^ 32 /\ x = P h).
Proof.
  exists cut_short. split; [|split].
  - intros h Hh. destruct (cut_short_ok h Hh) as [[A B] C]. auto.
  - exact cut_short_inj.
  - intros x A B. apply cut_short_all. now split.
Qed.

(** ** Key words that read the same backwards *)

Hypothesis Pal : forall i, (0 <= i <= 7)%Z -> key_data k (7 - i)%Z = key_data k i.

Lemma pal_bwd x : bwd tr x = fwd tr x.
Proof. symmetry. apply fwd_eq_bwd. intros v i Hi. unfold tr. now rewrite (palindrome_transform k Pal v i Hi). Qed.

Lemma fixed_iff x y1 y2 : pair_lt 32 y2 -> fwd tr x = Ok y1 -> fwd tr y1 = Ok y2 ->
  BlkEncrypted (Ok x) (Some k) = Ok x <-> fst y2 = snd y2.
Proof.
  intros L2 E1 E2. destruct (fwd_ok y2 L2) as (y3 & E3 & L3). destruct (fwd_ok y3 L3) as (y4 & E4 & _).
  unfold BlkEncrypted, BlkSwapped. rewrite !BlkForwarded_fwd, BlkBackwarded_bwd. cbn [bind]. fold tr.
  rewrite E1. cbn [bind]. rewrite E2. cbn [bind]. rewrite E3. cbn [bind]. rewrite pal_bwd, E4.
  destruct x as [a b], y1 as [c d], y2 as [e g], y4 as [p q]. cbn [bind fst snd].
  pose proof (bwd_fwd tr _ _ _ _ E2) as B2. pose proof (bwd_fwd tr _ _ _ _ E1) as B1. rewrite pal_bwd in B1, B2. split.
  - intros H. injection H as -> ->. pose proof (fwd_inj _ _ _ E4 B1) as H1. subst y3.
    pose proof (fwd_inj _ _ _ E3 B2) as H2. congruence.
  - intros ->. rewrite B2 in E3. injection E3 as <-. rewrite B1 in E4. injection E4 as -> ->. reflexivity.
Qed.

Theorem fixed_points :
  exists P : N -> N * N,
    (forall h, h < 2 ^ 32 -> fst (P h) < 2 ^ 32 /\ snd (P h) < 2 ^ 32 /\
       BlkEncrypted (Ok (P h)) (Some k) = Ok (P h)) /\
    (forall h h', h < 2 ^ 32 -> h' < 2 ^ 32 -> P h = P h' -> h = h') /\
    (forall x, fst x < 2 ^ 32 -> snd x < 2 ^ 32 ->
       BlkEncrypted (Ok x) (Some k) = Ok x -> exists h, h < 2 ^ 32 /\ x = P h).
Proof.
  exists (fun h => turned (back (back (h, h)))). split; [|split].
  - intros h Hh. destruct (back_ok _ (diag_lt h Hh)) as [L1 F1]. destruct (back_ok _ L1) as [L2 F2].
    destruct (turned_lt _ L2) as [A B]. split; [exact A|]. split; [exact B|].
    apply (proj2 (fixed_iff _ _ _ (diag_lt h Hh) F2 F1)). reflexivity.
  - intros h h' Hh Hh' E. destruct (back_ok _ (diag_lt h Hh)) as [L1 _].
    destruct (back_ok _ (diag_lt h' Hh')) as [L1' _].
    assert (E' : back (back (h, h)) = back (back (h', h'))).
    { unfold turned in E. destruct (back (back (h, h))), (back (back (h', h'))). cbn [fst snd] in E. congruence. }
    apply back_inj in E'; [|assumption..]. apply back_inj in E'; [|now apply diag_lt..]. congruence.
  - intros x A B H. assert (Hx : pair_lt 32 x) by now split.
    destruct (fwd_ok x Hx) as (y1 & E1 & L1). destruct (fwd_ok y1 L1) as (y2 & E2 & L2).
    apply (fixed_iff x y1 y2 L2 E1 E2) in H. destruct y2 as [h h']. cbn [fst snd] in H. subst h'. exists h.
    destruct L2 as [Hh _]. split; [exact Hh|].
    destruct (back_ok _ (diag_lt h Hh)) as [M1 F1]. destruct (back_ok _ M1) as [M2 F2].
    rewrite <- (fwd_inj _ _ _ E2 F1) in F2. exact (fwd_inj _ _ _ E1 F2).
Qed.
End Refl.

Lemma string_fixed s : List.length s = 64%nat -> Forall hex_digit s ->
  (forall i, (i < 8)%nat -> key_word (number s) (7 - i) = key_word (number s) i) ->
  exists P : N -> N * N,
    (forall h, h < 2 ^ 32 -> fst (P h) < 2 ^ 32 /\ snd (P h) < 2 ^ 32 /\
       BlkEncrypted (Ok (P h)) (Some (LazyKey_string s)) = Ok (P h)) /\
    (forall h h', h < 2 ^ 32 -> h' < 2 ^ 32 -> P h = P h' -> h = h') /\
    (forall x, fst x < 2 ^ 32 -> snd x < 2 ^ 32 ->
       BlkEncrypted (Ok x) (Some (LazyKey_string s)) = Ok x -> exists h, h < 2 ^ 32 /\ x = P h).
Proof.
  intros Hl Hs P. apply (fixed_points _ (fun i => g (key_word (number s) i))).
  - now apply hex_round_functions.
  - now apply string_palindrome.
Qed.
