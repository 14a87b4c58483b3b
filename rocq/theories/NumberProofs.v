(** Proofs about the parsers of Text.v against SpecNumber.v. *)
From Verif Require Import Base Text MagmaModel KuzModel SpecText SpecNumber Lib TextProofs KuzFacts.
From Coq Require Import ZifyNat ZifyN ZifyBool Lia.
Local Open Scope N_scope.
Ltac Zify.zify_post_hook ::= idtac.

Lemma space_isspace c : space c <-> isspace c = true.
Proof. unfold space, isspace. lia. Qed.

Lemma skip_ws_app w t : Forall space w -> (forall c r, t = c :: r -> ~ space c) -> skip_ws (w ++ t) = t.
Proof.
  intros Hw Ht. induction Hw as [|c w Hc _ IH]; cbn [app].
  - destruct t as [|c r]; [reflexivity|]. cbn [skip_ws]. destruct (isspace c) eqn:E; [|reflexivity].
    apply space_isspace in E. now destruct (Ht c r eq_refl).
  - cbn [skip_ws]. apply space_isspace in Hc. now rewrite Hc.
Qed.

Lemma skip_ws_split s : exists w, s = w ++ skip_ws s /\ Forall space w /\ forall c r, skip_ws s = c :: r -> ~ space c.
Proof.
  induction s as [|c s IH]; [exists []; repeat split; [constructor|discriminate]|]. cbn [skip_ws].
  destruct (isspace c) eqn:E.
  - destruct IH as (w & E1 & E2 & E3). exists (c :: w). split; [now rewrite E1 at 1|]. split; [|exact E3].
    constructor; [now apply space_isspace|exact E2].
  - exists []. split; [reflexivity|]. split; [constructor|]. intros x r [= <- <-] H. apply space_isspace in H. congruence.
Qed.

Lemma digits_split s : exists d r, s = d ++ r /\ Forall hex_digit d /\ stops r.
Proof.
  induction s as [|c s (d & r & E & Hd & Hr)]; [exists [], []; repeat split; constructor|].
  destruct (digit c) as [v|] eqn:Ec.
  - exists (c :: d), r. split; [now rewrite E|]. split; [|exact Hr]. constructor; [unfold hex_digit; congruence|exact Hd].
  - exists [], (c :: s). split; [reflexivity|]. split; [constructor|]. cbn [stops]. unfold hex_digit. tauto.
Qed.

Lemma scan_digits_run d r : Forall hex_digit d -> stops r ->
  scan_digits None (d ++ r) = match d with [] => None | _ => Some (number d) end.
Proof.
  intros Hd Hr. destruct Hd as [|c d Hc Hd]; [now apply scan_digits_stop|].
  cbn [app scan_digits]. rewrite hex_digit_hexval by exact Hc. now rewrite scan_digits_app.
Qed.

Lemma stops_iff r : stops r <-> forall c t, r = c :: t -> ~ hex_digit c.
Proof.
  destruct r as [|c t]; cbn [stops].
  - split; [discriminate|trivial].
  - split; [intros H x y [= <- <-]; exact H|intros H; now apply (H c t)].
Qed.

Lemma x_not_digit c : c = 120 \/ c = 88 -> ~ hex_digit c.
Proof. intros [->| ->] H; now apply H. Qed.

Lemma zero_digit : hex_digit 48.
Proof. discriminate. Qed.

Lemma take_sign_digit c r : hex_digit c -> take_sign (c :: r) = (false, c :: r).
Proof. intros Hc. apply hex_digit_range in Hc. cbn [take_sign]. destruct (N.eqb_spec c 45); [lia|]. destruct (N.eqb_spec c 43); [lia|]. reflexivity. Qed.

(** The text behind the sign. *)
Definition unsigned_text (t : str) (v : N) : Prop :=
  exists prefix digits rest, t = prefix ++ digits ++ rest /\
    (prefix = [] \/ prefix = [48; 120] \/ prefix = [48; 88]) /\
    digits <> [] /\ Forall hex_digit digits /\ stops rest /\
    (prefix = [] -> digits = [48] -> forall x c r, rest = x :: c :: r -> x = 120 \/ x = 88 -> ~ hex_digit c) /\
    v = number digits.

Lemma scan_hex_iff t v : scan_hex t = Some v <-> unsigned_text t v.
Proof.
  assert (P : forall x r, x = 120 \/ x = 88 -> scan_hex (48 :: x :: r) =
    match scan_digits None r with Some v => Some v | None => Some 0 end).
  { intros x r Hx. cbn [scan_hex]. change (48 =? 48) with true.
    replace ((x =? 120) || (x =? 88)) with true by lia. reflexivity. }
  assert (Q : forall d r, Forall hex_digit d -> stops r ->
    (d = [48] -> forall x y, r = x :: y -> ~ (x = 120 \/ x = 88)) ->
    scan_hex (d ++ r) = scan_digits None (d ++ r)).
  { intros d r Hd Hr Hn. destruct d as [|a [|b d]]; cbn [app].
    - destruct r as [|a [|b r]]; [reflexivity|reflexivity|]. cbn [scan_hex].
      destruct (N.eqb_spec a 48) as [->|]; [|reflexivity]. cbn [stops] in Hr. destruct Hr. exact zero_digit.
    - destruct r as [|b r]; [reflexivity|]. cbn [scan_hex]. destruct (N.eqb_spec a 48) as [->|]; [|reflexivity].
      specialize (Hn eq_refl b r eq_refl). replace ((b =? 120) || (b =? 88)) with false by lia. reflexivity.
    - inversion Hd as [|? ? _ H1]; subst. inversion H1 as [|? ? Hb _]; subst.
      assert (b <> 120 /\ b <> 88) by (split; intros ->; now apply Hb).
      cbn [scan_hex]. replace ((b =? 120) || (b =? 88)) with false by lia. now rewrite andb_false_r. }
  split.
  - intros H. destruct (digits_split t) as (d & r & E & Hd & Hr).
    assert (D : (d = [48] /\ exists x y, r = x :: y /\ (x = 120 \/ x = 88)) \/
                (d = [48] -> forall x y, r = x :: y -> ~ (x = 120 \/ x = 88))).
    { destruct r as [|x y]; [right; intros _ x y; discriminate|].
      assert (Dx : (x = 120 \/ x = 88) \/ ~ (x = 120 \/ x = 88)) by lia.
      destruct Dx as [Hx|Hx]; [|right; intros _ ? ? [= <- <-]; exact Hx].
      destruct d as [|a [|b d]]; [right; discriminate| |right; discriminate].
      destruct (N.eq_dec a 48) as [->|Ha]; [|right; intros [= ->]; congruence].
      left. split; [reflexivity|]. now exists x, y. }
    destruct D as [(-> & x & y & -> & Hx)|D].
    + subst t. cbn [app] in *. rewrite P in H by exact Hx.
      destruct (digits_split y) as (d & r & -> & Hd' & Hr'). rewrite scan_digits_run in H by assumption.
      destruct d as [|a d].
      * injection H as <-. exists [], [48], (x :: r). split; [reflexivity|]. split; [now left|]. split; [discriminate|].
        split; [exact Hd|]. split; [exact Hr|]. split; [|reflexivity].
        intros _ _ ? c r' [= <- ->] _. exact Hr'.
      * injection H as <-. exists [48; x], (a :: d), r. split; [reflexivity|].
        split; [|split; [discriminate|split; [exact Hd'|split; [exact Hr'|split; [discriminate|reflexivity]]]]].
        right. destruct Hx as [->| ->]; [now left|now right].
    + rewrite E, Q, scan_digits_run in H by assumption. destruct d as [|a d]; [discriminate|]. injection H as <-.
      exists [], (a :: d), r. split; [exact E|]. split; [now left|]. split; [discriminate|].
      split; [exact Hd|]. split; [exact Hr|]. split; [|reflexivity].
      intros _ Ed x c r' -> Hx. destruct (D Ed x (c :: r') eq_refl Hx).
  - intros (p & d & r & -> & Hp & Hne & Hd & Hr & Hz & ->).
    assert (S : scan_digits None (d ++ r) = Some (number d)) by (rewrite scan_digits_run by assumption; now destruct d).
    destruct Hp as [->|Hp].
    + cbn [app]. 
      assert (D : (d = [48] /\ exists x y, r = x :: y /\ (x = 120 \/ x = 88)) \/
                (d = [48] -> forall x y, r = x :: y -> ~ (x = 120 \/ x = 88))).
      { destruct r as [|x y]; [right; intros _ x y; discriminate|].
        assert (Dx : (x = 120 \/ x = 88) \/ ~ (x = 120 \/ x = 88)) by lia.
        destruct Dx as [Hx|Hx]; [|right; intros _ ? ? [= <- <-]; exact Hx].
        destruct d as [|a [|b d]]; [right; discriminate| |right; discriminate].
        destruct (N.eq_dec a 48) as [->|Ha]; [|right; intros [= ->]; congruence].
        left. split; [reflexivity|]. now exists x, y. }
      destruct D as [(-> & x & y & -> & Hx)|D].
      * cbn [app]. rewrite P by exact Hx. rewrite scan_digits_stop; [reflexivity|].
        destruct y as [|c y]; [exact I|]. now apply (Hz eq_refl eq_refl x c y).
      * now rewrite Q.
    + assert (Hx : exists x, p = [48; x] /\ (x = 120 \/ x = 88)) by (destruct Hp as [->| ->]; eexists; eauto).
      destruct Hx as (x & -> & Hx). cbn [app]. rewrite P by exact Hx. now rewrite S.
Qed.

Lemma sign_iff t neg v : (let (n, r) := take_sign t in n = neg /\ scan_hex r = Some v) <->
  exists sign u, t = sign ++ u /\
    ((sign = [] /\ neg = false) \/ (sign = [43] /\ neg = false) \/ (sign = [45] /\ neg = true)) /\ unsigned_text u v.
Proof.
  assert (U : forall u v, unsigned_text u v -> exists c r, u = c :: r /\ hex_digit c).
  { intros u v0 (p & d & r & -> & Hp & Hne & Hd & _). destruct Hp as [->|[->| ->]].
    - destruct d as [|c d]; [congruence|]. inversion Hd; subst. cbn [app]. eauto.
    - cbn [app]. eexists. eexists. split; [reflexivity|exact zero_digit].
    - cbn [app]. eexists. eexists. split; [reflexivity|exact zero_digit]. }
  split.
  - destruct t as [|c r]; cbn [take_sign]; [intros [_ H]; discriminate|].
    destruct (N.eqb_spec c 45) as [->|H1]; [|destruct (N.eqb_spec c 43) as [->|H2]]; intros [<- H]; apply scan_hex_iff in H.
    + exists [45], r. split; [reflexivity|]. split; [tauto|exact H].
    + exists [43], r. split; [reflexivity|]. split; [tauto|exact H].
    + exists [], (c :: r). split; [reflexivity|]. split; [tauto|exact H].
  - intros (sg & u & -> & Hs & Hu). destruct Hs as [[-> ->]|[[-> ->]|[-> ->]]]; cbn [app].
    + destruct (U u v Hu) as (c & r & -> & Hc). rewrite take_sign_digit by exact Hc. split; [reflexivity|now apply scan_hex_iff].
    + cbn [take_sign]. split; [reflexivity|now apply scan_hex_iff].
    + cbn [take_sign]. split; [reflexivity|now apply scan_hex_iff].
Qed.

Lemma reads_iff s neg v : reads s neg v <-> let (n, r) := take_sign (skip_ws s) in n = neg /\ scan_hex r = Some v.
Proof.
  rewrite sign_iff. split.
  - intros H. destruct H as [w sg p d r neg Hw Hs Hp Hne Hd Hr Hz].
    exists sg, (p ++ d ++ r). split.
    + apply skip_ws_app; [exact Hw|]. intros c t E Hc.
      assert (Hf : hex_digit c \/ c = 43 \/ c = 45).
      { destruct Hs as [[-> _]|[[-> _]|[-> _]]]; cbn [app] in E; [|injection E as <- _; tauto|injection E as <- _; tauto].
        left. destruct Hp as [->|[->| ->]]; cbn [app] in E; [|injection E as <- _; exact zero_digit|injection E as <- _; exact zero_digit].
        destruct d as [|x d]; [congruence|]. injection E as <- _. now inversion Hd. }
      destruct Hc as [->|Hc]; [destruct Hf as [Hf|Hf]; [now apply Hf|lia]|].
      destruct Hf as [Hf|Hf]; [|lia]. apply hex_digit_range in Hf. lia.
    + split; [exact Hs|]. exists p, d, r. repeat (split; [assumption || reflexivity || (apply stops_iff; assumption)|]). reflexivity.
  - intros (sg & u & E & Hs & p & d & r & -> & Hp & Hne & Hd & Hr & Hz & ->).
    destruct (skip_ws_split s) as (w & Ew & Hw & _). rewrite Ew, E.
    apply Reads; try assumption. now apply stops_iff.
Qed.

Lemma reads_function s neg v neg' v' : reads s neg v -> reads s neg' v' -> neg = neg' /\ v = v'.
Proof.
  rewrite !reads_iff. destruct (take_sign (skip_ws s)) as [n r]. intros [<- E] [<- E']. split; [reflexivity|congruence].
Qed.

Lemma reads_lt s neg v : reads s neg v -> v < 16 ^ len s.
Proof.
  intros H. destruct H as [w sg p d r neg _ _ _ _ _ _ _]. eapply N.lt_le_trans; [apply number_lt|].
  apply N.pow_le_mono_r; [discriminate|]. unfold len. rewrite !app_length. lia.
Qed.

Lemma stoull_iff s : len s <= 16 ->
  (forall n, stoull16 s = Ok n <-> means 64 s n) /\
  (stoull16 s = Throw InvalidArgument <-> forall neg v, ~ reads s neg v) /\
  ((exists n, stoull16 s = Ok n) \/ stoull16 s = Throw InvalidArgument).
Proof.
  intros Hl. unfold means. setoid_rewrite reads_iff. 
  assert (B : forall neg v, reads s neg v -> v < 2 ^ 64).
  { intros neg v H. apply reads_lt in H. eapply N.lt_le_trans; [exact H|]. change (2 ^ 64) with (16 ^ 16).
    apply N.pow_le_mono_r; [discriminate|exact Hl]. }
  setoid_rewrite reads_iff in B. unfold stoull16. destruct (take_sign (skip_ws s)) as [neg r].
  destruct (scan_hex r) as [v|] eqn:E.
  - specialize (B neg v (conj eq_refl eq_refl)). destruct (N.leb_spec (2 ^ 64) v) as [H|_]; [lia|]. repeat split.
    + intros [= <-]. exists neg, v. repeat split. 
    + intros (neg' & v' & [<- [= <-]] & ->). reflexivity.
    + discriminate.
    + intros H. now destruct (H neg v).
    + left. eauto.
  - repeat split; try discriminate.
    + intros (neg' & v' & [_ H] & _). discriminate.
    + intros _ neg' v' [_ H]. discriminate.
    + now right.
Qed.

Lemma extract_iff s : len s <= 8 ->
  (forall n, extract_hex32 s = Ok n <-> means 32 s n \/ ((forall neg v, ~ reads s neg v) /\ ~ Forall space s /\ n = 0)) /\
  (forall u, extract_hex32 s = Undef u <-> Forall space s /\ u = Uninit) /\
  (forall e, extract_hex32 s <> Throw e).
Proof.
  intros Hl. unfold means.
  assert (B : forall neg v, reads s neg v -> v < 2 ^ 32).
  { intros neg v H. apply reads_lt in H. eapply N.lt_le_trans; [exact H|]. change (2 ^ 32) with (16 ^ 8).
    apply N.pow_le_mono_r; [discriminate|exact Hl]. }
  destruct (skip_ws_split s) as (w & Ew & Hw & Hns).
  assert (F : Forall space s <-> skip_ws s = []).
  { split.
    - intros H. destruct (skip_ws s) as [|c r]; [reflexivity|]. exfalso. apply (Hns c r eq_refl).
      rewrite Ew in H. apply Forall_app in H. destruct H as [_ H]. now inversion H.
    - intros H. rewrite H, app_nil_r in Ew. now rewrite Ew. }
  setoid_rewrite F. setoid_rewrite reads_iff. setoid_rewrite reads_iff in B. unfold extract_hex32.
  destruct (skip_ws s) as [|c t] eqn:Es.
  { cbn [take_sign scan_hex scan_digits]. repeat split; try discriminate.
    - intros [(? & ? & [_ H] & _)|(_ & H & _)]; [discriminate|now destruct H].
    - now injection H as <-.
    - intros [_ ->]. reflexivity. }
  destruct (take_sign (c :: t)) as [neg r]. destruct (scan_hex r) as [v|] eqn:E.
  - specialize (B neg v (conj eq_refl eq_refl)). destruct (N.leb_spec (2 ^ 32) v) as [H|_]; [lia|]. repeat split; try discriminate.
    + intros [= <-]. left. exists neg, v. repeat split.
    + intros [(neg' & v' & [<- [= <-]] & ->)|(H & _)]; [reflexivity|]. now destruct (H neg v).
    + intros [H _]. discriminate.
  - repeat split; try discriminate.
    + intros [= <-]. right. repeat split; [|discriminate]. intros ? ? [_ H]. discriminate.
    + intros [(? & ? & [_ H] & _)|(_ & _ & ->)]; [discriminate|reflexivity].
    + intros [H _]. discriminate.
Qed.

Lemma w32_means s n : len s <= 8 -> (exists k, means 64 s k /\ n = w32 k) <-> means 32 s n.
Proof.
  intros Hl.
  assert (B : forall neg v, reads s neg v -> v < 2 ^ 32).
  { intros neg v H. apply reads_lt in H. eapply N.lt_le_trans; [exact H|]. change (2 ^ 32) with (16 ^ 8).
    apply N.pow_le_mono_r; [discriminate|exact Hl]. }
  assert (C : forall (neg : bool) v, v < 2 ^ 32 -> w32 (if neg then (2 ^ 64 - v) mod 2 ^ 64 else v) =
                           if neg then (2 ^ 32 - v) mod 2 ^ 32 else v).
  { intros neg v Hv. unfold w32. destruct neg; [|now apply N.mod_small].
    destruct (N.eq_dec v 0) as [->|Hz]; [reflexivity|]. change (2 ^ 64) with (2 ^ 32 * 2 ^ 32) at 1 2. 
    rewrite (N.mod_small (_ - v)) by lia.
    replace (2 ^ 32 * 2 ^ 32 - v) with (2 ^ 32 - v + (2 ^ 32 - 1) * 2 ^ 32) by lia.
    now rewrite N.mod_add by discriminate. }
  unfold means. split.
  - intros (k & (neg & v & Hr & ->) & ->). exists neg, v. split; [exact Hr|]. apply C. now apply (B neg).
  - intros (neg & v & Hr & ->). eexists. split; [exists neg, v; split; [exact Hr|reflexivity]|]. symmetry. apply C. now apply (B neg).
Qed.

Lemma substr_halves n a b : len a = n -> len b = n ->
  substr (a ++ b) n n = Ok b /\ substr (a ++ b) 0 n = Ok a.
Proof.
  intros Ha Hb. unfold substr, len in *. rewrite app_length.
  destruct (N.ltb_spec (N.of_nat (List.length a + List.length b)) n) as [H|_]; [lia|].
  destruct (N.ltb_spec (N.of_nat (List.length a + List.length b)) 0) as [H|_]; [lia|].
  replace (N.to_nat n) with (List.length a) by lia. rewrite skipn_app, skipn_all, Nat.sub_diag. cbn [app skipn].
  split; f_equal; [replace (List.length a) with (List.length b) by lia; apply firstn_all|].
  change (N.to_nat 0) with 0%nat. cbn [skipn]. rewrite firstn_app, Nat.sub_diag, firstn_all. cbn [firstn]. apply app_nil_r.
Qed.

Lemma KString_iff a b lo hi : List.length a = 16%nat -> List.length b = 16%nat ->
  KString (a ++ b) = Ok (lo, hi) <-> means 64 a hi /\ means 64 b lo.
Proof.
  intros Ha Hb. unfold KString, pad_left. rewrite app_length, Ha, Hb. cbn [Nat.add Nat.sub repeat app].
  destruct (substr_halves 16 a b) as [E1 E2]; [unfold len; lia..|]. rewrite E1, E2. cbn [bind].
  destruct (stoull_iff a) as (Ia & _ & _); [unfold len; lia|]. destruct (stoull_iff b) as (Ib & _ & _); [unfold len; lia|].
  rewrite <- Ia, <- Ib. destruct (stoull16 b); cbn [bind]; [|split; [discriminate|intros [_ H]; discriminate]..].
  destruct (stoull16 a); cbn [bind]; [|split; [discriminate|intros [H _]; discriminate]..].
  split; [intros [= -> ->]; now split|intros [[= ->] [= ->]]; reflexivity].
Qed.

Lemma KString_rejects a b : List.length a = 16%nat -> List.length b = 16%nat ->
  (KString (a ++ b) = Throw InvalidArgument <-> (forall neg v, ~ reads a neg v) \/ (forall neg v, ~ reads b neg v)) /\
  ((exists v, KString (a ++ b) = Ok v) \/ KString (a ++ b) = Throw InvalidArgument).
Proof.
  intros Ha Hb. unfold KString, pad_left. rewrite app_length, Ha, Hb. cbn [Nat.add Nat.sub repeat app].
  destruct (substr_halves 16 a b) as [E1 E2]; [unfold len; lia..|]. rewrite E1, E2. cbn [bind].
  destruct (stoull_iff a) as (_ & Ia & Da); [unfold len; lia|]. destruct (stoull_iff b) as (_ & Ib & Db); [unfold len; lia|].
  rewrite <- Ia, <- Ib. destruct Db as [[n ->]| ->]; destruct Da as [[k ->]| ->]; cbn [bind].
  - split; [split; [discriminate|intros [H|H]; discriminate]|left; eauto].
  - split; [split; tauto|now right].
  - split; [split; tauto|now right].
  - split; [split; tauto|now right].
Qed.

Lemma BlkString_iff a b lo hi : List.length a = 8%nat -> List.length b = 8%nat ->
  BlkString (a ++ b) = Ok (lo, hi) <-> means 32 a hi /\ means 32 b lo.
Proof.
  intros Ha Hb. unfold BlkString, pad_left, block_size. rewrite app_length, Ha, Hb. cbn [Nat.add Nat.sub Nat.mul repeat app].
  destruct (substr_halves 8 a b) as [E1 E2]; [unfold len; lia..|]. rewrite E1, E2. cbn [bind].
  rewrite <- !w32_means by (unfold len; lia).
  destruct (stoull_iff a) as (Ia & _ & _); [unfold len; lia|]. destruct (stoull_iff b) as (Ib & _ & _); [unfold len; lia|].
  setoid_rewrite <- Ia. setoid_rewrite <- Ib.
  destruct (stoull16 b); cbn [bind]; [|split; [discriminate|intros [_ (? & H & _)]; discriminate]..].
  destruct (stoull16 a); cbn [bind]; [|split; [discriminate|intros [(? & H & _) _]; discriminate]..].
  split; [intros [= <- <-]; split; eauto|intros [(? & [= ->] & ->) (? & [= ->] & ->)]; reflexivity].
Qed.

Lemma BlkString_rejects a b : List.length a = 8%nat -> List.length b = 8%nat ->
  (BlkString (a ++ b) = Throw InvalidArgument <-> (forall neg v, ~ reads a neg v) \/ (forall neg v, ~ reads b neg v)) /\
  ((exists v, BlkString (a ++ b) = Ok v) \/ BlkString (a ++ b) = Throw InvalidArgument).
Proof.
  intros Ha Hb. unfold BlkString, pad_left, block_size. rewrite app_length, Ha, Hb. cbn [Nat.add Nat.sub Nat.mul repeat app].
  destruct (substr_halves 8 a b) as [E1 E2]; [unfold len; lia..|]. rewrite E1, E2. cbn [bind].
  destruct (stoull_iff a) as (_ & Ia & Da); [unfold len; lia|]. destruct (stoull_iff b) as (_ & Ib & Db); [unfold len; lia|].
  rewrite <- Ia, <- Ib. destruct Db as [[n ->]| ->]; destruct Da as [[k ->]| ->]; cbn [bind].
  - split; [split; [discriminate|intros [H|H]; discriminate]|left; eauto].
  - split; [split; tauto|now right].
  - split; [split; tauto|now right].
  - split; [split; tauto|now right].
Qed.

Lemma key_group s i : List.length s = 64%nat -> (i < 8)%nat ->
  KeyDataString s (Z.of_nat i) = extract_hex32 (firstn 8 (skipn (8 * i) s)) /\ len (firstn 8 (skipn (8 * i) s)) <= 8.
Proof.
  intros Hs Hi. split; [|unfold len; pose proof (firstn_le_length 8 (skipn (8 * i) s)); lia].
  unfold KeyDataString, len. rewrite Hs. change (negb (N.of_nat 64 =? 64)) with false.
  replace ((Z.of_nat i <? 0) || (7 <? Z.of_nat i))%Z with false by lia.
  unfold substr, len. destruct (N.ltb_spec (N.of_nat (List.length s)) (Z.to_N (Z.of_nat i * 8))) as [H|_]; [lia|]. cbn [bind].
  do 3 f_equal. lia.
Qed.

Lemma short_padded s : (List.length s <= 16)%nat -> BlkString s = BlkString (repeat 48 (16 - List.length s) ++ s).
Proof.
  intros H. unfold BlkString, pad_left, block_size. rewrite app_length, repeat_length. cbn [Nat.mul Nat.add].
  replace (16 - (16 - List.length s + List.length s))%nat with 0%nat by lia. reflexivity.
Qed.
Lemma kshort_padded s : (List.length s <= 32)%nat -> KString s = KString (repeat 48 (32 - List.length s) ++ s).
Proof.
  intros H. unfold KString, pad_left. rewrite app_length, repeat_length.
  replace (32 - (32 - List.length s + List.length s))%nat with 0%nat by lia. reflexivity.
Qed.
