(** Proofs for C106. *)
From Verif Require Import Base Text MagmaModel KuzModel SpecText SpecLocale LocaleModel.
From Verif Require Import Lib TextProofs.
From Coq Require Import Lia.
Local Open Scope N_scope.

(** A character for which the locale has no use of its own. *)
Definition plain_char (L : cpp_locale) (c : N) : Prop :=
  is_sep L c = false /\
  (is_point L c = true -> hexval c = None /\ c <> 120 /\ c <> 88 /\ c <> 43 /\ c <> 45).

(** The state of the gathering when the digits so far make the number [v]. *)
Definition holds (v : N) (st : gathered) : Prop :=
  found_grouping st = false /\ testfail st = false /\
  ((overflow st = false /\ result st = v /\ v < 2 ^ 32) \/ (overflow st = true /\ 2 ^ 32 <= v)).

Lemma hexval_lt c d : hexval c = Some d -> d < 16.
Proof.
  unfold hexval. intros H.
  destruct ((48 <=? c) && (c <=? 57)) eqn:E1; [injection H as <-; lia|].
  destruct ((97 <=? c) && (c <=? 102)) eqn:E2; [injection H as <-; lia|].
  destruct ((65 <=? c) && (c <=? 70)) eqn:E3; [injection H as <-; lia|discriminate].
Qed.

Lemma add_digit_holds v d st : d < 16 -> holds v st -> 0 < sep_pos st \/ v = 0 ->
  holds (v * 16 + d) (add_digit d st) /\ 0 < sep_pos (add_digit d st).
Proof.
  intros Hd (Hg & Ht & H) Hp. unfold add_digit.
  change ((2 ^ 32 - 1) / 16) with 268435455. change (2 ^ 32) with 4294967296 in *.
  destruct (268435455 <? result st) eqn:E.
  - split; [|cbn [sep_pos]; destruct H as [(_ & ? & _)|[_ H]]; lia].
    repeat split; try assumption. right. split; [reflexivity|]. destruct H as [(_ & ? & _)|[_ H]]; lia.
  - assert (R : result st * 16 + d < 4294967296) by lia. cbv zeta. cbn [sep_pos].
    split; [|lia]. unfold holds. cbn [found_grouping testfail overflow result].
    split; [assumption|]. split; [assumption|].
    unfold w32. change (2 ^ 32) with 4294967296.
    rewrite (N.mod_small (result st * 16)) by lia. rewrite N.mod_small by lia.
    destruct H as [(-> & <- & H)|[-> H]].
    + left. replace (4294967296 - 1 - d <? result st * 16) with false by lia. repeat split; lia.
    + right. split; [reflexivity|lia].
Qed.

Lemma gather_scan L s : Forall (plain_char L) s -> forall v st, holds v st -> 0 < sep_pos st ->
  exists v', scan_digits (Some v) s = Some v' /\
    let st' := if classic L then gather_classic s st else gather L s st in
    holds v' st' /\ 0 < sep_pos st'.
Proof.
  induction 1 as [|c s [Hs Hp] _ IH]; intros v st Hv Hpos.
  - exists v. split; [reflexivity|]. destruct (classic L); now split.
  - cbn [scan_digits gather gather_classic]. rewrite Hs.
    destruct (hexval c) as [d|] eqn:E.
    + assert (P : is_point L c = false) by (destruct (is_point L c); [destruct (Hp eq_refl); discriminate|reflexivity]).
      rewrite P. destruct (add_digit_holds v d st (hexval_lt c d E) Hv (or_introl Hpos)) as [H1 H2].
      exact (IH _ _ H1 H2).
    + exists v. split; [reflexivity|]. destruct (classic L); [now split|]. destruct (is_point L c); now split.
Qed.

Definition st_zero (p : N) : gathered :=
  {| result := 0; overflow := false; sep_pos := p; found_grouping := false; testfail := false |}.

Lemma holds_zero p : holds 0 (st_zero p).
Proof. repeat split. left. repeat split. Qed.

Lemma gather_first L s : Forall (plain_char L) s ->
  let st := if classic L then gather_classic s (st_zero 0) else gather L s (st_zero 0) in
  match scan_digits None s with
  | None => st = st_zero 0
  | Some v => holds v st /\ 0 < sep_pos st
  end.
Proof.
  intros H. destruct H as [|c s [Hs Hp] H]; [now destruct (classic L)|].
  cbn [scan_digits gather gather_classic]. rewrite Hs.
  destruct (hexval c) as [d|] eqn:E.
  - assert (P : is_point L c = false) by (destruct (is_point L c); [destruct (Hp eq_refl); discriminate|reflexivity]).
    rewrite P. destruct (add_digit_holds 0 d (st_zero 0) (hexval_lt c d E) (holds_zero 0) (or_intror eq_refl)) as [H1 H2].
    destruct (gather_scan L s H _ _ H1 H2) as (v' & E' & H3).
    change (0 * 16 + d) with d in E'. rewrite E'. exact H3.
  - destruct (classic L); [reflexivity|]. now destruct (is_point L c).
Qed.

Definition finish (negative found_zero : bool) (st : gathered) : N :=
  if ((sep_pos st =? 0) && negb found_zero && negb (found_grouping st)) || testfail st then 0
  else if overflow st then 2 ^ 32 - 1
  else if negative then w32 (2 ^ 32 - result st) else result st.

Definition value32 (negative : bool) (v : N) : N :=
  if 2 ^ 32 <=? v then 2 ^ 32 - 1 else if negative then w32 (2 ^ 32 - v) else v.

Lemma finish_holds negative found v st : holds v st -> 0 < sep_pos st ->
  finish negative found st = value32 negative v.
Proof.
  intros (Hg & Ht & H) Hp. unfold finish, value32. rewrite Ht.
  replace (sep_pos st =? 0) with false by lia. cbn [andb orb].
  destruct H as [(-> & -> & H)|[-> H]].
  - now rewrite (proj2 (N.leb_gt _ _) H).
  - now rewrite (proj2 (N.leb_le _ _) H).
Qed.

Lemma num_get_plain L s : Forall (plain_char L) s ->
  num_get L s =
  let (negative, r) := take_sign s in
  match scan_hex r with None => 0 | Some v => value32 negative v end.
Proof.
  intros H. unfold num_get.
  assert (S : get_sign L s = take_sign s).
  { destruct H as [|c s [Hs Hp] H]; [reflexivity|]. unfold get_sign, take_sign. rewrite Hs.
    destruct (c =? 45) eqn:E1; [|destruct (c =? 43) eqn:E2]; cbn [orb andb negb]; [..|reflexivity].
    - destruct (is_point L c); [|reflexivity]. destruct (Hp eq_refl) as (_ & _ & _ & _ & X). lia.
    - destruct (is_point L c); [|reflexivity]. destruct (Hp eq_refl) as (_ & _ & _ & X & _). lia. }
  rewrite S. assert (H' : Forall (plain_char L) (snd (take_sign s))).
  { unfold take_sign. destruct H as [|c s Hc H]; [constructor|].
    destruct (c =? 45); [exact H|]. destruct (c =? 43); [exact H|now constructor]. }
  destruct (take_sign s) as [negative r]. cbn [snd] in H'. clear s H S.
  (* no digits, no prefix *)
  destruct r as [|c r].
  { cbn [get_prefix gather gather_classic scan_hex scan_digits]. destruct (classic L); reflexivity. }
  inversion H' as [|? ? [Hs Hp] Hr]; subst. cbn [get_prefix]. rewrite Hs. cbn [orb andb negb].
  destruct (c =? 48) eqn:Z.
  - assert (c = 48) by lia. subst c.
    assert (P : is_point L 48 = false) by (destruct (is_point L 48); [destruct (Hp eq_refl); discriminate|reflexivity]).
    rewrite P. cbn [andb negb].
    assert (A : forall r, Forall (plain_char L) r ->
      match scan_digits None (48 :: r) with None => 0 | Some v => value32 negative v end =
      finish negative true (if classic L then gather_classic r (st_zero 1) else gather L r (st_zero 1))).
    { intros t Ht. destruct (gather_scan L t Ht 0 (st_zero 1) (holds_zero 1) eq_refl) as (v & E & H1 & H2).
      change (scan_digits None (48 :: t)) with (scan_digits (Some 0) t). rewrite E.
      symmetry. now apply finish_holds. }
    destruct r as [|x r].
    + change (0 + 1) with 1. cbn [get_prefix scan_hex]. rewrite A by exact Hr. reflexivity.
    + cbn [get_prefix scan_hex]. inversion Hr as [|? ? [Xs Xp] Hr']; subst. rewrite Xs. cbn [orb].
      change (48 =? 48) with true. rewrite andb_false_r. cbn [andb].
      destruct ((x =? 120) || (x =? 88)) eqn:X.
      * destruct (is_point L x) eqn:PX; [destruct (Xp eq_refl) as (_ & ? & ? & _); lia|].
        pose proof (gather_first L r Hr') as G. cbv zeta in G.
        destruct (scan_digits None r) as [v|].
        -- destruct G as [G1 G2]. exact (finish_holds negative false v _ G1 G2).
        -- change (finish negative false (if classic L then gather_classic r (st_zero 0) else gather L r (st_zero 0)) =
                   value32 negative 0).
           rewrite G. unfold finish, value32. cbn. destruct negative; reflexivity.
      * rewrite A by exact Hr. change (0 + 1) with 1. destruct (is_point L x); reflexivity.
  - assert (S : scan_hex (c :: r) = scan_digits None (c :: r)) by (unfold scan_hex; rewrite Z; now destruct r).
    rewrite S. pose proof (gather_first L (c :: r) H') as G. cbv zeta in G.
    transitivity (finish negative false (if classic L then gather_classic (c :: r) (st_zero 0) else gather L (c :: r) (st_zero 0)));
      [destruct (is_point L c); reflexivity|].
    destruct (scan_digits None (c :: r)) as [v|].
    + destruct G as [G1 G2]. exact (finish_holds negative false v _ G1 G2).
    + rewrite G. reflexivity.
Qed.

Lemma skip_space_same sp s : Forall (fun c => sp c = isspace c) s -> skip_space sp s = skip_ws s.
Proof.
  induction 1 as [|c s Hc _ IH]; [reflexivity|]. cbn [skip_space skip_ws]. rewrite Hc.
  now destruct (isspace c).
Qed.

Lemma Forall_skip_ws P s : Forall P s -> Forall P (skip_ws s).
Proof.
  induction 1 as [|c s Hc H IH]; [constructor|]. cbn [skip_ws]. destruct (isspace c); [exact IH|now constructor].
Qed.

Lemma extract_same L s :
  Forall (fun c => space_in L c = isspace c) s -> Forall (plain_char L) s ->
  extract_hex32_in L s = extract_hex32 s.
Proof.
  intros Hs Hp. unfold extract_hex32_in, extract_hex32. rewrite skip_space_same by exact Hs.
  apply Forall_skip_ws in Hp. destruct (skip_ws s) as [|c r]; [reflexivity|].
  rewrite num_get_plain by exact Hp. destruct (take_sign (c :: r)) as [negative t].
  destruct (scan_hex t) as [v|]; [|reflexivity]. unfold value32. now destruct (2 ^ 32 <=? v).
Qed.

Lemma C_plain c : plain_char C_locale c.
Proof.
  split; [reflexivity|]. unfold is_point, C_locale, decimal_point. intros H. assert (c = 46) by lia. subst c.
  repeat split; discriminate.
Qed.

Lemma extract_classic s : extract_hex32_in C_locale s = extract_hex32 s.
Proof. apply extract_same; apply Forall_forall; intros c _; [reflexivity|apply C_plain]. Qed.

Lemma KeyDataString_classic s i : KeyDataString_in C_locale s i = KeyDataString s i.
Proof.
  unfold KeyDataString_in, KeyDataString. destruct (negb (len s =? 64)); [reflexivity|].
  destruct ((i <? 0) || (7 <? i))%Z; [reflexivity|]. destruct (substr s (Z.to_N (i * 8)) 8); try reflexivity.
  cbn [bind]. apply extract_classic.
Qed.

Lemma substr_Forall P s p n t : Forall P s -> substr s p n = Ok t -> Forall P t.
Proof.
  intros H. unfold substr. destruct (len s <? p); [discriminate|]. intros [= <-].
  now apply Forall_firstn, Forall_skipn.
Qed.

Lemma KeyDataString_same L s i :
  Forall (fun c => space_in L c = isspace c) s -> Forall (plain_char L) s ->
  KeyDataString_in L s i = KeyDataString s i.
Proof.
  intros Hs Hp. unfold KeyDataString_in, KeyDataString. destruct (negb (len s =? 64)); [reflexivity|].
  destruct ((i <? 0) || (7 <? i))%Z; [reflexivity|].
  destruct (substr s (Z.to_N (i * 8)) 8) eqn:E; try reflexivity. cbn [bind].
  apply extract_same; eapply substr_Forall; eassumption.
Qed.

(** Nothing but the size of the text and the index is ever rejected. *)
Lemma KeyDataString_never_rejects L s i : List.length s = 64%nat -> (0 <= i <= 7)%Z ->
  forall e, KeyDataString_in L s i <> Throw e.
Proof.
  intros Hl Hi e. unfold KeyDataString_in. unfold len. rewrite Hl. cbn [N.of_nat N.eqb negb].
  change (N.of_nat 64 =? 64) with true. cbn [negb].
  replace ((i <? 0) || (7 <? i))%Z with false by lia.
  unfold substr, len. rewrite Hl. replace (N.of_nat 64 <? Z.to_N (i * 8)) with false by lia. cbn [bind].
  unfold extract_hex32_in. destruct (skip_space _ _); discriminate.
Qed.

(** ** Separators *)

Lemma gather_seps L s : use_grouping L = true -> ~ hex_digit (decimal_point L) ->
  decimal_point L <> thousands_sep L -> ~ hex_digit (thousands_sep L) ->
  Forall (fun c => hex_digit c \/ c = thousands_sep L) s -> no_two (thousands_sep L) s ->
  forall st, overflow st = false -> testfail st = false ->
  (sep_pos st = 0 -> forall r, s <> thousands_sep L :: r) ->
  (sep_pos st <> 0 \/ found_grouping st = true \/ exists c r, s = c :: r) ->
  result st * 16 ^ len (without (thousands_sep L) s) + number (without (thousands_sep L) s) < 2 ^ 32 ->
  let st' := gather L s st in
  overflow st' = false /\ testfail st' = false /\
  (sep_pos st' <> 0 \/ found_grouping st' = true) /\
  result st' = result st * 16 ^ len (without (thousands_sep L) s) + number (without (thousands_sep L) s).
Proof.
  intros HG HP HPS HT. induction s as [|c s IH]; intros Hs Hn st Ho Hf H0 H1 Hb.
  - cbn [gather without filter number]. change (len []) with 0. rewrite N.pow_0_r.
    repeat split; try assumption; [|lia]. destruct H1 as [H1|[H1|(? & ? & H1)]]; [now left|now right|discriminate].
  - inversion Hs as [|? ? Hc Hs']; subst.
    assert (Hn' : no_two (thousands_sep L) s) by (destruct s; [exact I|apply Hn]).
    unfold is_sep, is_point in *. cbn [gather without filter] in *. unfold is_sep, is_point. rewrite HG. cbn [andb].
    destruct (c =? thousands_sep L) eqn:E.
    + assert (c = thousands_sep L) by lia. subst c. cbn [negb] in *.
      destruct (sep_pos st =? 0) eqn:E0; [exfalso; apply (H0 ltac:(lia) s); reflexivity|].
      match goal with |- context [gather L s ?x] => apply (IH Hs' Hn' x) end;
        try assumption; cbn [sep_pos found_grouping].
      * intros _ r ->. destruct Hn as [Hn _]. now apply Hn.
      * right. now left.
    + cbn [negb] in *. destruct Hc as [Hc|Hc]; [|lia].
      destruct (c =? decimal_point L) eqn:EP; [exfalso; apply HP; now replace (decimal_point L) with c by lia|].
      rewrite (hex_digit_hexval c Hc). cbn [number] in Hb |- *.
      fold (without (thousands_sep L) s) in *.
      set (w := without (thousands_sep L) s) in *. set (d := digit_value c) in *.
      assert (Hd : d < 16) by (apply (hexval_lt c); now apply hex_digit_hexval).
      rewrite len_cons, N.pow_add_r, N.pow_1_r in *.
      assert (Q : 0 < 16 ^ len w) by (apply N.neq_0_lt_0, N.pow_nonzero; discriminate).
      set (q := 16 ^ len w) in *.
      change (2 ^ 32) with 4294967296 in *.
      assert (R : result st * 16 + d < 4294967296) by nia.
      assert (A : add_digit d st =
        {| result := result st * 16 + d; overflow := false; sep_pos := sep_pos st + 1;
           found_grouping := found_grouping st; testfail := false |}).
      { unfold add_digit. change ((2 ^ 32 - 1) / 16) with 268435455. change (2 ^ 32) with 4294967296.
        replace (268435455 <? result st) with false by lia. unfold w32. change (2 ^ 32) with 4294967296.
        cbv zeta. rewrite (N.mod_small (result st * 16)) by lia. rewrite N.mod_small by lia.
        rewrite Ho, Hf. now replace (4294967296 - 1 - d <? result st * 16) with false by lia. }
      rewrite A.
      destruct (IH Hs' Hn' {| result := result st * 16 + d; overflow := false; sep_pos := sep_pos st + 1;
           found_grouping := found_grouping st; testfail := false |}) as (I1 & I2 & I3 & I4);
        try reflexivity; cbn [sep_pos found_grouping result] in *.
      * lia.
      * left. lia.
      * nia.
      * repeat split; try assumption. rewrite I4. nia.
Qed.

Lemma num_get_seps L c s : classic L = false -> use_grouping L = true ->
  ~ hex_digit (decimal_point L) -> decimal_point L <> thousands_sep L ->
  ~ hex_digit (thousands_sep L) -> thousands_sep L <> 120 -> thousands_sep L <> 88 ->
  hex_digit c -> Forall (fun c => hex_digit c \/ c = thousands_sep L) s ->
  no_two (thousands_sep L) s ->
  number (without (thousands_sep L) (c :: s)) < 2 ^ 32 ->
  num_get L (c :: s) = number (without (thousands_sep L) (c :: s)).
Proof.
  intros HC HG HP HPS HT Hx HX Hc Hs Hn Hb. unfold num_get.
  pose proof (hex_digit_range c Hc) as R.
  assert (NT : c <> thousands_sep L) by (intros ->; contradiction).
  assert (NP : c <> decimal_point L) by (intros ->; contradiction).
  unfold get_sign. replace (c =? 45) with false by lia. replace (c =? 43) with false by lia.
  cbn [orb andb]. rewrite HC.
  assert (F : forall fz st, overflow st = false -> testfail st = false ->
    (sep_pos st <> 0 \/ found_grouping st = true) -> finish false fz st = result st).
  { intros fz st H1 H2 H3. unfold finish. rewrite H1, H2.
    destruct H3 as [H3|H3]; [replace (sep_pos st =? 0) with false by lia; reflexivity|].
    rewrite H3. cbn [negb]. now rewrite andb_false_r. }
  assert (W : without (thousands_sep L) (c :: s) = c :: without (thousands_sep L) s).
  { unfold without. cbn [filter]. now replace (c =? thousands_sep L) with false by lia. }
  cbn [get_prefix]. unfold is_sep at 1, is_point at 1. rewrite HG.
  replace (c =? thousands_sep L) with false by lia. replace (c =? decimal_point L) with false by lia.
  cbn [andb orb negb]. destruct (c =? 48) eqn:Z; cbn [andb negb].
  - assert (c = 48) by lia. subst c.
    assert (P : get_prefix L true (0 + 1) s = (true, 1, s)).
    { destruct s as [|x s]; [reflexivity|]. cbn [get_prefix]. inversion Hs as [|? ? Hx' _]; subst.
      destruct (is_sep L x || is_point L x) eqn:E; [reflexivity|]. rewrite andb_false_r. cbn [andb].
      replace ((x =? 120) || (x =? 88)) with false; [reflexivity|].
      destruct Hx' as [Hx'| ->]; [apply hex_digit_range in Hx'|]; lia. }
    rewrite P. rewrite W in *. change (number (48 :: without (thousands_sep L) s)) with
      (0 * 16 ^ len (without (thousands_sep L) s) + number (without (thousands_sep L) s)) in *.
    destruct (gather_seps L s HG HP HPS HT Hs Hn (st_zero 1) eq_refl eq_refl) as (G1 & G2 & G3 & G4).
    + discriminate.
    + left. discriminate.
    + exact Hb.
    + etransitivity; [exact (F true _ G1 G2 G3)|exact G4].
  - assert (Hs' : Forall (fun c => hex_digit c \/ c = thousands_sep L) (c :: s)) by (constructor; [now left|exact Hs]).
    assert (Hn' : no_two (thousands_sep L) (c :: s)) by (destruct s; [exact I|split; [intros [? _]; contradiction|exact Hn]]).
    destruct (gather_seps L (c :: s) HG HP HPS HT Hs' Hn' (st_zero 0) eq_refl eq_refl) as (G1 & G2 & G3 & G4).
    + intros _ r [= H _]. contradiction.
    + right. right. eauto.
    + exact Hb.
    + etransitivity; [exact (F false _ G1 G2 G3)|]. rewrite G4. reflexivity.
Qed.

Lemma number_short s : (List.length s <= 8)%nat -> number s < 2 ^ 32.
Proof.
  intros H. pose proof (number_lt s) as B.
  assert (16 ^ len s <= 16 ^ 8) by (apply N.pow_le_mono_r; unfold len; lia).
  change (16 ^ 8) with (2 ^ 32) in *. lia.
Qed.

Lemma without_short sep s : (List.length (without sep s) <= List.length s)%nat.
Proof.
  unfold without. induction s as [|c s IH]; [cbn; lia|]. cbn [filter].
  destruct (negb (c =? sep)); cbn [List.length]; lia.
Qed.

Lemma KeyDataString_seps L key i c s : classic L = false -> use_grouping L = true ->
  ~ hex_digit (decimal_point L) -> decimal_point L <> thousands_sep L ->
  ~ hex_digit (thousands_sep L) -> thousands_sep L <> 120 -> thousands_sep L <> 88 ->
  space_in L c = false ->
  List.length key = 64%nat -> (i < 8)%nat -> firstn 8 (skipn (8 * i) key) = c :: s ->
  hex_digit c -> Forall (fun c => hex_digit c \/ c = thousands_sep L) s ->
  no_two (thousands_sep L) s ->
  KeyDataString_in L key (Z.of_nat i) = Ok (number (without (thousands_sep L) (c :: s))).
Proof.
  intros HC HG HP HPS HT Hx HX Hsp Hl Hi Hw Hc Hs Hn. unfold KeyDataString_in, len. rewrite Hl.
  change (N.of_nat 64 =? 64) with true. cbn [negb].
  replace ((Z.of_nat i <? 0) || (7 <? Z.of_nat i))%Z with false by lia.
  rewrite substr_ok by (unfold len; lia). cbn [bind].
  change (N.to_nat 8) with 8%nat. replace (N.to_nat (Z.to_N (Z.of_nat i * 8))) with (8 * i)%nat by lia.
  rewrite Hw. unfold extract_hex32_in. cbn [skip_space]. rewrite Hsp. f_equal.
  apply num_get_seps; try assumption. apply number_short.
  etransitivity; [apply without_short|]. rewrite <- Hw. rewrite firstn_length. lia.
Qed.

Lemma gather_two L u rest : use_grouping L = true -> ~ hex_digit (decimal_point L) ->
  Forall (fun c => hex_digit c \/ c = thousands_sep L) u ->
  forall st, testfail (gather L (u ++ thousands_sep L :: thousands_sep L :: rest) st) = true.
Proof.
  intros HG HP. unfold is_sep. induction 1 as [|c u Hc _ IH]; intros st; cbn [app gather]; unfold is_sep, is_point;
    rewrite HG; cbn [andb].
  - rewrite N.eqb_refl. destruct (sep_pos st =? 0); reflexivity.
  - destruct (c =? thousands_sep L) eqn:E; [destruct (sep_pos st =? 0); [reflexivity|apply IH]|].
    destruct Hc as [Hc|Hc]; [|lia].
    destruct (c =? decimal_point L) eqn:EP; [exfalso; apply HP; now replace (decimal_point L) with c by lia|].
    rewrite (hex_digit_hexval c Hc). apply IH.
Qed.

Lemma num_get_two L c u rest : classic L = false -> use_grouping L = true -> ~ hex_digit (decimal_point L) ->
  hex_digit c -> Forall (fun c => hex_digit c \/ c = thousands_sep L) u ->
  num_get L (c :: u ++ thousands_sep L :: thousands_sep L :: rest) = 0.
Proof.
  intros HC HG HP Hc Hu. pose proof (hex_digit_range c Hc) as R. unfold num_get, get_sign.
  replace (c =? 45) with false by lia. replace (c =? 43) with false by lia. cbn [orb andb].
  rewrite HC.
  assert (F : forall st, testfail st = true -> forall b x, (if b || testfail st then 0 else x) = 0)
    by (intros st -> b x; now rewrite orb_true_r).
  assert (P : get_prefix L false 0 (c :: u ++ thousands_sep L :: thousands_sep L :: rest) =
              (false, 0, c :: u ++ thousands_sep L :: thousands_sep L :: rest) \/
              get_prefix L false 0 (c :: u ++ thousands_sep L :: thousands_sep L :: rest) =
              (true, 1, u ++ thousands_sep L :: thousands_sep L :: rest)).
  { cbn [get_prefix]. destruct (is_sep L c || is_point L c); [now left|]. cbn [negb]. rewrite andb_true_r.
    destruct (c =? 48); [right|now left]. change (0 + 1) with 1.
    destruct Hu as [|x u Hx Hu]; cbn [app get_prefix]; unfold is_sep; rewrite HG; cbn [andb].
    - now rewrite N.eqb_refl.
    - destruct (x =? thousands_sep L) eqn:E; [reflexivity|]. destruct Hx as [Hx|Hx]; [|lia].
      apply hex_digit_range in Hx. cbn [orb]. destruct (is_point L x); [reflexivity|].
      rewrite andb_false_r. cbn [andb]. now replace ((x =? 120) || (x =? 88)) with false by lia. }
  destruct P as [-> | ->]; apply F.
  - change (c :: u ++ ?r) with ((c :: u) ++ r). apply gather_two; try assumption. constructor; [now left|assumption].
  - now apply gather_two.
Qed.

Lemma num_get_front L s : classic L = false -> use_grouping L = true -> num_get L (thousands_sep L :: s) = 0.
Proof.
  intros HC HG. unfold num_get, get_sign.
  assert (S : is_sep L (thousands_sep L) = true) by (unfold is_sep; now rewrite HG, N.eqb_refl).
  rewrite S, andb_false_r. cbn [andb get_prefix]. rewrite S. cbn [orb]. rewrite HC. cbn [gather]. rewrite S.
  reflexivity.
Qed.

Lemma KeyDataString_misplaced L key i c u rest : classic L = false -> use_grouping L = true ->
  ~ hex_digit (decimal_point L) -> space_in L c = false ->
  List.length key = 64%nat -> (i < 8)%nat ->
  Forall (fun c => hex_digit c \/ c = thousands_sep L) u ->
  (firstn 8 (skipn (8 * i) key) = c :: rest /\ c = thousands_sep L \/
   firstn 8 (skipn (8 * i) key) = c :: u ++ thousands_sep L :: thousands_sep L :: rest /\ hex_digit c) ->
  KeyDataString_in L key (Z.of_nat i) = Ok 0.
Proof.
  intros HC HG HP Hsp Hl Hi Hu Hw. unfold KeyDataString_in, len. rewrite Hl.
  change (N.of_nat 64 =? 64) with true. cbn [negb].
  replace ((Z.of_nat i <? 0) || (7 <? Z.of_nat i))%Z with false by lia.
  rewrite substr_ok by (unfold len; lia). cbn [bind].
  change (N.to_nat 8) with 8%nat. replace (N.to_nat (Z.to_N (Z.of_nat i * 8))) with (8 * i)%nat by lia.
  destruct Hw as [[-> ->]|[-> Hc]]; unfold extract_hex32_in; cbn [skip_space]; rewrite Hsp; f_equal.
  - now apply num_get_front.
  - now apply num_get_two.
Qed.

(** ** std::stoull *)

Lemma stoull_same sp s : Forall (fun c => sp c = isspace c) s -> stoull16_in sp s = stoull16 s.
Proof. intros H. unfold stoull16_in, stoull16. now rewrite skip_space_same by exact H. Qed.

Lemma Forall_pad (P : N -> Prop) s n : P 48 -> Forall P s -> Forall P (pad_left s n).
Proof.
  intros H0 H. unfold pad_left. apply Forall_app. split; [|exact H].
  apply Forall_forall. intros x Hx. apply repeat_spec in Hx. now subst x.
Qed.

Lemma blocks_same sp s : sp 48 = false -> Forall (fun c => sp c = isspace c) s ->
  BlkString_in sp s = BlkString s /\ KString_in sp s = KString s.
Proof.
  intros H0 H. unfold BlkString_in, BlkString, KString_in, KString. cbv zeta. split.
  - pose proof (Forall_pad _ s (block_size * 2) H0 H) as P. set (v := pad_left s (block_size * 2)) in *. clearbody v.
    destruct (substr v 8 8) as [a| | |] eqn:E1; try reflexivity. cbn [bind].
    rewrite stoull_same by (eapply substr_Forall; eassumption). destruct (stoull16 a); try reflexivity. cbn [bind].
    destruct (substr v 0 8) as [b| | |] eqn:E2; try reflexivity. cbn [bind].
    now rewrite stoull_same by (eapply substr_Forall; eassumption).
  - pose proof (Forall_pad _ s 32 H0 H) as P. set (v := pad_left s 32) in *. clearbody v.
    destruct (substr v 16 16) as [a| | |] eqn:E1; try reflexivity. cbn [bind].
    rewrite stoull_same by (eapply substr_Forall; eassumption). destruct (stoull16 a); try reflexivity. cbn [bind].
    destruct (substr v 0 16) as [b| | |] eqn:E2; try reflexivity. cbn [bind].
    now rewrite stoull_same by (eapply substr_Forall; eassumption).
Qed.

(** Well-formed keys. *)
Lemma KeyDataString_hex_same L s i :
  ~ hex_digit (decimal_point L) -> (use_grouping L = true -> ~ hex_digit (thousands_sep L)) ->
  (forall c, hex_digit c -> space_in L c = false) -> Forall hex_digit s ->
  KeyDataString_in L s i = KeyDataString s i.
Proof.
  intros HP HT HS H. apply KeyDataString_same; revert H; apply Forall_impl; intros c Hc.
  - rewrite HS by exact Hc. apply hex_digit_range in Hc. unfold isspace. lia.
  - split.
    + unfold is_sep. destruct (use_grouping L); [|reflexivity]. cbn [andb].
      destruct (c =? thousands_sep L) eqn:E; [|reflexivity]. exfalso. apply (HT eq_refl).
      now replace (thousands_sep L) with c by lia.
    + unfold is_point. intros E. exfalso. apply HP. now replace (decimal_point L) with c by lia.
Qed.
