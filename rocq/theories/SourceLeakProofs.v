(** Proofs for C111. *)
From Verif Require Import Base Text MagmaModel Streams Lib SpecText SpecMagma LeakModel SpecLeak LeakProofs
  SourceProofs StreamLeakModel StreamLeakProofs SourceLeakModel SpecSourceLeak.
Local Open Scope N_scope.

(** ** The results are those of Streams.v *)

Lemma bind_ext {A B} (x : res A) (f g : A -> res B) : (forall a, f a = g a) -> bind x f = bind x g.
Proof. intros H. destruct x; [apply H|reflexivity..]. Qed.

Lemma drain_same p : forall res size, fst (drain_t p res size) = Ok (drain p res size).
Proof.
  induction p as [|b p IH]; intros res size; [reflexivity|]. cbn [drain_t drain]. rewrite fst_test. cbv zeta.
  rewrite fst_test. destruct (len res <? size); [apply IH|reflexivity].
Qed.

Lemma tloop_same {W A R} (stept : A -> T (A + R)) (step : A -> M W (A + R)) :
  (forall a w, fst (stept a) = fst (step a w)) ->
  forall n a w, fst (tloop n stept a) = fst (nmloop n step a w).
Proof.
  intros H. induction n as [|n IH]; intros a w; [reflexivity|]. cbn [tloop nmloop].
  rewrite fst_tbind, (H a w). unfold mbind. destruct (step a w) as [[[a1|r]| | |] w1]; cbn [fst bind]; try reflexivity.
  apply IH.
Qed.

Section Same.
Context (kd : keydata) (sbt : tsbox) (sb : sbox).
Hypothesis Hsb : forall v, fst (sbt v) = sb v.
Context {W St : Type} (get : St -> N -> res (bytes * St)) (m : mode).
Let k := KLazy (LazyKey kd sb).
Let rd : reader W St := fun s n => lift (get s n).

Lemma ecb_read_same s size w :
  fst (ECBSource_read_t kd sbt get m s size) =
  bind (fst (ECBSource_read rd m (ECBSource s k) size w))
       (fun x => Ok (match x with (p, ECBSource s1 _) => (p, s1, true) | (p, ECBBare s1) => (p, s1, false) end)).
Proof.
  unfold ECBSource_read_t, ECBSource_read. cbv zeta. rewrite fst_test.
  destruct (size <? N.of_nat block_size); [reflexivity|].
  unfold rd. rewrite fst_tbind, fst_mbind_lift. cbn [tlift fst].
  destruct (get s 8) as [[p s1]| | |]; try reflexivity. cbn [bind]. rewrite fst_test.
  destruct p as [|b p]; [reflexivity|]. cbn [List.length Nat.eqb]. cbn [k cast_lazy]. set (q := b :: p).
  rewrite fst_tbind, fst_mbind_lift. cbn [tlift fst].
  destruct (read8 m q) as [buf| | |]; try reflexivity. cbn [bind].
  rewrite fst_tbind, (Decrypted_same kd sbt sb Hsb), fst_mbind_lift. cbn [tlift fst].
  destruct (BlkDecrypted (BlkRaw_bytes buf) (Some (LazyKey kd sb))) as [[f1 f2]| | |]; try reflexivity. cbn [bind].
  rewrite fst_tbind, fst_mbind_lift. cbn [tlift fst].
  destruct (write8 m q (to_le 4 f1 ++ to_le 4 f2)) as [p'| | |]; reflexivity.
Qed.

Lemma magma_step_same size st w :
  fst (magma_read_step_t kd sbt get m size st) = fst (magma_cfb_read_step rd m k size st w).
Proof.
  destruct st as [[[[s p] rl] rr] res]. unfold magma_read_step_t, magma_cfb_read_step. cbv zeta. rewrite fst_test.
  destruct (len res <? size); [|reflexivity].
  rewrite fst_tbind, drain_same. cbn [bind]. destruct (drain p res size) as [res1 p1]. rewrite fst_test.
  destruct (len res1 =? size); [reflexivity|].
  rewrite fst_tbind, (block_same kd sbt sb Hsb). cbn [k cast_lazy]. rewrite fst_mbind_lift.
  apply bind_ext. intros [f1 f2]. cbv beta iota. unfold rd. rewrite fst_tbind, fst_mbind_lift. cbn [tlift fst].
  apply bind_ext. intros [q s1]. cbv beta iota. rewrite fst_test. destruct q as [|b q]; [reflexivity|].
  cbn [List.length Nat.eqb]. set (Q := b :: q).
  rewrite fst_tbind, fst_mbind_lift. cbn [tlift fst]. apply bind_ext. intros r1. cbv beta.
  rewrite fst_tbind, fst_mbind_lift. cbn [source_xor_t fst]. apply bind_ext. intros q1. reflexivity.
Qed.

Lemma gost_step_same size st w :
  fst (gost_read_step_t kd sbt get m size st) = fst (gost_cfb_read_step rd m k size st w).
Proof.
  destruct st as [[[s p] r] res]. unfold gost_read_step_t, gost_cfb_read_step. cbv zeta. rewrite fst_test.
  destruct (len res <? size); [|reflexivity].
  rewrite fst_tbind, drain_same. cbn [bind]. destruct (drain p res size) as [res1 p1]. rewrite fst_test.
  destruct (len res1 =? size); [reflexivity|].
  rewrite fst_tbind, (block_same kd sbt sb Hsb). cbn [k cast_lazy]. rewrite fst_mbind_lift.
  apply bind_ext. intros [f1 f2]. cbv beta iota. unfold rd. rewrite fst_tbind, fst_mbind_lift. cbn [tlift fst].
  apply bind_ext. intros [q s1]. cbv beta iota. rewrite fst_test. destruct q as [|b q]; [reflexivity|].
  cbn [List.length Nat.eqb]. set (Q := b :: q).
  rewrite fst_tbind, fst_mbind_lift. cbn [tlift fst]. apply bind_ext. intros r1. cbv beta.
  rewrite fst_tbind, fst_mbind_lift. cbn [source_xor_t fst]. apply bind_ext. intros q1. reflexivity.
Qed.

Lemma magma_read_same s p rl rr size w :
  fst (magma_cfb_read_t kd sbt get m size s p rl rr) =
  bind (fst (magma_CFBSource_read rd m (MagmaCFBSource s k rl rr p) size w))
       (fun x => Ok (fst x, (mcr_source (snd x), mcr_ivl (snd x), mcr_ivr (snd x), mcr_plain (snd x)))).
Proof.
  unfold magma_cfb_read_t, magma_CFBSource_read. cbn [mcr_source mcr_key mcr_ivl mcr_ivr mcr_plain].
  rewrite fst_tbind. unfold mbind at 1. rewrite mloop_nm.
  rewrite (tloop_same _ _ (magma_step_same size) (Pos.to_nat (N.succ_pos size)) _ w).
  destruct (nmloop (Pos.to_nat (N.succ_pos size)) (magma_cfb_read_step rd m k size) (s, p, rl, rr, []) w)
    as [[[[[[s1 p1] l1] r1] res1]| | |] w1]; reflexivity.
Qed.

Lemma gost_read_same s p r size w :
  fst (gost_cfb_read_t kd sbt get m size s p r) =
  bind (fst (gost_CFBSource_read rd m (GostCFBSource s k r p) size w))
       (fun x => Ok (fst x, (gcr_source (snd x), gcr_iv (snd x), gcr_plain (snd x)))).
Proof.
  unfold gost_cfb_read_t, gost_CFBSource_read. cbn [gcr_source gcr_key gcr_iv gcr_plain].
  rewrite fst_tbind. unfold mbind at 1. rewrite mloop_nm.
  rewrite (tloop_same _ _ (gost_step_same size) (Pos.to_nat (N.succ_pos size)) _ w).
  destruct (nmloop (Pos.to_nat (N.succ_pos size)) (gost_cfb_read_step rd m k size) (s, p, r, []) w)
    as [[[[[s1 p1] r1] res1]| | |] w1]; reflexivity.
Qed.
End Same.

(** ** Two runs *)

Definition alike {A B} (P : A -> B -> Prop) (x : T A) (y : T B) : Prop :=
  both P (fst x) (fst y) /\ branches (snd x) = branches (snd y) /\ tables (snd x) = tables (snd y).

Lemma alike_bind {A B C D} (P : A -> B -> Prop) (Q : C -> D -> Prop) x y (f : A -> T C) (g : B -> T D) :
  alike P x y -> (forall a b, P a b -> alike Q (f a) (g b)) -> alike Q (tbind x f) (tbind y g).
Proof.
  intros (HP & HB & HT) H. unfold alike, tbind in *.
  destruct (fst x) as [a|e|u|], (fst y) as [b|e'|u'|]; cbn [both] in HP; try contradiction; cbn [fst snd both];
    try (now split; [|split]).
  destruct (H a b HP) as (H1 & H2 & H3). rewrite !branches_app, !tables_app, HB, HT, H2, H3. now split; [|split].
Qed.

Lemma alike_test {C D} (Q : C -> D -> Prop) b x y : alike Q x y -> alike Q (_ <~ test b ;; x) (_ <~ test b ;; y).
Proof.
  intros H. apply (alike_bind (fun _ _ => True)); [now split; [|split]|]. intros _ _ _. exact H.
Qed.

Lemma alike_lift {A B} (P : A -> B -> Prop) x y : both P x y -> alike P (tlift x) (tlift y).
Proof. intros H. now split; [|split]. Qed.

Lemma alike_ret {A B} (P : A -> B -> Prop) a b : P a b -> alike P (tret a) (tret b).
Proof. intros H. now apply alike_lift. Qed.

Lemma alike_quiet {A B} (x : T A) (y : T B) t : quiet x t -> quiet y t -> alike (fun _ _ => True) x y.
Proof.
  intros ([a Ha] & T1 & B1) ([b Hb] & T2 & B2). unfold alike. rewrite Ha, Hb, T1, T2, B1, B2. now split; [|split].
Qed.

Lemma alike_loop {A B C D} (P : A -> B -> Prop) (Q : C -> D -> Prop) f g :
  (forall a b, P a b -> alike (fun u v => match u, v with inl a, inl b => P a b | inr c, inr d => Q c d | _, _ => False end)
                              (f a) (g b)) ->
  forall n a b, P a b -> alike Q (tloop n f a) (tloop n g b).
Proof.
  intros H. induction n as [|n IH]; intros a b HP; [now split; [|split]|]. cbn [tloop].
  eapply alike_bind; [apply H, HP|]. intros [a1|c] [b1|d] HQ; try contradiction; [now apply IH|now apply alike_ret].
Qed.

Lemma len_eq (a b : bytes) : List.length a = List.length b -> len a = len b.
Proof. intros H. unfold len. now rewrite H. Qed.

Lemma drain_alike p : forall p' res res' size, List.length p = List.length p' -> List.length res = List.length res' ->
  alike (fun x y => List.length (fst x) = List.length (fst y) /\ List.length (snd x) = List.length (snd y))
        (drain_t p res size) (drain_t p' res' size).
Proof.
  induction p as [|b p IH]; intros [|b' p'] res res' size HP HR; try discriminate HP; cbn [drain_t].
  - apply alike_test, alike_ret. now split.
  - apply alike_test. cbv zeta. rewrite (len_eq _ _ HR). apply alike_test. destruct (len res' <? size).
    + apply IH; [now injection HP|rewrite !app_length, HR; reflexivity].
    + apply alike_ret. now split.
Qed.

Lemma foldM_both {A B C} (P : A -> B -> Prop) (f : A -> C -> res A) (g : B -> C -> res B) :
  (forall a b c, P a b -> both P (f a c) (g b c)) -> forall l a b, P a b -> both P (foldM f l a) (foldM g l b).
Proof.
  intros H. induction l as [|c l IH]; intros a b HP; [exact HP|]. cbn [foldM]. specialize (H a b c HP).
  destruct (f a c), (g b c); cbn [both bind] in *; try contradiction; try assumption. now apply IH.
Qed.

Definition same_length (a b : bytes) : Prop := List.length a = List.length b.

Lemma xor_at_both m a b i x y : same_length a b -> both same_length (xor_at m a i x) (xor_at m b i y).
Proof.
  unfold same_length, xor_at. intros H. rewrite H. destruct (Nat.ltb i (List.length b)).
  - cbn [both]. now rewrite !xor_nth_length.
  - destruct m; [reflexivity|exact H].
Qed.

Lemma source_xor_alike m p p' f s f' s' : same_length p p' ->
  alike same_length (source_xor_t m p f s) (source_xor_t m p' f' s').
Proof.
  intros H. split; [|unfold source_xor_t; cbn [snd]; unfold same_length in H; rewrite H; now split].
  cbn [source_xor_t fst]. unfold source_xor. revert p p' H.
  assert (G : forall l p p', same_length p p' ->
    both same_length
      (foldM (fun p i => p <- (if Nat.leb (0 + i) (List.length p) then xor_at m p (0 + i) (byte_of f i) else Ok p) ;;
                         (if Nat.leb (4 + i) (List.length p) then xor_at m p (4 + i) (byte_of s i) else Ok p)) l p)
      (foldM (fun p i => p <- (if Nat.leb (0 + i) (List.length p) then xor_at m p (0 + i) (byte_of f' i) else Ok p) ;;
                         (if Nat.leb (4 + i) (List.length p) then xor_at m p (4 + i) (byte_of s' i) else Ok p)) l p')).
  { apply foldM_both. intros a b i H.
    assert (K : forall j x y, forall a b, same_length a b ->
      both same_length (if Nat.leb j (List.length a) then xor_at m a j x else Ok a)
                       (if Nat.leb j (List.length b) then xor_at m b j y else Ok b)).
    { intros j x y a0 b0 E. rewrite E. destruct (Nat.leb j (List.length b0)); [now apply xor_at_both|exact E]. }
    pose proof (K (0 + i)%nat (byte_of f i) (byte_of f' i) a b H) as K1.
    destruct (if Nat.leb (0 + i) (List.length a) then _ else _),
             (if Nat.leb (0 + i) (List.length b) then _ else _); cbn [both bind] in *; try contradiction; try assumption.
    now apply K. }
  intros p p' H. now apply G.
Qed.

Lemma read8_both m p p' : same_length p p' -> both (fun _ _ => True) (read8 m p) (read8 m p').
Proof.
  unfold same_length, read8. intros H. rewrite H. destruct (Nat.leb 8 (List.length p')); [exact I|].
  now destruct m.
Qed.

Lemma load_reg_both m p p' : same_length p p' -> both (fun _ _ => True) (load_reg m p) (load_reg m p').
Proof.
  unfold load_reg. intros H. pose proof (read8_both m p p' H) as K. unfold same_length in H. rewrite H.
  destruct (Nat.ltb 8 (List.length p')); [reflexivity|].
  destruct (read8 m p), (read8 m p'); cbn [both bind] in *; try contradiction; assumption.
Qed.

Lemma write8_both m p p' d d' : same_length p p' -> same_length d d' -> both same_length (write8 m p d) (write8 m p' d').
Proof.
  unfold same_length, write8. intros H D. rewrite H. destruct (Nat.leb 8 (List.length p')).
  - cbn [both]. now rewrite !app_length, !skipn_length, H, D.
  - destruct m; [reflexivity|]. cbn [both]. now rewrite !firstn_length, D.
Qed.

Section FlowSources.
Context (kd kd' : keydata) (ws ws' : list N) (sb sb' : tsbox) (tb : list N).
Hypothesis Hkd : words_of kd ws.
Hypothesis Hkd' : words_of kd' ws'.
Hypothesis Hsb : forall v, v < 2 ^ 32 -> quiet (sb v) tb.
Hypothesis Hsb' : forall v, v < 2 ^ 32 -> quiet (sb' v) tb.
Context {St St' : Type} (get : St -> N -> res (bytes * St)) (get' : St' -> N -> res (bytes * St')) (m : mode)
  (R : St -> St' -> Prop).
Hypothesis Hget : same_amounts get get' R.

Lemma ecb_read_alike s s' size : R s s' ->
  alike (fun a b => same_length (fst (fst a)) (fst (fst b)) /\ R (snd (fst a)) (snd (fst b)) /\ snd a = snd b)
        (ECBSource_read_t kd sb get m s size) (ECBSource_read_t kd' sb' get' m s' size).
Proof.
  intros HR. unfold ECBSource_read_t. cbv zeta. apply alike_test.
  destruct (size <? N.of_nat block_size); [now apply alike_lift|].
  eapply alike_bind; [apply alike_lift, Hget, HR|]. intros [p s1] [p' s1'] [HL HR1]. cbn [fst snd] in HL, HR1.
  rewrite HL. apply alike_test. destruct (Nat.eqb (List.length p') 0); [apply alike_ret; now split; [|split]|].
  eapply alike_bind; [apply alike_lift, read8_both, HL|]. intros b b' _.
  eapply alike_bind; [eapply alike_quiet; [apply (quiet_decrypted kd ws sb tb Hkd Hsb)|apply (quiet_decrypted kd' ws' sb' tb Hkd' Hsb')]|].
  intros [f1 f2] [g1 g2] _.
  eapply alike_bind; [apply alike_lift, write8_both; [exact HL|unfold same_length; now rewrite !app_length, !to_le_length]|].
  intros q q' HQ. apply alike_ret. now split; [|split].
Qed.

Definition magma_related (a : St * bytes * N * N * bytes) (b : St' * bytes * N * N * bytes) : Prop :=
  let '(s, p, _, _, res) := a in let '(s', p', _, _, res') := b in
  R s s' /\ same_length p p' /\ same_length res res'.

Lemma magma_step_alike size a b : magma_related a b ->
  alike (fun u v => match u, v with inl a, inl b => magma_related a b | inr c, inr d => magma_related c d | _, _ => False end)
        (magma_read_step_t kd sb get m size a) (magma_read_step_t kd' sb' get' m size b).
Proof.
  destruct a as [[[[s p] rl] rr] res], b as [[[[s' p'] rl'] rr'] res']. intros (HR & HP & HS).
  unfold magma_read_step_t. cbv zeta. rewrite (len_eq _ _ HS). apply alike_test.
  destruct (len res' <? size); [|apply alike_ret; now split; [|split]].
  eapply alike_bind; [apply drain_alike; [exact HP|exact HS]|]. intros [r1 p1] [r1' p1'] [H1 H2]. cbn [fst snd] in H1, H2.
  rewrite (len_eq _ _ H1). apply alike_test. destruct (len r1' =? size); [apply alike_ret; now split; [|split]|].
  eapply alike_bind; [eapply alike_quiet; [apply (quiet_block kd ws sb tb Hkd Hsb)|apply (quiet_block kd' ws' sb' tb Hkd' Hsb')]|].
  intros [f1 f2] [g1 g2] _.
  eapply alike_bind; [apply alike_lift, Hget, HR|]. intros [q s1] [q' s1'] [HL HR1]. cbn [fst snd] in HL, HR1.
  rewrite HL. apply alike_test. destruct (Nat.eqb (List.length q') 0); [apply alike_ret; now split; [|split]|].
  eapply alike_bind; [apply alike_lift, load_reg_both, HL|]. intros v v' _.
  eapply alike_bind; [apply source_xor_alike, HL|]. intros w w' HW. apply alike_ret. now split; [|split].
Qed.

Lemma magma_read_alike s s' p p' rl rr rl' rr' size : R s s' -> same_length p p' ->
  alike (fun a b => let '(d, (s1, _, _, q)) := a in let '(d', (s1', _, _, q')) := b in
                    same_length d d' /\ R s1 s1' /\ same_length q q')
        (magma_cfb_read_t kd sb get m size s p rl rr) (magma_cfb_read_t kd' sb' get' m size s' p' rl' rr').
Proof.
  intros HR HP. unfold magma_cfb_read_t. apply (alike_bind magma_related).
  - apply (alike_loop magma_related magma_related _ _ (magma_step_alike size)). now split; [|split].
  - intros [[[[s1 p1] l1] r1] res1] [[[[s1' p1'] l1'] r1'] res1'] (H1 & H2 & H3). apply alike_ret. now split; [|split].
Qed.

Definition gost_related (a : St * bytes * N * bytes) (b : St' * bytes * N * bytes) : Prop :=
  let '(s, p, _, res) := a in let '(s', p', _, res') := b in
  R s s' /\ same_length p p' /\ same_length res res'.

Lemma gost_step_alike size a b : gost_related a b ->
  alike (fun u v => match u, v with inl a, inl b => gost_related a b | inr c, inr d => gost_related c d | _, _ => False end)
        (gost_read_step_t kd sb get m size a) (gost_read_step_t kd' sb' get' m size b).
Proof.
  destruct a as [[[s p] r] res], b as [[[s' p'] r'] res']. intros (HR & HP & HS).
  unfold gost_read_step_t. cbv zeta. rewrite (len_eq _ _ HS). apply alike_test.
  destruct (len res' <? size); [|apply alike_ret; now split; [|split]].
  eapply alike_bind; [apply drain_alike; [exact HP|exact HS]|]. intros [r1 p1] [r1' p1'] [H1 H2]. cbn [fst snd] in H1, H2.
  rewrite (len_eq _ _ H1). apply alike_test. destruct (len r1' =? size); [apply alike_ret; now split; [|split]|].
  eapply alike_bind; [eapply alike_quiet; [apply (quiet_block kd ws sb tb Hkd Hsb)|apply (quiet_block kd' ws' sb' tb Hkd' Hsb')]|].
  intros [f1 f2] [g1 g2] _.
  eapply alike_bind; [apply alike_lift, Hget, HR|]. intros [q s1] [q' s1'] [HL HR1]. cbn [fst snd] in HL, HR1.
  rewrite HL. apply alike_test. destruct (Nat.eqb (List.length q') 0); [apply alike_ret; now split; [|split]|].
  eapply alike_bind; [apply alike_lift, load_reg_both, HL|]. intros v v' _.
  eapply alike_bind; [apply source_xor_alike, HL|]. intros w w' HW. apply alike_ret. now split; [|split].
Qed.

Lemma gost_read_alike s s' p p' r r' size : R s s' -> same_length p p' ->
  alike (fun a b => let '(d, (s1, _, q)) := a in let '(d', (s1', _, q')) := b in
                    same_length d d' /\ R s1 s1' /\ same_length q q')
        (gost_cfb_read_t kd sb get m size s p r) (gost_cfb_read_t kd' sb' get' m size s' p' r').
Proof.
  intros HR HP. unfold gost_cfb_read_t. apply (alike_bind gost_related).
  - apply (alike_loop gost_related gost_related _ _ (gost_step_alike size)). now split; [|split].
  - intros [[[s1 p1] r1] res1] [[[s1' p1'] r1'] res1'] (H1 & H2 & H3). apply alike_ret. now split; [|split].
Qed.
End FlowSources.

(** ** Any number of reads *)

Lemma reads_alike {O O'} (P : O -> O' -> Prop) read read' :
  (forall o o' n, P o o' -> alike (fun a b => same_length (fst a) (fst b) /\ P (snd a) (snd b)) (read o n) (read' o' n)) ->
  forall sizes o o', P o o' -> alike (Forall2 same_length) (reads read o sizes) (reads read' o' sizes).
Proof.
  intros H. induction sizes as [|n sizes IH]; intros o o' HP; cbn [reads]; [apply alike_ret; constructor|].
  eapply alike_bind; [apply H, HP|]. intros a b [HL HN].
  eapply alike_bind; [apply IH, HN|]. intros ds ds' HD. apply alike_ret. now constructor.
Qed.

Section FlowReads.
Context (kd kd' : keydata) (ws ws' : list N) (sb sb' : tsbox) (tb : list N).
Hypothesis Hkd : words_of kd ws.
Hypothesis Hkd' : words_of kd' ws'.
Hypothesis Hsb : forall v, v < 2 ^ 32 -> quiet (sb v) tb.
Hypothesis Hsb' : forall v, v < 2 ^ 32 -> quiet (sb' v) tb.
Context {St St' : Type} (get : St -> N -> res (bytes * St)) (get' : St' -> N -> res (bytes * St')) (m : mode)
  (R : St -> St' -> Prop).
Hypothesis Hget : same_amounts get get' R.

Lemma gost_reads_alike sizes s s' p p' l l' : R s s' -> same_length p p' ->
  alike (Forall2 same_length)
    (reads (fun o n => let '(s, l, q) := o in gost_cfb_read_t kd sb get m n s q l) (s, l, p) sizes)
    (reads (fun o n => let '(s, l, q) := o in gost_cfb_read_t kd' sb' get' m n s q l) (s', l', p') sizes).
Proof.
  intros HR HP.
  apply (reads_alike (fun o o' => let '(s, _, q) := o in let '(s', _, q') := o' in R s s' /\ same_length q q')); [|now split].
  intros [[s1 l1] q1] [[s1' l1'] q1'] n [HR1 HQ1].
  destruct (gost_read_alike kd kd' ws ws' sb sb' tb Hkd Hkd' Hsb Hsb' get get' m R Hget s1 s1' q1 q1' l1 l1' n HR1 HQ1)
    as (HB & HE). split; [|exact HE].
  destruct (fst (gost_cfb_read_t kd sb get m n s1 q1 l1)) as [[d [[s2 l2] q2]]| | |],
           (fst (gost_cfb_read_t kd' sb' get' m n s1' q1' l1')) as [[d' [[s2' l2'] q2']]| | |];
    cbn [both fst snd] in *; try contradiction; try assumption.
Qed.

Lemma magma_reads_alike sizes s s' p p' l r l' r' : R s s' -> same_length p p' ->
  alike (Forall2 same_length)
    (reads (fun o n => let '(s, l, r, q) := o in magma_cfb_read_t kd sb get m n s q l r) (s, l, r, p) sizes)
    (reads (fun o n => let '(s, l, r, q) := o in magma_cfb_read_t kd' sb' get' m n s q l r) (s', l', r', p') sizes).
Proof.
  intros HR HP.
  apply (reads_alike (fun o o' => let '(s, _, _, q) := o in let '(s', _, _, q') := o' in R s s' /\ same_length q q')); [|now split].
  intros [[[s1 l1] r1] q1] [[[s1' l1'] r1'] q1'] n [HR1 HQ1].
  destruct (magma_read_alike kd kd' ws ws' sb sb' tb Hkd Hkd' Hsb Hsb' get get' m R Hget s1 s1' q1 q1' l1 r1 l1' r1' n HR1 HQ1)
    as (HB & HE). split; [|exact HE].
  destruct (fst (magma_cfb_read_t kd sb get m n s1 q1 l1 r1)) as [[d [[[s2 l2] r2] q2]]| | |],
           (fst (magma_cfb_read_t kd' sb' get' m n s1' q1' l1' r1')) as [[d' [[[s2' l2'] r2'] q2']]| | |];
    cbn [both fst snd] in *; try contradiction; try assumption.
Qed.
End FlowReads.
