(** Proofs about ReentModel.v. *)
From Verif Require Import Base CacheModel ReentModel SpecReent Lib CacheProofs.
From Coq Require Import Lia.
Local Open Scope N_scope.

Lemma set_nth_length l : forall i x, List.length (set_nth l i x) = List.length l.
Proof. induction l as [|a l IH]; intros [|i] x; cbn; auto. Qed.

Section Key.
Context {W : Type}.

(** ** Without calls back *)
Section Same.
Context (f : Z -> M W N).
Notation inner := (fun i => of_M (f i)).

Lemma load_same back n : forall i key w,
  kr_load inner back n i (KCache false key, w) =
  let '(r, (key, w)) := kc_load f n i key w in (r, (KCache false key, w)).
Proof.
  induction n as [|n IH]; intros i key w; [reflexivity|]. cbn [kr_load kc_load of_M run fst snd].
  destruct (f (Z.of_nat i) w) as [[v| | |] w1]; cbn [fst snd]; try reflexivity.
  cbn [kc_cached kc_key]. apply IH.
Qed.

Lemma call_same d i c w : List.length (kc_key c) = 8%nat ->
  kr_call inner (S d) i (c, w) = kc_call f i (c, w).
Proof.
  intros H. cbn [kr_call fst]. unfold kc_call. destruct c as [[|] key]; cbn [kc_cached kc_key] in *; [reflexivity|].
  rewrite H, load_same. destruct (kc_load f 8 0 key w) as [[[]| | |] [key' w']]; reflexivity.
Qed.

Lemma load_length n : forall i key w r key' w', kc_load f n i key w = (r, (key', w')) ->
  List.length key' = List.length key.
Proof.
  induction n as [|n IH]; intros i key w r key' w' H; cbn [kc_load] in H; [now injection H as _ <- _|].
  destruct (f (Z.of_nat i) w) as [[v| | |] w1]; try (now injection H as _ <- _).
  apply IH in H. now rewrite set_nth_length in H.
Qed.

Lemma call_length i c w r c' w' : kc_call f i (c, w) = (r, (c', w')) ->
  List.length (kc_key c') = List.length (kc_key c).
Proof.
  unfold kc_call. destruct (kc_cached c); [intros H; now injection H as _ <- _|].
  destruct (kc_load f _ 0 (kc_key c) w) as [[[]| | |] [key' w1]] eqn:E; intros H; injection H as _ <- _;
    exact (load_length _ _ _ _ _ _ _ E).
Qed.

Lemma calls_same d h : forall c w, List.length (kc_key c) = 8%nat ->
  kr_calls inner (S d) h (c, w) = kc_calls f h (c, w).
Proof.
  induction h as [|i h IH]; intros c w H; [reflexivity|]. cbn [kr_calls kc_calls].
  rewrite call_same by exact H. destruct (kc_call f i (c, w)) as [x [c1 w1]] eqn:E.
  rewrite IH by (rewrite (call_length _ _ _ _ _ _ E); exact H). reflexivity.
Qed.
End Same.

Context (inner : Z -> script W Z N).

(** ** After the outermost call *)
Lemma settled d i c w v c' w' : kr_call inner d i (c, w) = (Ok v, (c', w')) ->
  kc_cached c' = true /\ at_int (kc_key c') i = Ok v.
Proof.
  destruct d as [|d]; [discriminate|]. cbn [kr_call fst]. destruct (kc_cached c) eqn:Ec.
  - intros H. injection H as H <- _. now split.
  - destruct (kr_load inner (kr_call inner d) 8 0 (c, w)) as [[[]| | |] [c1 w1]]; try discriminate.
    intros H. injection H as H <- _. now split.
Qed.

Lemma later d j c w : kc_cached c = true -> kr_call inner (S d) j (c, w) = (at_int (kc_key c) j, (c, w)).
Proof. intros H. cbn [kr_call fst]. now rewrite H. Qed.

Lemma laters d h c w : kc_cached c = true ->
  kr_calls inner (S d) h (c, w) = (map (at_int (kc_key c)) h, (c, w)).
Proof.
  intros H. induction h as [|i h IH]; [reflexivity|]. cbn [kr_calls map]. rewrite (later d i c w H), IH. reflexivity.
Qed.

(** ** Objects that always call back *)
Lemma run_stuck {C} (back : Z -> M (C * W) N) : (forall q cw, fst (back q cw) = OutOfFuel) ->
  forall s : script W Z N, calls_first s -> forall cw, fst (run back s cw) = OutOfFuel.
Proof.
  intros H. induction s as [r|f k IH|q k IH]; intros Hs cw; cbn [calls_first] in Hs; [easy| |]; cbn [run].
  - apply IH, Hs.
  - specialize (H q cw). destruct (back q cw) as [r cw']. cbn [fst] in H. now subst r.
Qed.

Lemma stuck (H : calls_first (inner 0)) d : forall i key w,
  exists cw, kr_call inner d i (KCache false key, w) = (OutOfFuel, cw) /\ fst cw = KCache false key.
Proof.
  induction d as [|d IH]; intros i key w; [eexists; split; reflexivity|].
  cbn [kr_call fst kc_cached kr_load]. change (Z.of_nat 0) with 0%Z.
  assert (R : forall s : script W Z N, calls_first s -> forall w,
    exists cw, run (kr_call inner d) s (KCache false key, w) = (OutOfFuel, cw) /\ fst cw = KCache false key).
  { induction s as [r|f k IHs|q k IHs]; intros Hs w0; cbn [calls_first] in Hs; [easy| |]; cbn [run fst snd].
    - apply IHs, Hs.
    - destruct (IH q key w0) as (cw & E & F). rewrite E. eauto. }
  destruct (R _ H w) as (cw & E & F). rewrite E. eauto.
Qed.

(** ** Objects that always say the same *)
Section Fixed.
Context (words : list N).
Hypothesis L8 : List.length words = 8%nat.
Notation right := (fun q v => at_int words q = Ok v).
Hypothesis HS : forall i, (i < 8)%nat -> says right (fun v => nth_error words i = Some (w32 v)) (inner (Z.of_nat i)).

Definition good (c : kcache) : Prop :=
  List.length (kc_key c) = 8%nat /\ (kc_cached c = true -> kc_key c = words).

(** What has been stored rightly stays. *)
Definition keeps (c c' : kcache) : Prop :=
  (forall p x, nth_error words p = Some x -> nth_error (kc_key c) p = Some x -> nth_error (kc_key c') p = Some x).

Lemma keeps_refl c : keeps c c.
Proof. intros p x _ H. exact H. Qed.
Lemma keeps_trans a b c : keeps a b -> keeps b c -> keeps a c.
Proof. intros H1 H2 p x Hx H. eapply H2, H1; eauto. Qed.

Lemma set_nth_same l : forall i x, nth_error l i = Some x -> set_nth l i x = l.
Proof. induction l as [|a l IH]; intros [|i] x H; cbn in *; [discriminate..|congruence|f_equal; auto]. Qed.
Lemma set_nth_at l : forall i x, (i < List.length l)%nat -> nth_error (set_nth l i x) i = Some x.
Proof. induction l as [|a l IH]; intros [|i] x H; cbn in *; [lia..|reflexivity|apply IH; lia]. Qed.
Lemma set_nth_other l : forall i p x, p <> i -> nth_error (set_nth l i x) p = nth_error l p.
Proof. induction l as [|a l IH]; intros [|i] [|p] x H; cbn; try congruence; auto. Qed.

Lemma nth_ext_error (l : list N) : forall l', (forall p, nth_error l p = nth_error l' p) -> l = l'.
Proof.
  induction l as [|a l IH]; intros [|b l'] H; [reflexivity|discriminate (H 0%nat)..|].
  pose proof (H 0%nat) as H0. cbn in H0. injection H0 as ->. f_equal. apply IH. intros p. exact (H (S p)).
Qed.

Definition fine (back : Z -> M (kcache * W) N) : Prop :=
  forall q c w r c' w', good c -> back q (c, w) = (r, (c', w')) ->
    good c' /\ keeps c c' /\ (forall v, r = Ok v -> at_int words q = Ok v).

Lemma run_fine back (H : fine back) P : forall s : script W Z N, says right P s ->
  forall c w r c' w', good c -> run back s (c, w) = (r, (c', w')) ->
    good c' /\ keeps c c' /\ (forall v, r = Ok v -> P v).
Proof.
  induction s as [r0|f k IH|q k IH]; intros Hs c w r c' w' G E; cbn [says] in Hs; cbn [run fst snd] in E.
  - injection E as <- <- _. split; [exact G|]. split; [apply keeps_refl|]. intros v ->. exact Hs.
  - eapply IH; [apply Hs|exact G|exact E].
  - destruct (back q (c, w)) as [a [c1 w1]] eqn:Eb. destruct (H q c w a c1 w1 G Eb) as (G1 & K1 & A).
    destruct a as [v|e|u|].
    + destruct (IH (inl v) (Hs (inl v) (A v eq_refl)) c1 w1 r c' w' G1 E) as (G2 & K2 & B).
      split; [exact G2|]. split; [exact (keeps_trans _ _ _ K1 K2)|exact B].
    + destruct (IH (inr e) (Hs (inr e) I) c1 w1 r c' w' G1 E) as (G2 & K2 & B).
      split; [exact G2|]. split; [exact (keeps_trans _ _ _ K1 K2)|exact B].
    + injection E as <- <- _. split; [exact G1|]. split; [exact K1|discriminate].
    + injection E as <- <- _. split; [exact G1|]. split; [exact K1|discriminate].
Qed.

Lemma load_fine back (H : fine back) n : forall i c w r c' w', good c -> (i + n = 8)%nat ->
  (forall p, (p < i)%nat -> nth_error (kc_key c) p = nth_error words p) ->
  kr_load inner back n i (c, w) = (r, (c', w')) ->
  good c' /\ keeps c c' /\ (r = Ok tt -> kc_key c' = words).
Proof.
  induction n as [|n IH]; intros i c w r c' w' G Hi Hp E; cbn [kr_load] in E.
  - injection E as <- <- _. split; [exact G|]. split; [apply keeps_refl|]. intros _.
    apply nth_ext_error; intros p. destruct (Nat.lt_ge_cases p 8) as [L|L]; [apply Hp; lia|].
    rewrite (proj2 (nth_error_None _ _)), (proj2 (nth_error_None _ _)); [reflexivity|lia|destruct G as [G _]; lia].
  - destruct (run back (inner (Z.of_nat i)) (c, w)) as [a [c1 w1]] eqn:Er.
    destruct (run_fine back H _ _ (HS i ltac:(lia)) c w a c1 w1 G Er) as (G1 & K1 & A).
    destruct a as [v|e|u|];
      [|injection E as <- <- _; (split; [exact G1|]; split; [exact K1|discriminate])..].
    specialize (A v eq_refl).
    set (c2 := KCache (kc_cached c1) (set_nth (kc_key c1) i (w32 v))) in *.
    assert (G2 : good c2).
    { split; cbn [c2 kc_key kc_cached]; [rewrite set_nth_length; apply G1|]. intros Hc.
      rewrite set_nth_same; [now apply G1|]. now rewrite (proj2 G1 Hc). }
    assert (K2 : keeps c1 c2).
    { intros p x Hx Hk. cbn [c2 kc_key]. destruct (Nat.eq_dec p i) as [->|Hne].
      - rewrite set_nth_at by (rewrite (proj1 G1); lia). congruence.
      - now rewrite set_nth_other. }
    assert (P2 : forall p, (p < S i)%nat -> nth_error (kc_key c2) p = nth_error words p).
    { intros p Hlt. cbn [c2 kc_key]. destruct (Nat.eq_dec p i) as [->|Hne].
      - rewrite set_nth_at by (rewrite (proj1 G1); lia). now rewrite A.
      - rewrite set_nth_other by exact Hne. destruct (nth_error words p) as [x|] eqn:Ex.
        + apply K1; [exact Ex|]. rewrite Hp by lia. exact Ex.
        + apply nth_error_None in Ex. lia. }
    destruct (IH (S i) c2 w1 r c' w' G2 ltac:(lia) P2 E) as (G3 & K3 & B).
    split; [exact G3|]. split; [|exact B].
    exact (keeps_trans _ _ _ K1 (keeps_trans _ _ _ K2 K3)).
Qed.

Lemma call_fine d : fine (kr_call inner d).
Proof.
  induction d as [|d IH]; intros q c w r c' w' G E; cbn [kr_call fst] in E.
  - injection E as <- <- _. split; [exact G|]. split; [apply keeps_refl|discriminate].
  - destruct (kc_cached c) eqn:Ec.
    + injection E as <- <- _. split; [exact G|]. split; [apply keeps_refl|]. intros v Hv. now rewrite <- (proj2 G Ec).
    + destruct (kr_load inner (kr_call inner d) 8 0 (c, w)) as [a [c1 w1]] eqn:El.
      destruct (load_fine _ IH 8 0 c w a c1 w1 G eq_refl ltac:(intros p Hp; lia) El) as (G1 & K1 & A).
      destruct a as [[]|e|u|];
        [|injection E as <- <- _; (split; [exact G1|]; split; [exact K1|discriminate])..].
      injection E as <- <- _. specialize (A eq_refl). split; [|split].
      * split; cbn [kc_key]; [apply G1|]. intros _. exact A.
      * exact K1.
      * intros v Hv. now rewrite <- A.
Qed.
End Fixed.

Lemma fixed_words words d i w v c' w' : List.length words = 8%nat ->
  (forall i, (i < 8)%nat ->
     says (fun q v => at_int words q = Ok v) (fun v => nth_error words i = Some (w32 v)) (inner (Z.of_nat i))) ->
  kr_call inner d i (kcache_init, w) = (Ok v, (c', w')) ->
  at_int words i = Ok v /\ kc_cached c' = true /\ kc_key c' = words.
Proof.
  intros L HS E.
  assert (G : good words kcache_init) by (split; [reflexivity|discriminate]).
  destruct (call_fine words L HS d i kcache_init w _ c' w' G E) as (G1 & _ & A).
  destruct (settled d i kcache_init w v c' w' E) as [C _].
  split; [now apply A|]. split; [exact C|]. now apply G1.
Qed.

(** A history of calls from outside. *)
Lemma fixed_history words d h : List.length words = 8%nat ->
  (forall i, (i < 8)%nat ->
     says (fun q v => at_int words q = Ok v) (fun v => nth_error words i = Some (w32 v)) (inner (Z.of_nat i))) ->
  forall c w, good words c ->
  Forall2 (fun i r => forall v, r = Ok v -> at_int words i = Ok v) h (fst (kr_calls inner d h (c, w))).
Proof.
  intros L HS. induction h as [|i h IH]; intros c w G; [constructor|]. cbn [kr_calls].
  destruct (kr_call inner d i (c, w)) as [x [c1 w1]] eqn:E.
  destruct (call_fine words L HS d i c w x c1 w1 G E) as (G1 & _ & A).
  specialize (IH c1 w1 G1). destruct (kr_calls inner d h (c1, w1)) as [xs cw2]. cbn [fst] in *.
  constructor; assumption.
Qed.
End Key.

Section Block.
Context {W : Type}.

Lemma br_same (f : M W (N * N)) d c w :
  br_call (of_M f) (S d) tt (c, w) = bc_call f (c, w).
Proof.
  cbn [br_call of_M run fst snd]. unfold bc_call. destruct c as [[|] st]; cbn [bc_loaded bc_state]; [reflexivity|].
  destruct (f w) as [[v| | |] w']; reflexivity.
Qed.

Context (inner : script W unit (N * N)).

Lemma br_settled d q c w v c' w' : br_call inner d q (c, w) = (Ok v, (c', w')) -> c' = BCache true v.
Proof.
  destruct d as [|d]; [discriminate|]. cbn [br_call fst]. destruct c as [[|] st]; cbn [bc_loaded bc_state].
  - intros H. now injection H as <- <- _.
  - destruct (run (br_call inner d) inner (BCache false st, w)) as [[x| | |] [c1 w1]]; try discriminate.
    intros H. now injection H as <- <- _.
Qed.

Lemma br_later d q v w : br_call inner (S d) q (BCache true v, w) = (Ok v, (BCache true v, w)).
Proof. reflexivity. Qed.

Lemma br_stuck (H : calls_first inner) d : forall q st w,
  exists cw, br_call inner d q (BCache false st, w) = (OutOfFuel, cw) /\ fst cw = BCache false st.
Proof.
  induction d as [|d IH]; intros q st w; [eexists; split; reflexivity|]. cbn [br_call fst bc_loaded].
  assert (R : forall s : script W unit (N * N), calls_first s -> forall w,
    exists cw, run (br_call inner d) s (BCache false st, w) = (OutOfFuel, cw) /\ fst cw = BCache false st).
  { induction s as [r|f k IHs|q' k IHs]; intros Hs w0; cbn [calls_first] in Hs; [easy| |]; cbn [run fst snd].
    - apply IHs, Hs.
    - destruct (IH q' st w0) as (cw & E & F). rewrite E. eauto. }
  destruct (R _ H w) as (cw & E & F). rewrite E. eauto.
Qed.

Context (x : N * N) (HS : says (fun (_ : unit) v => v = x) (fun v => v = x) inner).
Definition bgood (c : bcache) : Prop := bc_loaded c = true -> bc_state c = x.

Lemma br_fine d : forall q c w r c' w', bgood c -> br_call inner d q (c, w) = (r, (c', w')) ->
  bgood c' /\ forall v, r = Ok v -> v = x.
Proof.
  induction d as [|d IH]; intros q c w r c' w' G E; cbn [br_call fst] in E.
  - injection E as <- <- _. split; [exact G|discriminate].
  - destruct (bc_loaded c) eqn:Ec.
    { injection E as <- <- _. split; [exact G|]. intros v Hv. injection Hv as <-. now apply G. }
    assert (R : forall s : script W unit (N * N), says (fun (_ : unit) v => v = x) (fun v => v = x) s ->
      forall c w r c' w', bgood c -> run (br_call inner d) s (c, w) = (r, (c', w')) ->
      bgood c' /\ forall v, r = Ok v -> v = x).
    { induction s as [r0|f k IHs|q' k IHs]; intros Hs c0 w0 r1 c1 w1 G0 E0; cbn [says] in Hs; cbn [run fst snd] in E0.
      - injection E0 as <- <- _. split; [exact G0|]. intros v ->. exact Hs.
      - eapply IHs; [apply Hs|exact G0|exact E0].
      - destruct (br_call inner d q' (c0, w0)) as [a [c2 w2]] eqn:Eb. destruct (IH q' c0 w0 a c2 w2 G0 Eb) as (G2 & A).
        destruct a as [v|e|u|].
        + exact (IHs (inl v) (Hs (inl v) (A v eq_refl)) c2 w2 r1 c1 w1 G2 E0).
        + exact (IHs (inr e) (Hs (inr e) I) c2 w2 r1 c1 w1 G2 E0).
        + injection E0 as <- <- _. split; [exact G2|discriminate].
        + injection E0 as <- <- _. split; [exact G2|discriminate]. }
    destruct (run (br_call inner d) inner (c, w)) as [a [c1 w1]] eqn:Er.
    destruct (R _ HS c w a c1 w1 G Er) as (G1 & A).
    destruct a as [v|e|u|]; injection E as <- <- _; [|split; [exact G1|discriminate]..].
    split; [intros _; now apply A|]. intros v' Hv. injection Hv as <-. now apply A.
Qed.
End Block.

(** ** C101 *)

Lemma c101_refuted (d : nat) : (2 <= d)%nat ->
  exists c w, kr_call curious d 0 (kcache_init, (0, [])) = (Ok 100, (c, w)) /\ snd w = [101] /\
    forall d' w', kr_call curious (S d') 0 (c, w') = (Ok 100, (c, w')).
Proof.
  intros H. destruct d as [|[|d]]; [lia..|]. exists (KCache true [100; 109; 110; 111; 112; 113; 114; 115]), (16, [101]).
  split; [vm_compute; reflexivity|]. split; [reflexivity|]. intros d' w'. reflexivity.
Qed.

Lemma c101_refuted_mixed (d : nat) : (2 <= d)%nat ->
  exists c w, kr_call curious_and_weak d 0 (kcache_init, 0) = (Throw (UserExn 1), (c, w)) /\
    forall d' w', fst (kr_calls curious_and_weak (S d') [0; 1; 2; 3; 4; 5; 6; 7]%Z (c, w')) =
      [Ok 100; Ok 102; Ok 103; Ok 104; Ok 105; Ok 106; Ok 107; Ok 108].
Proof.
  intros H. destruct d as [|[|d]]; [lia..|]. exists (KCache true [100; 102; 103; 104; 105; 106; 107; 108]), 10.
  split; [vm_compute; reflexivity|]. intros d' w'. reflexivity.
Qed.

Lemma c101_refuted_stack {W} (inner : Z -> script W Z N) (d : nat) (i : Z) (w : W) :
  calls_first (inner 0%Z) -> fst (kr_call inner d i (kcache_init, w)) = OutOfFuel.
Proof. intros H. destruct (stuck inner H d i (repeat 0 8) w) as (cw & E & _). exact (f_equal fst E). Qed.

Lemma c101_refuted_stack_block {W} (inner : script W unit (N * N)) (d : nat) (w : W) :
  calls_first inner -> fst (br_call inner d tt (bcache_init, w)) = OutOfFuel.
Proof. intros H. destruct (br_stuck inner H d tt (0, 0) w) as (cw & E & _). exact (f_equal fst E). Qed.

Lemma c101_refuted_block (d : nat) : (2 <= d)%nat ->
  exists c w, br_call curious_block d tt (bcache_init, (0, [])) = (Ok (0, 0), (c, w)) /\ snd w = [(1, 0)] /\
    forall d' w', br_call curious_block (S d') tt (c, w') = (Ok (0, 0), (c, w')).
Proof.
  intros H. destruct d as [|[|d]]; [lia..|]. exists (BCache true (0, 0)), (2, [(1, 0)]).
  split; [vm_compute; reflexivity|]. split; [reflexivity|]. intros d' w'. reflexivity.
Qed.

Lemma c101_same {W} (f : Z -> M W N) (g : M W (N * N)) (d : nat) (h : list Z) (w : W) (c : bcache) :
  kr_calls (fun i => of_M (f i)) (S d) h (kcache_init, w) = kc_calls f h (kcache_init, w) /\
  br_call (of_M g) (S d) tt (c, w) = bc_call g (c, w).
Proof. split; [now apply calls_same|apply br_same]. Qed.

Lemma c101_settled_partial {W} (inner : Z -> script W Z N) d i c (w : W) v c' w' :
  kr_call inner d i (c, w) = (Ok v, (c', w')) ->
  exists ws, at_int ws i = Ok v /\
    forall d' h w2, kr_calls inner (S d') h (c', w2) = (map (at_int ws) h, (c', w2)).
Proof.
  intros H. destruct (settled inner d i c w v c' w' H) as [C A].
  exists (kc_key c'). split; [exact A|]. intros d' h w2. now apply laters.
Qed.

Lemma c101_settled_block_partial {W} (inner : script W unit (N * N)) d c (w : W) v c' w' :
  br_call inner d tt (c, w) = (Ok v, (c', w')) ->
  forall d' w2, br_call inner (S d') tt (c', w2) = (Ok v, (c', w2)).
Proof. intros H d' w2. rewrite (br_settled inner d tt c w v c' w' H). apply br_later. Qed.

Lemma c101_fixed_partial {W} (inner : Z -> script W Z N) (words : list N) (d : nat) (h : list Z) (w : W) :
  List.length words = 8%nat ->
  (forall i, (i < 8)%nat ->
     says (fun q v => at_int words q = Ok v) (fun v => nth_error words i = Some (w32 v)) (inner (Z.of_nat i))) ->
  Forall2 (fun i r => forall v, r = Ok v -> at_int words i = Ok v) h
    (fst (kr_calls inner d h (kcache_init, w))).
Proof. intros L HS. apply (fixed_history inner words d h L HS). split; [reflexivity|discriminate]. Qed.

Lemma c101_fixed_block_partial {W} (inner : script W unit (N * N)) (x : N * N) d (w : W) v c' w' :
  says (fun _ v => v = x) (fun v => v = x) inner ->
  br_call inner d tt (bcache_init, w) = (Ok v, (c', w')) -> v = x /\ c' = BCache true x.
Proof.
  intros HS E. destruct (br_fine inner x HS d tt bcache_init w (Ok v) c' w' ltac:(discriminate) E) as [_ A].
  split; [now apply A|]. rewrite (br_settled inner d tt _ w v c' w' E). f_equal. now apply A.
Qed.
