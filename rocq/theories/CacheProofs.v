(** Proofs about the caching decorators. *)
From Verif Require Import Base Lib MagmaModel CacheModel SpecCache SboxProofs.
From Coq Require Import ZifyNat ZifyN ZifyBool.
Local Open Scope N_scope.

Lemma set_nth_length l i x : List.length (set_nth l i x) = List.length l.
Proof. revert i. induction l; intros [|i]; cbn; auto. Qed.

Lemma set_nth_app a b r x : set_nth (a ++ b :: r) (List.length a) x = a ++ x :: r.
Proof. induction a; cbn; congruence. Qed.

Section KeyCacheProofs.
Context {W : Type} (inner : Z -> M W N).

(** One word as the array stores it. *)
Definition ask_word (i : Z) : M W N := v <-- inner i ;; mret (w32 v).

Lemma kc_load_ask n : forall done rest w, List.length rest = n ->
  match ask_all ask_word (map Z.of_nat (seq (List.length done) n)) w with
  | (Ok ws, w') => kc_load inner n (List.length done) (done ++ rest) w = (Ok tt, (done ++ ws, w'))
                   /\ List.length ws = n
  | (r, w') => exists key x, kc_load inner n (List.length done) (done ++ rest) w = (x, (key, w')) /\
                 List.length key = List.length (done ++ rest) /\ failed r x
  end.
Proof.
  induction n as [|n IH]; intros done rest w Hl.
  - destruct rest; [|discriminate]. cbn. auto.
  - destruct rest as [|b rest]; [discriminate|]. injection Hl as Hl.
    cbn [seq map ask_all kc_load]. unfold ask_word at 1, mbind, mret.
    destruct (inner (Z.of_nat (List.length done)) w) as [[v|e|u|] w'] eqn:E.
    + rewrite set_nth_app. specialize (IH (done ++ [w32 v]) rest w' Hl).
      rewrite app_length, Nat.add_1_r in IH.
      rewrite <- !app_assoc in IH. cbn [app] in IH.
      destruct (ask_all ask_word (map Z.of_nat (seq (S (List.length done)) n)) w')
        as [[ws|e|u|] w''] eqn:E'.
      * destruct IH as [IH1 IH2]. rewrite IH1, <- app_assoc. cbn [List.length]. split; [reflexivity|congruence].
      * destruct IH as (key & x & H1 & H2 & H3). exists key, x. rewrite app_length in *. auto.
      * destruct IH as (key & x & H1 & H2 & H3). exists key, x. rewrite app_length in *. auto.
      * destruct IH as (key & x & H1 & H2 & H3). exists key, x. rewrite app_length in *. auto.
    + exists (done ++ b :: rest), (Throw e). cbn; auto.
    + exists (done ++ b :: rest), (Undef u). cbn; auto.
    + exists (done ++ b :: rest), OutOfFuel. cbn; auto.
Qed.

Lemma kc_calls_loaded ks : forall is_ w,
  kc_calls inner is_ (KCache true ks, w) = (map (at_int ks) is_, (KCache true ks, w)).
Proof.
  induction is_ as [|i r IH]; intros w; [reflexivity|].
  cbn [kc_calls kc_call kc_cached kc_key]. rewrite IH. reflexivity.
Qed.

Lemma kc_calls_history is_ : forall key w xs c' w',
  List.length key = 8%nat ->
  kc_calls inner is_ (KCache false key, w) = (xs, (c', w')) ->
  cache_history (ask_all ask_word [0; 1; 2; 3; 4; 5; 6; 7]%Z) at_int is_ w xs w'.
Proof.
  induction is_ as [|i r IH]; intros key w xs c' w' Hk H.
  - injection H as <- _ <-. constructor.
  - cbn [kc_calls kc_call kc_cached kc_key] in H.
    pose proof (kc_load_ask 8 [] key w Hk) as L. cbn [List.length app] in L.
    change (map Z.of_nat (seq 0 8)) with [0; 1; 2; 3; 4; 5; 6; 7]%Z in L. rewrite Hk in H.
    destruct (ask_all ask_word [0; 1; 2; 3; 4; 5; 6; 7]%Z w) as [[ws|e|u|] w1] eqn:E.
    + destruct L as [L Lw]. rewrite L, kc_calls_loaded in H. injection H as <- _ <-.
      now apply (ch_load _ _ i r w ws w1).
    + destruct L as (key' & x & L & Lk & F). rewrite L in H.
      destruct x; try contradiction. cbn in F. subst e0.
      destruct (kc_calls inner r (KCache false key', w1)) as [ys [c2 w2]] eqn:Er.
      injection H as <- <- <-.
      eapply ch_fail; [exact E| |eapply IH; [|exact Er]; congruence]. reflexivity.
    + destruct L as (key' & x & L & Lk & F). rewrite L in H.
      destruct x; try contradiction. cbn in F. subst u0.
      destruct (kc_calls inner r (KCache false key', w1)) as [ys [c2 w2]] eqn:Er.
      injection H as <- <- <-.
      eapply ch_fail; [exact E| |eapply IH; [|exact Er]; congruence]. reflexivity.
    + destruct L as (key' & x & L & Lk & F). rewrite L in H.
      destruct x; try contradiction.
      destruct (kc_calls inner r (KCache false key', w1)) as [ys [c2 w2]] eqn:Er.
      injection H as <- <- <-.
      eapply ch_fail; [exact E| |eapply IH; [|exact Er]; congruence]. exact I.
Qed.
End KeyCacheProofs.

(** The history specification determines the answers and the world. *)
Lemma cache_history_functional {W D C R} (load : M W D) (look : D -> C -> res R) cs :
  forall w xs w1 ys w2,
  cache_history load look cs w xs w1 -> cache_history load look cs w ys w2 -> xs = ys /\ w1 = w2.
Proof.
  induction cs as [|c cs IH]; intros w xs w1 ys w2 H1 H2.
  - inversion H1; inversion H2; subst; auto.
  - inversion H1; inversion H2; subst.
    + match goal with A : load w = (?r, ?v), B : load w = (?r', ?v') |- _ =>
        rewrite A in B; injection B as <- <- end.
      match goal with A : cache_history load look cs ?v ?x ?u, B : cache_history load look cs ?v ?y ?t |- _ =>
        destruct (IH _ _ _ _ _ A B) as [-> ->] end.
      split; [|reflexivity]. f_equal.
      match goal with A : failed ?r ?x, B : failed ?r ?y |- ?x = ?y =>
        destruct r, x, y; cbn in A, B; congruence || contradiction end.
    + match goal with A : load w = (?r, _), F : failed ?r _, B : load w = (Ok _, _) |- _ =>
        rewrite A in B; injection B as -> _; destruct F end.
    + match goal with A : load w = (?r, _), F : failed ?r _, B : load w = (Ok _, _) |- _ =>
        rewrite A in B; injection B as -> _; destruct F end.
    + match goal with A : load w = _, B : load w = _ |- _ => rewrite A in B; injection B as <- <- end.
      auto.
Qed.

Section BlockCacheProofs.
Context {W : Type} (inner : M W (N * N)).

Lemma bc_calls_loaded v : forall n w,
  bc_calls inner n (BCache true v, w) = (repeat (Ok v) n, (BCache true v, w)).
Proof.
  induction n as [|n IH]; intros w; [reflexivity|].
  cbn [bc_calls bc_call bc_loaded bc_state]. rewrite IH. reflexivity.
Qed.

Lemma bc_calls_history n : forall v w xs c' w',
  bc_calls inner n (BCache false v, w) = (xs, (c', w')) ->
  cache_history inner (fun d (_ : unit) => Ok d) (repeat tt n) w xs w'.
Proof.
  induction n as [|n IH]; intros v w xs c' w' H.
  - injection H as <- _ <-. constructor.
  - cbn [bc_calls bc_call bc_loaded bc_state] in H.
    destruct (inner w) as [[d|e|u|] w1] eqn:E.
    + rewrite bc_calls_loaded in H. injection H as <- _ <-.
      replace (Ok d :: repeat (Ok d) n) with (map (fun _ : unit => Ok d) (repeat tt (S n))).
      * now apply (ch_load inner (fun d (_ : unit) => Ok d)).
      * cbn [repeat map]. f_equal. clear. induction n; cbn; congruence.
    + destruct (bc_calls inner n (BCache false v, w1)) as [ys [c2 w2]] eqn:Er.
      injection H as <- <- <-. eapply ch_fail; [exact E|reflexivity|eapply IH, Er].
    + destruct (bc_calls inner n (BCache false v, w1)) as [ys [c2 w2]] eqn:Er.
      injection H as <- <- <-. eapply ch_fail; [exact E|reflexivity|eapply IH, Er].
    + destruct (bc_calls inner n (BCache false v, w1)) as [ys [c2 w2]] eqn:Er.
      injection H as <- <- <-. eapply ch_fail; [exact E|exact I|eapply IH, Er].
Qed.
End BlockCacheProofs.

(** ** The pure reading used by MagmaModel *)

Lemma ask_all_pure {W A B} (f : A -> res B) l (w : W) :
  ask_all (fun a => lift (f a)) l w = (mapM f l, w).
Proof.
  induction l as [|a l IH]; [reflexivity|]. cbn [ask_all mapM]. unfold mbind, lift in *.
  destruct (f a); cbn [bind]; try reflexivity. rewrite IH. destruct (mapM f l); reflexivity.
Qed.

(** ** After the first answer *)

Section AfterSuccess.
Context {W : Type} (inner : Z -> M W N).
Let load := ask_all (ask_word inner) [0; 1; 2; 3; 4; 5; 6; 7]%Z.

(** What a reachable cache holds. *)
Definition kc_inv (c : kcache) : Prop :=
  List.length (kc_key c) = 8%nat /\
  (kc_cached c = true -> exists w0 w1, load w0 = (Ok (kc_key c), w1)).

Lemma kc_inv_init : kc_inv kcache_init.
Proof. split; [reflexivity|discriminate]. Qed.

Lemma kc_call_inv i c w x c' w' :
  kc_inv c -> kc_call inner i (c, w) = (x, (c', w')) ->
  kc_inv c' /\ ((exists v, x = Ok v) -> kc_cached c' = true /\ at_int (kc_key c') i = x).
Proof.
  intros [Hl Hc] H. unfold kc_call in H. destruct c as [[|] key]; cbn [kc_cached kc_key] in *.
  - injection H as <- <- <-. split; [split; [exact Hl|exact Hc]|auto].
  - pose proof (kc_load_ask inner 8 [] key w Hl) as L. cbn [List.length app] in L.
    change (map Z.of_nat (seq 0 8)) with [0; 1; 2; 3; 4; 5; 6; 7]%Z in L. rewrite Hl in H.
    fold load in L. destruct (load w) as [[ws|e|u|] w1] eqn:E.
    + destruct L as [L Lw]. rewrite L in H. injection H as <- <- <-.
      split; [split; [exact Lw|eauto]|auto].
    + destruct L as (key' & y & L & Lk & F). rewrite L in H. destruct y; try contradiction.
      injection H as <- <- <-. split; [split; [cbn [kc_key]; congruence|discriminate]|intros [? ?]; discriminate].
    + destruct L as (key' & y & L & Lk & F). rewrite L in H. destruct y; try contradiction.
      injection H as <- <- <-. split; [split; [cbn [kc_key]; congruence|discriminate]|intros [? ?]; discriminate].
    + destruct L as (key' & y & L & Lk & F). rewrite L in H. destruct y; try contradiction.
      injection H as <- <- <-. split; [split; [cbn [kc_key]; congruence|discriminate]|intros [? ?]; discriminate].
Qed.

Lemma kc_calls_inv h : forall c w xs c' w',
  kc_inv c -> kc_calls inner h (c, w) = (xs, (c', w')) -> kc_inv c'.
Proof.
  induction h as [|i h IH]; intros c w xs c' w' Hc H.
  - injection H as _ <- _. exact Hc.
  - cbn [kc_calls] in H. destruct (kc_call inner i (c, w)) as [x [c1 w1]] eqn:E1.
    destruct (kc_calls inner h (c1, w1)) as [ys [c2 w2]] eqn:E2. injection H as _ <- _.
    eapply IH; [|exact E2]. eapply kc_call_inv; eassumption.
Qed.

Lemma kc_after_success h w xs c1 w1 i v c2 w2 :
  kc_calls inner h (kcache_init, w) = (xs, (c1, w1)) ->
  kc_call inner i (c1, w1) = (Ok v, (c2, w2)) ->
  exists ws, List.length ws = 8%nat /\ (exists w0 w0', load w0 = (Ok ws, w0')) /\
    at_int ws i = Ok v /\
    forall h2 w3, kc_calls inner h2 (c2, w3) = (map (at_int ws) h2, (c2, w3)).
Proof.
  intros H1 H2. pose proof (kc_calls_inv _ _ _ _ _ _ kc_inv_init H1) as I1.
  destruct (kc_call_inv _ _ _ _ _ _ I1 H2) as [[L I2] K].
  destruct K as [K1 K2]; [eauto|]. destruct c2 as [b ws]. cbn in *. subst b.
  exists ws. split; [exact L|]. split; [auto|]. split; [exact K2|].
  intros h2 w3. apply kc_calls_loaded.
Qed.
End AfterSuccess.

Lemma at_int_in (ws : list N) (i : nat) : (i < List.length ws)%nat ->
  at_int ws (Z.of_nat i) = Ok (nth i ws 0).
Proof.
  intros H. unfold at_int. rewrite (proj2 (Z.leb_le _ _)) by lia.
  replace (Z.to_N (Z.of_nat i)) with (N.of_nat i) by lia.
  rewrite at_ok with (d := 0) by (unfold len; lia). now rewrite Nat2N.id.
Qed.

Lemma mapM_ext {A B} (f g : A -> res B) l : (forall a, f a = g a) -> mapM f l = mapM g l.
Proof. intros H. induction l; cbn [mapM]; [reflexivity|]. now rewrite H, IHl. Qed.

(** A collaborator that answers by a fixed function is indistinguishable from the
    pure [KeyCachedData] of MagmaModel. *)
Lemma kc_calls_pure {W} (f : Z -> res N) h : forall (key : list N) (w : W),
  (forall i v, f i = Ok v -> v < 2 ^ 32) -> List.length key = 8%nat ->
  fst (kc_calls (fun i => lift (f i)) h (KCache false key, w)) = map (KeyCachedData f) h.
Proof.
  intros key w Hf Hk.
  destruct (kc_calls (fun i => lift (f i)) h (KCache false key, w)) as [xs [c w']] eqn:E.
  apply kc_calls_history in E; [|exact Hk]. cbn [fst].
  assert (L : forall w0 : W, ask_all (ask_word (fun i => lift (f i))) [0; 1; 2; 3; 4; 5; 6; 7]%Z w0 =
                      (mapM f [0; 1; 2; 3; 4; 5; 6; 7]%Z, w0)).
  { intros w0. rewrite <- ask_all_pure. generalize [0; 1; 2; 3; 4; 5; 6; 7]%Z w0.
    induction l as [|a l IHl]; intros w1; [reflexivity|].
    cbn [ask_all]. unfold mbind, lift, ask_word, mret. unfold mbind.
    destruct (f a) eqn:Ef; try reflexivity. rewrite w32_id by eauto.
    unfold ask_word, mbind, mret, lift in IHl. rewrite IHl. reflexivity. }
  remember (ask_all (ask_word (fun i => lift (f i))) [0; 1; 2; 3; 4; 5; 6; 7]%Z) as load.
  unfold KeyCachedData. set (R := mapM f [0; 1; 2; 3; 4; 5; 6; 7]%Z) in *. clearbody R.
  induction E as [w0|c0 cs w0 r w1 x xs w2 H1 H2 H3 IH|c0 cs w0 d w1 H1].
  - reflexivity.
  - cbn [map]. f_equal; [|apply IH; auto]. rewrite L in H1. injection H1 as <- <-.
    destruct R, x; cbn in H2; contradiction || (cbn [bind]; congruence).
  - rewrite L in H1. injection H1 as -> <-. reflexivity.
Qed.

Section BlockAfterSuccess.
Context {W : Type} (inner : M W (N * N)).

Lemma bc_after_success n w xs c1 w1 v c2 w2 :
  bc_calls inner n (bcache_init, w) = (xs, (c1, w1)) ->
  bc_call inner (c1, w1) = (Ok v, (c2, w2)) ->
  (exists w0 w0', inner w0 = (Ok v, w0')) /\
  forall n2 w3, bc_calls inner n2 (c2, w3) = (repeat (Ok v) n2, (c2, w3)).
Proof.
  assert (I : forall m c w xs c' w', (bc_loaded c = true -> exists w0 w0', inner w0 = (Ok (bc_state c), w0')) ->
     bc_calls inner m (c, w) = (xs, (c', w')) ->
     (bc_loaded c' = true -> exists w0 w0', inner w0 = (Ok (bc_state c'), w0'))).
  { induction m as [|m IH]; intros c w0 xs0 c' w' Hc H.
    - injection H as _ <- _. exact Hc.
    - cbn [bc_calls] in H. destruct (bc_call inner (c, w0)) as [x [c3 w3]] eqn:E1.
      destruct (bc_calls inner m (c3, w3)) as [ys [c4 w4]] eqn:E2. injection H as _ <- _.
      eapply IH; [|exact E2]. unfold bc_call in E1. destruct (bc_loaded c) eqn:El.
      + injection E1 as _ <- _. rewrite El. auto.
      + destruct (inner w0) as [[d|e|u|] w5] eqn:Ei; injection E1 as _ <- _;
          cbn; (discriminate || eauto). }
  intros H1 H2. specialize (I n bcache_init w xs c1 w1 ltac:(discriminate) H1).
  unfold bc_call in H2. destruct (bc_loaded c1) eqn:El.
  - injection H2 as <- <- <-. split; [auto|]. destruct c1 as [b st]. cbn in El. subst b.
    intros. apply bc_calls_loaded.
  - destruct (inner w1) as [[d|e|u|] w5] eqn:Ei; try discriminate. injection H2 as <- <- <-.
    split; [eauto|]. intros. apply bc_calls_loaded.
Qed.

Lemma bc_call_failure c w x c' w' :
  bc_loaded c = false -> inner w = (x, w') -> (forall v, x <> Ok v) ->
  bc_call inner (c, w) = (x, (c', w')) -> c' = c.
Proof.
  intros Hl Hi Hx H. destruct c as [b st]. cbn in Hl. subst b.
  unfold bc_call in H. cbn in H. rewrite Hi in H.
  destruct x; [destruct (Hx a); reflexivity| | |]; injection H as <-; reflexivity.
Qed.
End BlockAfterSuccess.
