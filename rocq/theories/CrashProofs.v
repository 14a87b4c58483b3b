(** Proofs about what a stack of sinks has handed down when it fails or is abandoned. *)
From Verif Require Import Base MagmaModel Streams Lib SpecMagma SpecModes SpecStreams
  MagmaProofs MagmaSpecProofs ByteProofs SinkProofs SourceProofs StreamProofs StreamFacts TowerProofs MacProofs
  StreamMore RetryProofs.
From Coq Require Import ZifyNat ZifyN ZifyBool.
Local Open Scope N_scope.

(** ** Prefixes of the data and of the ciphertext *)

Lemma layer_firstn x n ps : firstn n (layer_encrypt x ps) = layer_encrypt x (firstn n ps).
Proof.
  destruct x as [[k|k a b|k a] E D]; cbn [layer_encrypt kl kl_E].
  - unfold ecb. apply firstn_map.
  - apply cfb_firstn.
  - apply cfb_firstn.
Qed.

Lemma tower_firstn xs n : forall ps, firstn n (tower_encrypt xs ps) = tower_encrypt xs (firstn n ps).
Proof.
  induction xs as [|x xs IH]; intros ps; [reflexivity|].
  cbn [tower_encrypt]. now rewrite IH, layer_firstn.
Qed.

Lemma layer_length x ps : List.length (layer_encrypt x ps) = List.length ps.
Proof.
  destruct x as [[k|k a b|k a] E D]; cbn [layer_encrypt kl kl_E].
  - apply map_length.
  - apply cfb_encrypt_length.
  - apply cfb_encrypt_length.
Qed.

Lemma tower_length xs : forall ps, List.length (tower_encrypt xs ps) = List.length ps.
Proof.
  induction xs as [|x xs IH]; intros ps; [reflexivity|].
  cbn [tower_encrypt]. now rewrite IH, layer_length.
Qed.

Lemma blocks8_firstn n : forall d, (8 * n <= List.length d)%nat -> blocks8 (firstn (8 * n) d) = firstn n (blocks8 d).
Proof.
  induction n as [|n IH]; intros d H; [reflexivity|].
  assert (exists a r, d = a ++ r /\ List.length a = 8%nat) as (a & r & -> & La).
  { exists (firstn 8 d), (skipn 8 d). rewrite firstn_skipn, firstn_length. split; [reflexivity|lia]. }
  rewrite app_length in H. replace (8 * Datatypes.S n)%nat with (List.length a + 8 * n)%nat by lia.
  rewrite firstn_app_2, !blocks8_cons by exact La. cbn [firstn]. now rewrite IH by lia.
Qed.

Lemma div8 n : (8 * (n / 8) <= n)%nat.
Proof. pose proof (Nat.div_mod n 8 ltac:(lia)). lia. Qed.

Lemma complete_blocks_count d : List.length (blocks8 (complete d)) = (List.length d / 8)%nat.
Proof.
  pose proof (blocks8_length _ (complete_length d)) as H. revert H. unfold complete at 2. rewrite firstn_length.
  pose proof (div8 (List.length d)). lia.
Qed.

Lemma complete_prefix d e : exists n, blocks8 (complete d) = firstn n (blocks8 (complete (d ++ e))).
Proof.
  set (n := (List.length d / 8)%nat). exists n.
  pose proof (div8 (List.length d)) as H. fold n in H.
  assert (L : (n <= List.length (d ++ e) / 8)%nat).
  { unfold n. apply Nat.div_le_mono; [lia|]. rewrite app_length. lia. }
  pose proof (div8 (List.length (d ++ e))).
  unfold complete. fold n.
  rewrite !blocks8_firstn by (rewrite ?app_length in *; lia).
  rewrite firstn_firstn, Nat.min_l by lia.
  rewrite <- (blocks8_firstn n d), <- (blocks8_firstn n (d ++ e)) by (rewrite ?app_length; lia).
  f_equal. rewrite firstn_app. replace (8 * n - List.length d)%nat with 0%nat by lia.
  cbn [firstn]. now rewrite app_nil_r.
Qed.

(** ** The outermost layer *)

Lemma ecb_write_after {W S} (wr : writer W S) s k a b w : (List.length a mod 8 = 0)%nat ->
  ECBSink_write wr (ECBSink s k) (a ++ b) w =
  (o <-- ECBSink_write wr (ECBSink s k) a ;; ECBSink_write wr o b) w.
Proof.
  intros Ha.
  assert (Lb : (List.length (leftover b) < 8)%nat) by apply leftover_length.
  assert (Lc : (List.length (a ++ complete b) mod 8 = 0)%nat) by (apply mod_app; [exact Ha|apply complete_length]).
  destruct (complete_app (a ++ complete b) (leftover b) Lc Lb) as [Ec El].
  rewrite <- app_assoc, complete_leftover in Ec, El.
  rewrite ECBSink_write_general, Ec, El, blocks8_app by exact Ha.
  etransitivity; [apply mbind_ext; [apply encrypt_send_app|intros ? ?; reflexivity]|].
  symmetry. etransitivity; [apply mbind_ext; [now apply ECBSink_write_whole|intros ? ?; reflexivity]|].
  rewrite !mbind_assoc. apply mbind_ext; [reflexivity|]. intros s1 w1.
  rewrite mbind_mret_l. apply ECBSink_write_general.
Qed.

Lemma ecb_write_ok {W S} (wr : writer W S) s k d w o w' :
  ECBSink_write wr (ECBSink s k) d w = (Ok o, w') ->
  (List.length d mod 8 = 0)%nat /\ exists s', o = ECBSink s' k.
Proof.
  rewrite ECBSink_write_general. intros H. apply mbind_ok_inv in H. destruct H as (s1 & w1 & _ & H).
  destruct (leftover d) eqn:El; [|discriminate]. injection H as <- <-. split; [|eauto].
  rewrite <- (complete_leftover d), El, app_nil_r. apply complete_length.
Qed.

(** Several writes to an ECBSink act on what is below like one write of a prefix of the
    data, and like one write of all of it if they succeed. *)
Lemma ecb_writes_prefix {W S} (wr : writer W S) chunks : forall s k w r w',
  writes (ECBSink_write wr) (ECBSink s k) chunks w = (r, w') ->
  exists d e, List.concat chunks = d ++ e /\ snd (ECBSink_write wr (ECBSink s k) d w) = w' /\
    (forall o, r = Ok o -> e = [] /\ (List.length d mod 8 = 0)%nat /\
       ECBSink_write wr (ECBSink s k) d w = (Ok o, w')).
Proof.
  induction chunks as [|c chunks IH]; intros s k w r w' H.
  - injection H as <- <-. exists [], []. split; [reflexivity|]. split; [reflexivity|].
    intros o Ho. injection Ho as <-. auto.
  - cbn [writes List.concat] in *. unfold mbind in H.
    destruct (ECBSink_write wr (ECBSink s k) c w) as [r1 w1] eqn:E.
    destruct r1 as [o1|e1|u1|].
    + destruct (ecb_write_ok _ _ _ _ _ _ _ E) as [Hc [s1 ->]].
      destruct (IH _ _ _ _ _ H) as (d & e & -> & Ed & Ho).
      exists (c ++ d), e. split; [apply app_assoc|].
      assert (A : ECBSink_write wr (ECBSink s k) (c ++ d) w = ECBSink_write wr (ECBSink s1 k) d w1)
        by (rewrite ecb_write_after by exact Hc; unfold mbind; now rewrite E).
      rewrite A. split; [exact Ed|]. intros o Hr. destruct (Ho o Hr) as (-> & Hd & Eo).
      split; [reflexivity|]. split; [now apply mod_app|exact Eo].
    + injection H as <- <-. exists c, (List.concat chunks). rewrite E. split; [reflexivity|].
      split; [reflexivity|]. discriminate.
    + injection H as <- <-. exists c, (List.concat chunks). rewrite E. split; [reflexivity|].
      split; [reflexivity|]. discriminate.
    + injection H as <- <-. exists c, (List.concat chunks). rewrite E. split; [reflexivity|].
      split; [reflexivity|]. discriminate.
Qed.

(** ** Any stack *)

Definition below (x : known_layer) (d : bytes) : list bytes :=
  map (to_le 8) (layer_encrypt x (blocks8 (complete d))).

Lemma snd_bind {W A B} (x : M W A) (f : A -> M W B) w : (forall a w, snd (f a w) = w) ->
  snd (mbind x f w) = snd (x w).
Proof. intros H. unfold mbind. destruct (x w) as [[a|e|u|] w']; auto. Qed.

Lemma bind_ok_fst {W A B} (x : M W A) (f : A -> M W B) w b w' : mbind x f w = (Ok b, w') ->
  exists a, fst (x w) = Ok a.
Proof. intros H. apply mbind_ok_inv in H. destruct H as (a & w1 & E & _). exists a. now rewrite E. Qed.

(** What any stack hands to the layer below its outermost one. *)
Lemma outer_writes {W S} (wr : writer W S) m x xs chunks s w r w' :
  known_ok x -> Forall u8 (List.concat chunks) ->
  writes (tower_write wr m (map kl (x :: xs))) (sink_tower_init s (map kl (x :: xs))) chunks w = (r, w') ->
  exists d e, List.concat chunks = d ++ e /\
    snd (writes (tower_write wr m (map kl xs)) (sink_tower_init s (map kl xs)) (below x d) w) = w' /\
    (forall o, r = Ok o -> e = [] /\
       exists i, fst (writes (tower_write wr m (map kl xs)) (sink_tower_init s (map kl xs)) (below x d) w) = Ok i).
Proof.
  intros (HE & HD & Hl) Hu H. destruct x as [[k|k a b|k a] E D]; unfold below;
    cbn [map kl kl_E kl_D layer_key layer_ok tower_write sink_tower_init layer_encrypt] in *.
  - destruct (ecb_writes_prefix _ _ _ _ _ _ _ H) as (d & e & Ed & Ew & Eo).
    exists d, e. split; [exact Ed|]. rewrite Ed in Hu. apply Forall_app in Hu. destruct Hu as [Hu _].
    assert (HT : transforms k E) by now apply enciphers_transforms'.
    rewrite (ecb_write_total _ k E) in Ew by assumption.
    rewrite snd_bind in Ew by (intros ? ?; destruct (leftover d); reflexivity). split; [exact Ew|].
    intros o Ho. destruct (Eo o Ho) as (He & _ & Er). split; [exact He|].
    rewrite (ecb_write_total _ k E) in Er by assumption. eapply bind_ok_fst, Er.
  - exists (List.concat chunks), []. split; [now rewrite app_nil_r|]. destruct Hl as [Ha Hb].
    fold (@magma_CFBSink_init (sink_tower S (map kl xs))) in H.
    rewrite (magma_write_chunks (tower_write wr m (map kl xs)) m k E a b _ chunks w HE Ha Hb Hu) in H.
    assert (Ew := f_equal snd H). rewrite snd_bind in Ew by reflexivity. split; [exact Ew|].
    intros o ->. split; [reflexivity|]. eapply bind_ok_fst, H.
  - exists (List.concat chunks), []. split; [now rewrite app_nil_r|].
    rewrite (gost_write_chunks (tower_write wr m (map kl xs)) m k E a _ chunks w HE Hl Hu) in H.
    assert (Ew := f_equal snd H). rewrite snd_bind in Ew by reflexivity. split; [exact Ew|].
    intros o ->. split; [reflexivity|]. eapply bind_ok_fst, H.
Qed.

Lemma logged_prefix {W S} (wr : writer W S) cs s w r w' log :
  writes (logged wr) s cs (w, []) = (r, (w', log)) ->
  exists n, log = firstn n cs /\ (forall s', r = Ok s' -> log = cs).
Proof.
  intros H. apply writes_logged in H. destruct H as [(s1 & -> & -> & _)|(sent & rest & -> & -> & F)]; cbn [app].
  - exists (List.length cs). now rewrite firstn_all.
  - exists (List.length sent). split.
    + rewrite firstn_app, Nat.sub_diag, firstn_all, firstn_O. now rewrite app_nil_r.
    + intros s' Hr. exfalso. eapply sink_failure_map; [|exact F|exact Hr]. exact (fun _ => mret tt).
Qed.

Theorem stored_prefix {W S} (wr : writer W S) m x xs chunks s w r w' log :
  Forall known_ok (x :: xs) -> Forall u8 (List.concat chunks) ->
  writes (tower_write (logged wr) m (map kl (x :: xs))) (sink_tower_init s (map kl (x :: xs))) chunks (w, [])
    = (r, (w', log)) ->
  let data := List.concat chunks in
  let n := List.length log in
  (8 * n <= List.length data)%nat /\
  log = map (to_le 8) (tower_encrypt (x :: xs) (blocks8 (firstn (8 * n) data))) /\
  (forall o, r = Ok o -> n = List.length data / 8)%nat.
Proof.
  intros Hx Hu H data n. inversion Hx as [|? ? Hk Hxs]; subst.
  destruct (outer_writes _ _ _ _ _ _ _ _ _ Hk Hu H) as (d & e & Ed & Ew & Eo). fold data in Ed.
  assert (Hd : Forall u8 d) by (fold data in Hu; rewrite Ed in Hu; apply Forall_app in Hu; tauto).
  set (ps := blocks8 (complete d)) in *.
  assert (Hb : Forall b64 (layer_encrypt x ps)).
  { apply layer_encrypt_lt; [exact Hk|]. apply blocks8_lt. now apply complete_whole. }
  destruct (tower_blocks (logged wr) m xs Hxs (layer_encrypt x ps) [] (Forall_nil _) Hb) as (cs & _ & Et & Ecs).
  rewrite tower_encrypt_nil in Et. cbn [app] in Et, Ecs.
  specialize (Ecs s (w, [])). rewrite tower_at_init in Ecs.
  unfold below in Ew, Eo. fold ps in Ew, Eo. rewrite Ecs in Ew, Eo.
  rewrite snd_bind in Ew by reflexivity.
  destruct (writes (logged wr) s (map (to_le 8) cs) (w, [])) as [r1 [w1 l1]] eqn:E1.
  cbn [snd] in Ew. injection Ew as -> ->.
  destruct (logged_prefix _ _ _ _ _ _ _ E1) as (j & El & Eall).
  destruct (complete_prefix d e) as (i & Ei). rewrite <- Ed in Ei. fold ps in Ei.
  assert (Q : log = map (to_le 8) (tower_encrypt (x :: xs) (firstn (Nat.min j i) (blocks8 (complete data))))).
  { rewrite <- tower_firstn. rewrite <- firstn_firstn. cbn [tower_encrypt].
    rewrite (tower_firstn xs i), layer_firstn, <- Ei, Et, <- firstn_map. exact El. }
  pose proof (div8 (List.length data)) as D8.
  assert (Ln : n = Nat.min (Nat.min j i) (List.length data / 8)).
  { unfold n. rewrite Q, map_length, tower_length, firstn_length, complete_blocks_count. reflexivity. }
  assert (Hn : (8 * n <= List.length data)%nat) by lia.
  split; [exact Hn|]. split.
  - rewrite Q at 1. do 2 f_equal. rewrite blocks8_firstn by exact Hn. unfold complete.
    rewrite blocks8_firstn by lia. rewrite firstn_firstn. f_equal. lia.
  - intros o Ho. destruct (Eo o Ho) as (-> & i1 & Ef). rewrite app_nil_r in Ed.
    unfold mbind in Ef. rewrite E1 in Ef. destruct r1 as [s1|?|?|]; try discriminate.
    unfold n. rewrite (Eall s1 eq_refl), map_length, <- Et, tower_length, layer_length.
    unfold ps. rewrite complete_blocks_count. now rewrite Ed.
Qed.

Lemma firstn_whole n (d : bytes) : (8 * n <= List.length d)%nat -> Forall u8 d -> whole (firstn (8 * n) d).
Proof.
  intros H Hu. split; [|now apply Forall_firstn]. rewrite firstn_length, Nat.min_l by exact H.
  rewrite Nat.mul_comm. apply Nat.mod_mul. lia.
Qed.

Lemma stored_bytes {W S} (wr : writer W S) m x xs chunks s w r w' log k :
  Forall known_ok (x :: xs) -> Forall u8 (List.concat chunks) ->
  writes (tower_write (logged wr) m (map kl (x :: xs))) (sink_tower_init s (map kl (x :: xs))) chunks (w, [])
    = (r, (w', log)) -> (k <= List.length log)%nat ->
  List.concat (firstn k log) =
    unblocks8 (tower_encrypt (x :: xs) (blocks8 (firstn (8 * k) (List.concat chunks)))) /\
  whole (firstn (8 * k) (List.concat chunks)).
Proof.
  intros Hx Hu H Hk. destruct (stored_prefix _ _ _ _ _ _ _ _ _ _ Hx Hu H) as (Hn & El & _).
  split; [|apply firstn_whole; [lia|exact Hu]].
  rewrite El at 1. rewrite firstn_map, concat_map_to_le, tower_firstn. f_equal. f_equal.
  rewrite !blocks8_firstn by lia. rewrite firstn_firstn. f_equal. lia.
Qed.

Theorem stored_readable_blocks {W S} (wr : writer W S) m x xs chunks s w r w' log k :
  Forall known_ok (x :: xs) -> Forall u8 (List.concat chunks) ->
  writes (tower_write (logged wr) m (map kl (x :: xs))) (sink_tower_init s (map kl (x :: xs))) chunks (w, [])
    = (r, (w', log)) -> (k <= List.length log)%nat ->
  forall W2 St (rd : reader W2 St) (R : St -> W2 -> bytes -> Prop) m2 src w2 n,
    block_source rd R -> R src w2 (List.concat (firstn k log)) ->
    exists o w3,
      reads (tower_read rd m2 (map kl (x :: xs))) (source_tower_init src (map kl (x :: xs))) (repeat 8 n) w2 =
      (Ok (served (firstn (8 * k) (List.concat chunks)) (repeat 8 n), o), w3).
Proof.
  intros Hx Hu H Hk W2 St rd R m2 src w2 n HR Hs.
  destruct (stored_bytes _ _ _ _ _ _ _ _ _ _ k Hx Hu H Hk) as [Eb Hw]. rewrite Eb in Hs.
  eapply tower_source_blocks; eassumption.
Qed.

Theorem stored_readable {W S} (wr : writer W S) m x xs chunks s w r w' log k :
  Forall known_ok (x :: xs) -> is_cfb x -> Forall u8 (List.concat chunks) ->
  writes (tower_write (logged wr) m (map kl (x :: xs))) (sink_tower_init s (map kl (x :: xs))) chunks (w, [])
    = (r, (w', log)) -> (k <= List.length log)%nat ->
  forall W2 St (rd : reader W2 St) (R : St -> W2 -> bytes -> Prop) m2 src w2 sizes,
    block_source rd R -> R src w2 (List.concat (firstn k log)) ->
    exists o w3,
      reads (tower_read rd m2 (map kl (x :: xs))) (source_tower_init src (map kl (x :: xs))) sizes w2 =
      (Ok (served (firstn (8 * k) (List.concat chunks)) sizes, o), w3).
Proof.
  intros Hx Hc Hu H Hk W2 St rd R m2 src w2 sizes HR Hs.
  destruct (stored_bytes _ _ _ _ _ _ _ _ _ _ k Hx Hu H Hk) as [Eb Hw]. rewrite Eb in Hs.
  eapply tower_source_sizes; eassumption.
Qed.
