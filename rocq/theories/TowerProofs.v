(** Proofs about stacked sinks and sources. *)
From Verif Require Import Base MagmaModel Streams Lib SpecMagma SpecModes SpecStreams
  MagmaProofs MagmaSpecProofs ByteProofs SinkProofs SourceProofs StreamProofs.
From Coq Require Import ZifyNat ZifyN ZifyBool.
Local Open Scope N_scope.
Ltac Zify.zify_post_hook ::= idtac.

Definition b64 (x : N) : Prop := x < 2 ^ 64.

Lemma cfb_encrypt_app E a : forall reg b, reg <> [] ->
  cfb_encrypt E reg (a ++ b) =
  cfb_encrypt E reg a ++ cfb_encrypt E (shifted reg (cfb_encrypt E reg a)) b.
Proof.
  induction a as [|p a IH]; intros reg b Hr; [now rewrite shifted_nil|].
  cbn [app cfb_encrypt]. cbv zeta. cbn [app]. f_equal.
  rewrite shifted_cons by assumption. apply IH. destruct (tl reg); discriminate.
Qed.

Lemma shifted_app reg a : forall b, reg <> [] -> shifted (shifted reg a) b = shifted reg (a ++ b).
Proof.
  revert reg. induction a as [|c a IH]; intros reg b Hr; [now rewrite shifted_nil|].
  cbn [app]. rewrite !shifted_cons by assumption. apply IH. destruct (tl reg); discriminate.
Qed.

Lemma shifted_ok reg cs : reg_ok reg -> Forall b64 cs -> reg_ok (shifted reg cs).
Proof.
  intros [Hn Hf] Hc. split.
  - intros H. assert (List.length (shifted reg cs) = 0%nat) by now rewrite H.
    rewrite shifted_length in H0. destruct reg; [contradiction|discriminate].
  - unfold shifted. apply Forall_skipn. apply Forall_app. auto.
Qed.

Lemma reg2 l : List.length l = 2%nat -> l = [nth 0 l 0; nth 1 l 0].
Proof. destruct l as [|a [|b [|]]]; try discriminate. reflexivity. Qed.
Lemma reg1 l : List.length l = 1%nat -> l = [nth 0 l 0].
Proof. destruct l as [|a [|]]; try discriminate. reflexivity. Qed.

(** The sink tower after blocks [qs], on top of sink [s]. *)
Fixpoint tower_at {S} (xs : list known_layer) (s : S) (qs : list N) : sink_tower S (map kl xs) :=
  match xs return sink_tower S (map kl xs) with
  | [] => s
  | x :: r =>
      match kl x as l return sink_tower S (l :: map kl r) with
      | LECB k => ECBSink (tower_at r s (ecb (kl_E x) qs)) k
      | LMagmaCFB k a b =>
          let cs := cfb_encrypt (kl_E x) [a; b] qs in
          MagmaCFBSink (tower_at r s cs) k
                       (nth 0 (shifted [a; b] cs) 0) (nth 1 (shifted [a; b] cs) 0) []
      | LGostCFB k a =>
          let cs := cfb_encrypt (kl_E x) [a] qs in
          GostCFBSink (tower_at r s cs) k (nth 0 (shifted [a] cs) 0) []
      end
  end.

Lemma tower_at_init {S} (s : S) xs : tower_at xs s [] = sink_tower_init s (map kl xs).
Proof.
  induction xs as [|[[k|k a b|k a] E D] xs IH]; [reflexivity| | |];
    cbn [tower_at map kl kl_E sink_tower_init ecb cfb_encrypt]; now rewrite IH.
Qed.

Lemma blocks8_app a b : (List.length a mod 8 = 0)%nat -> blocks8 (a ++ b) = blocks8 a ++ blocks8 b.
Proof.
  revert a. apply (chunk_ind 8 (fun a => blocks8 (a ++ b) = blocks8 a ++ blocks8 b)); [lia|reflexivity|].
  intros x r Hx IH. rewrite <- app_assoc, blocks8_cons, (blocks8_cons x r) by assumption. cbn [app]. now rewrite IH.
Qed.

Lemma mod_app (a b : bytes) : (List.length a mod 8 = 0)%nat -> (List.length b mod 8 = 0)%nat ->
  (List.length (a ++ b) mod 8 = 0)%nat.
Proof.
  intros Ha Hb. rewrite app_length. rewrite Nat.add_mod, Ha, Hb by lia. reflexivity.
Qed.

Section SinkTower.
Context {W S : Type} (wr : writer W S) (m : mode).

Lemma to_le_whole p : whole (to_le 8 p).
Proof. split; [now rewrite to_le_length|apply to_le_u8]. Qed.

Lemma blocks8_one p : b64 p -> blocks8 (to_le 8 p) = [p].
Proof.
  intros H. rewrite <- (app_nil_r (to_le 8 p)), blocks8_cons by apply to_le_length.
  now rewrite (of_to_le_id 8).
Qed.

Lemma tower_block xs : Forall known_ok xs -> forall qs p, Forall b64 qs -> b64 p ->
  exists c, b64 c /\ tower_encrypt xs (qs ++ [p]) = tower_encrypt xs qs ++ [c] /\
  forall s w, tower_write wr m (map kl xs) (tower_at xs s qs) (to_le 8 p) w =
    (s' <-- wr s (to_le 8 c) ;; mret (tower_at xs s' (qs ++ [p]))) w.
Proof.
  induction xs as [|[l E D] xs IH]; intros Hx qs p Hq Hp.
  - exists p. split; [exact Hp|]. split; [reflexivity|]. intros s w.
    symmetry. apply mbind_mret_r.
  - inversion Hx as [|? ? (HE & HD & Hl) Hx']; subst. cbn [kl kl_E kl_D] in HE, HD, Hl.
    specialize (IH Hx'). pose proof (enciphers_lt _ _ HE) as LE.
    destruct (whole_complete _ (to_le_whole p)) as [Ec El].
    destruct l as [k|k a b|k a]; cbn [layer_key layer_ok] in HE, Hl.
    + assert (HT : transforms k E).
      { destruct (enciphers_lazy _ _ HE) as [lk ->]. now apply enciphers_transforms. }
      destruct (IH (ecb E qs) (E p)) as (c & Lc & Et & Ew); [now apply ecb_lt|now apply LE|].
      exists c. split; [exact Lc|].
      change (tower_encrypt (Known (LECB k) E D :: xs) ?q) with (tower_encrypt xs (ecb E q)).
      unfold ecb in *. rewrite map_app. cbn [map]. split; [exact Et|]. intros s w.
      cbn [map kl tower_at kl_E tower_write]. rewrite ECBSink_write_general, Ec, El.
      rewrite blocks8_one by exact Hp.
      etransitivity; [apply mbind_ext; [apply (encrypt_send_total _ _ E _ HT); auto|intros ? ?; reflexivity]|].
      cbn [ecb map writes]. rewrite mbind_assoc.
      etransitivity; [apply mbind_ext; [apply Ew|intros ? ?; reflexivity]|].
      rewrite mbind_assoc. apply mbind_ext; [reflexivity|]. intros s1 w1.
      unfold ecb. rewrite map_app. reflexivity.
    + set (cs := cfb_encrypt E [a; b] qs).
      assert (Lcs : Forall b64 cs) by (apply cfb_encrypt_lt; [exact LE|now apply reg2_ok|exact Hq]).
      set (rg := shifted [a; b] cs).
      assert (Hr : reg_ok rg) by (apply shifted_ok; [now apply reg2_ok|exact Lcs]).
      assert (Er : rg = [nth 0 rg 0; nth 1 rg 0]) by (apply reg2, shifted_length).
      set (c1 := N.lxor p (E (nth 0 rg 0))).
      assert (Lr : forall i, (i < 2)%nat -> b64 (nth i rg 0)).
      { destruct Hr as [_ Hr]. rewrite Er in Hr. inversion Hr; subst. inversion H2; subst.
        intros [|[|]] ?; [assumption|assumption|lia]. }
      assert (L1 : b64 c1) by (apply lxor_lt; [exact Hp|apply LE, Lr; lia]).
      destruct (IH cs c1 Lcs L1) as (c & Lc & Et & Ew). exists c. split; [exact Lc|].
      change (tower_encrypt (Known (LMagmaCFB k a b) E D :: xs) ?q)
        with (tower_encrypt xs (cfb_encrypt E [a; b] q)).
      assert (Ee : cfb_encrypt E [a; b] (qs ++ [p]) = cs ++ [c1]).
      { rewrite cfb_encrypt_app by discriminate. fold cs. fold rg. f_equal. cbn [cfb_encrypt].
        rewrite Er. reflexivity. }
      rewrite Ee. split; [exact Et|]. intros s w.
      cbn [map kl tower_at kl_E tower_write]. cbv zeta. rewrite Ee. fold cs. fold rg.
      rewrite (magma_write_general _ m E) by
        (auto using to_le_u8; first [apply Lr; lia | cbn; lia]).
      cbn [app]. rewrite Ec, El. rewrite blocks8_one by exact Hp.
      assert (E1 : cfb_encrypt E [nth 0 rg 0; nth 1 rg 0] [p] = [c1]) by reflexivity.
      rewrite E1. cbn [map writes]. rewrite mbind_assoc.
      etransitivity; [apply mbind_ext; [apply Ew|intros ? ?; reflexivity]|].
      rewrite mbind_assoc. apply mbind_ext; [reflexivity|]. intros s1 w1.
      rewrite !mbind_mret_l. rewrite <- Er. unfold rg. rewrite shifted_app by discriminate. reflexivity.
    + set (cs := cfb_encrypt E [a] qs).
      assert (Lcs : Forall b64 cs) by (apply cfb_encrypt_lt; [exact LE|now apply reg1_ok|exact Hq]).
      set (rg := shifted [a] cs).
      assert (Hr : reg_ok rg) by (apply shifted_ok; [now apply reg1_ok|exact Lcs]).
      assert (Er : rg = [nth 0 rg 0]) by (apply reg1, shifted_length).
      set (c1 := N.lxor p (E (nth 0 rg 0))).
      assert (Lr : b64 (nth 0 rg 0)).
      { destruct Hr as [_ Hr]. rewrite Er in Hr. now inversion Hr. }
      assert (L1 : b64 c1) by (apply lxor_lt; [exact Hp|apply LE, Lr; lia]).
      destruct (IH cs c1 Lcs L1) as (c & Lc & Et & Ew). exists c. split; [exact Lc|].
      change (tower_encrypt (Known (LGostCFB k a) E D :: xs) ?q)
        with (tower_encrypt xs (cfb_encrypt E [a] q)).
      assert (Ee : cfb_encrypt E [a] (qs ++ [p]) = cs ++ [c1]).
      { rewrite cfb_encrypt_app by discriminate. fold cs. fold rg. f_equal. cbn [cfb_encrypt].
        rewrite Er. reflexivity. }
      rewrite Ee. split; [exact Et|]. intros s w.
      cbn [map kl tower_at kl_E tower_write]. cbv zeta. rewrite Ee. fold cs. fold rg.
      rewrite (gost_write_general _ m E) by
        (auto using to_le_u8; cbn; lia).
      cbn [app]. rewrite Ec, El. rewrite blocks8_one by exact Hp.
      assert (E1 : cfb_encrypt E [nth 0 rg 0] [p] = [c1]) by reflexivity.
      rewrite E1. cbn [map writes]. rewrite mbind_assoc.
      etransitivity; [apply mbind_ext; [apply Ew|intros ? ?; reflexivity]|].
      rewrite mbind_assoc. apply mbind_ext; [reflexivity|]. intros s1 w1.
      rewrite !mbind_mret_l. rewrite <- Er. unfold rg. rewrite shifted_app by discriminate. reflexivity.
Qed.

Lemma tower_blocks xs : Forall known_ok xs -> forall ps qs, Forall b64 qs -> Forall b64 ps ->
  exists cs, Forall b64 cs /\ tower_encrypt xs (qs ++ ps) = tower_encrypt xs qs ++ cs /\
  forall s w, writes (tower_write wr m (map kl xs)) (tower_at xs s qs) (map (to_le 8) ps) w =
    (s' <-- writes wr s (map (to_le 8) cs) ;; mret (tower_at xs s' (qs ++ ps))) w.
Proof.
  intros Hx. induction ps as [|p ps IH]; intros qs Hq Hp.
  - exists []. split; [constructor|]. rewrite !app_nil_r. split; [reflexivity|]. reflexivity.
  - inversion Hp; subst.
    destruct (tower_block xs Hx qs p Hq H1) as (c & Lc & Et & Ew).
    destruct (IH (qs ++ [p])) as (cs & Lcs & Ets & Ews); [apply Forall_app; auto|assumption|].
    exists (c :: cs). split; [auto|]. rewrite <- app_assoc in Ets. cbn [app] in Ets.
    split; [rewrite Ets, Et, <- app_assoc; reflexivity|]. intros s w.
    cbn [map writes].
    etransitivity; [apply mbind_ext; [apply Ew|intros ? ?; reflexivity]|].
    rewrite !mbind_assoc. apply mbind_ext; [reflexivity|]. intros s1 w1.
    rewrite mbind_mret_l. rewrite Ews. rewrite <- app_assoc. reflexivity.
Qed.

Lemma encrypt_send_app F a b s w :
  encrypt_send wr F s (a ++ b) w = (s' <-- encrypt_send wr F s a ;; encrypt_send wr F s' b) w.
Proof.
  revert s w. induction a as [|x a IH]; intros s w; [reflexivity|].
  cbn [app encrypt_send]. rewrite mbind_assoc. apply mbind_ext; [reflexivity|]. intros e w1.
  rewrite mbind_assoc. apply mbind_ext; [reflexivity|]. auto.
Qed.

Lemma ECBSink_write_whole s k d w : (List.length d mod 8 = 0)%nat ->
  ECBSink_write wr (ECBSink s k) d w =
  (s' <-- encrypt_send wr (EncryptionBase_transform k) s (blocks8 d) ;; mret (ECBSink s' k)) w.
Proof.
  intros H. rewrite ECBSink_write_general.
  destruct (complete_app d [] H) as [Ec El]; [cbn; lia|]. rewrite app_nil_r in Ec, El.
  rewrite Ec, El. reflexivity.
Qed.

Lemma ECBSink_write_app o a b w : (List.length a mod 8 = 0)%nat -> (List.length b mod 8 = 0)%nat ->
  ECBSink_write wr o (a ++ b) w = (o' <-- ECBSink_write wr o a ;; ECBSink_write wr o' b) w.
Proof.
  intros Ha Hb. destruct o as [s k]. rewrite ECBSink_write_whole by now apply mod_app.
  rewrite blocks8_app by assumption.
  etransitivity; [apply mbind_ext; [apply encrypt_send_app|intros ? ?; reflexivity]|].
  symmetry.
  etransitivity; [apply mbind_ext; [now apply ECBSink_write_whole|intros ? ?; reflexivity]|].
  rewrite !mbind_assoc. apply mbind_ext; [reflexivity|]. intros s1 w1.
  rewrite mbind_mret_l. now apply ECBSink_write_whole.
Qed.

Lemma ECBSink_writes_concat chunks : Forall (fun c : bytes => List.length c mod 8 = 0)%nat chunks ->
  forall o w, writes (ECBSink_write wr) o chunks w = ECBSink_write wr o (List.concat chunks) w.
Proof.
  induction chunks as [|c r IH]; intros H o w; [destruct o; reflexivity|]. inversion H; subst.
  cbn [writes List.concat]. rewrite ECBSink_write_app; [|assumption|].
  - apply mbind_ext; [reflexivity|]. auto.
  - clear -H3. induction H3; [reflexivity|]. cbn [List.concat]. now apply mod_app.
Qed.

Lemma tower_finalized xs : forall s qs w,
  tower_finalize wr m (map kl xs) (tower_at xs s qs) w = (Ok s, w).
Proof.
  induction xs as [|[[k|k a b|k a] E D] xs IH]; intros s qs w; [reflexivity| | |];
    cbn [map kl tower_at tower_finalize]; apply IH.
Qed.
End SinkTower.

(** A single write of whole blocks is as good as one write per block. *)
Lemma tower_write_whole {W S} (wr : writer W S) m x xs o d w : whole d ->
  tower_write wr m (map kl (x :: xs)) o d w =
  writes (tower_write wr m (map kl (x :: xs))) o (map (to_le 8) (blocks8 d)) w.
Proof.
  intros Hd. destruct x as [[k|k a b|k a] E D]; cbn [map kl tower_write] in *.
  - symmetry. etransitivity; [apply (ECBSink_writes_concat (tower_write wr m (map kl xs)))|].
    + apply Forall_map, Forall_forall. intros y _. now rewrite to_le_length.
    + now rewrite concat_map_to_le, unblocks8_blocks8.
  - symmetry. etransitivity; [apply (magma_writes_concat (tower_write wr m (map kl xs)))|].
    now rewrite concat_map_to_le, unblocks8_blocks8.
  - symmetry. etransitivity; [apply (gost_writes_concat (tower_write wr m (map kl xs)))|].
    now rewrite concat_map_to_le, unblocks8_blocks8.
Qed.

(** ** Sources *)

Fixpoint tower_left {W St} (R : St -> W -> bytes -> Prop) (xs : list known_layer)
  : source_tower St (map kl xs) -> W -> bytes -> Prop :=
  match xs return source_tower St (map kl xs) -> W -> bytes -> Prop with
  | [] => R
  | x :: r =>
      match kl x as l return source_tower St (l :: map kl r) -> W -> bytes -> Prop with
      | LECB k => ecb_left k (kl_D x) (tower_left R r)
      | LMagmaCFB k _ _ => magma_cfb_left k (kl_E x) (tower_left R r)
      | LGostCFB k _ => gost_cfb_left k (kl_E x) (tower_left R r)
      end
  end.

Section SourceTower.
Context {W St : Type} (rd : reader W St) (m : mode) (R : St -> W -> bytes -> Prop).

Lemma tower_source xs : Forall known_ok xs -> block_source rd R ->
  block_source (tower_read rd m (map kl xs)) (tower_left R xs).
Proof.
  intros Hx HR. induction Hx as [|[[k|k a b|k a] E D] xs (HE & HD & Hl) Hx IH]; [exact HR| | |];
    cbn [map kl tower_read tower_left kl_E kl_D] in *.
  - apply delivers_blocks_block_source. now apply ecb_delivers.
  - apply delivers_block_source. apply magma_delivers; [exact HE|apply IH].
  - apply delivers_block_source. apply gost_delivers; [exact HE|apply IH].
Qed.

Lemma tower_source_cfb x xs : Forall known_ok (x :: xs) -> is_cfb x -> block_source rd R ->
  delivers (tower_read rd m (map kl (x :: xs))) (tower_left R (x :: xs)).
Proof.
  intros Hx Hc HR. inversion Hx as [|? ? (HE & HD & Hl) Hx']; subst.
  pose proof (tower_source xs Hx' HR) as [H _].
  destruct x as [[k|k a b|k a] E D]; cbn [map kl tower_read tower_left kl_E kl_D] in *; [contradiction| |].
  - now apply magma_delivers.
  - now apply gost_delivers.
Qed.

Lemma tower_decrypt_lt xs : Forall known_ok xs -> forall cs, Forall b64 cs -> Forall b64 (tower_decrypt xs cs).
Proof.
  intros Hx cs Hc. induction Hx as [|[[k|k a b|k a] E D] xs (HE & HD & Hl) Hx IH]; [exact Hc| | |];
    cbn [tower_decrypt layer_decrypt kl kl_E kl_D layer_key layer_ok] in *.
  - apply ecb_lt; [exact (deciphers_lt _ _ HD)|exact IH].
  - apply cfb_decrypt_lt; [exact (enciphers_lt _ _ HE)|now apply reg2_ok|exact IH].
  - apply cfb_decrypt_lt; [exact (enciphers_lt _ _ HE)|now apply reg1_ok|exact IH].
Qed.

Lemma tower_left_init xs s w cipher : Forall known_ok xs -> R s w cipher -> whole cipher ->
  tower_left R xs (source_tower_init s (map kl xs)) w (unblocks8 (tower_decrypt xs (blocks8 cipher))).
Proof.
  intros Hx HR Hc. induction Hx as [|[[k|k a b|k a] E D] xs (HE & HD & Hl) Hx IH].
  - cbn [tower_decrypt]. rewrite unblocks8_blocks8 by exact Hc. exact HR.
  - cbn [map kl source_tower_init tower_left kl_D tower_decrypt]. split; [reflexivity|].
    eexists. split; [exact IH|]. split; [apply unblocks8_whole|].
    rewrite blocks8_unblocks8; [reflexivity|]. apply (tower_decrypt_lt xs Hx), blocks8_lt, Hc.
  - destruct Hl as [Ha Hb]. cbn [map kl source_tower_init tower_left kl_E tower_decrypt].
    split; [reflexivity|]. split; [exact Ha|]. split; [exact Hb|].
    eexists. split; [exact IH|]. split; [apply unblocks8_whole|].
    rewrite blocks8_unblocks8; [reflexivity|]. apply (tower_decrypt_lt xs Hx), blocks8_lt, Hc.
  - cbn [map kl source_tower_init tower_left kl_E tower_decrypt].
    split; [reflexivity|]. split; [exact Hl|].
    eexists. split; [exact IH|]. split; [apply unblocks8_whole|].
    rewrite blocks8_unblocks8; [reflexivity|]. apply (tower_decrypt_lt xs Hx), blocks8_lt, Hc.
Qed.
End SourceTower.

Lemma layer_encrypt_lt x ps : known_ok x -> Forall b64 ps -> Forall b64 (layer_encrypt x ps).
Proof.
  intros (HE & HD & Hl) Hp. destruct x as [[k|k a b|k a] E D]; cbn [layer_encrypt kl kl_E layer_key layer_ok] in *.
  - apply ecb_lt; [exact (enciphers_lt _ _ HE)|exact Hp].
  - apply cfb_encrypt_lt; [exact (enciphers_lt _ _ HE)|now apply reg2_ok|exact Hp].
  - apply cfb_encrypt_lt; [exact (enciphers_lt _ _ HE)|now apply reg1_ok|exact Hp].
Qed.

Lemma layer_inverse x ps : known_ok x -> Forall b64 ps -> layer_decrypt x (layer_encrypt x ps) = ps.
Proof.
  intros (HE & HD & Hl) Hp.
  destruct x as [[k|k a b|k a] E D]; unfold layer_encrypt, layer_decrypt; cbn [kl kl_E kl_D layer_key layer_ok] in *.
  - apply ecb_ecb; [|exact Hp]. intros y Hy. now apply (deciphers_enciphers k E D).
  - apply cfb_decrypt_encrypt.
  - apply cfb_decrypt_encrypt.
Qed.

Lemma tower_inverse xs : Forall known_ok xs -> forall ps, Forall b64 ps ->
  tower_decrypt xs (tower_encrypt xs ps) = ps.
Proof.
  intros Hx. induction Hx as [|x xs Hk Hx IH]; intros ps Hp; [reflexivity|].
  cbn [tower_encrypt tower_decrypt]. rewrite IH by now apply layer_encrypt_lt. now apply layer_inverse.
Qed.

Lemma tower_encrypt_nil xs : tower_encrypt xs [] = [].
Proof. induction xs as [|[[k|k a b|k a] E D] xs IH]; [reflexivity| | |]; exact IH. Qed.

(** The sinks write exactly the encryption; the sources give back the data. *)
Theorem tower_sink_bytes {W S} (wr : writer W S) m xs data s w :
  Forall known_ok xs -> whole data -> never_fails wr ->
  exists s' w' log,
    (o <-- tower_write (logged wr) m (map kl xs) (sink_tower_init s (map kl xs)) data ;;
     tower_finalize (logged wr) m (map kl xs) o) (w, []) = (Ok s', (w', log)) /\
    List.concat log = unblocks8 (tower_encrypt xs (blocks8 data)).
Proof.
  intros Hx Hd Hn. destruct xs as [|x xs].
  - destruct (Hn s data w) as (s1 & w1 & E). exists s1, w1, [data].
    cbn [map tower_write sink_tower_init tower_finalize tower_encrypt].
    unfold mbind, logged. rewrite E. split; [reflexivity|].
    cbn [List.concat]. now rewrite app_nil_r, unblocks8_blocks8.
  - destruct (tower_blocks (logged wr) m (x :: xs) Hx (blocks8 data) []) as (cs & _ & Et & Ew);
      [constructor|now apply blocks8_lt|].
    rewrite tower_encrypt_nil in Et. cbn [app] in Et, Ew. rewrite <- tower_at_init.
    destruct (never_fails_writes wr Hn (map (to_le 8) cs) s w []) as (s1 & w1 & E1).
    exists s1, w1, (map (to_le 8) cs). split; [|now rewrite concat_map_to_le, <- Et].
    etransitivity; [apply mbind_ext; [rewrite (tower_write_whole (logged wr) m x xs) by exact Hd; apply Ew|
      intros ? ?; reflexivity]|].
    rewrite mbind_assoc. unfold mbind. rewrite E1. cbn [mret]. apply tower_finalized.
Qed.
