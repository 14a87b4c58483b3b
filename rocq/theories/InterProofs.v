(** Proofs for C108 and C109. *)
From Verif Require Import Base MagmaModel Streams SpecMagma SpecModes SpecStreams SpecInter.
From Verif Require Import Lib ByteProofs SinkProofs StreamProofs TowerProofs StreamFacts.
From Coq Require Import Lia.
Local Open Scope N_scope.

(** ** Lists *)

Lemma evens_cons2 {A} (a b : A) r : evens (a :: b :: r) = a :: evens r.
Proof. reflexivity. Qed.
Lemma odds_cons2 {A} (a b : A) r : odds (a :: b :: r) = b :: odds r.
Proof. unfold odds. cbn [tl]. destruct r; reflexivity. Qed.

Lemma two_ind {A} (P : list A -> Prop) :
  P [] -> (forall a, P [a]) -> (forall a b r, P r -> P (a :: b :: r)) -> forall l, P l.
Proof.
  intros H0 H1 H2. assert (H : forall l, P l /\ forall a, P (a :: l)).
  { induction l as [|b l [IH1 IH2]]; [split; auto|]. split; [apply IH2|]. intros a. now apply H2. }
  intros l. apply H.
Qed.

Lemma evens_map {A B} (f : A -> B) l : evens (map f l) = map f (evens l).
Proof. revert l. apply (two_ind (fun l => evens (map f l) = map f (evens l))); [reflexivity..|]. intros a b r IH. cbn [map]. rewrite !evens_cons2. cbn [map]. now rewrite IH. Qed.
Lemma odds_map {A B} (f : A -> B) l : odds (map f l) = map f (odds l).
Proof. unfold odds. destruct l; [reflexivity|]. cbn [map tl]. apply evens_map. Qed.

Lemma evens_Forall {A} (P : A -> Prop) l : Forall P l -> Forall P (evens l).
Proof.
  revert l. apply (two_ind (fun l => Forall P l -> Forall P (evens l))); [constructor|intros a H; exact H|]. intros a b r IH H.
  inversion H as [|? ? H1 H']; subst. inversion H'; subst. rewrite evens_cons2. constructor; auto.
Qed.
Lemma odds_Forall {A} (P : A -> Prop) l : Forall P l -> Forall P (odds l).
Proof. intros H. unfold odds. apply evens_Forall. destruct H; [constructor|assumption]. Qed.

(** ** Blocks *)

Lemma block8_whole bs : Forall block8 bs -> whole (List.concat bs).
Proof.
  induction 1 as [|b bs [Hl Hb] _ [IH1 IH2]]; [split; [reflexivity|constructor]|]. cbn [List.concat]. split.
  - rewrite app_length, Hl, <- (Nat.mod_add (List.length (List.concat bs)) 1 8) in * by discriminate.
    replace (8 + List.length (List.concat bs))%nat with (List.length (List.concat bs) + 1 * 8)%nat by lia. exact IH1.
  - apply Forall_app. now split.
Qed.

Lemma block8_blocks bs : Forall block8 bs -> blocks8 (List.concat bs) = map of_le bs.
Proof.
  induction 1 as [|b bs [Hl Hb] _ IH]; [reflexivity|]. cbn [List.concat map]. rewrite blocks8_cons by exact Hl. now rewrite IH.
Qed.

Lemma block8_chunks bs : Forall block8 bs -> Forall whole bs.
Proof. apply Forall_impl. intros b [Hl Hb]. split; [now rewrite Hl|exact Hb]. Qed.

Lemma block8_back b : block8 b -> to_le 8 (of_le b) = b.
Proof. intros [Hl Hb]. rewrite <- Hl. now apply to_of_le. Qed.

Lemma block8_lt b : block8 b -> of_le b < 2 ^ 64.
Proof. intros [Hl Hb]. now apply of_le_8_lt. Qed.

Lemma to_le_block8 x : block8 (to_le 8 x).
Proof. split; [apply to_le_length|apply to_le_u8]. Qed.

(** Blocks read back one at a time. *)
Lemma served_blocks {A} bs (l : list A) : Forall block8 bs -> List.length l = List.length bs ->
  served (List.concat bs) (map (fun _ => 8) l) = bs.
Proof.
  intros H. revert l. induction H as [|b bs [Hl Hb] _ IH]; intros [|a l] E; try discriminate; [reflexivity|].
  cbn [map served List.concat]. change (N.to_nat 8) with 8%nat.
  rewrite firstn_app_exact, skipn_app_exact by exact Hl. f_equal. apply IH. now injection E.
Qed.

(** ** C108 *)

Lemma cfb_interleaved E l r ps :
  evens (cfb_encrypt E [l; r] ps) = cfb_encrypt E [l] (evens ps) /\
  odds (cfb_encrypt E [l; r] ps) = cfb_encrypt E [r] (odds ps).
Proof.
  revert l r. revert ps. apply (two_ind (fun ps => forall l r, evens (cfb_encrypt E [l; r] ps) = cfb_encrypt E [l] (evens ps) /\
    odds (cfb_encrypt E [l; r] ps) = cfb_encrypt E [r] (odds ps))).
  - intros l r. split; reflexivity.
  - intros a l r. split; reflexivity.
  - intros a b ps IH l r. cbn [cfb_encrypt hd tl app]. rewrite !evens_cons2, !odds_cons2.
    destruct (IH (N.lxor a (E l)) (N.lxor b (E r))) as [H1 H2].
    cbn [cfb_encrypt hd tl app]. now rewrite H1, H2.
Qed.

Lemma cfb_dec_interleaved E l r cs :
  evens (cfb_decrypt E [l; r] cs) = cfb_decrypt E [l] (evens cs) /\
  odds (cfb_decrypt E [l; r] cs) = cfb_decrypt E [r] (odds cs).
Proof.
  revert l r. revert cs. apply (two_ind (fun cs => forall l r, evens (cfb_decrypt E [l; r] cs) = cfb_decrypt E [l] (evens cs) /\
    odds (cfb_decrypt E [l; r] cs) = cfb_decrypt E [r] (odds cs))).
  - intros l r. split; reflexivity.
  - intros a l r. split; reflexivity.
  - intros a b cs IH l r. cbn [cfb_decrypt hd tl app]. rewrite !evens_cons2, !odds_cons2.
    destruct (IH a b) as [H1 H2]. cbn [cfb_decrypt hd tl app]. now rewrite H1, H2.
Qed.

Lemma sink_interleaved {W S} (wr : writer W S) m k E ivl ivr s bs w :
  enciphers k E -> ivl < 2 ^ 64 -> ivr < 2 ^ 64 -> Forall block8 bs -> never_fails wr ->
  exists o o1 o2 w' w1 w2 log,
    writes (magma_CFBSink_write (logged wr) m) (magma_CFBSink_init s k ivl ivr) bs (w, []) = (Ok o, (w', log)) /\
    writes (gost_CFBSink_write (logged wr) m) (gost_CFBSink_init s k ivl) (evens bs) (w, []) = (Ok o1, (w1, evens log)) /\
    writes (gost_CFBSink_write (logged wr) m) (gost_CFBSink_init s k ivr) (odds bs) (w, []) = (Ok o2, (w2, odds log)).
Proof.
  intros HE Hl Hr Hb Hn.
  pose proof (evens_Forall _ _ Hb) as Hb1. pose proof (odds_Forall _ _ Hb) as Hb2.
  destruct (magma_sink_blocks wr m k E ivl ivr s bs w HE Hl Hr (block8_whole _ Hb) Hn) as (o & s0 & w0 & log & A & _ & L & _).
  destruct (gost_sink_blocks wr m k E ivl s _ w HE Hl (block8_whole _ Hb1) Hn) as (o1 & s1 & w1 & log1 & A1 & _ & L1 & _).
  destruct (gost_sink_blocks wr m k E ivr s _ w HE Hr (block8_whole _ Hb2) Hn) as (o2 & s2 & w2 & log2 & A2 & _ & L2 & _).
  rewrite (block8_blocks _ Hb) in L. rewrite (block8_blocks _ Hb1) in L1. rewrite (block8_blocks _ Hb2) in L2.
  destruct (cfb_interleaved E ivl ivr (map of_le bs)) as [I1 I2].
  exists o, o1, o2, w0, w1, w2, log. split; [exact A|]. assert (M1 : evens log = log1) by (rewrite L, evens_map, I1, evens_map; symmetry; exact L1).
  assert (M2 : odds log = log2) by (rewrite L, odds_map, I2, odds_map; symmetry; exact L2).
  rewrite M1, M2. now split.
Qed.

Lemma cfb_decrypt_length E cs : forall reg, List.length (cfb_decrypt E reg cs) = List.length cs.
Proof. induction cs as [|c cs IH]; intros reg; [reflexivity|]. cbn [cfb_decrypt List.length]. now rewrite IH. Qed.

Lemma served_unblocks {A} xs (l : list A) : List.length l = List.length xs ->
  served (unblocks8 xs) (map (fun _ => 8) l) = map (to_le 8) xs.
Proof.
  intros H. rewrite <- concat_map_to_le. apply served_blocks; [|now rewrite map_length].
  apply Forall_map, Forall_forall. intros x _. apply to_le_block8.
Qed.

Lemma source_interleaved {W St} (rd : reader W St) m (R : St -> W -> bytes -> Prop) k E ivl ivr s s1 s2 bs w w1 w2 :
  enciphers k E -> delivers8 rd R -> ivl < 2 ^ 64 -> ivr < 2 ^ 64 -> Forall block8 bs ->
  R s w (List.concat bs) -> R s1 w1 (List.concat (evens bs)) -> R s2 w2 (List.concat (odds bs)) ->
  exists ps o o1 o2 w' w1' w2',
    reads (magma_CFBSource_read rd m) (magma_CFBSource_init s k ivl ivr) (map (fun _ => 8) bs) w = (Ok (ps, o), w') /\
    reads (gost_CFBSource_read rd m) (gost_CFBSource_init s1 k ivl) (map (fun _ => 8) (evens bs)) w1 = (Ok (evens ps, o1), w1') /\
    reads (gost_CFBSource_read rd m) (gost_CFBSource_init s2 k ivr) (map (fun _ => 8) (odds bs)) w2 = (Ok (odds ps, o2), w2').
Proof.
  intros HE HR Hl Hr Hb H H1 H2.
  pose proof (evens_Forall _ _ Hb) as Hb1. pose proof (odds_Forall _ _ Hb) as Hb2.
  destruct (magma_source_reads rd m R k E ivl ivr s w _ (map (fun _ => 8) bs) HE HR Hl Hr H (block8_whole _ Hb)) as (o & w' & A).
  destruct (gost_source_reads rd m R k E ivl s1 w1 _ (map (fun _ => 8) (evens bs)) HE HR Hl H1 (block8_whole _ Hb1)) as (o1 & w1' & A1).
  destruct (gost_source_reads rd m R k E ivr s2 w2 _ (map (fun _ => 8) (odds bs)) HE HR Hr H2 (block8_whole _ Hb2)) as (o2 & w2' & A2).
  rewrite (block8_blocks _ Hb), served_unblocks in A by now rewrite cfb_decrypt_length, map_length.
  rewrite (block8_blocks _ Hb1), served_unblocks in A1 by now rewrite cfb_decrypt_length, map_length.
  rewrite (block8_blocks _ Hb2), served_unblocks in A2 by now rewrite cfb_decrypt_length, map_length.
  destruct (cfb_dec_interleaved E ivl ivr (map of_le bs)) as [I1 I2].
  do 7 eexists. split; [exact A|]. rewrite evens_map, odds_map, I1, I2, evens_map, odds_map. split; [exact A1|exact A2].
Qed.

(** ** C109 *)

Lemma pick_Forall {A} (P : A -> Prop) d l js : Forall P l -> Forall (fun j => (j < List.length l)%nat) js ->
  Forall P (pick d l js).
Proof.
  intros H Hj. apply Forall_map. revert Hj. apply Forall_impl. intros j Hj.
  rewrite Forall_forall in H. apply H. now apply nth_In.
Qed.

Lemma pick_map {A B} (f : A -> B) d d' l js : Forall (fun j => (j < List.length l)%nat) js ->
  pick d' (map f l) js = map f (pick d l js).
Proof.
  intros H. unfold pick. rewrite map_map. apply map_ext_in. intros j Hj.
  rewrite Forall_forall in H. specialize (H j Hj). rewrite (nth_indep _ d' (f d)) by now rewrite map_length.
  apply map_nth.
Qed.

Lemma ecb_pieces {W S} (wr : writer W S) k E D s bs w :
  enciphers k E -> deciphers k D -> Forall block8 bs -> never_fails wr ->
  exists o w' log,
    writes (ECBSink_write (logged wr)) (ECBSink s k) bs (w, []) = (Ok o, (w', log)) /\
    List.length log = List.length bs /\
    (forall i j, (i < List.length bs)%nat -> (j < List.length bs)%nat ->
       (nth i log [] = nth j log [] <-> nth i bs [] = nth j bs [])) /\
    forall W2 St (rd : reader W2 St) (R : St -> W2 -> bytes -> Prop) m src w2 js,
      block_source rd R -> Forall (fun j => (j < List.length bs)%nat) js ->
      R src w2 (List.concat (pick [] log js)) ->
      exists o2 w3, reads (ECBSource_read rd m) (ECBSource src k) (map (fun _ => 8) js) w2 =
        (Ok (pick [] bs js, o2), w3).
Proof.
  intros HE HD Hb Hn.
  destruct (ecb_sink_blocks wr k E s bs w (enciphers_transforms' k E HE) (block8_chunks _ Hb) Hn) as (s' & w' & A).
  rewrite (block8_blocks _ Hb) in A. unfold ecb in A. rewrite !map_map in A.
  set (enc := fun x => to_le 8 (E (of_le x))) in A.
  exists (ECBSink s' k), w', (map enc bs). split; [exact A|]. split; [apply map_length|].
  assert (LE : forall b, block8 b -> E (of_le b) < 2 ^ 64) by (intros b B; apply (enciphers_lt _ _ HE); now apply block8_lt).
  assert (DE : forall b, block8 b -> to_le 8 (D (E (of_le b))) = b).
  { intros b B. rewrite (proj1 (deciphers_enciphers k E D HE HD _ (block8_lt b B))). now apply block8_back. }
  assert (N : forall i, (i < List.length bs)%nat -> nth i (map enc bs) [] = enc (nth i bs [])).
  { intros i Hi. rewrite (nth_indep _ [] (enc [])) by now rewrite map_length. apply map_nth. }
  assert (B : forall i, (i < List.length bs)%nat -> block8 (nth i bs [])).
  { intros i Hi. rewrite Forall_forall in Hb. apply Hb. now apply nth_In. }
  split.
  - intros i j Hi Hj. rewrite !N by assumption. split; [|now intros ->]. intros H.
    assert (X : E (of_le (nth i bs [])) = E (of_le (nth j bs []))).
    { rewrite <- (of_to_le_id 8 (E (of_le (nth i bs [])))), <- (of_to_le_id 8 (E (of_le (nth j bs []))))
        by (apply LE; now apply B). unfold enc in H. now rewrite H. }
    rewrite <- (DE (nth i bs [])), <- (DE (nth j bs [])) by now apply B. now rewrite X.
  - intros W2 St rd R m src w2 js HR Hj Hs.
    rewrite (pick_map enc [] [] bs js Hj) in Hs.
    pose proof (pick_Forall _ [] bs js Hb Hj) as P. set (qs := pick [] bs js) in *.
    assert (Lq : List.length js = List.length qs) by (unfold qs, pick; now rewrite map_length).
    assert (M : Forall block8 (map enc qs)) by (apply Forall_map, Forall_forall; intros x _; apply to_le_block8).
    pose proof (ecb_left_init k D R src w2 _ Hs (block8_whole _ M)) as HL.
    assert (Hz : Forall (fun n => 8 <= n) (map (fun _ : nat => 8) js)) by (apply Forall_map, Forall_forall; intros x _; lia).
    destruct (delivers_blocks_reads _ _ (map (fun _ => 8) js) (ecb_delivers rd m k D R HD HR) Hz _ _ _ HL) as (o2 & w3 & Er).
    exists o2, w3. rewrite Er. f_equal. f_equal. f_equal. rewrite map_map.
    rewrite (block8_blocks _ M). unfold ecb. rewrite !map_map.
    rewrite served_unblocks by now rewrite map_length.
    rewrite map_map. rewrite <- (map_id qs) at 2. apply map_ext_in. intros b Hin.
    rewrite Forall_forall in P. specialize (P b Hin). unfold enc. rewrite (of_to_le_id 8) by now apply LE. now apply DE.
Qed.
