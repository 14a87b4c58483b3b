(** What the text of a key or a block literal means, well-formed or not: C70. *)
From Verif Require Import Base Text MagmaModel KuzModel SpecText SpecNumber NumberProofs.
Local Open Scope N_scope.

(** ** C70 *)

(** Block literals of full width: each half stands for the number at its beginning. *)
Theorem C70_kuznyechik_value (a b : str) (lo hi : N) : List.length a = 16%nat -> List.length b = 16%nat ->
  KString (a ++ b) = Ok (lo, hi) <-> means 64 a hi /\ means 64 b lo.
Proof. apply KString_iff. Qed.

Theorem C70_magma_value (a b : str) (lo hi : N) : List.length a = 8%nat -> List.length b = 8%nat ->
  BlkString (a ++ b) = Ok (lo, hi) <-> means 32 a hi /\ means 32 b lo.
Proof. apply BlkString_iff. Qed.

(** They are rejected if one half does not begin with a number, and only then. *)
Theorem C70_kuznyechik_rejected (a b : str) : List.length a = 16%nat -> List.length b = 16%nat ->
  (KString (a ++ b) = Throw InvalidArgument <-> (forall neg v, ~ reads a neg v) \/ (forall neg v, ~ reads b neg v)) /\
  ((exists v, KString (a ++ b) = Ok v) \/ KString (a ++ b) = Throw InvalidArgument).
Proof. apply KString_rejects. Qed.

Theorem C70_magma_rejected (a b : str) : List.length a = 8%nat -> List.length b = 8%nat ->
  (BlkString (a ++ b) = Throw InvalidArgument <-> (forall neg v, ~ reads a neg v) \/ (forall neg v, ~ reads b neg v)) /\
  ((exists v, BlkString (a ++ b) = Ok v) \/ BlkString (a ++ b) = Throw InvalidArgument).
Proof. apply BlkString_rejects. Qed.

(** Shorter literals: zeros are put before them. *)
Theorem C70_padding (s : str) :
  ((List.length s <= 16)%nat -> BlkString s = BlkString (repeat 48 (16 - List.length s) ++ s)) /\
  ((List.length s <= 32)%nat -> KString s = KString (repeat 48 (32 - List.length s) ++ s)).
Proof. split; [apply short_padded|apply kshort_padded]. Qed.

(** Words of a Magma key: the number at the beginning of the group of eight characters, 0 if
    there is none, undefined if the group is blank. *)
Theorem C70_key_word (s : str) (i : nat) : List.length s = 64%nat -> (i < 8)%nat ->
  let group := firstn 8 (skipn (8 * i) s) in
  (forall n, KeyDataString s (Z.of_nat i) = Ok n <->
     means 32 group n \/ ((forall neg v, ~ reads group neg v) /\ ~ Forall space group /\ n = 0)) /\
  (forall u, KeyDataString s (Z.of_nat i) = Undef u <-> Forall space group /\ u = Uninit) /\
  (forall e, KeyDataString s (Z.of_nat i) <> Throw e).
Proof. intros Hs Hi group. destruct (key_group s i Hs Hi) as [E L]. rewrite E. now apply extract_iff. Qed.

(** A text stands for one number at most. *)
Theorem C70_unique (s : str) (neg neg' : bool) (v v' : N) : reads s neg v -> reads s neg' v' -> neg = neg' /\ v = v'.
Proof. apply reads_function. Qed.

Example C70_example :
  means 64 (str_of " -0x10 and so on") (2 ^ 64 - 16) /\ means 64 (str_of "0xg0000000000000") 0 /\
  (forall neg v, ~ reads (str_of "+x00000000000000") neg v) /\
  KString (str_of " -0x10 and so on0xg0000000000000") = Ok (0, 2 ^ 64 - 16) /\
  KeyDataString (str_of "-1      " ++ str_of "+0XfFg12" ++ str_of "  x     " ++ repeat 48 40) 0%Z = Ok (2 ^ 32 - 1) /\
  KeyDataString (str_of "-1      " ++ str_of "+0XfFg12" ++ str_of "  x     " ++ repeat 48 40) 1%Z = Ok 255 /\
  KeyDataString (str_of "-1      " ++ str_of "+0XfFg12" ++ str_of "  x     " ++ repeat 48 40) 2%Z = Ok 0.
Proof.
  split; [|split; [|split; [|vm_compute; repeat split; reflexivity]]].
  - exists true, 16. split; [now apply reads_iff|reflexivity].
  - exists false, 0. split; [now apply reads_iff|reflexivity].
  - intros neg v H. apply reads_iff in H. vm_compute in H. destruct H. discriminate.
Qed.

Print Assumptions C70_kuznyechik_value.
Print Assumptions C70_magma_value.
Print Assumptions C70_kuznyechik_rejected.
Print Assumptions C70_magma_rejected.
Print Assumptions C70_padding.
Print Assumptions C70_key_word.
Print Assumptions C70_unique.
