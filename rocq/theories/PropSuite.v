(** Properties C99 and C100: the project's own tests. *)
From Verif Require Import Base Text MagmaModel Streams KuzModel HarnessModel SuiteModel SpecSuite SuiteProofs.
Local Open Scope N_scope.

(** ** C99: the test program ends with 0 on x86, whatever the random generators give and
    whatever lies behind vectors *)
Theorem C99_x86 {W} (g : list N -> nat -> N) (engine device : M W N) (w : W) :
  answers engine -> answers device -> fst (goost_test (X86 g) (goost (X86 g)) engine device w) = Ok 0%Z.
Proof. apply suite_x86. Qed.

(** By the rules of the language it has no outcome: one of its tests shifts by too much. *)
Theorem C99_refuted {W} (engine device : M W N) (w : W) :
  answers device -> fst (goost_test ISO (goost ISO) engine device w) = Undef WideShift.
Proof. apply suite_iso. Qed.

(** All the others pass by the rules of the language. *)
Theorem C99_partial {W} (engine device : M W N) : answers engine -> answers device ->
  Forall passes (before_imit ISO (goost ISO) device ++ after_imit engine).
Proof. apply suite_iso_rest. Qed.

(** They are the tests of the program without that one. *)
Theorem C99_others {W} m (v : versions W) (engine device : M W N) :
  Hex64SourceTest ++ gost_tests m v ++ kuz_tests m v device ++ magma_tests m v engine =
  before_imit m v device ++ magma_ImitTest v ++ after_imit engine /\
  List.length (@magma_ImitTest W v) = 1%nat /\ List.length (before_imit m v device ++ after_imit engine) = 73%nat.
Proof. exact (conj (suite_split m v engine device) (conj eq_refl eq_refl)). Qed.

(** For any library: the status is 0 exactly when every test passes, each in the world that
    those before it leave; a test that throws or has no outcome is no pass. *)
Theorem C99_status {W} m (v : versions W) (engine device : M W N) (w : W) :
  fst (goost_test m v engine device w) = Ok 0%Z <->
  exists w', pass_in_turn (before_imit m v device ++ magma_ImitTest v ++ after_imit engine) w w'.
Proof. apply suite_status. Qed.

(** A random device that throws. *)
Example C99_status_example :
  all_pass (BlkCachedTest (fun w : N => (Throw (RuntimeError "no device"), w + 1))) 0 = (Ok false, 1).
Proof. vm_compute. reflexivity. Qed.

(** The example of the package ends with 0 by the rules of the language, too. *)
Theorem C99_package (m : mode) : example_main (W := unit) (goost m) = Ok 0%Z.
Proof. apply package_example. Qed.

(** Generators that count and that always give 7 *)
Example C99_example : answers (fun w : N => (Ok (w * w), w + 1)) /\ answers (fun w : N => (Ok 7, w)).
Proof. split; intros w; do 2 eexists; reflexivity. Qed.

(** ** C100: "a library that passes the tests is right" fails: every library, however wrong,
    passes them when it is changed at 7 blocks to encrypt, 1 to decrypt, 5 for
    EncryptionBase, 4 for Kuznyechik, one message for the sinks, one for each MAC; DataImit
    may be anything *)
Theorem C100_refuted {W} (g : list N -> nat -> N) (u : versions W) (engine device : M W N) :
  answers engine -> answers device ->
  exists v, nearly v u /\ forall w, fst (goost_test (X86 g) v engine device w) = Ok 0%Z.
Proof. apply suite_blind. Qed.

(** The library but for a finalize that loses what is left over: the test of CFBSink passes,
    three bytes are lost. *)
Definition forgetful : versions unit :=
  Versions BlkEncrypted BlkDecrypted EncryptionBase_transform (ECBSink_write TestSink_write)
    (ECBSource_read Hex64Source_read ISO) (magma_CFBSink_write TestSink_write ISO)
    (fun o => mret (mcs_sink o)) (magma_Imit Hex64Source_read ISO fuel) KEncrypted
    (fun _ _ => OutOfFuel) DataImit.

Example C100_example :
  all_pass (magma_CFBSinkTest ISO forgetful) tt = (Ok true, tt) /\
  fst ((o <-- v_cfb_write forgetful (magma_CFBSink_init [] (KLazy standard_key) 1 2) [1; 2; 3] ;;
        v_cfb_finalize forgetful o) tt) = Ok [] /\
  fst ((o <-- v_cfb_write (goost (X86 (fun _ _ => 0))) (magma_CFBSink_init [] (KLazy standard_key) 1 2) [1; 2; 3] ;;
        v_cfb_finalize (goost (X86 (fun _ _ => 0))) o) tt) = Ok [230; 217; 25].
Proof. split; [|split]; vm_compute; reflexivity. Qed.

Print Assumptions C99_x86.
Print Assumptions C99_refuted.
Print Assumptions C99_partial.
Print Assumptions C99_others.
Print Assumptions C99_status.
Print Assumptions C99_package.
Print Assumptions C100_refuted.
