(** Properties of keys from containers: C47. *)
From Verif Require Import Base Text MagmaModel Streams SpecText SpecMagma SpecModes SpecStreams.
From Verif Require Import SinkProofs TowerProofs ContainerProofs TestVectors.
Local Open Scope N_scope.

(** ** C47: the part about the mask is refuted *)

(** ECBSource over a container decrypts what ECBSink encrypted under the hexadecimal
    string that writes the container's key bytes. *)
Theorem C47_round_trip_partial {W S} (wr : writer W S) (m : mode) (kb : bytes) (hex : str) (mask : res bytes)
    (s : S) (chunks : list bytes) (w : W) :
  written kb hex -> List.length kb = 32%nat -> Forall whole chunks -> never_fails wr ->
  exists o s' w' w'' log,
    writes (ECBSink_write (logged wr)) (ECBSink s (KLazy (LazyKey_string hex))) chunks (w, [])
      = (Ok o, (w', log)) /\
    ECBSink_finalize o (w', log) = (Ok s', (w'', log)) /\
    forall W2 St (rd : reader W2 St) (R : St -> W2 -> bytes -> Prop) src w2 sizes,
      block_source rd R -> R src w2 (List.concat log) -> Forall (fun n => 8 <= n) sizes ->
      exists o1 o2 w3,
        ECBSource_container m src (Container (Ok kb) mask (Ok Pi_packed)) = Ok o1 /\
        reads (ECBSource_read rd m) o1 sizes w2 =
          (Ok (served (List.concat chunks) (map (fun _ => 8) sizes), o2), w3).
Proof. apply container_round_trip. Qed.

(** The key of a container, for the standard table and for any other packed table. *)
Theorem C47_same_key_partial (m : mode) (kb : bytes) (hex : str) (mask : res bytes) :
  written kb hex -> List.length kb = 32%nat ->
  exists k, makeKey m (Container (Ok kb) mask (Ok Pi_packed)) = Ok k /\
    enciphers k (Magma_E (number hex)) /\ deciphers k (Magma_D (number hex)).
Proof. apply container_standard. Qed.

Theorem C47_any_table_partial (m : mode) (kb : bytes) (hex : str) (mask : res bytes) (uz : list N)
    (ts : list (list N)) :
  written kb hex -> List.length kb = 32%nat ->
  packed uz ts -> Forall nibble_table ts -> List.length ts = 8%nat ->
  exists k, makeKey m (Container (Ok kb) mask (Ok uz)) = Ok k /\
    enciphers k (encryption (fun i a => rotl11 (subst_digits ts ((a + key_word (number hex) i) mod 2 ^ 32)))) /\
    deciphers k (decryption (fun i a => rotl11 (subst_digits ts ((a + key_word (number hex) i) mod 2 ^ 32)))).
Proof. apply container_ciphers. Qed.

(** The mask takes no part in the key; mask() is not even called. *)
Theorem C47_refuted_mask (m : mode) (k sb mask mask' : res bytes) :
  makeKey m (Container k mask sb) = makeKey m (Container k mask' sb).
Proof. apply makeKey_mask. Qed.

(** Keys and tables of a wrong size are not rejected: longer ones are written past the
    end of the buffer, shorter ones are filled up with zeros. *)
Theorem C47_overflow (m : mode) (kb uz : bytes) (mask : res bytes) :
  ((32 < List.length kb)%nat -> makeKey m (Container (Ok kb) mask (Ok uz)) = Undef Overflow) /\
  ((0 < List.length kb <= 32)%nat -> (64 < List.length uz)%nat ->
     makeKey m (Container (Ok kb) mask (Ok uz)) = Undef Overflow).
Proof. apply makeKey_overflow. Qed.

Theorem C47_short (m : mode) (kb uz : bytes) (mask : res bytes) :
  (0 < List.length kb <= 32)%nat -> (0 < List.length uz <= 64)%nat ->
  makeKey m (Container (Ok kb) mask (Ok uz)) =
  makeKey m (Container (Ok (kb ++ repeat 0 (32 - List.length kb))) mask
                       (Ok (uz ++ repeat 0 (64 - List.length uz)))).
Proof. apply makeKey_short. Qed.

(** test/magma/ECBSourceTest.cpp:22-44 *)
Definition test_key_bytes : bytes :=
  [0xff; 0xee; 0xdd; 0xcc; 0xbb; 0xaa; 0x99; 0x88; 0x77; 0x66; 0x55; 0x44; 0x33; 0x22; 0x11; 0x00;
   0xf0; 0xf1; 0xf2; 0xf3; 0xf4; 0xf5; 0xf6; 0xf7; 0xf8; 0xf9; 0xfa; 0xfb; 0xfc; 0xfd; 0xfe; 0xff].

Example C47_example_written : written test_key_bytes magma_key_str.
Proof.
  unfold test_key_bytes, magma_key_str. cbn [str_of].
  repeat (apply written_cons; [discriminate|discriminate|reflexivity|]). constructor.
Qed.

Example C47_example :
  let cipher := le64s [0x2b073f0494f372a0; 0xde70e715d3556e48] in
  match ECBSource_container ISO cipher (Container (Ok test_key_bytes) (Ok (repeat 0 32)) (Ok Pi_packed)) with
  | Ok o => match fst (reads (ECBSource_read MemSource_read ISO) o [8; 8; 8] tt) with
            | Ok (bs, _) => bs = [le64s [0x92def06b3c130a59]; le64s [0xdb54c704f8189d20]; []]
            | _ => False
            end
  | _ => False
  end.
Proof. vm_compute. reflexivity. Qed.

Print Assumptions C47_round_trip_partial.
Print Assumptions C47_same_key_partial.
Print Assumptions C47_any_table_partial.
Print Assumptions C47_refuted_mask.
Print Assumptions C47_overflow.
Print Assumptions C47_short.
