(** * Properties C01 and C02 *)

From Verif Require Import Base UtilModel PowerSpec UtilSpec PowerFacts UtilProofs.
Local Open Scope Z_scope.

(** C01: for a power of two, [align] returns the least multiple not below the value, in both profiles. *)
Theorem align_least_multiple : forall p v a,
  power_of_two a -> 0 <= v -> v + a < 2 ^ 64 ->
  exists r, align p v a = Ret r /\ least_multiple_from a v r.
Proof. exact (fun p v a H => align_least p v a (proj1 (pow2_true a) H)). Qed.
Print Assumptions align_least_multiple.

Example align_least_multiple_ex :
  power_of_two 16 /\ 0 <= 158273 /\ 158273 + 16 < 2 ^ 64 /\ align Debug 158273 16 = Ret 158288.
Proof. split; [exists 4; split; [lia|reflexivity]|]. vm_compute. intuition discriminate. Qed.

(** C01: with overflow checks the call panics exactly on a non-power-of-two or on overflow of the sum. *)
Theorem align_panic_iff : forall v a,
  0 <= v < 2 ^ 64 -> 0 <= a < 2 ^ 64 ->
  (align Debug v a = Panic <-> ~ power_of_two a \/ 2 ^ 64 <= v + a).
Proof. intros v a Hv Ha. rewrite pow2_false. apply align_panics; assumption. Qed.
Print Assumptions align_panic_iff.

Example align_panic_iff_ex : ~ power_of_two 12 /\ align Debug 5 12 = Panic /\ align Debug (2 ^ 64 - 1) 8 = Panic.
Proof. split; [apply pow2_false; reflexivity|]. vm_compute. auto. Qed.

(** C01: without overflow checks it panics exactly on a non-power-of-two. *)
Theorem align_release_panic_iff : forall v a, align Release v a = Panic <-> ~ power_of_two a.
Proof. intros v a. rewrite pow2_false. apply align_release_panics. Qed.
Print Assumptions align_release_panic_iff.

Example align_release_panic_iff_ex :
  ~ power_of_two 12 /\ align Release 5 12 = Panic /\ align Release 5 0 = Panic /\ align Release (2 ^ 64 - 1) 8 = Ret 0.
Proof. split; [apply pow2_false; reflexivity|]. vm_compute. auto. Qed.

(** C01: in release builds the one-step wrap of the intermediate sum is harmless. *)
Theorem align_release_edge : forall v a,
  power_of_two a -> 0 <= v -> v + a = 2 ^ 64 -> a < 2 ^ 64 ->
  exists r, align Release v a = Ret r /\ least_multiple_from a v r.
Proof. exact (fun v a H => align_release_boundary v a (proj1 (pow2_true a) H)). Qed.
Print Assumptions align_release_edge.

Example align_release_edge_ex : (2 ^ 64 - 8) + 8 = 2 ^ 64 /\ align Release (2 ^ 64 - 8) 8 = Ret (2 ^ 64 - 8).
Proof. vm_compute. auto. Qed.

(** C01: the storage variants compute the same function at every width. *)
Theorem storage_align_least_multiple : forall p w v a,
  0 < w -> power_of_two a -> 0 <= v -> v + a < 2 ^ w ->
  exists r, align_w p w v a = Ret r /\ least_multiple_from a v r.
Proof. exact (fun p w v a Hw H => align_w_least p w v a Hw (proj1 (pow2_true a) H)). Qed.
Print Assumptions storage_align_least_multiple.

Example storage_align_least_multiple_ex : power_of_two 64 /\ 130 + 64 < 2 ^ 8 /\ align_w Release 8 130 64 = Ret 192.
Proof. split; [exists 6; split; [lia|reflexivity]|]. vm_compute. auto. Qed.

(** C01: [calc_file_blocks] returns the least number of blocks that holds the file. *)
Theorem file_blocks_least : forall p file_size block_size,
  0 <= file_size -> 0 < block_size -> file_size + block_size < 2 ^ 64 ->
  exists n, calc_file_blocks p file_size block_size = Ret n /\
            file_size <= n * block_size /\ forall m, file_size <= m * block_size -> n <= m.
Proof. exact calc_file_blocks_spec. Qed.
Print Assumptions file_blocks_least.

Example file_blocks_least_ex : calc_file_blocks Debug 8193 4096 = Ret 3.
Proof. reflexivity. Qed.

(** C02: [required_bits v] is the least [n] with [v < 2^n]. *)
Theorem required_bits_least : forall v,
  0 <= v < 2 ^ 64 ->
  0 <= required_bits v <= 64 /\ v < 2 ^ required_bits v /\
  forall n, 0 <= n -> v < 2 ^ n -> required_bits v <= n.
Proof. exact required_bits_spec. Qed.
Print Assumptions required_bits_least.

Example required_bits_least_ex : 0 <= 32768 < 2 ^ 64 /\ required_bits 32768 = 16.
Proof. vm_compute. intuition discriminate. Qed.

(** C02: [log2] succeeds exactly on powers of two and returns the exponent. *)
Theorem log2_exact : forall v n, 0 <= v < 2 ^ 64 -> (log2 v = Ret n <-> 0 <= n /\ v = 2 ^ n).
Proof. exact log2_spec. Qed.
Print Assumptions log2_exact.

Example log2_exact_ex : log2 4096 = Ret 12 /\ log2 4097 = Panic /\ log2 0 = Panic.
Proof. vm_compute. auto. Qed.
