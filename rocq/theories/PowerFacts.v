(** * [is_pow2] decides the powers of two *)

From Verif Require Import Base BaseFacts PowerSpec.

Lemma pow2_true z : power_of_two z <-> is_pow2 z = true.
Proof. symmetry. apply is_pow2_true. Qed.

Lemma pow2_false z : ~ power_of_two z <-> is_pow2 z = false.
Proof. rewrite pow2_true. destruct (is_pow2 z); intuition discriminate. Qed.

Lemma pow2_nat n k : n = 2 ^ k -> power_of_two (Z.of_nat n).
Proof. intros ->. exists (Z.of_nat k). split; [lia|]. rewrite Nat2Z.inj_pow. reflexivity. Qed.
