(** * Model of core/util.rs and storage/utils.rs *)

From Verif Require Import Base.
Local Open Scope Z_scope.

(** src/core/util.rs:82-85 [align]. [usize] is 64 bits wide. *)
Definition align (p : profile) (value alignment : Z) : outcome Z :=
  check is_pow2 alignment ;;
  s <- wadd p 64 value alignment ;;
  s1 <- wsub p 64 s 1 ;;
  m <- wsub p 64 alignment 1 ;;
  Ret (Z.land s1 (unot 64 m)).

(** [align] on [usize] values held in [nat] (lengths and offsets), overflow checks on. *)
Definition align_nat (value alignment : nat) : outcome nat :=
  z <- align Debug (Z.of_nat value) (Z.of_nat alignment) ;;
  Ret (Z.to_nat z).

(** [usize::leading_zeros]. *)
Definition leading_zeros64 (v : Z) : Z := if v =? 0 then 64 else 63 - Z.log2 v.

(** src/core/util.rs:123-131 [required_bits]. *)
Definition required_bits (value : Z) : Z :=
  if value =? 0 then 0 else 64 - leading_zeros64 value.

(** [usize::trailing_zeros], counting at most [fuel] bits. *)
Fixpoint trailing_zeros (fuel : nat) (v : Z) : Z :=
  match fuel with
  | O => 0
  | S f => if Z.odd v then 0 else 1 + trailing_zeros f (v / 2)
  end.

(** src/core/util.rs:149-154 [log2]. *)
Definition log2 (value : Z) : outcome Z :=
  check negb (value =? 0) ;;
  check is_pow2 value ;;
  Ret (trailing_zeros 64 value).

(** src/core/util.rs:156-164 [set_value] at type [u32]. *)
Definition set_u32 (buffer : list byte) (offset : nat) (value : Z) : outcome (list byte) :=
  check (offset + 4 <=? length buffer)%nat ;;
  Ret (write buffer offset (le_bytes 4 value)).

(** src/core/util.rs:166-174 [get_value] at type [u32]. *)
Definition get_u32 (buffer : list byte) (offset : nat) : outcome Z :=
  check (offset + 4 <=? length buffer)%nat ;;
  Ret (le_val (slice buffer offset 4)).

(** src/storage/utils.rs:27-49 [align_usize], [align_u8] ... [align_u128]: the same expression at width [w],
    without the power-of-two assertion. *)
Definition align_w (p : profile) (w value alignment : Z) : outcome Z :=
  s <- wadd p w value alignment ;;
  s1 <- wsub p w s 1 ;;
  m <- wsub p w alignment 1 ;;
  Ret (Z.land s1 (unot w m)).

(** src/storage/utils.rs:23-25 [calc_file_blocks] (u64). *)
Definition calc_file_blocks (p : profile) (file_size block_size : Z) : outcome Z :=
  s <- wadd p 64 file_size block_size ;;
  s1 <- wsub p 64 s 1 ;;
  check negb (block_size =? 0) ;;
  Ret (s1 / block_size).
