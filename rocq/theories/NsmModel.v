(** * Model of core/nsm.rs: slotted pages

    A page is a [list byte]; functions taking [&mut [u8]] return the new page. [PageFormat] has the single
    field [row_alignment], passed as the first argument [a]. [usize] offsets are [nat] with checked
    subtraction; slot values ([u32]) are [Z]. *)

From Verif Require Import Base UtilModel.

Definition page := list byte.

(** src/core/nsm.rs:39-46 [initialize_page]. *)
Definition initialize_page (a : nat) (pg : page) : outcome page :=
  check (4 <=? length pg) ;;
  check (Z.of_nat (length pg) <=? 2 ^ 32 - 1)%Z ;;
  l <- align_nat (length pg) a ;;
  check (l =? length pg) ;;
  set_u32 pg 0 0%Z.

(** src/core/nsm.rs:48-50 [num_rows]. *)
Definition num_rows (pg : page) : outcome nat :=
  v <- get_u32 pg 0 ;; Ret (Z.to_nat v).

(** src/core/nsm.rs:52-54 [set_num_rows]; [as Offset] truncates, as [le_bytes] does. *)
Definition set_num_rows (pg : page) (n : nat) : outcome page :=
  set_u32 pg 0 (Z.of_nat n).

(** src/core/nsm.rs:56-58 [set_row_offset]. *)
Definition set_row_offset (pg : page) (index : nat) (offset : Z) : outcome page :=
  set_u32 pg (4 * (index + 1)) offset.

(** src/core/nsm.rs:60-62 [get_row_offset]. *)
Definition get_row_offset (pg : page) (index : nat) : outcome Z :=
  get_u32 pg (4 * (index + 1)).

(** src/core/nsm.rs:205-207 [alignment_mask]: complement in [usize], then truncation to [u32]. *)
Definition alignment_mask (a : nat) : outcome Z :=
  m <- usub a 1 ;; Ret (unot 64 (Z.of_nat m) mod 2 ^ 32)%Z.

(** src/core/nsm.rs:189-193 [aligned_row_offset]. *)
Definition aligned_row_offset (a : nat) (pg : page) (index : nat) : outcome nat :=
  n <- num_rows pg ;;
  check (index <? n) ;;
  v <- get_row_offset pg index ;;
  m <- alignment_mask a ;;
  Ret (Z.to_nat (Z.land v m)).

(** src/core/nsm.rs:195-203 [row_offset_padding]. *)
Definition row_offset_padding (a : nat) (pg : page) (index : nat) : outcome (nat * nat) :=
  n <- num_rows pg ;;
  check (index <? n) ;;
  v <- get_row_offset pg index ;;
  m <- alignment_mask a ;;
  Ret (Z.to_nat (Z.land v m), Z.to_nat (Z.land v (unot 32 m))).

(** src/core/nsm.rs:64-73 [get_row]. *)
Definition get_row (a : nat) (pg : page) (index : nat) : outcome (list byte) :=
  '(offset, padding) <- row_offset_padding a pg index ;;
  next_offset <- (if 0 <? index then aligned_row_offset a pg (index - 1) else Ret (length pg)) ;;
  stop <- usub next_offset padding ;;
  index_range pg offset stop.

(** src/core/nsm.rs:170-187 [max_insert_row_size]. *)
Definition max_insert_row_size (a : nat) (pg : page) : outcome nat :=
  n <- num_rows pg ;;
  lower_bound <- align_nat (4 * (n + 2)) a ;;
  upper_bound <- (if 0 <? n then aligned_row_offset a pg (n - 1) else Ret (length pg)) ;;
  if lower_bound <=? upper_bound then Ret (upper_bound - lower_bound) else Ret 0.

(** src/core/nsm.rs:75-96 [append_row]. *)
Definition append_row (a : nat) (pg : page) (row : list byte) : outcome page :=
  mx <- max_insert_row_size a pg ;;
  check (length row <=? mx) ;;
  n <- num_rows pg ;;
  aligned_len <- align_nat (length row) a ;;
  upper_bound <- (if 0 <? n then aligned_row_offset a pg (n - 1) else Ret (length pg)) ;;
  row_offset <- usub upper_bound aligned_len ;;
  padding <- usub aligned_len (length row) ;;
  let index_value := Z.lor (Z.of_nat row_offset) (Z.of_nat padding) in
  pg1 <- copy_range pg row_offset (row_offset + length row) row ;;
  pg2 <- set_row_offset pg1 n index_value ;;
  set_num_rows pg2 (n + 1).

(** Body of the slot loop of [insert_row], src/core/nsm.rs:119-122. *)
Definition shift_slot_up (delta : nat) (pg : page) (row_index : nat) : outcome page :=
  old <- get_row_offset pg row_index ;;
  v <- usub (Z.to_nat old) delta ;;
  set_row_offset pg (row_index + 1) (Z.of_nat v).

(** src/core/nsm.rs:98-137 [insert_row]. *)
Definition insert_row (a : nat) (pg : page) (index : nat) (row : list byte) : outcome page :=
  mx <- max_insert_row_size a pg ;;
  check (length row <=? mx) ;;
  n <- num_rows pg ;;
  if index =? n then append_row a pg row
  else
    delta <- align_nat (length row) a ;;
    last <- usub n 1 ;;
    last_offset <- aligned_row_offset a pg last ;;
    row_offset <- (if 0 <? index then aligned_row_offset a pg (index - 1) else Ret (length pg)) ;;
    dst <- usub last_offset delta ;;
    len <- usub row_offset last_offset ;;
    pg1 <- raw_copy pg last_offset dst len ;;
    pg2 <- foldM (shift_slot_up delta) (rev (seq index (n - index))) pg1 ;;
    padding <- usub delta (length row) ;;
    row_offset' <- usub row_offset delta ;;
    let index_value := Z.lor (Z.of_nat row_offset') (Z.of_nat padding) in
    pg3 <- copy_range pg2 row_offset' (row_offset' + length row) row ;;
    pg4 <- set_row_offset pg3 index index_value ;;
    set_num_rows pg4 (n + 1).

(** Body of the slot loop of [remove_row], src/core/nsm.rs:155-158. *)
Definition shift_slot_down (delta : nat) (pg : page) (row_index : nat) : outcome page :=
  old <- get_row_offset pg row_index ;;
  i <- usub row_index 1 ;;
  set_row_offset pg i (Z.of_nat (Z.to_nat old + delta)).

(** src/core/nsm.rs:139-168 [remove_row]. *)
Definition remove_row (a : nat) (pg : page) (index : nat) : outcome page :=
  n <- num_rows pg ;;
  check (index <? n) ;;
  if index <? n - 1 then
    row_offset <- aligned_row_offset a pg index ;;
    prev_offset <- (if 0 <? index then aligned_row_offset a pg (index - 1) else Ret (length pg)) ;;
    last_offset <- aligned_row_offset a pg (n - 1) ;;
    delta <- usub prev_offset row_offset ;;
    pg1 <- foldM (shift_slot_down delta) (seq (index + 1) (n - (index + 1))) pg ;;
    len <- usub row_offset last_offset ;;
    pg2 <- raw_copy pg1 last_offset (last_offset + delta) len ;;
    set_num_rows pg2 (n - 1)
  else set_num_rows pg (n - 1).

(** Operations of the page API, and a history of calls. *)
Inductive page_op : Type :=
| OpAppend (row : list byte)
| OpInsert (index : nat) (row : list byte)
| OpRemove (index : nat).

Definition apply_op (a : nat) (pg : page) (op : page_op) : outcome page :=
  match op with
  | OpAppend row => append_row a pg row
  | OpInsert index row => insert_row a pg index row
  | OpRemove index => remove_row a pg index
  end.
