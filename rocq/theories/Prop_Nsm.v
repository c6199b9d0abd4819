(** * Properties C03 to C06: slotted pages *)

From Verif Require Import Base UtilModel PowerSpec PowerFacts UtilSpec NsmModel NsmSpec NsmProofs.

(** Sample pages used in the examples. *)
Definition sample_page : page := repeat xff 32.
Definition row_abc : list byte := [x61; x62; x63].
Definition row_long : list byte := [x01; x02; x03; x04; x05].

(** C03: which pages can be initialised. *)
Theorem page_initialize_iff : forall a pg,
  (exists pg', initialize_page a pg = Ret pg') <->
  power_of_two (Z.of_nat a) /\ Nat.divide a (length pg) /\ 4 <= length pg /\
  (Z.of_nat (length pg) < 2 ^ 32)%Z.
Proof. intros a pg. rewrite pow2_true. apply initialize_iff. Qed.
Print Assumptions page_initialize_iff.

Example page_initialize_iff_ex :
  (exists pg', initialize_page 4 sample_page = Ret pg') /\ initialize_page 5 sample_page = Panic /\
  initialize_page 64 sample_page = Panic.
Proof. vm_compute. eauto. Qed.

(** C03: after any legal history the page reports exactly the rows of the plain list; nothing panics. *)
Theorem page_is_list_of_rows : forall a pg pg0 ops rows,
  initialize_page a pg = Ret pg0 ->
  legal (length pg) a [] ops rows ->
  exists pg', foldM (apply_op a) ops pg0 = Ret pg' /\ length pg' = length pg /\ shows a pg' rows.
Proof. exact history_refines. Qed.
Print Assumptions page_is_list_of_rows.

Example page_is_list_of_rows_ex :
  exists pg0, initialize_page 4 sample_page = Ret pg0 /\
  legal (length sample_page) 4 []
    [OpAppend row_abc; OpInsert 0 row_long; OpAppend []; OpRemove 1] [row_long; []].
Proof.
  eexists; split; [vm_compute; reflexivity|].
  repeat (econstructor; [vm_compute; repeat split; try (left; discriminate); auto with arith; try (right; auto with arith)|]).
  all: vm_compute.
  all: try (right; repeat constructor).
  constructor.
Qed.

(** C03: a legal operation on a reachable page succeeds and leads to a reachable page with the expected rows. *)
Theorem page_step : forall a pg rows op,
  holds a pg rows -> op_ok (length pg) a rows op ->
  exists pg', apply_op a pg op = Ret pg' /\ length pg' = length pg /\ holds a pg' (spec_op rows op).
Proof. exact holds_step. Qed.
Print Assumptions page_step.

(** C03: what a reachable page reports. *)
Theorem page_reports_rows : forall a pg rows, holds a pg rows -> shows a pg rows.
Proof. intros a pg rows H. exact (rep_shows (holds_rep a pg rows H)). Qed.
Print Assumptions page_reports_rows.

Example page_reports_rows_ex : exists pg, holds 4 pg [row_abc; row_long].
Proof.
  eexists. exists sample_page. eexists. exists [OpAppend row_abc; OpInsert 1 row_long].
  split; [vm_compute; reflexivity|]. split; [|vm_compute; reflexivity].
  econstructor; [split; [vm_compute; repeat constructor|left; discriminate]|].
  econstructor; [split; [repeat constructor|split; [vm_compute; repeat constructor|left; discriminate]]|].
  constructor.
Qed.

(** C04: the reported capacity. *)
Theorem page_capacity_exact : forall a pg rows,
  holds a pg rows -> max_insert_row_size a pg = Ret (capacity (length pg) a rows).
Proof. intros a pg rows H. exact (rep_max_insert (holds_rep a pg rows H)). Qed.
Print Assumptions page_capacity_exact.

(** C04: a non-empty row is accepted exactly when it is not longer than the capacity. *)
Theorem page_accepts_iff : forall a pg rows row index,
  holds a pg rows -> row <> [] -> index <= length rows ->
  ((exists pg', append_row a pg row = Ret pg') <-> length row <= capacity (length pg) a rows) /\
  ((exists pg', insert_row a pg index row = Ret pg') <-> length row <= capacity (length pg) a rows).
Proof. exact accepts_iff. Qed.
Print Assumptions page_accepts_iff.

(** C04: illegal requests panic. *)
Theorem page_rejects : forall a pg rows,
  holds a pg rows ->
  (forall row, capacity (length pg) a rows < length row -> append_row a pg row = Panic) /\
  (forall index row, capacity (length pg) a rows < length row -> insert_row a pg index row = Panic) /\
  (forall index row, length rows < index -> insert_row a pg index row = Panic) /\
  (forall index, length rows <= index -> remove_row a pg index = Panic).
Proof. exact rejects. Qed.
Print Assumptions page_rejects.

(** C05: on a page without room for a further slot, appending the empty row panics or stores the slot inside the
    row area, although the capacity check passes. *)
Theorem empty_row_on_full_page : forall a pg rows,
  holds a pg rows -> ~ slot_fits (length pg) a rows ->
  append_row a pg [] = Panic \/
  exists pg', append_row a pg [] = Ret pg' /\
    let upper := length pg - stored a rows in
    4 * (length rows + 1) <= upper < 4 * (length rows + 2) /\ upper < length pg /\
    get_u32 pg' (4 * (length rows + 1)) = Ret (Z.of_nat upper).
Proof. exact empty_row_full. Qed.
Print Assumptions empty_row_on_full_page.

(** C05: the last row read back afterwards starts with bytes of the slot word instead of its own. *)
Theorem empty_row_corrupts_last_row : forall a pg rows last pg',
  holds a pg (rows ++ [last]) -> ~ slot_fits (length pg) a (rows ++ [last]) ->
  append_row a pg [] = Ret pg' ->
  let upper := length pg - stored a (rows ++ [last]) in
  let k := 4 * (length rows + 3) - upper in
  1 <= k <= 4 /\
  (k <= length last ->
   get_row a pg' (length rows) = Ret (skipn (4 - k) (le_bytes 4 (Z.of_nat upper)) ++ skipn k last)).
Proof. exact empty_row_corrupts. Qed.
Print Assumptions empty_row_corrupts_last_row.

(** C05: the unrestricted claim "length at most the capacity implies safe" is false. *)
Theorem capacity_check_is_safe_refuted : exists a pg rows row pg',
  holds a pg rows /\ length row <= capacity (length pg) a rows /\
  append_row a pg row = Ret pg' /\ ~ shows a pg' (rows ++ [row]).
Proof. exact capacity_unsafe. Qed.
Print Assumptions capacity_check_is_safe_refuted.

(** C06: capacity depends only on the stored rows. *)
Theorem page_capacity_history_independent : forall a pg1 pg2 rows,
  holds a pg1 rows -> holds a pg2 rows -> length pg1 = length pg2 ->
  max_insert_row_size a pg1 = max_insert_row_size a pg2.
Proof. exact capacity_independent. Qed.
Print Assumptions page_capacity_history_independent.

(** C06: inserting and removing a row restores rows and capacity. *)
Theorem page_insert_then_remove : forall a pg rows index row,
  holds a pg rows -> index <= length rows -> row_ok (length pg) a rows row ->
  exists pg1 pg2, insert_row a pg index row = Ret pg1 /\ remove_row a pg1 index = Ret pg2 /\
    shows a pg2 rows /\ max_insert_row_size a pg2 = max_insert_row_size a pg.
Proof. exact insert_remove. Qed.
Print Assumptions page_insert_then_remove.

Example page_insert_then_remove_ex : exists pg,
  holds 4 pg [row_abc; row_long] /\ 1 <= length [row_abc; row_long] /\
  row_ok (length pg) 4 [row_abc; row_long] [x2a].
Proof.
  eexists. split; [|split; [auto with arith|]].
  - exists (repeat x00 64). eexists. exists [OpAppend row_abc; OpInsert 1 row_long].
    split; [vm_compute; reflexivity|]. split; [|vm_compute; reflexivity].
    econstructor; [split; [vm_compute; repeat constructor|left; discriminate]|].
    econstructor; [split; [repeat constructor|split; [vm_compute; repeat constructor|left; discriminate]]|].
    constructor.
  - split; [vm_compute; repeat constructor|left; discriminate].
Qed.

(** A page meeting the hypotheses of the two C05 theorems: 16 bytes, one 8-byte row, no room for a slot. *)
Example empty_row_on_full_page_ex : exists pg pg',
  holds 4 pg [repeat x2a 8] /\ ~ slot_fits (length pg) 4 [repeat x2a 8] /\
  append_row 4 pg [] = Ret pg' /\ get_row 4 pg' 0 = Ret ([x08; x00; x00; x00] ++ repeat x2a 4).
Proof.
  eexists. eexists. split; [|split; [|split]].
  - exists (repeat x00 16). eexists. exists [OpAppend (repeat x2a 8)].
    split; [vm_compute; reflexivity|]. split; [|vm_compute; reflexivity].
    econstructor; [split; [vm_compute; repeat constructor|left; discriminate]|]. constructor.
  - vm_compute. intros H. repeat apply le_S_n in H. inversion H.
  - vm_compute. reflexivity.
  - vm_compute. reflexivity.
Qed.
