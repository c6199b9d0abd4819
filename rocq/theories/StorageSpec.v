(** * What the storage properties say *)

From Verif Require Import Base StorageModel.
Local Open Scope Z_scope.

(** ** Buffer lists as sequences *)

(** Starting at the pointer [start] and following the field [f], one visits exactly the buffers [l] and then finds the
    null pointer. *)
Fixpoint follows (f : link -> Z) (ls : list link) (start : Z) (l : list nat) : Prop :=
  match l with
  | [] => start = nil_index
  | x :: l' => start = Z.of_nat x /\ exists k, nth_error ls x = Some k /\ follows f ls (f k) l'
  end.

(** The list head [h] stands for the sequence [l], in both directions. *)
Definition threads (ls : list link) (h : head) (l : list nat) : Prop :=
  follows next ls (h_head h) l /\ follows prev ls (h_tail h) (rev l).

(** The heads [hs] stand for the disjoint sequences [ll]; a buffer on none of them is not linked. *)
Definition represents (hs : list head) (ls : list link) (ll : list (list nat)) : Prop :=
  Forall2 (threads ls) hs ll /\
  NoDup (concat ll) /\
  (forall x, (x < length ls)%nat -> ~ In x (concat ll) -> nth_error ls x = Some link_default) /\
  Z.of_nat (length ls) <= nil_index.

Inductive list_op : Type :=
| PushFront (k x : nat)
| PushBack (k x : nat)
| Remove (k x : nat).

(** Replacing the [k]-th element. *)
Fixpoint replace {A : Type} (k : nat) (a : A) (l : list A) : list A :=
  match l, k with
  | [], _ => []
  | _ :: l', O => a :: l'
  | b :: l', S k' => b :: replace k' a l'
  end.

(** The operations on sequences over [n] buffers. *)
Inductive list_step (n : nat) : list (list nat) -> list_op -> list (list nat) -> Prop :=
| step_front ll k x l :
    (x < n)%nat -> ~ In x (concat ll) -> nth_error ll k = Some l ->
    list_step n ll (PushFront k x) (replace k (x :: l) ll)
| step_back ll k x l :
    (x < n)%nat -> ~ In x (concat ll) -> nth_error ll k = Some l ->
    list_step n ll (PushBack k x) (replace k (l ++ [x]) ll)
| step_remove ll k x l1 l2 :
    nth_error ll k = Some (l1 ++ x :: l2) ->
    list_step n ll (Remove k x) (replace k (l1 ++ l2) ll).

Inductive list_steps (n : nat) : list (list nat) -> list list_op -> list (list nat) -> Prop :=
| steps_nil ll : list_steps n ll [] ll
| steps_cons ll op ll' ops ll'' : list_step n ll op ll' -> list_steps n ll' ops ll'' -> list_steps n ll (op :: ops) ll''.

(** The program's operations on the [k]-th head. *)
Definition run_op (st : list head * list link) (op : list_op) : outcome (list head * list link) :=
  let '(hs, ls) := st in
  let on k f := match nth_error hs k with
                | Some h => '(h', ls') <- f h ;; Ret (replace k h' hs, ls')
                | None => Panic
                end in
  match op with
  | PushFront k x => on k (fun h => list_push_front h ls (Z.of_nat x))
  | PushBack k x => on k (fun h => list_push_back h ls (Z.of_nat x))
  | Remove k x => on k (fun h => list_remove h ls (Z.of_nat x))
  end.

(** ** Volumes *)

(** [bytes] bytes at [offset] and [bytes'] bytes at [offset'] do not overlap. *)
Definition disjoint (offset bytes offset' bytes' : Z) : Prop :=
  offset + bytes <= offset' \/ offset' + bytes' <= offset.

(** Bit [n] of a bitmap stored as blocks of 128-bit words; [None] beyond its end. *)
Definition bit_of (bm : list (list Z)) (n : nat) : option bool :=
  option_map (fun w => Z.testbit w (Z.of_nat (n mod 128))) (nth_error (concat bm) (n / 128)).

(** The bitmap marks exactly the blocks from [total] up to [bits] free. *)
Definition marks_free (bm : list (list Z)) (total bits : Z) : Prop :=
  forall n b, bit_of bm n = Some b -> b = ((total <=? Z.of_nat n) && (Z.of_nat n <? bits)).

(** [n] successive calls of [next_volume]; the results in order. *)
Fixpoint draw (p : profile) (n : nat) (m : manager) : outcome (manager * list (result Z unit)) :=
  match n with
  | O => Ret (m, [])
  | S n' => '(m1, r) <- next_volume p m ;; '(m2, rs) <- draw p n' m1 ;; Ret (m2, r :: rs)
  end.

(** ** Headers *)

(** The number stored in the [n] bytes from [off], low byte first. *)
Definition number_at (l : list byte) (off n : nat) : Z :=
  fold_right (fun b v => b2z b + 256 * v) 0 (firstn n (skipn off l)).

(** The fields of a volume header, one behind the other (src/storage/mod.rs:58-69). *)
Definition is_volume_header (l uuid : list byte) (table_offset : Z) (prm : params) : Prop :=
  length l = 48%nat /\ number_at l 0 4 = 0xCA78 /\ number_at l 4 4 = 0x0100 /\ firstn 16 (skipn 8 l) = uuid /\
  number_at l 24 8 = volume_size prm /\ number_at l 32 8 = table_offset /\
  number_at l 40 2 = log_block_size prm /\ number_at l 42 2 = log_file_header_size prm.

(** The fields of a file header (src/storage/mod.rs:97-118). *)
Definition is_file_header (l : list byte) (created modified allocated used last : Z) : Prop :=
  length l = 40%nat /\ number_at l 0 4 = 1 /\ number_at l 4 4 = 1 /\ number_at l 8 8 = created /\
  number_at l 16 8 = modified /\ number_at l 24 4 = allocated /\ number_at l 28 4 = used /\ number_at l 32 4 = last.
