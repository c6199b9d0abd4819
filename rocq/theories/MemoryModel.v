(** * The memory of the buffer pool

    src/storage/mod.rs:1132-1142. [PoolModel] has one page for each buffer; in the code all pages are in one anonymous
    mapping, and a buffer is the part of it that [buffer_size * buffer_index] and [buffer_size] give. *)

From Verif Require Import Base StorageModel PoolModel.
Local Open Scope Z_scope.

(** The address computation of src/storage/mod.rs:1132-1136 [writable_slice] and 1138-1142 [readable_slice], for a mapping
    of [size] bytes: where the slice starts. A pointer or slice that leaves the mapping is undefined behaviour. *)
Definition slice_start (p : profile) (buffer_size size index : Z) : outcome Z :=
  offset <- wmul p 64 buffer_size index ;;
  if offset + buffer_size <=? size then Ret offset else Undef.

(** src/storage/mod.rs:1138-1142 [readable_slice]: the bytes of a buffer. *)
Definition readable_slice (p : profile) (buffer_size : Z) (memory : list byte) (index : nat) : outcome page :=
  offset <- slice_start p buffer_size (Z.of_nat (length memory)) (Z.of_nat index) ;;
  Ret (firstn (Z.to_nat buffer_size) (skipn (Z.to_nat offset) memory)).

(** src/storage/mod.rs:1132-1136 [writable_slice], filled with [pg] (lines 868-870, 892-894, 916-917 and 1259-1262). *)
Definition fill_slice (p : profile) (buffer_size : Z) (memory : list byte) (index : nat) (pg : page)
  : outcome (list byte) :=
  offset <- slice_start p buffer_size (Z.of_nat (length memory)) (Z.of_nat index) ;;
  Ret (write memory (Z.to_nat offset) pg).

(** Which buffer an event fills, and with what. *)
Definition touched (fetch : Z -> option page) (zeros : page) (e : event) (s : state) : option (nat * page) :=
  match e with
  | EFill k =>
      match nth_error (s_handles s) k with
      | Some h =>
          match (match h_mode h with Initialize => Some zeros | _ => fetch (h_loc h) end) with
          | Some pg => Some (h_index h, pg)
          | None => None
          end
      | None => None
      end
  | EWrite k pg =>
      match nth_error (s_handles s) k with
      | Some h => Some (h_index h, pg)
      | None => None
      end
  | _ => None
  end.

(** A schedule on the memory. The pages in the states are not used. *)
Fixpoint run_memory (p : profile) (fetch : Z -> option page) (zeros : page) (buffer_size : Z) (es : list event)
  (s : state) (memory : list byte) : option (outcome (list byte)) :=
  match es with
  | [] => Some (Ret memory)
  | e :: es' =>
      match exec p fetch zeros e s with
      | None => None
      | Some (s1, _) =>
          match (match touched fetch zeros e s with
                 | Some (i, pg) => fill_slice p buffer_size memory i pg
                 | None => Ret memory
                 end) with
          | Ret memory1 => run_memory p fetch zeros buffer_size es' s1 memory1
          | Panic => Some Panic
          | Undef => Some Undef
          end
      end
  end.
