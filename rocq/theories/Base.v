(** * Common vocabulary of the model

    Outcomes of Rust calls, build profiles, bytes, little-endian integers and slices.
    Nothing here models a particular function of /repo; the Rust primitives whose meaning is fixed
    here (slice indexing, raw reads and writes, checked arithmetic) are part of the trusted base. *)

From Coq Require Export List Arith ZArith Lia Bool.
From Coq Require Import ZifyBool ZifyNat.
From Coq Require Export Strings.Byte.
Export ListNotations.

(** Outcome of a Rust call: normal return, panic, or undefined behaviour. *)
Inductive outcome (A : Type) : Type :=
| Ret (a : A)
| Panic
| Undef.
Arguments Ret {A} a.
Arguments Panic {A}.
Arguments Undef {A}.

Definition bind {A B : Type} (x : outcome A) (f : A -> outcome B) : outcome B :=
  match x with
  | Ret a => f a
  | Panic => Panic
  | Undef => Undef
  end.

Declare Scope outcome_scope.
Delimit Scope outcome_scope with outcome.
Notation "x <- e ;; f" := (bind e (fun x => f))
  (at level 61, e at next level, right associativity) : outcome_scope.
Notation "' pat <- e ;; f" := (bind e (fun x => match x with pat => f end))
  (at level 61, pat pattern, e at next level, right associativity) : outcome_scope.
Notation "'check' b ;; f" := (if b then f else Panic)
  (at level 61, b at next level, right associativity) : outcome_scope.
Open Scope outcome_scope.

(** Cargo build profile: [Debug] panics on arithmetic overflow, [Release] wraps. *)
Inductive profile : Type := Debug | Release.

(** Rust's [Result] with the error payload chosen by the user. *)
Inductive result (A E : Type) : Type :=
| Ok (a : A)
| Err (e : E).
Arguments Ok {A E} a.
Arguments Err {A E} e.

(** ** Bytes *)

Definition b2z (b : byte) : Z := Z.of_N (Byte.to_N b).

Definition z2b (z : Z) : byte :=
  match Byte.of_N (Z.to_N (z mod 256)) with
  | Some b => b
  | None => x00
  end.

(** Little-endian encoding of [z] (taken modulo 256^n, i.e. two's complement) in [n] bytes. *)
Fixpoint le_bytes (n : nat) (z : Z) : list byte :=
  match n with
  | O => []
  | S n' => z2b z :: le_bytes n' (z / 256)
  end.

(** Unsigned value of a little-endian byte string. *)
Fixpoint le_val (l : list byte) : Z :=
  match l with
  | [] => 0
  | b :: l' => b2z b + 256 * le_val l'
  end.

(** ** Slices *)

(** [len] elements starting at [off]; shorter if the list ends before. *)
Definition slice {A} (l : list A) (off len : nat) : list A := firstn len (skipn off l).

(** The list [l] with [new] stored at offset [off]. Only used where [off + length new <= length l]. *)
Definition write {A} (l : list A) (off : nat) (new : list A) : list A :=
  firstn off l ++ new ++ skipn (off + length new) l.

(** Rust's [&l[a..b]]. *)
Definition index_range {A} (l : list A) (a b : nat) : outcome (list A) :=
  if (a <=? b) && (b <=? length l) then Ret (slice l a (b - a)) else Panic.

(** Rust's [&l[a..]]. *)
Definition index_from {A} (l : list A) (a : nat) : outcome (list A) :=
  if a <=? length l then Ret (skipn a l) else Panic.

(** [l[a..b].copy_from_slice(new)]: panics if the range is illegal or the lengths differ. *)
Definition copy_range {A} (l : list A) (a b : nat) (new : list A) : outcome (list A) :=
  if (a <=? b) && (b <=? length l) && (b - a =? length new)
  then Ret (write l a new) else Panic.

(** Checked subtraction on [usize]. *)
Definition usub (a b : nat) : outcome nat :=
  if b <=? a then Ret (a - b) else Panic.

(** Raw read of [n] bytes at [l[off..].as_ptr()]: the slice index is checked, the extent is not. *)
Definition raw_read {A} (l : list A) (off n : nat) : outcome (list A) :=
  if off <=? length l then
    if off + n <=? length l then Ret (slice l off n) else Undef
  else Panic.

(** Raw write of [new] at [l[off..].as_ptr()]: the slice index is checked, the extent is not. *)
Definition raw_write {A} (l : list A) (off : nat) (new : list A) : outcome (list A) :=
  if off <=? length l then
    if off + length new <=? length l then Ret (write l off new) else Undef
  else Panic.

(** ** Machine integers in [Z] *)

Definition umax (w : Z) : Z := 2 ^ w - 1.

(** Bitwise complement of a [w]-bit unsigned integer. *)
Definition unot (w z : Z) : Z := umax w - z.

(** Addition, subtraction and left shift of [w]-bit unsigned integers under a profile. *)
Definition wadd (p : profile) (w a b : Z) : outcome Z :=
  if (a + b <? 2 ^ w)%Z then Ret (a + b)%Z
  else match p with Debug => Panic | Release => Ret ((a + b) mod 2 ^ w)%Z end.

Definition wsub (p : profile) (w a b : Z) : outcome Z :=
  if (b <=? a)%Z then Ret (a - b)%Z
  else match p with Debug => Panic | Release => Ret ((a - b) mod 2 ^ w)%Z end.

(** Shifts: the shift amount must be below the width; in release builds it is masked. Bits shifted out
    are lost in both profiles. *)
Definition wshl (p : profile) (w a k : Z) : outcome Z :=
  if (k <? w)%Z then Ret ((Z.shiftl a k) mod 2 ^ w)%Z
  else match p with Debug => Panic | Release => Ret ((Z.shiftl a (k mod w)) mod 2 ^ w)%Z end.

Definition wshr (p : profile) (w a k : Z) : outcome Z :=
  if (k <? w)%Z then Ret (Z.shiftr a k)
  else match p with Debug => Panic | Release => Ret (Z.shiftr a (k mod w)) end.

(** Rust's [is_power_of_two]. *)
Definition is_pow2 (z : Z) : bool := ((0 <? z) && (2 ^ Z.log2 z =? z))%Z.

(** Loop over a list with an early exit on [Panic]/[Undef]: a Rust [for] loop updating one variable. *)
Section FoldM.
Context {S A : Type} (f : S -> A -> outcome S).
Fixpoint foldM (l : list A) (s : S) : outcome S :=
  match l with
  | [] => Ret s
  | a :: l' => bind (f s a) (foldM l')
  end.
End FoldM.

(** Raw [ptr::copy(&l[src..], &l[dst..], n)] (memmove): the two slice indices are checked, the extent is not. *)
Definition raw_copy {A} (l : list A) (src dst n : nat) : outcome (list A) :=
  if (src <=? length l) && (dst <=? length l) then
    if (src + n <=? length l) && (dst + n <=? length l) then Ret (write l dst (slice l src n)) else Undef
  else Panic.
