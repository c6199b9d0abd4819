(** * Strings and integer text

    Characters are Unicode scalar values in [Z]; a Rust [str] is a [list Z] here. The functions of this file
    are the parts of the Rust standard library that the modelled code calls: [str::split], integer [Display]
    and integer [FromStr], UTF-8. They are part of the trusted base. *)

From Verif Require Import Base.
Local Open Scope Z_scope.

Notation char := Z (only parsing).
Notation str := (list Z) (only parsing).

(** A Unicode scalar value, i.e. a value of Rust's [char]. *)
Definition is_char (c : Z) : bool :=
  ((0 <=? c) && (c <? 0xD800)) || ((0xE000 <=? c) && (c <=? 0x10FFFF)).

Fixpoint str_eqb (a b : str) : bool :=
  match a, b with
  | [], [] => true
  | x :: a', y :: b' => (x =? y) && str_eqb a' b'
  | _, _ => false
  end.

(** Rust's [name.split(".")]: always at least one component. *)
Fixpoint split_dot (s : str) : list str :=
  match s with
  | [] => [[]]
  | c :: s' =>
      if c =? 46 then [] :: split_dot s'
      else match split_dot s' with
           | p :: ps => (c :: p) :: ps
           | [] => [[c]]
           end
  end.

Definition is_digit (c : char) : bool := (48 <=? c) && (c <=? 57).

(** Value of a digit string. *)
Definition digits_value (s : str) : Z := fold_left (fun acc c => 10 * acc + (c - 48)) s 0.

(** Integer [FromStr] for the type with range [lo .. hi]; [lo < 0] means signed. An optional sign ('-' only for
    signed types), at least one digit, no overflow. *)
Definition parse_int (lo hi : Z) (s : str) : option Z :=
  let body (neg : bool) (ds : str) :=
    match ds with
    | [] => None
    | _ => if forallb is_digit ds then
             let v := if neg then - digits_value ds else digits_value ds in
             if (lo <=? v) && (v <=? hi) then Some v else None
           else None
    end in
  match s with
  | [] => None
  | c :: ds =>
      if c =? 43 then body false ds
      else if (c =? 45) && (lo <? 0) then body true ds
      else body false s
  end.

(** [usize::from_str] on a 64-bit target. *)
Definition parse_usize (s : str) : option nat :=
  option_map Z.to_nat (parse_int 0 (2 ^ 64 - 1) s).

(** Decimal digits of a non-negative number, most significant first. *)
Fixpoint show_digits (fuel : nat) (z : Z) (acc : str) : str :=
  match fuel with
  | O => acc
  | S f => if z <? 10 then (48 + z) :: acc
           else show_digits f (z / 10) ((48 + z mod 10) :: acc)
  end.

(** Integer [Display]. *)
Definition show_int (z : Z) : str :=
  if z <? 0 then 45 :: show_digits (S (Z.to_nat (Z.log2 (- z)))) (- z) []
  else show_digits (S (Z.to_nat (Z.log2 z))) z [].
