(** * LR parsers as LALRPOP makes them

    The crate [lalrpop_util] 0.19 (module [state_machine]) is not in /repo; [drive] is what [Parser::drive] does when
    error recovery is off (src/sql/parser.rs:1812-1815). The tables are those of a generated file. *)

From Verif Require Import Base StrModel.
Local Open Scope nat_scope.

(** Terminals and nonterminals by their numbers. *)
Inductive symbol : Type := T (t : nat) | NT (n : nat).

(** The number of the terminal and its text. *)
Definition token : Type := (nat * str)%type.

(** src/sql/parser.rs:78-737 [__ACTION], one row for each state (the code has one flat array, line 739);
    741-1400 [__EOF_ACTION]; 1401-1654 [__goto] as (nonterminal, (cases, default)); for each reduction the number of states
    popped and the nonterminal (the results of [__reduce0] to [__reduce222]). *)
Record tables : Type := {
  action_rows : list (list Z);
  eof_actions : list Z;
  gotos : list (nat * (list (list nat * nat) * nat));
  reductions : list (nat * nat)
}.

(** The meaning of an entry: [as_shift] and [as_reduce] for [i16]. *)
Inductive act : Type := Shift (s : nat) | Reduce (p : nat) | Fail.

Definition decode (z : Z) : act :=
  if (0 <? z)%Z then Shift (Z.to_nat (z - 1)) else if (z <? 0)%Z then Reduce (Z.to_nat (- z - 1)) else Fail.

(** src/sql/parser.rs:738-740 [__action]. *)
Definition action (tb : tables) (s t : nat) : outcome act :=
  match nth_error (action_rows tb) s with
  | Some row => match nth_error row t with Some z => Ret (decode z) | None => Panic end
  | None => Panic
  end.

(** src/sql/parser.rs:1795-1797 [eof_action]. *)
Definition eof_action (tb : tables) (s : nat) : outcome act :=
  match nth_error (eof_actions tb) s with Some z => Ret (decode z) | None => Panic end.

(** src/sql/parser.rs:1401-1654 [__goto]. *)
Definition goto (tb : tables) (s n : nat) : nat :=
  match find (fun e => fst e =? n) (gotos tb) with
  | Some (_, (cases, default)) =>
      match find (fun c => existsb (Nat.eqb s) (fst c)) cases with Some (_, s') => s' | None => default end
  | None => 0
  end.

(** src/sql/parser.rs:1655-1749 [__expected_tokens]: the numbers of the terminals for which the state has an action. The
    code gives their names, which are [__TERMINAL[number]]. *)
Definition expected_tokens (tb : tables) (s : nat) : list nat :=
  match nth_error (action_rows tb) s with
  | Some row => filter (fun i => negb (nth i row 0 =? 0)%Z) (seq 0 (length row))
  | None => []
  end.

(** The result of a run; an error has what [expected_tokens] answers for the state on top of the stack. *)
Inductive answer (V : Type) : Type :=
| Accepted (v : V)
| UnrecognizedToken (t : token) (expected : list nat)
| UnrecognizedEof (expected : list nat)
| ExtraToken (t : token).
Arguments Accepted {V}.
Arguments UnrecognizedToken {V}.
Arguments UnrecognizedEof {V}.
Arguments ExtraToken {V}.

Section Machine.
Variable V : Type.
Variable shift : token -> V.
Variable build : nat -> list V -> outcome V.
Variable tb : tables.

(** src/sql/parser.rs:1989-2686 [__reduce] for all reductions but the last one. The stacks have their top first. *)
Definition reduce (p : nat) (states : list nat) (values : list V) : outcome (list nat * list V) :=
  match nth_error (reductions tb) p with
  | None => Panic
  | Some (n, nt) =>
      check (n <=? length values) ;;
      v <- build p (rev (firstn n values)) ;;
      check (n <=? length states) ;;
      match skipn n states with
      | [] => Panic
      | s :: rest => Ret (goto tb s nt :: s :: rest, v :: skipn n values)
      end
  end.

(** The last reduction ends the run: src/sql/parser.rs:2670-2677. *)
Definition final (p : nat) : bool := p =? length (reductions tb).

(** [Parser::parse] and [parse_eof]. [None]: out of fuel. *)
Fixpoint drive (fuel : nat) (states : list nat) (values : list V) (toks : list token) : option (outcome (answer V)) :=
  match fuel with
  | 0 => None
  | S f =>
      match states with
      | [] => Some Panic
      | s :: _ =>
          match toks with
          | t :: rest =>
              match action tb s (fst t) with
              | Ret (Shift s') => drive f (s' :: states) (shift t :: values) rest
              | Ret (Reduce p) =>
                  if final p then Some (match values with [] => Panic | _ :: _ => Ret (ExtraToken t) end)
                  else
                    match reduce p states values with
                    | Ret (states', values') => drive f states' values' toks
                    | _ => Some Panic
                    end
              | Ret Fail => Some (Ret (UnrecognizedToken t (expected_tokens tb s)))
              | _ => Some Panic
              end
          | [] =>
              match eof_action tb s with
              | Ret (Reduce p) =>
                  if final p then Some (match values with [] => Panic | v :: _ => Ret (Accepted v) end)
                  else
                    match reduce p states values with
                    | Ret (states', values') => drive f states' values' []
                    | _ => Some Panic
                    end
              | Ret _ => Some (Ret (UnrecognizedEof (expected_tokens tb s)))
              | _ => Some Panic
              end
          end
      end
  end.


(** The same when the lexer fails after [toks]: [None] when all of them were taken. *)
Fixpoint drive_before (fuel : nat) (states : list nat) (values : list V) (toks : list token) : option (outcome (option (answer V))) :=
  match fuel with
  | 0 => None
  | S f =>
      match states with
      | [] => Some Panic
      | s :: _ =>
          match toks with
          | t :: rest =>
              match action tb s (fst t) with
              | Ret (Shift s') => drive_before f (s' :: states) (shift t :: values) rest
              | Ret (Reduce p) =>
                  if final p then Some (match values with [] => Panic | _ :: _ => Ret (Some (ExtraToken t)) end)
                  else
                    match reduce p states values with
                    | Ret (states', values') => drive_before f states' values' toks
                    | _ => Some Panic
                    end
              | Ret Fail => Some (Ret (Some (UnrecognizedToken t (expected_tokens tb s))))
              | _ => Some Panic
              end
          | [] => Some (Ret None)
          end
      end
  end.
End Machine.
