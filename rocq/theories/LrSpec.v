(** * Context-free grammars

    Independent of parsers: productions, parse trees and the token sequences they cover. *)

From Verif Require Import Base StrModel LrModel.

(** The left and right side of each production. *)
Definition grammar : Type := list (nat * list symbol).

(** [Node p ts]: production number [p] with the trees of its right side. *)
Inductive tree : Type :=
| Leaf (t : token)
| Node (p : nat) (ts : list tree).

Inductive derives (g : grammar) : symbol -> tree -> list token -> Prop :=
| D_T : forall t s, derives g (T t) (Leaf (t, s)) [(t, s)]
| D_NT : forall p lhs rhs ts w, nth_error g p = Some (lhs, rhs) -> derives_all g rhs ts w ->
    derives g (NT lhs) (Node p ts) w
with derives_all (g : grammar) : list symbol -> list tree -> list token -> Prop :=
| D_nil : derives_all g [] [] []
| D_cons : forall X t w Xs ts ws, derives g X t w -> derives_all g Xs ts ws ->
    derives_all g (X :: Xs) (t :: ts) (w ++ ws).
