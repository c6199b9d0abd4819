(** * Proofs about putting other strings and numerals into a statement *)

From Coq Require Import Strings.String Lia ZifyBool.
From Verif Require Import Base StrModel JsonModel SqlNameModel SqlModel SqlInd LrModel LexSpec LexModel SqlGrammar SqlWords SqlParseModel
  SqlTrees SqlParseProofs SqlLexProofs SqlParsed SqlSpaceSpec SqlSpaceProofs SqlFillSpec.
Local Open Scope list_scope.

(** ** Through the grammar *)

Definition put_value (g h : str -> str) (n : nonterm) : ty n -> ty n :=
  match n as n0 return ty n0 -> ty n0 with
  | GSqlStatement => put g h
  | GStatement => put_statement g h
  | GInsertStatement => fun i => {| i_table := i_table i; i_columns := i_columns i; i_source := put_set g h (i_source i) |}
  | GDeleteStatement => fun d => {| d_table := d_table d; d_where := option_map (put_expr g h) (d_where d) |}
  | GUpdateStatement => fun u => {| u_table := u_table u; u_assignments := map (fun a => (fst a, put_expr g h (snd a))) (u_assignments u);
      u_where := option_map (put_expr g h) (u_where u) |}
  | GAssignments => map (fun a => (fst a, put_expr g h (snd a)))
  | GAssignment => fun a => (fst a, put_expr g h (snd a))
  | GSelectStatement => put_select g h
  | GTableExpressions | GCommonTableExpressionList => map (put_cte g h)
  | GCommonTableExpression => put_cte g h
  | GSelectCoreList | GSelectCore => put_set g h
  | GTupleList => map (map (put_expr g h))
  | GTuple | GExpressionList => map (put_expr g h)
  | GResultColumns => put_columns g h
  | GResultColumnList => map (put_column g h)
  | GResultColumn => put_column g h
  | GFromClause | GTableExpressionList => map (put_table g h)
  | GTableExpression | GTableOrSubQuery => put_table g h
  | GJoinConstraint => put_constraint g h
  | GGroupByClause => fun x => (map (put_expr g h) (fst x), option_map (put_expr g h) (snd x))
  | GOrderByClause | GOrderingTermList => map (fun o => (put_expr g h (fst (fst o)), snd (fst o), snd o))
  | GOrderingTerm => fun o => (put_expr g h (fst (fst o)), snd (fst o), snd o)
  | GLimitClause => fun l => (put_expr g h (fst l), option_map (put_expr g h) (snd l))
  | GAttachStatement => fun a => (fst a, g (snd a))
  | GWhereClause | GPrimaryExpression | GUnaryExpression | GMultiplicativeExpression | GAdditiveExpression
  | GComparativeExpression | GComplexExpression | GCaseExpression | GElseClause | GNotExpression | GAndExpression
  | GOrExpression | GExpression => put_expr g h
  | GWhenClauses => map (fun p => (put_expr g h (fst p), put_expr g h (snd p)))
  | GWhenClause => fun p => (put_expr g h (fst p), put_expr g h (snd p))
  | GLiteralValue => put_literal g h
  | GNumericLiteral => h
  | GStringLiteral => g
  | _ => fun x => x
  end.

Section Match.
Variables (g1 h1 g2 h2 : str -> str).
Notation P1 := (put_value g1 h1).
Notation P2 := (put_value g2 h2).

Fixpoint meet (n : nonterm) : ty n -> ty n -> Prop :=
  match n as n0 return ty n0 -> ty n0 -> Prop with
  | Tok s => fun x y =>
      if String.eqb s "ID" then x = y
      else if String.eqb s "STRING_LIT" then g1 (removelast (tl x)) = g2 (removelast (tl y))
      else existsb (String.eqb s) ["HEX_LIT"; "NUMERIC_LIT_1"; "NUMERIC_LIT_2"]%string = true -> h1 x = h2 y
  | Opt m => fun x y => match x, y with Some a, Some b => meet m a b | None, None => True | _, _ => False end
  | GQueryPlan => fun _ _ => True
  | m => fun x y => P1 m x = P2 m y
  end.

Fixpoint seq_meet (A : Type) (R : A -> A -> Prop) (l : list nonterm) : arrows l A -> arrows l A -> Prop :=
  match l as l0 return arrows l0 A -> arrows l0 A -> Prop with
  | [] => R
  | n :: l' => fun f g => forall x y, meet n x y -> seq_meet A R l' (f x) (g y)
  end.

Lemma rules_meet n : (forall s, n <> Tok s) -> Forall (fun r => seq_meet (ty n) (meet n) (projT1 r) (projT2 r) (projT2 r)) (rules n).
Proof.
  intros N. destruct n; [destruct (N s eq_refl)|..]; cbn [rules]; repeat (apply Forall_cons; [|]); try apply Forall_nil;
    cbn [seq_meet projT1 projT2 meet put_value]; intros; auto;
    repeat match goal with
    | H : if String.eqb ?s "ID" then _ else _ |- _ => cbn [String.eqb Ascii.eqb Bool.eqb] in H
    | H : existsb _ _ = true -> _ = _ |- _ => first [specialize (H eq_refl)|clear H]
    end; subst; try reflexivity; try assumption.
  all: repeat match goal with
    | H : match ?x with Some _ => match ?y with _ => _ end | None => _ end |- _ => destruct x, y; cbn [meet put_value] in H; try contradiction H
    end.
  all: cbn [ty] in *; cbn -[put_expr put_select put_set put_table put_cte put_columns put_column put_constraint put_statement put put_literal] in *.
  all: subst.
  all: try solve [cbn [put_expr put_select put_set put_table put_cte put_columns put_column put_constraint put_statement put put_literal option_map default];
    rewrite ?map_app; cbn [map]; congruence].
  all: cbn [put_expr put_select put_set put_spec put_table put_cte put_columns put_column put_constraint put_statement put put_literal option_map default map fst snd is_null not_].
  all: try solve [repeat first [assumption | reflexivity | f_equal]].
  all: repeat match goal with H : (_, _) = (_, _) |- _ => injection H; clear H; intros end.
  all: try solve [subst; repeat first [assumption | reflexivity | f_equal]].
  all: try solve [destruct x0 as [|e [|e2 x0]], y0 as [|e' [|e2' y0]]; try discriminate H0; cbn [put_expr map] in *; try reflexivity; injection H0; intros; congruence].
Qed.

Definition meet_word (a b : LrModel.token) : Prop :=
  fst a = fst b /\
  (fst a = terminal "ID" -> snd a = snd b) /\
  (fst a = terminal "STRING_LIT" -> g1 (removelast (tl (snd a))) = g2 (removelast (tl (snd b)))) /\
  (In (fst a) (map terminal ["HEX_LIT"; "NUMERIC_LIT_1"; "NUMERIC_LIT_2"]%string) -> h1 (snd a) = h2 (snd b)).

Lemma gram_meet :
  (forall n w v, gram n w v -> forall w', Forall2 meet_word w w' -> exists v', gram n w' v' /\ meet n v v') /\
  (forall A l w f v, gram_all A l w f v -> forall w' g R, Forall2 meet_word w w' -> seq_meet A R l f g -> exists v', gram_all A l w' g v' /\ R v v').
Proof.
  apply gram_both.
  - intros s text w' F. inversion F as [|? [t x] ? ? (E & H1 & H2 & H3) F']; subst. inversion F'; subst. cbn [fst snd] in *. subst t.
    exists x. split; [apply G_tok|]. cbn [meet]. destruct (String.eqb_spec s "ID") as [->|N]; [apply H1; reflexivity|].
    destruct (String.eqb_spec s "STRING_LIT") as [->|N']; [apply H2; reflexivity|].
    intros Sp. apply H3. apply in_map. apply existsb_exists in Sp as (y & I & E). apply String.eqb_eq in E. subst y. exact I.
  - intros n l f w v I H IH w' F. assert (N : forall s, n <> Tok s) by (intros s ->; destruct I).
    pose proof (rules_meet n N) as K. rewrite Forall_forall in K. specialize (K _ I). cbn [projT1 projT2] in K.
    destruct (IH w' f (meet n) F K) as (v' & H' & R'). exists v'. split; [exact (G_rule n l f w' v' I H')|exact R'].
  - intros A v w' g R F K. inversion F; subst. exists g. split; [constructor|exact K].
  - intros A n l w w0 x f v Hx IHx Hl IHl w' g R F K. apply Forall2_app_inv_l in F as (w1 & w2 & F1 & F2 & ->).
    destruct (IHx w1 F1) as (x' & Hx' & Rx). destruct (IHl w2 (g x') R F2 (K _ _ Rx)) as (v' & Hv' & Rv).
    exists v'. split; [exact (G_cons A n l w1 w2 x' g v' Hx' Hv')|exact Rv].
Qed.
End Match.
