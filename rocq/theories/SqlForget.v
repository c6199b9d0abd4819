(** * What a parsed statement does not show of its text *)

From Coq Require Import Strings.String Lia.
From Verif Require Import Base StrModel JsonModel SqlNameModel SqlModel SqlInd LrModel LexSpec LexModel SqlGrammar SqlWords SqlParseModel
  SqlTrees SqlParseProofs SqlLexProofs SqlParseTop SqlCheckSpec SqlCheckProofs SqlShow SqlShowProofs.
Local Open Scope list_scope.
Local Notation G := grammatical.

(** ** The letters of keywords *)

Fixpoint rel (n : nonterm) : ty n -> ty n -> Prop :=
  match n as n0 return ty n0 -> ty n0 -> Prop with
  | Tok s => fun x y => special s = true -> x = y
  | Opt m => fun x y => match x, y with Some a, Some b => rel m a b | None, None => True | _, _ => False end
  | GQueryPlan => fun _ _ => True
  | _ => eq
  end.

Fixpoint seq_rel (A : Type) (R : A -> A -> Prop) (l : list nonterm) : arrows l A -> arrows l A -> Prop :=
  match l as l0 return arrows l0 A -> arrows l0 A -> Prop with
  | [] => R
  | n :: l' => fun f g => forall x y, rel n x y -> seq_rel A R l' (f x) (g y)
  end.

Lemma opt_eq {A} (a b : option A) : match a, b with Some a, Some b => a = b | None, None => True | _, _ => False end -> a = b.
Proof. destruct a, b; intros H; try contradiction; congruence. Qed.

Lemma rules_rel n : (forall s, n <> Tok s) -> Forall (fun r => seq_rel (ty n) (rel n) (projT1 r) (projT2 r) (projT2 r)) (rules n).
Proof.
  intros N. destruct n; [destruct (N s eq_refl)|..]; cbn [rules]; repeat (apply Forall_cons; [|]); try apply Forall_nil;
    cbn [seq_rel projT1 projT2 rel]; intros; auto;
    repeat match goal with
    | H : match ?x with Some _ => match ?y with _ => _ end | None => _ end |- _ => apply opt_eq in H
    | H : special _ = true -> _ = _ |- _ => first [specialize (H eq_refl)|clear H]
    end; subst; try reflexivity; congruence.
Qed.

Lemma gram_rel :
  (forall n w v, gram n w v -> forall w', Forall2 alike w w' -> exists v', gram n w' v' /\ rel n v v') /\
  (forall A l w f v, gram_all A l w f v -> forall w' g R, Forall2 alike w w' -> seq_rel A R l f g -> exists v', gram_all A l w' g v' /\ R v v').
Proof.
  apply gram_both.
  - intros s text w' F. inversion F as [|? [t x] ? ? [E H] F']; subst. inversion F'; subst. cbn [fst snd] in *. subst t.
    exists x. split; [apply G_tok|]. cbn [rel]. intros Sp. apply H. apply in_map. unfold special in Sp. apply existsb_exists in Sp as (y & I & E).
    apply String.eqb_eq in E. subst y. exact I.
  - intros n l f w v I H IH w' F. assert (N : forall s, n <> Tok s) by (intros s ->; destruct I).
    pose proof (rules_rel n N) as K. rewrite Forall_forall in K. specialize (K _ I). cbn [projT1 projT2] in K.
    destruct (IH w' f (rel n) F K) as (v' & H' & R'). exists v'. split; [exact (G_rule n l f w' v' I H')|exact R'].
  - intros A v w' g R F K. inversion F; subst. exists g. split; [constructor|exact K].
  - intros A n l w w0 x f v Hx IHx Hl IHl w' g R F K. apply Forall2_app_inv_l in F as (w1 & w2 & F1 & F2 & ->).
    destruct (IHx w1 F1) as (x' & Hx' & Rx). destruct (IHl w2 (g x') R F2 (K _ _ Rx)) as (v' & Hv' & Rv).
    exists v'. split; [exact (G_cons A n l w1 w2 x' g v' Hx' Hv')|exact Rv].
Qed.

Lemma alike_sym w w' : Forall2 alike w w' -> Forall2 alike w' w.
Proof. induction 1 as [|a b w w' [E H] _ IH]; constructor; [|exact IH]. split; [auto|]. rewrite <- E. intros I. symmetry. exact (H I). Qed.

Theorem keyword_letters s s' toks toks' : sql_lexes s toks [] -> sql_lexes s' toks' [] -> Forall2 alike toks toks' ->
  forall st, parse_sql s = Ret (Ok st) <-> parse_sql s' = Ret (Ok st).
Proof.
  assert (K : forall s s' toks toks', sql_lexes s toks [] -> sql_lexes s' toks' [] -> Forall2 alike toks toks' ->
    forall st, parse_sql s = Ret (Ok st) -> parse_sql s' = Ret (Ok st)).
  { clear. intros s s' toks toks' L L' F st E. destruct (parse_sql_correct s) as (r & E1 & C). rewrite E in E1. injection E1 as <-.
    destruct (proj1 (C st) eq_refl) as (toks0 & L0 & Gr). destruct (sql_lex_unique s toks [] toks0 [] L (or_introl eq_refl) L0 (or_introl eq_refl)) as [<- _].
    destruct (proj1 gram_rel _ _ _ Gr toks' F) as (v' & Gr' & R). cbn [rel] in R. subst v'.
    destruct (parse_sql_correct s') as (r' & E2 & C'). rewrite E2. f_equal. apply C'. exists toks'. split; assumption. }
  intros L L' F st. split; [exact (K s s' toks toks' L L' F st)|exact (K s' s toks' toks L' L (alike_sym _ _ F) st)].
Qed.

(** ** Clauses without effect *)

Lemma says_parsed w st : says GSqlStatement w st -> parse_sql (text_of w) = Ret (Ok st).
Proof.
  intros [Gr F]. destruct (parse_sql_correct (text_of w)) as (r & E & C). rewrite E. f_equal. apply C. exists w. split; [apply text_lexes; exact F|exact Gr].
Qed.

Lemma ctes_say ctes : ctes <> [] -> each (all_cte G) ctes -> says GTableExpressions ([kw "WITH"] ++ sep show_cte (kw ",") ctes) ctes.
Proof.
  intros N H. destruct show_says as (_ & _ & _ & C & _).
  assert (K : says GCommonTableExpressionList (sep show_cte (kw ",") ctes) ctes).
  { apply (sep_says _ (says GCommonTableExpression) (says GCommonTableExpressionList)); [..|exact N].
    - intros w y K. say GCommonTableExpressionList 0 by K.
    - intros w l w' y K K'. say GCommonTableExpressionList 1 by K, K'.
    - apply each_Forall in H. revert H. apply Forall_impl. exact C. }
  say GTableExpressions 0 by K.
Qed.

Theorem with_dropped ctes st : ctes <> [] -> each (all_cte G) ctes -> all_statement G st -> (forall s, st <> StSelect s) ->
  parse_sql (text_of ([kw "WITH"] ++ sep show_cte (kw ",") ctes ++ show_statement st)) = Ret (Ok (SqlStatement st)).
Proof.
  intros N H Hs Ns. apply says_parsed. pose proof (S_yes (ctes_say ctes N H)) as C.
  rewrite app_assoc. set (c := [kw "WITH"] ++ sep show_cte (kw ",") ctes) in *. clearbody c.
  destruct show_says as (E & _ & _ & _ & Se & _). destruct st as [s|[t cols src]|[t wh]|[t asg wh]]; cbn [all_statement show_statement] in *.
  - destruct (Ns s eq_refl).
  - cbn [i_table i_columns i_source] in *. destruct Hs as (H1 & H2 & H3 & H4). destruct (Se src H4) as [_ K].
    assert (Sr : single src) by (destruct src; [exact I|exact I|exact H3]).
    assert (S : says GStatement (c ++ [kw "INSERT"; kw "INTO"] ++ show_path t ++ match cols with Some l => paren (show_names l) | None => [] end ++ show_set src)
      (StInsert {| i_table := t; i_columns := cols; i_source := src |})).
    { match goal with |- says GStatement ?w (StInsert ?i) => assert (S : says GInsertStatement w i)
        by (say GInsertStatement 0 by C, (path_says t H1), (columns_say cols H2), (K Sr)) end. say GStatement 1 by S. }
    say GSqlStatement 0 by S.
  - cbn [d_table d_where] in *. destruct Hs as [H1 H2].
    assert (W : if_some good_expr wh) by (destruct wh; [apply E; exact H2|exact I]).
    assert (S : says GStatement (c ++ [kw "DELETE"; kw "FROM"] ++ show_path t ++ opt_show show [kw "WHERE"] wh) (StDelete {| d_table := t; d_where := wh |})).
    { match goal with |- says GStatement ?w (StDelete ?i) => assert (S : says GDeleteStatement w i)
        by (say GDeleteStatement 0 by C, (path_says t H1), (where_says wh W)) end. say GStatement 2 by S. }
    say GSqlStatement 0 by S.
  - cbn [u_table u_assignments u_where] in *. destruct Hs as (H1 & Na & H2 & H3).
    assert (W : if_some good_expr wh) by (destruct wh; [apply E; exact H3|exact I]).
    assert (S : says GStatement (c ++ show_statement (StUpdate {| u_table := t; u_assignments := asg; u_where := wh |}))
      (StUpdate {| u_table := t; u_assignments := asg; u_where := wh |})).
    { match goal with |- says GStatement ?w (StUpdate ?i) => assert (S : says GUpdateStatement w i)
        by (say GUpdateStatement 0 by C, (path_says t H1), (assignments_say asg Na H2), (where_says wh W)) end. say GStatement 3 by S. }
    say GSqlStatement 0 by S.
Qed.

Theorem plan_dropped st : all_statement G st ->
  parse_sql (text_of ([kw "EXPLAIN"; kw "QUERY"; kw "PLAN"] ++ show_statement st)) = Ret (Ok (SqlExplain st)).
Proof.
  intros H. apply says_parsed. assert (P : says GQueryPlan [kw "QUERY"; kw "PLAN"] (JsonModel.lit "QUERY", JsonModel.lit "PLAN")) by (say GQueryPlan 0).
  say GSqlStatement 1 by (S_yes P), (show_statement_says st H).
Qed.

(** [LIMIT a, b] is [LIMIT a OFFSET b]. *)
Theorem limit_comma common e order a b : all_select G (Select common e order None) -> all_expr G a -> all_expr G b ->
  parse_sql (text_of (show_select (Select common e order None) ++ [kw "LIMIT"] ++ show a ++ [kw ","] ++ show b)) =
  Ret (Ok (SqlStatement (StSelect (Select common e order (Some (a, Some b)))))).
Proof.
  intros (Hc & He & Ho & _) Ha Hb. apply says_parsed. destruct show_says as (E & _ & _ & _ & Se & _). destruct (Se e He) as [Ke _].
  destruct (order_says order Ho) as (o & O & Eo).
  assert (L : says GLimitClause ([kw "LIMIT"] ++ show a ++ [kw ","] ++ show b) (a, Some b)) by (say GLimitClause 1 by (good_says a (E a Ha)), (good_says b (E b Hb))).
  cbn [show_select opt_show]. rewrite app_nil_r.
  match goal with |- says _ ?w _ => assert (S : says GSelectStatement w (Select common e order (Some (a, Some b)))) end.
  { destruct common as [|c common].
    - say GSelectStatement 1 by Ke, O, (S_yes L). rewrite Eo. reflexivity.
    - say GSelectStatement 0 by (ctes_say (c :: common) ltac:(discriminate) Hc), Ke, O, (S_yes L). rewrite Eo. reflexivity. }
  match goal with |- says _ ?w _ => assert (S' : says GStatement w (StSelect (Select common e order (Some (a, Some b))))) by (say GStatement 0 by S) end.
  say GSqlStatement 0 by S'.
Qed.
