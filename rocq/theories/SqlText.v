(** * From the case of letters in a text to the answer of validation *)

From Coq Require Import Strings.String Lia.
From Verif Require Import Base StrModel JsonModel SqlNameModel SqlModel SqlInd LrModel LexSpec LexModel SqlGrammar SqlWords SqlParseModel
  SqlTrees SqlParseProofs SqlLexProofs SqlParseTop SqlCheckSpec SqlCheckProofs SqlShow SqlShowProofs SqlErrorSpec SqlViable SqlParsed SqlRespell
  SqlNameProofs SqlRespellProofs SqlTextSpec.
Local Open Scope list_scope.

Section Case.
Variable up : Z -> list Z.
Notation U := (upper up).

(** The value of a phrase with all names in upper case. *)
Definition cap (n : nonterm) : ty n -> ty n :=
  match n as n0 return ty n0 -> ty n0 with
  | GSqlStatement => respell U
  | GStatement => re_statement U
  | GInsertStatement => fun i => {| i_table := map U (i_table i); i_columns := option_map (map U) (i_columns i); i_source := re_set U (i_source i) |}
  | GDeleteStatement => fun d => {| d_table := map U (d_table d); d_where := option_map (re_expr U) (d_where d) |}
  | GUpdateStatement => fun u => {| u_table := map U (u_table u); u_assignments := map (fun a => (map U (fst a), re_expr U (snd a))) (u_assignments u);
      u_where := option_map (re_expr U) (u_where u) |}
  | GAssignments => map (fun a => (map U (fst a), re_expr U (snd a)))
  | GAssignment => fun a => (map U (fst a), re_expr U (snd a))
  | GSelectStatement => re_select U
  | GTableExpressions | GCommonTableExpressionList => map (re_cte U)
  | GCommonTableExpression => re_cte U
  | GSelectCoreList | GSelectCore => re_set U
  | GTupleList => map (map (re_expr U))
  | GTuple | GExpressionList => map (re_expr U)
  | GResultColumns => re_columns U
  | GResultColumnList => map (re_column U)
  | GResultColumn => re_column U
  | GQualifiedIdentifier | GIdentifierList | GColumnNameList => map U
  | GFromClause | GTableExpressionList => map (re_table U)
  | GTableExpression | GTableOrSubQuery => re_table U
  | GTableAlias | GSchemaName | GIdentifier | GOrderingCollation => U
  | GJoinConstraint => re_constraint U
  | GGroupByClause => fun g => (map (re_expr U) (fst g), option_map (re_expr U) (snd g))
  | GOrderByClause | GOrderingTermList => map (fun o => (re_expr U (fst (fst o)), option_map U (snd (fst o)), snd o))
  | GOrderingTerm => fun o => (re_expr U (fst (fst o)), option_map U (snd (fst o)), snd o)
  | GLimitClause => fun l => (re_expr U (fst l), option_map (re_expr U) (snd l))
  | GAttachStatement => fun a => (map U (fst a), snd a)
  | GDescribeStatement => map U
  | GWhereClause | GPrimaryExpression | GUnaryExpression | GMultiplicativeExpression | GAdditiveExpression
  | GComparativeExpression | GComplexExpression | GCaseExpression | GElseClause | GNotExpression | GAndExpression
  | GOrExpression | GExpression => re_expr U
  | GWhenClauses => map (fun p => (re_expr U (fst p), re_expr U (snd p)))
  | GWhenClause => fun p => (re_expr U (fst p), re_expr U (snd p))
  | _ => fun x => x
  end.

Fixpoint eqv (n : nonterm) : ty n -> ty n -> Prop :=
  match n as n0 return ty n0 -> ty n0 -> Prop with
  | Tok s => fun x y => if String.eqb s "ID" then U x = U y else special s = true -> x = y
  | Opt m => fun x y => match x, y with Some a, Some b => eqv m a b | None, None => True | _, _ => False end
  | GQueryPlan => fun _ _ => True
  | m => fun x y => cap m x = cap m y
  end.

Fixpoint seq_eqv (A : Type) (R : A -> A -> Prop) (l : list nonterm) : arrows l A -> arrows l A -> Prop :=
  match l as l0 return arrows l0 A -> arrows l0 A -> Prop with
  | [] => R
  | n :: l' => fun f g => forall x y, eqv n x y -> seq_eqv A R l' (f x) (g y)
  end.

Lemma opt_map {A B} (f : A -> B) (a b : option A) :
  match a, b with Some a, Some b => f a = f b | None, None => True | _, _ => False end -> option_map f a = option_map f b.
Proof. destruct a, b; intros H; try contradiction; cbn; congruence. Qed.

Lemma rules_eqv n : (forall s, n <> Tok s) -> Forall (fun r => seq_eqv (ty n) (eqv n) (projT1 r) (projT2 r) (projT2 r)) (rules n).
Proof.
  intros N. destruct n; [destruct (N s eq_refl)|..]; cbn [rules]; repeat (apply Forall_cons; [|]); try apply Forall_nil;
    cbn [seq_eqv projT1 projT2 eqv cap]; intros; auto;
    repeat match goal with
    | H : if String.eqb ?s "ID" then _ else _ |- _ => cbn [String.eqb Ascii.eqb Bool.eqb] in H
    | H : special _ = true -> _ = _ |- _ => first [specialize (H eq_refl)|clear H]
    end; subst; try reflexivity.
  all: repeat match goal with
    | H : match ?x with Some _ => match ?y with _ => _ end | None => _ end |- _ => destruct x, y; cbn [eqv cap] in H; try contradiction H
    end.
  all: cbn [ty] in *; cbn -[re_expr re_select re_set re_table re_cte re_columns re_column re_constraint re_statement respell upper] in *.
  all: try solve [cbn [re_expr re_select re_set re_table re_cte re_columns re_column re_constraint re_statement respell option_map default];
    rewrite ?map_app; cbn [map]; congruence].
  all: cbn [re_expr re_select re_set re_spec re_table re_cte re_columns re_column re_constraint re_statement respell option_map default map fst snd is_null not_].
  all: try solve [repeat first [assumption | reflexivity | f_equal]].
  all: repeat match goal with H : (_, _) = (_, _) |- _ => injection H; clear H; intros end.
  all: try solve [repeat first [assumption | reflexivity | f_equal]].
  destruct x0 as [|e [|e2 x0]], y0 as [|e' [|e2' y0]]; try discriminate H0; cbn [re_expr map] in *; try reflexivity; injection H0; intros; congruence.
Qed.

Lemma same_word_sym w w' : Forall2 (same_word up) w w' -> Forall2 (same_word up) w' w.
Proof.
  induction 1 as [|a b w w' (E & H1 & H2) _ IH]; constructor; [|exact IH]. split; [auto|]. rewrite <- E. split.
  - intros I. rewrite name_eqb_sym. exact (H1 I).
  - intros I. symmetry. exact (H2 I).
Qed.

Lemma gram_eqv :
  (forall n w v, gram n w v -> forall w', Forall2 (same_word up) w w' -> exists v', gram n w' v' /\ eqv n v v') /\
  (forall A l w f v, gram_all A l w f v -> forall w' g R, Forall2 (same_word up) w w' -> seq_eqv A R l f g -> exists v', gram_all A l w' g v' /\ R v v').
Proof.
  apply gram_both.
  - intros s text w' F. inversion F as [|? [t x] ? ? (E & H1 & H2) F']; subst. inversion F'; subst. cbn [fst snd] in *. subst t.
    exists x. split; [apply G_tok|]. cbn [eqv]. destruct (String.eqb_spec s "ID") as [->|N]; [apply name_eqb_upper; apply H1; reflexivity|].
    intros Sp. apply H2. apply in_map. unfold special in Sp. apply existsb_exists in Sp as (y & [<-|I] & E).
    + apply String.eqb_eq in E. congruence.
    + apply String.eqb_eq in E. subst y. exact I.
  - intros n l f w v I H IH w' F. assert (N : forall s, n <> Tok s) by (intros s ->; destruct I).
    pose proof (rules_eqv n N) as K. rewrite Forall_forall in K. specialize (K _ I). cbn [projT1 projT2] in K.
    destruct (IH w' f (eqv n) F K) as (v' & H' & R'). exists v'. split; [exact (G_rule n l f w' v' I H')|exact R'].
  - intros A v w' g R F K. inversion F; subst. exists g. split; [constructor|exact K].
  - intros A n l w w0 x f v Hx IHx Hl IHl w' g R F K. apply Forall2_app_inv_l in F as (w1 & w2 & F1 & F2 & ->).
    destruct (IHx w1 F1) as (x' & Hx' & Rx). destruct (IHl w2 (g x') R F2 (K _ _ Rx)) as (v' & Hv' & Rv).
    exists v'. split; [exact (G_cons A n l w1 w2 x' g v' Hx' Hv')|exact Rv].
Qed.

Lemma same_word_refl w : Forall2 (same_word up) w w.
Proof. induction w as [|a w IH]; constructor; [|exact IH]. repeat split; auto. intros _. apply name_eqb_refl. Qed.

(** A beginning of a statement stays one. *)
Lemma begins_case l l' : Forall tok_ok l' -> Forall2 (same_word up) l l' -> begins l -> begins l'.
Proof.
  intros O F (s & more & st & L & Gr).
  destruct (proj1 gram_eqv _ _ _ Gr (l' ++ more) (Forall2_app F (same_word_refl more))) as (st' & Gr' & _).
  pose proof (lexed_tok_ok _ _ _ L) as Ok. apply Forall_app in Ok as [_ Om].
  exists (text_of (l' ++ more)), more, st'. split; [|exact Gr']. apply text_lexes. apply Forall_app. auto.
Qed.

Definition same_answer (toks toks' : list LrModel.token) (o o' : outcome (result sql_statement parse_error)) : Prop :=
  match o, o' with
  | Ret (Ok st), Ret (Ok st') => same_statement up st st'
  | Ret (Err e), Ret (Err e') => same_complaint toks toks' e e'
  | _, _ => False
  end.

Theorem parse_case s s' toks toks' : sql_lexes s toks [] -> sql_lexes s' toks' [] -> Forall2 (same_word up) toks toks' ->
  same_answer toks toks' (parse_sql s) (parse_sql s').
Proof.
  intros L L' F.
  assert (A : forall st, parse_sql s = Ret (Ok st) -> exists st', parse_sql s' = Ret (Ok st') /\ same_statement up st st').
  { intros st E. apply parse_grammar in E as (toks0 & L0 & Gr).
    destruct (sql_lex_unique s toks [] toks0 [] L (or_introl eq_refl) L0 (or_introl eq_refl)) as [<- _].
    destruct (proj1 gram_eqv _ _ _ Gr toks' F) as (st' & Gr' & R). exists st'. split; [|exact R]. apply parse_grammar. eauto. }
  destruct (parse_total s) as [[st|e] E].
  { destruct (A st E) as (st' & E' & R). rewrite E, E'. exact R. }
  destruct (parse_total s') as [[st'|e'] E'].
  { exfalso. apply parse_grammar in E' as (toks0 & L0 & Gr).
    destruct (sql_lex_unique s' toks' [] toks0 [] L' (or_introl eq_refl) L0 (or_introl eq_refl)) as [<- _].
    destruct (proj1 gram_eqv _ _ _ Gr toks (same_word_sym _ _ F)) as (st & Gr' & _).
    assert (E' : parse_sql s = Ret (Ok st)) by (apply parse_grammar; eauto). congruence. }
  rewrite E, E'. cbn [same_answer].
  apply parse_sql_errors, (fails_with _ _ _ _ L (or_introl eq_refl)) in E.
  assert (O : Forall tok_ok toks) by exact (lexed_tok_ok _ _ _ L). assert (O' : Forall tok_ok toks') by exact (lexed_tok_ok _ _ _ L').
  apply parse_sql_errors in E'. 
  assert (K : exists e2, fails s' e2 /\ same_complaint toks toks' e e2).
  { destruct e as [p|t| |t]; try solve [destruct E].
    - destruct E as (_ & N & _). destruct (N eq_refl).
    - destruct E as (l & m & -> & B & N). apply Forall2_app_inv_l in F as (l' & m2 & F1 & F2 & ->). inversion F2 as [|? t' ? m' Ft Fm]; subst.
      exists (UnrecognizedTokenErr t'). split; [|exists l, m, l', m'; repeat split; exact (Forall2_same_length _ _ _ F1)].
      replace (l' ++ t' :: m') with ((l' ++ [t']) ++ m') in * by (rewrite <- app_assoc; reflexivity).
      destruct (lexes_split _ _ _ _ L') as (r' & L1 & _). exists l', r'. split; [exact L1|].
      apply Forall_app in O as [Ol Ot], O' as [O' _]. inversion Ot; subst. split.
      + apply (begins_case l l'); [apply Forall_app in O'; apply O'|exact F1|exact B].
      + intros B'. apply N. refine (begins_case (l' ++ [t']) _ _ _ B').
        * apply Forall_app. auto.
        * apply same_word_sym. apply Forall2_app; [exact F1|auto].
    - destruct E as (B & _ & N). exists UnrecognizedEofErr. split; [|exact I]. exists toks'. split; [exact L'|]. split; [exact (begins_case _ _ O' F B)|].
      intros (st' & Gr). apply N. destruct (proj1 gram_eqv _ _ _ Gr toks (same_word_sym _ _ F)) as (st & Gr' & _). eauto. }
  destruct K as (e2 & Fa & Sc). rewrite (fails_once _ _ _ E' Fa). exact Sc.
Qed.

(** From the text to the answer of validation. *)
Theorem text_case s s' toks toks' db db' d d' : sql_lexes s toks [] -> sql_lexes s' toks' [] -> Forall2 (same_word up) toks toks' ->
  same_database up db db' -> name_eqb up d d' = true ->
  match parse_sql s, parse_sql s' with
  | Ret (Ok st), Ret (Ok st') =>
      same_statement up st st' /\ validate up (set_context_new up db d) st = validate up (set_context_new up db' d') st'
  | Ret (Err e), Ret (Err e') => same_complaint toks toks' e e'
  | _, _ => False
  end.
Proof.
  intros L L' F D N. pose proof (parse_case s s' toks toks' L L' F) as A. unfold same_answer in A.
  destruct (parse_sql s) as [[st|e]| |]; [|exact A..]. destruct (parse_sql s') as [[st'|e']| |]; [|exact A..]. split; [exact A|].
  exact (validate_case up db db' d d' st st' D N A).
Qed.
End Case.
