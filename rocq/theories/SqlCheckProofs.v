(** * What the statements made by the parser have in common *)

From Coq Require Import Strings.String.
From Verif Require Import Base StrModel JsonModel SqlNameModel SqlModel LexSpec LrModel SqlGrammar SqlWords SqlSafeSpec SqlInd SqlParseProofs SqlCheckSpec SqlParseModel
  SqlLexProofs SqlParseTop.
Local Open Scope list_scope.

Lemma each_Forall {A} (P : A -> Prop) l : each P l <-> Forall P l.
Proof.
  induction l as [|a l IH]; cbn.
  - split; constructor.
  - rewrite IH. split; [intros [H1 H2]; constructor; assumption|intros H; inversion H; auto].
Qed.

Lemma each_app {A} (P : A -> Prop) l l' : each P l -> each P l' -> each P (l ++ l').
Proof. rewrite !each_Forall. intros. apply Forall_app. auto. Qed.

(** ** Careful statements are safe *)

Local Notation G := grammatical.
Local Notation K := careful.

Lemma each_forallb {A} (P Q : A -> Prop) (f : A -> bool) l :
  Forall (fun a => P a -> Q a -> f a = true) l -> each P l -> each Q l -> forallb f l = true.
Proof.
  induction 1 as [|a l H _ IH]; [reflexivity|]. cbn. intros [P1 P2] [Q1 Q2]. rewrite H, IH by assumption. reflexivity.
Qed.

Lemma maybe_true {A} (P Q : A -> Prop) (f : A -> bool) o :
  if_some (fun a => P a -> Q a -> f a = true) o -> maybe P o -> maybe Q o -> match o with None => true | Some a => f a end = true.
Proof. destruct o as [a|]; cbn; auto. Qed.

Lemma careful_safe :
  (forall e, all_expr G e -> all_expr K e -> safe e = true) /\
  (forall s, all_spec G s -> all_spec K s -> (forall es, s = SpList es -> es <> []) -> safe_spec s = true) /\
  (forall s, all_select G s -> all_select K s -> safe_select s = true) /\
  (forall c, all_cte G c -> all_cte K c -> safe_cte c = true) /\
  (forall e, all_set G e -> all_set K e -> safe_set e = true) /\
  (forall t, all_table G t -> all_table K t -> safe_table t = true) /\
  (forall c, all_columns G c -> all_columns K c -> safe_columns c = true) /\
  (forall c, all_column G c -> all_column K c -> safe_column c = true).
Proof.
  apply sql_induction.
  - reflexivity.
  - reflexivity.
  - intros es H [_ H1] [_ H2]. exact (each_forallb _ _ _ _ H H1 H2).
  - intros s H [_ H1] [_ H2]. exact (H H1 H2).
  - intros op e H [_ H1] [_ H2]. exact (H H1 H2).
  - intros op l r Hl Hr [_ [G1 G2]] [_ [K1 K2]]. cbn. rewrite Hl, Hr by assumption. reflexivity.
  - intros op l r Hl Hr [_ [G1 G2]] [_ [K1 K2]]. cbn. rewrite Hl, Hr by assumption. reflexivity.
  - intros e s He Hs [_ [G1 G2]] [K0 [K1 K2]]. cbn. rewrite (He G1 K1), (Hs G2 K2); [reflexivity|].
    intros es -> ->. exact K0.
  - intros e lo hi H1 H2 H3 [_ (G1 & G2 & G3)] [_ (K1 & K2 & K3)]. cbn. rewrite H1, H2, H3 by assumption. reflexivity.
  - intros o whens els Ho Hw He [G0 (G1 & G2 & G3)] [K0 (K1 & K2 & K3)]. cbn [safe].
    rewrite (maybe_true _ _ _ o Ho G1 K1), (maybe_true _ _ _ els He G3 K3).
    rewrite (each_forallb (fun p => all_expr G (fst p) /\ all_expr G (snd p)) (fun p => all_expr K (fst p) /\ all_expr K (snd p))
      (fun p => safe (fst p) && safe (snd p)) whens); [|clear -Hw|exact G2|exact K2].
    + cbn [on_expr grammatical careful] in G0, K0. destruct whens as [|[g b] [|]]; [contradiction| |reflexivity]. cbn.
      destruct b; try reflexivity. destruct K0.
    + induction Hw as [|[a b] l [Ha Hb] _ IH]; constructor; [|exact IH]. cbn [fst snd] in *. intros [? ?] [? ?]. rewrite Ha, Hb by assumption. reflexivity.
  - intros s H G1 K1 _. exact (H G1 K1).
  - intros es H G1 K1 N. cbn. rewrite (each_forallb _ _ _ _ H G1 K1). destruct es; [exfalso; exact (N [] eq_refl eq_refl)|reflexivity].
  - reflexivity.
  - intros common e order lim Hc He Ho Hl (G1 & G2 & G3 & G4) (K1 & K2 & K3 & K4). cbn [safe_select].
    rewrite (each_forallb _ _ _ _ Hc G1 K1), He by assumption. cbn [andb].
    rewrite (each_forallb (fun o => all_expr G (fst (fst o)) /\ maybe (on_name G) (snd (fst o)))
      (fun o => all_expr K (fst (fst o)) /\ maybe (on_name K) (snd (fst o))) (fun o => safe (fst (fst o))) order); [|clear -Ho|exact G3|exact K3].
    + destruct lim as [[a b]|]; [|reflexivity]. destruct Hl as [Ha Hb]. destruct G4 as [Ga Gb]. destruct K4 as [Ka Kb]. cbn [fst snd] in *.
      rewrite Ha by assumption. cbn. apply (maybe_true _ _ _ b Hb Gb Kb).
    + revert Ho. apply Forall_impl. intros o H [? _] [? _]. auto.
  - intros id columns q H (_ & _ & G1) (_ & _ & K1). exact (H G1 K1).
  - intros rows H [[G0 _] G1] [_ K1]. cbn. rewrite (each_forallb (each (all_expr G)) (each (all_expr K)) (forallb safe) rows); [|clear -H|exact G1|exact K1].
    + destruct rows; [contradiction|reflexivity].
    + revert H. apply Forall_impl. intros l H. exact (each_forallb _ _ _ _ H).
  - intros mode columns from wh group Hc Hf Hw Hg [_ (G1 & G2 & G3 & G4)] [_ (K1 & K2 & K3 & K4)]. cbn [safe_set].
    rewrite Hc, (each_forallb _ _ _ _ Hf G2 K2), (maybe_true _ _ _ wh Hw G3 K3) by assumption. cbn [andb].
    destruct group as [[gs h]|]; [|reflexivity]. destruct Hg as [Ha Hb], G4 as [Ga Gb], K4 as [Ka Kb]. cbn [fst snd] in *.
    rewrite (each_forallb _ _ _ _ Ha Ga Ka). apply (maybe_true _ _ _ h Hb Gb Kb).
  - intros op l r Hl Hr [_ [G1 G2]] [_ [K1 K2]]. cbn. rewrite Hl, Hr by assumption. reflexivity.
  - reflexivity.
  - intros s alias H [G1 _] [K1 _]. exact (H G1 K1).
  - intros l r op c Hl Hr _ (G1 & G2 & _) (K1 & K2 & _). cbn. rewrite Hl, Hr by assumption. reflexivity.
  - reflexivity.
  - intros l H G1 K1. exact (each_forallb _ _ _ _ H G1 K1).
  - reflexivity.
  - intros e rename H [G1 _] [K1 _]. exact (H G1 K1).
Qed.

Lemma careful_statement_safe s : all_statement G s -> all_statement K s -> safe_statement s = true.
Proof.
  destruct careful_safe as (E & _ & Sel & _ & Se & _). destruct s as [s|i|d|u]; cbn [all_statement safe_statement].
  - apply Sel.
  - intros (_ & _ & _ & H1) (_ & _ & _ & H2). apply Se; assumption.
  - intros [_ H1] [_ H2]. destruct (d_where d); [apply E; assumption|reflexivity].
  - intros (_ & _ & G1 & G2) (_ & _ & K1 & K2). apply andb_true_intro. split.
    + revert G1 K1. apply each_forallb. apply Forall_forall. intros [cs e] _ [_ H1] [_ H2]. apply E; assumption.
    + destruct (u_where u); [apply E; assumption|reflexivity].
Qed.

Lemma careful_sql_safe s : all_sql G s -> all_sql K s -> safe_sql s = true.
Proof. destruct s; cbn [all_sql safe_sql]; try apply careful_statement_safe; reflexivity. Qed.

(** ** Parsed statements are grammatical *)

(** A token of the lexer. *)
Definition tok_ok (t : LrModel.token) : Prop :=
  sql_word (fst t) (snd t) /\ (fst t = terminal "ID" -> forall t', sql_word t' (snd t) -> t' = terminal "ID").

Definition names (l : list name) : Prop := l <> [] /\ each proper_name l.
Definition single (e : set_expr) : Prop := match e with SOp _ _ _ => False | _ => True end.
Definition exprs (l : list expr) : Prop := l <> [] /\ each (all_expr G) l.
Definition path (q : list name) : Prop := on_path G q.

Fixpoint inv (n : nonterm) : ty n -> Prop :=
  match n as n0 return ty n0 -> Prop with
  | Tok s => fun x => tok_ok (terminal s, x)
  | Opt m => maybe (inv m)
  | GSqlStatement => all_sql G
  | GQueryPlan => fun _ => True
  | GStatement => all_statement G
  | GInsertStatement => fun i => all_statement G (StInsert i)
  | GColumnNameList => names
  | GDeleteStatement => fun d => all_statement G (StDelete d)
  | GUpdateStatement => fun u => all_statement G (StUpdate u)
  | GAssignments => fun l => l <> [] /\ each (fun a => names (fst a) /\ all_expr G (snd a)) l
  | GAssignment => fun a => names (fst a) /\ all_expr G (snd a)
  | GSelectStatement => all_select G
  | GTableExpressions => each (all_cte G)
  | GCommonTableExpressionList => each (all_cte G)
  | GCommonTableExpression => all_cte G
  | GSelectCoreList => all_set G
  | GCompoundOperator => fun _ => True
  | GSelectCore => fun e => single e /\ all_set G e
  | GSelectMode => fun _ => True
  | GTupleList => fun rows => rows <> [] /\ Forall exprs rows
  | GTuple => exprs
  | GResultColumns => fun c => all_columns G c /\ c <> RList []
  | GResultColumnList => fun l => each (all_column G) l /\ l <> []
  | GResultColumn => all_column G
  | GQualifiedIdentifier => path
  | GFromClause => each (all_table G)
  | GTableExpressionList => each (all_table G)
  | GTableExpression => all_table G
  | GTableOrSubQuery => all_table G
  | GTableAlias => proper_name
  | GJoinOperator => fun _ => True
  | GJoinType => fun _ => True
  | GJoinConstraint => all_constraint G
  | GIdentifierList => names
  | GWhereClause => all_expr G
  | GGroupByClause => fun g => exprs (fst g) /\ maybe (all_expr G) (snd g)
  | GOrderByClause => each (fun o => all_expr G (fst (fst o)) /\ maybe proper_name (snd (fst o)))
  | GOrderingTermList => each (fun o => all_expr G (fst (fst o)) /\ maybe proper_name (snd (fst o)))
  | GOrderingTerm => fun o => all_expr G (fst (fst o)) /\ maybe proper_name (snd (fst o))
  | GOrderingCollation => proper_name
  | GOrderingDirection => fun _ => True
  | GLimitClause => fun l => all_expr G (fst l) /\ maybe (all_expr G) (snd l)
  | GAttachStatement => fun a => on_short G (fst a) /\ Forall quotable (snd a)
  | GDescribeStatement => on_short G
  | GSchemaName => proper_name
  | GExpressionList => exprs
  | GPrimaryExpression => all_expr G
  | GUnaryExpression => all_expr G
  | GMultiplicativeExpression => all_expr G
  | GAdditiveExpression => all_expr G
  | GComparativeExpression => all_expr G
  | GComplexExpression => all_expr G
  | GCaseExpression => all_expr G
  | GWhenClauses => fun l => l <> [] /\ each (fun p => all_expr G (fst p) /\ all_expr G (snd p)) l
  | GWhenClause => fun p => all_expr G (fst p) /\ all_expr G (snd p)
  | GElseClause => all_expr G
  | GNotExpression => all_expr G
  | GAndExpression => all_expr G
  | GOrExpression => all_expr G
  | GExpression => all_expr G
  | GLiteralValue => proper_literal
  | GIdentifier => proper_name
  | GNumericLiteral => fun s => number s \/ fraction s \/ hexadecimal s
  | GStringLiteral => Forall quotable
  end.

Fixpoint seq_inv (A : Type) (P : A -> Prop) (l : list nonterm) : arrows l A -> Prop :=
  match l as l0 return arrows l0 A -> Prop with
  | [] => P
  | n :: l' => fun f => forall x, inv n x -> seq_inv A P l' (f x)
  end.

Definition rule_ok (n : nonterm) (r : rule n) : Prop := seq_inv (ty n) (inv n) (projT1 r) (projT2 r).

Lemma tok_shape s w : tok_ok (terminal s, w) -> forall name, nth_error terminals (terminal s) = Some name -> shape name w.
Proof. intros [(name & N & Sh) _] name' E. cbn [fst snd] in *. congruence. Qed.

Ltac rule :=
  cbn [rule_ok seq_inv projT1 projT2]; intros; cbn [inv ty] in *; unfold exprs, names, path, maybe, default in *; cbn in *;
  repeat match goal with
  | H : option _ |- _ => destruct H
  | H : _ /\ _ |- _ => destruct H
  end; cbn in *; repeat match goal with |- _ /\ _ => split end; try assumption; try discriminate; try lia; auto; try (apply each_app; cbn; auto).

Lemma rows_split rows : Forall exprs rows -> ~ In [] rows /\ each (each (all_expr G)) rows.
Proof.
  induction 1 as [|l rows [N E] _ [IH1 IH2]]; cbn; [auto|]. split; [intros [->|H]; [exact (N eq_refl)|exact (IH1 H)]|auto].
Qed.

Lemma tuple_ok l : exprs l -> all_expr G match l with [e] => e | _ => ETuple l end.
Proof.
  intros [N H]. destruct l as [|e [|e' l]]; [contradiction|exact (proj1 H)|]. split; [cbn; lia|exact H].
Qed.

Lemma quoted_inner w : quoted w -> Forall quotable (removelast (tl w)).
Proof. intros (cs & -> & F). cbn [tl]. rewrite removelast_last. exact F. Qed.

Lemma id_name w : tok_ok (terminal "ID", w) -> proper_name w.
Proof. intros H. split; [exact (tok_shape "ID" w H "ID" eq_refl)|]. destruct H as [_ H]. exact (H eq_refl). Qed.

Lemma rules_ok n : (forall s, n <> Tok s) -> Forall (rule_ok n) (rules n).
Proof.
  intros N. destruct n; [destruct (N s eq_refl)|..]; cbn [rules]; repeat (apply Forall_cons; [|]); try apply Forall_nil; unfold rule_ok; rule.
  all: try (match goal with |- _ ++ _ <> [] => intros E; apply app_eq_nil in E as [_ E]; discriminate end).
  - apply rows_split. assumption.
  - apply (proj2 (rows_split _ H1)).
  - apply Forall_app. split; [assumption|]. repeat constructor; assumption.
  - congruence.
  - apply tuple_ok. split; assumption.
  - apply id_name. assumption.
  - left. exact (tok_shape "NUMERIC_LIT_1" _ H "NUMERIC_LIT_1" eq_refl).
  - right. left. exact (tok_shape "NUMERIC_LIT_2" _ H "NUMERIC_LIT_2" eq_refl).
  - right. right. exact (tok_shape "HEX_LIT" _ H "HEX_LIT" eq_refl).
  - apply quoted_inner. exact (tok_shape "STRING_LIT" _ H "STRING_LIT" eq_refl).
Qed.

Lemma gram_inv :
  (forall n w v, gram n w v -> Forall tok_ok w -> inv n v) /\
  (forall A l w f v, gram_all A l w f v -> Forall tok_ok w -> forall P, seq_inv A P l f -> P v).
Proof.
  apply gram_both.
  - intros s text F. exact (Forall_inv F).
  - intros n l f w v I _ IH F.
    assert (N : forall s, n <> Tok s) by (intros s ->; exact I).
    pose proof (rules_ok n N) as R. rewrite Forall_forall in R. exact (IH F (inv n) (R _ I)).
  - intros A v _ P H. exact H.
  - intros A n l w w' x f v _ IH1 _ IH2 F P H. apply Forall_app in F as [F1 F2]. exact (IH2 F2 P (H x (IH1 F1))).
Qed.

Lemma lexed_tok_ok s toks r : sql_lexes s toks r -> Forall tok_ok toks.
Proof.
  induction 1 as [s|c s toks r _ _ IH|t w s toks r _ Hw _ U _ IH]; [constructor|exact IH|]. constructor; [|exact IH].
  split; [exact Hw|]. cbn [fst snd]. intros -> t' H. destruct (U t' H) as [->|[Q _]]; [reflexivity|]. destruct (Q eq_refl).
Qed.

Theorem parsed_grammatical s st : parse_sql s = Ret (Ok st) -> all_sql grammatical st.
Proof.
  intros E. destruct (parse_sql_correct s) as (r & E' & C). rewrite E in E'. injection E' as <-.
  destruct (proj1 (C st) eq_refl) as (toks & L & Gr). exact (proj1 gram_inv _ _ _ Gr (lexed_tok_ok _ _ _ L)).
Qed.
