(** * The SQL parser and the grammar

    The productions LALRPOP derived from the grammar (without options) serve as a certificate: the tables are checked
    against them by computation, and they are shown to amount to the grammar. Written by a script. *)

From Coq Require Import Strings.String.
From Verif Require Import Base StrModel SqlNameModel SqlModel LrModel LrSpec LrProofs SqlTables SqlCert SqlActions SqlGrammar.
Local Open Scope list_scope.

Definition productions : grammar := [
  (0, [T 14]);
  (0, []);
  (1, [T 16]);
  (1, []);
  (2, [T 17]);
  (2, []);
  (3, [T 60]);
  (3, []);
  (4, [T 62; T 61]);
  (5, [T 62; T 61]);
  (5, []);
  (6, [NT 39]);
  (6, [NT 6; T 4; NT 39]);
  (6, [NT 6; T 6; NT 39]);
  (6, [NT 6; T 77; NT 39]);
  (7, [NT 40]);
  (7, [NT 7; T 15; NT 40]);
  (8, [NT 30; T 11; NT 23]);
  (9, [NT 8]);
  (9, [NT 9; T 5; NT 8]);
  (10, [T 18; T 36; NT 63; T 16; NT 55; NT 29]);
  (10, [T 18; T 36; NT 63; T 16; NT 29]);
  (11, [T 21; NT 23; NT 76; NT 21; T 33]);
  (11, [T 21; NT 76; NT 21; T 33]);
  (11, [T 21; NT 23; NT 76; T 33]);
  (11, [T 21; NT 76; T 33]);
  (12, [T 1; NT 30; T 2]);
  (13, [NT 12]);
  (13, []);
  (14, [NT 29; T 16; T 1; NT 60; T 2]);
  (14, [NT 29; T 1; NT 30; T 2; T 16; T 1; NT 60; T 2]);
  (15, [NT 14]);
  (15, [NT 15; T 5; NT 14]);
  (16, [NT 6]);
  (16, [NT 16; T 11; NT 6]);
  (16, [NT 16; T 0; NT 6]);
  (16, [NT 16; T 9; NT 6]);
  (16, [NT 16; T 12; NT 6]);
  (16, [NT 16; T 10; NT 6]);
  (16, [NT 16; T 13; NT 6]);
  (16, [NT 16; T 46; T 55]);
  (16, [NT 16; T 46; T 53; T 55]);
  (16, [NT 16; T 50; NT 6]);
  (16, [NT 16; T 47]);
  (16, [NT 16; T 54]);
  (16, [NT 16; T 53; T 55]);
  (16, [NT 16; T 41; T 1; T 2]);
  (16, [NT 16; T 53; T 41; T 1; T 2]);
  (16, [NT 16; T 41; T 1; NT 25; T 2]);
  (16, [NT 16; T 53; T 41; T 1; NT 25; T 2]);
  (16, [NT 16; T 41; T 1; NT 60; T 2]);
  (16, [NT 16; T 53; T 41; T 1; NT 60; T 2]);
  (16, [NT 16; T 41; NT 51]);
  (16, [NT 16; T 53; T 41; NT 51]);
  (16, [NT 16; T 19; NT 6; T 15; NT 6]);
  (16, [NT 16; T 53; T 19; NT 6; T 15; NT 6]);
  (17, [NT 16]);
  (17, [NT 11]);
  (18, [T 70]);
  (18, [T 70; T 14]);
  (18, [T 44]);
  (18, [T 34]);
  (19, [NT 68; T 28; T 37; NT 51; NT 77]);
  (19, [NT 68; T 28; T 37; NT 51]);
  (19, [T 28; T 37; NT 51; NT 77]);
  (19, [T 28; T 37; NT 51]);
  (20, [T 30; NT 55; NT 29]);
  (20, [T 30; NT 29]);
  (21, [T 32; NT 23]);
  (22, [NT 21]);
  (22, []);
  (23, [NT 42]);
  (24, [NT 23]);
  (24, []);
  (25, [NT 23]);
  (25, [NT 25; T 5; NT 23]);
  (26, [T 37; NT 67]);
  (27, [T 39; T 20; NT 25]);
  (27, [T 39; T 20; NT 25; T 40; NT 23]);
  (28, [NT 27]);
  (28, []);
  (29, [T 79]);
  (30, [NT 29]);
  (30, [NT 30; T 5; NT 29]);
  (31, [NT 68; T 43; T 45; NT 51; NT 12; NT 57]);
  (31, [T 43; T 45; NT 51; NT 12; NT 57]);
  (31, [NT 68; T 43; T 45; NT 51; NT 57]);
  (31, [T 43; T 45; NT 51; NT 57]);
  (32, [T 57; NT 23]);
  (32, [T 72; T 1; NT 30; T 2]);
  (33, [NT 34; T 48]);
  (33, [T 48]);
  (33, [T 52; NT 34; T 48]);
  (33, [T 52; T 48]);
  (33, [T 23; T 48]);
  (34, [T 49; T 60]);
  (34, [T 49]);
  (34, [T 63; T 60]);
  (34, [T 63]);
  (34, [T 38; T 60]);
  (34, [T 38]);
  (34, [T 42]);
  (35, [NT 34]);
  (35, []);
  (36, [T 51; NT 23]);
  (36, [T 51; NT 23; T 5; NT 23]);
  (36, [T 51; NT 23; T 56; NT 23]);
  (37, [NT 36]);
  (37, []);
  (38, [NT 41]);
  (38, [NT 63]);
  (38, [T 55]);
  (38, [T 25]);
  (38, [T 24]);
  (38, [T 26]);
  (38, [T 27; NT 63]);
  (38, [T 68; NT 63]);
  (38, [T 69; NT 63]);
  (39, [NT 73]);
  (39, [NT 39; T 3; NT 73]);
  (39, [NT 39; T 8; NT 73]);
  (40, [NT 17]);
  (40, [T 53; NT 17]);
  (41, [T 80]);
  (41, [T 81]);
  (41, [T 78]);
  (42, [NT 7]);
  (42, [NT 42; T 58; NT 7]);
  (43, [T 59; T 20; NT 49]);
  (44, [NT 43]);
  (44, []);
  (45, [T 22; NT 29]);
  (46, [NT 45]);
  (46, []);
  (47, [T 17]);
  (47, []);
  (47, [T 29]);
  (48, [NT 23; NT 45; NT 47]);
  (48, [NT 23; NT 47]);
  (49, [NT 48]);
  (49, [NT 49; T 5; NT 48]);
  (50, [T 1; NT 25; T 2]);
  (50, [T 1; NT 60; T 2]);
  (50, [NT 38]);
  (50, [NT 51]);
  (51, [NT 29]);
  (51, [NT 29; T 7; NT 29]);
  (51, [NT 29; T 7; NT 29; T 7; NT 29]);
  (52, [NT 23]);
  (52, [NT 23; T 16; NT 29]);
  (52, [NT 23; NT 29]);
  (52, [NT 29; T 7; T 3]);
  (53, [NT 52]);
  (53, [NT 53; T 5; NT 52]);
  (54, [T 3]);
  (54, [NT 53]);
  (55, [NT 29; T 7]);
  (56, [NT 55]);
  (56, []);
  (57, [T 64; NT 59; NT 54; NT 77; NT 27]);
  (57, [T 64; NT 59; NT 54; NT 27]);
  (57, [T 64; NT 59; NT 54; NT 77]);
  (57, [T 64; NT 59; NT 54]);
  (57, [T 64; NT 59; NT 54; NT 26; NT 77; NT 27]);
  (57, [T 64; NT 59; NT 54; NT 26; NT 27]);
  (57, [T 64; NT 59; NT 54; NT 26; NT 77]);
  (57, [T 64; NT 59; NT 54; NT 26]);
  (57, [T 73; NT 72]);
  (58, [NT 57]);
  (58, [NT 58; NT 18; NT 57]);
  (59, [T 14]);
  (59, []);
  (59, [T 31]);
  (60, [NT 68; NT 58; NT 43; NT 36]);
  (60, [NT 68; NT 58; NT 36]);
  (60, [NT 68; NT 58; NT 43]);
  (60, [NT 68; NT 58]);
  (60, [NT 58; NT 43; NT 36]);
  (60, [NT 58; NT 36]);
  (60, [NT 58; NT 43]);
  (60, [NT 58]);
  (61, [NT 62]);
  (61, [T 35; T 62; T 61; NT 62]);
  (61, [T 35; NT 62]);
  (61, [NT 10]);
  (61, [NT 20]);
  (62, [NT 60]);
  (62, [NT 31]);
  (62, [NT 19]);
  (62, [NT 74]);
  (63, [T 82]);
  (64, [T 16; NT 29]);
  (64, [NT 29]);
  (65, [NT 64]);
  (65, []);
  (66, [NT 70]);
  (66, [NT 66; NT 33; NT 70; NT 32]);
  (67, [NT 66]);
  (67, [NT 67; T 5; NT 66]);
  (68, [T 76; NT 15]);
  (69, [NT 68]);
  (69, []);
  (70, [NT 51; NT 64]);
  (70, [NT 51]);
  (70, [T 1; NT 60; T 2; NT 64]);
  (70, [T 1; NT 60; T 2]);
  (70, [T 1; NT 66; T 2]);
  (71, [T 1; NT 25; T 2]);
  (72, [NT 71]);
  (72, [NT 72; T 5; NT 71]);
  (73, [NT 50]);
  (73, [T 4; NT 73]);
  (73, [T 6; NT 73]);
  (74, [NT 68; T 71; NT 51; T 65; NT 9; NT 77]);
  (74, [NT 68; T 71; NT 51; T 65; NT 9]);
  (74, [T 71; NT 51; T 65; NT 9; NT 77]);
  (74, [T 71; NT 51; T 65; NT 9]);
  (75, [T 74; NT 23; T 67; NT 23]);
  (76, [NT 75]);
  (76, [NT 76; NT 75]);
  (77, [T 75; NT 23]);
  (78, [NT 77]);
  (78, [])].

Lemma sql_tables_checked : check_tables sql_tables productions 61 sql_cert = true.
Proof. vm_cast_no_check (eq_refl true). Qed.

(** The nonterminal of each number and how its values are wrapped. *)
Definition binding : Type := {n : nonterm & ty n -> sym}.
Definition bindings : list binding := [
  existT (fun n => ty n -> sym) (Opt (Tok "ALL")) Variant1;
  existT (fun n => ty n -> sym) (Opt (Tok "AS")) Variant1;
  existT (fun n => ty n -> sym) (Opt (Tok "ASC")) Variant1;
  existT (fun n => ty n -> sym) (Opt (Tok "OUTER")) Variant1;
  existT (fun n => ty n -> sym) GQueryPlan Variant2;
  existT (fun n => ty n -> sym) (Opt GQueryPlan) Variant3;
  existT (fun n => ty n -> sym) GAdditiveExpression Variant4;
  existT (fun n => ty n -> sym) GAndExpression Variant4;
  existT (fun n => ty n -> sym) GAssignment Variant5;
  existT (fun n => ty n -> sym) GAssignments Variant6;
  existT (fun n => ty n -> sym) GAttachStatement Variant7;
  existT (fun n => ty n -> sym) GCaseExpression Variant4;
  existT (fun n => ty n -> sym) GColumnNameList Variant8;
  existT (fun n => ty n -> sym) (Opt GColumnNameList) Variant9;
  existT (fun n => ty n -> sym) GCommonTableExpression Variant10;
  existT (fun n => ty n -> sym) GCommonTableExpressionList Variant11;
  existT (fun n => ty n -> sym) GComparativeExpression Variant4;
  existT (fun n => ty n -> sym) GComplexExpression Variant4;
  existT (fun n => ty n -> sym) GCompoundOperator Variant12;
  existT (fun n => ty n -> sym) GDeleteStatement Variant13;
  existT (fun n => ty n -> sym) GDescribeStatement Variant14;
  existT (fun n => ty n -> sym) GElseClause Variant4;
  existT (fun n => ty n -> sym) (Opt GElseClause) Variant15;
  existT (fun n => ty n -> sym) GExpression Variant4;
  existT (fun n => ty n -> sym) (Opt GExpression) Variant15;
  existT (fun n => ty n -> sym) GExpressionList Variant16;
  existT (fun n => ty n -> sym) GFromClause Variant17;
  existT (fun n => ty n -> sym) GGroupByClause Variant18;
  existT (fun n => ty n -> sym) (Opt GGroupByClause) Variant19;
  existT (fun n => ty n -> sym) GIdentifier Variant20;
  existT (fun n => ty n -> sym) GIdentifierList Variant8;
  existT (fun n => ty n -> sym) GInsertStatement Variant21;
  existT (fun n => ty n -> sym) GJoinConstraint Variant22;
  existT (fun n => ty n -> sym) GJoinOperator Variant23;
  existT (fun n => ty n -> sym) GJoinType Variant24;
  existT (fun n => ty n -> sym) (Opt GJoinType) Variant25;
  existT (fun n => ty n -> sym) GLimitClause Variant26;
  existT (fun n => ty n -> sym) (Opt GLimitClause) Variant27;
  existT (fun n => ty n -> sym) GLiteralValue Variant28;
  existT (fun n => ty n -> sym) GMultiplicativeExpression Variant4;
  existT (fun n => ty n -> sym) GNotExpression Variant4;
  existT (fun n => ty n -> sym) GNumericLiteral Variant29;
  existT (fun n => ty n -> sym) GOrExpression Variant4;
  existT (fun n => ty n -> sym) GOrderByClause Variant30;
  existT (fun n => ty n -> sym) (Opt GOrderByClause) Variant31;
  existT (fun n => ty n -> sym) GOrderingCollation Variant20;
  existT (fun n => ty n -> sym) (Opt GOrderingCollation) Variant32;
  existT (fun n => ty n -> sym) GOrderingDirection Variant33;
  existT (fun n => ty n -> sym) GOrderingTerm Variant34;
  existT (fun n => ty n -> sym) GOrderingTermList Variant30;
  existT (fun n => ty n -> sym) GPrimaryExpression Variant4;
  existT (fun n => ty n -> sym) GQualifiedIdentifier Variant8;
  existT (fun n => ty n -> sym) GResultColumn Variant35;
  existT (fun n => ty n -> sym) GResultColumnList Variant36;
  existT (fun n => ty n -> sym) GResultColumns Variant37;
  existT (fun n => ty n -> sym) GSchemaName Variant20;
  existT (fun n => ty n -> sym) (Opt GSchemaName) Variant32;
  existT (fun n => ty n -> sym) GSelectCore Variant38;
  existT (fun n => ty n -> sym) GSelectCoreList Variant38;
  existT (fun n => ty n -> sym) GSelectMode Variant39;
  existT (fun n => ty n -> sym) GSelectStatement Variant40;
  existT (fun n => ty n -> sym) GSqlStatement Variant41;
  existT (fun n => ty n -> sym) GStatement Variant42;
  existT (fun n => ty n -> sym) GStringLiteral Variant29;
  existT (fun n => ty n -> sym) GTableAlias Variant20;
  existT (fun n => ty n -> sym) (Opt GTableAlias) Variant32;
  existT (fun n => ty n -> sym) GTableExpression Variant43;
  existT (fun n => ty n -> sym) GTableExpressionList Variant17;
  existT (fun n => ty n -> sym) GTableExpressions Variant11;
  existT (fun n => ty n -> sym) (Opt GTableExpressions) Variant44;
  existT (fun n => ty n -> sym) GTableOrSubQuery Variant43;
  existT (fun n => ty n -> sym) GTuple Variant16;
  existT (fun n => ty n -> sym) GTupleList Variant45;
  existT (fun n => ty n -> sym) GUnaryExpression Variant4;
  existT (fun n => ty n -> sym) GUpdateStatement Variant46;
  existT (fun n => ty n -> sym) GWhenClause Variant47;
  existT (fun n => ty n -> sym) GWhenClauses Variant48;
  existT (fun n => ty n -> sym) GWhereClause Variant4;
  existT (fun n => ty n -> sym) (Opt GWhereClause) Variant15].

(** String literals have both their quotes. *)
Definition fine (t : token) : Prop := fst t = terminal "STRING_LIT" -> 2 <= length (snd t).

Notation ev := (eval sym sql_shift sql_build).

(** ** From trees to the grammar *)

Definition sym_ok (X : symbol) (t : tree) (w : list token) : Prop :=
  match X with
  | T a => exists s, t = Leaf (a, s) /\ w = [(a, s)]
  | NT n =>
      match nth_error bindings n with
      | Some (existT _ m inj) => exists x : ty m, ev t = Ret (inj x) /\ gram m w x
      | None => False
      end
  end.

Fixpoint seq_ok (Xs : list symbol) (ts : list tree) (w : list token) : Prop :=
  match Xs with
  | [] => ts = [] /\ w = []
  | X :: Xs' => exists t ts' w1 w2, ts = t :: ts' /\ w = w1 ++ w2 /\ sym_ok X t w1 /\ seq_ok Xs' ts' w2
  end.

Lemma G_nth n k r w v : nth_error (rules n) k = Some r -> gram_all (ty n) (projT1 r) w (projT2 r) v -> gram n w v.
Proof. intros E H. apply (G_rule n (projT1 r) (projT2 r)); [|exact H]. destruct r. exact (nth_error_In _ _ E). Qed.

Lemma G_none A n l w f v : gram_all A l w (f None) v -> gram_all A (Opt n :: l) w f v.
Proof.
  intros H. apply (G_cons A (Opt n) l [] w None f v); [|exact H].
  apply (G_rule (Opt n) [] None); [left; reflexivity|constructor].
Qed.

Lemma G_some A n l w w' x f v : gram n w x -> gram_all A l w' (f (Some x)) v -> gram_all A (Opt n :: l) (w ++ w') f v.
Proof.
  intros H K. apply (G_cons A (Opt n) l w w' (Some x) f v); [|exact K].
  apply (G_rule (Opt n) [n] Some); [right; left; reflexivity|]. rewrite <- (app_nil_r w). eapply (G_cons (ty (Opt n)) n); [exact H|constructor].
Qed.

Lemma G_plan q p : gram GQueryPlan [(terminal "QUERY", q); (terminal "PLAN", p)] (q, p).
Proof.
  apply (G_rule GQueryPlan [Tok "QUERY"; Tok "PLAN"] (fun q p => (q, p))); [left; reflexivity|].
  eapply (G_cons (ty GQueryPlan) (Tok "QUERY") _ [_] [_]); [apply G_tok|]. eapply (G_cons (ty GQueryPlan) (Tok "PLAN") _ [_] []); [apply G_tok|constructor].
Qed.

Lemma G_some_plan A l w' q p f v : gram_all A l w' (f (Some (q, p))) v ->
  gram_all A (Opt GQueryPlan :: l) ([(terminal "QUERY", q)] ++ [(terminal "PLAN", p)] ++ w') f v.
Proof. intros H. apply (G_some A GQueryPlan l [_; _] w' (q, p) f v); [apply G_plan|exact H]. Qed.

Lemma slice_inner_ok (s : list Z) : 2 <= length s -> slice_inner s = Ret (removelast (tl s)).
Proof. intros H. unfold slice_inner. apply Nat.leb_le in H. rewrite H. reflexivity. Qed.

Ltac unpack :=
  repeat match goal with
  | H : seq_ok (_ :: _) _ _ |- _ => destruct H as (? & ? & ? & ? & -> & -> & ? & H)
  | H : seq_ok [] _ _ |- _ => destruct H as [-> ->]
  | H : sym_ok (T _) _ _ |- _ => destruct H as (? & -> & ->)
  | H : sym_ok (NT _) _ _ |- _ => hnf in H; destruct H as (? & ? & ?)
  end.

Ltac evaluate :=
  rewrite eval_node; cbn [eval_all bind]; repeat match goal with H : ev ?t = Ret _ |- context [ev ?t] => rewrite H; cbn [bind] end.

Ltac use_rule l f n :=
  hnf; eexists; split; [evaluate; reflexivity|].

Lemma production_0 ts w : Forall fine w -> seq_ok [T 14] ts w -> sym_ok (NT 0) (Node 0 ts) w.
Proof. intros _ H. unpack. hnf. eexists. split; [evaluate; reflexivity|]. eapply (G_nth (Opt (Tok "ALL")) 1); [reflexivity|]. cbn [projT1 projT2]. eapply (G_cons (ty (Opt (Tok "ALL")))); [first [eassumption|apply G_tok]|]. constructor. Qed.

Lemma production_1 ts w : Forall fine w -> seq_ok [] ts w -> sym_ok (NT 0) (Node 1 ts) w.
Proof. intros _ H. unpack. hnf. eexists. split; [evaluate; reflexivity|]. eapply (G_nth (Opt (Tok "ALL")) 0); [reflexivity|]. cbn [projT1 projT2]. constructor. Qed.

Lemma production_2 ts w : Forall fine w -> seq_ok [T 16] ts w -> sym_ok (NT 1) (Node 2 ts) w.
Proof. intros _ H. unpack. hnf. eexists. split; [evaluate; reflexivity|]. eapply (G_nth (Opt (Tok "AS")) 1); [reflexivity|]. cbn [projT1 projT2]. eapply (G_cons (ty (Opt (Tok "AS")))); [first [eassumption|apply G_tok]|]. constructor. Qed.

Lemma production_3 ts w : Forall fine w -> seq_ok [] ts w -> sym_ok (NT 1) (Node 3 ts) w.
Proof. intros _ H. unpack. hnf. eexists. split; [evaluate; reflexivity|]. eapply (G_nth (Opt (Tok "AS")) 0); [reflexivity|]. cbn [projT1 projT2]. constructor. Qed.

Lemma production_4 ts w : Forall fine w -> seq_ok [T 17] ts w -> sym_ok (NT 2) (Node 4 ts) w.
Proof. intros _ H. unpack. hnf. eexists. split; [evaluate; reflexivity|]. eapply (G_nth (Opt (Tok "ASC")) 1); [reflexivity|]. cbn [projT1 projT2]. eapply (G_cons (ty (Opt (Tok "ASC")))); [first [eassumption|apply G_tok]|]. constructor. Qed.

Lemma production_5 ts w : Forall fine w -> seq_ok [] ts w -> sym_ok (NT 2) (Node 5 ts) w.
Proof. intros _ H. unpack. hnf. eexists. split; [evaluate; reflexivity|]. eapply (G_nth (Opt (Tok "ASC")) 0); [reflexivity|]. cbn [projT1 projT2]. constructor. Qed.

Lemma production_6 ts w : Forall fine w -> seq_ok [T 60] ts w -> sym_ok (NT 3) (Node 6 ts) w.
Proof. intros _ H. unpack. hnf. eexists. split; [evaluate; reflexivity|]. eapply (G_nth (Opt (Tok "OUTER")) 1); [reflexivity|]. cbn [projT1 projT2]. eapply (G_cons (ty (Opt (Tok "OUTER")))); [first [eassumption|apply G_tok]|]. constructor. Qed.

Lemma production_7 ts w : Forall fine w -> seq_ok [] ts w -> sym_ok (NT 3) (Node 7 ts) w.
Proof. intros _ H. unpack. hnf. eexists. split; [evaluate; reflexivity|]. eapply (G_nth (Opt (Tok "OUTER")) 0); [reflexivity|]. cbn [projT1 projT2]. constructor. Qed.

Lemma production_8 ts w : Forall fine w -> seq_ok [T 62; T 61] ts w -> sym_ok (NT 4) (Node 8 ts) w.
Proof. intros _ H. unpack. hnf. eexists. split; [evaluate; reflexivity|]. eapply (G_nth (GQueryPlan) 0); [reflexivity|]. cbn [projT1 projT2]. eapply (G_cons (ty (GQueryPlan))); [first [eassumption|apply G_tok]|]. eapply (G_cons (ty (GQueryPlan))); [first [eassumption|apply G_tok]|]. constructor. Qed.

Lemma production_9 ts w : Forall fine w -> seq_ok [T 62; T 61] ts w -> sym_ok (NT 5) (Node 9 ts) w.
Proof. intros _ H. unpack. hnf. eexists. split; [evaluate; reflexivity|]. apply (G_rule (Opt GQueryPlan) [GQueryPlan] Some); [right; left; reflexivity|]. eapply (G_cons (ty (Opt GQueryPlan)) GQueryPlan [] [_; _] []); [apply G_plan|constructor]. Qed.

Lemma production_10 ts w : Forall fine w -> seq_ok [] ts w -> sym_ok (NT 5) (Node 10 ts) w.
Proof. intros _ H. unpack. hnf. eexists. split; [evaluate; reflexivity|]. eapply (G_nth (Opt GQueryPlan) 0); [reflexivity|]. cbn [projT1 projT2]. constructor. Qed.

Lemma production_11 ts w : Forall fine w -> seq_ok [NT 39] ts w -> sym_ok (NT 6) (Node 11 ts) w.
Proof. intros _ H. unpack. hnf. eexists. split; [evaluate; reflexivity|]. eapply (G_nth (GAdditiveExpression) 0); [reflexivity|]. cbn [projT1 projT2]. eapply (G_cons (ty (GAdditiveExpression))); [first [eassumption|apply G_tok]|]. constructor. Qed.

Lemma production_12 ts w : Forall fine w -> seq_ok [NT 6; T 4; NT 39] ts w -> sym_ok (NT 6) (Node 12 ts) w.
Proof. intros _ H. unpack. hnf. eexists. split; [evaluate; reflexivity|]. eapply (G_nth (GAdditiveExpression) 1); [reflexivity|]. cbn [projT1 projT2]. eapply (G_cons (ty (GAdditiveExpression))); [first [eassumption|apply G_tok]|]. eapply (G_cons (ty (GAdditiveExpression))); [first [eassumption|apply G_tok]|]. eapply (G_cons (ty (GAdditiveExpression))); [first [eassumption|apply G_tok]|]. constructor. Qed.

Lemma production_13 ts w : Forall fine w -> seq_ok [NT 6; T 6; NT 39] ts w -> sym_ok (NT 6) (Node 13 ts) w.
Proof. intros _ H. unpack. hnf. eexists. split; [evaluate; reflexivity|]. eapply (G_nth (GAdditiveExpression) 2); [reflexivity|]. cbn [projT1 projT2]. eapply (G_cons (ty (GAdditiveExpression))); [first [eassumption|apply G_tok]|]. eapply (G_cons (ty (GAdditiveExpression))); [first [eassumption|apply G_tok]|]. eapply (G_cons (ty (GAdditiveExpression))); [first [eassumption|apply G_tok]|]. constructor. Qed.

Lemma production_14 ts w : Forall fine w -> seq_ok [NT 6; T 77; NT 39] ts w -> sym_ok (NT 6) (Node 14 ts) w.
Proof. intros _ H. unpack. hnf. eexists. split; [evaluate; reflexivity|]. eapply (G_nth (GAdditiveExpression) 3); [reflexivity|]. cbn [projT1 projT2]. eapply (G_cons (ty (GAdditiveExpression))); [first [eassumption|apply G_tok]|]. eapply (G_cons (ty (GAdditiveExpression))); [first [eassumption|apply G_tok]|]. eapply (G_cons (ty (GAdditiveExpression))); [first [eassumption|apply G_tok]|]. constructor. Qed.

Lemma production_15 ts w : Forall fine w -> seq_ok [NT 40] ts w -> sym_ok (NT 7) (Node 15 ts) w.
Proof. intros _ H. unpack. hnf. eexists. split; [evaluate; reflexivity|]. eapply (G_nth (GAndExpression) 0); [reflexivity|]. cbn [projT1 projT2]. eapply (G_cons (ty (GAndExpression))); [first [eassumption|apply G_tok]|]. constructor. Qed.

Lemma production_16 ts w : Forall fine w -> seq_ok [NT 7; T 15; NT 40] ts w -> sym_ok (NT 7) (Node 16 ts) w.
Proof. intros _ H. unpack. hnf. eexists. split; [evaluate; reflexivity|]. eapply (G_nth (GAndExpression) 1); [reflexivity|]. cbn [projT1 projT2]. eapply (G_cons (ty (GAndExpression))); [first [eassumption|apply G_tok]|]. eapply (G_cons (ty (GAndExpression))); [first [eassumption|apply G_tok]|]. eapply (G_cons (ty (GAndExpression))); [first [eassumption|apply G_tok]|]. constructor. Qed.

Lemma production_17 ts w : Forall fine w -> seq_ok [NT 30; T 11; NT 23] ts w -> sym_ok (NT 8) (Node 17 ts) w.
Proof. intros _ H. unpack. hnf. eexists. split; [evaluate; reflexivity|]. eapply (G_nth (GAssignment) 0); [reflexivity|]. cbn [projT1 projT2]. eapply (G_cons (ty (GAssignment))); [first [eassumption|apply G_tok]|]. eapply (G_cons (ty (GAssignment))); [first [eassumption|apply G_tok]|]. eapply (G_cons (ty (GAssignment))); [first [eassumption|apply G_tok]|]. constructor. Qed.

Lemma production_18 ts w : Forall fine w -> seq_ok [NT 8] ts w -> sym_ok (NT 9) (Node 18 ts) w.
Proof. intros _ H. unpack. hnf. eexists. split; [evaluate; reflexivity|]. eapply (G_nth (GAssignments) 0); [reflexivity|]. cbn [projT1 projT2]. eapply (G_cons (ty (GAssignments))); [first [eassumption|apply G_tok]|]. constructor. Qed.

Lemma production_19 ts w : Forall fine w -> seq_ok [NT 9; T 5; NT 8] ts w -> sym_ok (NT 9) (Node 19 ts) w.
Proof. intros _ H. unpack. hnf. eexists. split; [evaluate; reflexivity|]. eapply (G_nth (GAssignments) 1); [reflexivity|]. cbn [projT1 projT2]. eapply (G_cons (ty (GAssignments))); [first [eassumption|apply G_tok]|]. eapply (G_cons (ty (GAssignments))); [first [eassumption|apply G_tok]|]. eapply (G_cons (ty (GAssignments))); [first [eassumption|apply G_tok]|]. constructor. Qed.

Lemma production_20 ts w : Forall fine w -> seq_ok [T 18; T 36; NT 63; T 16; NT 55; NT 29] ts w -> sym_ok (NT 10) (Node 20 ts) w.
Proof. intros _ H. unpack. hnf. eexists. split; [evaluate; reflexivity|]. eapply (G_nth (GAttachStatement) 0); [reflexivity|]. cbn [projT1 projT2]. eapply (G_cons (ty (GAttachStatement))); [first [eassumption|apply G_tok]|]. eapply (G_cons (ty (GAttachStatement))); [first [eassumption|apply G_tok]|]. eapply (G_cons (ty (GAttachStatement))); [first [eassumption|apply G_tok]|]. eapply (G_cons (ty (GAttachStatement))); [first [eassumption|apply G_tok]|]. eapply G_some; [first [eassumption|apply G_tok]|]. eapply (G_cons (ty (GAttachStatement))); [first [eassumption|apply G_tok]|]. constructor. Qed.

Lemma production_21 ts w : Forall fine w -> seq_ok [T 18; T 36; NT 63; T 16; NT 29] ts w -> sym_ok (NT 10) (Node 21 ts) w.
Proof. intros _ H. unpack. hnf. eexists. split; [evaluate; reflexivity|]. eapply (G_nth (GAttachStatement) 0); [reflexivity|]. cbn [projT1 projT2]. eapply (G_cons (ty (GAttachStatement))); [first [eassumption|apply G_tok]|]. eapply (G_cons (ty (GAttachStatement))); [first [eassumption|apply G_tok]|]. eapply (G_cons (ty (GAttachStatement))); [first [eassumption|apply G_tok]|]. eapply (G_cons (ty (GAttachStatement))); [first [eassumption|apply G_tok]|]. apply G_none. eapply (G_cons (ty (GAttachStatement))); [first [eassumption|apply G_tok]|]. constructor. Qed.

Lemma production_22 ts w : Forall fine w -> seq_ok [T 21; NT 23; NT 76; NT 21; T 33] ts w -> sym_ok (NT 11) (Node 22 ts) w.
Proof. intros _ H. unpack. hnf. eexists. split; [evaluate; reflexivity|]. eapply (G_nth (GCaseExpression) 0); [reflexivity|]. cbn [projT1 projT2]. eapply (G_cons (ty (GCaseExpression))); [first [eassumption|apply G_tok]|]. eapply G_some; [first [eassumption|apply G_tok]|]. eapply (G_cons (ty (GCaseExpression))); [first [eassumption|apply G_tok]|]. eapply G_some; [first [eassumption|apply G_tok]|]. eapply (G_cons (ty (GCaseExpression))); [first [eassumption|apply G_tok]|]. constructor. Qed.

Lemma production_23 ts w : Forall fine w -> seq_ok [T 21; NT 76; NT 21; T 33] ts w -> sym_ok (NT 11) (Node 23 ts) w.
Proof. intros _ H. unpack. hnf. eexists. split; [evaluate; reflexivity|]. eapply (G_nth (GCaseExpression) 0); [reflexivity|]. cbn [projT1 projT2]. eapply (G_cons (ty (GCaseExpression))); [first [eassumption|apply G_tok]|]. apply G_none. eapply (G_cons (ty (GCaseExpression))); [first [eassumption|apply G_tok]|]. eapply G_some; [first [eassumption|apply G_tok]|]. eapply (G_cons (ty (GCaseExpression))); [first [eassumption|apply G_tok]|]. constructor. Qed.

Lemma production_24 ts w : Forall fine w -> seq_ok [T 21; NT 23; NT 76; T 33] ts w -> sym_ok (NT 11) (Node 24 ts) w.
Proof. intros _ H. unpack. hnf. eexists. split; [evaluate; reflexivity|]. eapply (G_nth (GCaseExpression) 0); [reflexivity|]. cbn [projT1 projT2]. eapply (G_cons (ty (GCaseExpression))); [first [eassumption|apply G_tok]|]. eapply G_some; [first [eassumption|apply G_tok]|]. eapply (G_cons (ty (GCaseExpression))); [first [eassumption|apply G_tok]|]. apply G_none. eapply (G_cons (ty (GCaseExpression))); [first [eassumption|apply G_tok]|]. constructor. Qed.

Lemma production_25 ts w : Forall fine w -> seq_ok [T 21; NT 76; T 33] ts w -> sym_ok (NT 11) (Node 25 ts) w.
Proof. intros _ H. unpack. hnf. eexists. split; [evaluate; reflexivity|]. eapply (G_nth (GCaseExpression) 0); [reflexivity|]. cbn [projT1 projT2]. eapply (G_cons (ty (GCaseExpression))); [first [eassumption|apply G_tok]|]. apply G_none. eapply (G_cons (ty (GCaseExpression))); [first [eassumption|apply G_tok]|]. apply G_none. eapply (G_cons (ty (GCaseExpression))); [first [eassumption|apply G_tok]|]. constructor. Qed.

Lemma production_26 ts w : Forall fine w -> seq_ok [T 1; NT 30; T 2] ts w -> sym_ok (NT 12) (Node 26 ts) w.
Proof. intros _ H. unpack. hnf. eexists. split; [evaluate; reflexivity|]. eapply (G_nth (GColumnNameList) 0); [reflexivity|]. cbn [projT1 projT2]. eapply (G_cons (ty (GColumnNameList))); [first [eassumption|apply G_tok]|]. eapply (G_cons (ty (GColumnNameList))); [first [eassumption|apply G_tok]|]. eapply (G_cons (ty (GColumnNameList))); [first [eassumption|apply G_tok]|]. constructor. Qed.

Lemma production_27 ts w : Forall fine w -> seq_ok [NT 12] ts w -> sym_ok (NT 13) (Node 27 ts) w.
Proof. intros _ H. unpack. hnf. eexists. split; [evaluate; reflexivity|]. eapply (G_nth (Opt GColumnNameList) 1); [reflexivity|]. cbn [projT1 projT2]. eapply (G_cons (ty (Opt GColumnNameList))); [first [eassumption|apply G_tok]|]. constructor. Qed.

Lemma production_28 ts w : Forall fine w -> seq_ok [] ts w -> sym_ok (NT 13) (Node 28 ts) w.
Proof. intros _ H. unpack. hnf. eexists. split; [evaluate; reflexivity|]. eapply (G_nth (Opt GColumnNameList) 0); [reflexivity|]. cbn [projT1 projT2]. constructor. Qed.

Lemma production_29 ts w : Forall fine w -> seq_ok [NT 29; T 16; T 1; NT 60; T 2] ts w -> sym_ok (NT 14) (Node 29 ts) w.
Proof. intros _ H. unpack. hnf. eexists. split; [evaluate; reflexivity|]. eapply (G_nth (GCommonTableExpression) 0); [reflexivity|]. cbn [projT1 projT2]. eapply (G_cons (ty (GCommonTableExpression))); [first [eassumption|apply G_tok]|]. eapply (G_cons (ty (GCommonTableExpression))); [first [eassumption|apply G_tok]|]. eapply (G_cons (ty (GCommonTableExpression))); [first [eassumption|apply G_tok]|]. eapply (G_cons (ty (GCommonTableExpression))); [first [eassumption|apply G_tok]|]. eapply (G_cons (ty (GCommonTableExpression))); [first [eassumption|apply G_tok]|]. constructor. Qed.

Lemma production_30 ts w : Forall fine w -> seq_ok [NT 29; T 1; NT 30; T 2; T 16; T 1; NT 60; T 2] ts w -> sym_ok (NT 14) (Node 30 ts) w.
Proof. intros _ H. unpack. hnf. eexists. split; [evaluate; reflexivity|]. eapply (G_nth (GCommonTableExpression) 1); [reflexivity|]. cbn [projT1 projT2]. eapply (G_cons (ty (GCommonTableExpression))); [first [eassumption|apply G_tok]|]. eapply (G_cons (ty (GCommonTableExpression))); [first [eassumption|apply G_tok]|]. eapply (G_cons (ty (GCommonTableExpression))); [first [eassumption|apply G_tok]|]. eapply (G_cons (ty (GCommonTableExpression))); [first [eassumption|apply G_tok]|]. eapply (G_cons (ty (GCommonTableExpression))); [first [eassumption|apply G_tok]|]. eapply (G_cons (ty (GCommonTableExpression))); [first [eassumption|apply G_tok]|]. eapply (G_cons (ty (GCommonTableExpression))); [first [eassumption|apply G_tok]|]. eapply (G_cons (ty (GCommonTableExpression))); [first [eassumption|apply G_tok]|]. constructor. Qed.

Lemma production_31 ts w : Forall fine w -> seq_ok [NT 14] ts w -> sym_ok (NT 15) (Node 31 ts) w.
Proof. intros _ H. unpack. hnf. eexists. split; [evaluate; reflexivity|]. eapply (G_nth (GCommonTableExpressionList) 0); [reflexivity|]. cbn [projT1 projT2]. eapply (G_cons (ty (GCommonTableExpressionList))); [first [eassumption|apply G_tok]|]. constructor. Qed.

Lemma production_32 ts w : Forall fine w -> seq_ok [NT 15; T 5; NT 14] ts w -> sym_ok (NT 15) (Node 32 ts) w.
Proof. intros _ H. unpack. hnf. eexists. split; [evaluate; reflexivity|]. eapply (G_nth (GCommonTableExpressionList) 1); [reflexivity|]. cbn [projT1 projT2]. eapply (G_cons (ty (GCommonTableExpressionList))); [first [eassumption|apply G_tok]|]. eapply (G_cons (ty (GCommonTableExpressionList))); [first [eassumption|apply G_tok]|]. eapply (G_cons (ty (GCommonTableExpressionList))); [first [eassumption|apply G_tok]|]. constructor. Qed.

Lemma production_33 ts w : Forall fine w -> seq_ok [NT 6] ts w -> sym_ok (NT 16) (Node 33 ts) w.
Proof. intros _ H. unpack. hnf. eexists. split; [evaluate; reflexivity|]. eapply (G_nth (GComparativeExpression) 0); [reflexivity|]. cbn [projT1 projT2]. eapply (G_cons (ty (GComparativeExpression))); [first [eassumption|apply G_tok]|]. constructor. Qed.

Lemma production_34 ts w : Forall fine w -> seq_ok [NT 16; T 11; NT 6] ts w -> sym_ok (NT 16) (Node 34 ts) w.
Proof. intros _ H. unpack. hnf. eexists. split; [evaluate; reflexivity|]. eapply (G_nth (GComparativeExpression) 1); [reflexivity|]. cbn [projT1 projT2]. eapply (G_cons (ty (GComparativeExpression))); [first [eassumption|apply G_tok]|]. eapply (G_cons (ty (GComparativeExpression))); [first [eassumption|apply G_tok]|]. eapply (G_cons (ty (GComparativeExpression))); [first [eassumption|apply G_tok]|]. constructor. Qed.

Lemma production_35 ts w : Forall fine w -> seq_ok [NT 16; T 0; NT 6] ts w -> sym_ok (NT 16) (Node 35 ts) w.
Proof. intros _ H. unpack. hnf. eexists. split; [evaluate; reflexivity|]. eapply (G_nth (GComparativeExpression) 2); [reflexivity|]. cbn [projT1 projT2]. eapply (G_cons (ty (GComparativeExpression))); [first [eassumption|apply G_tok]|]. eapply (G_cons (ty (GComparativeExpression))); [first [eassumption|apply G_tok]|]. eapply (G_cons (ty (GComparativeExpression))); [first [eassumption|apply G_tok]|]. constructor. Qed.

Lemma production_36 ts w : Forall fine w -> seq_ok [NT 16; T 9; NT 6] ts w -> sym_ok (NT 16) (Node 36 ts) w.
Proof. intros _ H. unpack. hnf. eexists. split; [evaluate; reflexivity|]. eapply (G_nth (GComparativeExpression) 3); [reflexivity|]. cbn [projT1 projT2]. eapply (G_cons (ty (GComparativeExpression))); [first [eassumption|apply G_tok]|]. eapply (G_cons (ty (GComparativeExpression))); [first [eassumption|apply G_tok]|]. eapply (G_cons (ty (GComparativeExpression))); [first [eassumption|apply G_tok]|]. constructor. Qed.

Lemma production_37 ts w : Forall fine w -> seq_ok [NT 16; T 12; NT 6] ts w -> sym_ok (NT 16) (Node 37 ts) w.
Proof. intros _ H. unpack. hnf. eexists. split; [evaluate; reflexivity|]. eapply (G_nth (GComparativeExpression) 4); [reflexivity|]. cbn [projT1 projT2]. eapply (G_cons (ty (GComparativeExpression))); [first [eassumption|apply G_tok]|]. eapply (G_cons (ty (GComparativeExpression))); [first [eassumption|apply G_tok]|]. eapply (G_cons (ty (GComparativeExpression))); [first [eassumption|apply G_tok]|]. constructor. Qed.

Lemma production_38 ts w : Forall fine w -> seq_ok [NT 16; T 10; NT 6] ts w -> sym_ok (NT 16) (Node 38 ts) w.
Proof. intros _ H. unpack. hnf. eexists. split; [evaluate; reflexivity|]. eapply (G_nth (GComparativeExpression) 5); [reflexivity|]. cbn [projT1 projT2]. eapply (G_cons (ty (GComparativeExpression))); [first [eassumption|apply G_tok]|]. eapply (G_cons (ty (GComparativeExpression))); [first [eassumption|apply G_tok]|]. eapply (G_cons (ty (GComparativeExpression))); [first [eassumption|apply G_tok]|]. constructor. Qed.

Lemma production_39 ts w : Forall fine w -> seq_ok [NT 16; T 13; NT 6] ts w -> sym_ok (NT 16) (Node 39 ts) w.
Proof. intros _ H. unpack. hnf. eexists. split; [evaluate; reflexivity|]. eapply (G_nth (GComparativeExpression) 6); [reflexivity|]. cbn [projT1 projT2]. eapply (G_cons (ty (GComparativeExpression))); [first [eassumption|apply G_tok]|]. eapply (G_cons (ty (GComparativeExpression))); [first [eassumption|apply G_tok]|]. eapply (G_cons (ty (GComparativeExpression))); [first [eassumption|apply G_tok]|]. constructor. Qed.

Lemma production_40 ts w : Forall fine w -> seq_ok [NT 16; T 46; T 55] ts w -> sym_ok (NT 16) (Node 40 ts) w.
Proof. intros _ H. unpack. hnf. eexists. split; [evaluate; reflexivity|]. eapply (G_nth (GComparativeExpression) 7); [reflexivity|]. cbn [projT1 projT2]. eapply (G_cons (ty (GComparativeExpression))); [first [eassumption|apply G_tok]|]. eapply (G_cons (ty (GComparativeExpression))); [first [eassumption|apply G_tok]|]. eapply (G_cons (ty (GComparativeExpression))); [first [eassumption|apply G_tok]|]. constructor. Qed.

Lemma production_41 ts w : Forall fine w -> seq_ok [NT 16; T 46; T 53; T 55] ts w -> sym_ok (NT 16) (Node 41 ts) w.
Proof. intros _ H. unpack. hnf. eexists. split; [evaluate; reflexivity|]. eapply (G_nth (GComparativeExpression) 8); [reflexivity|]. cbn [projT1 projT2]. eapply (G_cons (ty (GComparativeExpression))); [first [eassumption|apply G_tok]|]. eapply (G_cons (ty (GComparativeExpression))); [first [eassumption|apply G_tok]|]. eapply (G_cons (ty (GComparativeExpression))); [first [eassumption|apply G_tok]|]. eapply (G_cons (ty (GComparativeExpression))); [first [eassumption|apply G_tok]|]. constructor. Qed.

Lemma production_42 ts w : Forall fine w -> seq_ok [NT 16; T 50; NT 6] ts w -> sym_ok (NT 16) (Node 42 ts) w.
Proof. intros _ H. unpack. hnf. eexists. split; [evaluate; reflexivity|]. eapply (G_nth (GComparativeExpression) 9); [reflexivity|]. cbn [projT1 projT2]. eapply (G_cons (ty (GComparativeExpression))); [first [eassumption|apply G_tok]|]. eapply (G_cons (ty (GComparativeExpression))); [first [eassumption|apply G_tok]|]. eapply (G_cons (ty (GComparativeExpression))); [first [eassumption|apply G_tok]|]. constructor. Qed.

Lemma production_43 ts w : Forall fine w -> seq_ok [NT 16; T 47] ts w -> sym_ok (NT 16) (Node 43 ts) w.
Proof. intros _ H. unpack. hnf. eexists. split; [evaluate; reflexivity|]. eapply (G_nth (GComparativeExpression) 10); [reflexivity|]. cbn [projT1 projT2]. eapply (G_cons (ty (GComparativeExpression))); [first [eassumption|apply G_tok]|]. eapply (G_cons (ty (GComparativeExpression))); [first [eassumption|apply G_tok]|]. constructor. Qed.

Lemma production_44 ts w : Forall fine w -> seq_ok [NT 16; T 54] ts w -> sym_ok (NT 16) (Node 44 ts) w.
Proof. intros _ H. unpack. hnf. eexists. split; [evaluate; reflexivity|]. eapply (G_nth (GComparativeExpression) 11); [reflexivity|]. cbn [projT1 projT2]. eapply (G_cons (ty (GComparativeExpression))); [first [eassumption|apply G_tok]|]. eapply (G_cons (ty (GComparativeExpression))); [first [eassumption|apply G_tok]|]. constructor. Qed.

Lemma production_45 ts w : Forall fine w -> seq_ok [NT 16; T 53; T 55] ts w -> sym_ok (NT 16) (Node 45 ts) w.
Proof. intros _ H. unpack. hnf. eexists. split; [evaluate; reflexivity|]. eapply (G_nth (GComparativeExpression) 12); [reflexivity|]. cbn [projT1 projT2]. eapply (G_cons (ty (GComparativeExpression))); [first [eassumption|apply G_tok]|]. eapply (G_cons (ty (GComparativeExpression))); [first [eassumption|apply G_tok]|]. eapply (G_cons (ty (GComparativeExpression))); [first [eassumption|apply G_tok]|]. constructor. Qed.

Lemma production_46 ts w : Forall fine w -> seq_ok [NT 16; T 41; T 1; T 2] ts w -> sym_ok (NT 16) (Node 46 ts) w.
Proof. intros _ H. unpack. hnf. eexists. split; [evaluate; reflexivity|]. eapply (G_nth (GComparativeExpression) 13); [reflexivity|]. cbn [projT1 projT2]. eapply (G_cons (ty (GComparativeExpression))); [first [eassumption|apply G_tok]|]. eapply (G_cons (ty (GComparativeExpression))); [first [eassumption|apply G_tok]|]. eapply (G_cons (ty (GComparativeExpression))); [first [eassumption|apply G_tok]|]. eapply (G_cons (ty (GComparativeExpression))); [first [eassumption|apply G_tok]|]. constructor. Qed.

Lemma production_47 ts w : Forall fine w -> seq_ok [NT 16; T 53; T 41; T 1; T 2] ts w -> sym_ok (NT 16) (Node 47 ts) w.
Proof. intros _ H. unpack. hnf. eexists. split; [evaluate; reflexivity|]. eapply (G_nth (GComparativeExpression) 14); [reflexivity|]. cbn [projT1 projT2]. eapply (G_cons (ty (GComparativeExpression))); [first [eassumption|apply G_tok]|]. eapply (G_cons (ty (GComparativeExpression))); [first [eassumption|apply G_tok]|]. eapply (G_cons (ty (GComparativeExpression))); [first [eassumption|apply G_tok]|]. eapply (G_cons (ty (GComparativeExpression))); [first [eassumption|apply G_tok]|]. eapply (G_cons (ty (GComparativeExpression))); [first [eassumption|apply G_tok]|]. constructor. Qed.

Lemma production_48 ts w : Forall fine w -> seq_ok [NT 16; T 41; T 1; NT 25; T 2] ts w -> sym_ok (NT 16) (Node 48 ts) w.
Proof. intros _ H. unpack. hnf. eexists. split; [evaluate; reflexivity|]. eapply (G_nth (GComparativeExpression) 15); [reflexivity|]. cbn [projT1 projT2]. eapply (G_cons (ty (GComparativeExpression))); [first [eassumption|apply G_tok]|]. eapply (G_cons (ty (GComparativeExpression))); [first [eassumption|apply G_tok]|]. eapply (G_cons (ty (GComparativeExpression))); [first [eassumption|apply G_tok]|]. eapply (G_cons (ty (GComparativeExpression))); [first [eassumption|apply G_tok]|]. eapply (G_cons (ty (GComparativeExpression))); [first [eassumption|apply G_tok]|]. constructor. Qed.

Lemma production_49 ts w : Forall fine w -> seq_ok [NT 16; T 53; T 41; T 1; NT 25; T 2] ts w -> sym_ok (NT 16) (Node 49 ts) w.
Proof. intros _ H. unpack. hnf. eexists. split; [evaluate; reflexivity|]. eapply (G_nth (GComparativeExpression) 16); [reflexivity|]. cbn [projT1 projT2]. eapply (G_cons (ty (GComparativeExpression))); [first [eassumption|apply G_tok]|]. eapply (G_cons (ty (GComparativeExpression))); [first [eassumption|apply G_tok]|]. eapply (G_cons (ty (GComparativeExpression))); [first [eassumption|apply G_tok]|]. eapply (G_cons (ty (GComparativeExpression))); [first [eassumption|apply G_tok]|]. eapply (G_cons (ty (GComparativeExpression))); [first [eassumption|apply G_tok]|]. eapply (G_cons (ty (GComparativeExpression))); [first [eassumption|apply G_tok]|]. constructor. Qed.

Lemma production_50 ts w : Forall fine w -> seq_ok [NT 16; T 41; T 1; NT 60; T 2] ts w -> sym_ok (NT 16) (Node 50 ts) w.
Proof. intros _ H. unpack. hnf. eexists. split; [evaluate; reflexivity|]. eapply (G_nth (GComparativeExpression) 17); [reflexivity|]. cbn [projT1 projT2]. eapply (G_cons (ty (GComparativeExpression))); [first [eassumption|apply G_tok]|]. eapply (G_cons (ty (GComparativeExpression))); [first [eassumption|apply G_tok]|]. eapply (G_cons (ty (GComparativeExpression))); [first [eassumption|apply G_tok]|]. eapply (G_cons (ty (GComparativeExpression))); [first [eassumption|apply G_tok]|]. eapply (G_cons (ty (GComparativeExpression))); [first [eassumption|apply G_tok]|]. constructor. Qed.

Lemma production_51 ts w : Forall fine w -> seq_ok [NT 16; T 53; T 41; T 1; NT 60; T 2] ts w -> sym_ok (NT 16) (Node 51 ts) w.
Proof. intros _ H. unpack. hnf. eexists. split; [evaluate; reflexivity|]. eapply (G_nth (GComparativeExpression) 18); [reflexivity|]. cbn [projT1 projT2]. eapply (G_cons (ty (GComparativeExpression))); [first [eassumption|apply G_tok]|]. eapply (G_cons (ty (GComparativeExpression))); [first [eassumption|apply G_tok]|]. eapply (G_cons (ty (GComparativeExpression))); [first [eassumption|apply G_tok]|]. eapply (G_cons (ty (GComparativeExpression))); [first [eassumption|apply G_tok]|]. eapply (G_cons (ty (GComparativeExpression))); [first [eassumption|apply G_tok]|]. eapply (G_cons (ty (GComparativeExpression))); [first [eassumption|apply G_tok]|]. constructor. Qed.

Lemma production_52 ts w : Forall fine w -> seq_ok [NT 16; T 41; NT 51] ts w -> sym_ok (NT 16) (Node 52 ts) w.
Proof. intros _ H. unpack. hnf. eexists. split; [evaluate; reflexivity|]. eapply (G_nth (GComparativeExpression) 19); [reflexivity|]. cbn [projT1 projT2]. eapply (G_cons (ty (GComparativeExpression))); [first [eassumption|apply G_tok]|]. eapply (G_cons (ty (GComparativeExpression))); [first [eassumption|apply G_tok]|]. eapply (G_cons (ty (GComparativeExpression))); [first [eassumption|apply G_tok]|]. constructor. Qed.

Lemma production_53 ts w : Forall fine w -> seq_ok [NT 16; T 53; T 41; NT 51] ts w -> sym_ok (NT 16) (Node 53 ts) w.
Proof. intros _ H. unpack. hnf. eexists. split; [evaluate; reflexivity|]. eapply (G_nth (GComparativeExpression) 20); [reflexivity|]. cbn [projT1 projT2]. eapply (G_cons (ty (GComparativeExpression))); [first [eassumption|apply G_tok]|]. eapply (G_cons (ty (GComparativeExpression))); [first [eassumption|apply G_tok]|]. eapply (G_cons (ty (GComparativeExpression))); [first [eassumption|apply G_tok]|]. eapply (G_cons (ty (GComparativeExpression))); [first [eassumption|apply G_tok]|]. constructor. Qed.

Lemma production_54 ts w : Forall fine w -> seq_ok [NT 16; T 19; NT 6; T 15; NT 6] ts w -> sym_ok (NT 16) (Node 54 ts) w.
Proof. intros _ H. unpack. hnf. eexists. split; [evaluate; reflexivity|]. eapply (G_nth (GComparativeExpression) 21); [reflexivity|]. cbn [projT1 projT2]. eapply (G_cons (ty (GComparativeExpression))); [first [eassumption|apply G_tok]|]. eapply (G_cons (ty (GComparativeExpression))); [first [eassumption|apply G_tok]|]. eapply (G_cons (ty (GComparativeExpression))); [first [eassumption|apply G_tok]|]. eapply (G_cons (ty (GComparativeExpression))); [first [eassumption|apply G_tok]|]. eapply (G_cons (ty (GComparativeExpression))); [first [eassumption|apply G_tok]|]. constructor. Qed.

Lemma production_55 ts w : Forall fine w -> seq_ok [NT 16; T 53; T 19; NT 6; T 15; NT 6] ts w -> sym_ok (NT 16) (Node 55 ts) w.
Proof. intros _ H. unpack. hnf. eexists. split; [evaluate; reflexivity|]. eapply (G_nth (GComparativeExpression) 22); [reflexivity|]. cbn [projT1 projT2]. eapply (G_cons (ty (GComparativeExpression))); [first [eassumption|apply G_tok]|]. eapply (G_cons (ty (GComparativeExpression))); [first [eassumption|apply G_tok]|]. eapply (G_cons (ty (GComparativeExpression))); [first [eassumption|apply G_tok]|]. eapply (G_cons (ty (GComparativeExpression))); [first [eassumption|apply G_tok]|]. eapply (G_cons (ty (GComparativeExpression))); [first [eassumption|apply G_tok]|]. eapply (G_cons (ty (GComparativeExpression))); [first [eassumption|apply G_tok]|]. constructor. Qed.

Lemma production_56 ts w : Forall fine w -> seq_ok [NT 16] ts w -> sym_ok (NT 17) (Node 56 ts) w.
Proof. intros _ H. unpack. hnf. eexists. split; [evaluate; reflexivity|]. eapply (G_nth (GComplexExpression) 0); [reflexivity|]. cbn [projT1 projT2]. eapply (G_cons (ty (GComplexExpression))); [first [eassumption|apply G_tok]|]. constructor. Qed.

Lemma production_57 ts w : Forall fine w -> seq_ok [NT 11] ts w -> sym_ok (NT 17) (Node 57 ts) w.
Proof. intros _ H. unpack. hnf. eexists. split; [evaluate; reflexivity|]. eapply (G_nth (GComplexExpression) 1); [reflexivity|]. cbn [projT1 projT2]. eapply (G_cons (ty (GComplexExpression))); [first [eassumption|apply G_tok]|]. constructor. Qed.

Lemma production_58 ts w : Forall fine w -> seq_ok [T 70] ts w -> sym_ok (NT 18) (Node 58 ts) w.
Proof. intros _ H. unpack. hnf. eexists. split; [evaluate; reflexivity|]. eapply (G_nth (GCompoundOperator) 0); [reflexivity|]. cbn [projT1 projT2]. eapply (G_cons (ty (GCompoundOperator))); [first [eassumption|apply G_tok]|]. constructor. Qed.

Lemma production_59 ts w : Forall fine w -> seq_ok [T 70; T 14] ts w -> sym_ok (NT 18) (Node 59 ts) w.
Proof. intros _ H. unpack. hnf. eexists. split; [evaluate; reflexivity|]. eapply (G_nth (GCompoundOperator) 1); [reflexivity|]. cbn [projT1 projT2]. eapply (G_cons (ty (GCompoundOperator))); [first [eassumption|apply G_tok]|]. eapply (G_cons (ty (GCompoundOperator))); [first [eassumption|apply G_tok]|]. constructor. Qed.

Lemma production_60 ts w : Forall fine w -> seq_ok [T 44] ts w -> sym_ok (NT 18) (Node 60 ts) w.
Proof. intros _ H. unpack. hnf. eexists. split; [evaluate; reflexivity|]. eapply (G_nth (GCompoundOperator) 2); [reflexivity|]. cbn [projT1 projT2]. eapply (G_cons (ty (GCompoundOperator))); [first [eassumption|apply G_tok]|]. constructor. Qed.

Lemma production_61 ts w : Forall fine w -> seq_ok [T 34] ts w -> sym_ok (NT 18) (Node 61 ts) w.
Proof. intros _ H. unpack. hnf. eexists. split; [evaluate; reflexivity|]. eapply (G_nth (GCompoundOperator) 3); [reflexivity|]. cbn [projT1 projT2]. eapply (G_cons (ty (GCompoundOperator))); [first [eassumption|apply G_tok]|]. constructor. Qed.

Lemma production_62 ts w : Forall fine w -> seq_ok [NT 68; T 28; T 37; NT 51; NT 77] ts w -> sym_ok (NT 19) (Node 62 ts) w.
Proof. intros _ H. unpack. hnf. eexists. split; [evaluate; reflexivity|]. eapply (G_nth (GDeleteStatement) 0); [reflexivity|]. cbn [projT1 projT2]. eapply G_some; [first [eassumption|apply G_tok]|]. eapply (G_cons (ty (GDeleteStatement))); [first [eassumption|apply G_tok]|]. eapply (G_cons (ty (GDeleteStatement))); [first [eassumption|apply G_tok]|]. eapply (G_cons (ty (GDeleteStatement))); [first [eassumption|apply G_tok]|]. eapply G_some; [first [eassumption|apply G_tok]|]. constructor. Qed.

Lemma production_63 ts w : Forall fine w -> seq_ok [NT 68; T 28; T 37; NT 51] ts w -> sym_ok (NT 19) (Node 63 ts) w.
Proof. intros _ H. unpack. hnf. eexists. split; [evaluate; reflexivity|]. eapply (G_nth (GDeleteStatement) 0); [reflexivity|]. cbn [projT1 projT2]. eapply G_some; [first [eassumption|apply G_tok]|]. eapply (G_cons (ty (GDeleteStatement))); [first [eassumption|apply G_tok]|]. eapply (G_cons (ty (GDeleteStatement))); [first [eassumption|apply G_tok]|]. eapply (G_cons (ty (GDeleteStatement))); [first [eassumption|apply G_tok]|]. apply G_none. constructor. Qed.

Lemma production_64 ts w : Forall fine w -> seq_ok [T 28; T 37; NT 51; NT 77] ts w -> sym_ok (NT 19) (Node 64 ts) w.
Proof. intros _ H. unpack. hnf. eexists. split; [evaluate; reflexivity|]. eapply (G_nth (GDeleteStatement) 0); [reflexivity|]. cbn [projT1 projT2]. apply G_none. eapply (G_cons (ty (GDeleteStatement))); [first [eassumption|apply G_tok]|]. eapply (G_cons (ty (GDeleteStatement))); [first [eassumption|apply G_tok]|]. eapply (G_cons (ty (GDeleteStatement))); [first [eassumption|apply G_tok]|]. eapply G_some; [first [eassumption|apply G_tok]|]. constructor. Qed.

Lemma production_65 ts w : Forall fine w -> seq_ok [T 28; T 37; NT 51] ts w -> sym_ok (NT 19) (Node 65 ts) w.
Proof. intros _ H. unpack. hnf. eexists. split; [evaluate; reflexivity|]. eapply (G_nth (GDeleteStatement) 0); [reflexivity|]. cbn [projT1 projT2]. apply G_none. eapply (G_cons (ty (GDeleteStatement))); [first [eassumption|apply G_tok]|]. eapply (G_cons (ty (GDeleteStatement))); [first [eassumption|apply G_tok]|]. eapply (G_cons (ty (GDeleteStatement))); [first [eassumption|apply G_tok]|]. apply G_none. constructor. Qed.

Lemma production_66 ts w : Forall fine w -> seq_ok [T 30; NT 55; NT 29] ts w -> sym_ok (NT 20) (Node 66 ts) w.
Proof. intros _ H. unpack. hnf. eexists. split; [evaluate; reflexivity|]. eapply (G_nth (GDescribeStatement) 0); [reflexivity|]. cbn [projT1 projT2]. eapply (G_cons (ty (GDescribeStatement))); [first [eassumption|apply G_tok]|]. eapply G_some; [first [eassumption|apply G_tok]|]. eapply (G_cons (ty (GDescribeStatement))); [first [eassumption|apply G_tok]|]. constructor. Qed.

Lemma production_67 ts w : Forall fine w -> seq_ok [T 30; NT 29] ts w -> sym_ok (NT 20) (Node 67 ts) w.
Proof. intros _ H. unpack. hnf. eexists. split; [evaluate; reflexivity|]. eapply (G_nth (GDescribeStatement) 0); [reflexivity|]. cbn [projT1 projT2]. eapply (G_cons (ty (GDescribeStatement))); [first [eassumption|apply G_tok]|]. apply G_none. eapply (G_cons (ty (GDescribeStatement))); [first [eassumption|apply G_tok]|]. constructor. Qed.

Lemma production_68 ts w : Forall fine w -> seq_ok [T 32; NT 23] ts w -> sym_ok (NT 21) (Node 68 ts) w.
Proof. intros _ H. unpack. hnf. eexists. split; [evaluate; reflexivity|]. eapply (G_nth (GElseClause) 0); [reflexivity|]. cbn [projT1 projT2]. eapply (G_cons (ty (GElseClause))); [first [eassumption|apply G_tok]|]. eapply (G_cons (ty (GElseClause))); [first [eassumption|apply G_tok]|]. constructor. Qed.

Lemma production_69 ts w : Forall fine w -> seq_ok [NT 21] ts w -> sym_ok (NT 22) (Node 69 ts) w.
Proof. intros _ H. unpack. hnf. eexists. split; [evaluate; reflexivity|]. eapply (G_nth (Opt GElseClause) 1); [reflexivity|]. cbn [projT1 projT2]. eapply (G_cons (ty (Opt GElseClause))); [first [eassumption|apply G_tok]|]. constructor. Qed.

Lemma production_70 ts w : Forall fine w -> seq_ok [] ts w -> sym_ok (NT 22) (Node 70 ts) w.
Proof. intros _ H. unpack. hnf. eexists. split; [evaluate; reflexivity|]. eapply (G_nth (Opt GElseClause) 0); [reflexivity|]. cbn [projT1 projT2]. constructor. Qed.

Lemma production_71 ts w : Forall fine w -> seq_ok [NT 42] ts w -> sym_ok (NT 23) (Node 71 ts) w.
Proof. intros _ H. unpack. hnf. eexists. split; [evaluate; reflexivity|]. eapply (G_nth (GExpression) 0); [reflexivity|]. cbn [projT1 projT2]. eapply (G_cons (ty (GExpression))); [first [eassumption|apply G_tok]|]. constructor. Qed.

Lemma production_72 ts w : Forall fine w -> seq_ok [NT 23] ts w -> sym_ok (NT 24) (Node 72 ts) w.
Proof. intros _ H. unpack. hnf. eexists. split; [evaluate; reflexivity|]. eapply (G_nth (Opt GExpression) 1); [reflexivity|]. cbn [projT1 projT2]. eapply (G_cons (ty (Opt GExpression))); [first [eassumption|apply G_tok]|]. constructor. Qed.

Lemma production_73 ts w : Forall fine w -> seq_ok [] ts w -> sym_ok (NT 24) (Node 73 ts) w.
Proof. intros _ H. unpack. hnf. eexists. split; [evaluate; reflexivity|]. eapply (G_nth (Opt GExpression) 0); [reflexivity|]. cbn [projT1 projT2]. constructor. Qed.

Lemma production_74 ts w : Forall fine w -> seq_ok [NT 23] ts w -> sym_ok (NT 25) (Node 74 ts) w.
Proof. intros _ H. unpack. hnf. eexists. split; [evaluate; reflexivity|]. eapply (G_nth (GExpressionList) 0); [reflexivity|]. cbn [projT1 projT2]. eapply (G_cons (ty (GExpressionList))); [first [eassumption|apply G_tok]|]. constructor. Qed.

Lemma production_75 ts w : Forall fine w -> seq_ok [NT 25; T 5; NT 23] ts w -> sym_ok (NT 25) (Node 75 ts) w.
Proof. intros _ H. unpack. hnf. eexists. split; [evaluate; reflexivity|]. eapply (G_nth (GExpressionList) 1); [reflexivity|]. cbn [projT1 projT2]. eapply (G_cons (ty (GExpressionList))); [first [eassumption|apply G_tok]|]. eapply (G_cons (ty (GExpressionList))); [first [eassumption|apply G_tok]|]. eapply (G_cons (ty (GExpressionList))); [first [eassumption|apply G_tok]|]. constructor. Qed.

Lemma production_76 ts w : Forall fine w -> seq_ok [T 37; NT 67] ts w -> sym_ok (NT 26) (Node 76 ts) w.
Proof. intros _ H. unpack. hnf. eexists. split; [evaluate; reflexivity|]. eapply (G_nth (GFromClause) 0); [reflexivity|]. cbn [projT1 projT2]. eapply (G_cons (ty (GFromClause))); [first [eassumption|apply G_tok]|]. eapply (G_cons (ty (GFromClause))); [first [eassumption|apply G_tok]|]. constructor. Qed.

Lemma production_77 ts w : Forall fine w -> seq_ok [T 39; T 20; NT 25] ts w -> sym_ok (NT 27) (Node 77 ts) w.
Proof. intros _ H. unpack. hnf. eexists. split; [evaluate; reflexivity|]. eapply (G_nth (GGroupByClause) 0); [reflexivity|]. cbn [projT1 projT2]. eapply (G_cons (ty (GGroupByClause))); [first [eassumption|apply G_tok]|]. eapply (G_cons (ty (GGroupByClause))); [first [eassumption|apply G_tok]|]. eapply (G_cons (ty (GGroupByClause))); [first [eassumption|apply G_tok]|]. constructor. Qed.

Lemma production_78 ts w : Forall fine w -> seq_ok [T 39; T 20; NT 25; T 40; NT 23] ts w -> sym_ok (NT 27) (Node 78 ts) w.
Proof. intros _ H. unpack. hnf. eexists. split; [evaluate; reflexivity|]. eapply (G_nth (GGroupByClause) 1); [reflexivity|]. cbn [projT1 projT2]. eapply (G_cons (ty (GGroupByClause))); [first [eassumption|apply G_tok]|]. eapply (G_cons (ty (GGroupByClause))); [first [eassumption|apply G_tok]|]. eapply (G_cons (ty (GGroupByClause))); [first [eassumption|apply G_tok]|]. eapply (G_cons (ty (GGroupByClause))); [first [eassumption|apply G_tok]|]. eapply (G_cons (ty (GGroupByClause))); [first [eassumption|apply G_tok]|]. constructor. Qed.

Lemma production_79 ts w : Forall fine w -> seq_ok [NT 27] ts w -> sym_ok (NT 28) (Node 79 ts) w.
Proof. intros _ H. unpack. hnf. eexists. split; [evaluate; reflexivity|]. eapply (G_nth (Opt GGroupByClause) 1); [reflexivity|]. cbn [projT1 projT2]. eapply (G_cons (ty (Opt GGroupByClause))); [first [eassumption|apply G_tok]|]. constructor. Qed.

Lemma production_80 ts w : Forall fine w -> seq_ok [] ts w -> sym_ok (NT 28) (Node 80 ts) w.
Proof. intros _ H. unpack. hnf. eexists. split; [evaluate; reflexivity|]. eapply (G_nth (Opt GGroupByClause) 0); [reflexivity|]. cbn [projT1 projT2]. constructor. Qed.

Lemma production_81 ts w : Forall fine w -> seq_ok [T 79] ts w -> sym_ok (NT 29) (Node 81 ts) w.
Proof. intros _ H. unpack. hnf. eexists. split; [evaluate; reflexivity|]. eapply (G_nth (GIdentifier) 0); [reflexivity|]. cbn [projT1 projT2]. eapply (G_cons (ty (GIdentifier))); [first [eassumption|apply G_tok]|]. constructor. Qed.

Lemma production_82 ts w : Forall fine w -> seq_ok [NT 29] ts w -> sym_ok (NT 30) (Node 82 ts) w.
Proof. intros _ H. unpack. hnf. eexists. split; [evaluate; reflexivity|]. eapply (G_nth (GIdentifierList) 0); [reflexivity|]. cbn [projT1 projT2]. eapply (G_cons (ty (GIdentifierList))); [first [eassumption|apply G_tok]|]. constructor. Qed.

Lemma production_83 ts w : Forall fine w -> seq_ok [NT 30; T 5; NT 29] ts w -> sym_ok (NT 30) (Node 83 ts) w.
Proof. intros _ H. unpack. hnf. eexists. split; [evaluate; reflexivity|]. eapply (G_nth (GIdentifierList) 1); [reflexivity|]. cbn [projT1 projT2]. eapply (G_cons (ty (GIdentifierList))); [first [eassumption|apply G_tok]|]. eapply (G_cons (ty (GIdentifierList))); [first [eassumption|apply G_tok]|]. eapply (G_cons (ty (GIdentifierList))); [first [eassumption|apply G_tok]|]. constructor. Qed.

Lemma production_84 ts w : Forall fine w -> seq_ok [NT 68; T 43; T 45; NT 51; NT 12; NT 57] ts w -> sym_ok (NT 31) (Node 84 ts) w.
Proof. intros _ H. unpack. hnf. eexists. split; [evaluate; reflexivity|]. eapply (G_nth (GInsertStatement) 0); [reflexivity|]. cbn [projT1 projT2]. eapply G_some; [first [eassumption|apply G_tok]|]. eapply (G_cons (ty (GInsertStatement))); [first [eassumption|apply G_tok]|]. eapply (G_cons (ty (GInsertStatement))); [first [eassumption|apply G_tok]|]. eapply (G_cons (ty (GInsertStatement))); [first [eassumption|apply G_tok]|]. eapply G_some; [first [eassumption|apply G_tok]|]. eapply (G_cons (ty (GInsertStatement))); [first [eassumption|apply G_tok]|]. constructor. Qed.

Lemma production_85 ts w : Forall fine w -> seq_ok [T 43; T 45; NT 51; NT 12; NT 57] ts w -> sym_ok (NT 31) (Node 85 ts) w.
Proof. intros _ H. unpack. hnf. eexists. split; [evaluate; reflexivity|]. eapply (G_nth (GInsertStatement) 0); [reflexivity|]. cbn [projT1 projT2]. apply G_none. eapply (G_cons (ty (GInsertStatement))); [first [eassumption|apply G_tok]|]. eapply (G_cons (ty (GInsertStatement))); [first [eassumption|apply G_tok]|]. eapply (G_cons (ty (GInsertStatement))); [first [eassumption|apply G_tok]|]. eapply G_some; [first [eassumption|apply G_tok]|]. eapply (G_cons (ty (GInsertStatement))); [first [eassumption|apply G_tok]|]. constructor. Qed.

Lemma production_86 ts w : Forall fine w -> seq_ok [NT 68; T 43; T 45; NT 51; NT 57] ts w -> sym_ok (NT 31) (Node 86 ts) w.
Proof. intros _ H. unpack. hnf. eexists. split; [evaluate; reflexivity|]. eapply (G_nth (GInsertStatement) 0); [reflexivity|]. cbn [projT1 projT2]. eapply G_some; [first [eassumption|apply G_tok]|]. eapply (G_cons (ty (GInsertStatement))); [first [eassumption|apply G_tok]|]. eapply (G_cons (ty (GInsertStatement))); [first [eassumption|apply G_tok]|]. eapply (G_cons (ty (GInsertStatement))); [first [eassumption|apply G_tok]|]. apply G_none. eapply (G_cons (ty (GInsertStatement))); [first [eassumption|apply G_tok]|]. constructor. Qed.

Lemma production_87 ts w : Forall fine w -> seq_ok [T 43; T 45; NT 51; NT 57] ts w -> sym_ok (NT 31) (Node 87 ts) w.
Proof. intros _ H. unpack. hnf. eexists. split; [evaluate; reflexivity|]. eapply (G_nth (GInsertStatement) 0); [reflexivity|]. cbn [projT1 projT2]. apply G_none. eapply (G_cons (ty (GInsertStatement))); [first [eassumption|apply G_tok]|]. eapply (G_cons (ty (GInsertStatement))); [first [eassumption|apply G_tok]|]. eapply (G_cons (ty (GInsertStatement))); [first [eassumption|apply G_tok]|]. apply G_none. eapply (G_cons (ty (GInsertStatement))); [first [eassumption|apply G_tok]|]. constructor. Qed.

Lemma production_88 ts w : Forall fine w -> seq_ok [T 57; NT 23] ts w -> sym_ok (NT 32) (Node 88 ts) w.
Proof. intros _ H. unpack. hnf. eexists. split; [evaluate; reflexivity|]. eapply (G_nth (GJoinConstraint) 0); [reflexivity|]. cbn [projT1 projT2]. eapply (G_cons (ty (GJoinConstraint))); [first [eassumption|apply G_tok]|]. eapply (G_cons (ty (GJoinConstraint))); [first [eassumption|apply G_tok]|]. constructor. Qed.

Lemma production_89 ts w : Forall fine w -> seq_ok [T 72; T 1; NT 30; T 2] ts w -> sym_ok (NT 32) (Node 89 ts) w.
Proof. intros _ H. unpack. hnf. eexists. split; [evaluate; reflexivity|]. eapply (G_nth (GJoinConstraint) 1); [reflexivity|]. cbn [projT1 projT2]. eapply (G_cons (ty (GJoinConstraint))); [first [eassumption|apply G_tok]|]. eapply (G_cons (ty (GJoinConstraint))); [first [eassumption|apply G_tok]|]. eapply (G_cons (ty (GJoinConstraint))); [first [eassumption|apply G_tok]|]. eapply (G_cons (ty (GJoinConstraint))); [first [eassumption|apply G_tok]|]. constructor. Qed.

Lemma production_90 ts w : Forall fine w -> seq_ok [NT 34; T 48] ts w -> sym_ok (NT 33) (Node 90 ts) w.
Proof. intros _ H. unpack. hnf. eexists. split; [evaluate; reflexivity|]. eapply (G_nth (GJoinOperator) 0); [reflexivity|]. cbn [projT1 projT2]. eapply G_some; [first [eassumption|apply G_tok]|]. eapply (G_cons (ty (GJoinOperator))); [first [eassumption|apply G_tok]|]. constructor. Qed.

Lemma production_91 ts w : Forall fine w -> seq_ok [T 48] ts w -> sym_ok (NT 33) (Node 91 ts) w.
Proof. intros _ H. unpack. hnf. eexists. split; [evaluate; reflexivity|]. eapply (G_nth (GJoinOperator) 0); [reflexivity|]. cbn [projT1 projT2]. apply G_none. eapply (G_cons (ty (GJoinOperator))); [first [eassumption|apply G_tok]|]. constructor. Qed.

Lemma production_92 ts w : Forall fine w -> seq_ok [T 52; NT 34; T 48] ts w -> sym_ok (NT 33) (Node 92 ts) w.
Proof. intros _ H. unpack. hnf. eexists. split; [evaluate; reflexivity|]. eapply (G_nth (GJoinOperator) 1); [reflexivity|]. cbn [projT1 projT2]. eapply (G_cons (ty (GJoinOperator))); [first [eassumption|apply G_tok]|]. eapply G_some; [first [eassumption|apply G_tok]|]. eapply (G_cons (ty (GJoinOperator))); [first [eassumption|apply G_tok]|]. constructor. Qed.

Lemma production_93 ts w : Forall fine w -> seq_ok [T 52; T 48] ts w -> sym_ok (NT 33) (Node 93 ts) w.
Proof. intros _ H. unpack. hnf. eexists. split; [evaluate; reflexivity|]. eapply (G_nth (GJoinOperator) 1); [reflexivity|]. cbn [projT1 projT2]. eapply (G_cons (ty (GJoinOperator))); [first [eassumption|apply G_tok]|]. apply G_none. eapply (G_cons (ty (GJoinOperator))); [first [eassumption|apply G_tok]|]. constructor. Qed.

Lemma production_94 ts w : Forall fine w -> seq_ok [T 23; T 48] ts w -> sym_ok (NT 33) (Node 94 ts) w.
Proof. intros _ H. unpack. hnf. eexists. split; [evaluate; reflexivity|]. eapply (G_nth (GJoinOperator) 2); [reflexivity|]. cbn [projT1 projT2]. eapply (G_cons (ty (GJoinOperator))); [first [eassumption|apply G_tok]|]. eapply (G_cons (ty (GJoinOperator))); [first [eassumption|apply G_tok]|]. constructor. Qed.

Lemma production_95 ts w : Forall fine w -> seq_ok [T 49; T 60] ts w -> sym_ok (NT 34) (Node 95 ts) w.
Proof. intros _ H. unpack. hnf. eexists. split; [evaluate; reflexivity|]. eapply (G_nth (GJoinType) 0); [reflexivity|]. cbn [projT1 projT2]. eapply (G_cons (ty (GJoinType))); [first [eassumption|apply G_tok]|]. eapply G_some; [first [eassumption|apply G_tok]|]. constructor. Qed.

Lemma production_96 ts w : Forall fine w -> seq_ok [T 49] ts w -> sym_ok (NT 34) (Node 96 ts) w.
Proof. intros _ H. unpack. hnf. eexists. split; [evaluate; reflexivity|]. eapply (G_nth (GJoinType) 0); [reflexivity|]. cbn [projT1 projT2]. eapply (G_cons (ty (GJoinType))); [first [eassumption|apply G_tok]|]. apply G_none. constructor. Qed.

Lemma production_97 ts w : Forall fine w -> seq_ok [T 63; T 60] ts w -> sym_ok (NT 34) (Node 97 ts) w.
Proof. intros _ H. unpack. hnf. eexists. split; [evaluate; reflexivity|]. eapply (G_nth (GJoinType) 1); [reflexivity|]. cbn [projT1 projT2]. eapply (G_cons (ty (GJoinType))); [first [eassumption|apply G_tok]|]. eapply G_some; [first [eassumption|apply G_tok]|]. constructor. Qed.

Lemma production_98 ts w : Forall fine w -> seq_ok [T 63] ts w -> sym_ok (NT 34) (Node 98 ts) w.
Proof. intros _ H. unpack. hnf. eexists. split; [evaluate; reflexivity|]. eapply (G_nth (GJoinType) 1); [reflexivity|]. cbn [projT1 projT2]. eapply (G_cons (ty (GJoinType))); [first [eassumption|apply G_tok]|]. apply G_none. constructor. Qed.

Lemma production_99 ts w : Forall fine w -> seq_ok [T 38; T 60] ts w -> sym_ok (NT 34) (Node 99 ts) w.
Proof. intros _ H. unpack. hnf. eexists. split; [evaluate; reflexivity|]. eapply (G_nth (GJoinType) 2); [reflexivity|]. cbn [projT1 projT2]. eapply (G_cons (ty (GJoinType))); [first [eassumption|apply G_tok]|]. eapply G_some; [first [eassumption|apply G_tok]|]. constructor. Qed.

Lemma production_100 ts w : Forall fine w -> seq_ok [T 38] ts w -> sym_ok (NT 34) (Node 100 ts) w.
Proof. intros _ H. unpack. hnf. eexists. split; [evaluate; reflexivity|]. eapply (G_nth (GJoinType) 2); [reflexivity|]. cbn [projT1 projT2]. eapply (G_cons (ty (GJoinType))); [first [eassumption|apply G_tok]|]. apply G_none. constructor. Qed.

Lemma production_101 ts w : Forall fine w -> seq_ok [T 42] ts w -> sym_ok (NT 34) (Node 101 ts) w.
Proof. intros _ H. unpack. hnf. eexists. split; [evaluate; reflexivity|]. eapply (G_nth (GJoinType) 3); [reflexivity|]. cbn [projT1 projT2]. eapply (G_cons (ty (GJoinType))); [first [eassumption|apply G_tok]|]. constructor. Qed.

Lemma production_102 ts w : Forall fine w -> seq_ok [NT 34] ts w -> sym_ok (NT 35) (Node 102 ts) w.
Proof. intros _ H. unpack. hnf. eexists. split; [evaluate; reflexivity|]. eapply (G_nth (Opt GJoinType) 1); [reflexivity|]. cbn [projT1 projT2]. eapply (G_cons (ty (Opt GJoinType))); [first [eassumption|apply G_tok]|]. constructor. Qed.

Lemma production_103 ts w : Forall fine w -> seq_ok [] ts w -> sym_ok (NT 35) (Node 103 ts) w.
Proof. intros _ H. unpack. hnf. eexists. split; [evaluate; reflexivity|]. eapply (G_nth (Opt GJoinType) 0); [reflexivity|]. cbn [projT1 projT2]. constructor. Qed.

Lemma production_104 ts w : Forall fine w -> seq_ok [T 51; NT 23] ts w -> sym_ok (NT 36) (Node 104 ts) w.
Proof. intros _ H. unpack. hnf. eexists. split; [evaluate; reflexivity|]. eapply (G_nth (GLimitClause) 0); [reflexivity|]. cbn [projT1 projT2]. eapply (G_cons (ty (GLimitClause))); [first [eassumption|apply G_tok]|]. eapply (G_cons (ty (GLimitClause))); [first [eassumption|apply G_tok]|]. constructor. Qed.

Lemma production_105 ts w : Forall fine w -> seq_ok [T 51; NT 23; T 5; NT 23] ts w -> sym_ok (NT 36) (Node 105 ts) w.
Proof. intros _ H. unpack. hnf. eexists. split; [evaluate; reflexivity|]. eapply (G_nth (GLimitClause) 1); [reflexivity|]. cbn [projT1 projT2]. eapply (G_cons (ty (GLimitClause))); [first [eassumption|apply G_tok]|]. eapply (G_cons (ty (GLimitClause))); [first [eassumption|apply G_tok]|]. eapply (G_cons (ty (GLimitClause))); [first [eassumption|apply G_tok]|]. eapply (G_cons (ty (GLimitClause))); [first [eassumption|apply G_tok]|]. constructor. Qed.

Lemma production_106 ts w : Forall fine w -> seq_ok [T 51; NT 23; T 56; NT 23] ts w -> sym_ok (NT 36) (Node 106 ts) w.
Proof. intros _ H. unpack. hnf. eexists. split; [evaluate; reflexivity|]. eapply (G_nth (GLimitClause) 2); [reflexivity|]. cbn [projT1 projT2]. eapply (G_cons (ty (GLimitClause))); [first [eassumption|apply G_tok]|]. eapply (G_cons (ty (GLimitClause))); [first [eassumption|apply G_tok]|]. eapply (G_cons (ty (GLimitClause))); [first [eassumption|apply G_tok]|]. eapply (G_cons (ty (GLimitClause))); [first [eassumption|apply G_tok]|]. constructor. Qed.

Lemma production_107 ts w : Forall fine w -> seq_ok [NT 36] ts w -> sym_ok (NT 37) (Node 107 ts) w.
Proof. intros _ H. unpack. hnf. eexists. split; [evaluate; reflexivity|]. eapply (G_nth (Opt GLimitClause) 1); [reflexivity|]. cbn [projT1 projT2]. eapply (G_cons (ty (Opt GLimitClause))); [first [eassumption|apply G_tok]|]. constructor. Qed.

Lemma production_108 ts w : Forall fine w -> seq_ok [] ts w -> sym_ok (NT 37) (Node 108 ts) w.
Proof. intros _ H. unpack. hnf. eexists. split; [evaluate; reflexivity|]. eapply (G_nth (Opt GLimitClause) 0); [reflexivity|]. cbn [projT1 projT2]. constructor. Qed.

Lemma production_109 ts w : Forall fine w -> seq_ok [NT 41] ts w -> sym_ok (NT 38) (Node 109 ts) w.
Proof. intros _ H. unpack. hnf. eexists. split; [evaluate; reflexivity|]. eapply (G_nth (GLiteralValue) 0); [reflexivity|]. cbn [projT1 projT2]. eapply (G_cons (ty (GLiteralValue))); [first [eassumption|apply G_tok]|]. constructor. Qed.

Lemma production_110 ts w : Forall fine w -> seq_ok [NT 63] ts w -> sym_ok (NT 38) (Node 110 ts) w.
Proof. intros _ H. unpack. hnf. eexists. split; [evaluate; reflexivity|]. eapply (G_nth (GLiteralValue) 1); [reflexivity|]. cbn [projT1 projT2]. eapply (G_cons (ty (GLiteralValue))); [first [eassumption|apply G_tok]|]. constructor. Qed.

Lemma production_111 ts w : Forall fine w -> seq_ok [T 55] ts w -> sym_ok (NT 38) (Node 111 ts) w.
Proof. intros _ H. unpack. hnf. eexists. split; [evaluate; reflexivity|]. eapply (G_nth (GLiteralValue) 2); [reflexivity|]. cbn [projT1 projT2]. eapply (G_cons (ty (GLiteralValue))); [first [eassumption|apply G_tok]|]. constructor. Qed.

Lemma production_112 ts w : Forall fine w -> seq_ok [T 25] ts w -> sym_ok (NT 38) (Node 112 ts) w.
Proof. intros _ H. unpack. hnf. eexists. split; [evaluate; reflexivity|]. eapply (G_nth (GLiteralValue) 3); [reflexivity|]. cbn [projT1 projT2]. eapply (G_cons (ty (GLiteralValue))); [first [eassumption|apply G_tok]|]. constructor. Qed.

Lemma production_113 ts w : Forall fine w -> seq_ok [T 24] ts w -> sym_ok (NT 38) (Node 113 ts) w.
Proof. intros _ H. unpack. hnf. eexists. split; [evaluate; reflexivity|]. eapply (G_nth (GLiteralValue) 4); [reflexivity|]. cbn [projT1 projT2]. eapply (G_cons (ty (GLiteralValue))); [first [eassumption|apply G_tok]|]. constructor. Qed.

Lemma production_114 ts w : Forall fine w -> seq_ok [T 26] ts w -> sym_ok (NT 38) (Node 114 ts) w.
Proof. intros _ H. unpack. hnf. eexists. split; [evaluate; reflexivity|]. eapply (G_nth (GLiteralValue) 5); [reflexivity|]. cbn [projT1 projT2]. eapply (G_cons (ty (GLiteralValue))); [first [eassumption|apply G_tok]|]. constructor. Qed.

Lemma production_115 ts w : Forall fine w -> seq_ok [T 27; NT 63] ts w -> sym_ok (NT 38) (Node 115 ts) w.
Proof. intros _ H. unpack. hnf. eexists. split; [evaluate; reflexivity|]. eapply (G_nth (GLiteralValue) 6); [reflexivity|]. cbn [projT1 projT2]. eapply (G_cons (ty (GLiteralValue))); [first [eassumption|apply G_tok]|]. eapply (G_cons (ty (GLiteralValue))); [first [eassumption|apply G_tok]|]. constructor. Qed.

Lemma production_116 ts w : Forall fine w -> seq_ok [T 68; NT 63] ts w -> sym_ok (NT 38) (Node 116 ts) w.
Proof. intros _ H. unpack. hnf. eexists. split; [evaluate; reflexivity|]. eapply (G_nth (GLiteralValue) 7); [reflexivity|]. cbn [projT1 projT2]. eapply (G_cons (ty (GLiteralValue))); [first [eassumption|apply G_tok]|]. eapply (G_cons (ty (GLiteralValue))); [first [eassumption|apply G_tok]|]. constructor. Qed.

Lemma production_117 ts w : Forall fine w -> seq_ok [T 69; NT 63] ts w -> sym_ok (NT 38) (Node 117 ts) w.
Proof. intros _ H. unpack. hnf. eexists. split; [evaluate; reflexivity|]. eapply (G_nth (GLiteralValue) 8); [reflexivity|]. cbn [projT1 projT2]. eapply (G_cons (ty (GLiteralValue))); [first [eassumption|apply G_tok]|]. eapply (G_cons (ty (GLiteralValue))); [first [eassumption|apply G_tok]|]. constructor. Qed.

Lemma production_118 ts w : Forall fine w -> seq_ok [NT 73] ts w -> sym_ok (NT 39) (Node 118 ts) w.
Proof. intros _ H. unpack. hnf. eexists. split; [evaluate; reflexivity|]. eapply (G_nth (GMultiplicativeExpression) 0); [reflexivity|]. cbn [projT1 projT2]. eapply (G_cons (ty (GMultiplicativeExpression))); [first [eassumption|apply G_tok]|]. constructor. Qed.

Lemma production_119 ts w : Forall fine w -> seq_ok [NT 39; T 3; NT 73] ts w -> sym_ok (NT 39) (Node 119 ts) w.
Proof. intros _ H. unpack. hnf. eexists. split; [evaluate; reflexivity|]. eapply (G_nth (GMultiplicativeExpression) 1); [reflexivity|]. cbn [projT1 projT2]. eapply (G_cons (ty (GMultiplicativeExpression))); [first [eassumption|apply G_tok]|]. eapply (G_cons (ty (GMultiplicativeExpression))); [first [eassumption|apply G_tok]|]. eapply (G_cons (ty (GMultiplicativeExpression))); [first [eassumption|apply G_tok]|]. constructor. Qed.

Lemma production_120 ts w : Forall fine w -> seq_ok [NT 39; T 8; NT 73] ts w -> sym_ok (NT 39) (Node 120 ts) w.
Proof. intros _ H. unpack. hnf. eexists. split; [evaluate; reflexivity|]. eapply (G_nth (GMultiplicativeExpression) 2); [reflexivity|]. cbn [projT1 projT2]. eapply (G_cons (ty (GMultiplicativeExpression))); [first [eassumption|apply G_tok]|]. eapply (G_cons (ty (GMultiplicativeExpression))); [first [eassumption|apply G_tok]|]. eapply (G_cons (ty (GMultiplicativeExpression))); [first [eassumption|apply G_tok]|]. constructor. Qed.

Lemma production_121 ts w : Forall fine w -> seq_ok [NT 17] ts w -> sym_ok (NT 40) (Node 121 ts) w.
Proof. intros _ H. unpack. hnf. eexists. split; [evaluate; reflexivity|]. eapply (G_nth (GNotExpression) 0); [reflexivity|]. cbn [projT1 projT2]. eapply (G_cons (ty (GNotExpression))); [first [eassumption|apply G_tok]|]. constructor. Qed.

Lemma production_122 ts w : Forall fine w -> seq_ok [T 53; NT 17] ts w -> sym_ok (NT 40) (Node 122 ts) w.
Proof. intros _ H. unpack. hnf. eexists. split; [evaluate; reflexivity|]. eapply (G_nth (GNotExpression) 1); [reflexivity|]. cbn [projT1 projT2]. eapply (G_cons (ty (GNotExpression))); [first [eassumption|apply G_tok]|]. eapply (G_cons (ty (GNotExpression))); [first [eassumption|apply G_tok]|]. constructor. Qed.

Lemma production_123 ts w : Forall fine w -> seq_ok [T 80] ts w -> sym_ok (NT 41) (Node 123 ts) w.
Proof. intros _ H. unpack. hnf. eexists. split; [evaluate; reflexivity|]. eapply (G_nth (GNumericLiteral) 0); [reflexivity|]. cbn [projT1 projT2]. eapply (G_cons (ty (GNumericLiteral))); [first [eassumption|apply G_tok]|]. constructor. Qed.

Lemma production_124 ts w : Forall fine w -> seq_ok [T 81] ts w -> sym_ok (NT 41) (Node 124 ts) w.
Proof. intros _ H. unpack. hnf. eexists. split; [evaluate; reflexivity|]. eapply (G_nth (GNumericLiteral) 1); [reflexivity|]. cbn [projT1 projT2]. eapply (G_cons (ty (GNumericLiteral))); [first [eassumption|apply G_tok]|]. constructor. Qed.

Lemma production_125 ts w : Forall fine w -> seq_ok [T 78] ts w -> sym_ok (NT 41) (Node 125 ts) w.
Proof. intros _ H. unpack. hnf. eexists. split; [evaluate; reflexivity|]. eapply (G_nth (GNumericLiteral) 2); [reflexivity|]. cbn [projT1 projT2]. eapply (G_cons (ty (GNumericLiteral))); [first [eassumption|apply G_tok]|]. constructor. Qed.

Lemma production_126 ts w : Forall fine w -> seq_ok [NT 7] ts w -> sym_ok (NT 42) (Node 126 ts) w.
Proof. intros _ H. unpack. hnf. eexists. split; [evaluate; reflexivity|]. eapply (G_nth (GOrExpression) 0); [reflexivity|]. cbn [projT1 projT2]. eapply (G_cons (ty (GOrExpression))); [first [eassumption|apply G_tok]|]. constructor. Qed.

Lemma production_127 ts w : Forall fine w -> seq_ok [NT 42; T 58; NT 7] ts w -> sym_ok (NT 42) (Node 127 ts) w.
Proof. intros _ H. unpack. hnf. eexists. split; [evaluate; reflexivity|]. eapply (G_nth (GOrExpression) 1); [reflexivity|]. cbn [projT1 projT2]. eapply (G_cons (ty (GOrExpression))); [first [eassumption|apply G_tok]|]. eapply (G_cons (ty (GOrExpression))); [first [eassumption|apply G_tok]|]. eapply (G_cons (ty (GOrExpression))); [first [eassumption|apply G_tok]|]. constructor. Qed.

Lemma production_128 ts w : Forall fine w -> seq_ok [T 59; T 20; NT 49] ts w -> sym_ok (NT 43) (Node 128 ts) w.
Proof. intros _ H. unpack. hnf. eexists. split; [evaluate; reflexivity|]. eapply (G_nth (GOrderByClause) 0); [reflexivity|]. cbn [projT1 projT2]. eapply (G_cons (ty (GOrderByClause))); [first [eassumption|apply G_tok]|]. eapply (G_cons (ty (GOrderByClause))); [first [eassumption|apply G_tok]|]. eapply (G_cons (ty (GOrderByClause))); [first [eassumption|apply G_tok]|]. constructor. Qed.

Lemma production_129 ts w : Forall fine w -> seq_ok [NT 43] ts w -> sym_ok (NT 44) (Node 129 ts) w.
Proof. intros _ H. unpack. hnf. eexists. split; [evaluate; reflexivity|]. eapply (G_nth (Opt GOrderByClause) 1); [reflexivity|]. cbn [projT1 projT2]. eapply (G_cons (ty (Opt GOrderByClause))); [first [eassumption|apply G_tok]|]. constructor. Qed.

Lemma production_130 ts w : Forall fine w -> seq_ok [] ts w -> sym_ok (NT 44) (Node 130 ts) w.
Proof. intros _ H. unpack. hnf. eexists. split; [evaluate; reflexivity|]. eapply (G_nth (Opt GOrderByClause) 0); [reflexivity|]. cbn [projT1 projT2]. constructor. Qed.

Lemma production_131 ts w : Forall fine w -> seq_ok [T 22; NT 29] ts w -> sym_ok (NT 45) (Node 131 ts) w.
Proof. intros _ H. unpack. hnf. eexists. split; [evaluate; reflexivity|]. eapply (G_nth (GOrderingCollation) 0); [reflexivity|]. cbn [projT1 projT2]. eapply (G_cons (ty (GOrderingCollation))); [first [eassumption|apply G_tok]|]. eapply (G_cons (ty (GOrderingCollation))); [first [eassumption|apply G_tok]|]. constructor. Qed.

Lemma production_132 ts w : Forall fine w -> seq_ok [NT 45] ts w -> sym_ok (NT 46) (Node 132 ts) w.
Proof. intros _ H. unpack. hnf. eexists. split; [evaluate; reflexivity|]. eapply (G_nth (Opt GOrderingCollation) 1); [reflexivity|]. cbn [projT1 projT2]. eapply (G_cons (ty (Opt GOrderingCollation))); [first [eassumption|apply G_tok]|]. constructor. Qed.

Lemma production_133 ts w : Forall fine w -> seq_ok [] ts w -> sym_ok (NT 46) (Node 133 ts) w.
Proof. intros _ H. unpack. hnf. eexists. split; [evaluate; reflexivity|]. eapply (G_nth (Opt GOrderingCollation) 0); [reflexivity|]. cbn [projT1 projT2]. constructor. Qed.

Lemma production_134 ts w : Forall fine w -> seq_ok [T 17] ts w -> sym_ok (NT 47) (Node 134 ts) w.
Proof. intros _ H. unpack. hnf. eexists. split; [evaluate; reflexivity|]. eapply (G_nth (GOrderingDirection) 0); [reflexivity|]. cbn [projT1 projT2]. eapply G_some; [first [eassumption|apply G_tok]|]. constructor. Qed.

Lemma production_135 ts w : Forall fine w -> seq_ok [] ts w -> sym_ok (NT 47) (Node 135 ts) w.
Proof. intros _ H. unpack. hnf. eexists. split; [evaluate; reflexivity|]. eapply (G_nth (GOrderingDirection) 0); [reflexivity|]. cbn [projT1 projT2]. apply G_none. constructor. Qed.

Lemma production_136 ts w : Forall fine w -> seq_ok [T 29] ts w -> sym_ok (NT 47) (Node 136 ts) w.
Proof. intros _ H. unpack. hnf. eexists. split; [evaluate; reflexivity|]. eapply (G_nth (GOrderingDirection) 1); [reflexivity|]. cbn [projT1 projT2]. eapply (G_cons (ty (GOrderingDirection))); [first [eassumption|apply G_tok]|]. constructor. Qed.

Lemma production_137 ts w : Forall fine w -> seq_ok [NT 23; NT 45; NT 47] ts w -> sym_ok (NT 48) (Node 137 ts) w.
Proof. intros _ H. unpack. hnf. eexists. split; [evaluate; reflexivity|]. eapply (G_nth (GOrderingTerm) 0); [reflexivity|]. cbn [projT1 projT2]. eapply (G_cons (ty (GOrderingTerm))); [first [eassumption|apply G_tok]|]. eapply G_some; [first [eassumption|apply G_tok]|]. eapply (G_cons (ty (GOrderingTerm))); [first [eassumption|apply G_tok]|]. constructor. Qed.

Lemma production_138 ts w : Forall fine w -> seq_ok [NT 23; NT 47] ts w -> sym_ok (NT 48) (Node 138 ts) w.
Proof. intros _ H. unpack. hnf. eexists. split; [evaluate; reflexivity|]. eapply (G_nth (GOrderingTerm) 0); [reflexivity|]. cbn [projT1 projT2]. eapply (G_cons (ty (GOrderingTerm))); [first [eassumption|apply G_tok]|]. apply G_none. eapply (G_cons (ty (GOrderingTerm))); [first [eassumption|apply G_tok]|]. constructor. Qed.

Lemma production_139 ts w : Forall fine w -> seq_ok [NT 48] ts w -> sym_ok (NT 49) (Node 139 ts) w.
Proof. intros _ H. unpack. hnf. eexists. split; [evaluate; reflexivity|]. eapply (G_nth (GOrderingTermList) 0); [reflexivity|]. cbn [projT1 projT2]. eapply (G_cons (ty (GOrderingTermList))); [first [eassumption|apply G_tok]|]. constructor. Qed.

Lemma production_140 ts w : Forall fine w -> seq_ok [NT 49; T 5; NT 48] ts w -> sym_ok (NT 49) (Node 140 ts) w.
Proof. intros _ H. unpack. hnf. eexists. split; [evaluate; reflexivity|]. eapply (G_nth (GOrderingTermList) 1); [reflexivity|]. cbn [projT1 projT2]. eapply (G_cons (ty (GOrderingTermList))); [first [eassumption|apply G_tok]|]. eapply (G_cons (ty (GOrderingTermList))); [first [eassumption|apply G_tok]|]. eapply (G_cons (ty (GOrderingTermList))); [first [eassumption|apply G_tok]|]. constructor. Qed.

Lemma production_141 ts w : Forall fine w -> seq_ok [T 1; NT 25; T 2] ts w -> sym_ok (NT 50) (Node 141 ts) w.
Proof. intros _ H. unpack. hnf. eexists. split; [evaluate; reflexivity|]. eapply (G_nth (GPrimaryExpression) 0); [reflexivity|]. cbn [projT1 projT2]. eapply (G_cons (ty (GPrimaryExpression))); [first [eassumption|apply G_tok]|]. eapply (G_cons (ty (GPrimaryExpression))); [first [eassumption|apply G_tok]|]. eapply (G_cons (ty (GPrimaryExpression))); [first [eassumption|apply G_tok]|]. constructor. Qed.

Lemma production_142 ts w : Forall fine w -> seq_ok [T 1; NT 60; T 2] ts w -> sym_ok (NT 50) (Node 142 ts) w.
Proof. intros _ H. unpack. hnf. eexists. split; [evaluate; reflexivity|]. eapply (G_nth (GPrimaryExpression) 1); [reflexivity|]. cbn [projT1 projT2]. eapply (G_cons (ty (GPrimaryExpression))); [first [eassumption|apply G_tok]|]. eapply (G_cons (ty (GPrimaryExpression))); [first [eassumption|apply G_tok]|]. eapply (G_cons (ty (GPrimaryExpression))); [first [eassumption|apply G_tok]|]. constructor. Qed.

Lemma production_143 ts w : Forall fine w -> seq_ok [NT 38] ts w -> sym_ok (NT 50) (Node 143 ts) w.
Proof. intros _ H. unpack. hnf. eexists. split; [evaluate; reflexivity|]. eapply (G_nth (GPrimaryExpression) 2); [reflexivity|]. cbn [projT1 projT2]. eapply (G_cons (ty (GPrimaryExpression))); [first [eassumption|apply G_tok]|]. constructor. Qed.

Lemma production_144 ts w : Forall fine w -> seq_ok [NT 51] ts w -> sym_ok (NT 50) (Node 144 ts) w.
Proof. intros _ H. unpack. hnf. eexists. split; [evaluate; reflexivity|]. eapply (G_nth (GPrimaryExpression) 3); [reflexivity|]. cbn [projT1 projT2]. eapply (G_cons (ty (GPrimaryExpression))); [first [eassumption|apply G_tok]|]. constructor. Qed.

Lemma production_145 ts w : Forall fine w -> seq_ok [NT 29] ts w -> sym_ok (NT 51) (Node 145 ts) w.
Proof. intros _ H. unpack. hnf. eexists. split; [evaluate; reflexivity|]. eapply (G_nth (GQualifiedIdentifier) 0); [reflexivity|]. cbn [projT1 projT2]. eapply (G_cons (ty (GQualifiedIdentifier))); [first [eassumption|apply G_tok]|]. constructor. Qed.

Lemma production_146 ts w : Forall fine w -> seq_ok [NT 29; T 7; NT 29] ts w -> sym_ok (NT 51) (Node 146 ts) w.
Proof. intros _ H. unpack. hnf. eexists. split; [evaluate; reflexivity|]. eapply (G_nth (GQualifiedIdentifier) 1); [reflexivity|]. cbn [projT1 projT2]. eapply (G_cons (ty (GQualifiedIdentifier))); [first [eassumption|apply G_tok]|]. eapply (G_cons (ty (GQualifiedIdentifier))); [first [eassumption|apply G_tok]|]. eapply (G_cons (ty (GQualifiedIdentifier))); [first [eassumption|apply G_tok]|]. constructor. Qed.

Lemma production_147 ts w : Forall fine w -> seq_ok [NT 29; T 7; NT 29; T 7; NT 29] ts w -> sym_ok (NT 51) (Node 147 ts) w.
Proof. intros _ H. unpack. hnf. eexists. split; [evaluate; reflexivity|]. eapply (G_nth (GQualifiedIdentifier) 2); [reflexivity|]. cbn [projT1 projT2]. eapply (G_cons (ty (GQualifiedIdentifier))); [first [eassumption|apply G_tok]|]. eapply (G_cons (ty (GQualifiedIdentifier))); [first [eassumption|apply G_tok]|]. eapply (G_cons (ty (GQualifiedIdentifier))); [first [eassumption|apply G_tok]|]. eapply (G_cons (ty (GQualifiedIdentifier))); [first [eassumption|apply G_tok]|]. eapply (G_cons (ty (GQualifiedIdentifier))); [first [eassumption|apply G_tok]|]. constructor. Qed.

Lemma production_148 ts w : Forall fine w -> seq_ok [NT 23] ts w -> sym_ok (NT 52) (Node 148 ts) w.
Proof. intros _ H. unpack. hnf. eexists. split; [evaluate; reflexivity|]. eapply (G_nth (GResultColumn) 0); [reflexivity|]. cbn [projT1 projT2]. eapply (G_cons (ty (GResultColumn))); [first [eassumption|apply G_tok]|]. constructor. Qed.

Lemma production_149 ts w : Forall fine w -> seq_ok [NT 23; T 16; NT 29] ts w -> sym_ok (NT 52) (Node 149 ts) w.
Proof. intros _ H. unpack. hnf. eexists. split; [evaluate; reflexivity|]. eapply (G_nth (GResultColumn) 1); [reflexivity|]. cbn [projT1 projT2]. eapply (G_cons (ty (GResultColumn))); [first [eassumption|apply G_tok]|]. eapply G_some; [first [eassumption|apply G_tok]|]. eapply (G_cons (ty (GResultColumn))); [first [eassumption|apply G_tok]|]. constructor. Qed.

Lemma production_150 ts w : Forall fine w -> seq_ok [NT 23; NT 29] ts w -> sym_ok (NT 52) (Node 150 ts) w.
Proof. intros _ H. unpack. hnf. eexists. split; [evaluate; reflexivity|]. eapply (G_nth (GResultColumn) 1); [reflexivity|]. cbn [projT1 projT2]. eapply (G_cons (ty (GResultColumn))); [first [eassumption|apply G_tok]|]. apply G_none. eapply (G_cons (ty (GResultColumn))); [first [eassumption|apply G_tok]|]. constructor. Qed.

Lemma production_151 ts w : Forall fine w -> seq_ok [NT 29; T 7; T 3] ts w -> sym_ok (NT 52) (Node 151 ts) w.
Proof. intros _ H. unpack. hnf. eexists. split; [evaluate; reflexivity|]. eapply (G_nth (GResultColumn) 2); [reflexivity|]. cbn [projT1 projT2]. eapply (G_cons (ty (GResultColumn))); [first [eassumption|apply G_tok]|]. eapply (G_cons (ty (GResultColumn))); [first [eassumption|apply G_tok]|]. eapply (G_cons (ty (GResultColumn))); [first [eassumption|apply G_tok]|]. constructor. Qed.

Lemma production_152 ts w : Forall fine w -> seq_ok [NT 52] ts w -> sym_ok (NT 53) (Node 152 ts) w.
Proof. intros _ H. unpack. hnf. eexists. split; [evaluate; reflexivity|]. eapply (G_nth (GResultColumnList) 0); [reflexivity|]. cbn [projT1 projT2]. eapply (G_cons (ty (GResultColumnList))); [first [eassumption|apply G_tok]|]. constructor. Qed.

Lemma production_153 ts w : Forall fine w -> seq_ok [NT 53; T 5; NT 52] ts w -> sym_ok (NT 53) (Node 153 ts) w.
Proof. intros _ H. unpack. hnf. eexists. split; [evaluate; reflexivity|]. eapply (G_nth (GResultColumnList) 1); [reflexivity|]. cbn [projT1 projT2]. eapply (G_cons (ty (GResultColumnList))); [first [eassumption|apply G_tok]|]. eapply (G_cons (ty (GResultColumnList))); [first [eassumption|apply G_tok]|]. eapply (G_cons (ty (GResultColumnList))); [first [eassumption|apply G_tok]|]. constructor. Qed.

Lemma production_154 ts w : Forall fine w -> seq_ok [T 3] ts w -> sym_ok (NT 54) (Node 154 ts) w.
Proof. intros _ H. unpack. hnf. eexists. split; [evaluate; reflexivity|]. eapply (G_nth (GResultColumns) 0); [reflexivity|]. cbn [projT1 projT2]. eapply (G_cons (ty (GResultColumns))); [first [eassumption|apply G_tok]|]. constructor. Qed.

Lemma production_155 ts w : Forall fine w -> seq_ok [NT 53] ts w -> sym_ok (NT 54) (Node 155 ts) w.
Proof. intros _ H. unpack. hnf. eexists. split; [evaluate; reflexivity|]. eapply (G_nth (GResultColumns) 1); [reflexivity|]. cbn [projT1 projT2]. eapply (G_cons (ty (GResultColumns))); [first [eassumption|apply G_tok]|]. constructor. Qed.

Lemma production_156 ts w : Forall fine w -> seq_ok [NT 29; T 7] ts w -> sym_ok (NT 55) (Node 156 ts) w.
Proof. intros _ H. unpack. hnf. eexists. split; [evaluate; reflexivity|]. eapply (G_nth (GSchemaName) 0); [reflexivity|]. cbn [projT1 projT2]. eapply (G_cons (ty (GSchemaName))); [first [eassumption|apply G_tok]|]. eapply (G_cons (ty (GSchemaName))); [first [eassumption|apply G_tok]|]. constructor. Qed.

Lemma production_157 ts w : Forall fine w -> seq_ok [NT 55] ts w -> sym_ok (NT 56) (Node 157 ts) w.
Proof. intros _ H. unpack. hnf. eexists. split; [evaluate; reflexivity|]. eapply (G_nth (Opt GSchemaName) 1); [reflexivity|]. cbn [projT1 projT2]. eapply (G_cons (ty (Opt GSchemaName))); [first [eassumption|apply G_tok]|]. constructor. Qed.

Lemma production_158 ts w : Forall fine w -> seq_ok [] ts w -> sym_ok (NT 56) (Node 158 ts) w.
Proof. intros _ H. unpack. hnf. eexists. split; [evaluate; reflexivity|]. eapply (G_nth (Opt GSchemaName) 0); [reflexivity|]. cbn [projT1 projT2]. constructor. Qed.

Lemma production_159 ts w : Forall fine w -> seq_ok [T 64; NT 59; NT 54; NT 77; NT 27] ts w -> sym_ok (NT 57) (Node 159 ts) w.
Proof. intros _ H. unpack. hnf. eexists. split; [evaluate; reflexivity|]. eapply (G_nth (GSelectCore) 0); [reflexivity|]. cbn [projT1 projT2]. eapply (G_cons (ty (GSelectCore))); [first [eassumption|apply G_tok]|]. eapply (G_cons (ty (GSelectCore))); [first [eassumption|apply G_tok]|]. eapply (G_cons (ty (GSelectCore))); [first [eassumption|apply G_tok]|]. eapply G_some; [first [eassumption|apply G_tok]|]. eapply G_some; [first [eassumption|apply G_tok]|]. constructor. Qed.

Lemma production_160 ts w : Forall fine w -> seq_ok [T 64; NT 59; NT 54; NT 27] ts w -> sym_ok (NT 57) (Node 160 ts) w.
Proof. intros _ H. unpack. hnf. eexists. split; [evaluate; reflexivity|]. eapply (G_nth (GSelectCore) 0); [reflexivity|]. cbn [projT1 projT2]. eapply (G_cons (ty (GSelectCore))); [first [eassumption|apply G_tok]|]. eapply (G_cons (ty (GSelectCore))); [first [eassumption|apply G_tok]|]. eapply (G_cons (ty (GSelectCore))); [first [eassumption|apply G_tok]|]. apply G_none. eapply G_some; [first [eassumption|apply G_tok]|]. constructor. Qed.

Lemma production_161 ts w : Forall fine w -> seq_ok [T 64; NT 59; NT 54; NT 77] ts w -> sym_ok (NT 57) (Node 161 ts) w.
Proof. intros _ H. unpack. hnf. eexists. split; [evaluate; reflexivity|]. eapply (G_nth (GSelectCore) 0); [reflexivity|]. cbn [projT1 projT2]. eapply (G_cons (ty (GSelectCore))); [first [eassumption|apply G_tok]|]. eapply (G_cons (ty (GSelectCore))); [first [eassumption|apply G_tok]|]. eapply (G_cons (ty (GSelectCore))); [first [eassumption|apply G_tok]|]. eapply G_some; [first [eassumption|apply G_tok]|]. apply G_none. constructor. Qed.

Lemma production_162 ts w : Forall fine w -> seq_ok [T 64; NT 59; NT 54] ts w -> sym_ok (NT 57) (Node 162 ts) w.
Proof. intros _ H. unpack. hnf. eexists. split; [evaluate; reflexivity|]. eapply (G_nth (GSelectCore) 0); [reflexivity|]. cbn [projT1 projT2]. eapply (G_cons (ty (GSelectCore))); [first [eassumption|apply G_tok]|]. eapply (G_cons (ty (GSelectCore))); [first [eassumption|apply G_tok]|]. eapply (G_cons (ty (GSelectCore))); [first [eassumption|apply G_tok]|]. apply G_none. apply G_none. constructor. Qed.

Lemma production_163 ts w : Forall fine w -> seq_ok [T 64; NT 59; NT 54; NT 26; NT 77; NT 27] ts w -> sym_ok (NT 57) (Node 163 ts) w.
Proof. intros _ H. unpack. hnf. eexists. split; [evaluate; reflexivity|]. eapply (G_nth (GSelectCore) 1); [reflexivity|]. cbn [projT1 projT2]. eapply (G_cons (ty (GSelectCore))); [first [eassumption|apply G_tok]|]. eapply (G_cons (ty (GSelectCore))); [first [eassumption|apply G_tok]|]. eapply (G_cons (ty (GSelectCore))); [first [eassumption|apply G_tok]|]. eapply (G_cons (ty (GSelectCore))); [first [eassumption|apply G_tok]|]. eapply G_some; [first [eassumption|apply G_tok]|]. eapply G_some; [first [eassumption|apply G_tok]|]. constructor. Qed.

Lemma production_164 ts w : Forall fine w -> seq_ok [T 64; NT 59; NT 54; NT 26; NT 27] ts w -> sym_ok (NT 57) (Node 164 ts) w.
Proof. intros _ H. unpack. hnf. eexists. split; [evaluate; reflexivity|]. eapply (G_nth (GSelectCore) 1); [reflexivity|]. cbn [projT1 projT2]. eapply (G_cons (ty (GSelectCore))); [first [eassumption|apply G_tok]|]. eapply (G_cons (ty (GSelectCore))); [first [eassumption|apply G_tok]|]. eapply (G_cons (ty (GSelectCore))); [first [eassumption|apply G_tok]|]. eapply (G_cons (ty (GSelectCore))); [first [eassumption|apply G_tok]|]. apply G_none. eapply G_some; [first [eassumption|apply G_tok]|]. constructor. Qed.

Lemma production_165 ts w : Forall fine w -> seq_ok [T 64; NT 59; NT 54; NT 26; NT 77] ts w -> sym_ok (NT 57) (Node 165 ts) w.
Proof. intros _ H. unpack. hnf. eexists. split; [evaluate; reflexivity|]. eapply (G_nth (GSelectCore) 1); [reflexivity|]. cbn [projT1 projT2]. eapply (G_cons (ty (GSelectCore))); [first [eassumption|apply G_tok]|]. eapply (G_cons (ty (GSelectCore))); [first [eassumption|apply G_tok]|]. eapply (G_cons (ty (GSelectCore))); [first [eassumption|apply G_tok]|]. eapply (G_cons (ty (GSelectCore))); [first [eassumption|apply G_tok]|]. eapply G_some; [first [eassumption|apply G_tok]|]. apply G_none. constructor. Qed.

Lemma production_166 ts w : Forall fine w -> seq_ok [T 64; NT 59; NT 54; NT 26] ts w -> sym_ok (NT 57) (Node 166 ts) w.
Proof. intros _ H. unpack. hnf. eexists. split; [evaluate; reflexivity|]. eapply (G_nth (GSelectCore) 1); [reflexivity|]. cbn [projT1 projT2]. eapply (G_cons (ty (GSelectCore))); [first [eassumption|apply G_tok]|]. eapply (G_cons (ty (GSelectCore))); [first [eassumption|apply G_tok]|]. eapply (G_cons (ty (GSelectCore))); [first [eassumption|apply G_tok]|]. eapply (G_cons (ty (GSelectCore))); [first [eassumption|apply G_tok]|]. apply G_none. apply G_none. constructor. Qed.

Lemma production_167 ts w : Forall fine w -> seq_ok [T 73; NT 72] ts w -> sym_ok (NT 57) (Node 167 ts) w.
Proof. intros _ H. unpack. hnf. eexists. split; [evaluate; reflexivity|]. eapply (G_nth (GSelectCore) 2); [reflexivity|]. cbn [projT1 projT2]. eapply (G_cons (ty (GSelectCore))); [first [eassumption|apply G_tok]|]. eapply (G_cons (ty (GSelectCore))); [first [eassumption|apply G_tok]|]. constructor. Qed.

Lemma production_168 ts w : Forall fine w -> seq_ok [NT 57] ts w -> sym_ok (NT 58) (Node 168 ts) w.
Proof. intros _ H. unpack. hnf. eexists. split; [evaluate; reflexivity|]. eapply (G_nth (GSelectCoreList) 0); [reflexivity|]. cbn [projT1 projT2]. eapply (G_cons (ty (GSelectCoreList))); [first [eassumption|apply G_tok]|]. constructor. Qed.

Lemma production_169 ts w : Forall fine w -> seq_ok [NT 58; NT 18; NT 57] ts w -> sym_ok (NT 58) (Node 169 ts) w.
Proof. intros _ H. unpack. hnf. eexists. split; [evaluate; reflexivity|]. eapply (G_nth (GSelectCoreList) 1); [reflexivity|]. cbn [projT1 projT2]. eapply (G_cons (ty (GSelectCoreList))); [first [eassumption|apply G_tok]|]. eapply (G_cons (ty (GSelectCoreList))); [first [eassumption|apply G_tok]|]. eapply (G_cons (ty (GSelectCoreList))); [first [eassumption|apply G_tok]|]. constructor. Qed.

Lemma production_170 ts w : Forall fine w -> seq_ok [T 14] ts w -> sym_ok (NT 59) (Node 170 ts) w.
Proof. intros _ H. unpack. hnf. eexists. split; [evaluate; reflexivity|]. eapply (G_nth (GSelectMode) 0); [reflexivity|]. cbn [projT1 projT2]. eapply G_some; [first [eassumption|apply G_tok]|]. constructor. Qed.

Lemma production_171 ts w : Forall fine w -> seq_ok [] ts w -> sym_ok (NT 59) (Node 171 ts) w.
Proof. intros _ H. unpack. hnf. eexists. split; [evaluate; reflexivity|]. eapply (G_nth (GSelectMode) 0); [reflexivity|]. cbn [projT1 projT2]. apply G_none. constructor. Qed.

Lemma production_172 ts w : Forall fine w -> seq_ok [T 31] ts w -> sym_ok (NT 59) (Node 172 ts) w.
Proof. intros _ H. unpack. hnf. eexists. split; [evaluate; reflexivity|]. eapply (G_nth (GSelectMode) 1); [reflexivity|]. cbn [projT1 projT2]. eapply (G_cons (ty (GSelectMode))); [first [eassumption|apply G_tok]|]. constructor. Qed.

Lemma production_173 ts w : Forall fine w -> seq_ok [NT 68; NT 58; NT 43; NT 36] ts w -> sym_ok (NT 60) (Node 173 ts) w.
Proof. intros _ H. unpack. hnf. eexists. split; [evaluate; reflexivity|]. eapply (G_nth (GSelectStatement) 0); [reflexivity|]. cbn [projT1 projT2]. eapply (G_cons (ty (GSelectStatement))); [first [eassumption|apply G_tok]|]. eapply (G_cons (ty (GSelectStatement))); [first [eassumption|apply G_tok]|]. eapply G_some; [first [eassumption|apply G_tok]|]. eapply G_some; [first [eassumption|apply G_tok]|]. constructor. Qed.

Lemma production_174 ts w : Forall fine w -> seq_ok [NT 68; NT 58; NT 36] ts w -> sym_ok (NT 60) (Node 174 ts) w.
Proof. intros _ H. unpack. hnf. eexists. split; [evaluate; reflexivity|]. eapply (G_nth (GSelectStatement) 0); [reflexivity|]. cbn [projT1 projT2]. eapply (G_cons (ty (GSelectStatement))); [first [eassumption|apply G_tok]|]. eapply (G_cons (ty (GSelectStatement))); [first [eassumption|apply G_tok]|]. apply G_none. eapply G_some; [first [eassumption|apply G_tok]|]. constructor. Qed.

Lemma production_175 ts w : Forall fine w -> seq_ok [NT 68; NT 58; NT 43] ts w -> sym_ok (NT 60) (Node 175 ts) w.
Proof. intros _ H. unpack. hnf. eexists. split; [evaluate; reflexivity|]. eapply (G_nth (GSelectStatement) 0); [reflexivity|]. cbn [projT1 projT2]. eapply (G_cons (ty (GSelectStatement))); [first [eassumption|apply G_tok]|]. eapply (G_cons (ty (GSelectStatement))); [first [eassumption|apply G_tok]|]. eapply G_some; [first [eassumption|apply G_tok]|]. apply G_none. constructor. Qed.

Lemma production_176 ts w : Forall fine w -> seq_ok [NT 68; NT 58] ts w -> sym_ok (NT 60) (Node 176 ts) w.
Proof. intros _ H. unpack. hnf. eexists. split; [evaluate; reflexivity|]. eapply (G_nth (GSelectStatement) 0); [reflexivity|]. cbn [projT1 projT2]. eapply (G_cons (ty (GSelectStatement))); [first [eassumption|apply G_tok]|]. eapply (G_cons (ty (GSelectStatement))); [first [eassumption|apply G_tok]|]. apply G_none. apply G_none. constructor. Qed.

Lemma production_177 ts w : Forall fine w -> seq_ok [NT 58; NT 43; NT 36] ts w -> sym_ok (NT 60) (Node 177 ts) w.
Proof. intros _ H. unpack. hnf. eexists. split; [evaluate; reflexivity|]. eapply (G_nth (GSelectStatement) 1); [reflexivity|]. cbn [projT1 projT2]. eapply (G_cons (ty (GSelectStatement))); [first [eassumption|apply G_tok]|]. eapply G_some; [first [eassumption|apply G_tok]|]. eapply G_some; [first [eassumption|apply G_tok]|]. constructor. Qed.

Lemma production_178 ts w : Forall fine w -> seq_ok [NT 58; NT 36] ts w -> sym_ok (NT 60) (Node 178 ts) w.
Proof. intros _ H. unpack. hnf. eexists. split; [evaluate; reflexivity|]. eapply (G_nth (GSelectStatement) 1); [reflexivity|]. cbn [projT1 projT2]. eapply (G_cons (ty (GSelectStatement))); [first [eassumption|apply G_tok]|]. apply G_none. eapply G_some; [first [eassumption|apply G_tok]|]. constructor. Qed.

Lemma production_179 ts w : Forall fine w -> seq_ok [NT 58; NT 43] ts w -> sym_ok (NT 60) (Node 179 ts) w.
Proof. intros _ H. unpack. hnf. eexists. split; [evaluate; reflexivity|]. eapply (G_nth (GSelectStatement) 1); [reflexivity|]. cbn [projT1 projT2]. eapply (G_cons (ty (GSelectStatement))); [first [eassumption|apply G_tok]|]. eapply G_some; [first [eassumption|apply G_tok]|]. apply G_none. constructor. Qed.

Lemma production_180 ts w : Forall fine w -> seq_ok [NT 58] ts w -> sym_ok (NT 60) (Node 180 ts) w.
Proof. intros _ H. unpack. hnf. eexists. split; [evaluate; reflexivity|]. eapply (G_nth (GSelectStatement) 1); [reflexivity|]. cbn [projT1 projT2]. eapply (G_cons (ty (GSelectStatement))); [first [eassumption|apply G_tok]|]. apply G_none. apply G_none. constructor. Qed.

Lemma production_181 ts w : Forall fine w -> seq_ok [NT 62] ts w -> sym_ok (NT 61) (Node 181 ts) w.
Proof. intros _ H. unpack. hnf. eexists. split; [evaluate; reflexivity|]. eapply (G_nth (GSqlStatement) 0); [reflexivity|]. cbn [projT1 projT2]. eapply (G_cons (ty (GSqlStatement))); [first [eassumption|apply G_tok]|]. constructor. Qed.

Lemma production_182 ts w : Forall fine w -> seq_ok [T 35; T 62; T 61; NT 62] ts w -> sym_ok (NT 61) (Node 182 ts) w.
Proof. intros _ H. unpack. hnf. eexists. split; [evaluate; reflexivity|]. eapply (G_nth (GSqlStatement) 1); [reflexivity|]. cbn [projT1 projT2]. eapply (G_cons (ty (GSqlStatement))); [first [eassumption|apply G_tok]|]. apply G_some_plan. eapply (G_cons (ty (GSqlStatement))); [first [eassumption|apply G_tok]|]. constructor. Qed.

Lemma production_183 ts w : Forall fine w -> seq_ok [T 35; NT 62] ts w -> sym_ok (NT 61) (Node 183 ts) w.
Proof. intros _ H. unpack. hnf. eexists. split; [evaluate; reflexivity|]. eapply (G_nth (GSqlStatement) 1); [reflexivity|]. cbn [projT1 projT2]. eapply (G_cons (ty (GSqlStatement))); [first [eassumption|apply G_tok]|]. apply G_none. eapply (G_cons (ty (GSqlStatement))); [first [eassumption|apply G_tok]|]. constructor. Qed.

Lemma production_184 ts w : Forall fine w -> seq_ok [NT 10] ts w -> sym_ok (NT 61) (Node 184 ts) w.
Proof. intros _ H. unpack. hnf. eexists. split; [evaluate; reflexivity|]. eapply (G_nth (GSqlStatement) 2); [reflexivity|]. cbn [projT1 projT2]. eapply (G_cons (ty (GSqlStatement))); [first [eassumption|apply G_tok]|]. constructor. Qed.

Lemma production_185 ts w : Forall fine w -> seq_ok [NT 20] ts w -> sym_ok (NT 61) (Node 185 ts) w.
Proof. intros _ H. unpack. hnf. eexists. split; [evaluate; reflexivity|]. eapply (G_nth (GSqlStatement) 3); [reflexivity|]. cbn [projT1 projT2]. eapply (G_cons (ty (GSqlStatement))); [first [eassumption|apply G_tok]|]. constructor. Qed.

Lemma production_186 ts w : Forall fine w -> seq_ok [NT 60] ts w -> sym_ok (NT 62) (Node 186 ts) w.
Proof. intros _ H. unpack. hnf. eexists. split; [evaluate; reflexivity|]. eapply (G_nth (GStatement) 0); [reflexivity|]. cbn [projT1 projT2]. eapply (G_cons (ty (GStatement))); [first [eassumption|apply G_tok]|]. constructor. Qed.

Lemma production_187 ts w : Forall fine w -> seq_ok [NT 31] ts w -> sym_ok (NT 62) (Node 187 ts) w.
Proof. intros _ H. unpack. hnf. eexists. split; [evaluate; reflexivity|]. eapply (G_nth (GStatement) 1); [reflexivity|]. cbn [projT1 projT2]. eapply (G_cons (ty (GStatement))); [first [eassumption|apply G_tok]|]. constructor. Qed.

Lemma production_188 ts w : Forall fine w -> seq_ok [NT 19] ts w -> sym_ok (NT 62) (Node 188 ts) w.
Proof. intros _ H. unpack. hnf. eexists. split; [evaluate; reflexivity|]. eapply (G_nth (GStatement) 2); [reflexivity|]. cbn [projT1 projT2]. eapply (G_cons (ty (GStatement))); [first [eassumption|apply G_tok]|]. constructor. Qed.

Lemma production_189 ts w : Forall fine w -> seq_ok [NT 74] ts w -> sym_ok (NT 62) (Node 189 ts) w.
Proof. intros _ H. unpack. hnf. eexists. split; [evaluate; reflexivity|]. eapply (G_nth (GStatement) 3); [reflexivity|]. cbn [projT1 projT2]. eapply (G_cons (ty (GStatement))); [first [eassumption|apply G_tok]|]. constructor. Qed.

Lemma production_190 ts w : Forall fine w -> seq_ok [T 82] ts w -> sym_ok (NT 63) (Node 190 ts) w.
Proof.
  intros F H. unpack. match goal with |- context [Leaf (82, ?x)] => rename x into text end.
  inversion F as [|? ? F1 _]; subst. specialize (F1 eq_refl). cbn [snd] in F1. hnf. exists (removelast (tl text)). split.
  - rewrite eval_node. cbn [eval_all eval bind sql_shift snd].
    change (sql_build 190 [sql_shift (82, text)]) with (v <- slice_inner text ;; Ret (Variant29 v)).
    rewrite slice_inner_ok by exact F1. reflexivity.
  - eapply (G_nth GStringLiteral 0); [reflexivity|]. cbn [projT1 projT2]. eapply (G_cons (ty GStringLiteral)); [apply G_tok|]. constructor.
Qed.

Lemma production_191 ts w : Forall fine w -> seq_ok [T 16; NT 29] ts w -> sym_ok (NT 64) (Node 191 ts) w.
Proof. intros _ H. unpack. hnf. eexists. split; [evaluate; reflexivity|]. eapply (G_nth (GTableAlias) 0); [reflexivity|]. cbn [projT1 projT2]. eapply G_some; [first [eassumption|apply G_tok]|]. eapply (G_cons (ty (GTableAlias))); [first [eassumption|apply G_tok]|]. constructor. Qed.

Lemma production_192 ts w : Forall fine w -> seq_ok [NT 29] ts w -> sym_ok (NT 64) (Node 192 ts) w.
Proof. intros _ H. unpack. hnf. eexists. split; [evaluate; reflexivity|]. eapply (G_nth (GTableAlias) 0); [reflexivity|]. cbn [projT1 projT2]. apply G_none. eapply (G_cons (ty (GTableAlias))); [first [eassumption|apply G_tok]|]. constructor. Qed.

Lemma production_193 ts w : Forall fine w -> seq_ok [NT 64] ts w -> sym_ok (NT 65) (Node 193 ts) w.
Proof. intros _ H. unpack. hnf. eexists. split; [evaluate; reflexivity|]. eapply (G_nth (Opt GTableAlias) 1); [reflexivity|]. cbn [projT1 projT2]. eapply (G_cons (ty (Opt GTableAlias))); [first [eassumption|apply G_tok]|]. constructor. Qed.

Lemma production_194 ts w : Forall fine w -> seq_ok [] ts w -> sym_ok (NT 65) (Node 194 ts) w.
Proof. intros _ H. unpack. hnf. eexists. split; [evaluate; reflexivity|]. eapply (G_nth (Opt GTableAlias) 0); [reflexivity|]. cbn [projT1 projT2]. constructor. Qed.

Lemma production_195 ts w : Forall fine w -> seq_ok [NT 70] ts w -> sym_ok (NT 66) (Node 195 ts) w.
Proof. intros _ H. unpack. hnf. eexists. split; [evaluate; reflexivity|]. eapply (G_nth (GTableExpression) 0); [reflexivity|]. cbn [projT1 projT2]. eapply (G_cons (ty (GTableExpression))); [first [eassumption|apply G_tok]|]. constructor. Qed.

Lemma production_196 ts w : Forall fine w -> seq_ok [NT 66; NT 33; NT 70; NT 32] ts w -> sym_ok (NT 66) (Node 196 ts) w.
Proof. intros _ H. unpack. hnf. eexists. split; [evaluate; reflexivity|]. eapply (G_nth (GTableExpression) 1); [reflexivity|]. cbn [projT1 projT2]. eapply (G_cons (ty (GTableExpression))); [first [eassumption|apply G_tok]|]. eapply (G_cons (ty (GTableExpression))); [first [eassumption|apply G_tok]|]. eapply (G_cons (ty (GTableExpression))); [first [eassumption|apply G_tok]|]. eapply (G_cons (ty (GTableExpression))); [first [eassumption|apply G_tok]|]. constructor. Qed.

Lemma production_197 ts w : Forall fine w -> seq_ok [NT 66] ts w -> sym_ok (NT 67) (Node 197 ts) w.
Proof. intros _ H. unpack. hnf. eexists. split; [evaluate; reflexivity|]. eapply (G_nth (GTableExpressionList) 0); [reflexivity|]. cbn [projT1 projT2]. eapply (G_cons (ty (GTableExpressionList))); [first [eassumption|apply G_tok]|]. constructor. Qed.

Lemma production_198 ts w : Forall fine w -> seq_ok [NT 67; T 5; NT 66] ts w -> sym_ok (NT 67) (Node 198 ts) w.
Proof. intros _ H. unpack. hnf. eexists. split; [evaluate; reflexivity|]. eapply (G_nth (GTableExpressionList) 1); [reflexivity|]. cbn [projT1 projT2]. eapply (G_cons (ty (GTableExpressionList))); [first [eassumption|apply G_tok]|]. eapply (G_cons (ty (GTableExpressionList))); [first [eassumption|apply G_tok]|]. eapply (G_cons (ty (GTableExpressionList))); [first [eassumption|apply G_tok]|]. constructor. Qed.

Lemma production_199 ts w : Forall fine w -> seq_ok [T 76; NT 15] ts w -> sym_ok (NT 68) (Node 199 ts) w.
Proof. intros _ H. unpack. hnf. eexists. split; [evaluate; reflexivity|]. eapply (G_nth (GTableExpressions) 0); [reflexivity|]. cbn [projT1 projT2]. eapply (G_cons (ty (GTableExpressions))); [first [eassumption|apply G_tok]|]. eapply (G_cons (ty (GTableExpressions))); [first [eassumption|apply G_tok]|]. constructor. Qed.

Lemma production_200 ts w : Forall fine w -> seq_ok [NT 68] ts w -> sym_ok (NT 69) (Node 200 ts) w.
Proof. intros _ H. unpack. hnf. eexists. split; [evaluate; reflexivity|]. eapply (G_nth (Opt GTableExpressions) 1); [reflexivity|]. cbn [projT1 projT2]. eapply (G_cons (ty (Opt GTableExpressions))); [first [eassumption|apply G_tok]|]. constructor. Qed.

Lemma production_201 ts w : Forall fine w -> seq_ok [] ts w -> sym_ok (NT 69) (Node 201 ts) w.
Proof. intros _ H. unpack. hnf. eexists. split; [evaluate; reflexivity|]. eapply (G_nth (Opt GTableExpressions) 0); [reflexivity|]. cbn [projT1 projT2]. constructor. Qed.

Lemma production_202 ts w : Forall fine w -> seq_ok [NT 51; NT 64] ts w -> sym_ok (NT 70) (Node 202 ts) w.
Proof. intros _ H. unpack. hnf. eexists. split; [evaluate; reflexivity|]. eapply (G_nth (GTableOrSubQuery) 0); [reflexivity|]. cbn [projT1 projT2]. eapply (G_cons (ty (GTableOrSubQuery))); [first [eassumption|apply G_tok]|]. eapply G_some; [first [eassumption|apply G_tok]|]. constructor. Qed.

Lemma production_203 ts w : Forall fine w -> seq_ok [NT 51] ts w -> sym_ok (NT 70) (Node 203 ts) w.
Proof. intros _ H. unpack. hnf. eexists. split; [evaluate; reflexivity|]. eapply (G_nth (GTableOrSubQuery) 0); [reflexivity|]. cbn [projT1 projT2]. eapply (G_cons (ty (GTableOrSubQuery))); [first [eassumption|apply G_tok]|]. apply G_none. constructor. Qed.

Lemma production_204 ts w : Forall fine w -> seq_ok [T 1; NT 60; T 2; NT 64] ts w -> sym_ok (NT 70) (Node 204 ts) w.
Proof. intros _ H. unpack. hnf. eexists. split; [evaluate; reflexivity|]. eapply (G_nth (GTableOrSubQuery) 1); [reflexivity|]. cbn [projT1 projT2]. eapply (G_cons (ty (GTableOrSubQuery))); [first [eassumption|apply G_tok]|]. eapply (G_cons (ty (GTableOrSubQuery))); [first [eassumption|apply G_tok]|]. eapply (G_cons (ty (GTableOrSubQuery))); [first [eassumption|apply G_tok]|]. eapply G_some; [first [eassumption|apply G_tok]|]. constructor. Qed.

Lemma production_205 ts w : Forall fine w -> seq_ok [T 1; NT 60; T 2] ts w -> sym_ok (NT 70) (Node 205 ts) w.
Proof. intros _ H. unpack. hnf. eexists. split; [evaluate; reflexivity|]. eapply (G_nth (GTableOrSubQuery) 1); [reflexivity|]. cbn [projT1 projT2]. eapply (G_cons (ty (GTableOrSubQuery))); [first [eassumption|apply G_tok]|]. eapply (G_cons (ty (GTableOrSubQuery))); [first [eassumption|apply G_tok]|]. eapply (G_cons (ty (GTableOrSubQuery))); [first [eassumption|apply G_tok]|]. apply G_none. constructor. Qed.

Lemma production_206 ts w : Forall fine w -> seq_ok [T 1; NT 66; T 2] ts w -> sym_ok (NT 70) (Node 206 ts) w.
Proof. intros _ H. unpack. hnf. eexists. split; [evaluate; reflexivity|]. eapply (G_nth (GTableOrSubQuery) 2); [reflexivity|]. cbn [projT1 projT2]. eapply (G_cons (ty (GTableOrSubQuery))); [first [eassumption|apply G_tok]|]. eapply (G_cons (ty (GTableOrSubQuery))); [first [eassumption|apply G_tok]|]. eapply (G_cons (ty (GTableOrSubQuery))); [first [eassumption|apply G_tok]|]. constructor. Qed.

Lemma production_207 ts w : Forall fine w -> seq_ok [T 1; NT 25; T 2] ts w -> sym_ok (NT 71) (Node 207 ts) w.
Proof. intros _ H. unpack. hnf. eexists. split; [evaluate; reflexivity|]. eapply (G_nth (GTuple) 0); [reflexivity|]. cbn [projT1 projT2]. eapply (G_cons (ty (GTuple))); [first [eassumption|apply G_tok]|]. eapply (G_cons (ty (GTuple))); [first [eassumption|apply G_tok]|]. eapply (G_cons (ty (GTuple))); [first [eassumption|apply G_tok]|]. constructor. Qed.

Lemma production_208 ts w : Forall fine w -> seq_ok [NT 71] ts w -> sym_ok (NT 72) (Node 208 ts) w.
Proof. intros _ H. unpack. hnf. eexists. split; [evaluate; reflexivity|]. eapply (G_nth (GTupleList) 0); [reflexivity|]. cbn [projT1 projT2]. eapply (G_cons (ty (GTupleList))); [first [eassumption|apply G_tok]|]. constructor. Qed.

Lemma production_209 ts w : Forall fine w -> seq_ok [NT 72; T 5; NT 71] ts w -> sym_ok (NT 72) (Node 209 ts) w.
Proof. intros _ H. unpack. hnf. eexists. split; [evaluate; reflexivity|]. eapply (G_nth (GTupleList) 1); [reflexivity|]. cbn [projT1 projT2]. eapply (G_cons (ty (GTupleList))); [first [eassumption|apply G_tok]|]. eapply (G_cons (ty (GTupleList))); [first [eassumption|apply G_tok]|]. eapply (G_cons (ty (GTupleList))); [first [eassumption|apply G_tok]|]. constructor. Qed.

Lemma production_210 ts w : Forall fine w -> seq_ok [NT 50] ts w -> sym_ok (NT 73) (Node 210 ts) w.
Proof. intros _ H. unpack. hnf. eexists. split; [evaluate; reflexivity|]. eapply (G_nth (GUnaryExpression) 0); [reflexivity|]. cbn [projT1 projT2]. eapply (G_cons (ty (GUnaryExpression))); [first [eassumption|apply G_tok]|]. constructor. Qed.

Lemma production_211 ts w : Forall fine w -> seq_ok [T 4; NT 73] ts w -> sym_ok (NT 73) (Node 211 ts) w.
Proof. intros _ H. unpack. hnf. eexists. split; [evaluate; reflexivity|]. eapply (G_nth (GUnaryExpression) 1); [reflexivity|]. cbn [projT1 projT2]. eapply (G_cons (ty (GUnaryExpression))); [first [eassumption|apply G_tok]|]. eapply (G_cons (ty (GUnaryExpression))); [first [eassumption|apply G_tok]|]. constructor. Qed.

Lemma production_212 ts w : Forall fine w -> seq_ok [T 6; NT 73] ts w -> sym_ok (NT 73) (Node 212 ts) w.
Proof. intros _ H. unpack. hnf. eexists. split; [evaluate; reflexivity|]. eapply (G_nth (GUnaryExpression) 2); [reflexivity|]. cbn [projT1 projT2]. eapply (G_cons (ty (GUnaryExpression))); [first [eassumption|apply G_tok]|]. eapply (G_cons (ty (GUnaryExpression))); [first [eassumption|apply G_tok]|]. constructor. Qed.

Lemma production_213 ts w : Forall fine w -> seq_ok [NT 68; T 71; NT 51; T 65; NT 9; NT 77] ts w -> sym_ok (NT 74) (Node 213 ts) w.
Proof. intros _ H. unpack. hnf. eexists. split; [evaluate; reflexivity|]. eapply (G_nth (GUpdateStatement) 0); [reflexivity|]. cbn [projT1 projT2]. eapply G_some; [first [eassumption|apply G_tok]|]. eapply (G_cons (ty (GUpdateStatement))); [first [eassumption|apply G_tok]|]. eapply (G_cons (ty (GUpdateStatement))); [first [eassumption|apply G_tok]|]. eapply (G_cons (ty (GUpdateStatement))); [first [eassumption|apply G_tok]|]. eapply (G_cons (ty (GUpdateStatement))); [first [eassumption|apply G_tok]|]. eapply G_some; [first [eassumption|apply G_tok]|]. constructor. Qed.

Lemma production_214 ts w : Forall fine w -> seq_ok [NT 68; T 71; NT 51; T 65; NT 9] ts w -> sym_ok (NT 74) (Node 214 ts) w.
Proof. intros _ H. unpack. hnf. eexists. split; [evaluate; reflexivity|]. eapply (G_nth (GUpdateStatement) 0); [reflexivity|]. cbn [projT1 projT2]. eapply G_some; [first [eassumption|apply G_tok]|]. eapply (G_cons (ty (GUpdateStatement))); [first [eassumption|apply G_tok]|]. eapply (G_cons (ty (GUpdateStatement))); [first [eassumption|apply G_tok]|]. eapply (G_cons (ty (GUpdateStatement))); [first [eassumption|apply G_tok]|]. eapply (G_cons (ty (GUpdateStatement))); [first [eassumption|apply G_tok]|]. apply G_none. constructor. Qed.

Lemma production_215 ts w : Forall fine w -> seq_ok [T 71; NT 51; T 65; NT 9; NT 77] ts w -> sym_ok (NT 74) (Node 215 ts) w.
Proof. intros _ H. unpack. hnf. eexists. split; [evaluate; reflexivity|]. eapply (G_nth (GUpdateStatement) 0); [reflexivity|]. cbn [projT1 projT2]. apply G_none. eapply (G_cons (ty (GUpdateStatement))); [first [eassumption|apply G_tok]|]. eapply (G_cons (ty (GUpdateStatement))); [first [eassumption|apply G_tok]|]. eapply (G_cons (ty (GUpdateStatement))); [first [eassumption|apply G_tok]|]. eapply (G_cons (ty (GUpdateStatement))); [first [eassumption|apply G_tok]|]. eapply G_some; [first [eassumption|apply G_tok]|]. constructor. Qed.

Lemma production_216 ts w : Forall fine w -> seq_ok [T 71; NT 51; T 65; NT 9] ts w -> sym_ok (NT 74) (Node 216 ts) w.
Proof. intros _ H. unpack. hnf. eexists. split; [evaluate; reflexivity|]. eapply (G_nth (GUpdateStatement) 0); [reflexivity|]. cbn [projT1 projT2]. apply G_none. eapply (G_cons (ty (GUpdateStatement))); [first [eassumption|apply G_tok]|]. eapply (G_cons (ty (GUpdateStatement))); [first [eassumption|apply G_tok]|]. eapply (G_cons (ty (GUpdateStatement))); [first [eassumption|apply G_tok]|]. eapply (G_cons (ty (GUpdateStatement))); [first [eassumption|apply G_tok]|]. apply G_none. constructor. Qed.

Lemma production_217 ts w : Forall fine w -> seq_ok [T 74; NT 23; T 67; NT 23] ts w -> sym_ok (NT 75) (Node 217 ts) w.
Proof. intros _ H. unpack. hnf. eexists. split; [evaluate; reflexivity|]. eapply (G_nth (GWhenClause) 0); [reflexivity|]. cbn [projT1 projT2]. eapply (G_cons (ty (GWhenClause))); [first [eassumption|apply G_tok]|]. eapply (G_cons (ty (GWhenClause))); [first [eassumption|apply G_tok]|]. eapply (G_cons (ty (GWhenClause))); [first [eassumption|apply G_tok]|]. eapply (G_cons (ty (GWhenClause))); [first [eassumption|apply G_tok]|]. constructor. Qed.

Lemma production_218 ts w : Forall fine w -> seq_ok [NT 75] ts w -> sym_ok (NT 76) (Node 218 ts) w.
Proof. intros _ H. unpack. hnf. eexists. split; [evaluate; reflexivity|]. eapply (G_nth (GWhenClauses) 0); [reflexivity|]. cbn [projT1 projT2]. eapply (G_cons (ty (GWhenClauses))); [first [eassumption|apply G_tok]|]. constructor. Qed.

Lemma production_219 ts w : Forall fine w -> seq_ok [NT 76; NT 75] ts w -> sym_ok (NT 76) (Node 219 ts) w.
Proof. intros _ H. unpack. hnf. eexists. split; [evaluate; reflexivity|]. eapply (G_nth (GWhenClauses) 1); [reflexivity|]. cbn [projT1 projT2]. eapply (G_cons (ty (GWhenClauses))); [first [eassumption|apply G_tok]|]. eapply (G_cons (ty (GWhenClauses))); [first [eassumption|apply G_tok]|]. constructor. Qed.

Lemma production_220 ts w : Forall fine w -> seq_ok [T 75; NT 23] ts w -> sym_ok (NT 77) (Node 220 ts) w.
Proof. intros _ H. unpack. hnf. eexists. split; [evaluate; reflexivity|]. eapply (G_nth (GWhereClause) 0); [reflexivity|]. cbn [projT1 projT2]. eapply (G_cons (ty (GWhereClause))); [first [eassumption|apply G_tok]|]. eapply (G_cons (ty (GWhereClause))); [first [eassumption|apply G_tok]|]. constructor. Qed.

Lemma production_221 ts w : Forall fine w -> seq_ok [NT 77] ts w -> sym_ok (NT 78) (Node 221 ts) w.
Proof. intros _ H. unpack. hnf. eexists. split; [evaluate; reflexivity|]. eapply (G_nth (Opt GWhereClause) 1); [reflexivity|]. cbn [projT1 projT2]. eapply (G_cons (ty (Opt GWhereClause))); [first [eassumption|apply G_tok]|]. constructor. Qed.

Lemma production_222 ts w : Forall fine w -> seq_ok [] ts w -> sym_ok (NT 78) (Node 222 ts) w.
Proof. intros _ H. unpack. hnf. eexists. split; [evaluate; reflexivity|]. eapply (G_nth (Opt GWhereClause) 0); [reflexivity|]. cbn [projT1 projT2]. constructor. Qed.

(** Production [p] keeps [sym_ok]. *)
Definition keeps (p : nat) : Prop :=
  match nth_error productions p with
  | Some (lhs, rhs) => forall ts w, Forall fine w -> seq_ok rhs ts w -> sym_ok (NT lhs) (Node p ts) w
  | None => True
  end.

Lemma productions_keep p : keeps p.
Proof.
  destruct p as [|p]; [exact production_0|].
  destruct p as [|p]; [exact production_1|].
  destruct p as [|p]; [exact production_2|].
  destruct p as [|p]; [exact production_3|].
  destruct p as [|p]; [exact production_4|].
  destruct p as [|p]; [exact production_5|].
  destruct p as [|p]; [exact production_6|].
  destruct p as [|p]; [exact production_7|].
  destruct p as [|p]; [exact production_8|].
  destruct p as [|p]; [exact production_9|].
  destruct p as [|p]; [exact production_10|].
  destruct p as [|p]; [exact production_11|].
  destruct p as [|p]; [exact production_12|].
  destruct p as [|p]; [exact production_13|].
  destruct p as [|p]; [exact production_14|].
  destruct p as [|p]; [exact production_15|].
  destruct p as [|p]; [exact production_16|].
  destruct p as [|p]; [exact production_17|].
  destruct p as [|p]; [exact production_18|].
  destruct p as [|p]; [exact production_19|].
  destruct p as [|p]; [exact production_20|].
  destruct p as [|p]; [exact production_21|].
  destruct p as [|p]; [exact production_22|].
  destruct p as [|p]; [exact production_23|].
  destruct p as [|p]; [exact production_24|].
  destruct p as [|p]; [exact production_25|].
  destruct p as [|p]; [exact production_26|].
  destruct p as [|p]; [exact production_27|].
  destruct p as [|p]; [exact production_28|].
  destruct p as [|p]; [exact production_29|].
  destruct p as [|p]; [exact production_30|].
  destruct p as [|p]; [exact production_31|].
  destruct p as [|p]; [exact production_32|].
  destruct p as [|p]; [exact production_33|].
  destruct p as [|p]; [exact production_34|].
  destruct p as [|p]; [exact production_35|].
  destruct p as [|p]; [exact production_36|].
  destruct p as [|p]; [exact production_37|].
  destruct p as [|p]; [exact production_38|].
  destruct p as [|p]; [exact production_39|].
  destruct p as [|p]; [exact production_40|].
  destruct p as [|p]; [exact production_41|].
  destruct p as [|p]; [exact production_42|].
  destruct p as [|p]; [exact production_43|].
  destruct p as [|p]; [exact production_44|].
  destruct p as [|p]; [exact production_45|].
  destruct p as [|p]; [exact production_46|].
  destruct p as [|p]; [exact production_47|].
  destruct p as [|p]; [exact production_48|].
  destruct p as [|p]; [exact production_49|].
  destruct p as [|p]; [exact production_50|].
  destruct p as [|p]; [exact production_51|].
  destruct p as [|p]; [exact production_52|].
  destruct p as [|p]; [exact production_53|].
  destruct p as [|p]; [exact production_54|].
  destruct p as [|p]; [exact production_55|].
  destruct p as [|p]; [exact production_56|].
  destruct p as [|p]; [exact production_57|].
  destruct p as [|p]; [exact production_58|].
  destruct p as [|p]; [exact production_59|].
  destruct p as [|p]; [exact production_60|].
  destruct p as [|p]; [exact production_61|].
  destruct p as [|p]; [exact production_62|].
  destruct p as [|p]; [exact production_63|].
  destruct p as [|p]; [exact production_64|].
  destruct p as [|p]; [exact production_65|].
  destruct p as [|p]; [exact production_66|].
  destruct p as [|p]; [exact production_67|].
  destruct p as [|p]; [exact production_68|].
  destruct p as [|p]; [exact production_69|].
  destruct p as [|p]; [exact production_70|].
  destruct p as [|p]; [exact production_71|].
  destruct p as [|p]; [exact production_72|].
  destruct p as [|p]; [exact production_73|].
  destruct p as [|p]; [exact production_74|].
  destruct p as [|p]; [exact production_75|].
  destruct p as [|p]; [exact production_76|].
  destruct p as [|p]; [exact production_77|].
  destruct p as [|p]; [exact production_78|].
  destruct p as [|p]; [exact production_79|].
  destruct p as [|p]; [exact production_80|].
  destruct p as [|p]; [exact production_81|].
  destruct p as [|p]; [exact production_82|].
  destruct p as [|p]; [exact production_83|].
  destruct p as [|p]; [exact production_84|].
  destruct p as [|p]; [exact production_85|].
  destruct p as [|p]; [exact production_86|].
  destruct p as [|p]; [exact production_87|].
  destruct p as [|p]; [exact production_88|].
  destruct p as [|p]; [exact production_89|].
  destruct p as [|p]; [exact production_90|].
  destruct p as [|p]; [exact production_91|].
  destruct p as [|p]; [exact production_92|].
  destruct p as [|p]; [exact production_93|].
  destruct p as [|p]; [exact production_94|].
  destruct p as [|p]; [exact production_95|].
  destruct p as [|p]; [exact production_96|].
  destruct p as [|p]; [exact production_97|].
  destruct p as [|p]; [exact production_98|].
  destruct p as [|p]; [exact production_99|].
  destruct p as [|p]; [exact production_100|].
  destruct p as [|p]; [exact production_101|].
  destruct p as [|p]; [exact production_102|].
  destruct p as [|p]; [exact production_103|].
  destruct p as [|p]; [exact production_104|].
  destruct p as [|p]; [exact production_105|].
  destruct p as [|p]; [exact production_106|].
  destruct p as [|p]; [exact production_107|].
  destruct p as [|p]; [exact production_108|].
  destruct p as [|p]; [exact production_109|].
  destruct p as [|p]; [exact production_110|].
  destruct p as [|p]; [exact production_111|].
  destruct p as [|p]; [exact production_112|].
  destruct p as [|p]; [exact production_113|].
  destruct p as [|p]; [exact production_114|].
  destruct p as [|p]; [exact production_115|].
  destruct p as [|p]; [exact production_116|].
  destruct p as [|p]; [exact production_117|].
  destruct p as [|p]; [exact production_118|].
  destruct p as [|p]; [exact production_119|].
  destruct p as [|p]; [exact production_120|].
  destruct p as [|p]; [exact production_121|].
  destruct p as [|p]; [exact production_122|].
  destruct p as [|p]; [exact production_123|].
  destruct p as [|p]; [exact production_124|].
  destruct p as [|p]; [exact production_125|].
  destruct p as [|p]; [exact production_126|].
  destruct p as [|p]; [exact production_127|].
  destruct p as [|p]; [exact production_128|].
  destruct p as [|p]; [exact production_129|].
  destruct p as [|p]; [exact production_130|].
  destruct p as [|p]; [exact production_131|].
  destruct p as [|p]; [exact production_132|].
  destruct p as [|p]; [exact production_133|].
  destruct p as [|p]; [exact production_134|].
  destruct p as [|p]; [exact production_135|].
  destruct p as [|p]; [exact production_136|].
  destruct p as [|p]; [exact production_137|].
  destruct p as [|p]; [exact production_138|].
  destruct p as [|p]; [exact production_139|].
  destruct p as [|p]; [exact production_140|].
  destruct p as [|p]; [exact production_141|].
  destruct p as [|p]; [exact production_142|].
  destruct p as [|p]; [exact production_143|].
  destruct p as [|p]; [exact production_144|].
  destruct p as [|p]; [exact production_145|].
  destruct p as [|p]; [exact production_146|].
  destruct p as [|p]; [exact production_147|].
  destruct p as [|p]; [exact production_148|].
  destruct p as [|p]; [exact production_149|].
  destruct p as [|p]; [exact production_150|].
  destruct p as [|p]; [exact production_151|].
  destruct p as [|p]; [exact production_152|].
  destruct p as [|p]; [exact production_153|].
  destruct p as [|p]; [exact production_154|].
  destruct p as [|p]; [exact production_155|].
  destruct p as [|p]; [exact production_156|].
  destruct p as [|p]; [exact production_157|].
  destruct p as [|p]; [exact production_158|].
  destruct p as [|p]; [exact production_159|].
  destruct p as [|p]; [exact production_160|].
  destruct p as [|p]; [exact production_161|].
  destruct p as [|p]; [exact production_162|].
  destruct p as [|p]; [exact production_163|].
  destruct p as [|p]; [exact production_164|].
  destruct p as [|p]; [exact production_165|].
  destruct p as [|p]; [exact production_166|].
  destruct p as [|p]; [exact production_167|].
  destruct p as [|p]; [exact production_168|].
  destruct p as [|p]; [exact production_169|].
  destruct p as [|p]; [exact production_170|].
  destruct p as [|p]; [exact production_171|].
  destruct p as [|p]; [exact production_172|].
  destruct p as [|p]; [exact production_173|].
  destruct p as [|p]; [exact production_174|].
  destruct p as [|p]; [exact production_175|].
  destruct p as [|p]; [exact production_176|].
  destruct p as [|p]; [exact production_177|].
  destruct p as [|p]; [exact production_178|].
  destruct p as [|p]; [exact production_179|].
  destruct p as [|p]; [exact production_180|].
  destruct p as [|p]; [exact production_181|].
  destruct p as [|p]; [exact production_182|].
  destruct p as [|p]; [exact production_183|].
  destruct p as [|p]; [exact production_184|].
  destruct p as [|p]; [exact production_185|].
  destruct p as [|p]; [exact production_186|].
  destruct p as [|p]; [exact production_187|].
  destruct p as [|p]; [exact production_188|].
  destruct p as [|p]; [exact production_189|].
  destruct p as [|p]; [exact production_190|].
  destruct p as [|p]; [exact production_191|].
  destruct p as [|p]; [exact production_192|].
  destruct p as [|p]; [exact production_193|].
  destruct p as [|p]; [exact production_194|].
  destruct p as [|p]; [exact production_195|].
  destruct p as [|p]; [exact production_196|].
  destruct p as [|p]; [exact production_197|].
  destruct p as [|p]; [exact production_198|].
  destruct p as [|p]; [exact production_199|].
  destruct p as [|p]; [exact production_200|].
  destruct p as [|p]; [exact production_201|].
  destruct p as [|p]; [exact production_202|].
  destruct p as [|p]; [exact production_203|].
  destruct p as [|p]; [exact production_204|].
  destruct p as [|p]; [exact production_205|].
  destruct p as [|p]; [exact production_206|].
  destruct p as [|p]; [exact production_207|].
  destruct p as [|p]; [exact production_208|].
  destruct p as [|p]; [exact production_209|].
  destruct p as [|p]; [exact production_210|].
  destruct p as [|p]; [exact production_211|].
  destruct p as [|p]; [exact production_212|].
  destruct p as [|p]; [exact production_213|].
  destruct p as [|p]; [exact production_214|].
  destruct p as [|p]; [exact production_215|].
  destruct p as [|p]; [exact production_216|].
  destruct p as [|p]; [exact production_217|].
  destruct p as [|p]; [exact production_218|].
  destruct p as [|p]; [exact production_219|].
  destruct p as [|p]; [exact production_220|].
  destruct p as [|p]; [exact production_221|].
  destruct p as [|p]; [exact production_222|].
  destruct p; exact I.
Qed.

Lemma production_ok p lhs rhs ts w : nth_error productions p = Some (lhs, rhs) -> Forall fine w -> seq_ok rhs ts w ->
  sym_ok (NT lhs) (Node p ts) w.
Proof. intros E. pose proof (productions_keep p) as K. unfold keeps in K. rewrite E in K. apply K. Qed.

Lemma tree_ok :
  (forall X t w, derives productions X t w -> Forall fine w -> sym_ok X t w) /\
  (forall Xs ts w, derives_all productions Xs ts w -> Forall fine w -> seq_ok Xs ts w).
Proof.
  apply (derives_both productions (fun X t w _ => Forall fine w -> sym_ok X t w) (fun Xs ts w _ => Forall fine w -> seq_ok Xs ts w)).
  - intros t s _. hnf. eauto.
  - intros p lhs rhs ts w E _ IH F. eapply production_ok; eauto.
  - intros _. split; reflexivity.
  - intros X t w Xs ts ws _ IH1 _ IH2 F. apply Forall_app in F as [F1 F2]. exists t, ts, w, ws. auto.
Qed.

