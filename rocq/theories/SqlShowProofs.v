(** * Every grammatical statement is parsed from some text *)

From Coq Require Import Strings.String Lia ZifyBool.
From Verif Require Import Base StrModel JsonModel SqlNameModel SqlModel SqlInd LrModel LexSpec LexModel SqlGrammar SqlWords SqlParseModel
  SqlTrees SqlLexProofs SqlParseTop SqlCheckSpec SqlCheckProofs SqlShow.
Local Open Scope list_scope.
Local Notation G := grammatical.
Local Notation lit := JsonModel.lit.

(** ** Words separated by spaces are read back *)

Lemma space_quoted t w : sql_word t w -> In 32%Z w -> quoted w.
Proof.
  intros H I. apply word_pattern in H as (j & L & -> & H). destruct (Nat.lt_ge_cases j 5) as [C|C].
  - destruct j as [|[|[|[|[|j]]]]]; [exact H|..|lia]; exfalso.
    + destruct H as (ds & -> & _ & F). destruct I as [I|[I|I]]; [discriminate|discriminate|]. rewrite Forall_forall in F. apply F in I. unfold hex_digit, digit in I. lia.
    + destruct H as (ds & f & e & -> & _ & F & Hf & He). rewrite Forall_forall in F. rewrite !in_app_iff in I. destruct I as [I|[I|I]].
      * apply F in I. unfold digit in I. lia.
      * destruct Hf as [->|(fs & -> & Ff)]; [destruct I|]. destruct I as [I|I]; [discriminate|]. rewrite Forall_forall in Ff. apply Ff in I. unfold digit in I. lia.
      * destruct He as [->|(sg & ds' & -> & Sg & _ & Fd)]; [destruct I|]. destruct I as [I|I]; [discriminate|]. rewrite in_app_iff in I. destruct I as [I|I].
        { destruct Sg as [->|[->| ->]]; cbn in I; lia. }
        { rewrite Forall_forall in Fd. apply Fd in I. unfold digit in I. lia. }
    + destruct H as (c & cs & -> & S0 & F). destruct I as [->|I]; [unfold name_start in S0; lia|]. rewrite Forall_forall in F. apply F in I.
      unfold name_char, name_start, digit in I. lia.
    + destruct H as (ds & e & -> & _ & F & He). rewrite Forall_forall in F. destruct I as [I|I]; [discriminate|]. rewrite in_app_iff in I. destruct I as [I|I].
      * apply F in I. unfold digit in I. lia.
      * destruct He as [->|(sg & ds' & -> & Sg & _ & Fd)]; [destruct I|]. destruct I as [I|I]; [discriminate|]. rewrite in_app_iff in I. destruct I as [I|I].
        { destruct Sg as [->|[->| ->]]; cbn in I; lia. }
        { rewrite Forall_forall in Fd. apply Fd in I. unfold digit in I. lia. }
  - exfalso. assert (R : (5 <= j < 83)%nat) by lia. rewrite (W_fixed j w R) in H.
    assert (A : forallb (fun j => forallb (fun k => negb (k =? 32)%Z) (lit (terminal_name (sql_terminal j)))) (seq 5 78) = true) by (vm_compute; reflexivity).
    rewrite forallb_forall in A. specialize (A j ltac:(apply in_seq; lia)).
    set (l0 := lit (terminal_name (sql_terminal j))) in *. clearbody l0. induction H as [|c k w l Sm F IH]; [destruct I|]. cbn [forallb] in A. apply andb_prop in A as [A1 A2].
    destruct I as [->|I]; [unfold same_letter in Sm; lia|exact (IH I A2)].
Qed.

Lemma quote_quoted t w : sql_word t (39%Z :: w) -> quoted (39%Z :: w).
Proof.
  intros H. apply word_pattern in H as (j & L & -> & H). destruct (W_head j _ L H) as (c & w' & E & K). injection E as <- <-.
  destruct (Nat.lt_ge_cases j 5) as [C|C].
  - destruct j as [|[|[|[|[|j]]]]]; [exact H|..|lia]; cbn [head_ok] in K; unfold digit, name_start in K; lia.
  - destruct (head_kind j _ L K) as [_ K2]. destruct (K2 C) as [K3 _]. contradiction.
Qed.

Lemma quoted_prefix w w' : quoted w -> quoted (w ++ w') -> w' = [].
Proof.
  intros (cs & -> & F) (cs' & E & F'). cbn [app] in E. injection E as E. destruct w' as [|x w'] using rev_ind; [reflexivity|exfalso].
  rewrite !app_assoc in E. apply app_inj_tail in E as [E _]. rewrite <- E in F'. rewrite <- app_assoc in F'. apply Forall_app in F' as [_ F'].
  apply Forall_inv in F'. unfold quotable in F'. lia.
Qed.

Lemma word_full t w : sql_word t w -> w <> [].
Proof. intros H ->. apply word_pattern in H as (j & L & -> & H). exact (full j L H). Qed.

Lemma longer_prefix (w w' rest s : list Z) c : w ++ c :: s = w' ++ rest -> (size w < size w')%nat -> exists x, w' = w ++ c :: x.
Proof.
  revert w'. induction w as [|a w IH]; intros [|b w'] E L; cbn in L; try lia; injection E as -> E.
  - exists w'. reflexivity.
  - destruct (IH w' E ltac:(lia)) as [x ->]. exists x. reflexivity.
Qed.

Lemma at_most_space t w s : sql_word t w -> at_most sql_word (size w) (w ++ 32%Z :: s).
Proof.
  intros H t' w' rest E H'. destruct (Nat.le_gt_cases (size w') (size w)) as [C|C]; [exact C|exfalso].
  pose proof (longer_prefix _ _ _ _ _ E C) as P.
  destruct P as [x ->]. assert (Q : quoted (w ++ 32%Z :: x)) by (apply (space_quoted t' _ H'); apply in_or_app; right; left; reflexivity).
  pose proof Q as (cs & E' & _). destruct w as [|c w]; [exact (word_full _ _ H eq_refl)|]. injection E' as -> _.
  apply quote_quoted in H. pose proof (quoted_prefix _ _ H Q). discriminate.
Qed.

Lemma tok_ok_prefers t w : tok_ok (t, w) -> forall t', sql_word t' w -> t' = t \/ sql_prefer t t'.
Proof.
  intros [H U] t' H'. cbn [fst snd] in *. apply word_pattern in H as (i & L & E & H). pose proof H' as H2.
  apply word_pattern in H' as (j & L' & E' & H'). destruct (Nat.lt_trichotomy i j) as [C|[C|C]].
  - left. destruct (prefers j i w L' C H' H) as [[_ P] _]. rewrite <- E in P. rewrite P. exact (U P _ H2).
  - left. congruence.
  - right. subst t t'. exact (proj1 (prefers i j w L C H H')).
Qed.

Lemma text_lexes toks : Forall tok_ok toks -> sql_lexes (text_of toks) toks [].
Proof.
  induction 1 as [|[t w] toks H _ IH]; [constructor|]. cbn [text_of flat_map snd]. rewrite <- app_assoc. cbn [app].
  apply L_word; [exact (word_full t w (proj1 H))|exact (proj1 H)|exact (at_most_space t w _ (proj1 H))|exact (tok_ok_prefers t w H)|].
  apply L_blank; [reflexivity|exact IH].
Qed.

(** ** Phrases of good words *)

Definition says (n : nonterm) (w : list LrModel.token) (v : ty n) : Prop := gram n w v /\ Forall tok_ok w.
Definition says_all (A : Type) (l : list nonterm) (w : list LrModel.token) (f : arrows l A) (v : A) : Prop := gram_all A l w f v /\ Forall tok_ok w.

Lemma S_nth n k r w w' v v' : nth_error (rules n) k = Some r -> says_all (ty n) (projT1 r) w' (projT2 r) v' -> w = w' -> v = v' -> says n w v.
Proof. intros E [H F] -> ->. split; [exact (G_nth n k r w' v' E H)|exact F]. Qed.

Lemma S_nil A v : says_all A [] [] v v.
Proof. split; constructor. Qed.

Lemma S_cons A n l w w' x f v : says n w x -> says_all A l w' (f x) v -> says_all A (n :: l) (w ++ w') f v.
Proof. intros [H F] [H' F']. split; [apply (G_cons A n l w w' x f v H H')|apply Forall_app; auto]. Qed.

Lemma index_of_found s l : existsb (String.eqb s) l = true -> nth_error l (index_of s l) = Some s.
Proof.
  induction l as [|s' l IH]; [discriminate|]. cbn [existsb index_of]. destruct (String.eqb_spec s s') as [->|N]; [reflexivity|exact IH].
Qed.

Lemma kw_ok s : existsb (String.eqb s) terminals = true -> special s = false -> tok_ok (kw s).
Proof.
  intros I Sp. pose proof (index_of_found s terminals I) as N. split; cbn [kw fst snd].
  - exists s. split; [exact N|]. rewrite shape_fixed by exact Sp. induction (lit s) as [|c l IH]; constructor; [left; reflexivity|exact IH].
  - intros E. exfalso. fold (terminal s) in N. rewrite E in N. vm_compute in N. injection N as <-. discriminate.
Qed.

Lemma S_kw s : existsb (String.eqb s) terminals = true -> special s = false -> says (Tok s) [kw s] (lit s).
Proof. intros I Sp. split; [apply G_tok|]. constructor; [exact (kw_ok s I Sp)|constructor]. Qed.

(** ** Lists *)

Section Lists.
Context {A : Type} (f : A -> list LrModel.token) (P : list LrModel.token -> A -> Prop) (Q : list LrModel.token -> list A -> Prop).

Lemma sep_snoc c l x : l <> [] -> sep f c (l ++ [x]) = sep f c l ++ [c] ++ f x.
Proof.
  induction l as [|a l IH]; [contradiction|]. intros _. destruct l as [|b l]; [reflexivity|].
  change (sep f c ((a :: b :: l) ++ [x])) with (f a ++ [c] ++ sep f c ((b :: l) ++ [x])). rewrite IH by discriminate.
  change (sep f c (a :: b :: l)) with (f a ++ [c] ++ sep f c (b :: l)). rewrite <- !app_assoc. reflexivity.
Qed.

Lemma sep_says c : (forall w x, P w x -> Q w [x]) -> (forall w l w' x, Q w l -> P w' x -> Q (w ++ [c] ++ w') (l ++ [x])) ->
  forall l, Forall (fun x => P (f x) x) l -> l <> [] -> Q (sep f c l) l.
Proof.
  intros B St l. induction l as [|x l IH] using rev_ind; [contradiction|]. intros F _. apply Forall_app in F as [F Fx]. apply Forall_inv in Fx.
  destruct l as [|a l]; [exact (B _ _ Fx)|]. rewrite sep_snoc by discriminate. apply St; [apply IH; [exact F|discriminate]|exact Fx].
Qed.

Lemma concat_says : (forall w x, P w x -> Q w [x]) -> (forall w l w' x, Q w l -> P w' x -> Q (w ++ w') (l ++ [x])) ->
  forall l, Forall (fun x => P (f x) x) l -> l <> [] -> Q (List.concat (map f l)) l.
Proof.
  intros B St l. induction l as [|x l IH] using rev_ind; [contradiction|]. intros F _. apply Forall_app in F as [F Fx]. apply Forall_inv in Fx.
  rewrite map_app, concat_app. cbn [map List.concat]. rewrite app_nil_r.
  destruct l as [|a l]; [exact (B _ _ Fx)|]. apply St; [apply IH; [exact F|discriminate]|exact Fx].
Qed.
End Lists.

(** ** Building phrases *)

Lemma S_yes {n w x} : says n w x -> says (Opt n) w (Some x).
Proof.
  intros [H F]. split; [|exact F]. apply (G_rule (Opt n) [n] Some); [right; left; reflexivity|].
  rewrite <- (app_nil_r w). apply (G_cons (ty (Opt n)) n [] w [] x Some (Some x) H). constructor.
Qed.

Lemma S_no n : says (Opt n) [] None.
Proof. split; [|constructor]. apply (G_rule (Opt n) [] None); [left; reflexivity|constructor]. Qed.

Lemma S_maybe n f before o : if_some (fun a => says n (before ++ f a) a) o -> says (Opt n) (opt_show f before o) o.
Proof. destruct o as [a|]; cbn [opt_show if_some]; [apply S_yes|intros _; apply S_no]. Qed.

Ltac toks := repeat (eapply S_cons; [apply S_kw; reflexivity|cbv beta]).
Ltac feed h := eapply S_cons; [exact h|cbv beta]; toks.
Ltac start n k := eapply (S_nth n k); [reflexivity|cbn [projT1 projT2]; toks|..].
Ltac same := cbn [opt_show]; unfold paren; rewrite ?app_nil_r, <- ?app_assoc; reflexivity.
Ltac fin := [> apply S_nil | try same | try reflexivity ..].
Tactic Notation "say" constr(n) constr(k) := start n k; fin.
Tactic Notation "say" constr(n) constr(k) "by" constr(a) := start n k; [> feed a|..]; fin.
Tactic Notation "say" constr(n) constr(k) "by" constr(a) "," constr(b) := start n k; [> feed a; feed b|..]; fin.
Tactic Notation "say" constr(n) constr(k) "by" constr(a) "," constr(b) "," constr(c) := start n k; [> feed a; feed b; feed c|..]; fin.
Tactic Notation "say" constr(n) constr(k) "by" constr(a) "," constr(b) "," constr(c) "," constr(d) :=
  start n k; [> feed a; feed b; feed c; feed d|..]; fin.
Tactic Notation "say" constr(n) constr(k) "by" constr(a) "," constr(b) "," constr(c) "," constr(d) "," constr(e) :=
  start n k; [> feed a; feed b; feed c; feed d; feed e|..]; fin.

(** From a primary expression upwards. *)
Lemma up_unary w e : says GPrimaryExpression w e -> says GUnaryExpression w e.
Proof. intros H. say GUnaryExpression 0 by H. Qed.
Lemma up_mult w e : says GUnaryExpression w e -> says GMultiplicativeExpression w e.
Proof. intros H. say GMultiplicativeExpression 0 by H. Qed.
Lemma up_add w e : says GMultiplicativeExpression w e -> says GAdditiveExpression w e.
Proof. intros H. say GAdditiveExpression 0 by H. Qed.
Lemma up_cmp w e : says GAdditiveExpression w e -> says GComparativeExpression w e.
Proof. intros H. say GComparativeExpression 0 by H. Qed.
Lemma up_complex w e : says GComparativeExpression w e -> says GComplexExpression w e.
Proof. intros H. say GComplexExpression 0 by H. Qed.
Lemma up_case w e : says GCaseExpression w e -> says GComplexExpression w e.
Proof. intros H. say GComplexExpression 1 by H. Qed.
Lemma up_not w e : says GComplexExpression w e -> says GNotExpression w e.
Proof. intros H. say GNotExpression 0 by H. Qed.
Lemma up_and w e : says GNotExpression w e -> says GAndExpression w e.
Proof. intros H. say GAndExpression 0 by H. Qed.
Lemma up_or w e : says GAndExpression w e -> says GOrExpression w e.
Proof. intros H. say GOrExpression 0 by H. Qed.
Lemma up_expr w e : says GOrExpression w e -> says GExpression w e.
Proof. intros H. say GExpression 0 by H. Qed.

#[local] Hint Resolve up_unary up_mult up_add up_cmp up_complex up_case up_not up_and up_or up_expr : up.
Ltac up := eauto 12 with up nocore.

(** A phrase of this level (see [level]). *)
Definition at_level (l : nat) (w : list LrModel.token) (e : expr) : Prop :=
  match l with
  | 0 => says GOrExpression w e
  | 1 => says GAndExpression w e
  | 2 => says GNotExpression w e
  | 3 => says GComplexExpression w e
  | 4 => says GComparativeExpression w e
  | 5 => says GAdditiveExpression w e
  | 6 => says GMultiplicativeExpression w e
  | 7 => says GUnaryExpression w e
  | _ => says GPrimaryExpression w e
  end.

Lemma at_lower l w e : at_level (S l) w e -> at_level l w e.
Proof. do 8 (destruct l as [|l]; [cbn [at_level]; up|]). exact (fun H => H). Qed.

Lemma at_low l l' w e : l' <= l -> at_level l w e -> at_level l' w e.
Proof. induction 1 as [|l L IH]; [auto|]. intros H. apply IH, at_lower, H. Qed.

Lemma at_expr l w e : at_level l w e -> says GExpression w e.
Proof. intros H. apply up_expr. exact (at_low l 0 w e ltac:(lia) H). Qed.

Lemma one_expr w e : says GExpression w e -> says GExpressionList w [e].
Proof. intros H. say GExpressionList 0 by H. Qed.

Lemma in_parens w e : says GExpression w e -> says GPrimaryExpression (paren w) e.
Proof. intros H. say GPrimaryExpression 0 by (one_expr w e H). Qed.

Definition good_expr (e : expr) : Prop := at_level (level e) (show e) e.

Lemma good_says e : good_expr e -> says GExpression (show e) e.
Proof. apply at_expr. Qed.

Lemma wrap_says l e : l <= 8 -> good_expr e -> at_level l (wrap l e (show e)) e.
Proof.
  intros L H. unfold wrap. destruct (Nat.leb_spec l (level e)) as [C|C]; [exact (at_low _ _ _ _ C H)|].
  apply (at_low 8 l _ _ L). exact (in_parens _ _ (good_says e H)).
Qed.

Lemma exprs_say l : Forall good_expr l -> l <> [] -> says GExpressionList (sep show (kw ",") l) l.
Proof.
  intros F. apply (sep_says show (says GExpression) (says GExpressionList)).
  - apply one_expr.
  - intros w l' w' x H H'. say GExpressionList 1 by H, H'.
  - revert F. apply Forall_impl. apply good_says.
Qed.

Lemma name_says n : proper_name n -> says GIdentifier (show_name n) n.
Proof.
  intros [I U]. eapply (S_nth GIdentifier 0); [reflexivity|cbn [projT1 projT2]|..].
  - eapply S_cons; [|apply S_nil]. split; [apply G_tok|]. constructor; [|constructor]. split; [|intros _; exact U]. exists "ID"%string. split; [reflexivity|exact I].
  - reflexivity.
  - reflexivity.
Qed.

Lemma names_say l : l <> [] -> each proper_name l -> says GIdentifierList (show_names l) l.
Proof.
  intros N F. apply each_Forall in F. apply (sep_says show_name (says GIdentifier) (says GIdentifierList)); [..|exact N].
  - intros w x H. say GIdentifierList 0 by H.
  - intros w l' w' x H H'. say GIdentifierList 1 by H, H'.
  - revert F. apply Forall_impl. apply name_says.
Qed.

Lemma path_says q : on_path G q -> says GQualifiedIdentifier (show_path q) q.
Proof.
  intros [L H]. destruct q as [|a [|b [|c [|d q]]]]; cbn in L; try lia; cbn [each] in H.
  - say GQualifiedIdentifier 0 by (name_says a (proj1 H)).
  - destruct H as (H1 & H2 & _). say GQualifiedIdentifier 1 by (name_says a H1), (name_says b H2).
  - destruct H as (H1 & H2 & H3 & _). say GQualifiedIdentifier 2 by (name_says a H1), (name_says b H2), (name_says c H3).
Qed.

Lemma tok_says t w : special t = true -> t <> "ID"%string -> existsb (String.eqb t) terminals = true -> shape t w ->
  says (Tok t) [(terminal t, w)] w.
Proof.
  intros _ N I Sh. pose proof (index_of_found t terminals I) as E. split; [apply G_tok|]. constructor; [|constructor]. split; cbn [fst snd].
  - exists t. split; [exact E|exact Sh].
  - intros E'. exfalso. fold (terminal t) in E. rewrite E' in E. vm_compute in E. injection E as <-. exact (N eq_refl).
Qed.

Lemma string_says s : Forall quotable s -> says GStringLiteral (show_string s) s.
Proof.
  intros F. eapply (S_nth GStringLiteral 0); [reflexivity|cbn [projT1 projT2]|..].
  - eapply S_cons; [|apply S_nil]. apply (tok_says "STRING_LIT"); [reflexivity|discriminate|reflexivity|]. exists s. split; [reflexivity|exact F].
  - reflexivity.
  - cbn [tl]. rewrite removelast_last. reflexivity.
Qed.

Lemma number_says s : number s \/ fraction s \/ hexadecimal s -> says GNumericLiteral (show_number s) s.
Proof.
  intros [H|[H|H]]; unfold show_number.
  - assert (E : (nth 0 s 0 =? 46)%Z = false /\ (nth 1 s 0 =? 120)%Z = false).
    { destruct H as (ds & f & e & -> & N & F & Hf & He). destruct ds as [|d ds]; [contradiction|]. pose proof (Forall_inv F) as D. unfold digit in D. cbn [nth app].
      split; [lia|]. destruct ds as [|d' ds].
      - destruct Hf as [->|(fs & -> & _)]; [|reflexivity]. destruct He as [->|(sg & x & -> & _)]; reflexivity.
      - apply Forall_inv_tail, Forall_inv in F. unfold digit in F. cbn. lia. }
    destruct E as [-> ->]. eapply (S_nth GNumericLiteral 0); [reflexivity|cbn [projT1 projT2]|reflexivity|reflexivity].
    eapply (S_cons _ _ _ [_] []); [|apply S_nil]. apply (tok_says "NUMERIC_LIT_1"); [reflexivity|discriminate|reflexivity|exact H].
  - assert (E : (nth 0 s 0 =? 46)%Z = true) by (destruct H as (ds & e & -> & _); reflexivity).
    rewrite E. eapply (S_nth GNumericLiteral 1); [reflexivity|cbn [projT1 projT2]|reflexivity|reflexivity].
    eapply (S_cons _ _ _ [_] []); [|apply S_nil]. apply (tok_says "NUMERIC_LIT_2"); [reflexivity|discriminate|reflexivity|exact H].
  - assert (E : (nth 0 s 0 =? 46)%Z = false /\ (nth 1 s 0 =? 120)%Z = true) by (destruct H as (ds & -> & _); split; reflexivity).
    destruct E as [-> ->]. eapply (S_nth GNumericLiteral 2); [reflexivity|cbn [projT1 projT2]|reflexivity|reflexivity].
    eapply (S_cons _ _ _ [_] []); [|apply S_nil]. apply (tok_says "HEX_LIT"); [reflexivity|discriminate|reflexivity|exact H].
Qed.

Lemma literal_says l : proper_literal l -> says GLiteralValue (show_literal l) l.
Proof.
  destruct l as [s|s| | | | |s|s|s]; cbn [proper_literal show_literal]; intros H.
  - say GLiteralValue 1 by (string_says s H).
  - say GLiteralValue 0 by (number_says s H).
  - say GLiteralValue 2.
  - say GLiteralValue 3.
  - say GLiteralValue 4.
  - say GLiteralValue 5.
  - say GLiteralValue 6 by (string_says s H).
  - say GLiteralValue 7 by (string_says s H).
  - say GLiteralValue 8 by (string_says s H).
Qed.

Lemma alias_says o : maybe proper_name o -> says (Opt GTableAlias) (opt_show show_name [kw "AS"] o) o.
Proof.
  intros H. apply S_maybe. destruct o as [n|]; [|exact I]. cbn [if_some maybe] in *.
  say GTableAlias 0 by (S_yes (S_kw "AS" eq_refl eq_refl)), (name_says n H).
Qed.

Lemma set_op_says op : says GCompoundOperator (set_op_tokens op) op.
Proof. destruct op; [say GCompoundOperator 2|say GCompoundOperator 3|say GCompoundOperator 0|say GCompoundOperator 1]. Qed.

Lemma join_type_says t : says GJoinType [join_type_token t] t.
Proof.
  destruct t; [say GJoinType 3|..].
  - say GJoinType 0 by (S_no (Tok "OUTER")).
  - say GJoinType 1 by (S_no (Tok "OUTER")).
  - say GJoinType 2 by (S_no (Tok "OUTER")).
Qed.

Lemma join_says op : says GJoinOperator (join_tokens op) op.
Proof.
  destruct op as [t|t|]; cbn [join_tokens].
  - say GJoinOperator 0 by (S_yes (join_type_says t)).
  - say GJoinOperator 1 by (S_yes (join_type_says t)).
  - say GJoinOperator 2.
Qed.

Lemma each_mp {A} (P Q : A -> Prop) l : Forall (fun x => P x -> Q x) l -> each P l -> Forall Q l.
Proof. induction 1 as [|a l H _ IH]; cbn; [constructor|]. intros [H1 H2]. constructor; auto. Qed.

Lemma maybe_mp {A} (P Q : A -> Prop) o : if_some (fun x => P x -> Q x) o -> maybe P o -> if_some Q o.
Proof. destruct o; cbn; auto. Qed.

Lemma where_says o : if_some good_expr o -> says (Opt GWhereClause) (opt_show show [kw "WHERE"] o) o.
Proof. intros H. apply S_maybe. destruct o as [e|]; [|exact I]. cbn [if_some] in *. say GWhereClause 0 by (good_says _ H). Qed.

Lemma columns_say (o : option (list name)) : maybe (on_names G) o ->
  says (Opt GColumnNameList) match o with Some l => paren (show_names l) | None => [] end o.
Proof.
  destruct o as [l|]; cbn [maybe]; [|intros _; apply S_no]. intros [N H]. apply (S_yes (n := GColumnNameList)). say GColumnNameList 0 by (names_say l N H).
Qed.

Lemma order_good order : Forall (fun o => good_expr (fst (fst o)) /\ maybe proper_name (snd (fst o))) order ->
  exists o, says (Opt GOrderByClause) match order with [] => [] | _ => [kw "ORDER"; kw "BY"] ++ sep (fun o => show (fst (fst o)) ++
        opt_show show_name [kw "COLLATE"] (snd (fst o)) ++ [match snd o with Ascending => kw "ASC" | Descending => kw "DESC" end]) (kw ",") order end o /\
        default o [] = order.
Proof.
  intros Ho. destruct order as [|x order]; [exists None; split; [apply S_no|reflexivity]|]. exists (Some (x :: order)). split; [|reflexivity].
  apply (S_yes (n := GOrderByClause)).
  assert (K : says GOrderingTermList (sep (fun o => show (fst (fst o)) ++ opt_show show_name [kw "COLLATE"] (snd (fst o)) ++
    [match snd o with Ascending => kw "ASC" | Descending => kw "DESC" end]) (kw ",") (x :: order)) (x :: order)).
  { apply (sep_says _ (says GOrderingTerm) (says GOrderingTermList)); [..|discriminate].
    - intros w y H. say GOrderingTermList 0 by H.
    - intros w l w' y H H'. say GOrderingTermList 1 by H, H'.
    - revert Ho. apply Forall_impl. intros [[a c] d] [Ha Hb]. cbn [fst snd] in *.
      assert (C : says (Opt GOrderingCollation) (opt_show show_name [kw "COLLATE"] c) c).
      { apply S_maybe. destruct c as [c|]; [|exact Logic.I]. cbn [if_some maybe] in *. say GOrderingCollation 0 by (name_says c Hb). }
      assert (D : says GOrderingDirection [match d with Ascending => kw "ASC" | Descending => kw "DESC" end] d).
      { destruct d; [say GOrderingDirection 0 by (S_yes (S_kw "ASC" eq_refl eq_refl))|say GOrderingDirection 1]. }
      say GOrderingTerm 0 by (good_says _ Ha), C, D. }
  say GOrderByClause 0 by K.
Qed.

Theorem show_says :
  (forall e, all_expr G e -> good_expr e) /\
  (forall s, all_spec G s -> forall w e, says GComparativeExpression w e -> says GComparativeExpression (w ++ [kw "IN"] ++ show_spec s) (EIn e s)) /\
  (forall s, all_select G s -> says GSelectStatement (show_select s) s) /\
  (forall c, all_cte G c -> says GCommonTableExpression (show_cte c) c) /\
  (forall e, all_set G e -> says GSelectCoreList (show_set e) e /\ (single e -> says GSelectCore (show_set e) e)) /\
  (forall t, all_table G t -> says GTableOrSubQuery (show_table t) t) /\
  (forall c, all_columns G c -> c <> RList [] -> says GResultColumns (show_columns c) c) /\
  (forall c, all_column G c -> says GResultColumn (show_column c) c).
Proof.
  apply sql_induction.
  - intros l [H _]. hnf; cbn [show level at_level]. say GPrimaryExpression 2 by (literal_says l H).
  - intros q [_ H]. hnf; cbn [show level at_level]. say GPrimaryExpression 3 by (path_says q H).
  - intros es F [L H]. cbn in L. assert (N : es <> []) by (intros ->; cbn in L; lia).
    hnf; cbn [show level at_level]. say GPrimaryExpression 0 by (exprs_say es (each_mp _ _ _ F H) N). destruct es as [|a [|b es]]; cbn in L; try lia. reflexivity.
  - intros s IH [_ H]. hnf; cbn [show level at_level]. say GPrimaryExpression 1 by (IH H).
  - intros op e IH [_ H]. specialize (IH H). destruct op; hnf; cbn [show level at_level].
    + say GUnaryExpression 2 by (wrap_says 7 e ltac:(lia) IH).
    + say GNotExpression 1 by (wrap_says 3 e ltac:(lia) IH).
    + say GComparativeExpression 10 by (wrap_says 4 e ltac:(lia) IH).
  - intros op l r IHl IHr (_ & Hl & Hr). specialize (IHl Hl). specialize (IHr Hr). destruct op; hnf; cbn [show level at_level binary_token].
    + say GMultiplicativeExpression 1 by (wrap_says 6 l ltac:(lia) IHl), (wrap_says 7 r ltac:(lia) IHr).
    + say GMultiplicativeExpression 2 by (wrap_says 6 l ltac:(lia) IHl), (wrap_says 7 r ltac:(lia) IHr).
    + say GAdditiveExpression 1 by (wrap_says 5 l ltac:(lia) IHl), (wrap_says 6 r ltac:(lia) IHr).
    + say GAdditiveExpression 2 by (wrap_says 5 l ltac:(lia) IHl), (wrap_says 6 r ltac:(lia) IHr).
    + say GAdditiveExpression 3 by (wrap_says 5 l ltac:(lia) IHl), (wrap_says 6 r ltac:(lia) IHr).
    + say GAndExpression 1 by (wrap_says 1 l ltac:(lia) IHl), (wrap_says 2 r ltac:(lia) IHr).
    + say GOrExpression 1 by (wrap_says 0 l ltac:(lia) IHl), (wrap_says 1 r ltac:(lia) IHr).
  - intros op l r IHl IHr (_ & Hl & Hr). hnf; cbn [show level at_level].
    pose proof (wrap_says 4 l ltac:(lia) (IHl Hl)) as L. pose proof (wrap_says 5 r ltac:(lia) (IHr Hr)) as R. cbn [at_level] in L, R.
    destruct op; cbn [compare_token]; first
      [ say GComparativeExpression 1 by L, R; fail
      | say GComparativeExpression 2 by L, R; fail | say GComparativeExpression 3 by L, R; fail
      | say GComparativeExpression 4 by L, R; fail | say GComparativeExpression 5 by L, R; fail
      | say GComparativeExpression 6 by L, R; fail | say GComparativeExpression 9 by L, R; fail ].
  - intros e s IHe IHs (_ & He & Hs). exact (IHs Hs _ _ (wrap_says 4 e ltac:(lia) (IHe He))).
  - intros e lo hi I1 I2 I3 (_ & H1 & H2 & H3). hnf; cbn [show level at_level].
    say GComparativeExpression 21 by (wrap_says 4 e ltac:(lia) (I1 H1)), (wrap_says 5 lo ltac:(lia) (I2 H2)), (wrap_says 5 hi ltac:(lia) (I3 H3)).
  - intros o whens els Io Iw Ie (N & Ho & Hw & He). cbn in N. hnf; cbn [show level at_level].
    assert (W : says GWhenClauses (List.concat (map (fun p => [kw "WHEN"] ++ show (fst p) ++ [kw "THEN"] ++ show (snd p)) whens)) whens).
    { apply (concat_says _ (says GWhenClause) (says GWhenClauses)); [..|exact N].
      - intros w x H. say GWhenClauses 0 by H.
      - intros w l w' x H H'. say GWhenClauses 1 by H, H'.
      - apply each_Forall in Hw. rewrite Forall_forall in *. intros [a b] I. destruct (Iw _ I) as [Ia Ib]. destruct (Hw _ I) as [Ha Hb]. cbn [fst snd] in *.
        say GWhenClause 0 by (good_says _ (Ia Ha)), (good_says _ (Ib Hb)). }
    assert (O : says (Opt GExpression) (opt_show show [] o) o).
    { apply S_maybe. apply (maybe_mp _ _ _ Io) in Ho. destruct o; [|exact I]. cbn in *. apply good_says. exact Ho. }
    assert (L : says (Opt GElseClause) (opt_show show [kw "ELSE"] els) els).
    { apply S_maybe. apply (maybe_mp _ _ _ Ie) in He. destruct els; [|exact I]. cbn [if_some] in *. say GElseClause 0 by (good_says _ He). }
    apply up_case. say GCaseExpression 0 by O, W, L.
  - intros s IH H w e K. say GComparativeExpression 17 by K, (IH H).
  - intros es F H w e K. destruct es as [|a es]; [say GComparativeExpression 13 by K|].
    say GComparativeExpression 15 by K, (exprs_say (a :: es) (each_mp _ _ _ F H) ltac:(discriminate)).
  - intros q H w e K. say GComparativeExpression 19 by K, (path_says q H).
  - intros common e order lim Ic Ie Io Il (Hc & He & Ho & Hl). specialize (Ie He).
    assert (O : Forall (fun o => good_expr (fst (fst o)) /\ maybe proper_name (snd (fst o))) order).
    { apply each_Forall in Ho. rewrite Forall_forall in *. intros x I. destruct (Ho x I). split; [exact (Io x I H)|exact H0]. }
    apply order_good in O.
    destruct O as (o & O & Eo).
    assert (L : says (Opt GLimitClause) (opt_show (fun l => show (fst l) ++ opt_show show [kw "OFFSET"] (snd l)) [kw "LIMIT"] lim) lim).
    { apply S_maybe. destruct lim as [[r off]|]; [|exact I]. cbn [if_some maybe fst snd] in *. destruct Il as [I1 I2], Hl as [H1 H2].
      destruct off as [off|].
      - say GLimitClause 2 by (good_says _ (I1 H1)), (good_says _ (I2 H2)).
      - say GLimitClause 0 by (good_says _ (I1 H1)). }
    destruct Ie as [Ie _]. cbn [show_select]. destruct common as [|c common].
    + say GSelectStatement 1 by Ie, O, L. rewrite Eo. reflexivity.
    + assert (K : says GCommonTableExpressionList (sep show_cte (kw ",") (c :: common)) (c :: common)).
      { apply (sep_says _ (says GCommonTableExpression) (says GCommonTableExpressionList)); [..|discriminate].
        - intros w y H. say GCommonTableExpressionList 0 by H.
        - intros w l w' y H H'. say GCommonTableExpressionList 1 by H, H'.
        - exact (each_mp _ _ _ Ic Hc). }
      assert (K' : says GTableExpressions ([kw "WITH"] ++ sep show_cte (kw ",") (c :: common)) (c :: common)) by (say GTableExpressions 0 by K).
      say GSelectStatement 0 by K', Ie, O, L. rewrite Eo. reflexivity.
  - intros id columns q IH (H1 & H2 & H3). cbn [show_cte]. destruct columns as [l|].
    + cbn [maybe] in H2. say GCommonTableExpression 1 by (name_says id H1), (names_say l (proj1 H2) (proj2 H2)), (IH H3).
    + say GCommonTableExpression 0 by (name_says id H1), (IH H3).
  - intros rows F [[N M] H]. cbn [show_set]. assert (K : says GTupleList (sep (fun row => paren (sep show (kw ",") row)) (kw ",") rows) rows).
    { apply (sep_says _ (says GTuple) (says GTupleList)); [..|exact N].
      - intros w y K. say GTupleList 0 by K.
      - intros w l w' y K K'. say GTupleList 1 by K, K'.
      - apply each_Forall in H. rewrite Forall_forall in F, H. apply Forall_forall. intros row I.
        assert (Nr : row <> []) by (intros ->; exact (M I)).
        say GTuple 0 by (exprs_say row (each_mp _ _ _ (F _ I) (H _ I)) Nr). }
    assert (C : says GSelectCore ([kw "VALUES"] ++ sep (fun row => paren (sep show (kw ",") row)) (kw ",") rows) (SValues rows)) by (say GSelectCore 2 by K).
    split; [say GSelectCoreList 0 by C|intros _; exact C].
  - intros mode columns from wh group Ic If Iw Ig ([Nc Ng] & Hc & Hf & Hw & Hg). specialize (Ic Hc Nc).
    assert (M : says GSelectMode [match mode with MAll => kw "ALL" | MDistinct => kw "DISTINCT" end] mode)
      by (destruct mode; [say GSelectMode 0 by (S_yes (S_kw "ALL" eq_refl eq_refl))|say GSelectMode 1]).
    pose proof (where_says wh (maybe_mp _ _ _ Iw Hw)) as W.
    assert (Gr : says (Opt GGroupByClause) (opt_show (fun g => sep show (kw ",") (fst g) ++ opt_show show [kw "HAVING"] (snd g)) [kw "GROUP"; kw "BY"] group) group).
    { apply S_maybe. destruct group as [[es h]|]; [|exact I]. cbn [if_some maybe fst snd] in *. destruct Ig as [I1 I2], Hg as [H1 H2].
      pose proof (exprs_say es (each_mp _ _ _ I1 H1) Ng) as K. destruct h as [h|].
      - say GGroupByClause 1 by K, (good_says _ (I2 H2)).
      - say GGroupByClause 0 by K. }
    assert (C : says GSelectCore (show_set (SQuery mode columns from wh group)) (SQuery mode columns from wh group)).
    { cbn [show_set]. destruct from as [|t from].
      - say GSelectCore 0 by M, Ic, W, Gr.
      - assert (K : says GTableExpressionList (sep show_table (kw ",") (t :: from)) (t :: from)).
        { apply (sep_says _ (says GTableExpression) (says GTableExpressionList)); [..|discriminate].
          - intros w y H. say GTableExpressionList 0 by H.
          - intros w l w' y H H'. say GTableExpressionList 1 by H, H'.
          - pose proof (each_mp _ _ _ If Hf) as F. revert F. apply Forall_impl. intros y H. say GTableExpression 0 by H. }
        assert (K' : says GFromClause ([kw "FROM"] ++ sep show_table (kw ",") (t :: from)) (t :: from)) by (say GFromClause 0 by K).
        say GSelectCore 1 by M, Ic, K', W, Gr. }
    split; [say GSelectCoreList 0 by C|intros _; exact C].
  - intros op l r Il Ir (N & Hl & Hr). cbn in N. destruct (Il Hl) as [Kl _]. destruct (Ir Hr) as [_ Kr]. split; [|intros []].
    assert (Sr : single r) by (destruct r; [exact I|exact I|exact N]).
    cbn [show_set]. say GSelectCoreList 1 by Kl, (set_op_says op), (Kr Sr).
  - intros q alias [H1 H2]. cbn [show_table]. say GTableOrSubQuery 0 by (path_says q H1), (alias_says alias H2).
  - intros s alias IH [H1 H2]. cbn [show_table]. say GTableOrSubQuery 1 by (IH H1), (alias_says alias H2).
  - intros l r op c Il Ir Ic (Hl & Hr & Hc). cbn [in_joins grammatical] in Hc. cbn [show_table].
    assert (L : says GTableExpression (show_table l) l) by (say GTableExpression 0 by (Il Hl)).
    assert (C : says GJoinConstraint (show_constraint c) c).
    { destruct c as [e|cols]; cbn [if_on all_constraint show_constraint] in *.
      - say GJoinConstraint 0 by (good_says _ (Ic Hc)).
      - say GJoinConstraint 1 by (names_say cols (proj1 Hc) (proj2 Hc)). }
    assert (K : says GTableExpression (show_table l ++ join_tokens op ++ show_table r ++ show_constraint c) (TJoin l r op c))
      by (say GTableExpression 1 by L, (join_says op), (Ir Hr), C).
    say GTableOrSubQuery 2 by K.
  - intros _ _. say GResultColumns 0.
  - intros l F H N. assert (Nl : l <> []) by (intros ->; exact (N eq_refl)).
    assert (K : says GResultColumnList (sep show_column (kw ",") l) l).
    { apply (sep_says _ (says GResultColumn) (says GResultColumnList)); [..|exact Nl].
      - intros w y K. say GResultColumnList 0 by K.
      - intros w l' w' y K K'. say GResultColumnList 1 by K, K'.
      - exact (each_mp _ _ _ F H). }
    cbn [show_columns]. say GResultColumns 1 by K.
  - intros n H. cbn [show_column]. say GResultColumn 2 by (name_says n H).
  - intros e rename IH [H1 H2]. cbn [show_column]. destruct rename as [n|].
    + cbn [maybe] in H2. say GResultColumn 1 by (good_says _ (IH H1)), (S_yes (S_kw "AS" eq_refl eq_refl)), (name_says n H2).
    + say GResultColumn 0 by (good_says _ (IH H1)).
Qed.

Lemma order_says order : each (fun o => all_expr G (fst (fst o)) /\ maybe (on_name G) (snd (fst o))) order ->
  exists o, says (Opt GOrderByClause) match order with [] => [] | _ => [kw "ORDER"; kw "BY"] ++ sep (fun o => show (fst (fst o)) ++
        opt_show show_name [kw "COLLATE"] (snd (fst o)) ++ [match snd o with Ascending => kw "ASC" | Descending => kw "DESC" end]) (kw ",") order end o /\
        default o [] = order.
Proof.
  intros Ho. destruct show_says as (E & _). apply order_good. apply each_Forall in Ho. revert Ho. apply Forall_impl. intros o [H1 H2]. split; [exact (E _ H1)|exact H2].
Qed.

Lemma assignments_say asg : asg <> [] -> each (fun a => on_names G (fst a) /\ all_expr G (snd a)) asg ->
  says GAssignments (sep (fun a => show_names (fst a) ++ [kw "="] ++ show (snd a)) (kw ",") asg) asg.
Proof.
  intros N H. destruct show_says as (E & _). apply (sep_says _ (says GAssignment) (says GAssignments)); [..|exact N].
  - intros w y K. say GAssignments 0 by K.
  - intros w l' w' y K K'. say GAssignments 1 by K, K'.
  - apply each_Forall in H. revert H. apply Forall_impl. intros [a e] [[K1 K2] K3]. cbn [fst snd] in *.
    say GAssignment 0 by (names_say a K1 K2), (good_says _ (E e K3)).
Qed.

Lemma show_statement_says s : all_statement G s -> says GStatement (show_statement s) s.
Proof.
  destruct show_says as (E & _ & Sel & _ & Se & _). destruct s as [s|[t cols src]|[t wh]|[t asg wh]]; cbn [all_statement show_statement]; intros H.
  - say GStatement 0 by (Sel s H).
  - cbn [i_table i_columns i_source] in *. destruct H as (H1 & H2 & H3 & H4). destruct (Se src H4) as [_ K].
    assert (Sr : single src) by (destruct src; [exact I|exact I|exact H3]).
    match goal with |- says GStatement ?w _ => assert (S : says GInsertStatement w {| i_table := t; i_columns := cols; i_source := src |})
      by (say GInsertStatement 0 by (S_no GTableExpressions), (path_says t H1), (columns_say cols H2), (K Sr)) end.
    say GStatement 1 by S.
  - cbn [d_table d_where] in *. destruct H as [H1 H2].
    assert (W : if_some good_expr wh) by (destruct wh; [apply E; exact H2|exact I]).
    match goal with |- says GStatement ?w _ => assert (S : says GDeleteStatement w {| d_table := t; d_where := wh |})
      by (say GDeleteStatement 0 by (S_no GTableExpressions), (path_says t H1), (where_says wh W)) end.
    say GStatement 2 by S.
  - cbn [u_table u_assignments u_where] in *. destruct H as (H1 & N & H2 & H3).
    assert (W : if_some good_expr wh) by (destruct wh; [apply E; exact H3|exact I]).
    pose proof (assignments_say asg N H2) as A.
    match goal with |- says GStatement ?w _ => assert (S : says GUpdateStatement w {| u_table := t; u_assignments := asg; u_where := wh |})
      by (say GUpdateStatement 0 by (S_no GTableExpressions), (path_says t H1), A, (where_says wh W)) end.
    say GStatement 3 by S.
Qed.

Lemma show_sql_says s : all_sql G s -> says GSqlStatement (show_sql s) s.
Proof.
  destruct s as [s|s|q file|q]; cbn [all_sql show_sql]; intros H.
  - say GSqlStatement 0 by (show_statement_says s H).
  - say GSqlStatement 1 by (S_no GQueryPlan), (show_statement_says s H).
  - destruct H as [[L H] F]. destruct q as [|a [|b [|c q]]]; cbn in L; try lia; cbn [each] in H.
    + match goal with |- says GSqlStatement ?w _ => assert (A : says GAttachStatement w ([a], file)) by (say GAttachStatement 0 by (string_says file F), (S_no GSchemaName), (name_says a (proj1 H))) end.
      say GSqlStatement 2 by A.
    + assert (P : says GSchemaName (show_name a ++ [kw "."]) a) by (say GSchemaName 0 by (name_says a (proj1 H))).
      match goal with |- says GSqlStatement ?w _ => assert (A : says GAttachStatement w ([a; b], file))
        by (say GAttachStatement 0 by (string_says file F), (S_yes P), (name_says b (proj1 (proj2 H)))) end.
      say GSqlStatement 2 by A.
  - destruct H as [L H]. destruct q as [|a [|b [|c q]]]; cbn in L; try lia; cbn [each] in H.
    + match goal with |- says GSqlStatement ?w _ => assert (A : says GDescribeStatement w [a]) by (say GDescribeStatement 0 by (S_no GSchemaName), (name_says a (proj1 H))) end.
      say GSqlStatement 3 by A.
    + assert (P : says GSchemaName (show_name a ++ [kw "."]) a) by (say GSchemaName 0 by (name_says a (proj1 H))).
      match goal with |- says GSqlStatement ?w _ => assert (A : says GDescribeStatement w [a; b]) by (say GDescribeStatement 0 by (S_yes P), (name_says b (proj1 (proj2 H)))) end.
      say GSqlStatement 3 by A.
Qed.

Theorem shown_parsed st : all_sql grammatical st -> parse_sql (text_of (show_sql st)) = Ret (Ok st).
Proof.
  intros H. destruct (show_sql_says st H) as [Gr F]. destruct (parse_sql_correct (text_of (show_sql st))) as (r & E & C). rewrite E. f_equal.
  apply C. exists (show_sql st). split; [apply text_lexes; exact F|exact Gr].
Qed.

Theorem parsed_exactly st : (exists s, parse_sql s = Ret (Ok st)) <-> all_sql grammatical st.
Proof. split; [intros [s H]; exact (parsed_grammatical s st H)|intros H; exists (text_of (show_sql st)); exact (shown_parsed st H)]. Qed.
