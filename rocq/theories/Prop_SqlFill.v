(** * C98: values put into a statement

    src/sql/parser.lalrpop:536-556 makes the literals, 28-134 the statements around them; src/sql/ast/typing.rs:675-730
    gives them types. *)

From Coq Require Import Strings.String Lia.
From Verif Require Import Base StrModel JsonModel SqlModel LrModel LexSpec LexModel SqlGrammar SqlWords SqlParseModel SqlLexProofs SqlParsed SqlSpaceSpec SqlSpaceProofs Prop_SqlSpace.
From Verif Require Import SqlFillSpec SqlFillText SqlFillType.
Local Open Scope list_scope.
Local Open Scope string_scope.

(** Two texts that differ in the contents of their strings and numerals only are both refused, or both accepted; the
    statements then differ in those contents only. *)
Theorem literals_filled : forall g h s s' toks toks' st',
  sql_lexes s toks [] -> sql_lexes s' toks' [] -> Forall2 (put_word g h) toks toks' ->
  (parse_sql s' = Ret (Ok st') <-> exists st, parse_sql s = Ret (Ok st) /\ st' = put g h st).
Proof. exact put_texts. Qed.
Print Assumptions literals_filled.

(** One string put in for a marker: whatever it says, it stays within its place. *)
Theorem string_bound : forall a b m y before st', Forall quotable m -> Forall quotable y ->
  sql_lexes (a ++ in_quotes m ++ b)%list before (in_quotes m ++ b) ->
  (forall after, sql_lexes b after [] -> ~ In (terminal "STRING_LIT", in_quotes m) (before ++ after)) ->
  (parse_sql (a ++ in_quotes y ++ b)%list = Ret (Ok st') <->
   exists st, parse_sql (a ++ in_quotes m ++ b)%list = Ret (Ok st) /\ st' = put (instead m y) (fun s => s) st).
Proof. exact bound_string. Qed.
Print Assumptions string_bound.

(** Validation sees no difference between them. *)
Theorem literals_not_validated : forall up g h x st, validate up x (put g h st) = validate up x st.
Proof. exact put_valid. Qed.
Print Assumptions literals_not_validated.

(** Nor has the result of a query other columns. *)
Theorem literals_not_typed : forall up g h x s, infer_select up x (put_select g h s) = infer_select up x s.
Proof. intros up g h x s. apply put_typed. Qed.
Print Assumptions literals_not_typed.

(** A value with a quote does not stay within its place: it can end the string and go on with conditions of its own. There
    is no way of writing a quote inside a string. *)
Theorem string_bound_refuted : exists a b m y st st',
  parse_sql (a ++ in_quotes m ++ b)%list = Ret (Ok st) /\ parse_sql (a ++ in_quotes y ++ b)%list = Ret (Ok st') /\
  forall g h, st' <> put g h st.
Proof.
  exists (JsonModel.lit "delete from t where b = "), [], (JsonModel.lit "m"), (JsonModel.lit "x' or 'y' = 'y"). eexists _, _.
  split; [vm_compute; reflexivity|]. split; [vm_compute; reflexivity|]. intros g h H. vm_compute in H. discriminate H.
Qed.
Print Assumptions string_bound_refuted.

Example string_bound_ex :
  let a := JsonModel.lit "delete from t where b = " in let b := JsonModel.lit " and c > 'n'" in
  let m := JsonModel.lit "m" in let y := JsonModel.lit "x; delete from t -- " in
  Forall quotable m /\ Forall quotable y /\
  sql_lexes (a ++ in_quotes m ++ b)%list (sp_words "delete from t where b = ") (in_quotes m ++ b) /\
  (forall after, sql_lexes b after [] -> ~ In (terminal "STRING_LIT", in_quotes m) (sp_words "delete from t where b = " ++ after)) /\
  exists st, parse_sql (a ++ in_quotes m ++ b)%list = Ret (Ok st) /\
    parse_sql (a ++ in_quotes y ++ b)%list = Ret (Ok (put (instead m y) (fun s => s) st)) /\ put (instead m y) (fun s => s) st <> st.
Proof.
  cbv zeta. repeat apply conj.
  - match goal with |- Forall _ ?l => let l' := eval vm_compute in l in change l with l' end.
    repeat (constructor; [unfold quotable; lia|]). constructor.
  - match goal with |- Forall _ ?l => let l' := eval vm_compute in l in change l with l' end.
    repeat (constructor; [unfold quotable; lia|]). constructor.
  - eapply (lexes_exchange (JsonModel.lit "delete from t where b = ")); [|symmetry; apply app_nil_r|].
    + apply sp_lexes. vm_compute. reflexivity.
    + apply quote_place.
  - intros after H.
    assert (L : sql_lexes (JsonModel.lit " and c > 'n'") (sp_words " and c > 'n'") []) by (apply sp_lexes; vm_compute; reflexivity).
    destruct (sql_lex_unique _ _ _ _ _ H (or_introl eq_refl) L (or_introl eq_refl)) as [-> _].
    vm_compute. intuition discriminate.
  - eexists. repeat apply conj; [vm_compute; reflexivity|vm_compute; reflexivity|vm_compute; discriminate].
Qed.
