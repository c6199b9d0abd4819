(** * Property C96 *)

From Coq Require Import Strings.String.
From Verif Require Import Base StrModel JsonModel SqlModel SqlExamples LexSpec LexModel SqlGrammar SqlWords SqlParseModel SqlLexProofs SqlParsed SqlSpaceSpec SqlSpaceProofs.
Local Open Scope list_scope.
Local Open Scope string_scope.

(** White space of any kind and length can be put in wherever a word ends. *)
Theorem sql_space_added : forall a b sp toks st, blanks sp -> sql_lexes (a ++ b) toks b ->
  (parse_sql (a ++ sp ++ b) = Ret (Ok st) <-> parse_sql (a ++ b) = Ret (Ok st)).
Proof. exact space_added. Qed.
Print Assumptions sql_space_added.

(** It can be taken away next to other white space, to a quote, and to one of [( ) * , /]. *)
Theorem sql_space_removed : forall a b sp toks st, blanks sp -> sql_lexes (a ++ sp ++ b) toks (sp ++ b) -> open_place a b ->
  (parse_sql (a ++ b) = Ret (Ok st) <-> parse_sql (a ++ sp ++ b) = Ret (Ok st)).
Proof. exact space_removed. Qed.
Print Assumptions sql_space_removed.

(** A text means what its words mean, one after the other with any white space between. *)
Theorem sql_words_spaced : forall s toks spaces st,
  sql_lexes s toks [] -> List.length spaces = List.length toks -> Forall (fun w => blanks w /\ w <> []) spaces ->
  (parse_sql (spaced toks spaces) = Ret (Ok st) <-> parse_sql s = Ret (Ok st)).
Proof. exact words_spaced. Qed.
Print Assumptions sql_words_spaced.

(** It cannot be taken away next to a plus: the exponent of a number may follow. *)
Theorem sql_space_sign_refuted : exists a b sp toks st, blanks sp /\ sql_lexes (a ++ sp ++ b) toks (sp ++ b) /\
  (exists b', b = 43%Z :: b') /\ parse_sql (a ++ b) = Ret (Ok st) /\ parse_sql (a ++ sp ++ b) <> Ret (Ok st).
Proof.
  exists (JsonModel.lit "select 1E"), (JsonModel.lit "+5 from t"), (JsonModel.lit " ").
  eexists _, _. repeat apply conj.
  - constructor; [reflexivity|constructor].
  - eapply (lexes_exchange (JsonModel.lit "select 1E")); [|symmetry; apply app_nil_r|].
    + destruct (sql_lex_correct (JsonModel.lit "select 1E")) as [H _]. eapply H. vm_compute. reflexivity.
    + right. right. right. eexists _, _. split; [vm_compute; reflexivity|]. left. reflexivity.
  - eexists. vm_compute. reflexivity.
  - vm_compute. reflexivity.
  - vm_compute. discriminate.
Qed.
Print Assumptions sql_space_sign_refuted.

(** There are no comments: two minus signs are two minus signs. *)
Theorem sql_comment_refuted : exists a c st,
  parse_sql a = Ret (Ok st) /\ parse_sql (a ++ JsonModel.lit "--" ++ c) <> Ret (Ok st) /\
  (exists r, parse_sql (a ++ JsonModel.lit "--" ++ c) = Ret (Ok r)) /\ ~ In 10%Z c.
Proof.
  exists (JsonModel.lit "select a from t where b = 3 "), (JsonModel.lit "2"). eexists. repeat apply conj.
  - vm_compute. reflexivity.
  - vm_compute. discriminate.
  - eexists. vm_compute. reflexivity.
  - vm_compute. intros [H|[]]. discriminate.
Qed.
Print Assumptions sql_comment_refuted.

Definition sp_words (s : string) : list (nat * str) :=
  sql_tokens (fst (lex sql_patterns (List.length (JsonModel.lit s)) 0 (JsonModel.lit s))).

Lemma sp_lexes (s : string) : snd (lex sql_patterns (List.length (JsonModel.lit s)) 0 (JsonModel.lit s)) = None ->
  sql_lexes (JsonModel.lit s) (sp_words s) [].
Proof.
  intros H. apply sql_lex_correct. unfold sp_words.
  destruct (lex sql_patterns (List.length (JsonModel.lit s)) 0 (JsonModel.lit s)) as [ts o]. cbn in H. subst o. reflexivity.
Qed.

(** A line break before a comma, and taken away again; each word on a line. *)
Example sql_space_ex :
  (sql_lexes (JsonModel.lit "select a" ++ JsonModel.lit ",'x y' from t") (sp_words "select a") (JsonModel.lit ",'x y' from t") /\
   blanks [13; 10; 8195]%Z /\
   exists st, parse_sql (JsonModel.lit "select a" ++ [13; 10; 8195]%Z ++ JsonModel.lit ",'x y' from t") = Ret (Ok st) /\
     parse_sql (JsonModel.lit "select a,'x y' from t") = Ret (Ok st)) /\
  (sql_lexes (JsonModel.lit "select a," ++ JsonModel.lit " " ++ JsonModel.lit "b from t") (sp_words "select a,") (JsonModel.lit " " ++ JsonModel.lit "b from t") /\
   open_place (JsonModel.lit "select a,") (JsonModel.lit "b from t") /\
   ~ open_place (JsonModel.lit "select") (JsonModel.lit "a,b from t")) /\
  (sql_lexes (JsonModel.lit "select 1.*'x''y'from t") (sp_words "select 1.*'x''y'from t") [] /\
   spaced (sp_words "select 1.*x from t") (repeat [10%Z] 6) = ((((((JsonModel.lit "select" ++ [10%Z]) ++ JsonModel.lit "1." ++ [10%Z]) ++
     JsonModel.lit "*" ++ [10%Z]) ++ JsonModel.lit "x" ++ [10%Z]) ++ JsonModel.lit "from" ++ [10%Z]) ++ JsonModel.lit "t" ++ [10%Z])%list).
Proof.
  repeat apply conj.
  - eapply (lexes_exchange (JsonModel.lit "select a")); [|symmetry; apply app_nil_r|].
    + apply sp_lexes. vm_compute. reflexivity.
    + right. right. right. eexists _, _. split; [vm_compute; reflexivity|]. right. cbn. tauto.
  - repeat (constructor; [reflexivity|]). constructor.
  - eexists. split; vm_compute; reflexivity.
  - eapply (lexes_exchange (JsonModel.lit "select a,")); [|symmetry; apply app_nil_r|].
    + apply sp_lexes. vm_compute. reflexivity.
    + right. right. right. eexists _, _. split; [vm_compute; reflexivity|]. left. reflexivity.
  - right. right. left. exists (JsonModel.lit "select a"), 44%Z. split; [reflexivity|]. right. cbn. tauto.
  - intros [H|[H|[(a' & c & H & L)|(c & b' & H & L)]]]; try discriminate H.
    + change (JsonModel.lit "select") with (JsonModel.lit "selec" ++ [116%Z])%list in H. apply app_inj_tail in H as [_ <-].
      destruct L as [L|L]; [discriminate|]. cbn in L. intuition discriminate.
    + injection H as <- _. destruct L as [L|L]; [discriminate|]. cbn in L. intuition discriminate.
  - apply sp_lexes. vm_compute. reflexivity.
  - vm_compute. reflexivity.
Qed.
