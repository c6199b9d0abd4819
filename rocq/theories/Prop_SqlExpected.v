(** * Property C62 *)

From Coq Require Import Strings.String Sorted.
From Verif Require Import Base StrModel JsonModel LrModel SqlGrammar SqlWords SqlParseModel SqlErrorSpec SqlExpected.
Local Open Scope list_scope.
Local Open Scope string_scope.

(** The report is the answer of the parser, with a list of terminals beside each error. *)
Theorem sql_report_answer : forall s,
  parse_sql s = (r <- parse_sql_report s ;; Ret match r with Ok v => Ok v | Err (e, _) => Err e end).
Proof. exact report_forgets. Qed.
Print Assumptions sql_report_answer.

(** The terminals of a list are in order, none twice, and all have names. The word that was refused is not among them. *)
Theorem sql_expected_list : forall s e exp, parse_sql_report s = Ret (Err (e, exp)) ->
  StronglySorted lt exp /\ (forall u, In u exp -> (u < List.length terminals)%nat) /\
  match e with
  | UnrecognizedTokenErr t => ~ In (fst t) exp
  | UnrecognizedEofErr => True
  | _ => exp = []
  end.
Proof. exact expected_list. Qed.
Print Assumptions sql_expected_list.

(** At the start and after each of 54 words, the list is exactly what may come next. *)
Theorem sql_expected_exact : forall s e exp l, parse_sql_report s = Ret (Err (e, exp)) -> stops_after s e l -> after_opening l ->
  forall u, In u exp <-> may_follow l u.
Proof. exact expected_exact. Qed.
Print Assumptions sql_expected_exact.

Example sql_expected_exact_ex :
  parse_sql_report (JsonModel.lit "delete t") = Ret (Err (UnrecognizedTokenErr (terminal "ID", JsonModel.lit "t"), [terminal "FROM"])) /\
  stops_after (JsonModel.lit "delete t") (UnrecognizedTokenErr (terminal "ID", JsonModel.lit "t")) [(terminal "DELETE", JsonModel.lit "delete")] /\
  after_opening [(terminal "DELETE", JsonModel.lit "delete")] /\
  parse_sql_report (JsonModel.lit "select a is") = Ret (Err (UnrecognizedEofErr, [terminal "NOT"; terminal "NULL"])).
Proof.
  split; [vm_compute; reflexivity|]. split; [split|split].
  - eapply (begins_by (JsonModel.lit "delete from t") _ _ _ [(terminal "FROM", JsonModel.lit "from"); (terminal "ID", JsonModel.lit "t")]); vm_compute; reflexivity.
  - split.
    + exists []. apply (lexes_by (JsonModel.lit "delete t") _ ltac:(vm_compute; reflexivity)).
    + intros B. refine (never_follows [(terminal "DELETE", JsonModel.lit "delete")] (terminal "ID") _ _); [intros w more; vm_compute; reflexivity|].
      exists (JsonModel.lit "t"). exact B.
  - exists "DELETE". split; [cbn [opening_words In]; tauto|reflexivity].
  - vm_compute. reflexivity.
Qed.

(** Elsewhere it may be wrong altogether: none of the 55 words it names can follow [describe a.b]. *)
Theorem sql_expected_sound_refuted : exists s e exp l, parse_sql_report s = Ret (Err (e, exp)) /\ stops_after s e l /\
  List.length exp = 55%nat /\ forall u, In u exp -> ~ may_follow l u.
Proof. exact expected_wrong. Qed.
Print Assumptions sql_expected_sound_refuted.

(** And it may be empty though words can follow. *)
Theorem sql_expected_complete_refuted : exists s e l, parse_sql_report s = Ret (Err (e, [])) /\ stops_after s e l /\ exists u, may_follow l u.
Proof. exact expected_missing. Qed.
Print Assumptions sql_expected_complete_refuted.
