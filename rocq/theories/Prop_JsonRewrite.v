(** * Property C102: JSON texts read and written again *)

From Coq Require Import Strings.String.
From Verif Require Import Base StrModel Utf8Model TypesModel TypesSpec MarshalModel MarshalSpec ValSource JsonModel JsonSpec JsonTop JsonDocProofs JsonExamples SqlParseModel TypeParseModel TypeGrammar TypeParsed TypeUseSpec TypeUse
  JsonRewriteSpec JsonRewriteProofs JsonRewriteParsed.
Local Open Scope list_scope.
Local Open Scope Z_scope.

(** A value survives writing and reading exactly if each of its characters does. *)
Theorem value_survives_iff : forall alnum fl pf t v src, plain_labels t -> decoded t v -> floats_fit fl t v -> presents src t [] v ->
  ((exists bs text, json_encode fl t src = Ret bs /\ utf8_decode bs = Some text /\ stands_for alnum fl pf t text v) <-> characters json_char t v).
Proof. intros alnum fl pf t v src P D F S. exact (rewrite_exact alnum fl pf t v P D F src S). Qed.
Print Assumptions value_survives_iff.

(** The same for a text that is read and written again. *)
Theorem rewriting_keeps_value_iff : forall alnum fl pf t text v, plain_labels t -> Forall (fun c => is_char c = true) text -> floats_in_range fl ->
  stands_for alnum fl pf t text v -> floats_fit fl t v ->
  ((exists text', rewritten alnum fl pf t text text' /\ stands_for alnum fl pf t text' v) <-> characters json_char t v).
Proof. exact rewrite_keeps. Qed.
Print Assumptions rewriting_keeps_value_iff.

(** Then writing it again changes nothing more. *)
Theorem rewriting_settles : forall alnum fl pf t text text' v, plain_labels t -> Forall (fun c => is_char c = true) text -> floats_in_range fl ->
  stands_for alnum fl pf t text v -> floats_fit fl t v -> characters json_char t v -> rewritten alnum fl pf t text text' ->
  stands_for alnum fl pf t text' v /\ forall text'', rewritten alnum fl pf t text' text'' <-> text'' = text'.
Proof. exact rewrite_settles. Qed.
Print Assumptions rewriting_settles.

(** Two texts are rewritten to the same text exactly if they stand for the same value. *)
Theorem rewritten_equal_iff : forall alnum fl pf t s1 s2 r1 r2 v1 v2, plain_labels t ->
  Forall (fun c => is_char c = true) s1 -> Forall (fun c => is_char c = true) s2 -> floats_in_range fl ->
  stands_for alnum fl pf t s1 v1 -> stands_for alnum fl pf t s2 v2 -> floats_fit fl t v1 -> floats_fit fl t v2 ->
  characters json_char t v1 -> characters json_char t v2 -> rewritten alnum fl pf t s1 r1 -> rewritten alnum fl pf t s2 r2 -> (r1 = r2 <-> v1 = v2).
Proof. exact rewrite_same. Qed.
Print Assumptions rewritten_equal_iff.

(** Types given as text have such labels, unless they repeat one or have a struct of 64 fields or more. *)
Theorem parsed_labels_plain : forall s t, parse_type s = Ret (Ok t) -> no_repeats t -> all_structs (fun n => (n < 64)%nat) t -> plain_labels t.
Proof. intros s t P. exact (nameable_plain t (parsed_nameable s t P)). Qed.
Print Assumptions parsed_labels_plain.

(** Members in another order, white space, escapes and a number given as a string: all of them disappear. *)
Lemma jx_plain : plain_labels jx_ty.
Proof.
  unfold jx_ty. apply pl_struct; [cbn; lia|cbn [map fst]; repeat constructor; cbn; intuition discriminate|].
  repeat (apply Forall_cons; [split; [cbn [fst]; json_chars|cbn [snd]]|]); try apply Forall_nil; try apply pl_prim; try apply pl_string.
  apply pl_enum; [cbn [map fst]; repeat constructor; cbn; intuition discriminate|].
  apply Forall_cons; [split; [cbn [fst]; json_chars|apply pl_unit]|]. apply Forall_cons; [split; [cbn [fst]; json_chars|cbn [snd]]|apply Forall_nil].
  apply pl_tuple. repeat constructor.
Qed.

Example rewriting_ex : plain_labels jx_ty /\ Forall (fun c => is_char c = true) jx_messy /\ floats_in_range jx_fl /\
  stands_for jx_alnum jx_fl Debug jx_ty jx_messy jx_val /\ floats_fit jx_fl jx_ty jx_val /\ characters json_char jx_ty jx_val /\
  rewritten jx_alnum jx_fl Debug jx_ty jx_messy jx_text /\ rewritten jx_alnum jx_fl Debug jx_ty jx_text jx_text /\ jx_messy <> jx_text /\
  decoded jx_ty jx_val /\ presents (val_source jx_val) jx_ty [] jx_val.
Proof.
  split; [exact jx_plain|]. split. { apply Forall_forall. apply forallb_forall. vm_compute. reflexivity. }
  split; [exact jx_floats|]. split.
  { eexists. split; [vm_compute; reflexivity|]. unfold jx_ty, jx_val.
    repeat match goal with
    | |- presents _ (TStruct _) _ _ => constructor; cbn [map snd]
    | |- presents _ (TTuple _) _ _ => constructor
    | |- presents _ (TEnum _) _ _ => eapply pr_enum; [vm_compute; reflexivity|reflexivity|]
    | |- presents_list _ [] _ _ _ => constructor
    | |- presents_list _ (_ :: _) _ _ _ => constructor
    | |- presents _ _ _ _ => constructor; vm_compute; reflexivity
    end. }
  split. { intros p z E W. pose proof (jsonable_within jx_fl _ _ _ _ W jx_jsonable) as J. inversion J; subst; auto. }
  split; [exact (jsonable_fits jx_fl _ _ jx_jsonable)|].
  split. { eexists _, _. split; [vm_compute; reflexivity|]. split; vm_compute; reflexivity. }
  split. { eexists _, _. split; [vm_compute; reflexivity|]. split; vm_compute; reflexivity. }
  split; [discriminate|]. split; [exact jx_decoded|]. apply every_value_presented, jx_typed.
Qed.

(** A string with the character 26 is written as a text that stands for another string, which is written differently again. *)
Theorem rewriting_settles_refuted : exists t text text' text'', Forall (fun c => is_char c = true) text /\
  rewritten jx_alnum jx_fl Debug t text text' /\ rewritten jx_alnum jx_fl Debug t text' text'' /\ text'' <> text'.
Proof.
  exists TString, (lit """\u001a"""). eexists _, _. split. { apply Forall_forall. apply forallb_forall. vm_compute. reflexivity. }
  split. { eexists _, _. split; [vm_compute; reflexivity|]. split; vm_compute; reflexivity. }
  split. { eexists _, _. split; [vm_compute; reflexivity|]. split; vm_compute; reflexivity. }
  vm_compute. discriminate.
Qed.
Print Assumptions rewriting_settles_refuted.
