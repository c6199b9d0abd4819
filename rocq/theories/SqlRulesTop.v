(** * Validation and the typing rules *)

From Verif Require Import Base SqlNameModel SqlModel SqlSpec SqlColumnsSpec SqlEval SqlSafeSpec SqlPanic SqlRules SqlRulesBase SqlRulesNames SqlRulesProofs.

Section Top.
Context (up : Z -> list Z) (db : database) (dflt : name) (W : well_named up db).
Notation x := (set_context_new up db dflt).
Notation table := (catalog up db dflt).
Notation has_default := (has_default up db dflt).

Lemma tables_ok q attrs : (exists r, resolve_table up x q = ok r /\ r_attrs r = attrs) <-> table q attrs.
Proof. apply catalog_ok; exact W. Qed.

Lemma default_registered : has_default -> registered up x.
Proof. apply registered_ok. Qed.

Lemma sql_sound s : validate up x s = ok tt -> sql_typed up table s.
Proof. apply (sql_agree up x False (fun f => False_ind _ f) table tables_ok s). Qed.

Lemma sql_exact s : has_default -> safe_sql s = true -> (validate up x s = ok tt <-> sql_typed up table s).
Proof.
  intros D Hs. pose proof (sql_agree up x has_default default_registered table tables_ok s) as [A B].
  split; [exact A|exact (B D Hs)].
Qed.

Lemma sql_refused s : has_default -> safe_sql s = true -> (validate up x s = err <-> ~ sql_typed up table s).
Proof.
  intros D Hs. destruct (sql_exact s D Hs) as [A B]. split.
  - intros E H. apply B in H. rewrite E in H. discriminate.
  - intros N. destruct (validate_returns up x s (default_registered D) Hs) as [[[]|[]] E]; [|exact E]. destruct N. apply A; exact E.
Qed.

Lemma expr_sound rels y e t : add_relations up [] rels = Ok y -> infer up x y e = ok t -> typed up table rels e t.
Proof. intros Sc. apply (infer_agree up x False (fun f => False_ind _ f) table tables_ok rels y e t Sc). Qed.

Lemma expr_exact rels y e t : add_relations up [] rels = Ok y -> has_default -> safe e = true ->
  (infer up x y e = ok t <-> typed up table rels e t).
Proof.
  intros Sc D Hs. pose proof (infer_agree up x has_default default_registered table tables_ok rels y e t Sc) as [A B].
  split; [exact A|exact (B D Hs)].
Qed.

Lemma query_sound s attrs : (exists r, infer_select up x s = ok r /\ r_attrs r = attrs) -> selects up table s attrs.
Proof. apply (select_agree up x False (fun f => False_ind _ f) table tables_ok s attrs). Qed.

Lemma query_exact s attrs : has_default -> safe_select s = true ->
  ((exists r, infer_select up x s = ok r /\ r_attrs r = attrs) <-> selects up table s attrs).
Proof.
  intros D Hs. pose proof (select_agree up x has_default default_registered table tables_ok s attrs) as [A B].
  split; [exact A|exact (B D Hs)].
Qed.

(** A type is determined by the rules. *)
Lemma typed_fun rels e t t' : distinct up (map fst rels) -> has_default -> safe e = true ->
  typed up table rels e t -> typed up table rels e t' -> t = t'.
Proof.
  intros Dr D Hs H H'. destruct (distinct_scope up rels Dr) as [y Sc].
  apply (expr_exact rels y e t Sc D Hs) in H. apply (expr_exact rels y e t' Sc D Hs) in H'. rewrite H in H'. apply ok_inj in H'. exact H'.
Qed.

Lemma selects_fun s attrs attrs' : has_default -> safe_select s = true -> selects up table s attrs -> selects up table s attrs' -> attrs = attrs'.
Proof.
  intros D Hs H H'. apply (query_exact s attrs D Hs) in H as (r & E & <-). apply (query_exact s attrs' D Hs) in H' as (r' & E' & <-).
  rewrite E in E'. apply ok_inj in E' as ->. reflexivity.
Qed.

End Top.

(** ** A statement within the rules on which validation panics *)

(** SELECT CASE WHEN 1 IN () THEN 'a' END *)
Definition unsafe_case (l : list Z) : sql_statement :=
  SqlStatement (StSelect (Select [] (SQuery MAll (RList [RExpr (ECase None [(EIn (ELiteral (LNumeric l)) (SpList []), ELiteral (LString l))] None) None])
    [] None None) [] None)).

Lemma unsafe_case_typed up db dflt l : sql_typed up (catalog up db dflt) (unsafe_case l).
Proof.
  set (a := {| a_name := [99; 111; 108]%Z; a_type := DVarchar; a_null := true |}).
  apply q_statement, (st_select _ _ _ [a]), (s_select _ _ _ _ _ _ []).
  - constructor.
  - constructor.
  - apply (x_query _ _ _ _ _ _ _ [] [a]).
    + constructor.
    + constructor.
    + constructor.
    + constructor.
    + apply (l_list _ _ _ _ _ [[a]]). constructor; [|constructor]. apply (k_expr _ _ _ _ None DVarchar true).
      apply (t_case _ _ _ _ _ _ _ [false] true).
      * discriminate.
      * constructor.
      * constructor; [|constructor]. apply (t_literal _ _ _ (LString l)).
      * constructor.
    + split; [|reflexivity]. apply lb_keep; constructor.
  - constructor.
  - constructor.
Qed.

Lemma rules_unsafe : exists up db dflt (s : sql_statement), well_named up db /\ has_default up db dflt /\
  sql_typed up (catalog up db dflt) s /\ validate up (set_context_new up db dflt) s = Panic.
Proof.
  exists (fun c => [c]), [([109]%Z, {| s_name := [109]%Z; s_objects := [] |})], [109]%Z, (unsafe_case [49]%Z).
  split; [split; repeat constructor|]. split; [eexists _, _; split; [left; reflexivity|reflexivity]|].
  split; [apply unsafe_case_typed|]. vm_compute. reflexivity.
Qed.
