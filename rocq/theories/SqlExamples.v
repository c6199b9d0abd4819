(** * Data of the examples beside the SQL theorems *)

From Coq Require Import Strings.String.
From Verif Require Import Base StrModel SqlNameModel SqlModel SqlSpec SqlSafeSpec SqlColumnsSpec SqlFromSpec.
Local Open Scope list_scope.
Local Open Scope Z_scope.

(** Upper case of the ASCII letters and of the sharp s. *)
Definition sx_up (c : Z) : list Z :=
  if (97 <=? c) && (c <=? 122) then [c - 32] else if c =? 223 then [83; 83] else [c].

Definition sx_world : world := {|
  w_arith op p q := match op with BDivide => None | _ => Some (p ++ q) end;
  w_negate p := Some p;
  w_equal t p q := str_eqb p q;
  w_less t p q := match lex_compare p q with Lt => true | _ => false end;
  w_like p q := str_eqb p q;
  w_literal l := match l with LNumeric s | LDate s | LTime s | LTimestamp s => s | _ => [] end
|}.

Definition sx_col (n : string) (t : data_type) (null : bool) : attribute := {| a_name := lit n; a_type := t; a_null := null |}.

Definition sx_t : list attribute :=
  [sx_col "id" DNumeric false; sx_col "label" DVarchar true; sx_col "done" DLogical true].
Definition sx_u : list attribute := [sx_col "id" DNumeric false; sx_col "at" DTimestamp true].

Definition sx_columns (l : list attribute) : row_set :=
  map (fun a => {| c_name := a_name a; c_not_null := negb (a_null a); c_primary := false; c_type := a_type a |}) l.

Definition sx_db : database :=
  [(lit "main", {| s_name := lit "main";
                   s_objects := [(lit "t", OTable (sx_columns sx_t) []); (lit "u", OView (sx_columns sx_u) [])] |})].

Definition sx_ctx : set_context := set_context_new sx_up sx_db (lit "Main").

Definition sx_rels : relations := [(lit "t", sx_t); (lit "x", sx_u)].

Definition sx_syms : symbols := match add_relations sx_up [] sx_rels with Ok y => y | Err _ => [] end.

Definition sx_env : env :=
  [(lit "t", [(lit "id", VData DNumeric [53]); (lit "label", VNull); (lit "done", VBool true)]);
   (lit "x", [(lit "id", VData DNumeric [54]); (lit "at", VData DTimestamp [55])])].

Definition sx_num (s : string) : expr := ELiteral (LNumeric (lit s)).
Definition sx_str (s : string) : expr := ELiteral (LString (lit s)).
Definition sx_name (s : string) : expr := EName [lit s].
Definition sx_qname (r s : string) : expr := EName [lit r; lit s].

(** [NOT (t.ID + 1 < x.id AND done) OR label LIKE 'a' || 'b'] *)
Definition sx_expr : expr :=
  EBinary BOr
    (EUnary UNot (EBinary BAnd (ECompare CLess (EBinary BAdd (sx_qname "t" "ID") (sx_num "1")) (sx_qname "x" "id")) (sx_name "done")))
    (ECompare CLike (sx_name "label") (EBinary BConcat (sx_str "a") (sx_str "b"))).

Definition sx_conforms : conforms sx_rels sx_env.
Proof.
  repeat constructor; cbn; try (intros; discriminate); intuition congruence.
Qed.

(** [SELECT ... FROM t] *)
Definition sx_query (cols : list result_column) (from : list table_expr) (wh : option expr) : set_expr :=
  SQuery MAll (RList cols) from wh None.
Definition sx_from (n : string) : table_expr := TNamed [lit n] None.
Definition sx_select (e : set_expr) : select := Select [] e [] None.

(** [INSERT INTO t (label, id) SELECT at?, ...]: two columns of a subquery over [t]. *)
Definition sx_insert : insert := {|
  i_table := [lit "T"]; i_columns := Some [lit "LABEL"; lit "id"];
  i_source := sx_query [RExpr (sx_name "label") None; RExpr (EBinary BAdd (sx_name "id") (sx_num "1")) None] [sx_from "t"] None
|}.

(** [UPDATE main.t SET label = 'x', done = id < 3 WHERE done] *)
Definition sx_update : update := {|
  u_table := [lit "main"; lit "t"];
  u_assignments := [([lit "label"], sx_str "x"); ([lit "Done"], ECompare CLess (sx_name "id") (sx_num "3"))];
  u_where := Some (sx_name "done")
|}.

Definition sx_delete : delete := {| d_table := [lit "t"]; d_where := Some (EUnary UNot (sx_qname "t" "done")) |}.

(** [WITH c (label) AS (SELECT label FROM t) SELECT t.*, id AS n FROM t WHERE CASE WHEN done THEN done END ORDER BY c.label LIMIT 5] *)
Definition sx_statement : sql_statement :=
  SqlExplain (StSelect (Select
    [Cte (lit "c") (Some [lit "label"]) (sx_select (sx_query [RExpr (sx_name "label") (Some (lit "label"))] [sx_from "t"] None))]
    (sx_query [RAllFrom (lit "t"); RExpr (sx_name "id") (Some (lit "n"))] [sx_from "t"]
              (Some (ECase None [(sx_name "done", sx_name "done")] None)))
    [(sx_qname "c" "label", None, Ascending)] (Some (sx_num "5", None)))).

(** A select list whose labels collide. *)
Definition sx_labels : list result_column :=
  [RExpr (sx_num "1") (Some (lit "a1")); RExpr (sx_num "2") (Some (lit "a")); RExpr (sx_num "3") (Some (lit "a"))].

(** CTEs for [initialize]. *)
Definition sx_ctes : list cte :=
  [Cte (lit "c") None (sx_select (sx_query [RExpr (sx_name "label") (Some (lit "label"))] [sx_from "t"] None));
   Cte (lit "d") (Some [lit "LABEL"]) (sx_select (SQuery MDistinct RAll [sx_from "C"] None None))].
