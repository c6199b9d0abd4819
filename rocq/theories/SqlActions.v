(** * The semantic actions of the SQL parser

    Translated from src/sql/parser.rs by a script, function by function. Positions in the input are left out: no action
    uses them. [Box] is left out, [Vec] is a list. *)

From Verif Require Import Base StrModel SqlNameModel SqlModel LrModel SqlTables.

(** src/sql/ast/mod.rs: [AttachStatement] (name and path), [DescribeStatement], [Assignment], [Ordering], [Limit],
    [GroupBy], [WhenClause]. *)
Definition attach : Type := (list name * str)%type.
Definition describe : Type := list name.
Definition assignment : Type := (list name * expr)%type.
Definition ordering : Type := (expr * option name * direction)%type.
Definition limit : Type := (expr * option expr)%type.
Definition group : Type := (list expr * option expr)%type.
Definition when_clause : Type := (expr * expr)%type.

(** src/sql/ast/mod.rs:550-554 [append]. *)
Definition append {A : Type} (l : list A) (x : A) : list A := l ++ [x].

(** [Option::unwrap_or] *)
Definition unwrap_or {A : Type} (o : option A) (x : A) : A := match o with Some a => a | None => x end.

(** src/sql/ast/mod.rs:136-153 and 175-185: the two functions [new]. *)
Definition qualify (schema : option name) (n : name) : list name := match schema with Some s => [s; n] | None => [n] end.
Definition attach_new (schema : option name) (n : name) (path : str) : attach := (qualify schema n, path).
Definition describe_new (schema : option name) (n : name) : describe := qualify schema n.

(** [s[1..s.len() - 1].to_string()]. The indices count bytes: simplified to characters, which is the same when the first
    and the last character take one byte. *)
Definition slice_inner (s : str) : outcome str := check (2 <=? length s)%nat ;; Ret (removelast (tl s)).

(** ** The actions *)

(** src/sql/parser.rs:7536-7544 *)
Definition action_0 (x0 : sql_statement) : sql_statement := x0.
(** src/sql/parser.rs:7547-7555 *)
Definition action_1 (statement : statement) : sql_statement := SqlStatement statement.
(** src/sql/parser.rs:7558-7568 *)
Definition action_2 (_ : str) (_ : option (str * str)) (statement : statement) : sql_statement :=
  SqlExplain statement.
(** src/sql/parser.rs:7571-7579 *)
Definition action_3 (statement : attach) : sql_statement := SqlAttach (fst statement) (snd statement).
(** src/sql/parser.rs:7582-7590 *)
Definition action_4 (statement : describe) : sql_statement := SqlDescribe statement.
(** src/sql/parser.rs:7593-7601 *)
Definition action_5 (x0 : select) : statement := StSelect x0.
(** src/sql/parser.rs:7604-7612 *)
Definition action_6 (x0 : insert) : statement := StInsert x0.
(** src/sql/parser.rs:7615-7623 *)
Definition action_7 (x0 : delete) : statement := StDelete x0.
(** src/sql/parser.rs:7626-7634 *)
Definition action_8 (x0 : update) : statement := StUpdate x0.
(** src/sql/parser.rs:7637-7650 *)
Definition action_9 (_ : option (list cte)) (_ : str) (_ : str) (table_name : list name) (columns : option (list
    name)) (source : set_expr) : insert :=
  {| i_table := table_name; i_columns := columns; i_source := source |}.
(** src/sql/parser.rs:7653-7663 *)
Definition action_10 (_ : str) (ids : list name) (_ : str) : list name := ids.
(** src/sql/parser.rs:7666-7678 *)
Definition action_11 (_ : option (list cte)) (_ : str) (_ : str) (table_name : list name) (where_expr : option
    expr) : delete :=
  {| d_table := table_name; d_where := where_expr |}.
(** src/sql/parser.rs:7681-7694 *)
Definition action_12 (_ : option (list cte)) (_ : str) (table_name : list name) (_ : str) (assignments : list
    assignment) (where_expr : option expr) : update :=
  {| u_table := table_name; u_assignments := assignments; u_where := where_expr |}.
(** src/sql/parser.rs:7697-7705 *)
Definition action_13 (x0 : assignment) : list assignment := [x0].
(** src/sql/parser.rs:7708-7718 *)
Definition action_14 (assignments : list assignment) (_ : str) (item : assignment) : list assignment :=
  append assignments item.
(** src/sql/parser.rs:7721-7731 *)
Definition action_15 (columns : list name) (_ : str) (e : expr) : assignment := (columns, e).
(** src/sql/parser.rs:7734-7750 *)
Definition action_16 (ctl : list cte) (e : set_expr) (terms : option (list ordering)) (lim : option limit) :
    select :=
  Select ctl e (unwrap_or terms []) lim.
(** src/sql/parser.rs:7753-7768 *)
Definition action_17 (e : set_expr) (terms : option (list ordering)) (lim : option limit) : select :=
  Select [] e (unwrap_or terms []) lim.
(** src/sql/parser.rs:7771-7780 *)
Definition action_18 (_ : str) (ctl : list cte) : list cte := ctl.
(** src/sql/parser.rs:7783-7791 *)
Definition action_19 (item : cte) : list cte := [item].
(** src/sql/parser.rs:7794-7804 *)
Definition action_20 (ctl : list cte) (_ : str) (item : cte) : list cte := append ctl item.
(** src/sql/parser.rs:7807-7823 *)
Definition action_21 (id : name) (_ : str) (_ : str) (query : select) (_ : str) : cte := Cte id None query.
(** src/sql/parser.rs:7826-7845 *)
Definition action_22 (id : name) (_ : str) (column_names : list name) (_ : str) (_ : str) (_ : str) (query :
    select) (_ : str) : cte :=
  Cte id (Some column_names) query.
(** src/sql/parser.rs:7848-7856 *)
Definition action_23 (x0 : set_expr) : set_expr := x0.
(** src/sql/parser.rs:7859-7869 *)
Definition action_24 (l : set_expr) (op : set_op) (r : set_expr) : set_expr := SOp op l r.
(** src/sql/parser.rs:7872-7880 *)
Definition action_25 (x0 : str) : set_op := SUnion.
(** src/sql/parser.rs:7883-7892 *)
Definition action_26 (x0 : str) (x1 : str) : set_op := SUnionAll.
(** src/sql/parser.rs:7895-7903 *)
Definition action_27 (x0 : str) : set_op := SIntersect.
(** src/sql/parser.rs:7906-7914 *)
Definition action_28 (x0 : str) : set_op := SExcept.
(** src/sql/parser.rs:7917-7929 *)
Definition action_29 (_ : str) (mode : select_mode) (columns : result_columns) (where_expr : option expr)
    (group_by : option group) : set_expr :=
  SQuery mode columns [] where_expr group_by.
(** src/sql/parser.rs:7932-7945 *)
Definition action_30 (_ : str) (mode : select_mode) (columns : result_columns) (from : list table_expr)
    (where_expr : option expr) (group_by : option group) : set_expr :=
  SQuery mode columns from where_expr group_by.
(** src/sql/parser.rs:7948-7957 *)
Definition action_31 (_ : str) (tuples : list (list expr)) : set_expr := SValues tuples.
(** src/sql/parser.rs:7960-7968 *)
Definition action_32 (x0 : option str) : select_mode := MAll.
(** src/sql/parser.rs:7971-7979 *)
Definition action_33 (x0 : str) : select_mode := MDistinct.
(** src/sql/parser.rs:7982-7990 *)
Definition action_34 (x0 : list expr) : list (list expr) := [x0].
(** src/sql/parser.rs:7993-8003 *)
Definition action_35 (tuples : list (list expr)) (_ : str) (tuple : list expr) : list (list expr) :=
  append tuples tuple.
(** src/sql/parser.rs:8006-8016 *)
Definition action_36 (_ : str) (exprs : list expr) (_ : str) : list expr := exprs.
(** src/sql/parser.rs:8019-8027 *)
Definition action_37 (x0 : str) : result_columns := RAll.
(** src/sql/parser.rs:8030-8038 *)
Definition action_38 (x0 : list result_column) : result_columns := RList x0.
(** src/sql/parser.rs:8041-8049 *)
Definition action_39 (x0 : result_column) : list result_column := [x0].
(** src/sql/parser.rs:8052-8062 *)
Definition action_40 (columns : list result_column) (_ : str) (column : result_column) : list result_column :=
  append columns column.
(** src/sql/parser.rs:8065-8073 *)
Definition action_41 (e : expr) : result_column := RExpr e None.
(** src/sql/parser.rs:8076-8086 *)
Definition action_42 (e : expr) (_ : option str) (rename : name) : result_column := RExpr e (Some rename).
(** src/sql/parser.rs:8089-8099 *)
Definition action_43 (n : name) (_ : str) (_ : str) : result_column := RAllFrom n.
(** src/sql/parser.rs:8102-8110 *)
Definition action_44 (x0 : name) : list name := [x0].
(** src/sql/parser.rs:8113-8123 *)
Definition action_45 (i1 : name) (_ : str) (i2 : name) : list name := [i1; i2].
(** src/sql/parser.rs:8126-8138 *)
Definition action_46 (i1 : name) (_ : str) (i2 : name) (_ : str) (i3 : name) : list name := [i1; i2; i3].
(** src/sql/parser.rs:8141-8150 *)
Definition action_47 (_ : str) (exprs : list table_expr) : list table_expr := exprs.
(** src/sql/parser.rs:8153-8161 *)
Definition action_48 (x0 : table_expr) : list table_expr := [x0].
(** src/sql/parser.rs:8164-8174 *)
Definition action_49 (exprs : list table_expr) (_ : str) (e : table_expr) : list table_expr := append exprs e.
(** src/sql/parser.rs:8177-8185 *)
Definition action_50 (x0 : table_expr) : table_expr := x0.
(** src/sql/parser.rs:8188-8199 *)
Definition action_51 (l : table_expr) (op : join_op) (r : table_expr) (constraint : join_constraint) : table_expr
    :=
  TJoin l r op constraint.
(** src/sql/parser.rs:8202-8211 *)
Definition action_52 (n : list name) (alias : option name) : table_expr := TNamed n alias.
(** src/sql/parser.rs:8214-8225 *)
Definition action_53 (_ : str) (sel : select) (_ : str) (alias : option name) : table_expr := TSelect sel alias.
(** src/sql/parser.rs:8228-8238 *)
Definition action_54 (_ : str) (e : table_expr) (_ : str) : table_expr := e.
(** src/sql/parser.rs:8241-8250 *)
Definition action_55 (_ : option str) (n : name) : name := n.
(** src/sql/parser.rs:8253-8262 *)
Definition action_56 (join : option join_type) (_ : str) : join_op := JJoin (unwrap_or join JInner).
(** src/sql/parser.rs:8265-8275 *)
Definition action_57 (_ : str) (join : option join_type) (_ : str) : join_op := JNatural (unwrap_or join JInner).
(** src/sql/parser.rs:8278-8287 *)
Definition action_58 (x0 : str) (x1 : str) : join_op := JCross.
(** src/sql/parser.rs:8290-8299 *)
Definition action_59 (x0 : str) (x1 : option str) : join_type := JLeft.
(** src/sql/parser.rs:8302-8311 *)
Definition action_60 (x0 : str) (x1 : option str) : join_type := JRight.
(** src/sql/parser.rs:8314-8323 *)
Definition action_61 (x0 : str) (x1 : option str) : join_type := JFull.
(** src/sql/parser.rs:8326-8334 *)
Definition action_62 (x0 : str) : join_type := JInner.
(** src/sql/parser.rs:8337-8346 *)
Definition action_63 (_ : str) (e : expr) : join_constraint := JExpr e.
(** src/sql/parser.rs:8349-8360 *)
Definition action_64 (_ : str) (_ : str) (ids : list name) (_ : str) : join_constraint := JColumns ids.
(** src/sql/parser.rs:8363-8371 *)
Definition action_65 (x0 : name) : list name := [x0].
(** src/sql/parser.rs:8374-8384 *)
Definition action_66 (ids : list name) (_ : str) (id : name) : list name := append ids id.
(** src/sql/parser.rs:8387-8396 *)
Definition action_67 (_ : str) (e : expr) : expr := e.
(** src/sql/parser.rs:8399-8409 *)
Definition action_68 (_ : str) (_ : str) (groupings : list expr) : group := (groupings, None).
(** src/sql/parser.rs:8412-8424 *)
Definition action_69 (_ : str) (_ : str) (groupings : list expr) (_ : str) (e : expr) : group :=
  (groupings, (Some e)).
(** src/sql/parser.rs:8427-8437 *)
Definition action_70 (_ : str) (_ : str) (terms : list ordering) : list ordering := terms.
(** src/sql/parser.rs:8440-8448 *)
Definition action_71 (x0 : ordering) : list ordering := [x0].
(** src/sql/parser.rs:8451-8461 *)
Definition action_72 (terms : list ordering) (_ : str) (term : ordering) : list ordering := append terms term.
(** src/sql/parser.rs:8464-8474 *)
Definition action_73 (e : expr) (collation : option name) (dir : direction) : ordering := (e, collation, dir).
(** src/sql/parser.rs:8477-8486 *)
Definition action_74 (_ : str) (n : name) : name := n.
(** src/sql/parser.rs:8489-8497 *)
Definition action_75 (x0 : option str) : direction := Ascending.
(** src/sql/parser.rs:8500-8508 *)
Definition action_76 (x0 : str) : direction := Descending.
(** src/sql/parser.rs:8511-8520 *)
Definition action_77 (_ : str) (number_rows : expr) : limit := (number_rows, None).
(** src/sql/parser.rs:8523-8534 *)
Definition action_78 (_ : str) (number_rows : expr) (_ : str) (offset : expr) : limit :=
  (number_rows, (Some offset)).
(** src/sql/parser.rs:8537-8548 *)
Definition action_79 (_ : str) (number_rows : expr) (_ : str) (offset : expr) : limit :=
  (number_rows, (Some offset)).
(** src/sql/parser.rs:8551-8564 *)
Definition action_80 (_ : str) (_ : str) (path : str) (_ : str) (schema : option name) (n : name) : attach :=
  attach_new schema n path.
(** src/sql/parser.rs:8567-8577 *)
Definition action_81 (_ : str) (schema : option name) (n : name) : describe := describe_new schema n.
(** src/sql/parser.rs:8580-8589 *)
Definition action_82 (schema : name) (_ : str) : name := schema.
(** src/sql/parser.rs:8592-8600 *)
Definition action_83 (x0 : expr) : list expr := [x0].
(** src/sql/parser.rs:8603-8613 *)
Definition action_84 (exprs : list expr) (_ : str) (e : expr) : list expr := append exprs e.
(** src/sql/parser.rs:8616-8633 *)
Definition action_85 (_ : str) (exprs : list expr) (_ : str) : expr :=
  match exprs with [e] => e | _ => ETuple exprs end.
(** src/sql/parser.rs:8636-8646 *)
Definition action_86 (_ : str) (sel : select) (_ : str) : expr := ESelect sel.
(** src/sql/parser.rs:8649-8657 *)
Definition action_87 (x0 : literal) : expr := ELiteral x0.
(** src/sql/parser.rs:8660-8668 *)
Definition action_88 (x0 : list name) : expr := EName x0.
(** src/sql/parser.rs:8671-8679 *)
Definition action_89 (x0 : expr) : expr := x0.
(** src/sql/parser.rs:8682-8691 *)
Definition action_90 (_ : str) (e : expr) : expr := e.
(** src/sql/parser.rs:8694-8703 *)
Definition action_91 (_ : str) (e : expr) : expr := EUnary UNegate e.
(** src/sql/parser.rs:8706-8714 *)
Definition action_92 (x0 : expr) : expr := x0.
(** src/sql/parser.rs:8717-8727 *)
Definition action_93 (l : expr) (_ : str) (r : expr) : expr := EBinary BMultiply l r.
(** src/sql/parser.rs:8730-8740 *)
Definition action_94 (l : expr) (_ : str) (r : expr) : expr := EBinary BDivide l r.
(** src/sql/parser.rs:8743-8751 *)
Definition action_95 (x0 : expr) : expr := x0.
(** src/sql/parser.rs:8754-8764 *)
Definition action_96 (l : expr) (_ : str) (r : expr) : expr := EBinary BAdd l r.
(** src/sql/parser.rs:8767-8777 *)
Definition action_97 (l : expr) (_ : str) (r : expr) : expr := EBinary BSubtract l r.
(** src/sql/parser.rs:8780-8790 *)
Definition action_98 (l : expr) (_ : str) (r : expr) : expr := EBinary BConcat l r.
(** src/sql/parser.rs:8793-8801 *)
Definition action_99 (x0 : expr) : expr := x0.
(** src/sql/parser.rs:8804-8814 *)
Definition action_100 (l : expr) (_ : str) (r : expr) : expr := ECompare CEqual l r.
(** src/sql/parser.rs:8817-8827 *)
Definition action_101 (l : expr) (_ : str) (r : expr) : expr := ECompare CNotEqual l r.
(** src/sql/parser.rs:8830-8840 *)
Definition action_102 (l : expr) (_ : str) (r : expr) : expr := ECompare CLess l r.
(** src/sql/parser.rs:8843-8853 *)
Definition action_103 (l : expr) (_ : str) (r : expr) : expr := ECompare CGreater l r.
(** src/sql/parser.rs:8856-8866 *)
Definition action_104 (l : expr) (_ : str) (r : expr) : expr := ECompare CLessEqual l r.
(** src/sql/parser.rs:8869-8879 *)
Definition action_105 (l : expr) (_ : str) (r : expr) : expr := ECompare CGreaterEqual l r.
(** src/sql/parser.rs:8882-8892 *)
Definition action_106 (l : expr) (_ : str) (_ : str) : expr := EUnary UIsNull l.
(** src/sql/parser.rs:8895-8909 *)
Definition action_107 (l : expr) (_ : str) (_ : str) (_ : str) : expr := EUnary UNot (EUnary UIsNull l).
(** src/sql/parser.rs:8912-8922 *)
Definition action_108 (l : expr) (_ : str) (r : expr) : expr := ECompare CLike l r.
(** src/sql/parser.rs:8925-8934 *)
Definition action_109 (e : expr) (_ : str) : expr := EUnary UIsNull e.
(** src/sql/parser.rs:8937-8947 *)
Definition action_110 (e : expr) (_ : str) : expr := EUnary UNot (EUnary UIsNull e).
(** src/sql/parser.rs:8950-8961 *)
Definition action_111 (e : expr) (_ : str) (_ : str) : expr := EUnary UNot (EUnary UIsNull e).
(** src/sql/parser.rs:8964-8975 *)
Definition action_112 (e : expr) (_ : str) (_ : str) (_ : str) : expr := EIn e (SpList []).
(** src/sql/parser.rs:8978-8991 *)
Definition action_113 (e : expr) (_ : str) (_ : str) (_ : str) (_ : str) : expr := EUnary UNot (EIn e (SpList [])).
(** src/sql/parser.rs:8994-9006 *)
Definition action_114 (e : expr) (_ : str) (_ : str) (exprs : list expr) (_ : str) : expr := EIn e (SpList exprs).
(** src/sql/parser.rs:9009-9023 *)
Definition action_115 (e : expr) (_ : str) (_ : str) (_ : str) (exprs : list expr) (_ : str) : expr :=
  EUnary UNot (EIn e (SpList exprs)).
(** src/sql/parser.rs:9026-9038 *)
Definition action_116 (e : expr) (_ : str) (_ : str) (sel : select) (_ : str) : expr := EIn e (SpSelect sel).
(** src/sql/parser.rs:9041-9055 *)
Definition action_117 (e : expr) (_ : str) (_ : str) (_ : str) (sel : select) (_ : str) : expr :=
  EUnary UNot (EIn e (SpSelect sel)).
(** src/sql/parser.rs:9058-9068 *)
Definition action_118 (e : expr) (_ : str) (n : list name) : expr := EIn e (SpName n).
(** src/sql/parser.rs:9071-9083 *)
Definition action_119 (e : expr) (_ : str) (_ : str) (n : list name) : expr := EUnary UNot (EIn e (SpName n)).
(** src/sql/parser.rs:9086-9098 *)
Definition action_120 (e : expr) (_ : str) (lower : expr) (_ : str) (upper : expr) : expr := EBetween e lower upper.
(** src/sql/parser.rs:9101-9115 *)
Definition action_121 (e : expr) (_ : str) (_ : str) (lower : expr) (_ : str) (upper : expr) : expr :=
  EUnary UNot (EBetween e lower upper).
(** src/sql/parser.rs:9118-9126 *)
Definition action_122 (x0 : expr) : expr := x0.
(** src/sql/parser.rs:9129-9137 *)
Definition action_123 (x0 : expr) : expr := x0.
(** src/sql/parser.rs:9140-9152 *)
Definition action_124 (_ : str) (e : option expr) (when_part : list when_clause) (else_part : option expr) (_ :
    str) : expr :=
  ECase e when_part else_part.
(** src/sql/parser.rs:9155-9166 *)
Definition action_125 (_ : str) (guard : expr) (_ : str) (body : expr) : when_clause := (guard, body).
(** src/sql/parser.rs:9169-9178 *)
Definition action_126 (_ : str) (e : expr) : expr := e.
(** src/sql/parser.rs:9181-9189 *)
Definition action_127 (x0 : expr) : expr := x0.
(** src/sql/parser.rs:9192-9201 *)
Definition action_128 (_ : str) (e : expr) : expr := EUnary UNot e.
(** src/sql/parser.rs:9204-9212 *)
Definition action_129 (x0 : expr) : expr := x0.
(** src/sql/parser.rs:9215-9225 *)
Definition action_130 (l : expr) (_ : str) (r : expr) : expr := EBinary BAnd l r.
(** src/sql/parser.rs:9228-9236 *)
Definition action_131 (x0 : expr) : expr := x0.
(** src/sql/parser.rs:9239-9249 *)
Definition action_132 (l : expr) (_ : str) (r : expr) : expr := EBinary BOr l r.
(** src/sql/parser.rs:9252-9260 *)
Definition action_133 (x0 : expr) : expr := x0.
(** src/sql/parser.rs:9263-9271 *)
Definition action_134 (x0 : str) : literal := LNumeric x0.
(** src/sql/parser.rs:9274-9282 *)
Definition action_135 (x0 : str) : literal := LString x0.
(** src/sql/parser.rs:9285-9293 *)
Definition action_136 (x0 : str) : literal := LNull.
(** src/sql/parser.rs:9296-9304 *)
Definition action_137 (x0 : str) : literal := LCurrentTime.
(** src/sql/parser.rs:9307-9315 *)
Definition action_138 (x0 : str) : literal := LCurrentDate.
(** src/sql/parser.rs:9318-9326 *)
Definition action_139 (x0 : str) : literal := LCurrentTimestamp.
(** src/sql/parser.rs:9329-9338 *)
Definition action_140 (_ : str) (text : str) : literal := LDate text.
(** src/sql/parser.rs:9341-9350 *)
Definition action_141 (_ : str) (text : str) : literal := LTime text.
(** src/sql/parser.rs:9353-9362 *)
Definition action_142 (_ : str) (text : str) : literal := LTimestamp text.
(** src/sql/parser.rs:9365-9373 *)
Definition action_143 (x0 : str) : name := x0.
(** src/sql/parser.rs:9376-9384 *)
Definition action_144 (x0 : str) : str := x0.
(** src/sql/parser.rs:9387-9395 *)
Definition action_145 (x0 : str) : str := x0.
(** src/sql/parser.rs:9398-9406 *)
Definition action_146 (x0 : str) : str := x0.
(** src/sql/parser.rs:9409-9417 *)
Definition action_147 (x0 : str) : outcome str := slice_inner x0.
(** src/sql/parser.rs:9420-9428 *)
Definition action_148 (x0 : expr) : option expr := Some x0.
(** src/sql/parser.rs:9431-9440 *)
Definition action_149 : option expr := None.
(** src/sql/parser.rs:9443-9451 *)
Definition action_150 (x0 : when_clause) : list when_clause := [x0].
(** src/sql/parser.rs:9454-9463 *)
Definition action_151 (v : list when_clause) (e : when_clause) : list when_clause := v ++ [e].
(** src/sql/parser.rs:9466-9474 *)
Definition action_152 (x0 : expr) : option expr := Some x0.
(** src/sql/parser.rs:9477-9486 *)
Definition action_153 : option expr := None.
(** src/sql/parser.rs:9489-9497 *)
Definition action_154 (x0 : name) : option name := Some x0.
(** src/sql/parser.rs:9500-9509 *)
Definition action_155 : option name := None.
(** src/sql/parser.rs:9512-9520 *)
Definition action_156 (x0 : str) : option str := Some x0.
(** src/sql/parser.rs:9523-9532 *)
Definition action_157 : option str := None.
(** src/sql/parser.rs:9535-9543 *)
Definition action_158 (x0 : name) : option name := Some x0.
(** src/sql/parser.rs:9546-9555 *)
Definition action_159 : option name := None.
(** src/sql/parser.rs:9558-9566 *)
Definition action_160 (x0 : str) : option str := Some x0.
(** src/sql/parser.rs:9569-9578 *)
Definition action_161 : option str := None.
(** src/sql/parser.rs:9581-9589 *)
Definition action_162 (x0 : join_type) : option join_type := Some x0.
(** src/sql/parser.rs:9592-9601 *)
Definition action_163 : option join_type := None.
(** src/sql/parser.rs:9604-9612 *)
Definition action_164 (x0 : name) : option name := Some x0.
(** src/sql/parser.rs:9615-9624 *)
Definition action_165 : option name := None.
(** src/sql/parser.rs:9627-9635 *)
Definition action_166 (x0 : str) : option str := Some x0.
(** src/sql/parser.rs:9638-9647 *)
Definition action_167 : option str := None.
(** src/sql/parser.rs:9650-9658 *)
Definition action_168 (x0 : str) : option str := Some x0.
(** src/sql/parser.rs:9661-9670 *)
Definition action_169 : option str := None.
(** src/sql/parser.rs:9673-9681 *)
Definition action_170 (x0 : group) : option group := Some x0.
(** src/sql/parser.rs:9684-9693 *)
Definition action_171 : option group := None.
(** src/sql/parser.rs:9696-9704 *)
Definition action_172 (x0 : limit) : option limit := Some x0.
(** src/sql/parser.rs:9707-9716 *)
Definition action_173 : option limit := None.
(** src/sql/parser.rs:9719-9727 *)
Definition action_174 (x0 : list ordering) : option (list ordering) := Some x0.
(** src/sql/parser.rs:9730-9739 *)
Definition action_175 : option (list ordering) := None.
(** src/sql/parser.rs:9742-9750 *)
Definition action_176 (x0 : expr) : option expr := Some x0.
(** src/sql/parser.rs:9753-9762 *)
Definition action_177 : option expr := None.
(** src/sql/parser.rs:9765-9773 *)
Definition action_178 (x0 : list name) : option (list name) := Some x0.
(** src/sql/parser.rs:9776-9785 *)
Definition action_179 : option (list name) := None.
(** src/sql/parser.rs:9788-9796 *)
Definition action_180 (x0 : list cte) : option (list cte) := Some x0.
(** src/sql/parser.rs:9799-9808 *)
Definition action_181 : option (list cte) := None.
(** src/sql/parser.rs:9811-9819 *)
Definition action_182 (x0 : (str * str)) : option (str * str) := Some x0.
(** src/sql/parser.rs:9822-9831 *)
Definition action_183 : option (str * str) := None.
(** src/sql/parser.rs:9834-9843 *)
Definition action_184 (x0 : str) (x1 : str) : (str * str) := (x0, x1).
(** src/sql/parser.rs:9846-9864 *)
Definition action_185 (x0 : str) : select_mode := action_32 (action_168 x0).
(** src/sql/parser.rs:9867-9887 *)
Definition action_186 : select_mode := action_32 action_169.
(** src/sql/parser.rs:9890-9912 *)
Definition action_187 (x0 : expr) (x1 : str) (x2 : name) : result_column := action_42 x0 (action_166 x1) x2.
(** src/sql/parser.rs:9915-9937 *)
Definition action_188 (x0 : expr) (x1 : name) : result_column := action_42 x0 action_167 x1.
(** src/sql/parser.rs:9940-9960 *)
Definition action_189 (x0 : str) (x1 : name) : name := action_55 (action_166 x0) x1.
(** src/sql/parser.rs:9963-9983 *)
Definition action_190 (x0 : name) : name := action_55 action_167 x0.
(** src/sql/parser.rs:9986-10004 *)
Definition action_191 (x0 : str) : direction := action_75 (action_156 x0).
(** src/sql/parser.rs:10007-10027 *)
Definition action_192 : direction := action_75 action_157.
(** src/sql/parser.rs:10030-10050 *)
Definition action_193 (x0 : str) (x1 : str) : join_type := action_59 x0 (action_160 x1).
(** src/sql/parser.rs:10053-10073 *)
Definition action_194 (x0 : str) : join_type := action_59 x0 action_161.
(** src/sql/parser.rs:10076-10096 *)
Definition action_195 (x0 : str) (x1 : str) : join_type := action_60 x0 (action_160 x1).
(** src/sql/parser.rs:10099-10119 *)
Definition action_196 (x0 : str) : join_type := action_60 x0 action_161.
(** src/sql/parser.rs:10122-10142 *)
Definition action_197 (x0 : str) (x1 : str) : join_type := action_61 x0 (action_160 x1).
(** src/sql/parser.rs:10145-10165 *)
Definition action_198 (x0 : str) : join_type := action_61 x0 action_161.
(** src/sql/parser.rs:10168-10188 *)
Definition action_199 (x0 : str) (x1 : str) : option (str * str) := action_182 (action_184 x0 x1).
(** src/sql/parser.rs:10191-10215 *)
Definition action_200 (x0 : str) (x1 : str) (x2 : str) (x3 : statement) : sql_statement :=
  action_2 x0 (action_199 x1 x2) x3.
(** src/sql/parser.rs:10218-10240 *)
Definition action_201 (x0 : str) (x1 : statement) : sql_statement := action_2 x0 action_183 x1.
(** src/sql/parser.rs:10243-10271 *)
Definition action_202 (x0 : option (list cte)) (x1 : str) (x2 : str) (x3 : list name) (x4 : list name) (x5 :
    set_expr) : insert :=
  action_9 x0 x1 x2 x3 (action_178 x4) x5.
(** src/sql/parser.rs:10274-10302 *)
Definition action_203 (x0 : option (list cte)) (x1 : str) (x2 : str) (x3 : list name) (x4 : set_expr) : insert :=
  action_9 x0 x1 x2 x3 action_179 x4.
(** src/sql/parser.rs:10305-10331 *)
Definition action_204 (x0 : str) (x1 : option expr) (x2 : list when_clause) (x3 : expr) (x4 : str) : expr :=
  action_124 x0 x1 x2 (action_148 x3) x4.
(** src/sql/parser.rs:10334-10360 *)
Definition action_205 (x0 : str) (x1 : option expr) (x2 : list when_clause) (x3 : str) : expr :=
  action_124 x0 x1 x2 action_149 x3.
(** src/sql/parser.rs:10363-10389 *)
Definition action_206 (x0 : str) (x1 : expr) (x2 : list when_clause) (x3 : expr) (x4 : str) : expr :=
  action_204 x0 (action_152 x1) x2 x3 x4.
(** src/sql/parser.rs:10392-10418 *)
Definition action_207 (x0 : str) (x1 : list when_clause) (x2 : expr) (x3 : str) : expr :=
  action_204 x0 action_153 x1 x2 x3.
(** src/sql/parser.rs:10421-10445 *)
Definition action_208 (x0 : str) (x1 : expr) (x2 : list when_clause) (x3 : str) : expr :=
  action_205 x0 (action_152 x1) x2 x3.
(** src/sql/parser.rs:10448-10472 *)
Definition action_209 (x0 : str) (x1 : list when_clause) (x2 : str) : expr := action_205 x0 action_153 x1 x2.
(** src/sql/parser.rs:10475-10501 *)
Definition action_210 (x0 : str) (x1 : select_mode) (x2 : result_columns) (x3 : option expr) (x4 : group) :
    set_expr :=
  action_29 x0 x1 x2 x3 (action_170 x4).
(** src/sql/parser.rs:10504-10530 *)
Definition action_211 (x0 : str) (x1 : select_mode) (x2 : result_columns) (x3 : option expr) : set_expr :=
  action_29 x0 x1 x2 x3 action_171.
(** src/sql/parser.rs:10533-10561 *)
Definition action_212 (x0 : str) (x1 : select_mode) (x2 : result_columns) (x3 : list table_expr) (x4 : option
    expr) (x5 : group) : set_expr :=
  action_30 x0 x1 x2 x3 x4 (action_170 x5).
(** src/sql/parser.rs:10564-10592 *)
Definition action_213 (x0 : str) (x1 : select_mode) (x2 : result_columns) (x3 : list table_expr) (x4 : option
    expr) : set_expr :=
  action_30 x0 x1 x2 x3 x4 action_171.
(** src/sql/parser.rs:10595-10615 *)
Definition action_214 (x0 : join_type) (x1 : str) : join_op := action_56 (action_162 x0) x1.
(** src/sql/parser.rs:10618-10638 *)
Definition action_215 (x0 : str) : join_op := action_56 action_163 x0.
(** src/sql/parser.rs:10641-10663 *)
Definition action_216 (x0 : str) (x1 : join_type) (x2 : str) : join_op := action_57 x0 (action_162 x1) x2.
(** src/sql/parser.rs:10666-10688 *)
Definition action_217 (x0 : str) (x1 : str) : join_op := action_57 x0 action_163 x1.
(** src/sql/parser.rs:10691-10715 *)
Definition action_218 (x0 : list cte) (x1 : set_expr) (x2 : option (list ordering)) (x3 : limit) : select :=
  action_16 x0 x1 x2 (action_172 x3).
(** src/sql/parser.rs:10718-10742 *)
Definition action_219 (x0 : list cte) (x1 : set_expr) (x2 : option (list ordering)) : select :=
  action_16 x0 x1 x2 action_173.
(** src/sql/parser.rs:10745-10767 *)
Definition action_220 (x0 : set_expr) (x1 : option (list ordering)) (x2 : limit) : select :=
  action_17 x0 x1 (action_172 x2).
(** src/sql/parser.rs:10770-10792 *)
Definition action_221 (x0 : set_expr) (x1 : option (list ordering)) : select := action_17 x0 x1 action_173.
(** src/sql/parser.rs:10795-10819 *)
Definition action_222 (x0 : list cte) (x1 : set_expr) (x2 : list ordering) (x3 : limit) : select :=
  action_218 x0 x1 (action_174 x2) x3.
(** src/sql/parser.rs:10822-10846 *)
Definition action_223 (x0 : list cte) (x1 : set_expr) (x2 : limit) : select := action_218 x0 x1 action_175 x2.
(** src/sql/parser.rs:10849-10871 *)
Definition action_224 (x0 : list cte) (x1 : set_expr) (x2 : list ordering) : select :=
  action_219 x0 x1 (action_174 x2).
(** src/sql/parser.rs:10874-10896 *)
Definition action_225 (x0 : list cte) (x1 : set_expr) : select := action_219 x0 x1 action_175.
(** src/sql/parser.rs:10899-10921 *)
Definition action_226 (x0 : set_expr) (x1 : list ordering) (x2 : limit) : select :=
  action_220 x0 (action_174 x1) x2.
(** src/sql/parser.rs:10924-10946 *)
Definition action_227 (x0 : set_expr) (x1 : limit) : select := action_220 x0 action_175 x1.
(** src/sql/parser.rs:10949-10969 *)
Definition action_228 (x0 : set_expr) (x1 : list ordering) : select := action_221 x0 (action_174 x1).
(** src/sql/parser.rs:10972-10992 *)
Definition action_229 (x0 : set_expr) : select := action_221 x0 action_175.
(** src/sql/parser.rs:10995-11017 *)
Definition action_230 (x0 : expr) (x1 : name) (x2 : direction) : ordering := action_73 x0 (action_158 x1) x2.
(** src/sql/parser.rs:11020-11042 *)
Definition action_231 (x0 : expr) (x1 : direction) : ordering := action_73 x0 action_159 x1.
(** src/sql/parser.rs:11045-11073 *)
Definition action_232 (x0 : str) (x1 : str) (x2 : str) (x3 : str) (x4 : name) (x5 : name) : attach :=
  action_80 x0 x1 x2 x3 (action_154 x4) x5.
(** src/sql/parser.rs:11076-11104 *)
Definition action_233 (x0 : str) (x1 : str) (x2 : str) (x3 : str) (x4 : name) : attach :=
  action_80 x0 x1 x2 x3 action_155 x4.
(** src/sql/parser.rs:11107-11129 *)
Definition action_234 (x0 : str) (x1 : name) (x2 : name) : describe := action_81 x0 (action_154 x1) x2.
(** src/sql/parser.rs:11132-11154 *)
Definition action_235 (x0 : str) (x1 : name) : describe := action_81 x0 action_155 x1.
(** src/sql/parser.rs:11157-11177 *)
Definition action_236 (x0 : list name) (x1 : name) : table_expr := action_52 x0 (action_164 x1).
(** src/sql/parser.rs:11180-11200 *)
Definition action_237 (x0 : list name) : table_expr := action_52 x0 action_165.
(** src/sql/parser.rs:11203-11227 *)
Definition action_238 (x0 : str) (x1 : select) (x2 : str) (x3 : name) : table_expr :=
  action_53 x0 x1 x2 (action_164 x3).
(** src/sql/parser.rs:11230-11254 *)
Definition action_239 (x0 : str) (x1 : select) (x2 : str) : table_expr := action_53 x0 x1 x2 action_165.
(** src/sql/parser.rs:11257-11283 *)
Definition action_240 (x0 : list cte) (x1 : str) (x2 : str) (x3 : list name) (x4 : option expr) : delete :=
  action_11 (action_180 x0) x1 x2 x3 x4.
(** src/sql/parser.rs:11286-11312 *)
Definition action_241 (x0 : str) (x1 : str) (x2 : list name) (x3 : option expr) : delete :=
  action_11 action_181 x0 x1 x2 x3.
(** src/sql/parser.rs:11315-11343 *)
Definition action_242 (x0 : list cte) (x1 : str) (x2 : str) (x3 : list name) (x4 : list name) (x5 : set_expr) :
    insert :=
  action_202 (action_180 x0) x1 x2 x3 x4 x5.
(** src/sql/parser.rs:11346-11374 *)
Definition action_243 (x0 : str) (x1 : str) (x2 : list name) (x3 : list name) (x4 : set_expr) : insert :=
  action_202 action_181 x0 x1 x2 x3 x4.
(** src/sql/parser.rs:11377-11403 *)
Definition action_244 (x0 : list cte) (x1 : str) (x2 : str) (x3 : list name) (x4 : set_expr) : insert :=
  action_203 (action_180 x0) x1 x2 x3 x4.
(** src/sql/parser.rs:11406-11432 *)
Definition action_245 (x0 : str) (x1 : str) (x2 : list name) (x3 : set_expr) : insert :=
  action_203 action_181 x0 x1 x2 x3.
(** src/sql/parser.rs:11435-11463 *)
Definition action_246 (x0 : list cte) (x1 : str) (x2 : list name) (x3 : str) (x4 : list assignment) (x5 : option
    expr) : update :=
  action_12 (action_180 x0) x1 x2 x3 x4 x5.
(** src/sql/parser.rs:11466-11494 *)
Definition action_247 (x0 : str) (x1 : list name) (x2 : str) (x3 : list assignment) (x4 : option expr) : update :=
  action_12 action_181 x0 x1 x2 x3 x4.
(** src/sql/parser.rs:11497-11523 *)
Definition action_248 (x0 : list cte) (x1 : str) (x2 : str) (x3 : list name) (x4 : expr) : delete :=
  action_240 x0 x1 x2 x3 (action_176 x4).
(** src/sql/parser.rs:11526-11552 *)
Definition action_249 (x0 : list cte) (x1 : str) (x2 : str) (x3 : list name) : delete :=
  action_240 x0 x1 x2 x3 action_177.
(** src/sql/parser.rs:11555-11579 *)
Definition action_250 (x0 : str) (x1 : str) (x2 : list name) (x3 : expr) : delete :=
  action_241 x0 x1 x2 (action_176 x3).
(** src/sql/parser.rs:11582-11606 *)
Definition action_251 (x0 : str) (x1 : str) (x2 : list name) : delete := action_241 x0 x1 x2 action_177.
(** src/sql/parser.rs:11609-11635 *)
Definition action_252 (x0 : str) (x1 : select_mode) (x2 : result_columns) (x3 : expr) (x4 : group) : set_expr :=
  action_210 x0 x1 x2 (action_176 x3) x4.
(** src/sql/parser.rs:11638-11664 *)
Definition action_253 (x0 : str) (x1 : select_mode) (x2 : result_columns) (x3 : group) : set_expr :=
  action_210 x0 x1 x2 action_177 x3.
(** src/sql/parser.rs:11667-11691 *)
Definition action_254 (x0 : str) (x1 : select_mode) (x2 : result_columns) (x3 : expr) : set_expr :=
  action_211 x0 x1 x2 (action_176 x3).
(** src/sql/parser.rs:11694-11718 *)
Definition action_255 (x0 : str) (x1 : select_mode) (x2 : result_columns) : set_expr :=
  action_211 x0 x1 x2 action_177.
(** src/sql/parser.rs:11721-11749 *)
Definition action_256 (x0 : str) (x1 : select_mode) (x2 : result_columns) (x3 : list table_expr) (x4 : expr) (x5 :
    group) : set_expr :=
  action_212 x0 x1 x2 x3 (action_176 x4) x5.
(** src/sql/parser.rs:11752-11780 *)
Definition action_257 (x0 : str) (x1 : select_mode) (x2 : result_columns) (x3 : list table_expr) (x4 : group) :
    set_expr :=
  action_212 x0 x1 x2 x3 action_177 x4.
(** src/sql/parser.rs:11783-11809 *)
Definition action_258 (x0 : str) (x1 : select_mode) (x2 : result_columns) (x3 : list table_expr) (x4 : expr) :
    set_expr :=
  action_213 x0 x1 x2 x3 (action_176 x4).
(** src/sql/parser.rs:11812-11838 *)
Definition action_259 (x0 : str) (x1 : select_mode) (x2 : result_columns) (x3 : list table_expr) : set_expr :=
  action_213 x0 x1 x2 x3 action_177.
(** src/sql/parser.rs:11841-11869 *)
Definition action_260 (x0 : list cte) (x1 : str) (x2 : list name) (x3 : str) (x4 : list assignment) (x5 : expr) :
    update :=
  action_246 x0 x1 x2 x3 x4 (action_176 x5).
(** src/sql/parser.rs:11872-11900 *)
Definition action_261 (x0 : list cte) (x1 : str) (x2 : list name) (x3 : str) (x4 : list assignment) : update :=
  action_246 x0 x1 x2 x3 x4 action_177.
(** src/sql/parser.rs:11903-11929 *)
Definition action_262 (x0 : str) (x1 : list name) (x2 : str) (x3 : list assignment) (x4 : expr) : update :=
  action_247 x0 x1 x2 x3 (action_176 x4).
(** src/sql/parser.rs:11932-11958 *)
Definition action_263 (x0 : str) (x1 : list name) (x2 : str) (x3 : list assignment) : update :=
  action_247 x0 x1 x2 x3 action_177.

(** ** The values on the stack *)

(** src/sql/parser.rs:26-77 [__Symbol]. *)
Inductive sym : Type :=
| Variant0 (v : str)
| Variant1 (v : option str)
| Variant2 (v : (str * str))
| Variant3 (v : option (str * str))
| Variant4 (v : expr)
| Variant5 (v : assignment)
| Variant6 (v : list assignment)
| Variant7 (v : attach)
| Variant8 (v : list name)
| Variant9 (v : option (list name))
| Variant10 (v : cte)
| Variant11 (v : list cte)
| Variant12 (v : set_op)
| Variant13 (v : delete)
| Variant14 (v : describe)
| Variant15 (v : option expr)
| Variant16 (v : list expr)
| Variant17 (v : list table_expr)
| Variant18 (v : group)
| Variant19 (v : option group)
| Variant20 (v : name)
| Variant21 (v : insert)
| Variant22 (v : join_constraint)
| Variant23 (v : join_op)
| Variant24 (v : join_type)
| Variant25 (v : option join_type)
| Variant26 (v : limit)
| Variant27 (v : option limit)
| Variant28 (v : literal)
| Variant29 (v : str)
| Variant30 (v : list ordering)
| Variant31 (v : option (list ordering))
| Variant32 (v : option name)
| Variant33 (v : direction)
| Variant34 (v : ordering)
| Variant35 (v : result_column)
| Variant36 (v : list result_column)
| Variant37 (v : result_columns)
| Variant38 (v : set_expr)
| Variant39 (v : select_mode)
| Variant40 (v : select)
| Variant41 (v : sql_statement)
| Variant42 (v : statement)
| Variant43 (v : table_expr)
| Variant44 (v : option (list cte))
| Variant45 (v : list (list expr))
| Variant46 (v : update)
| Variant47 (v : when_clause)
| Variant48 (v : list when_clause).

(** src/sql/parser.rs:1941-1957 [__token_to_symbol]. *)
Definition sql_shift (t : token) : sym := Variant0 (snd t).

(** src/sql/parser.rs:3230-7430 [__reduce0] to [__reduce222]: values are taken from the stack by [__pop_Variant4] and its like
    (2690-3229), which panic if the value is of another variant; then the action is called. *)
Definition sql_reduce : list (list sym -> outcome sym) := [
  (* 0: "ALL"? = "ALL" *)
  fun l => match l with [Variant0 x0] => Ret (Variant1 (action_168 x0)) | _ => Panic end;
  (* 1: "ALL"? =  *)
  fun l => match l with [] => Ret (Variant1 action_169) | _ => Panic end;
  (* 2: "AS"? = "AS" *)
  fun l => match l with [Variant0 x0] => Ret (Variant1 (action_166 x0)) | _ => Panic end;
  (* 3: "AS"? =  *)
  fun l => match l with [] => Ret (Variant1 action_167) | _ => Panic end;
  (* 4: "ASC"? = "ASC" *)
  fun l => match l with [Variant0 x0] => Ret (Variant1 (action_156 x0)) | _ => Panic end;
  (* 5: "ASC"? =  *)
  fun l => match l with [] => Ret (Variant1 action_157) | _ => Panic end;
  (* 6: "OUTER"? = "OUTER" *)
  fun l => match l with [Variant0 x0] => Ret (Variant1 (action_160 x0)) | _ => Panic end;
  (* 7: "OUTER"? =  *)
  fun l => match l with [] => Ret (Variant1 action_161) | _ => Panic end;
  (* 8: ("QUERY" "PLAN") = "QUERY" "PLAN" *)
  fun l => match l with [Variant0 x0; Variant0 x1] => Ret (Variant2 (action_184 x0 x1)) | _ => Panic end;
  (* 9: ("QUERY" "PLAN")? = "QUERY" "PLAN" *)
  fun l => match l with [Variant0 x0; Variant0 x1] => Ret (Variant3 (action_199 x0 x1)) | _ => Panic end;
  (* 10: ("QUERY" "PLAN")? =  *)
  fun l => match l with [] => Ret (Variant3 action_183) | _ => Panic end;
  (* 11: AdditiveExpression = MultiplicativeExpression *)
  fun l => match l with [Variant4 x0] => Ret (Variant4 (action_95 x0)) | _ => Panic end;
  (* 12: AdditiveExpression = AdditiveExpression "+" MultiplicativeExpression *)
  fun l => match l with [Variant4 x0; Variant0 x1; Variant4 x2] => Ret (Variant4 (action_96 x0 x1 x2)) | _ => Panic end;
  (* 13: AdditiveExpression = AdditiveExpression "-" MultiplicativeExpression *)
  fun l => match l with [Variant4 x0; Variant0 x1; Variant4 x2] => Ret (Variant4 (action_97 x0 x1 x2)) | _ => Panic end;
  (* 14: AdditiveExpression = AdditiveExpression "||" MultiplicativeExpression *)
  fun l => match l with [Variant4 x0; Variant0 x1; Variant4 x2] => Ret (Variant4 (action_98 x0 x1 x2)) | _ => Panic end;
  (* 15: AndExpression = NotExpression *)
  fun l => match l with [Variant4 x0] => Ret (Variant4 (action_129 x0)) | _ => Panic end;
  (* 16: AndExpression = AndExpression "AND" NotExpression *)
  fun l => match l with [Variant4 x0; Variant0 x1; Variant4 x2] => Ret (Variant4 (action_130 x0 x1 x2)) | _ => Panic end;
  (* 17: Assignment = IdentifierList "=" Expression *)
  fun l => match l with [Variant8 x0; Variant0 x1; Variant4 x2] => Ret (Variant5 (action_15 x0 x1 x2)) | _ => Panic end;
  (* 18: Assignments = Assignment *)
  fun l => match l with [Variant5 x0] => Ret (Variant6 (action_13 x0)) | _ => Panic end;
  (* 19: Assignments = Assignments "," Assignment *)
  fun l => match l with [Variant6 x0; Variant0 x1; Variant5 x2] => Ret (Variant6 (action_14 x0 x1 x2)) | _ => Panic end;
  (* 20: AttachStatement = "ATTACH" "FILE" StringLiteral "AS" SchemaName Identifier *)
  fun l => match l with [Variant0 x0; Variant0 x1; Variant29 x2; Variant0 x3; Variant20 x4; Variant20 x5] => Ret (Variant7 (action_232 x0 x1 x2 x3 x4 x5)) | _ => Panic end;
  (* 21: AttachStatement = "ATTACH" "FILE" StringLiteral "AS" Identifier *)
  fun l => match l with [Variant0 x0; Variant0 x1; Variant29 x2; Variant0 x3; Variant20 x4] => Ret (Variant7 (action_233 x0 x1 x2 x3 x4)) | _ => Panic end;
  (* 22: CaseExpression = "CASE" Expression WhenClause+ ElseClause "END" *)
  fun l => match l with [Variant0 x0; Variant4 x1; Variant48 x2; Variant4 x3; Variant0 x4] => Ret (Variant4 (action_206 x0 x1 x2 x3 x4)) | _ => Panic end;
  (* 23: CaseExpression = "CASE" WhenClause+ ElseClause "END" *)
  fun l => match l with [Variant0 x0; Variant48 x1; Variant4 x2; Variant0 x3] => Ret (Variant4 (action_207 x0 x1 x2 x3)) | _ => Panic end;
  (* 24: CaseExpression = "CASE" Expression WhenClause+ "END" *)
  fun l => match l with [Variant0 x0; Variant4 x1; Variant48 x2; Variant0 x3] => Ret (Variant4 (action_208 x0 x1 x2 x3)) | _ => Panic end;
  (* 25: CaseExpression = "CASE" WhenClause+ "END" *)
  fun l => match l with [Variant0 x0; Variant48 x1; Variant0 x2] => Ret (Variant4 (action_209 x0 x1 x2)) | _ => Panic end;
  (* 26: ColumnNameList = "(" IdentifierList ")" *)
  fun l => match l with [Variant0 x0; Variant8 x1; Variant0 x2] => Ret (Variant8 (action_10 x0 x1 x2)) | _ => Panic end;
  (* 27: ColumnNameList? = ColumnNameList *)
  fun l => match l with [Variant8 x0] => Ret (Variant9 (action_178 x0)) | _ => Panic end;
  (* 28: ColumnNameList? =  *)
  fun l => match l with [] => Ret (Variant9 action_179) | _ => Panic end;
  (* 29: CommonTableExpression = Identifier "AS" "(" SelectStatement ")" *)
  fun l => match l with [Variant20 x0; Variant0 x1; Variant0 x2; Variant40 x3; Variant0 x4] => Ret (Variant10 (action_21 x0 x1 x2 x3 x4)) | _ => Panic end;
  (* 30: CommonTableExpression = Identifier "(" IdentifierList ")" "AS" "(" SelectStatement ")" *)
  fun l => match l with [Variant20 x0; Variant0 x1; Variant8 x2; Variant0 x3; Variant0 x4; Variant0 x5; Variant40 x6; Variant0 x7] => Ret (Variant10 (action_22 x0 x1 x2 x3 x4 x5 x6 x7)) | _ => Panic end;
  (* 31: CommonTableExpressionList = CommonTableExpression *)
  fun l => match l with [Variant10 x0] => Ret (Variant11 (action_19 x0)) | _ => Panic end;
  (* 32: CommonTableExpressionList = CommonTableExpressionList "," CommonTableExpression *)
  fun l => match l with [Variant11 x0; Variant0 x1; Variant10 x2] => Ret (Variant11 (action_20 x0 x1 x2)) | _ => Panic end;
  (* 33: ComparativeExpression = AdditiveExpression *)
  fun l => match l with [Variant4 x0] => Ret (Variant4 (action_99 x0)) | _ => Panic end;
  (* 34: ComparativeExpression = ComparativeExpression "=" AdditiveExpression *)
  fun l => match l with [Variant4 x0; Variant0 x1; Variant4 x2] => Ret (Variant4 (action_100 x0 x1 x2)) | _ => Panic end;
  (* 35: ComparativeExpression = ComparativeExpression "!=" AdditiveExpression *)
  fun l => match l with [Variant4 x0; Variant0 x1; Variant4 x2] => Ret (Variant4 (action_101 x0 x1 x2)) | _ => Panic end;
  (* 36: ComparativeExpression = ComparativeExpression "<" AdditiveExpression *)
  fun l => match l with [Variant4 x0; Variant0 x1; Variant4 x2] => Ret (Variant4 (action_102 x0 x1 x2)) | _ => Panic end;
  (* 37: ComparativeExpression = ComparativeExpression ">" AdditiveExpression *)
  fun l => match l with [Variant4 x0; Variant0 x1; Variant4 x2] => Ret (Variant4 (action_103 x0 x1 x2)) | _ => Panic end;
  (* 38: ComparativeExpression = ComparativeExpression "<=" AdditiveExpression *)
  fun l => match l with [Variant4 x0; Variant0 x1; Variant4 x2] => Ret (Variant4 (action_104 x0 x1 x2)) | _ => Panic end;
  (* 39: ComparativeExpression = ComparativeExpression ">=" AdditiveExpression *)
  fun l => match l with [Variant4 x0; Variant0 x1; Variant4 x2] => Ret (Variant4 (action_105 x0 x1 x2)) | _ => Panic end;
  (* 40: ComparativeExpression = ComparativeExpression "IS" "NULL" *)
  fun l => match l with [Variant4 x0; Variant0 x1; Variant0 x2] => Ret (Variant4 (action_106 x0 x1 x2)) | _ => Panic end;
  (* 41: ComparativeExpression = ComparativeExpression "IS" "NOT" "NULL" *)
  fun l => match l with [Variant4 x0; Variant0 x1; Variant0 x2; Variant0 x3] => Ret (Variant4 (action_107 x0 x1 x2 x3)) | _ => Panic end;
  (* 42: ComparativeExpression = ComparativeExpression "LIKE" AdditiveExpression *)
  fun l => match l with [Variant4 x0; Variant0 x1; Variant4 x2] => Ret (Variant4 (action_108 x0 x1 x2)) | _ => Panic end;
  (* 43: ComparativeExpression = ComparativeExpression "ISNULL" *)
  fun l => match l with [Variant4 x0; Variant0 x1] => Ret (Variant4 (action_109 x0 x1)) | _ => Panic end;
  (* 44: ComparativeExpression = ComparativeExpression "NOTNULL" *)
  fun l => match l with [Variant4 x0; Variant0 x1] => Ret (Variant4 (action_110 x0 x1)) | _ => Panic end;
  (* 45: ComparativeExpression = ComparativeExpression "NOT" "NULL" *)
  fun l => match l with [Variant4 x0; Variant0 x1; Variant0 x2] => Ret (Variant4 (action_111 x0 x1 x2)) | _ => Panic end;
  (* 46: ComparativeExpression = ComparativeExpression "IN" "(" ")" *)
  fun l => match l with [Variant4 x0; Variant0 x1; Variant0 x2; Variant0 x3] => Ret (Variant4 (action_112 x0 x1 x2 x3)) | _ => Panic end;
  (* 47: ComparativeExpression = ComparativeExpression "NOT" "IN" "(" ")" *)
  fun l => match l with [Variant4 x0; Variant0 x1; Variant0 x2; Variant0 x3; Variant0 x4] => Ret (Variant4 (action_113 x0 x1 x2 x3 x4)) | _ => Panic end;
  (* 48: ComparativeExpression = ComparativeExpression "IN" "(" ExpressionList ")" *)
  fun l => match l with [Variant4 x0; Variant0 x1; Variant0 x2; Variant16 x3; Variant0 x4] => Ret (Variant4 (action_114 x0 x1 x2 x3 x4)) | _ => Panic end;
  (* 49: ComparativeExpression = ComparativeExpression "NOT" "IN" "(" ExpressionList ")" *)
  fun l => match l with [Variant4 x0; Variant0 x1; Variant0 x2; Variant0 x3; Variant16 x4; Variant0 x5] => Ret (Variant4 (action_115 x0 x1 x2 x3 x4 x5)) | _ => Panic end;
  (* 50: ComparativeExpression = ComparativeExpression "IN" "(" SelectStatement ")" *)
  fun l => match l with [Variant4 x0; Variant0 x1; Variant0 x2; Variant40 x3; Variant0 x4] => Ret (Variant4 (action_116 x0 x1 x2 x3 x4)) | _ => Panic end;
  (* 51: ComparativeExpression = ComparativeExpression "NOT" "IN" "(" SelectStatement ")" *)
  fun l => match l with [Variant4 x0; Variant0 x1; Variant0 x2; Variant0 x3; Variant40 x4; Variant0 x5] => Ret (Variant4 (action_117 x0 x1 x2 x3 x4 x5)) | _ => Panic end;
  (* 52: ComparativeExpression = ComparativeExpression "IN" QualifiedIdentifier *)
  fun l => match l with [Variant4 x0; Variant0 x1; Variant8 x2] => Ret (Variant4 (action_118 x0 x1 x2)) | _ => Panic end;
  (* 53: ComparativeExpression = ComparativeExpression "NOT" "IN" QualifiedIdentifier *)
  fun l => match l with [Variant4 x0; Variant0 x1; Variant0 x2; Variant8 x3] => Ret (Variant4 (action_119 x0 x1 x2 x3)) | _ => Panic end;
  (* 54: ComparativeExpression = ComparativeExpression "BETWEEN" AdditiveExpression "AND" AdditiveExpression *)
  fun l => match l with [Variant4 x0; Variant0 x1; Variant4 x2; Variant0 x3; Variant4 x4] => Ret (Variant4 (action_120 x0 x1 x2 x3 x4)) | _ => Panic end;
  (* 55: ComparativeExpression = ComparativeExpression "NOT" "BETWEEN" AdditiveExpression "AND" AdditiveExpression *)
  fun l => match l with [Variant4 x0; Variant0 x1; Variant0 x2; Variant4 x3; Variant0 x4; Variant4 x5] => Ret (Variant4 (action_121 x0 x1 x2 x3 x4 x5)) | _ => Panic end;
  (* 56: ComplexExpression = ComparativeExpression *)
  fun l => match l with [Variant4 x0] => Ret (Variant4 (action_122 x0)) | _ => Panic end;
  (* 57: ComplexExpression = CaseExpression *)
  fun l => match l with [Variant4 x0] => Ret (Variant4 (action_123 x0)) | _ => Panic end;
  (* 58: CompoundOperator = "UNION" *)
  fun l => match l with [Variant0 x0] => Ret (Variant12 (action_25 x0)) | _ => Panic end;
  (* 59: CompoundOperator = "UNION" "ALL" *)
  fun l => match l with [Variant0 x0; Variant0 x1] => Ret (Variant12 (action_26 x0 x1)) | _ => Panic end;
  (* 60: CompoundOperator = "INTERSECT" *)
  fun l => match l with [Variant0 x0] => Ret (Variant12 (action_27 x0)) | _ => Panic end;
  (* 61: CompoundOperator = "EXCEPT" *)
  fun l => match l with [Variant0 x0] => Ret (Variant12 (action_28 x0)) | _ => Panic end;
  (* 62: DeleteStatement = TableExpressions "DELETE" "FROM" QualifiedIdentifier WhereClause *)
  fun l => match l with [Variant11 x0; Variant0 x1; Variant0 x2; Variant8 x3; Variant4 x4] => Ret (Variant13 (action_248 x0 x1 x2 x3 x4)) | _ => Panic end;
  (* 63: DeleteStatement = TableExpressions "DELETE" "FROM" QualifiedIdentifier *)
  fun l => match l with [Variant11 x0; Variant0 x1; Variant0 x2; Variant8 x3] => Ret (Variant13 (action_249 x0 x1 x2 x3)) | _ => Panic end;
  (* 64: DeleteStatement = "DELETE" "FROM" QualifiedIdentifier WhereClause *)
  fun l => match l with [Variant0 x0; Variant0 x1; Variant8 x2; Variant4 x3] => Ret (Variant13 (action_250 x0 x1 x2 x3)) | _ => Panic end;
  (* 65: DeleteStatement = "DELETE" "FROM" QualifiedIdentifier *)
  fun l => match l with [Variant0 x0; Variant0 x1; Variant8 x2] => Ret (Variant13 (action_251 x0 x1 x2)) | _ => Panic end;
  (* 66: DescribeStatement = "DESCRIBE" SchemaName Identifier *)
  fun l => match l with [Variant0 x0; Variant20 x1; Variant20 x2] => Ret (Variant14 (action_234 x0 x1 x2)) | _ => Panic end;
  (* 67: DescribeStatement = "DESCRIBE" Identifier *)
  fun l => match l with [Variant0 x0; Variant20 x1] => Ret (Variant14 (action_235 x0 x1)) | _ => Panic end;
  (* 68: ElseClause = "ELSE" Expression *)
  fun l => match l with [Variant0 x0; Variant4 x1] => Ret (Variant4 (action_126 x0 x1)) | _ => Panic end;
  (* 69: ElseClause? = ElseClause *)
  fun l => match l with [Variant4 x0] => Ret (Variant15 (action_148 x0)) | _ => Panic end;
  (* 70: ElseClause? =  *)
  fun l => match l with [] => Ret (Variant15 action_149) | _ => Panic end;
  (* 71: Expression = OrExpression *)
  fun l => match l with [Variant4 x0] => Ret (Variant4 (action_133 x0)) | _ => Panic end;
  (* 72: Expression? = Expression *)
  fun l => match l with [Variant4 x0] => Ret (Variant15 (action_152 x0)) | _ => Panic end;
  (* 73: Expression? =  *)
  fun l => match l with [] => Ret (Variant15 action_153) | _ => Panic end;
  (* 74: ExpressionList = Expression *)
  fun l => match l with [Variant4 x0] => Ret (Variant16 (action_83 x0)) | _ => Panic end;
  (* 75: ExpressionList = ExpressionList "," Expression *)
  fun l => match l with [Variant16 x0; Variant0 x1; Variant4 x2] => Ret (Variant16 (action_84 x0 x1 x2)) | _ => Panic end;
  (* 76: FromClause = "FROM" TableExpressionList *)
  fun l => match l with [Variant0 x0; Variant17 x1] => Ret (Variant17 (action_47 x0 x1)) | _ => Panic end;
  (* 77: GroupByClause = "GROUP" "BY" ExpressionList *)
  fun l => match l with [Variant0 x0; Variant0 x1; Variant16 x2] => Ret (Variant18 (action_68 x0 x1 x2)) | _ => Panic end;
  (* 78: GroupByClause = "GROUP" "BY" ExpressionList "HAVING" Expression *)
  fun l => match l with [Variant0 x0; Variant0 x1; Variant16 x2; Variant0 x3; Variant4 x4] => Ret (Variant18 (action_69 x0 x1 x2 x3 x4)) | _ => Panic end;
  (* 79: GroupByClause? = GroupByClause *)
  fun l => match l with [Variant18 x0] => Ret (Variant19 (action_170 x0)) | _ => Panic end;
  (* 80: GroupByClause? =  *)
  fun l => match l with [] => Ret (Variant19 action_171) | _ => Panic end;
  (* 81: Identifier = ID *)
  fun l => match l with [Variant0 x0] => Ret (Variant20 (action_143 x0)) | _ => Panic end;
  (* 82: IdentifierList = Identifier *)
  fun l => match l with [Variant20 x0] => Ret (Variant8 (action_65 x0)) | _ => Panic end;
  (* 83: IdentifierList = IdentifierList "," Identifier *)
  fun l => match l with [Variant8 x0; Variant0 x1; Variant20 x2] => Ret (Variant8 (action_66 x0 x1 x2)) | _ => Panic end;
  (* 84: InsertStatement = TableExpressions "INSERT" "INTO" QualifiedIdentifier ColumnNameList SelectCore *)
  fun l => match l with [Variant11 x0; Variant0 x1; Variant0 x2; Variant8 x3; Variant8 x4; Variant38 x5] => Ret (Variant21 (action_242 x0 x1 x2 x3 x4 x5)) | _ => Panic end;
  (* 85: InsertStatement = "INSERT" "INTO" QualifiedIdentifier ColumnNameList SelectCore *)
  fun l => match l with [Variant0 x0; Variant0 x1; Variant8 x2; Variant8 x3; Variant38 x4] => Ret (Variant21 (action_243 x0 x1 x2 x3 x4)) | _ => Panic end;
  (* 86: InsertStatement = TableExpressions "INSERT" "INTO" QualifiedIdentifier SelectCore *)
  fun l => match l with [Variant11 x0; Variant0 x1; Variant0 x2; Variant8 x3; Variant38 x4] => Ret (Variant21 (action_244 x0 x1 x2 x3 x4)) | _ => Panic end;
  (* 87: InsertStatement = "INSERT" "INTO" QualifiedIdentifier SelectCore *)
  fun l => match l with [Variant0 x0; Variant0 x1; Variant8 x2; Variant38 x3] => Ret (Variant21 (action_245 x0 x1 x2 x3)) | _ => Panic end;
  (* 88: JoinConstraint = "ON" Expression *)
  fun l => match l with [Variant0 x0; Variant4 x1] => Ret (Variant22 (action_63 x0 x1)) | _ => Panic end;
  (* 89: JoinConstraint = "USING" "(" IdentifierList ")" *)
  fun l => match l with [Variant0 x0; Variant0 x1; Variant8 x2; Variant0 x3] => Ret (Variant22 (action_64 x0 x1 x2 x3)) | _ => Panic end;
  (* 90: JoinOperator = JoinType "JOIN" *)
  fun l => match l with [Variant24 x0; Variant0 x1] => Ret (Variant23 (action_214 x0 x1)) | _ => Panic end;
  (* 91: JoinOperator = "JOIN" *)
  fun l => match l with [Variant0 x0] => Ret (Variant23 (action_215 x0)) | _ => Panic end;
  (* 92: JoinOperator = "NATURAL" JoinType "JOIN" *)
  fun l => match l with [Variant0 x0; Variant24 x1; Variant0 x2] => Ret (Variant23 (action_216 x0 x1 x2)) | _ => Panic end;
  (* 93: JoinOperator = "NATURAL" "JOIN" *)
  fun l => match l with [Variant0 x0; Variant0 x1] => Ret (Variant23 (action_217 x0 x1)) | _ => Panic end;
  (* 94: JoinOperator = "CROSS" "JOIN" *)
  fun l => match l with [Variant0 x0; Variant0 x1] => Ret (Variant23 (action_58 x0 x1)) | _ => Panic end;
  (* 95: JoinType = "LEFT" "OUTER" *)
  fun l => match l with [Variant0 x0; Variant0 x1] => Ret (Variant24 (action_193 x0 x1)) | _ => Panic end;
  (* 96: JoinType = "LEFT" *)
  fun l => match l with [Variant0 x0] => Ret (Variant24 (action_194 x0)) | _ => Panic end;
  (* 97: JoinType = "RIGHT" "OUTER" *)
  fun l => match l with [Variant0 x0; Variant0 x1] => Ret (Variant24 (action_195 x0 x1)) | _ => Panic end;
  (* 98: JoinType = "RIGHT" *)
  fun l => match l with [Variant0 x0] => Ret (Variant24 (action_196 x0)) | _ => Panic end;
  (* 99: JoinType = "FULL" "OUTER" *)
  fun l => match l with [Variant0 x0; Variant0 x1] => Ret (Variant24 (action_197 x0 x1)) | _ => Panic end;
  (* 100: JoinType = "FULL" *)
  fun l => match l with [Variant0 x0] => Ret (Variant24 (action_198 x0)) | _ => Panic end;
  (* 101: JoinType = "INNER" *)
  fun l => match l with [Variant0 x0] => Ret (Variant24 (action_62 x0)) | _ => Panic end;
  (* 102: JoinType? = JoinType *)
  fun l => match l with [Variant24 x0] => Ret (Variant25 (action_162 x0)) | _ => Panic end;
  (* 103: JoinType? =  *)
  fun l => match l with [] => Ret (Variant25 action_163) | _ => Panic end;
  (* 104: LimitClause = "LIMIT" Expression *)
  fun l => match l with [Variant0 x0; Variant4 x1] => Ret (Variant26 (action_77 x0 x1)) | _ => Panic end;
  (* 105: LimitClause = "LIMIT" Expression "," Expression *)
  fun l => match l with [Variant0 x0; Variant4 x1; Variant0 x2; Variant4 x3] => Ret (Variant26 (action_78 x0 x1 x2 x3)) | _ => Panic end;
  (* 106: LimitClause = "LIMIT" Expression "OFFSET" Expression *)
  fun l => match l with [Variant0 x0; Variant4 x1; Variant0 x2; Variant4 x3] => Ret (Variant26 (action_79 x0 x1 x2 x3)) | _ => Panic end;
  (* 107: LimitClause? = LimitClause *)
  fun l => match l with [Variant26 x0] => Ret (Variant27 (action_172 x0)) | _ => Panic end;
  (* 108: LimitClause? =  *)
  fun l => match l with [] => Ret (Variant27 action_173) | _ => Panic end;
  (* 109: LiteralValue = NumericLiteral *)
  fun l => match l with [Variant29 x0] => Ret (Variant28 (action_134 x0)) | _ => Panic end;
  (* 110: LiteralValue = StringLiteral *)
  fun l => match l with [Variant29 x0] => Ret (Variant28 (action_135 x0)) | _ => Panic end;
  (* 111: LiteralValue = "NULL" *)
  fun l => match l with [Variant0 x0] => Ret (Variant28 (action_136 x0)) | _ => Panic end;
  (* 112: LiteralValue = "CURRENT_TIME" *)
  fun l => match l with [Variant0 x0] => Ret (Variant28 (action_137 x0)) | _ => Panic end;
  (* 113: LiteralValue = "CURRENT_DATE" *)
  fun l => match l with [Variant0 x0] => Ret (Variant28 (action_138 x0)) | _ => Panic end;
  (* 114: LiteralValue = "CURRENT_TIMESTAMP" *)
  fun l => match l with [Variant0 x0] => Ret (Variant28 (action_139 x0)) | _ => Panic end;
  (* 115: LiteralValue = "DATE" StringLiteral *)
  fun l => match l with [Variant0 x0; Variant29 x1] => Ret (Variant28 (action_140 x0 x1)) | _ => Panic end;
  (* 116: LiteralValue = "TIME" StringLiteral *)
  fun l => match l with [Variant0 x0; Variant29 x1] => Ret (Variant28 (action_141 x0 x1)) | _ => Panic end;
  (* 117: LiteralValue = "TIMESTAMP" StringLiteral *)
  fun l => match l with [Variant0 x0; Variant29 x1] => Ret (Variant28 (action_142 x0 x1)) | _ => Panic end;
  (* 118: MultiplicativeExpression = UnaryExpression *)
  fun l => match l with [Variant4 x0] => Ret (Variant4 (action_92 x0)) | _ => Panic end;
  (* 119: MultiplicativeExpression = MultiplicativeExpression "star" UnaryExpression *)
  fun l => match l with [Variant4 x0; Variant0 x1; Variant4 x2] => Ret (Variant4 (action_93 x0 x1 x2)) | _ => Panic end;
  (* 120: MultiplicativeExpression = MultiplicativeExpression "/" UnaryExpression *)
  fun l => match l with [Variant4 x0; Variant0 x1; Variant4 x2] => Ret (Variant4 (action_94 x0 x1 x2)) | _ => Panic end;
  (* 121: NotExpression = ComplexExpression *)
  fun l => match l with [Variant4 x0] => Ret (Variant4 (action_127 x0)) | _ => Panic end;
  (* 122: NotExpression = "NOT" ComplexExpression *)
  fun l => match l with [Variant0 x0; Variant4 x1] => Ret (Variant4 (action_128 x0 x1)) | _ => Panic end;
  (* 123: NumericLiteral = NUMERIC_LIT_1 *)
  fun l => match l with [Variant0 x0] => Ret (Variant29 (action_144 x0)) | _ => Panic end;
  (* 124: NumericLiteral = NUMERIC_LIT_2 *)
  fun l => match l with [Variant0 x0] => Ret (Variant29 (action_145 x0)) | _ => Panic end;
  (* 125: NumericLiteral = HEX_LIT *)
  fun l => match l with [Variant0 x0] => Ret (Variant29 (action_146 x0)) | _ => Panic end;
  (* 126: OrExpression = AndExpression *)
  fun l => match l with [Variant4 x0] => Ret (Variant4 (action_131 x0)) | _ => Panic end;
  (* 127: OrExpression = OrExpression "OR" AndExpression *)
  fun l => match l with [Variant4 x0; Variant0 x1; Variant4 x2] => Ret (Variant4 (action_132 x0 x1 x2)) | _ => Panic end;
  (* 128: OrderByClause = "ORDER" "BY" OrderingTermList *)
  fun l => match l with [Variant0 x0; Variant0 x1; Variant30 x2] => Ret (Variant30 (action_70 x0 x1 x2)) | _ => Panic end;
  (* 129: OrderByClause? = OrderByClause *)
  fun l => match l with [Variant30 x0] => Ret (Variant31 (action_174 x0)) | _ => Panic end;
  (* 130: OrderByClause? =  *)
  fun l => match l with [] => Ret (Variant31 action_175) | _ => Panic end;
  (* 131: OrderingCollation = "COLLATE" Identifier *)
  fun l => match l with [Variant0 x0; Variant20 x1] => Ret (Variant20 (action_74 x0 x1)) | _ => Panic end;
  (* 132: OrderingCollation? = OrderingCollation *)
  fun l => match l with [Variant20 x0] => Ret (Variant32 (action_158 x0)) | _ => Panic end;
  (* 133: OrderingCollation? =  *)
  fun l => match l with [] => Ret (Variant32 action_159) | _ => Panic end;
  (* 134: OrderingDirection = "ASC" *)
  fun l => match l with [Variant0 x0] => Ret (Variant33 (action_191 x0)) | _ => Panic end;
  (* 135: OrderingDirection =  *)
  fun l => match l with [] => Ret (Variant33 action_192) | _ => Panic end;
  (* 136: OrderingDirection = "DESC" *)
  fun l => match l with [Variant0 x0] => Ret (Variant33 (action_76 x0)) | _ => Panic end;
  (* 137: OrderingTerm = Expression OrderingCollation OrderingDirection *)
  fun l => match l with [Variant4 x0; Variant20 x1; Variant33 x2] => Ret (Variant34 (action_230 x0 x1 x2)) | _ => Panic end;
  (* 138: OrderingTerm = Expression OrderingDirection *)
  fun l => match l with [Variant4 x0; Variant33 x1] => Ret (Variant34 (action_231 x0 x1)) | _ => Panic end;
  (* 139: OrderingTermList = OrderingTerm *)
  fun l => match l with [Variant34 x0] => Ret (Variant30 (action_71 x0)) | _ => Panic end;
  (* 140: OrderingTermList = OrderingTermList "," OrderingTerm *)
  fun l => match l with [Variant30 x0; Variant0 x1; Variant34 x2] => Ret (Variant30 (action_72 x0 x1 x2)) | _ => Panic end;
  (* 141: PrimaryExpression = "(" ExpressionList ")" *)
  fun l => match l with [Variant0 x0; Variant16 x1; Variant0 x2] => Ret (Variant4 (action_85 x0 x1 x2)) | _ => Panic end;
  (* 142: PrimaryExpression = "(" SelectStatement ")" *)
  fun l => match l with [Variant0 x0; Variant40 x1; Variant0 x2] => Ret (Variant4 (action_86 x0 x1 x2)) | _ => Panic end;
  (* 143: PrimaryExpression = LiteralValue *)
  fun l => match l with [Variant28 x0] => Ret (Variant4 (action_87 x0)) | _ => Panic end;
  (* 144: PrimaryExpression = QualifiedIdentifier *)
  fun l => match l with [Variant8 x0] => Ret (Variant4 (action_88 x0)) | _ => Panic end;
  (* 145: QualifiedIdentifier = Identifier *)
  fun l => match l with [Variant20 x0] => Ret (Variant8 (action_44 x0)) | _ => Panic end;
  (* 146: QualifiedIdentifier = Identifier "." Identifier *)
  fun l => match l with [Variant20 x0; Variant0 x1; Variant20 x2] => Ret (Variant8 (action_45 x0 x1 x2)) | _ => Panic end;
  (* 147: QualifiedIdentifier = Identifier "." Identifier "." Identifier *)
  fun l => match l with [Variant20 x0; Variant0 x1; Variant20 x2; Variant0 x3; Variant20 x4] => Ret (Variant8 (action_46 x0 x1 x2 x3 x4)) | _ => Panic end;
  (* 148: ResultColumn = Expression *)
  fun l => match l with [Variant4 x0] => Ret (Variant35 (action_41 x0)) | _ => Panic end;
  (* 149: ResultColumn = Expression "AS" Identifier *)
  fun l => match l with [Variant4 x0; Variant0 x1; Variant20 x2] => Ret (Variant35 (action_187 x0 x1 x2)) | _ => Panic end;
  (* 150: ResultColumn = Expression Identifier *)
  fun l => match l with [Variant4 x0; Variant20 x1] => Ret (Variant35 (action_188 x0 x1)) | _ => Panic end;
  (* 151: ResultColumn = Identifier "." "star" *)
  fun l => match l with [Variant20 x0; Variant0 x1; Variant0 x2] => Ret (Variant35 (action_43 x0 x1 x2)) | _ => Panic end;
  (* 152: ResultColumnList = ResultColumn *)
  fun l => match l with [Variant35 x0] => Ret (Variant36 (action_39 x0)) | _ => Panic end;
  (* 153: ResultColumnList = ResultColumnList "," ResultColumn *)
  fun l => match l with [Variant36 x0; Variant0 x1; Variant35 x2] => Ret (Variant36 (action_40 x0 x1 x2)) | _ => Panic end;
  (* 154: ResultColumns = "star" *)
  fun l => match l with [Variant0 x0] => Ret (Variant37 (action_37 x0)) | _ => Panic end;
  (* 155: ResultColumns = ResultColumnList *)
  fun l => match l with [Variant36 x0] => Ret (Variant37 (action_38 x0)) | _ => Panic end;
  (* 156: SchemaName = Identifier "." *)
  fun l => match l with [Variant20 x0; Variant0 x1] => Ret (Variant20 (action_82 x0 x1)) | _ => Panic end;
  (* 157: SchemaName? = SchemaName *)
  fun l => match l with [Variant20 x0] => Ret (Variant32 (action_154 x0)) | _ => Panic end;
  (* 158: SchemaName? =  *)
  fun l => match l with [] => Ret (Variant32 action_155) | _ => Panic end;
  (* 159: SelectCore = "SELECT" SelectMode ResultColumns WhereClause GroupByClause *)
  fun l => match l with [Variant0 x0; Variant39 x1; Variant37 x2; Variant4 x3; Variant18 x4] => Ret (Variant38 (action_252 x0 x1 x2 x3 x4)) | _ => Panic end;
  (* 160: SelectCore = "SELECT" SelectMode ResultColumns GroupByClause *)
  fun l => match l with [Variant0 x0; Variant39 x1; Variant37 x2; Variant18 x3] => Ret (Variant38 (action_253 x0 x1 x2 x3)) | _ => Panic end;
  (* 161: SelectCore = "SELECT" SelectMode ResultColumns WhereClause *)
  fun l => match l with [Variant0 x0; Variant39 x1; Variant37 x2; Variant4 x3] => Ret (Variant38 (action_254 x0 x1 x2 x3)) | _ => Panic end;
  (* 162: SelectCore = "SELECT" SelectMode ResultColumns *)
  fun l => match l with [Variant0 x0; Variant39 x1; Variant37 x2] => Ret (Variant38 (action_255 x0 x1 x2)) | _ => Panic end;
  (* 163: SelectCore = "SELECT" SelectMode ResultColumns FromClause WhereClause GroupByClause *)
  fun l => match l with [Variant0 x0; Variant39 x1; Variant37 x2; Variant17 x3; Variant4 x4; Variant18 x5] => Ret (Variant38 (action_256 x0 x1 x2 x3 x4 x5)) | _ => Panic end;
  (* 164: SelectCore = "SELECT" SelectMode ResultColumns FromClause GroupByClause *)
  fun l => match l with [Variant0 x0; Variant39 x1; Variant37 x2; Variant17 x3; Variant18 x4] => Ret (Variant38 (action_257 x0 x1 x2 x3 x4)) | _ => Panic end;
  (* 165: SelectCore = "SELECT" SelectMode ResultColumns FromClause WhereClause *)
  fun l => match l with [Variant0 x0; Variant39 x1; Variant37 x2; Variant17 x3; Variant4 x4] => Ret (Variant38 (action_258 x0 x1 x2 x3 x4)) | _ => Panic end;
  (* 166: SelectCore = "SELECT" SelectMode ResultColumns FromClause *)
  fun l => match l with [Variant0 x0; Variant39 x1; Variant37 x2; Variant17 x3] => Ret (Variant38 (action_259 x0 x1 x2 x3)) | _ => Panic end;
  (* 167: SelectCore = "VALUES" TupleList *)
  fun l => match l with [Variant0 x0; Variant45 x1] => Ret (Variant38 (action_31 x0 x1)) | _ => Panic end;
  (* 168: SelectCoreList = SelectCore *)
  fun l => match l with [Variant38 x0] => Ret (Variant38 (action_23 x0)) | _ => Panic end;
  (* 169: SelectCoreList = SelectCoreList CompoundOperator SelectCore *)
  fun l => match l with [Variant38 x0; Variant12 x1; Variant38 x2] => Ret (Variant38 (action_24 x0 x1 x2)) | _ => Panic end;
  (* 170: SelectMode = "ALL" *)
  fun l => match l with [Variant0 x0] => Ret (Variant39 (action_185 x0)) | _ => Panic end;
  (* 171: SelectMode =  *)
  fun l => match l with [] => Ret (Variant39 action_186) | _ => Panic end;
  (* 172: SelectMode = "DISTINCT" *)
  fun l => match l with [Variant0 x0] => Ret (Variant39 (action_33 x0)) | _ => Panic end;
  (* 173: SelectStatement = TableExpressions SelectCoreList OrderByClause LimitClause *)
  fun l => match l with [Variant11 x0; Variant38 x1; Variant30 x2; Variant26 x3] => Ret (Variant40 (action_222 x0 x1 x2 x3)) | _ => Panic end;
  (* 174: SelectStatement = TableExpressions SelectCoreList LimitClause *)
  fun l => match l with [Variant11 x0; Variant38 x1; Variant26 x2] => Ret (Variant40 (action_223 x0 x1 x2)) | _ => Panic end;
  (* 175: SelectStatement = TableExpressions SelectCoreList OrderByClause *)
  fun l => match l with [Variant11 x0; Variant38 x1; Variant30 x2] => Ret (Variant40 (action_224 x0 x1 x2)) | _ => Panic end;
  (* 176: SelectStatement = TableExpressions SelectCoreList *)
  fun l => match l with [Variant11 x0; Variant38 x1] => Ret (Variant40 (action_225 x0 x1)) | _ => Panic end;
  (* 177: SelectStatement = SelectCoreList OrderByClause LimitClause *)
  fun l => match l with [Variant38 x0; Variant30 x1; Variant26 x2] => Ret (Variant40 (action_226 x0 x1 x2)) | _ => Panic end;
  (* 178: SelectStatement = SelectCoreList LimitClause *)
  fun l => match l with [Variant38 x0; Variant26 x1] => Ret (Variant40 (action_227 x0 x1)) | _ => Panic end;
  (* 179: SelectStatement = SelectCoreList OrderByClause *)
  fun l => match l with [Variant38 x0; Variant30 x1] => Ret (Variant40 (action_228 x0 x1)) | _ => Panic end;
  (* 180: SelectStatement = SelectCoreList *)
  fun l => match l with [Variant38 x0] => Ret (Variant40 (action_229 x0)) | _ => Panic end;
  (* 181: SqlStatement = Statement *)
  fun l => match l with [Variant42 x0] => Ret (Variant41 (action_1 x0)) | _ => Panic end;
  (* 182: SqlStatement = "EXPLAIN" "QUERY" "PLAN" Statement *)
  fun l => match l with [Variant0 x0; Variant0 x1; Variant0 x2; Variant42 x3] => Ret (Variant41 (action_200 x0 x1 x2 x3)) | _ => Panic end;
  (* 183: SqlStatement = "EXPLAIN" Statement *)
  fun l => match l with [Variant0 x0; Variant42 x1] => Ret (Variant41 (action_201 x0 x1)) | _ => Panic end;
  (* 184: SqlStatement = AttachStatement *)
  fun l => match l with [Variant7 x0] => Ret (Variant41 (action_3 x0)) | _ => Panic end;
  (* 185: SqlStatement = DescribeStatement *)
  fun l => match l with [Variant14 x0] => Ret (Variant41 (action_4 x0)) | _ => Panic end;
  (* 186: Statement = SelectStatement *)
  fun l => match l with [Variant40 x0] => Ret (Variant42 (action_5 x0)) | _ => Panic end;
  (* 187: Statement = InsertStatement *)
  fun l => match l with [Variant21 x0] => Ret (Variant42 (action_6 x0)) | _ => Panic end;
  (* 188: Statement = DeleteStatement *)
  fun l => match l with [Variant13 x0] => Ret (Variant42 (action_7 x0)) | _ => Panic end;
  (* 189: Statement = UpdateStatement *)
  fun l => match l with [Variant46 x0] => Ret (Variant42 (action_8 x0)) | _ => Panic end;
  (* 190: StringLiteral = STRING_LIT *)
  fun l => match l with [Variant0 x0] => v <- action_147 x0 ;; Ret (Variant29 v) | _ => Panic end;
  (* 191: TableAlias = "AS" Identifier *)
  fun l => match l with [Variant0 x0; Variant20 x1] => Ret (Variant20 (action_189 x0 x1)) | _ => Panic end;
  (* 192: TableAlias = Identifier *)
  fun l => match l with [Variant20 x0] => Ret (Variant20 (action_190 x0)) | _ => Panic end;
  (* 193: TableAlias? = TableAlias *)
  fun l => match l with [Variant20 x0] => Ret (Variant32 (action_164 x0)) | _ => Panic end;
  (* 194: TableAlias? =  *)
  fun l => match l with [] => Ret (Variant32 action_165) | _ => Panic end;
  (* 195: TableExpression = TableOrSubQuery *)
  fun l => match l with [Variant43 x0] => Ret (Variant43 (action_50 x0)) | _ => Panic end;
  (* 196: TableExpression = TableExpression JoinOperator TableOrSubQuery JoinConstraint *)
  fun l => match l with [Variant43 x0; Variant23 x1; Variant43 x2; Variant22 x3] => Ret (Variant43 (action_51 x0 x1 x2 x3)) | _ => Panic end;
  (* 197: TableExpressionList = TableExpression *)
  fun l => match l with [Variant43 x0] => Ret (Variant17 (action_48 x0)) | _ => Panic end;
  (* 198: TableExpressionList = TableExpressionList "," TableExpression *)
  fun l => match l with [Variant17 x0; Variant0 x1; Variant43 x2] => Ret (Variant17 (action_49 x0 x1 x2)) | _ => Panic end;
  (* 199: TableExpressions = "WITH" CommonTableExpressionList *)
  fun l => match l with [Variant0 x0; Variant11 x1] => Ret (Variant11 (action_18 x0 x1)) | _ => Panic end;
  (* 200: TableExpressions? = TableExpressions *)
  fun l => match l with [Variant11 x0] => Ret (Variant44 (action_180 x0)) | _ => Panic end;
  (* 201: TableExpressions? =  *)
  fun l => match l with [] => Ret (Variant44 action_181) | _ => Panic end;
  (* 202: TableOrSubQuery = QualifiedIdentifier TableAlias *)
  fun l => match l with [Variant8 x0; Variant20 x1] => Ret (Variant43 (action_236 x0 x1)) | _ => Panic end;
  (* 203: TableOrSubQuery = QualifiedIdentifier *)
  fun l => match l with [Variant8 x0] => Ret (Variant43 (action_237 x0)) | _ => Panic end;
  (* 204: TableOrSubQuery = "(" SelectStatement ")" TableAlias *)
  fun l => match l with [Variant0 x0; Variant40 x1; Variant0 x2; Variant20 x3] => Ret (Variant43 (action_238 x0 x1 x2 x3)) | _ => Panic end;
  (* 205: TableOrSubQuery = "(" SelectStatement ")" *)
  fun l => match l with [Variant0 x0; Variant40 x1; Variant0 x2] => Ret (Variant43 (action_239 x0 x1 x2)) | _ => Panic end;
  (* 206: TableOrSubQuery = "(" TableExpression ")" *)
  fun l => match l with [Variant0 x0; Variant43 x1; Variant0 x2] => Ret (Variant43 (action_54 x0 x1 x2)) | _ => Panic end;
  (* 207: Tuple = "(" ExpressionList ")" *)
  fun l => match l with [Variant0 x0; Variant16 x1; Variant0 x2] => Ret (Variant16 (action_36 x0 x1 x2)) | _ => Panic end;
  (* 208: TupleList = Tuple *)
  fun l => match l with [Variant16 x0] => Ret (Variant45 (action_34 x0)) | _ => Panic end;
  (* 209: TupleList = TupleList "," Tuple *)
  fun l => match l with [Variant45 x0; Variant0 x1; Variant16 x2] => Ret (Variant45 (action_35 x0 x1 x2)) | _ => Panic end;
  (* 210: UnaryExpression = PrimaryExpression *)
  fun l => match l with [Variant4 x0] => Ret (Variant4 (action_89 x0)) | _ => Panic end;
  (* 211: UnaryExpression = "+" UnaryExpression *)
  fun l => match l with [Variant0 x0; Variant4 x1] => Ret (Variant4 (action_90 x0 x1)) | _ => Panic end;
  (* 212: UnaryExpression = "-" UnaryExpression *)
  fun l => match l with [Variant0 x0; Variant4 x1] => Ret (Variant4 (action_91 x0 x1)) | _ => Panic end;
  (* 213: UpdateStatement = TableExpressions "UPDATE" QualifiedIdentifier "SET" Assignments WhereClause *)
  fun l => match l with [Variant11 x0; Variant0 x1; Variant8 x2; Variant0 x3; Variant6 x4; Variant4 x5] => Ret (Variant46 (action_260 x0 x1 x2 x3 x4 x5)) | _ => Panic end;
  (* 214: UpdateStatement = TableExpressions "UPDATE" QualifiedIdentifier "SET" Assignments *)
  fun l => match l with [Variant11 x0; Variant0 x1; Variant8 x2; Variant0 x3; Variant6 x4] => Ret (Variant46 (action_261 x0 x1 x2 x3 x4)) | _ => Panic end;
  (* 215: UpdateStatement = "UPDATE" QualifiedIdentifier "SET" Assignments WhereClause *)
  fun l => match l with [Variant0 x0; Variant8 x1; Variant0 x2; Variant6 x3; Variant4 x4] => Ret (Variant46 (action_262 x0 x1 x2 x3 x4)) | _ => Panic end;
  (* 216: UpdateStatement = "UPDATE" QualifiedIdentifier "SET" Assignments *)
  fun l => match l with [Variant0 x0; Variant8 x1; Variant0 x2; Variant6 x3] => Ret (Variant46 (action_263 x0 x1 x2 x3)) | _ => Panic end;
  (* 217: WhenClause = "WHEN" Expression "THEN" Expression *)
  fun l => match l with [Variant0 x0; Variant4 x1; Variant0 x2; Variant4 x3] => Ret (Variant47 (action_125 x0 x1 x2 x3)) | _ => Panic end;
  (* 218: WhenClause+ = WhenClause *)
  fun l => match l with [Variant47 x0] => Ret (Variant48 (action_150 x0)) | _ => Panic end;
  (* 219: WhenClause+ = WhenClause+ WhenClause *)
  fun l => match l with [Variant48 x0; Variant47 x1] => Ret (Variant48 (action_151 x0 x1)) | _ => Panic end;
  (* 220: WhereClause = "WHERE" Expression *)
  fun l => match l with [Variant0 x0; Variant4 x1] => Ret (Variant4 (action_67 x0 x1)) | _ => Panic end;
  (* 221: WhereClause? = WhereClause *)
  fun l => match l with [Variant4 x0] => Ret (Variant15 (action_176 x0)) | _ => Panic end;
  (* 222: WhereClause? =  *)
  fun l => match l with [] => Ret (Variant15 action_177) | _ => Panic end
].

Definition sql_build (p : nat) (l : list sym) : outcome sym :=
  match nth_error sql_reduce p with Some f => f l | None => Panic end.
