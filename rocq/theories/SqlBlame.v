(** * Which complaint a faulty statement deserves (specification)

    Rules in the style of [SqlRules]: a part is blamed only if everything the validation looks at before it is in
    order, and the complaint says what is wrong with it. No inference function is mentioned. *)

From Verif Require Import Base SqlNameModel SqlModel SqlSpec SqlStmtSpec SqlFromSpec SqlColumnsSpec SqlRules SqlMessageModel.

(** The first member that is not good, with its complaint. *)
Inductive at_first {A : Type} (good : A -> Prop) (bad : A -> complaint -> Prop) : list A -> complaint -> Prop :=
| at_here a l c : bad a c -> at_first good bad (a :: l) c
| at_next a l c : good a -> at_first good bad l c -> at_first good bad (a :: l) c.

(** Two types that differ in more than nullability. *)
Inductive unlike : stype -> stype -> complaint -> Prop :=
| un_scalars d1 n1 d2 n2 : d1 <> d2 -> unlike (TyScalar d1 n1) (TyScalar d2 n2) CIncompatible
| un_left ts d n : unlike (TyTuple ts) (TyScalar d n) CIncompatible
| un_right d n us : unlike (TyScalar d n) (TyTuple us) CIncompatible
| un_lengths ts us : length ts <> length us -> unlike (TyTuple ts) (TyTuple us) CLengths
| un_part ts us c : length ts = length us ->
    at_first (fun p => alike (fst p) (snd p)) (fun p c => unlike (fst p) (snd p) c) (combine ts us) c ->
    unlike (TyTuple ts) (TyTuple us) c.

Definition is_scalar (t : stype) : Prop := exists d n, t = TyScalar d n.
Definition is_truth (t : stype) : Prop := exists n, t = TyScalar DLogical n.
Definition is_count (t : stype) : Prop := t = TyScalar DNumeric false.

(** The complaints about operands. *)
Definition unary_complaint (op : unary_op) : complaint :=
  match op with UNegate => CNegate | UNot => CNot | UIsNull => CIsNull end.

Definition binary_complaint (op : binary_op) : complaint :=
  match op with
  | BMultiply | BDivide | BAdd | BSubtract => CArithmetic
  | BConcat => CConcatText
  | BAnd | BOr => CLogical
  end.

(** An expression that is wrong, or has a type that does not fit. *)
Definition unfit (typed : expr -> stype -> Prop) (wrong : expr -> complaint -> Prop) (fits : stype -> Prop) (k : complaint)
  (e : expr) (c : complaint) : Prop :=
  wrong e c \/ (exists t, typed e t /\ ~ fits t) /\ c = k.

Section Blame.
Context (up : Z -> list Z) (table : list name -> list attribute -> Prop) (no_table : list name -> complaint -> Prop).
Notation same := (name_eqb up).
Notation typed := (typed up table).
Notation selects := (selects up table).
Notation set_typed := (set_typed up table).

(** A relation of this name is in scope. *)
Definition in_scope (rels : relations) (n : name) : Prop := exists r, In r rels /\ same n (fst r) = true.

(** ** Names *)

Inductive misnamed (rels : relations) : list name -> complaint -> Prop :=
| mn_undefined a : ~ in_scope rels a -> named up a (flat_map snd rels) = [] -> misnamed rels [a] (CUndefined a)
| mn_ambiguous a : ~ in_scope rels a -> (1 < length (named up a (flat_map snd rels)))%nat -> misnamed rels [a] (CAmbiguous a)
| mn_relation a : in_scope rels a -> misnamed rels [a] (CIsRelation a)
| mn_no_relation r a : ~ in_scope rels r -> misnamed rels [r; a] (CNotRelation r)
| mn_no_attribute r a n attrs : In (n, attrs) rels -> same r n = true -> named up a attrs = [] ->
    misnamed rels [r; a] (CNoAttribute a r)
| mn_length q : length q <> 1%nat -> length q <> 2%nat -> misnamed rels q CNameLength.

(** ** Expressions and queries *)

Definition has_type (rels : relations) (e : expr) : Prop := exists t, typed rels e t.

(** The scope ORDER BY sees. *)
Inductive commons : list cte -> relations -> Prop :=
| cm common scope : Forall2 (fun c r => fst r = cte_id c /\ common_table up table c (snd r)) common scope ->
    distinct up (map fst scope) -> commons common scope.

(** The scope of a FROM clause. *)
Inductive items : list table_expr -> relations -> list attribute -> Prop :=
| it from parts : Forall2 (fun t p => item_typed up table t (fst p) (snd p)) from parts ->
    distinct up (map fst (flat_map fst parts)) -> items from (flat_map fst parts) (flat_map snd parts).

Inductive wrong : relations -> expr -> complaint -> Prop :=
| w_name rels q c : misnamed rels q c -> wrong rels (EName q) c
| w_row rels es c : at_first (has_type rels) (wrong rels) es c -> wrong rels (ETuple es) c
| w_unary rels op e c : wrong rels e c -> wrong rels (EUnary op e) c
| w_unary_type rels op e t : typed rels e t -> (forall t', ~ unary_rule op t t') ->
    wrong rels (EUnary op e) (unary_complaint op)
| w_binary_left rels op e1 e2 c : wrong rels e1 c -> wrong rels (EBinary op e1 e2) c
| w_binary_right rels op e1 e2 c : has_type rels e1 -> wrong rels e2 c -> wrong rels (EBinary op e1 e2) c
| w_binary_type rels op e1 e2 t1 t2 : typed rels e1 t1 -> typed rels e2 t2 -> (forall t, ~ binary_rule op t1 t2 t) ->
    wrong rels (EBinary op e1 e2) (binary_complaint op)
| w_compare_left rels op e1 e2 c : wrong rels e1 c -> wrong rels (ECompare op e1 e2) c
| w_compare_right rels op e1 e2 c : has_type rels e1 -> wrong rels e2 c -> wrong rels (ECompare op e1 e2) c
| w_equal rels op e1 e2 t1 t2 c : In op [CEqual; CNotEqual] -> typed rels e1 t1 -> typed rels e2 t2 -> unlike t1 t2 c ->
    wrong rels (ECompare op e1 e2) c
| w_order_rows rels op e1 e2 t1 t2 : In op [CLess; CLessEqual; CGreater; CGreaterEqual] ->
    typed rels e1 t1 -> typed rels e2 t2 -> ~ (is_scalar t1 /\ is_scalar t2) -> wrong rels (ECompare op e1 e2) CScalarOperands
| w_order_type rels op e1 e2 d1 n1 d2 n2 : In op [CLess; CLessEqual; CGreater; CGreaterEqual] ->
    typed rels e1 (TyScalar d1 n1) -> typed rels e2 (TyScalar d2 n2) -> ~ (d1 = d2 /\ orderable d1) ->
    wrong rels (ECompare op e1 e2) COrdered
| w_like rels e1 e2 t1 t2 : typed rels e1 t1 -> typed rels e2 t2 -> (forall t, ~ compare_rule CLike t1 t2 t) ->
    wrong rels (ECompare CLike e1 e2) CLikeText
| w_between_1 rels e lo hi c : wrong rels e c -> wrong rels (EBetween e lo hi) c
| w_between_2 rels e lo hi c : has_type rels e -> wrong rels lo c -> wrong rels (EBetween e lo hi) c
| w_between_3 rels e lo hi c : has_type rels e -> has_type rels lo -> wrong rels hi c -> wrong rels (EBetween e lo hi) c
| w_between_rows rels e lo hi t1 t2 t3 : typed rels e t1 -> typed rels lo t2 -> typed rels hi t3 ->
    ~ (is_scalar t1 /\ is_scalar t2 /\ is_scalar t3) -> wrong rels (EBetween e lo hi) CRangeScalar
| w_between_type rels e lo hi d1 n1 d2 n2 d3 n3 :
    typed rels e (TyScalar d1 n1) -> typed rels lo (TyScalar d2 n2) -> typed rels hi (TyScalar d3 n3) ->
    ~ (d1 = d2 /\ d1 = d3 /\ orderable d1) -> wrong rels (EBetween e lo hi) CRangeOrdered
    (** CASE: the operand, the results in order, the ELSE part. The guards are never blamed (a defect: see C28). *)
| w_case_operand rels e whens els c : wrong rels e c -> wrong rels (ECase (Some e) whens els) c
| w_case_first rels o g e whens els c : opt (has_type rels) o -> wrong rels e c -> wrong rels (ECase o ((g, e) :: whens) els) c
| w_case_results rels o g e t whens els c : opt (has_type rels) o -> typed rels e t -> wrong_results rels t whens c ->
    wrong rels (ECase o ((g, e) :: whens) els) c
| w_case_else rels o whens els d ns c : opt (has_type rels) o ->
    whens <> [] -> Forall2 (fun w n => typed rels (snd w) (TyScalar d n)) whens ns ->
    wrong rels els c -> wrong rels (ECase o whens (Some els)) c
| w_case_else_type rels o whens els d ns t c : opt (has_type rels) o ->
    whens <> [] -> Forall2 (fun w n => typed rels (snd w) (TyScalar d n)) whens ns ->
    typed rels els t -> unlike t (TyScalar d false) c -> wrong rels (ECase o whens (Some els)) c
| w_in_left rels e s c : wrong rels e c -> wrong rels (EIn e s) c
| w_in_right rels e s c : has_type rels e -> wrong_spec rels s c -> wrong rels (EIn e s) c
| w_in_select rels e s attrs : has_type rels e -> selects s attrs -> length attrs <> 1%nat ->
    wrong rels (EIn e (SpSelect s)) CInColumns
| w_in_table rels e q attrs : has_type rels e -> table q attrs -> length attrs <> 1%nat ->
    wrong rels (EIn e (SpName q)) CInColumns
| w_in_type rels e s t d n c : typed rels e t -> members_typed up table rels s d n -> unlike t (TyScalar d n) c ->
    wrong rels (EIn e s) c
    (** Neither side is nullable: refused, though sensible (a defect: see C34). *)
| w_in_not_null rels e s d : typed rels e (TyScalar d false) -> members_typed up table rels s d false ->
    wrong rels (EIn e s) CInTypes
| w_select rels s c : wrong_select s c -> wrong rels (ESelect s) c
| w_select_columns rels s attrs : selects s attrs -> length attrs <> 1%nat -> wrong rels (ESelect s) CSelectColumns

(** The results of a CASE after the first one, whose type is [t]. *)
with wrong_results : relations -> stype -> list (expr * expr) -> complaint -> Prop :=
| wr_wrong rels t g e l c : wrong rels e c -> wrong_results rels t ((g, e) :: l) c
| wr_unlike rels t g e l u c : typed rels e u -> unlike u t c -> wrong_results rels t ((g, e) :: l) c
| wr_row rels t g e l us : typed rels e (TyTuple us) -> alike (TyTuple us) t -> wrong_results rels t ((g, e) :: l) CThenScalar
| wr_next rels d n m g e l c : typed rels e (TyScalar d m) -> wrong_results rels (TyScalar d n) l c ->
    wrong_results rels (TyScalar d n) ((g, e) :: l) c

(** The right-hand side of IN. Of several wrong members of a list the last one is reported. *)
with wrong_spec : relations -> set_spec -> complaint -> Prop :=
| wp_select rels s c : wrong_select s c -> wrong_spec rels (SpSelect s) c
| wp_name rels q c : no_table q c -> wrong_spec rels (SpName q) c
| wp_member rels es c : last_wrong rels es c -> wrong_spec rels (SpList es) c
| wp_unlike rels e es t c : typed rels e t -> Forall (has_type rels) es ->
    at_first (fun e => exists u, typed rels e u /\ alike t u) (fun e c => exists u, typed rels e u /\ unlike t u c) es c ->
    wrong_spec rels (SpList (e :: es)) c
| wp_rows rels e es ts : typed rels e (TyTuple ts) -> Forall (fun e => exists u, typed rels e u /\ alike (TyTuple ts) u) es ->
    wrong_spec rels (SpList (e :: es)) CSetScalar
with last_wrong : relations -> list expr -> complaint -> Prop :=
| lw_here rels e es c : wrong rels e c -> Forall (has_type rels) es -> last_wrong rels (e :: es) c
| lw_later rels e es c : last_wrong rels es c -> last_wrong rels (e :: es) c

with wrong_select : select -> complaint -> Prop :=
| ws_common common e order lim c : wrong_common [] common c -> wrong_select (Select common e order lim) c
| ws_set common e order lim scope c : commons common scope ->
    wrong_set e c -> wrong_select (Select common e order lim) c
| ws_order common e order lim scope attrs c : commons common scope -> set_typed e attrs ->
    at_first (fun o => exists t, typed scope (fst (fst o)) t /\ is_scalar t)
             (fun o => unfit (typed scope) (wrong scope) is_scalar COrderScalar (fst (fst o))) order c ->
    wrong_select (Select common e order lim) c
| ws_limit common e order rows offset scope attrs c : commons common scope -> set_typed e attrs ->
    Forall (fun o => exists t, typed scope (fst (fst o)) t /\ is_scalar t) order ->
    unfit (typed []) (wrong []) is_count CLimit rows c -> wrong_select (Select common e order (Some (rows, offset))) c
| ws_offset common e order rows offset scope attrs c : commons common scope -> set_typed e attrs ->
    Forall (fun o => exists t, typed scope (fst (fst o)) t /\ is_scalar t) order ->
    typed [] rows (TyScalar DNumeric false) ->
    unfit (typed []) (wrong []) is_count COffset offset c -> wrong_select (Select common e order (Some (rows, Some offset))) c

(** The common table expressions of a query, those of [rels] being in order. *)
with wrong_common : relations -> list cte -> complaint -> Prop :=
| wc_here rels a l c : wrong_cte a c -> wrong_common rels (a :: l) c
| wc_twice rels a l attrs : common_table up table a attrs -> in_scope rels (cte_id a) ->
    wrong_common rels (a :: l) (CDuplicateRelation (cte_id a))
| wc_next rels a l attrs c : common_table up table a attrs -> ~ in_scope rels (cte_id a) ->
    wrong_common (rels ++ [(cte_id a, attrs)]) l c -> wrong_common rels (a :: l) c

with wrong_cte : cte -> complaint -> Prop :=
| wt_query id names q c : wrong_select q c -> wrong_cte (Cte id names q) c
| wt_names id names q attrs c : selects q attrs ->
    at_first (fun n => exists a, first_named up attrs n a)
             (fun n c => Forall (fun a => same (a_name a) n = false) attrs /\ c = CColumnNotFound n) names c ->
    wrong_cte (Cte id (Some names) q) c

with wrong_set : set_expr -> complaint -> Prop :=
| wx_first row rows c :
    at_first (fun e => exists t, typed [] e t /\ is_scalar t) (unfit (typed []) (wrong []) is_scalar CValueScalar) row c ->
    wrong_set (SValues (row :: rows)) c
| wx_rows row rows attrs c : first_typed up table 0 row attrs -> wrong_rows attrs rows c -> wrong_set (SValues (row :: rows)) c
| wx_from mode columns from wh group c : wrong_from [] from c -> wrong_set (SQuery mode columns from wh group) c
| wx_where mode columns from e group rels attrs c : items from rels attrs ->
    unfit (typed rels) (wrong rels) is_truth CWhere e c -> wrong_set (SQuery mode columns from (Some e) group) c
| wx_group mode columns from wh gs having rels attrs c : items from rels attrs ->
    opt (fun e => exists n, typed rels e (TyScalar DLogical n)) wh ->
    at_first (has_type rels) (wrong rels) gs c -> wrong_set (SQuery mode columns from wh (Some (gs, having))) c
| wx_having mode columns from wh gs e rels attrs c : items from rels attrs ->
    opt (fun e => exists n, typed rels e (TyScalar DLogical n)) wh -> Forall (has_type rels) gs ->
    unfit (typed rels) (wrong rels) is_truth CHaving e c -> wrong_set (SQuery mode columns from wh (Some (gs, Some e))) c
| wx_columns mode columns from wh group rels attrs c : items from rels attrs ->
    opt (fun e => exists n, typed rels e (TyScalar DLogical n)) wh ->
    opt (fun g => Forall (has_type rels) (fst g) /\ opt (fun e => exists n, typed rels e (TyScalar DLogical n)) (snd g)) group ->
    wrong_columns rels columns c -> wrong_set (SQuery mode columns from wh group) c
| wx_left op l r c : wrong_set l c -> wrong_set (SOp op l r) c
| wx_right op l r attrs c : set_typed l attrs -> wrong_set r c -> wrong_set (SOp op l r) c
| wx_types op l r attrs1 attrs2 i a b : set_typed l attrs1 -> set_typed r attrs2 ->
    nth_error attrs1 i = Some a -> nth_error attrs2 i = Some b -> a_type a <> a_type b ->
    wrong_set (SOp op l r) CIncompatible

(** The further rows of VALUES. *)
with wrong_rows : list attribute -> list (list expr) -> complaint -> Prop :=
| wv_here attrs row rows c : wrong_row attrs row c -> wrong_rows attrs (row :: rows) c
| wv_next attrs row rows attrs' c : row_typed up table attrs row attrs' -> wrong_rows attrs' rows c ->
    wrong_rows attrs (row :: rows) c
with wrong_row : list attribute -> list expr -> complaint -> Prop :=
| ww_wrong a attrs e es c : wrong [] e c -> wrong_row (a :: attrs) (e :: es) c
| ww_unlike a attrs e es t c : typed [] e t -> unlike (attr_type a) t c -> wrong_row (a :: attrs) (e :: es) c
| ww_next a attrs e es n c : typed [] e (TyScalar (a_type a) n) -> wrong_row attrs es c -> wrong_row (a :: attrs) (e :: es) c

(** FROM, the relations [rels] being in scope already. *)
with wrong_from : relations -> list table_expr -> complaint -> Prop :=
| wf_here rels t ts c : wrong_item rels t c -> wrong_from rels (t :: ts) c
| wf_next rels t ts rels' attrs c : item_typed up table t rels' attrs -> distinct up (map fst (rels ++ rels')) ->
    wrong_from (rels ++ rels') ts c -> wrong_from rels (t :: ts) c
with wrong_item : relations -> table_expr -> complaint -> Prop :=
| wi_table rels q alias c : no_table q c -> wrong_item rels (TNamed q alias) c
| wi_twice rels q alias attrs n : table q attrs -> n = match alias with Some a => a | None => last q [] end ->
    in_scope rels n -> wrong_item rels (TNamed q alias) (CDuplicateRelation n)
| wi_select rels s alias c : wrong_select s c -> wrong_item rels (TSelect s alias) c
| wi_left rels l r op on c : wrong_item rels l c -> wrong_item rels (TJoin l r op on) c
| wi_right rels l r op on rels' attrs c : item_typed up table l rels' attrs -> distinct up (map fst (rels ++ rels')) ->
    wrong_item (rels ++ rels') r c -> wrong_item rels (TJoin l r op on) c

(** The select list. *)
with wrong_columns : relations -> result_columns -> complaint -> Prop :=
| wl_list rels l c : at_first (fun k => exists req, column_typed up table rels k req) (wrong_column rels) l c ->
    wrong_columns rels (RList l) c
with wrong_column : relations -> result_column -> complaint -> Prop :=
| wk_undefined rels r : ~ in_scope rels r -> named up r (flat_map snd rels) = [] ->
    wrong_column rels (RAllFrom r) (CUndefinedCollection r)
| wk_column rels r : ~ in_scope rels r -> named up r (flat_map snd rels) <> [] ->
    wrong_column rels (RAllFrom r) (CRangeVariable r)
| wk_expr rels e rename c : unfit (typed rels) (wrong rels) is_scalar CColumnScalar e c ->
    wrong_column rels (RExpr e rename) c.

(** ** Statements *)

(** A value of type [d] (nullable if [null]) for the column [n], those of [given] having been served already.
    [twice] and [absent] are the complaints about a column given before or missing in the table. *)
Inductive wrong_target (attrs : list attribute) (given : list name) (n : name) (d : data_type) (null : bool)
  (twice absent misfit : complaint) : complaint -> Prop :=
| wg_twice : Exists (fun m => same n m = true) given -> wrong_target attrs given n d null twice absent misfit twice
| wg_absent : Forall (fun m => same n m = false) given -> named up n attrs = [] ->
    wrong_target attrs given n d null twice absent misfit absent
| wg_misfit a : Forall (fun m => same n m = false) given -> column_of up attrs n a -> ~ takes a d null ->
    wrong_target attrs given n d null twice absent misfit misfit.

Definition right_target (attrs : list attribute) (given : list name) (n : name) (d : data_type) (null : bool) : Prop :=
  Forall (fun m => same n m = false) given /\ exists a, column_of up attrs n a /\ takes a d null.

(** INSERT: values paired with columns of the table [q]. A column given twice is said to be undefined (a defect). *)
Inductive wrong_values (q : list name) (attrs : list attribute) : list name -> list (attribute * name) -> complaint -> Prop :=
| wq_here given v n l c :
    wrong_target attrs given n (a_type v) (a_null v) (CColumnUndefined n q) (CColumnUndefined n q) (CCannotAssign (a_name v) n) c ->
    wrong_values q attrs given ((v, n) :: l) c
| wq_next given v n l c : right_target attrs given n (a_type v) (a_null v) ->
    wrong_values q attrs (n :: given) l c -> wrong_values q attrs given ((v, n) :: l) c
    (** The first column, by name, that needs a value and has none. *)
| wq_missing given cols c : starred up attrs cols ->
    at_first (fun a => a_null a = true \/ Exists (fun m => same (a_name a) m = true) given)
             (fun a c => a_null a = false /\ Forall (fun m => same (a_name a) m = false) given /\ c = CMissing (a_name a)) cols c ->
    wrong_values q attrs given [] c.

Definition targets (i : insert) (values : list attribute) : list name :=
  match i_columns i with Some l => l | None => map a_name values end.

(** UPDATE: the columns of one assignment, and all assignments. *)
Inductive wrong_assigned (attrs : list attribute) (d : data_type) (null : bool) : list name -> list name -> complaint -> Prop :=
| wn_here given n l c :
    wrong_target attrs given n d null (CAssignedTwice n) (CAssignUndefined n) (CAssignIncompatible n) c ->
    wrong_assigned attrs d null given (n :: l) c
| wn_next given n l c : right_target attrs given n d null -> wrong_assigned attrs d null (n :: given) l c ->
    wrong_assigned attrs d null given (n :: l) c.

Inductive right_assigned (attrs : list attribute) (d : data_type) (null : bool) : list name -> list name -> list name -> Prop :=
| rn_nil given : right_assigned attrs d null given [] given
| rn_cons given n l given' : right_target attrs given n d null -> right_assigned attrs d null (n :: given) l given' ->
    right_assigned attrs d null given (n :: l) given'.

Inductive wrong_assignments (rels : relations) (attrs : list attribute) : list name -> list (list name * expr) -> complaint -> Prop :=
| wa_expr given cols e l c : unfit (typed rels) (wrong rels) is_scalar CAssignScalar e c ->
    wrong_assignments rels attrs given ((cols, e) :: l) c
| wa_column given cols e l d n c : typed rels e (TyScalar d n) -> wrong_assigned attrs d n given cols c ->
    wrong_assignments rels attrs given ((cols, e) :: l) c
| wa_next given cols e l d n given' c : typed rels e (TyScalar d n) -> right_assigned attrs d n given cols given' ->
    wrong_assignments rels attrs given' l c -> wrong_assignments rels attrs given ((cols, e) :: l) c.

Inductive statement_wrong : statement -> complaint -> Prop :=
| sw_select s c : wrong_select s c -> statement_wrong (StSelect s) c
| sw_insert_table i c : no_table (i_table i) c -> statement_wrong (StInsert i) c
| sw_insert_source i attrs c : table (i_table i) attrs -> wrong_set (i_source i) c -> statement_wrong (StInsert i) c
| sw_insert_count i attrs values : table (i_table i) attrs -> set_typed (i_source i) values ->
    length (targets i values) <> length values -> statement_wrong (StInsert i) CColumnCount
| sw_insert_values i attrs values c : table (i_table i) attrs -> set_typed (i_source i) values ->
    length (targets i values) = length values ->
    wrong_values (i_table i) attrs [] (combine values (targets i values)) c -> statement_wrong (StInsert i) c
| sw_update_table u c : no_table (u_table u) c -> statement_wrong (StUpdate u) c
| sw_update u attrs c : table (u_table u) attrs ->
    wrong_assignments [(last (u_table u) [], attrs)] attrs [] (u_assignments u) c -> statement_wrong (StUpdate u) c
| sw_update_where u attrs e c : table (u_table u) attrs ->
    assignable up (fun e d n => typed [(last (u_table u) [], attrs)] e (TyScalar d n)) attrs (u_assignments u) ->
    u_where u = Some e ->
    unfit (typed [(last (u_table u) [], attrs)]) (wrong [(last (u_table u) [], attrs)]) is_truth CWhere e c ->
    statement_wrong (StUpdate u) c
| sw_delete_table d c : no_table (d_table d) c -> statement_wrong (StDelete d) c
| sw_delete_where d attrs e c : table (d_table d) attrs -> d_where d = Some e ->
    unfit (typed [(last (d_table d) [], attrs)]) (wrong [(last (d_table d) [], attrs)]) is_truth CWhere e c ->
    statement_wrong (StDelete d) c.

Inductive sql_wrong : sql_statement -> complaint -> Prop :=
| qw_statement s c : statement_wrong s c -> sql_wrong (SqlStatement s) c
| qw_explain s c : statement_wrong s c -> sql_wrong (SqlExplain s) c
| qw_describe q c : no_table q c -> sql_wrong (SqlDescribe q) c.

End Blame.

(** ** The catalog *)

(** Why a table cannot be found. *)
Inductive uncatalogued (up : Z -> list Z) (db : database) (dflt : name) : list name -> complaint -> Prop :=
| uc_default n : has_default up db dflt -> (forall attrs, ~ in_schema up db dflt n attrs) ->
    uncatalogued up db dflt [n] (CNoTable n)
| uc_schema s n : ~ has_default up db s -> uncatalogued up db dflt [s; n] (CNoSchema s)
| uc_table s n : has_default up db s -> (forall attrs, ~ in_schema up db s n attrs) ->
    uncatalogued up db dflt [s; n] (CNoTable n)
| uc_length q : length q <> 1%nat -> length q <> 2%nat -> uncatalogued up db dflt q CTableName.
