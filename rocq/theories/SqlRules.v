(** * Typing rules for SQL (specification)

    What [Expression::infer_type] and its companions in src/sql/ast/typing.rs accept, as rules. The rules mention no
    inference function: a scope is the list of its relations, the catalog is a relation [table] between names and
    columns. *)

From Coq Require Import Sorting.Sorted.
From Verif Require Import Base SqlNameModel SqlModel SqlSpec SqlStmtSpec SqlFromSpec SqlColumnsSpec.

(** The member of an optional part, if there is one. *)
Inductive opt {A : Type} (P : A -> Prop) : option A -> Prop :=
| opt_none : opt P None
| opt_some a : P a -> opt P (Some a).

(** ** Operators *)

Definition literal_rule (l : literal) : stype :=
  match l with
  | LNull => TyScalar DGeneric true
  | LString _ => TyScalar DVarchar false
  | LNumeric _ => TyScalar DNumeric false
  | LDate _ | LCurrentDate => TyScalar DDate false
  | LTime _ | LCurrentTime => TyScalar DTime false
  | LTimestamp _ | LCurrentTimestamp => TyScalar DTimestamp false
  end.

(** IS NULL has the type of its operand (a defect: see C34). *)
Inductive unary_rule : unary_op -> stype -> stype -> Prop :=
| ur_negate n : unary_rule UNegate (TyScalar DNumeric n) (TyScalar DNumeric n)
| ur_not n : unary_rule UNot (TyScalar DLogical n) (TyScalar DLogical n)
| ur_is_null d n : unary_rule UIsNull (TyScalar d n) (TyScalar d n).

Inductive binary_rule : binary_op -> stype -> stype -> stype -> Prop :=
| br_number op n m : In op [BMultiply; BDivide; BAdd; BSubtract] ->
    binary_rule op (TyScalar DNumeric n) (TyScalar DNumeric m) (TyScalar DNumeric (n || m))
| br_text n m : binary_rule BConcat (TyScalar DVarchar n) (TyScalar DVarchar m) (TyScalar DVarchar (n || m))
| br_truth op n m : In op [BAnd; BOr] ->
    binary_rule op (TyScalar DLogical n) (TyScalar DLogical m) (TyScalar DLogical (n || m)).

(** The same type up to nullability. *)
Inductive alike : stype -> stype -> Prop :=
| al_scalar d n m : alike (TyScalar d n) (TyScalar d m)
| al_row ts us : Forall2 alike ts us -> alike (TyTuple ts) (TyTuple us).

Definition orderable (d : data_type) : Prop := In d [DVarchar; DNumeric; DDate; DTime; DTimestamp].

(** A comparison of row values is taken to be not null (a defect: see C28). *)
Inductive compare_rule : compare_op -> stype -> stype -> stype -> Prop :=
| cr_equal op d n m : In op [CEqual; CNotEqual] ->
    compare_rule op (TyScalar d n) (TyScalar d m) (TyScalar DLogical (n || m))
| cr_rows op ts us : In op [CEqual; CNotEqual] -> Forall2 alike ts us ->
    compare_rule op (TyTuple ts) (TyTuple us) (TyScalar DLogical false)
| cr_order op d n m : In op [CLess; CLessEqual; CGreater; CGreaterEqual] -> orderable d ->
    compare_rule op (TyScalar d n) (TyScalar d m) (TyScalar DLogical (n || m))
| cr_like n m : compare_rule CLike (TyScalar DVarchar n) (TyScalar DVarchar m) (TyScalar DLogical (n || m)).

(** Some member is [true]. *)
Definition any (l : list bool) : bool := existsb (fun b => b) l.

(** A decimal numeral. *)
Definition numeral (k : nat) (s : list Z) : Prop := k = 0%nat /\ s = [48]%Z \/ (0 < k)%nat /\ decimal k s.

Section Rules.
Context (up : Z -> list Z) (table : list name -> list attribute -> Prop).
Notation same := (name_eqb up).

(** ** Names *)

(** A column reference. Without a qualifier the name must denote exactly one column of all relations together and
    must not be the name of a relation; with a qualifier the last column of that name in the relation counts. *)
Definition refers (rels : relations) (q : list name) (t : stype) : Prop :=
  match q with
  | [a] => Forall (fun r => same a (fst r) = false) rels /\
           exists b, named up a (flat_map snd rels) = [b] /\ t = attr_type b
  | [r; a] => exists n attrs b, In (n, attrs) rels /\ same r n = true /\
                last_named up attrs b /\ same a (a_name b) = true /\ t = attr_type b
  | _ => False
  end.

(** The columns of a relation as [r.*] gives them: in the order of their names; of columns with equal names one
    remains, with the spelling of the first and the type of the last. *)
Definition starred (attrs l : list attribute) : Prop :=
  StronglySorted (fun a b => name_cmp up (a_name a) (a_name b) = Lt) l /\
  forall b, In b l <->
    exists first last, first_named up attrs (a_name first) first /\ last_named up attrs last /\
      same (a_name first) (a_name last) = true /\
      b = {| a_name := a_name first; a_type := a_type last; a_null := a_null last |}.

(** The requested columns with the labels given to them. *)
Definition labelled (requested given : list attribute) : Prop :=
  labels up [] (map a_name requested) (map a_name given) /\
  map (fun a => (a_type a, a_null a)) given = map (fun a => (a_type a, a_null a)) requested.

(** ** Expressions and queries *)

(** [typed rels e t]: in the scope of the relations [rels] the expression [e] has type [t]. *)
Inductive typed : relations -> expr -> stype -> Prop :=
| t_literal rels l : typed rels (ELiteral l) (literal_rule l)
| t_name rels q t : refers rels q t -> typed rels (EName q) t
| t_row rels es ts : Forall2 (typed rels) es ts -> typed rels (ETuple es) (TyTuple ts)
| t_unary rels op e t t' : typed rels e t -> unary_rule op t t' -> typed rels (EUnary op e) t'
| t_binary rels op e1 e2 t1 t2 t : typed rels e1 t1 -> typed rels e2 t2 -> binary_rule op t1 t2 t ->
    typed rels (EBinary op e1 e2) t
| t_compare rels op e1 e2 t1 t2 t : typed rels e1 t1 -> typed rels e2 t2 -> compare_rule op t1 t2 t ->
    typed rels (ECompare op e1 e2) t
| t_between rels e lo hi d n1 n2 n3 :
    typed rels e (TyScalar d n1) -> typed rels lo (TyScalar d n2) -> typed rels hi (TyScalar d n3) -> orderable d ->
    typed rels (EBetween e lo hi) (TyScalar DLogical (n1 || n2 || n3))
    (** The guards need not have a type (a defect: see C28). *)
| t_case rels o whens els d ns m :
    whens <> [] -> opt (fun e => exists t, typed rels e t) o ->
    Forall2 (fun w n => typed rels (snd w) (TyScalar d n)) whens ns ->
    otherwise rels d els m ->
    typed rels (ECase o whens els) (TyScalar d (any ns || m))
    (** One of the two sides must be nullable, and the result is not null (defects: see C34). *)
| t_in rels e s d n m : typed rels e (TyScalar d n) -> members_typed rels s d m -> n || m = true ->
    typed rels (EIn e s) (TyScalar DLogical false)
| t_select rels s a : selects s [a] -> typed rels (ESelect s) (TyScalar (a_type a) (a_null a))

(** The ELSE part of a CASE. *)
with otherwise : relations -> data_type -> option expr -> bool -> Prop :=
| o_none rels d : otherwise rels d None true
| o_some rels d e n : typed rels e (TyScalar d n) -> otherwise rels d (Some e) n

(** The right-hand side of IN: the type and nullability of the members. *)
with members_typed : relations -> set_spec -> data_type -> bool -> Prop :=
| m_list rels es d ns : es <> [] -> Forall2 (fun e n => typed rels e (TyScalar d n)) es ns ->
    members_typed rels (SpList es) d (any ns)
| m_table rels q a : table q [a] -> members_typed rels (SpName q) (a_type a) (a_null a)
| m_select rels s a : selects s [a] -> members_typed rels (SpSelect s) (a_type a) (a_null a)

(** [selects s attrs]: the query has the columns [attrs]. The common table expressions are in scope in ORDER BY only
    (a defect: see C35); LIMIT and OFFSET see no relation. *)
with selects : select -> list attribute -> Prop :=
| s_select common e order lim scope attrs :
    Forall2 (fun c r => fst r = cte_id c /\ common_table c (snd r)) common scope -> distinct up (map fst scope) ->
    set_typed e attrs ->
    Forall (fun o => exists d n, typed scope (fst (fst o)) (TyScalar d n)) order ->
    opt (fun l => typed [] (fst l) (TyScalar DNumeric false) /\
                  opt (fun e => typed [] e (TyScalar DNumeric false)) (snd l)) lim ->
    selects (Select common e order lim) attrs

with common_table : cte -> list attribute -> Prop :=
| c_all id q attrs : selects q attrs -> common_table (Cte id None q) attrs
| c_some id names q attrs attrs' : selects q attrs ->
    Forall2 (fun n b => exists a, first_named up attrs n a /\
                        b = {| a_name := n; a_type := a_type a; a_null := a_null a |}) names attrs' ->
    common_table (Cte id (Some names) q) attrs'

with set_typed : set_expr -> list attribute -> Prop :=
| x_values row rows attrs attrs' : first_typed 0 row attrs -> rows_typed attrs rows attrs' ->
    set_typed (SValues (row :: rows)) attrs'
| x_query mode columns from wh group parts requested attrs :
    Forall2 (fun t p => item_typed t (fst p) (snd p)) from parts -> distinct up (map fst (flat_map fst parts)) ->
    opt (fun e => exists n, typed (flat_map fst parts) e (TyScalar DLogical n)) wh ->
    opt (fun g => Forall (fun e => exists t, typed (flat_map fst parts) e t) (fst g) /\
                  opt (fun e => exists n, typed (flat_map fst parts) e (TyScalar DLogical n)) (snd g)) group ->
    columns_typed (flat_map fst parts) (flat_map snd parts) columns requested -> labelled requested attrs ->
    set_typed (SQuery mode columns from wh group) attrs
| x_op op l r attrs1 attrs2 attrs : set_typed l attrs1 -> set_typed r attrs2 -> merged attrs1 attrs2 attrs ->
    set_typed (SOp op l r) attrs

(** The first row of VALUES names the columns; no relation is in scope. *)
with first_typed : nat -> list expr -> list attribute -> Prop :=
| f_nil k : first_typed k [] []
| f_cons k e es d n s attrs : typed [] e (TyScalar d n) -> numeral k s -> first_typed (S k) es attrs ->
    first_typed k (e :: es) ({| a_name := [95; 99; 111; 108]%Z (* _col *) ++ s; a_type := d; a_null := n |} :: attrs)

(** The further rows: what is beyond the shortest row so far is not looked at. *)
with rows_typed : list attribute -> list (list expr) -> list attribute -> Prop :=
| r_nil attrs : rows_typed attrs [] attrs
| r_cons attrs row rows attrs1 attrs2 : row_typed attrs row attrs1 -> rows_typed attrs1 rows attrs2 ->
    rows_typed attrs (row :: rows) attrs2
with row_typed : list attribute -> list expr -> list attribute -> Prop :=
| w_full es : row_typed [] es []
| w_short attrs : row_typed attrs [] []
| w_cons a attrs e es n attrs' : typed [] e (TyScalar (a_type a) n) -> row_typed attrs es attrs' ->
    row_typed (a :: attrs) (e :: es) ({| a_name := a_name a; a_type := a_type a; a_null := a_null a || n |} :: attrs')

(** [item_typed t rels attrs]: the FROM item [t] puts the relations [rels] in scope and adds the columns [attrs]. A
    subquery adds no relation; join conditions need not have a type (defects: see C48). *)
with item_typed : table_expr -> relations -> list attribute -> Prop :=
| g_table q alias attrs : table q attrs ->
    item_typed (TNamed q alias) [(match alias with Some a => a | None => last q [] end, attrs)] attrs
| g_select s alias attrs : selects s attrs -> item_typed (TSelect s alias) [] attrs
| g_join l r op c rels1 rels2 attrs1 attrs2 : item_typed l rels1 attrs1 -> item_typed r rels2 attrs2 ->
    item_typed (TJoin l r op c) (rels1 ++ rels2) (attrs1 ++ attrs2)

(** The columns a select list asks for. *)
with columns_typed : relations -> list attribute -> result_columns -> list attribute -> Prop :=
| l_all rels attrs : columns_typed rels attrs RAll attrs
| l_list rels attrs l reqs : Forall2 (column_typed rels) l reqs -> columns_typed rels attrs (RList l) (concat reqs)
with column_typed : relations -> result_column -> list attribute -> Prop :=
| k_expr rels e rename d n : typed rels e (TyScalar d n) ->
    column_typed rels (RExpr e rename)
      [{| a_name := match rename with Some m => m | None => [99; 111; 108]%Z (* col *) end; a_type := d; a_null := n |}]
| k_star rels r n attrs l : In (n, attrs) rels -> same r n = true -> starred attrs l ->
    column_typed rels (RAllFrom r) l.

(** ** Statements *)

(** An optional WHERE condition in the scope of one table. *)
Definition filter_typed (q : list name) (attrs : list attribute) (wh : option expr) : Prop :=
  opt (fun e => exists n, typed [(last q [], attrs)] e (TyScalar DLogical n)) wh.

Inductive statement_typed : statement -> Prop :=
| st_select s attrs : selects s attrs -> statement_typed (StSelect s)
    (** Without a column list the columns of the source go by their names. *)
| st_insert i attrs values :
    table (i_table i) attrs -> set_typed (i_source i) values ->
    storable up attrs (match i_columns i with Some l => l | None => map a_name values end) values ->
    statement_typed (StInsert i)
| st_update u attrs :
    table (u_table u) attrs ->
    assignable up (fun e d n => typed [(last (u_table u) [], attrs)] e (TyScalar d n)) attrs (u_assignments u) ->
    filter_typed (u_table u) attrs (u_where u) -> statement_typed (StUpdate u)
| st_delete d attrs :
    table (d_table d) attrs -> filter_typed (d_table d) attrs (d_where d) -> statement_typed (StDelete d).

Inductive sql_typed : sql_statement -> Prop :=
| q_statement s : statement_typed s -> sql_typed (SqlStatement s)
| q_explain s : statement_typed s -> sql_typed (SqlExplain s)
| q_attach q path : sql_typed (SqlAttach q path)
| q_describe q attrs : table q attrs -> sql_typed (SqlDescribe q).

End Rules.

(** ** The catalog *)

Section Catalog.
Context (up : Z -> list Z).
Notation same := (name_eqb up).

(** [n] is a table or view with these columns in the schema [s]. *)
Definition in_schema (db : database) (s n : name) (attrs : list attribute) : Prop :=
  exists s' sc n' o, In (s', sc) db /\ same s s' = true /\ In (n', o) (s_objects sc) /\ same n n' = true /\
    attrs = map (fun c => {| a_name := c_name c; a_type := c_type c; a_null := negb (c_not_null c) |}) (object_rows o).

(** A table by its name, in the default schema or in the one given. *)
Definition catalog (db : database) (dflt : name) (q : list name) (attrs : list attribute) : Prop :=
  match q with
  | [n] => in_schema db dflt n attrs
  | [s; n] => in_schema db s n attrs
  | _ => False
  end.

(** The default schema exists. *)
Definition has_default (db : database) (dflt : name) : Prop := exists s sc, In (s, sc) db /\ same dflt s = true.

(** Schemas, and the objects of each, have different names. *)
Definition well_named (db : database) : Prop :=
  distinct up (map fst db) /\ Forall (fun e => distinct up (map fst (s_objects (snd e)))) db.

End Catalog.
