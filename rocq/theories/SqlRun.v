(** * A reference evaluator for SQL queries (specification)

    The program types queries but does not run them; this evaluator says what running means. The data are given by
    [stored]: the column names and the rows of a table. Nothing here refers to the inference functions. *)

From Verif Require Import Base SqlNameModel SqlModel SqlSpec.
Local Open Scope nat_scope.

(** [IllTyped]: a type error. [Failed]: an error that depends on the data: arithmetic, or a scalar subquery with more
    than one row. [Unchecked]: an error in one of the places the typing code leaves unchecked (C28, C34, C48): guards
    of CASE, join conditions, the columns of USING, the number of columns a WITH clause names, rows of different length
    in VALUES, operands of different width in a set operation.
    [Excluded]: no query, or a name of more than two parts. *)
Inductive reply (A : Type) : Type :=
| Done (a : A)
| IllTyped
| Failed
| Unchecked
| Excluded.
Arguments Done {A} a.
Arguments IllTyped {A}.
Arguments Failed {A}.
Arguments Unchecked {A}.
Arguments Excluded {A}.

Definition next {A B : Type} (r : reply A) (f : A -> reply B) : reply B :=
  match r with
  | Done a => f a
  | IllTyped => IllTyped
  | Failed => Failed
  | Unchecked => Unchecked
  | Excluded => Excluded
  end.

Notation "x <~ e ; f" := (next e (fun x => f)) (at level 61, e at next level, right associativity).

Definition of_answer (a : answer) : reply value :=
  match a with
  | Val v => Done v
  | TypeError => IllTyped
  | Arithmetic => Failed
  | Outside => Excluded
  end.

(** In a place that is not checked. *)
Definition unchecked {A : Type} (r : reply A) : reply A :=
  match r with
  | Done a => Done a
  | Failed => Failed
  | _ => Unchecked
  end.

Section Each.
Context {A B : Type} (f : A -> reply B).
Fixpoint each (l : list A) : reply (list B) :=
  match l with
  | [] => Done []
  | a :: l' => b <~ f a; bs <~ each l'; Done (b :: bs)
  end.
End Each.

Section Keep.
Context {A : Type} (f : A -> reply bool).
Fixpoint keep (l : list A) : reply (list A) :=
  match l with
  | [] => Done []
  | a :: l' => b <~ f a; k <~ keep l'; Done (if b then a :: k else k)
  end.
End Keep.

(** The first entry of each key. *)
Section Firsts.
Context {A B : Type} (same : B -> B -> bool).
Fixpoint firsts (seen : list B) (l : list (B * A)) : list A :=
  match l with
  | [] => []
  | (k, a) :: l' => if existsb (same k) seen then firsts seen l' else a :: firsts (k :: seen) l'
  end.
End Firsts.

Definition row : Type := list value.

(** Columns without a name: those of VALUES and of other expressions than column names. *)
Record table : Type := { t_names : list (option name); t_width : nat; t_rows : list row }.

(** What the names of tables stand for: names of the columns, and rows. *)
Notation store := (list name -> option (list name * list row)).

(** The rows of a FROM clause: the current row of every relation, and all values in order; [f_pad] is the row of
    NULLs, [f_names] are the names of the values. *)
Definition frame : Type := env * row.
Record source : Type := { f_names : list (option name); f_pad : frame; f_rows : list frame }.

Definition glue (a b : frame) : frame := (fst a ++ fst b, snd a ++ snd b).

(** The members as a single column. *)
Definition column (t : table) : reply (list value) :=
  if t_width t =? 1 then each (fun r => match r with [v] => Done v | _ => IllTyped end) (t_rows t) else IllTyped.

Section Run.
Context (up : Z -> list Z) (w : world).
(** The number a LIMIT denotes; when rows count as equal for DISTINCT, GROUP BY and set operations; which rows come
    first, second and so on under an ORDER BY. *)
Context (count : list Z -> nat) (same_row : row -> row -> bool)
  (arrange : list (expr * option name * direction) -> list row -> list nat).
Notation same := (name_eqb up).

Definition distinct_rows (l : list row) : list row := firsts same_row [] (map (fun r => (r, r)) l).
Definition has_row (l : list row) (r : row) : bool := existsb (same_row r) l.

(** A condition: only [true] counts. *)
Definition condition (v : value) : reply bool :=
  match as_truth v with
  | None => IllTyped
  | Some (Some b) => Done b
  | Some None => Done false
  end.

(** [v] is equal to one of the members. *)
Fixpoint is_in (v : value) (l : list value) : option (option bool) :=
  match l with
  | [] => Some (Some false)
  | u :: l' =>
      match equal3 w v u, is_in v l' with
      | Some p, Some q => Some (or3 p q)
      | _, _ => None
      end
  end.

(** The WHEN clauses: the first whose guard holds is taken. *)
Section When.
Context (f : expr -> reply value) (holds : value -> option (option bool)).
Fixpoint run_when (whens : list (expr * expr)) (els : reply value) : reply value :=
  match whens with
  | [] => els
  | (g, b) :: whens' =>
      v <~ unchecked (f g);
      match holds v with
      | None => Unchecked
      | Some (Some true) => f b
      | Some _ => run_when whens' els
      end
  end.
End When.

(** The number of a LIMIT or OFFSET; NULL is no number. *)
Definition amount (v : value) : reply (option nat) :=
  match v with
  | VNull => Done None
  | VData DNumeric p => Done (Some (count p))
  | _ => IllTyped
  end.

Definition from_row (o : option nat) (l : list row) : list row := match o with None => l | Some k => skipn k l end.
Definition up_to (o : option nat) (l : list row) : list row := match o with None => l | Some k => firstn k l end.

Definition ordered (order : list (expr * option name * direction)) (l : list row) : list row :=
  match order with
  | [] => l
  | _ => flat_map (fun i => match nth_error l i with Some r => [r] | None => [] end) (arrange order l)
  end.

Definition combine_rows (op : set_op) (a b : list row) : list row :=
  match op with
  | SUnionAll => a ++ b
  | SUnion => distinct_rows (a ++ b)
  | SIntersect => distinct_rows (filter (has_row b) a)
  | SExcept => distinct_rows (filter (fun r => negb (has_row b r)) a)
  end.

(** Rows without a partner remain, padded with NULLs, on the left or on the right. *)
Definition outer_left (t : join_type) : bool := match t with JLeft | JFull => true | _ => false end.
Definition outer_right (t : join_type) : bool := match t with JRight | JFull => true | _ => false end.

Definition joined (t : join_type) (on : frame -> reply bool) (a b : source) : reply source :=
  matches <~ each (fun l => m <~ keep on (map (glue l) (f_rows b)); Done (l, m)) (f_rows a);
  alone <~ keep (fun r => m <~ keep on (map (fun l => glue l r) (f_rows a)); Done (match m with [] => true | _ => false end))
                (f_rows b);
  Done {| f_names := f_names a ++ f_names b;
          f_pad := glue (f_pad a) (f_pad b);
          f_rows := flat_map (fun p => match snd p with
                                       | [] => if outer_left t then [glue (fst p) (f_pad b)] else []
                                       | m => m
                                       end) matches ++
                    (if outer_right t then map (glue (f_pad a)) alone else []) |}.

(** *** USING and NATURAL: columns of the same name on both sides are equal and become one *)

Fixpoint position (n : name) (l : list (option name)) : option nat :=
  match l with
  | [] => None
  | m :: l' =>
      if match m with Some m => same n m | None => false end then Some 0
      else match position n l' with Some i => Some (S i) | None => None end
  end.

(** The names of columns on the left that are names of columns on the right too. *)
Definition shared (a b : source) : list name :=
  flat_map (fun m => match m with
                     | Some m => match position m (f_names b) with Some _ => [m] | None => [] end
                     | None => []
                     end) (f_names a).

(** The places of a column on the left and on the right. *)
Definition pair_of (a b : source) (n : name) : reply (nat * nat) :=
  match position n (f_names a), position n (f_names b) with
  | Some i, Some j => Done (i, length (f_names a) + j)
  | _, _ => Unchecked
  end.

Definition value_at (r : row) (i : nat) : value := nth i r VNull.

Definition pair_equal (r : row) (p : nat * nat) : reply bool :=
  match equal3 w (value_at r (fst p)) (value_at r (snd p)) with
  | None => IllTyped
  | Some o => Done (match o with Some b => b | None => false end)
  end.

(** What is left of a list without some places. *)
Definition without {A : Type} (places : list nat) (l : list A) : list A :=
  map snd (filter (fun p => negb (existsb (Nat.eqb (fst p)) places)) (combine (seq 0 (length l)) l)).

(** The common columns, once, then the others. Where one side has NULLs for want of a partner the other side counts. *)
Definition merge_row (pairs : list (nat * nat)) (r : row) : row :=
  map (fun p => match value_at r (fst p) with VNull => value_at r (snd p) | v => v end) pairs ++
  without (map fst pairs ++ map snd pairs) r.

Definition merge_source (pairs : list (nat * nat)) (s : source) : source :=
  {| f_names := map (fun p => nth (fst p) (f_names s) None) pairs ++ without (map fst pairs ++ map snd pairs) (f_names s);
     f_pad := (fst (f_pad s), merge_row pairs (snd (f_pad s)));
     f_rows := map (fun f => (fst f, merge_row pairs (snd f))) (f_rows s) |}.

Definition joined_using (t : join_type) (columns : list name) (on : frame -> reply bool) (a b : source) : reply source :=
  pairs <~ each (pair_of a b) columns;
  s <~ joined t (fun f => bs <~ unchecked (each (pair_equal (snd f)) pairs); if forallb (fun x => x) bs then on f else Done false) a b;
  Done (merge_source pairs s).

(** All combinations of the rows of two sources. *)
Definition crossed (a b : source) : source :=
  {| f_names := f_names a ++ f_names b; f_pad := glue (f_pad a) (f_pad b); f_rows := flat_map (fun l => map (glue l) (f_rows b)) (f_rows a) |}.

Definition crossed_all (l : list source) : source :=
  fold_right crossed {| f_names := []; f_pad := ([], []); f_rows := [([], [])] |} l.

(** The values of [r.*], in the order of the columns. *)
Definition star (en : env) (n : name) : reply row :=
  match filter (fun e => same n (fst e)) en with
  | [(_, cols)] => Done (map snd cols)
  | _ => IllTyped
  end.

Definition column_width (pad : frame) (c : result_column) : reply nat :=
  match c with
  | RAllFrom n => r <~ star (fst pad) n; Done (length r)
  | RExpr _ _ => Done 1
  end.

Definition columns_width (pad : frame) (c : result_columns) : reply nat :=
  match c with
  | RAll => Done (length (snd pad))
  | RList l => ks <~ each (column_width pad) l; Done (list_sum ks)
  end.

(** The names of the columns of a result. *)
Definition column_names (pad : frame) (c : result_column) : list (option name) :=
  match c with
  | RAllFrom n => match filter (fun e => same n (fst e)) (fst pad) with [(_, cols)] => map (fun c => Some (fst c)) cols | _ => [] end
  | RExpr _ (Some n) => [Some n]
  | RExpr (EName q) None => [Some (last q [])]
  | RExpr _ None => [None]
  end.

Definition columns_names (src : source) (c : result_columns) : list (option name) :=
  match c with
  | RAll => f_names src
  | RList l => flat_map (column_names (f_pad src)) l
  end.

Definition named_source (id : name) (names : list name) (rows : list row) : source :=
  let frame_of r := ([(id, combine names r)], r) in
  {| f_names := map Some names; f_pad := frame_of (map (fun _ => VNull) names); f_rows := map frame_of rows |}.

(** A table given by WITH; it hides a stored table of its name. *)
Definition add_table (st : store) (d : name * (list name * list row)) : store :=
  fun q => match q with
           | [n] => if same n (fst d) then Some (snd d) else st q
           | _ => st q
           end.

(** The names of its columns: those given, of which there must be as many as columns, or those it has. *)
Definition with_names (columns : option (list name)) (t : table) : reply (list name) :=
  match columns with
  | Some l => if length l =? t_width t then Done l else Unchecked
  | None => Done (map (fun o => match o with Some n => n | None => [] end) (t_names t))
  end.

(** Each table of WITH is seen by those after it. *)
Section Withs.
Context (f : store -> cte -> reply (name * (list name * list row))).
Fixpoint withs (st : store) (l : list cte) : reply store :=
  match l with
  | [] => Done st
  | c :: l' => d <~ f st c; withs (add_table st d) l'
  end.
End Withs.

(** Subqueries see their own FROM clause only; the columns of a subquery in FROM cannot be referred to. *)
Fixpoint run (st : store) (en : env) (e : expr) : reply value :=
  match e with
  | ELiteral l => Done (eval_literal w l)
  | EName q => of_answer (lookup up en q)
  | ETuple es => vs <~ each (run st en) es; Done (VRow vs)
  | EUnary op e => v <~ run st en e; of_answer (eval_unary w op v)
  | EBinary op l r => a <~ run st en l; b <~ run st en r; of_answer (eval_binary w op a b)
  | ECompare op l r => a <~ run st en l; b <~ run st en r; of_answer (eval_compare w op a b)
  | EBetween e lo hi => v <~ run st en e; a <~ run st en lo; b <~ run st en hi; of_answer (eval_between w v a b)
  | EIn e s => v <~ run st en e; l <~ run_spec st en s; of_answer (judged (is_in v l))
  | ECase None whens els =>
      run_when (run st en) as_truth whens (match els with None => Done VNull | Some e => run st en e end)
  | ECase (Some e) whens els =>
      v <~ run st en e;
      run_when (run st en) (equal3 w v) whens (match els with None => Done VNull | Some e => run st en e end)
  | ESelect s =>
      t <~ run_select st s;
      l <~ column t;
      match l with
      | [] => Done VNull
      | [v] => Done v
      | _ => Failed
      end
  end
with run_spec (st : store) (en : env) (s : set_spec) : reply (list value) :=
  match s with
  | SpSelect s => t <~ run_select st s; column t
  | SpList es => each (run st en) es
  | SpName q =>
      match st q with
      | None => IllTyped
      | Some (names, rows) => column {| t_names := map Some names; t_width := length names; t_rows := rows |}
      end
  end
with run_select (st : store) (s : select) : reply table :=
  match s with
  | Select common e order lim =>
      st <~ withs run_cte st common;
      t <~ run_set st e;
      let rows := ordered order (t_rows t) in
      match lim with
      | None => Done {| t_names := t_names t; t_width := t_width t; t_rows := rows |}
      | Some (limit, offset) =>
          n <~ run st [] limit;
          n <~ amount n;
          k <~ match offset with
               | None => Done None
               | Some o => k <~ run st [] o; amount k
               end;
          Done {| t_names := t_names t; t_width := t_width t; t_rows := up_to n (from_row k rows) |}
      end
  end
with run_cte (st : store) (c : cte) : reply (name * (list name * list row)) :=
  match c with
  | Cte id columns q =>
      t <~ run_select st q;
      names <~ with_names columns t;
      Done (id, (names, t_rows t))
  end
with run_set (st : store) (e : set_expr) : reply table :=
  match e with
  | SValues rows =>
      if match rows with [] => true | r :: rows' => forallb (fun r' => length r' =? length r) rows' end
      then rs <~ each (each (run st [])) rows; Done {| t_names := map (fun _ => None) (hd [] rows); t_width := length (hd [] rows); t_rows := rs |}
      else Unchecked
  | SQuery mode columns from wh group =>
      srcs <~ each (run_table st) from;
      let src := crossed_all srcs in
      kept <~ match wh with
              | None => Done (f_rows src)
              | Some e => keep (fun f => v <~ run st (fst f) e; condition v) (f_rows src)
              end;
      chosen <~ match group with
                | None => Done kept
                | Some (gs, having) =>
                    keyed <~ each (fun f => k <~ each (run st (fst f)) gs; Done (k, f)) kept;
                    match having with
                    | None => Done (firsts same_row [] keyed)
                    | Some e => keep (fun f => v <~ run st (fst f) e; condition v) (firsts same_row [] keyed)
                    end
                end;
      k <~ columns_width (f_pad src) columns;
      rows <~ each (fun f => run_columns st f columns) chosen;
      Done {| t_names := columns_names src columns; t_width := k;
              t_rows := match mode with MAll => rows | MDistinct => distinct_rows rows end |}
  | SOp op l r =>
      a <~ run_set st l;
      b <~ run_set st r;
      if t_width a =? t_width b
      then Done {| t_names := t_names a; t_width := t_width a; t_rows := combine_rows op (t_rows a) (t_rows b) |}
      else Unchecked
  end
with run_table (st : store) (t : table_expr) : reply source :=
  match t with
  | TNamed q alias =>
      match st q with
      | None => IllTyped
      | Some (names, rows) => Done (named_source (match alias with Some a => a | None => last q [] end) names rows)
      end
  | TSelect s _ =>
      t <~ run_select st s;
      Done {| f_names := t_names t; f_pad := ([], repeat VNull (t_width t)); f_rows := map (fun r => ([], r)) (t_rows t) |}
  | TJoin l r op c =>
      a <~ run_table st l;
      b <~ run_table st r;
      match op, c with
      | JJoin t, JExpr e => joined t (fun f => unchecked (v <~ run st (fst f) e; condition v)) a b
      | JCross, JExpr e => joined JInner (fun f => unchecked (v <~ run st (fst f) e; condition v)) a b
      | JJoin t, JColumns l => joined_using t l (fun _ => Done true) a b
      | JNatural t, JExpr e => joined_using t (shared a b) (fun f => unchecked (v <~ run st (fst f) e; condition v)) a b
      | _, JColumns _ => Unchecked
      end
  end
with run_columns (st : store) (f : frame) (c : result_columns) : reply row :=
  match c with
  | RAll => Done (snd f)
  | RList l => vs <~ each (run_column st f) l; Done (concat vs)
  end
with run_column (st : store) (f : frame) (c : result_column) : reply row :=
  match c with
  | RAllFrom n => star (fst f) n
  | RExpr e _ => v <~ run st (fst f) e; Done [v]
  end.

End Run.

(** ** The queries of the theorems

    [strict]: the nullability of the columns is to hold as well. [loose]: places the typing code leaves unchecked may
    occur. [hidden]: the tables of the WITH clauses around; none of them may be used. [star]: the columns of the FROM
    clause are asked for by [*]. *)

Definition given {A : Type} (f : A -> bool) (o : option A) : bool := match o with None => true | Some a => f a end.

Section Covered.
Context (up : Z -> list Z).

Definition is_hidden (hidden : list name) (q : list name) : bool :=
  match q with
  | [n] => existsb (name_eqb up n) hidden
  | _ => false
  end.

Section CoveredWiths.
Context (f : list name -> cte -> bool).
Fixpoint covered_withs (hidden : list name) (l : list cte) : bool :=
  match l with
  | [] => true
  | c :: l' => f hidden c && covered_withs (cte_id c :: hidden) l'
  end.
End CoveredWiths.

(** What is hidden behind a WITH clause. *)
Definition behind (hidden : list name) (l : list cte) : list name := rev (map cte_id l) ++ hidden.

Fixpoint covered (hidden : list name) (strict loose : bool) (e : expr) : bool :=
  match e with
  | ELiteral _ | EName _ => true
  | ETuple es => negb strict && forallb (covered hidden strict loose) es
  | EUnary UIsNull _ => false
  | EUnary _ e => covered hidden strict loose e
  | EBinary _ l r | ECompare _ l r => covered hidden strict loose l && covered hidden strict loose r
  | EBetween e lo hi => covered hidden strict loose e && covered hidden strict loose lo && covered hidden strict loose hi
  | EIn e s => negb strict && covered hidden strict loose e && covered_spec hidden loose s
  | ECase o whens els =>
      loose && given (covered hidden false loose) o && forallb (fun w => covered hidden strict loose (snd w)) whens &&
      given (covered hidden strict loose) els
  | ESelect s => negb strict && covered_select hidden strict loose s
  end
with covered_spec (hidden : list name) (loose : bool) (s : set_spec) : bool :=
  match s with
  | SpSelect s => covered_select hidden false loose s
  | SpList es => forallb (covered hidden false loose) es
  | SpName q => negb (is_hidden hidden q)
  end
with covered_select (hidden : list name) (strict loose : bool) (s : select) : bool :=
  match s with
  | Select common e _ lim =>
      let inner := behind hidden common in
      (loose || match common with [] => true | _ => false end) && covered_withs (fun hidden c => covered_cte hidden loose c) hidden common &&
      covered_set inner strict loose e &&
      given (fun l => covered inner false loose (fst l) && given (covered inner false loose) (snd l)) lim
  end
with covered_cte (hidden : list name) (loose : bool) (c : cte) : bool :=
  match c with
  | Cte _ _ q => covered_select hidden false loose q
  end
with covered_set (hidden : list name) (strict loose : bool) (e : set_expr) : bool :=
  match e with
  | SValues rows =>
      forallb (forallb (covered hidden strict loose)) rows &&
      (loose || match rows with [] => true | r :: rows' => forallb (fun r' => length r' =? length r) rows' end)
  | SQuery _ columns from wh group =>
      covered_columns hidden strict loose columns && forallb (covered_table hidden (match columns with RAll => true | RList _ => false end) strict loose) from &&
      given (covered hidden false loose) wh &&
      given (fun g => forallb (covered hidden false loose) (fst g) && given (covered hidden false loose) (snd g)) group
  | SOp _ l r => loose && covered_set hidden strict loose l && covered_set hidden strict loose r
  end
with covered_table (hidden : list name) (star strict loose : bool) (t : table_expr) : bool :=
  match t with
  | TNamed q _ => negb (is_hidden hidden q)
  | TSelect s _ => covered_select hidden strict loose s
  | TJoin l r op c =>
      loose && covered_table hidden star strict loose l && covered_table hidden star strict loose r &&
      match op with JJoin JInner | JNatural JInner | JCross => true | _ => negb strict end &&
      match op, c with JNatural _, _ | _, JColumns _ => negb star | _, _ => true end
  end
with covered_columns (hidden : list name) (strict loose : bool) (c : result_columns) : bool :=
  match c with
  | RAll => true
  | RList l => forallb (covered_column hidden strict loose) l
  end
with covered_column (hidden : list name) (strict loose : bool) (c : result_column) : bool :=
  match c with
  | RAllFrom _ => false
  | RExpr e _ => covered hidden strict loose e
  end.

End Covered.

(** ** Data that conform to the columns *)

(** A value of a column. *)
Definition cell (v : value) (a : attribute) : Prop := of_type v (a_type a) /\ (a_null a = false -> v <> VNull).

(** Every table of the catalog is stored with its columns. *)
Definition data_of (tables : list name -> list attribute -> Prop) (stored : store) : Prop :=
  forall q attrs, tables q attrs ->
    exists rows, stored q = Some (map a_name attrs, rows) /\ Forall (fun r => Forall2 cell r attrs) rows.

(** The columns of every table have different names. *)
Definition columns_differ (up : Z -> list Z) (tables : list name -> list attribute -> Prop) : Prop :=
  forall q attrs, tables q attrs -> distinct up (map a_name attrs).
