(** * A reference execution of INSERT, UPDATE and DELETE (specification) *)

From Verif Require Import Base SqlNameModel SqlModel SqlSpec SqlRun.
Local Open Scope nat_scope.

Section Exec.
Context (up : Z -> list Z) (w : world) (count : list Z -> nat) (same_row : row -> row -> bool)
  (arrange : list (expr * option name * direction) -> list row -> list nat) (stored : store).
Notation same := (name_eqb up).
Notation run := (run up w count same_row arrange stored).

(** The value assigned to a column. *)
Definition assigned (pairs : list (name * value)) (n : name) : option value :=
  match find (fun p => same n (fst p)) pairs with
  | Some p => Some (snd p)
  | None => None
  end.

(** A new row: columns without a value are NULL. *)
Definition new_row (names targets : list name) (r : row) : row :=
  map (fun n => match assigned (combine targets r) n with Some v => v | None => VNull end) names.

(** A changed row: columns without an assignment keep their value. *)
Definition changed_row (names : list name) (pairs : list (name * value)) (r : row) : row :=
  map (fun c => match assigned pairs (fst c) with Some v => v | None => snd c end) (combine names r).

(** Whether a WHERE clause selects the row [r] of the table [q]. *)
Definition selected (q names : list name) (wh : option expr) (r : row) : reply bool :=
  match wh with
  | None => Done true
  | Some e => v <~ run [(last q [], combine names r)] e; condition v
  end.

(** The table a statement changes. *)
Definition target (s : statement) : option (list name) :=
  match s with
  | StSelect _ => None
  | StInsert i => Some (i_table i)
  | StUpdate u => Some (u_table u)
  | StDelete d => Some (d_table d)
  end.

(** The rows of that table afterwards. Without a column list the values of an INSERT are for the columns in order. *)
Definition change (s : statement) : reply (list row) :=
  match target s with
  | None => Excluded
  | Some q =>
      match stored q with
      | None => IllTyped
      | Some (names, rows) =>
          match s with
          | StSelect _ => Excluded
          | StInsert i =>
              t <~ run_set up w count same_row arrange stored (i_source i);
              let targets := match i_columns i with Some l => l | None => names end in
              if length targets =? t_width t then Done (rows ++ map (new_row names targets) (t_rows t)) else IllTyped
          | StUpdate u =>
              each (fun r =>
                      b <~ selected q names (u_where u) r;
                      if b : bool then
                        pairs <~ each (fun a => v <~ run [(last q [], combine names r)] (snd a); Done (map (fun n => (n, v)) (fst a)))
                                      (u_assignments u);
                        Done (changed_row names (concat pairs) r)
                      else Done r) rows
          | StDelete d => keep (fun r => b <~ selected q names (d_where d) r; Done (negb b)) rows
          end
      end
  end.

End Exec.

(** The statements of the theorems: an INSERT names its columns. *)
Definition covered_statement (up : Z -> list Z) (s : statement) : bool :=
  match s with
  | StSelect _ => false
  | StInsert i => match i_columns i with Some _ => covered_set up [] true true (i_source i) | None => false end
  | StUpdate u => forallb (fun a => covered up [] true true (snd a)) (u_assignments u) && given (covered up [] false true) (u_where u)
  | StDelete d => given (covered up [] false true) (d_where d)
  end.

(** ** Sequences of statements *)

Section History.
Context (up : Z -> list Z) (dflt : name) (w : world) (count : list Z -> nat) (same_row : row -> row -> bool)
  (arrange : list (expr * option name * direction) -> list row -> list nat).
Notation same := (name_eqb up).

(** Schema and table of a table name. *)
Definition place (q : list name) : option (name * name) :=
  match q with
  | [n] => Some (dflt, n)
  | [s; n] => Some (s, n)
  | _ => None
  end.

Definition same_table (q q' : list name) : bool :=
  match place q, place q' with
  | Some (s, n), Some (s', n') => same s s' && same n n'
  | _, _ => false
  end.

(** The data after a statement: one that fails leaves them as they are. *)
Definition after (stored : list name -> option (list name * list row)) (s : statement)
  : list name -> option (list name * list row) :=
  match target s, change up w count same_row arrange stored s with
  | Some q, Done rows =>
      fun q' => if same_table q q'
                then match stored q with Some (names, _) => Some (names, rows) | None => None end
                else stored q'
  | _, _ => stored
  end.

Definition history (stored : list name -> option (list name * list row)) (l : list statement)
  : list name -> option (list name * list row) := fold_left after l stored.

End History.
