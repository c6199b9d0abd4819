(** * SQL names, data types, the catalog and ordered maps keyed by names

    src/sql/symbols.rs, src/sql/types.rs, src/sql/schema.rs. *)

From Verif Require Import Base StrModel.
Local Open Scope Z_scope.

(** src/sql/symbols.rs:26-29 [Name]: the characters of the string. *)
Definition name : Type := list Z.

(** [Ord] of iterators over characters: lexicographic. *)
Fixpoint lex_compare (a b : list Z) : comparison :=
  match a, b with
  | [], [] => Eq
  | [], _ :: _ => Lt
  | _ :: _, [] => Gt
  | x :: a', y :: b' =>
      match x ?= y with
      | Eq => lex_compare a' b'
      | c => c
      end
  end.

Section Names.
(** [char::to_uppercase]: the table of the standard library, an arbitrary function here. *)
Context (up : Z -> list Z).

(** [self.string.chars().flat_map(|c| c.to_uppercase())] *)
Definition upper (n : name) : list Z := flat_map up n.

(** src/sql/symbols.rs:59-65 [impl PartialEq for Name] (and 69-75 for [str]). *)
Definition name_eqb (a b : name) : bool := str_eqb (upper a) (upper b).

(** src/sql/symbols.rs:85-91 [impl Ord for Name] (77-83 and 93-99 are the same as [partial_cmp]). *)
Definition name_cmp (a b : name) : comparison := lex_compare (upper a) (upper b).

(** [BTreeMap<Name, V>]: the entries in ascending order of their keys. *)
Definition nmap (V : Type) : Type := list (name * V).

(** [BTreeMap::get] *)
Fixpoint nget {V : Type} (m : nmap V) (k : name) : option V :=
  match m with
  | [] => None
  | (k', v) :: m' =>
      match name_cmp k k' with
      | Eq => Some v
      | Lt => None
      | Gt => nget m' k
      end
  end.

(** [BTreeMap::insert]: an equal key is kept and only its value replaced. *)
Fixpoint nput {V : Type} (m : nmap V) (k : name) (v : V) : nmap V :=
  match m with
  | [] => [(k, v)]
  | (k', v') :: m' =>
      match name_cmp k k' with
      | Eq => (k', v) :: m'
      | Lt => (k, v) :: m
      | Gt => (k', v') :: nput m' k v
      end
  end.

(** [BTreeMap::remove] *)
Fixpoint nremove {V : Type} (m : nmap V) (k : name) : nmap V :=
  match m with
  | [] => []
  | (k', v') :: m' =>
      match name_cmp k k' with
      | Eq => m'
      | Lt => m
      | Gt => (k', v') :: nremove m' k
      end
  end.

(** [Iterator::collect] into a [BTreeMap]: the entries inserted one after the other. *)
Definition ncollect {V : Type} (l : list (name * V)) : nmap V :=
  fold_left (fun m e => nput m (fst e) (snd e)) l [].

(** src/sql/types.rs:26-51 [DataType]. *)
Inductive data_type : Type :=
| DGeneric | DVarchar | DNumeric | DLogical | DDate | DTime | DTimestamp | DGeometry.

Definition dt_eqb (a b : data_type) : bool :=
  match a, b with
  | DGeneric, DGeneric | DVarchar, DVarchar | DNumeric, DNumeric | DLogical, DLogical
  | DDate, DDate | DTime, DTime | DTimestamp, DTimestamp | DGeometry, DGeometry => true
  | _, _ => false
  end.

(** src/sql/types.rs:69-79 [is_ordered]. *)
Definition is_ordered (t : data_type) : bool :=
  match t with
  | DVarchar | DNumeric | DDate | DTime | DTimestamp => true
  | _ => false
  end.

(** src/sql/schema.rs:205-218 [Column]. *)
Record column : Type := {
  c_name : name;
  c_not_null : bool;
  c_primary : bool;
  c_type : data_type
}.

(** src/sql/schema.rs:161-165 [RowSet]. *)
Definition row_set : Type := list column.

(** src/sql/schema.rs:116-159 [SchemaObject], [Table], [View]; the name stored again in the object is dropped. *)
Inductive schema_object : Type :=
| OTable (rows : row_set) (primary_key : list name)
| OView (rows : row_set) (query : list Z).

(** src/sql/schema.rs:126-131 [row_set]. *)
Definition object_rows (o : schema_object) : row_set :=
  match o with
  | OTable rows _ => rows
  | OView rows _ => rows
  end.

(** src/sql/schema.rs:97-104 [Schema]. *)
Record schema : Type := {
  s_name : name;
  s_objects : nmap schema_object
}.

(** src/sql/schema.rs:30-33 [Database]. *)
Definition database : Type := nmap schema.

(** src/sql/schema.rs:36-40 [Database::new]. *)
Definition database_new : database := [].

(** src/sql/schema.rs:107-112 [Schema::new]. *)
Definition schema_new (n : name) : schema := {| s_name := n; s_objects := [] |}.

(** src/sql/schema.rs:42-54 [create_schema]. *)
Definition create_schema (db : database) (n : name) : outcome (database * result unit unit) :=
  match nget db n with
  | Some _ => Ret (db, Err tt)
  | None => check (match nget db n with None => true | Some _ => false end) ;; Ret (nput db n (schema_new n), Ok tt)
  end.

(** src/sql/schema.rs:56-72 [create_table], [create_view]: [unimplemented!]. *)
Definition create_table (db : database) (s t : name) (columns : list column) : outcome (database * result unit unit) := Panic.
Definition create_view (db : database) (s t : name) (query : list Z) : outcome (database * result unit unit) := Panic.

(** src/sql/schema.rs:74-94 [describe]. *)
Definition describe (db : database) (s o : name) : result row_set unit :=
  match nget db s with
  | None => Err tt
  | Some sc => match nget (s_objects sc) o with None => Err tt | Some ob => Ok (object_rows ob) end
  end.

End Names.
