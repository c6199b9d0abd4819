(** * Writing and reading the catalog with serde

    The derived [Serialize] and [Deserialize] of the catalog and of the parameters of a volume, over the data model of
    serde. A serializer is called with [data]; a deserializer shows an [input] to the derived visitors. Identifiers given as
    bytes are not modelled, and of a sequence longer than a struct the visitor leaves the rest. *)

From Coq Require Import Strings.String.
From Verif Require Import Base StrModel SqlNameModel SqlModel StorageModel.
Local Open Scope list_scope.
Local Open Scope string_scope.
Local Open Scope nat_scope.

(** ** The data model *)

(** The calls to a [Serializer]. *)
Inductive data : Type :=
| DtBool (b : bool)
| DtNum (n : Z)
| DtStr (s : str)
| DtSeq (l : list data)
| DtMap (l : list (data * data))
| DtStruct (fields : list (str * data))
| DtUnit (index : nat) (variant : str)
| DtNewtype (index : nat) (variant : str) (d : data).

(** What a [Deserializer] shows: an enum is an identifier of the variant and its content. *)
Inductive input : Type :=
| InBool (b : bool)
| InNum (n : Z)
| InStr (s : str)
| InSeq (l : list input)
| InMap (l : list (input * input))
| InEnum (variant : input) (content : option input).

(** Formats write fields and variants with their names or only in order; some take only strings as keys of maps. *)
Record format : Type := { by_name : bool; string_keys : bool }.

Definition all {A B : Type} (f : A -> option B) : list A -> option (list B) :=
  fix all l :=
    match l with
    | [] => Some []
    | a :: l' => match f a, all l' with Some b, Some r => Some (b :: r) | _, _ => None end
    end.

Definition both {A B : Type} (a : option A) (b : option B) : option (A * B) :=
  match a, b with Some x, Some y => Some (x, y) | _, _ => None end.

Definition identifier (fmt : format) (index : nat) (s : str) : input :=
  if by_name fmt then InStr s else InNum (Z.of_nat index).

Definition key_allowed (fmt : format) (k : input) : option input :=
  match string_keys fmt, k with
  | false, _ | true, InStr _ => Some k
  | true, _ => None
  end.

Fixpoint write (fmt : format) (d : data) : option input :=
  match d with
  | DtBool b => Some (InBool b)
  | DtNum n => Some (InNum n)
  | DtStr s => Some (InStr s)
  | DtSeq l => option_map InSeq (all (write fmt) l)
  | DtMap l =>
      option_map InMap
        (all (fun e => both (match write fmt (fst e) with None => None | Some k => key_allowed fmt k end) (write fmt (snd e))) l)
  | DtStruct fields =>
      if by_name fmt then option_map InMap (all (fun f => both (Some (InStr (fst f))) (write fmt (snd f))) fields)
      else option_map InSeq (all (fun f => write fmt (snd f)) fields)
  | DtUnit index variant => Some (InEnum (identifier fmt index variant) None)
  | DtNewtype index variant d => option_map (fun t => InEnum (identifier fmt index variant) (Some t)) (write fmt d)
  end.

(** ** The derived visitors *)

Definition chain {A B : Type} (a : option A) (f : A -> option B) : option B := match a with None => None | Some x => f x end.
Notation "x <-! a ;; b" := (chain a (fun x => b)) (at level 61, a at next level, right associativity).

Fixpoint position_of (names : list str) (s : str) : option nat :=
  match names with
  | [] => None
  | n :: names' => if str_eqb n s then Some 0 else option_map S (position_of names' s)
  end.

(** The identifier of a field: unknown ones are ignored, others than strings and numbers refused. *)
Definition field_index (names : list str) (k : input) : option (option nat) :=
  match k with
  | InStr s => Some (position_of names s)
  | InNum n => if (n <? 0)%Z then None
               else Some (if (n <? Z.of_nat (List.length names))%Z then Some (Z.to_nat n) else None)
  | _ => None
  end.

(** The identifier of a variant: unknown ones are refused. *)
Definition variant_index (names : list str) (k : input) : option nat :=
  match field_index names k with Some (Some i) => Some i | _ => None end.

Fixpoint put_slot (slots : list (option input)) (i : nat) (v : input) : option (list (option input)) :=
  match slots, i with
  | [], _ => None
  | None :: slots', 0 => Some (Some v :: slots')
  | Some _ :: _, 0 => None
  | s :: slots', S i' => option_map (cons s) (put_slot slots' i' v)
  end.

(** One member in [visit_map]: a field seen before is refused. *)
Definition take_member (names : list str) (slots : option (list (option input))) (e : input * input) : option (list (option input)) :=
  s <-! slots ;;
  i <-! field_index names (fst e) ;;
  match i with
  | None => Some s
  | Some i => put_slot s i (snd e)
  end.

(** [visit_seq] and [visit_map] of a struct: its fields in the order of the declaration, all present. *)
Definition struct_fields (names : list str) (t : input) : option (list input) :=
  match t with
  | InSeq l => if List.length l <? List.length names then None else Some (firstn (List.length names) l)
  | InMap l =>
      slots <-! fold_left (take_member names) l (Some (repeat None (List.length names))) ;;
      all (fun s => s) slots
  | _ => None
  end.

Definition read_bool (t : input) : option bool := match t with InBool b => Some b | _ => None end.
Definition read_string (t : input) : option str := match t with InStr s => Some s | _ => None end.
Definition read_seq {A : Type} (f : input -> option A) (t : input) : option (list A) :=
  match t with InSeq l => all f l | _ => None end.
(** Unsigned integers of [bits] bits. *)
Definition read_uint (bits : Z) (t : input) : option Z :=
  match t with
  | InNum n => if ((0 <=? n) && (n <? 2 ^ bits))%Z%bool then Some n else None
  | _ => None
  end.

(** ** The catalog *)

(** src/sql/schema.rs:135-145 [Table]. *)
Record table : Type := { t_name : name; t_rows : row_set; t_key : list name }.
(** src/sql/schema.rs:148-158 [View]. *)
Record view : Type := { v_name : name; v_rows : row_set; v_query : str }.
(** src/sql/schema.rs:116-123 [SchemaObject]. *)
Inductive object : Type := Table (t : table) | View (v : view).
(** src/sql/schema.rs:97-104 [Schema]. *)
Record cschema : Type := { k_name : name; k_objects : nmap object }.
(** src/sql/schema.rs:30-33 [Database]. *)
Definition catalog : Type := nmap cschema.

(** src/sql/symbols.rs:26-29 *)
Definition name_fields : list str := [lit "string"].
Definition name_data (n : name) : data := DtStruct (combine name_fields [DtStr n]).
Definition read_name (t : input) : option name :=
  f <-! struct_fields name_fields t ;; match f with [s] => read_string s | _ => None end.

(** src/sql/types.rs:26-51 *)
Definition type_variants : list str :=
  [lit "Generic"; lit "Varchar"; lit "Numeric"; lit "Logical"; lit "Date"; lit "Time"; lit "Timestamp"; lit "Geometry"].
Definition types_in_order : list data_type := [DGeneric; DVarchar; DNumeric; DLogical; DDate; DTime; DTimestamp; DGeometry].
Definition type_index (t : data_type) : nat :=
  match t with
  | DGeneric => 0 | DVarchar => 1 | DNumeric => 2 | DLogical => 3 | DDate => 4 | DTime => 5 | DTimestamp => 6 | DGeometry => 7
  end.
Definition type_data (t : data_type) : data := DtUnit (type_index t) (nth (type_index t) type_variants []).
Definition read_type (t : input) : option data_type :=
  match t with
  | InEnum v None => i <-! variant_index type_variants v ;; nth_error types_in_order i
  | _ => None
  end.

(** src/sql/schema.rs:205-218 *)
Definition column_fields : list str := [lit "name"; lit "not_null"; lit "primary_key"; lit "data_type"].
Definition column_data (c : column) : data :=
  DtStruct (combine column_fields [name_data (c_name c); DtBool (c_not_null c); DtBool (c_primary c); type_data (c_type c)]).
Definition read_column (t : input) : option column :=
  f <-! struct_fields column_fields t ;;
  match f with
  | [n; nn; p; ty] =>
      n' <-! read_name n ;; nn' <-! read_bool nn ;; p' <-! read_bool p ;; ty' <-! read_type ty ;;
      Some {| c_name := n'; c_not_null := nn'; c_primary := p'; c_type := ty' |}
  | _ => None
  end.

(** src/sql/schema.rs:161-165 *)
Definition rows_fields : list str := [lit "columns"].
Definition rows_data (r : row_set) : data := DtStruct (combine rows_fields [DtSeq (map column_data r)]).
Definition read_rows (t : input) : option row_set :=
  f <-! struct_fields rows_fields t ;; match f with [l] => read_seq read_column l | _ => None end.

(** src/sql/schema.rs:135-145 *)
Definition table_fields : list str := [lit "name"; lit "rows"; lit "primary_key"].
Definition table_data (t : table) : data :=
  DtStruct (combine table_fields [name_data (t_name t); rows_data (t_rows t); DtSeq (map name_data (t_key t))]).
Definition read_table (t : input) : option table :=
  f <-! struct_fields table_fields t ;;
  match f with
  | [n; r; k] =>
      n' <-! read_name n ;; r' <-! read_rows r ;; k' <-! read_seq read_name k ;; Some {| t_name := n'; t_rows := r'; t_key := k' |}
  | _ => None
  end.

(** src/sql/schema.rs:148-158 *)
Definition view_fields : list str := [lit "name"; lit "rows"; lit "query"].
Definition view_data (v : view) : data :=
  DtStruct (combine view_fields [name_data (v_name v); rows_data (v_rows v); DtStr (v_query v)]).
Definition read_view (t : input) : option view :=
  f <-! struct_fields view_fields t ;;
  match f with
  | [n; r; q] =>
      n' <-! read_name n ;; r' <-! read_rows r ;; q' <-! read_string q ;; Some {| v_name := n'; v_rows := r'; v_query := q' |}
  | _ => None
  end.

(** src/sql/schema.rs:116-123 *)
Definition object_variants : list str := [lit "Table"; lit "View"].
Definition object_data (o : object) : data :=
  match o with
  | Table t => DtNewtype 0 (lit "Table") (table_data t)
  | View v => DtNewtype 1 (lit "View") (view_data v)
  end.
Definition read_object (t : input) : option object :=
  match t with
  | InEnum v (Some c) =>
      i <-! variant_index object_variants v ;;
      match i with
      | 0 => option_map Table (read_table c)
      | _ => option_map View (read_view c)
      end
  | _ => None
  end.

Section Maps.
Variable up : Z -> list Z.

(** [BTreeMap]: the entries in order; read back one by one with [insert]. *)
Definition map_data {V : Type} (f : V -> data) (m : nmap V) : data := DtMap (map (fun e => (name_data (fst e), f (snd e))) m).
Definition read_map {V : Type} (f : input -> option V) (t : input) : option (nmap V) :=
  match t with
  | InMap l => option_map (ncollect up) (all (fun e => both (read_name (fst e)) (f (snd e))) l)
  | _ => None
  end.

(** src/sql/schema.rs:97-104 *)
Definition schema_fields : list str := [lit "name"; lit "objects"].
Definition schema_data (s : cschema) : data :=
  DtStruct (combine schema_fields [name_data (k_name s); map_data object_data (k_objects s)]).
Definition read_schema (t : input) : option cschema :=
  f <-! struct_fields schema_fields t ;;
  match f with
  | [n; o] => n' <-! read_name n ;; o' <-! read_map read_object o ;; Some {| k_name := n'; k_objects := o' |}
  | _ => None
  end.

(** src/sql/schema.rs:30-33 *)
Definition catalog_fields : list str := [lit "schemata"].
Definition catalog_data (c : catalog) : data := DtStruct (combine catalog_fields [map_data schema_data c]).
Definition read_catalog (t : input) : option catalog :=
  f <-! struct_fields catalog_fields t ;; match f with [m] => read_map read_schema m | _ => None end.
End Maps.

(** ** The parameters of a volume: src/storage/mod.rs:188-199 *)
Definition params_fields : list str := [lit "volume_size"; lit "log_block_size"; lit "log_file_header_size"].
Definition params_data (p : params) : data :=
  DtStruct (combine params_fields [DtNum (volume_size p); DtNum (log_block_size p); DtNum (log_file_header_size p)]).
Definition read_params (t : input) : option params :=
  f <-! struct_fields params_fields t ;;
  match f with
  | [v; b; h] =>
      v' <-! read_uint 64 v ;; b' <-! read_uint 16 b ;; h' <-! read_uint 16 h ;;
      Some {| volume_size := v'; log_block_size := b'; log_file_header_size := h' |}
  | _ => None
  end.
