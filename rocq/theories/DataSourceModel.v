(** * Model of core/data_source.rs with its ordered map

    [JsonModel.ds] lists the insertions; here the map is the one of the code, ordered by [Path::cmp]. *)

From Verif Require Import Base StrModel Utf8Model TypesModel MarshalModel JsonModel DataSourceSpec.

(** src/core/data_source.rs:66-68 [IntermediateDataSource]. A [BTreeMap] is represented by its entries from left to
    right: the shape of the tree does not show. *)
Definition tmap : Type := list (path * jvalue).

(** [BTreeMap::get]: keys are compared with [Path::cmp] (src/core/types/mod.rs:261-274); the search stops at an equal key and
    gives up between two keys. *)
Fixpoint tm_get (m : tmap) (q : path) : option jvalue :=
  match m with
  | [] => None
  | (k, v) :: m' =>
      match path_cmp q k with
      | Lt => None
      | Eq => Some v
      | Gt => tm_get m' q
      end
  end.

(** [BTreeMap::insert]: the value of an equal key is replaced. *)
Fixpoint tm_insert (m : tmap) (q : path) (v : jvalue) : tmap :=
  match m with
  | [] => [(q, v)]
  | (k, w) :: m' =>
      match path_cmp q k with
      | Lt => (q, v) :: m
      | Eq => (k, v) :: m'
      | Gt => (k, w) :: tm_insert m' q v
      end
  end.

(** src/core/data_source.rs:120-124 [new]. *)
Definition td_new : tmap := [].

(** src/core/data_source.rs:126-128 [clear]. *)
Definition td_clear (m : tmap) : tmap := [].

(** src/core/data_source.rs:130-133 [add_primitive]. *)
Definition td_add_primitive (m : tmap) (q : path) (p : prim) (z : Z) : tmap := tm_insert m q (JPrim p z).

(** src/core/data_source.rs:135-138 [add_string]. *)
Definition td_add_string (m : tmap) (q : path) (s : str) : tmap := tm_insert m q (JString s).

(** src/core/data_source.rs:140-142 [add_case_tag]. *)
Definition td_add_case_tag (m : tmap) (q : path) (n : nat) : tmap := tm_insert m q (JTag n).

(** src/core/data_source.rs:70-117 [impl DataSource for IntermediateDataSource]. *)
Definition td_source (m : tmap) : source := {|
  src_prim p q :=
    match tm_get m q with
    | Some (JPrim p' z) => if JsonModel.prim_eqb p' p then Ret z else Panic
    | _ => Panic
    end;
  src_tag q := match tm_get m q with Some (JTag n) => Ret n | _ => Panic end;
  src_len q := match tm_get m q with Some (JString s) => Ret (List.length (utf8_encode s)) | _ => Panic end;
  src_bytes q := match tm_get m q with Some (JString s) => Ret (utf8_encode s) | _ => Panic end
|}.

(** The calls that fill a data source, in the words of [DataSourceSpec]. *)
Definition td_op (m : tmap) (op : ds_op) : tmap :=
  match op with
  | DPrimitive q p z => td_add_primitive m q p z
  | DString q s => td_add_string m q s
  | DCaseTag q n => td_add_case_tag m q n
  | DClear => td_clear m
  end.

Definition td_run (h : list ds_op) : tmap := fold_left td_op h td_new.

(** The same calls on the list of insertions of [JsonModel]. *)
Definition ds_op_list (d : ds) (op : ds_op) : ds :=
  match op with
  | DPrimitive q p z => ds_add d q (JPrim p z)
  | DString q s => ds_add d q (JString s)
  | DCaseTag q n => ds_add d q (JTag n)
  | DClear => []
  end.

Definition ds_run (h : list ds_op) : ds := fold_left ds_op_list h [].
