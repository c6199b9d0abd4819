(** * Property C92 *)

From Coq Require Import Strings.String Sorting.Permutation.
From Verif Require Import Base SqlNameModel SqlNameProofs SqlModel SqlExamples StorageModel CatalogModel CatalogSpec CatalogProofs.
Local Open Scope list_scope.
Local Open Scope string_scope.

(** A catalog that a format can write is read back unchanged. *)
Theorem catalog_read_back : forall up fmt c t, ordered up c -> write fmt (catalog_data c) = Some t -> read_catalog up t = Some c.
Proof. intros up fmt c t. exact (catalog_back fmt up c t). Qed.
Print Assumptions catalog_read_back.

(** It can be written unless the format takes only strings as keys and there is a schema: a name is a struct. *)
Theorem catalog_written : forall fmt c, write fmt (catalog_data c) = None <-> string_keys fmt = true /\ c <> [].
Proof. exact catalog_none. Qed.
Print Assumptions catalog_written.

(** Whatever document is read, the result is in order, so that it can be stored again. *)
Theorem catalog_read_again : forall up t c, read_catalog up t = Some c ->
  ordered up c /\ forall fmt t', write fmt (catalog_data c) = Some t' -> read_catalog up t' = Some c.
Proof.
  intros up t c H. pose proof (read_catalog_ordered up t c H) as K. split; [exact K|]. intros fmt t'. exact (catalog_back fmt up c t' K).
Qed.
Print Assumptions catalog_read_again.

(** Of the entries of a document whose names differ in case only, the last counts. *)
Theorem catalog_entries : forall up entries c, read_catalog up (InMap [(InStr (lit "schemata"), InMap entries)]) = Some c ->
  exists l, reads_entries (read_schema up) entries l /\ forall n, nget up c n = last_entry up l n.
Proof. exact read_catalog_lookup. Qed.
Print Assumptions catalog_entries.

(** A struct in a document is read exactly if each of its fields is given once; other members are ignored. *)
Theorem struct_members : forall names l values, NoDup names -> (struct_fields names (InMap l) = Some values <-> complete names l values).
Proof. exact struct_complete. Qed.
Print Assumptions struct_members.

(** So the members can be given in any order, *)
Theorem catalog_members_in_any_order : forall up l l', Permutation l l' ->
  read_catalog up (InMap l) = read_catalog up (InMap l') /\ read_schema up (InMap l) = read_schema up (InMap l') /\
  read_table (InMap l) = read_table (InMap l') /\ read_view (InMap l) = read_view (InMap l') /\
  read_rows (InMap l) = read_rows (InMap l') /\ read_column (InMap l) = read_column (InMap l') /\
  read_name (InMap l) = read_name (InMap l') /\ read_params (InMap l) = read_params (InMap l').
Proof.
  intros up l l' H. unfold read_catalog, read_schema, read_table, read_view, read_rows, read_column, read_name, read_params.
  repeat split; rewrite (struct_permuted _ _ _ H); reflexivity.
Qed.
Print Assumptions catalog_members_in_any_order.

(** with the entries of a map kept in order. Parameters of a volume are read back when they fit their types, and always fit. *)
Theorem params_read_back : forall fmt p, in_range p -> exists t, write fmt (params_data p) = Some t /\ read_params t = Some p.
Proof.
  intros fmt p H. destruct (write fmt (params_data p)) as [t|] eqn:E; [|exfalso; exact (params_some fmt p E)].
  exists t. split; [reflexivity|]. exact (params_back fmt p t H E).
Qed.
Print Assumptions params_read_back.

Theorem params_read_fit : forall t p, read_params t = Some p -> in_range p.
Proof. exact read_params_range. Qed.
Print Assumptions params_read_fit.

Definition ca_rows : row_set := sx_columns [sx_col "id" DNumeric false; sx_col "at" DTimestamp true].
Definition ca_schema (n : string) : cschema :=
  {| k_name := lit n;
     k_objects := [(lit "t", Table {| t_name := lit "t"; t_rows := ca_rows; t_key := [lit "id"] |});
                   (lit "v", View {| v_name := lit "v"; v_rows := ca_rows; v_query := lit "SELECT * FROM t" |})] |}.
Definition ca_catalog : catalog := [(lit "Main", ca_schema "Main"); (lit "other", {| k_name := lit "other"; k_objects := [] |})].

Definition binary : format := {| by_name := false; string_keys := false |}.
Definition readable : format := {| by_name := true; string_keys := false |}.
Definition json : format := {| by_name := true; string_keys := true |}.

Example catalog_read_back_ex :
  ordered sx_up ca_catalog /\
  chain (write binary (catalog_data ca_catalog)) (read_catalog sx_up) = Some ca_catalog /\
  chain (write readable (catalog_data ca_catalog)) (read_catalog sx_up) = Some ca_catalog /\
  write json (catalog_data ca_catalog) = None /\ write json (catalog_data []) <> None /\
  write binary (catalog_data ca_catalog) <> write readable (catalog_data ca_catalog).
Proof.
  split; [split; repeat constructor|]. split; [vm_compute; reflexivity|]. split; [vm_compute; reflexivity|].
  split; [vm_compute; reflexivity|]. split; [vm_compute; discriminate|]. vm_compute. discriminate.
Qed.

(** [MAIN] and [main] in one document: the first spelling, the last contents. *)
Definition ca_entry (n m : string) : input * input :=
  (InSeq [InStr (lit n)], InMap [(InStr (lit "objects"), InMap []); (InStr (lit "owner"), InBool true); (InStr (lit "name"), InSeq [InStr (lit m)])]).

Example catalog_entries_ex :
  read_catalog sx_up (InMap [(InStr (lit "schemata"), InMap [ca_entry "MAIN" "a"; ca_entry "b" "b"; ca_entry "main" "c"])]) =
    Some [(lit "b", {| k_name := lit "b"; k_objects := [] |}); (lit "MAIN", {| k_name := lit "c"; k_objects := [] |})] /\
  complete schema_fields [(InStr (lit "objects"), InBool true); (InStr (lit "owner"), InBool true); (InNum 0, InBool false)]
    [InBool false; InBool true] /\
  read_schema sx_up (InMap [(InStr (lit "objects"), InMap [])]) = None /\
  read_schema sx_up (InMap [(InStr (lit "objects"), InMap []); (InStr (lit "name"), InSeq [InStr (lit "a")]); (InNum 0, InSeq [InStr (lit "a")])]) = None.
Proof.
  split; [vm_compute; reflexivity|]. split; [|split; vm_compute; reflexivity].
  apply struct_members; [|vm_compute; reflexivity]. repeat constructor; cbn; intuition discriminate.
Qed.

Example params_read_back_ex :
  in_range {| volume_size := 65536; log_block_size := 12; log_file_header_size := 10 |} /\
  read_params (InSeq [InNum 65536; InNum 65536; InNum 10]) = None.
Proof. split; [vm_compute; intuition congruence|vm_compute; reflexivity]. Qed.

(** What is read is not checked further: a schema can be filed under the name of another. *)
Theorem catalog_filed_refuted : exists up t c, read_catalog up t = Some c /\ ~ filed up c.
Proof.
  exists sx_up, (InMap [(InStr (lit "schemata"), InMap [ca_entry "a" "b"])]). eexists. split; [vm_compute; reflexivity|].
  intros H. inversion H as [|? ? [K _] _]; subst. vm_compute in K. discriminate.
Qed.
Print Assumptions catalog_filed_refuted.
