(** * Catalogs (specification) *)

From Verif Require Import Base SqlNameModel SqlNameProofs StorageModel CatalogModel.

(** Names in strictly increasing order, as in a [BTreeMap], at both levels. *)
Definition ordered (up : Z -> list Z) (c : catalog) : Prop :=
  sorted up c /\ Forall (fun e => sorted up (k_objects (snd e))) c.

(** The parameters of a volume fit their types. *)
Definition in_range (p : params) : Prop :=
  (0 <= volume_size p < 2 ^ 64 /\ 0 <= log_block_size p < 2 ^ 16 /\ 0 <= log_file_header_size p < 2 ^ 16)%Z.

(** The entries of a map in a document, with names and values read. *)
Definition reads_entries {V : Type} (read : input -> option V) (entries : list (input * input)) (l : list (name * V)) : Prop :=
  Forall2 (fun e p => read_name (fst e) = Some (fst p) /\ read (snd e) = Some (snd p)) entries l.

(** The schema is filed under its own name, the objects under theirs. *)
Definition object_name (o : object) : name := match o with Table t => t_name t | View v => v_name v end.
Definition filed (up : Z -> list Z) (c : catalog) : Prop :=
  Forall (fun e => name_eqb up (fst e) (k_name (snd e)) = true /\
                   Forall (fun o => name_eqb up (fst o) (object_name (snd o)) = true) (k_objects (snd e))) c.

(** Members of a struct in a document: the key is a string, or the number of a field. *)
Definition is_label (k : input) : bool :=
  match k with
  | InStr _ => true
  | InNum n => (0 <=? n)%Z
  | _ => false
  end.
Definition names_field (names : list (list Z)) (i : nat) (k : input) : bool :=
  match k with
  | InStr s => match nth_error names i with Some n => if list_eq_dec Z.eq_dec n s then true else false | None => false end
  | InNum n => (n =? Z.of_nat i)%Z
  | _ => false
  end.
(** Every key is a label, and each field is given exactly once. *)
Definition complete (names : list (list Z)) (l : list (input * input)) (values : list input) : Prop :=
  List.length values = List.length names /\ Forall (fun e => is_label (fst e) = true) l /\
  forall i v, nth_error values i = Some v -> map snd (filter (fun e => names_field names i (fst e)) l) = [v].
