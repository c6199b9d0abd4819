(** * Property C87: changing the type of stored records *)

From Verif Require Import Base StrModel TypesModel MarshalModel MarshalSpec MarshalMore MarshalLimits MarshalTop ValSource.
From Verif Require Import FormatSpec RecordCanonSpec RecordSpec SchemaSpec SchemaProofs SchemaTop.

(** The alignment of a layout can be told from the type. *)
Theorem alignment_of_type : forall t l, layout_new t = Ret l -> l_align l = type_alignment t.
Proof. exact (fun t l => layout_alignment t [] l). Qed.
Print Assumptions alignment_of_type.

Ltac presented :=
  repeat first [apply pr_struct | apply pr_tuple | apply pl_cons | apply pl_nil | apply pr_unit
               | apply pr_prim; vm_compute; reflexivity
               | apply pr_string; vm_compute; reflexivity
               | eapply pr_enum; [vm_compute; reflexivity|reflexivity|] ].

(** struct { id: u16, e: enum { a: (), b: string, c: (u32, enum { x: (), y: i8, z: () }) } }, and the same with other names, a
    fourth case in both enums. *)
Definition sc_old : ty :=
  TStruct [([105%Z], TPrim PU16);
           ([101%Z], TEnum [([97%Z], TUnit); ([98%Z], TString);
                            ([99%Z], TTuple [TPrim PU32; TEnum [([120%Z], TUnit); ([121%Z], TPrim PI8); ([122%Z], TUnit)]])])].
Definition sc_new : ty :=
  TStruct [([107%Z], TPrim PU16);
           ([102%Z], TEnum [([97%Z], TUnit); ([110%Z], TString);
                            ([99%Z], TTuple [TPrim PU32; TEnum [([120%Z], TUnit); ([121%Z], TPrim PI8); ([122%Z], TUnit); ([119%Z], TPrim PBool)]]);
                            ([100%Z], TTuple [TPrim PU8; TString])])].
Definition sc_val : val := VStruct [VPrim 513; VCase 2 (VTuple [VPrim 7; VCase 1 (VPrim (-3))])].

Lemma sc_bits : same_tag_bits 3 4.
Proof.
  intros b Hb. assert (E : (b = 0 \/ b = 1 \/ 2 <= b)%Z) by lia. destruct E as [->|[->|E]]; [split; vm_compute; intros H; exfalso; apply H; reflexivity| |].
  - split; vm_compute; intros H; exfalso; apply H; reflexivity.
  - assert (2 ^ 2 <= 2 ^ b)%Z by (apply Z.pow_le_mono_r; lia). change (2 ^ 2)%Z with 4%Z in H. split; intros _; cbn; lia.
Qed.

Lemma sc_extended : extended sc_old sc_new.
Proof.
  constructor. cbn [map snd]. repeat constructor.
  apply (ex_enum [([97%Z], TUnit); ([98%Z], TString);
                  ([99%Z], TTuple [TPrim PU32; TEnum [([120%Z], TUnit); ([121%Z], TPrim PI8); ([122%Z], TUnit)]])]
                 [([97%Z], TUnit); ([110%Z], TString);
                  ([99%Z], TTuple [TPrim PU32; TEnum [([120%Z], TUnit); ([121%Z], TPrim PI8); ([122%Z], TUnit); ([119%Z], TPrim PBool)]])]
                 [([100%Z], TTuple [TPrim PU8; TString])]).
  - cbn [map snd]. repeat constructor.
    apply (ex_enum [([120%Z], TUnit); ([121%Z], TPrim PI8); ([122%Z], TUnit)] [([120%Z], TUnit); ([121%Z], TPrim PI8); ([122%Z], TUnit)]
                   [([119%Z], TPrim PBool)]); [repeat constructor|exact sc_bits|].
    intros c [<-|[]]. vm_compute. lia.
  - exact sc_bits.
  - intros c [<-|[]]. vm_compute. lia.
Qed.

Lemma sc_marshallable l pf : layout_new sc_new = Ret l -> marshallable pf l.
Proof.
  intros H. eapply (marshallable_type _ sc_new []); [vm_compute; reflexivity| |exact H].
  unfold sc_new; repeat constructor; cbn; unfold bad_case_count; lia.
Qed.

Lemma sc_typed : typed sc_old sc_val.
Proof. repeat (econstructor; cbn; try lia; try reflexivity). Qed.

Example alignment_of_type_ex : exists l, layout_new sc_new = Ret l /\ type_alignment sc_new = 4.
Proof. eexists. split; vm_compute; reflexivity. Qed.

(** Whatever can be encoded with the old layout is encoded with the new one into the same bytes. *)
Theorem extended_type_writes_alike : forall pf t t' l l' src,
  extended t t' -> layout_new t = Ret l -> layout_new t' = Ret l' ->
  (forall n, encoding_size_with_source src l = Ret n -> encoding_size_with_source src l' = Ret n) /\
  (forall buf r, encode_with_source pf src l buf = Ret r -> encode_with_source pf src l' buf = Ret r).
Proof. intros. eapply change_writes; eassumption. Qed.
Print Assumptions extended_type_writes_alike.

Definition sc_data : list byte := [x01; x02; xee; xee; x07; x00; x00; x00; xed; xfd; xee; xee].

Example extended_type_writes_alike_ex : exists l l',
  extended sc_old sc_new /\ layout_new sc_old = Ret l /\ layout_new sc_new = Ret l' /\ l <> l' /\
  encoding_size_with_source (val_source sc_val) l = Ret 12 /\
  encode_with_source Debug (val_source sc_val) l (repeat xee 12) = Ret (sc_data, 12).
Proof.
  eexists _, _. split; [exact sc_extended|]. split; [vm_compute; reflexivity|]. split; [vm_compute; reflexivity|]. split; [discriminate|].
  split; vm_compute; reflexivity.
Qed.

(** Whatever is read from some bytes, be they a record or not, with the old layout is read with the new one, too. *)
Theorem extended_type_reads_alike : forall pf t t' l l' data,
  extended t t' -> layout_new t = Ret l -> layout_new t' = Ret l' ->
  (forall n, encoding_size pf l data = Ret n -> encoding_size pf l' data = Ret n) /\
  (forall p q z, get_primitive pf l data p q = Ret z -> get_primitive pf l' data p q = Ret z) /\
  (forall q k, get_case_tag pf l data q = Ret k -> get_case_tag pf l' data q = Ret k) /\
  (forall q n, get_length pf l data q = Ret n -> get_length pf l' data q = Ret n) /\
  (forall q bs, get_bytes pf l data q = Ret bs -> get_bytes pf l' data q = Ret bs).
Proof. intros. eapply change_reads; eassumption. Qed.
Print Assumptions extended_type_reads_alike.

Example extended_type_reads_alike_ex : exists l l',
  extended sc_old sc_new /\ layout_new sc_old = Ret l /\ layout_new sc_new = Ret l' /\
  encoding_size Debug l sc_data = Ret 12 /\ get_primitive Debug l sc_data PI8 [1; 2; 1; 1] = Ret (-3)%Z /\
  get_case_tag Debug l sc_data [1; 2; 1] = Ret 1.
Proof. eexists _, _. split; [exact sc_extended|]. repeat (split; [vm_compute; reflexivity|]). vm_compute. reflexivity. Qed.

Theorem old_records_read_as_new : forall pf t t' l l' data v,
  extended t t' -> layout_new t = Ret l -> layout_new t' = Ret l' ->
  presents (marshaller_source pf l data) t [] v -> presents (marshaller_source pf l' data) t' [] v.
Proof. intros. eapply change_presents; eassumption. Qed.
Print Assumptions old_records_read_as_new.

Example old_records_read_as_new_ex : exists l l',
  extended sc_old sc_new /\ layout_new sc_old = Ret l /\ layout_new sc_new = Ret l' /\
  presents (marshaller_source Debug l sc_data) sc_old [] sc_val.
Proof.
  eexists _, _. split; [exact sc_extended|]. split; [vm_compute; reflexivity|]. split; [vm_compute; reflexivity|]. unfold sc_old, sc_val. presented.
Qed.

(** Records of the new type that do not use the new cases are records of the old type. *)
Theorem new_records_read_as_old : forall pf t t' l l' data n v,
  extended t t' -> layout_new t = Ret l -> layout_new t' = Ret l' -> small t' -> marshallable pf l' ->
  whole_record pf l' data n -> presents (marshaller_source pf l' data) t' [] v -> typed t v ->
  whole_record pf l data n /\ presents (marshaller_source pf l data) t [] v.
Proof. intros. eapply change_back; eassumption. Qed.
Print Assumptions new_records_read_as_old.

Example new_records_read_as_old_ex : exists l l',
  extended sc_old sc_new /\ layout_new sc_old = Ret l /\ layout_new sc_new = Ret l' /\ small sc_new /\ marshallable Debug l' /\
  whole_record Debug l' sc_data 12 /\ presents (marshaller_source Debug l' sc_data) sc_new [] sc_val /\ typed sc_old sc_val.
Proof.
  eexists _, _. split; [exact sc_extended|]. split; [vm_compute; reflexivity|]. split; [vm_compute; reflexivity|].
  split; [vm_compute; reflexivity|]. split; [apply sc_marshallable; vm_compute; reflexivity|].
  split; [split; [vm_compute; reflexivity|cbn; lia]|]. split; [unfold sc_new, sc_val; presented|exact sc_typed].
Qed.

(** On pages: the rows of a value of the old type are the same for both types. *)
Theorem rows_of_old_values : forall pf t t' l l' v row,
  extended t t' -> layout_new t = Ret l -> layout_new t' = Ret l' -> small t' -> marshallable pf l' -> typed t v ->
  (record_of pf t l v row <-> record_of pf t' l' v row).
Proof. intros. eapply change_record; eassumption. Qed.
Print Assumptions rows_of_old_values.

Example rows_of_old_values_ex : exists l l',
  extended sc_old sc_new /\ layout_new sc_old = Ret l /\ layout_new sc_new = Ret l' /\ small sc_new /\ marshallable Release l' /\
  typed sc_old sc_val /\ record_of Release sc_old l sc_val sc_data.
Proof.
  eexists _, _. split; [exact sc_extended|]. split; [vm_compute; reflexivity|]. split; [vm_compute; reflexivity|].
  split; [vm_compute; reflexivity|]. split; [apply sc_marshallable; vm_compute; reflexivity|]. split; [exact sc_typed|].
  exists (val_source sc_val), 12, (repeat xee 12), sc_data. split; [apply every_value_presented, sc_typed|]. split; [exact sc_typed|].
  split; [vm_compute; reflexivity|]. split; [cbn; lia|]. split; vm_compute; reflexivity.
Qed.

(** A struct is stored like a tuple. *)
Theorem struct_is_stored_as_tuple : forall fs, layout_new (TStruct fs) = layout_new (TTuple (map snd fs)).
Proof. exact struct_tuple. Qed.
Print Assumptions struct_is_stored_as_tuple.

Example struct_is_stored_as_tuple_ex : exists l,
  layout_new (TStruct [([97%Z], TPrim PU8); ([98%Z], TString)]) = Ret l /\ layout_new (TTuple [TPrim PU8; TString]) = Ret l.
Proof. eexists. split; vm_compute; reflexivity. Qed.

(** A case that makes the tag longer: the other tags move, and old records are read as something else. *)
Theorem longer_tag_refuted : exists cs c u l l' data v v',
  layout_new (TTuple [TEnum cs; u]) = Ret l /\ layout_new (TTuple [TEnum (cs ++ [c]); u]) = Ret l' /\
  snd c = TUnit /\ presents (marshaller_source Debug l data) (TTuple [TEnum cs; u]) [] v /\
  presents (marshaller_source Debug l' data) (TTuple [TEnum (cs ++ [c]); u]) [] v' /\ v <> v'.
Proof.
  exists [([97%Z], TUnit); ([98%Z], TUnit)], ([99%Z], TUnit), (TEnum [([97%Z], TUnit); ([98%Z], TUnit)]). eexists _, _.
  exists [x02], (VTuple [VCase 0 VUnit; VCase 1 VUnit]), (VTuple [VCase 2 VUnit; VCase 0 VUnit]).
  split; [vm_compute; reflexivity|]. split; [vm_compute; reflexivity|]. split; [reflexivity|].
  split; [presented|]. split; [cbn [app]; presented|discriminate].
Qed.
Print Assumptions longer_tag_refuted.

(** A case with a larger alignment, with a tag of the same length: old records cannot be read. *)
Theorem wider_case_refuted : exists cs c u l l' data n v,
  same_tag_bits (length cs) (length (cs ++ [c])) /\
  layout_new (TTuple [TEnum cs; u]) = Ret l /\ layout_new (TTuple [TEnum (cs ++ [c]); u]) = Ret l' /\
  encode_with_source Debug (val_source v) l (repeat x00 n) = Ret (data, n) /\
  presents (marshaller_source Debug l data) (TTuple [TEnum cs; u]) [] v /\
  forall v', ~ presents (marshaller_source Debug l' data) (TTuple [TEnum (cs ++ [c]); u]) [] v'.
Proof.
  exists [([97%Z], TPrim PU8); ([98%Z], TUnit); ([99%Z], TUnit)], ([100%Z], TPrim PU64), (TPrim PU8). eexists _, _.
  exists [x05; x00; x07], 3, (VTuple [VCase 0 (VPrim 7); VPrim 5]).
  split; [exact sc_bits|]. split; [vm_compute; reflexivity|]. split; [vm_compute; reflexivity|].
  split; [vm_compute; reflexivity|]. split; [presented|].
  intros v' H. inversion H as [| | |? ? ? Hl| |]; subst. inversion Hl as [|? ? ? ? w ? He]; subst.
  inversion He as [| | | | |? ? k lb u w' Ht En Hp]; subst. vm_compute in Ht. injection Ht as <-. cbn in En. injection En as <- <-.
  inversion Hp as [|? ? z Hz| | | |]; subst. vm_compute in Hz. discriminate.
Qed.
Print Assumptions wider_case_refuted.

(** A field at the end of a struct does not come last in the bytes. *)
Theorem added_field_refuted : exists f g l l' data v v',
  layout_new (TStruct [f]) = Ret l /\ layout_new (TStruct [f; g]) = Ret l' /\
  presents (marshaller_source Debug l data) (TStruct [f]) [] (VStruct [v]) /\
  presents (marshaller_source Debug l' data) (TStruct [f; g]) [] (VStruct [v'; VPrim 5]) /\ v <> v'.
Proof.
  exists ([97%Z], TPrim PU8), ([98%Z], TPrim PU16). eexists _, _. exists [x05; x00; x09], (VPrim 5), (VPrim 9).
  split; [vm_compute; reflexivity|]. split; [vm_compute; reflexivity|]. split; [presented|]. split; [presented|discriminate].
Qed.
Print Assumptions added_field_refuted.
