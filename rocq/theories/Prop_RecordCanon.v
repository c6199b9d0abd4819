(** * Property C84: records found in bytes that were not necessarily written by the encoder *)

From Verif Require Import Base StrModel TypesModel MarshalModel MarshalSpec MarshalMore MarshalLimits MarshalTop ValSource.
From Verif Require Import RecordCanonSpec RecordCanon.

(** If the marshaller answers all questions about the bytes, with the value [v], then [v] is a value of the type, the size
    found in the bytes is the size predicted for [v], and encoding [v] over the bytes, from whatever source, changes none. *)
Theorem record_is_its_encoding : forall pf t l data n v,
  small t -> layout_new t = Ret l -> marshallable pf l -> whole_record pf l data n ->
  presents (marshaller_source pf l data) t [] v ->
  typed t v /\ forall src, presents src t [] v ->
    encoding_size_with_source src l = Ret n /\ encode_with_source pf src l data = Ret (data, n).
Proof. exact (fun pf t l data n v Hs Hl Hm Hw Hp => canon pf t [] l data n v Hs Hl Hm (proj1 Hw) (proj2 Hw) Hp). Qed.
Print Assumptions record_is_its_encoding.

(** struct { b: bool, e: enum { x: (), y: (string, i16), z: u64 }, s: string }, and bytes nobody encoded: the unused bits and
    the padding are set. *)
Definition rc_ty : ty :=
  TStruct [([98%Z], TPrim PBool);
           ([101%Z], TEnum [([120%Z], TUnit); ([121%Z], TTuple [TString; TPrim PI16]); ([122%Z], TPrim PU64)]);
           ([115%Z], TString)].
Definition rc_val : val := VStruct [VPrim 1; VCase 1 (VTuple [VStr [x41; x42]; VPrim (-3)]); VStr [x43]].
Definition rc_data : list byte :=
  match layout_new rc_ty with
  | Ret l => match encode_with_source Debug (val_source rc_val) l (repeat xff 30) with Ret (b, _) => b | _ => [] end
  | _ => []
  end.

Example rc_typed : typed rc_ty rc_val.
Proof.
  constructor. constructor; [constructor; right; reflexivity|].
  constructor; [|constructor; [constructor; vm_compute; reflexivity|constructor]].
  eapply ty_enum; [reflexivity|]. constructor. constructor; [constructor; vm_compute; reflexivity|].
  constructor; [constructor; vm_compute; intuition discriminate|constructor].
Qed.

Lemma rc_layout : exists l, layout_new rc_ty = Ret l /\ small rc_ty /\ marshallable Debug l /\ marshallable Release l.
Proof.
  eexists. split; [vm_compute; reflexivity|]. split; [vm_compute; reflexivity|].
  split; (eapply (marshallable_type _ rc_ty []); [vm_compute; reflexivity| |vm_compute; reflexivity]);
    unfold rc_ty; repeat constructor; cbn; unfold bad_case_count; lia.
Qed.

Ltac presented :=
  repeat first [apply pr_struct | apply pr_tuple | apply pl_cons | apply pl_nil | apply pr_unit
               | apply pr_prim; vm_compute; reflexivity
               | apply pr_string; vm_compute; reflexivity
               | eapply pr_enum; [vm_compute; reflexivity|reflexivity|] ].

Example record_is_its_encoding_ex : exists l n,
  small rc_ty /\ layout_new rc_ty = Ret l /\ marshallable Debug l /\ whole_record Debug l rc_data n /\ n = 24 /\
  nth_error rc_data 5 = Some xfd /\
  presents (marshaller_source Debug l rc_data) rc_ty [] rc_val.
Proof.
  destruct rc_layout as (l & Hl & Hs & Hm & _). exists l. pose proof Hl as Hl'. vm_compute in Hl'. injection Hl' as <-. eexists.
  split; [exact Hs|]. split; [exact Hl|]. split; [exact Hm|].
  split; [split; [vm_compute; reflexivity|vm_compute; lia]|]. split; [reflexivity|]. split; [vm_compute; reflexivity|].
  unfold rc_ty, rc_val. presented.
Qed.

(** So the byte strings that can be read are exactly those that encoding leaves behind. *)
Theorem readable_iff_encoded : forall pf t l data n v,
  small t -> layout_new t = Ret l -> marshallable pf l ->
  (whole_record pf l data n /\ presents (marshaller_source pf l data) t [] v <->
   typed t v /\ exists src buf, presents src t [] v /\ encoding_size_with_source src l = Ret n /\ n <= length buf /\
     encode_with_source pf src l buf = Ret (data, n)).
Proof. exact readable_encoded. Qed.
Print Assumptions readable_iff_encoded.

Example readable_iff_encoded_ex : exists l,
  small rc_ty /\ layout_new rc_ty = Ret l /\ marshallable Release l /\ typed rc_ty rc_val /\
  presents (val_source rc_val) rc_ty [] rc_val /\ encoding_size_with_source (val_source rc_val) l = Ret 24 /\
  encode_with_source Release (val_source rc_val) l (repeat xff 30) = Ret (rc_data, 24).
Proof.
  destruct rc_layout as (l & Hl & Hs & _ & Hm). exists l. pose proof Hl as Hl'. vm_compute in Hl'. injection Hl' as <-.
  split; [exact Hs|]. split; [exact Hl|]. split; [exact Hm|]. split; [exact rc_typed|].
  split; [apply every_value_presented, rc_typed|]. split; vm_compute; reflexivity.
Qed.

(** Computing the size checks the bytes: if it ends within the data, everything can be read, except that some [bool] or
    [char] of the type may hold bytes that are no value of it, and reading it is then undefined. *)
Theorem size_checks_record : forall pf t l data n,
  small t -> layout_new t = Ret l -> marshallable pf l -> whole_record pf l data n ->
  (exists v, presents (marshaller_source pf l data) t [] v) \/
  (exists p q, picky p /\ uses p t /\ get_primitive pf l data p q = Undef).
Proof. exact size_checks. Qed.
Print Assumptions size_checks_record.

Example size_checks_record_ex : exists l,
  small rc_ty /\ layout_new rc_ty = Ret l /\ marshallable Debug l /\ whole_record Debug l rc_data 24 /\
  (exists bad, whole_record Debug l bad 24 /\ get_primitive Debug l bad PBool [0] = Undef).
Proof.
  destruct rc_layout as (l & Hl & Hs & Hm & _). exists l. pose proof Hl as Hl'. vm_compute in Hl'. injection Hl' as <-.
  split; [exact Hs|]. split; [exact Hl|]. split; [exact Hm|].
  split; [split; [vm_compute; reflexivity|vm_compute; lia]|]. exists (firstn 4 rc_data ++ [x07] ++ skipn 5 rc_data).
  split; [split; [vm_compute; reflexivity|vm_compute; lia]|vm_compute; reflexivity].
Qed.

(** Without [bool] and [char] every string of bytes whose size can be computed is a record. *)
Theorem size_checks_plain_record : forall pf t l data n,
  small t -> layout_new t = Ret l -> marshallable pf l -> ~ uses PBool t -> ~ uses PChar t -> whole_record pf l data n ->
  exists v, presents (marshaller_source pf l data) t [] v /\ typed t v /\
    (forall v', presents (marshaller_source pf l data) t [] v' -> v' = v) /\
    (forall src, presents src t [] v -> encode_with_source pf src l data = Ret (data, n)).
Proof. exact size_checks_plain. Qed.
Print Assumptions size_checks_plain_record.

Definition rc_plain : ty := TTuple [TEnum [([120%Z], TUnit); ([121%Z], TString); ([122%Z], TPrim PU64)]; TString].
Definition rc_some : list byte := [x02; x00; x00; x00; xfd; xee; xee; xee; x01; x00; x00; x00; x41; xaa; xaa; xaa; x42; x43; xee; xee; xee; xee; xee; xee].

Example size_checks_plain_record_ex : exists l,
  small rc_plain /\ layout_new rc_plain = Ret l /\ marshallable Debug l /\ ~ uses PBool rc_plain /\ ~ uses PChar rc_plain /\
  exists n, whole_record Debug l rc_some n.
Proof.
  eexists. split; [vm_compute; reflexivity|]. split; [vm_compute; reflexivity|].
  split. { eapply (marshallable_type _ rc_plain []); [vm_compute; reflexivity| |vm_compute; reflexivity].
    unfold rc_plain; repeat constructor; cbn; unfold bad_case_count; lia. }
  assert (U : forall p, uses p rc_plain -> p = PU64).
  { intros p Hu. inversion Hu as [|t ts Hin Hu1| |]; subst. destruct Hin as [<-|[<-|[]]]; [|inversion Hu1].
    inversion Hu1 as [| | |d cs Hin Hu2]; subst. destruct Hin as [<-|[<-|[<-|[]]]]; cbn [snd] in Hu2; inversion Hu2; reflexivity. }
  split; [intros H; apply U in H; discriminate|]. split; [intros H; apply U in H; discriminate|].
  eexists. split; [vm_compute; reflexivity|vm_compute; lia].
Qed.

(** The check is needed. A case tag that no case has, a string length beyond the end: neither is noticed when it is read. *)
Theorem unchecked_tag_refuted : exists t l data k,
  small t /\ layout_new t = Ret l /\ marshallable Debug l /\
  get_case_tag Debug l data [0] = Ret k /\ (forall v, ~ presents (marshaller_source Debug l data) t [] v) /\
  encoding_size Debug l data = Panic.
Proof.
  exists rc_plain. eexists. exists [x02; x00; x00; x00; x03; xee; xee; xee; x01; x00; x00; x00; x41; xaa; xaa; xaa; x42; x43; xee; xee; xee; xee; xee; xee], 3.
  split; [vm_compute; reflexivity|]. split; [vm_compute; reflexivity|].
  split. { eapply (marshallable_type _ rc_plain []); [vm_compute; reflexivity| |vm_compute; reflexivity].
    unfold rc_plain; repeat constructor; cbn; unfold bad_case_count; lia. }
  split; [vm_compute; reflexivity|]. split; [|vm_compute; reflexivity].
  intros v Hv. inversion Hv as [| | |? ? ? Hl| |]; subst. inversion Hl as [|? ? ? ? ? ? He]; subst.
  inversion He as [| | | | |? ? k ? ? ? Hk Hn]; subst. vm_compute in Hk. injection Hk as <-. discriminate.
Qed.
Print Assumptions unchecked_tag_refuted.

Theorem unchecked_length_refuted : exists t l data n,
  small t /\ layout_new t = Ret l /\ marshallable Debug l /\
  encoding_size Debug l data = Ret n /\ length data < n /\ get_length Debug l data [1] = Ret 200 /\
  get_bytes Debug l data [1] = Undef.
Proof.
  exists rc_plain. eexists. exists [xc8; x00; x00; x00; xfd; xee; xee; xee; x01; x00; x00; x00; x41; xaa; xaa; xaa; x42; x43; xee; xee; xee; xee; xee; xee]. eexists.
  split; [vm_compute; reflexivity|]. split; [vm_compute; reflexivity|].
  split. { eapply (marshallable_type _ rc_plain []); [vm_compute; reflexivity| |vm_compute; reflexivity].
    unfold rc_plain; repeat constructor; cbn; unfold bad_case_count; lia. }
  split; [vm_compute; reflexivity|]. split; [vm_compute; lia|]. split; vm_compute; reflexivity.
Qed.
Print Assumptions unchecked_length_refuted.

(** And that everything can be read does not mean that the record is whole: the padding may be missing, and then neither the
    size can be computed nor the value be stored in place. *)
Definition rc_pair : ty := TTuple [TEnum [([120%Z], TTuple [TPrim PU64; TPrim PU8]); ([122%Z], TUnit)]; TEnum [([121%Z], TUnit); ([122%Z], TUnit)]].

Theorem truncated_record_refuted : exists t l data v,
  small t /\ layout_new t = Ret l /\ marshallable Debug l /\ presents (marshaller_source Debug l data) t [] v /\ typed t v /\
  encoding_size Debug l data = Panic /\ encode_with_source Debug (marshaller_source Debug l data) l data = Panic.
Proof.
  exists rc_pair. eexists. exists [x00; xee; xee; xee; xee; xee; xee; xee; x01; x02; x03; x04; x05; x06; x07; x08; x09],
    (VTuple [VCase 0 (VTuple [VPrim 578437695752307201; VPrim 9]); VCase 0 VUnit]).
  split; [vm_compute; reflexivity|]. split; [vm_compute; reflexivity|].
  split. { eapply (marshallable_type _ rc_pair []); [vm_compute; reflexivity| |vm_compute; reflexivity].
    unfold rc_pair; repeat constructor; cbn; unfold bad_case_count; lia. }
  split; [unfold rc_pair; presented|]. split.
  { constructor. constructor; [|constructor; [|constructor]]; (eapply ty_enum; [reflexivity|]); [|constructor].
    constructor. repeat (constructor; [constructor; vm_compute; intuition discriminate|]). constructor. }
  split; vm_compute; reflexivity.
Qed.
Print Assumptions truncated_record_refuted.
