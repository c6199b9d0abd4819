(** * Property C106: pages moved to a wider type through JSON texts *)

From Coq Require Import Strings.String.
From Verif Require Import Base StrModel Utf8Model UtilSpec TypesModel MarshalModel MarshalSpec LayoutProofs MarshalLimits ValSource.
From Verif Require Import JsonModel JsonSpec JsonExamples JsonDocSpec SqlWords SqlParseModel TypeParseModel TypeGrammar TypeParsed TypeUseSpec NsmModel NsmSpec RecordSpec PipelineSpec PipelineProofs Prop_Pipeline.
From Verif Require Import JsonWidenSpec JsonMigrate.
Local Open Scope list_scope.
Local Open Scope nat_scope.

(** The dump of a page of records of one type loads, with a wider type, into every fresh page with enough space for the
    records of the new type; that page then holds, in the same order, records of the values with the same numbers, strings
    and labels. The old and the new page may align their rows differently. *)
Theorem page_migrates : forall alnum fl pf s t l a t' l' a', parse_type s = Ret (Ok t) -> no_repeats t ->
  all_structs (fun n => n < 64) t -> small t -> layout_new t = Ret l -> marshallable pf l ->
  widens t t' -> all_structs (fun n => n < 64) t' -> small t' -> layout_new t' = Ret l' -> marshallable pf l' ->
  forall page rows vs, holds a page rows -> Forall2 (record_of pf t l) vs rows -> Forall (json_value fl t) vs ->
  exists outs texts vs', dump fl pf t l a page = Ret outs /\ Forall2 (fun bs text => utf8_decode bs = Some text) outs texts /\
    Forall2 (fun v v' => carried t v t' v') vs vs' /\
    forall rows' pg pg0, Forall2 (record_of pf t' l') vs' rows' -> initialize_page a' pg = Ret pg0 ->
      4 * (List.length rows' + 1) + stored a' rows' <= List.length pg ->
      exists page' rows'', load alnum fl pf t' l' a' texts pg0 = Ret (Ok page') /\ holds a' page' rows'' /\ Forall2 (record_of pf t' l') vs' rows''.
Proof. exact migrate_lemma. Qed.
Print Assumptions page_migrates.

(** What a value is carried to is a value of the wider type. *)
Theorem carried_value_typed : forall t t' v v', no_repeats t -> widens t t' -> typed t v -> carried t v t' v' -> typed t' v'.
Proof. exact carried_typed. Qed.
Print Assumptions carried_value_typed.

(** The records that the new page must have space for exist, and their sizes are linear in the values. *)
Theorem migrated_records_exist : forall pf t t' l' vs vs', no_repeats t -> widens t t' -> small t' -> layout_new t' = Ret l' -> marshallable pf l' ->
  Forall (typed t) vs -> Forall2 (fun v v' => carried t v t' v') vs vs' -> Forall (fun v' => (Z.of_nat (val_size v') < 2 ^ 57)%Z) vs' ->
  exists rows', Forall2 (fun v' row => record_of pf t' l' v' row /\ List.length row <= 64 * val_size v') vs' rows'.
Proof. exact carried_records. Qed.
Print Assumptions migrated_records_exist.

(** The field [size] is put first and gets four bytes and a sign. *)
Definition mg_ty : ty := TStruct [(lit "size", TPrim PI32); (lit "name", TString)].

Lemma mg_widens : widens px_ty mg_ty.
Proof.
  apply wd_struct; [reflexivity|cbn; repeat constructor; cbn; intuition discriminate|].
  intros l t [E|[E|[]]]; injection E as <- <-.
  - exists TString. split; [cbn; tauto|constructor].
  - exists (TPrim PI32). split; [cbn; tauto|]. apply wd_integer; [unfold integer_prim; cbn; intuition discriminate..|].
    intros z. unfold in_range. cbn. lia.
Qed.

Lemma mg_carried x n : carried px_ty (px_val x n) mg_ty (VStruct [VPrim n; VStr (utf8_encode x)]).
Proof.
  apply ca_struct; [reflexivity|reflexivity|]. intros [|[|[|i]]] l t v E V; try discriminate E; injection E as <- <-; injection V as <-.
  - exists 1, TString. eexists. split; [reflexivity|]. split; [reflexivity|constructor].
  - exists 0, (TPrim PI32). eexists. split; [reflexivity|]. split; [reflexivity|].
    apply ca_integer; unfold integer_prim; cbn; intuition discriminate.
Qed.

Example page_migrates_ex : exists l l' pg1 page pg0 page',
  widens px_ty mg_ty /\ all_structs (fun n => n < 64) mg_ty /\ small mg_ty /\ layout_new px_ty = Ret l /\ layout_new mg_ty = Ret l' /\ marshallable Debug l' /\
  initialize_page 4 (repeat xff 48) = Ret pg1 /\ load jx_alnum jx_fl Debug px_ty l 4 px_texts pg1 = Ret (Ok page) /\
  dump jx_fl Debug px_ty l 4 page = Ret (map utf8_encode px_texts') /\
  initialize_page 8 (repeat xff 64) = Ret pg0 /\ load jx_alnum jx_fl Debug mg_ty l' 8 px_texts' pg0 = Ret (Ok page') /\
  dump jx_fl Debug mg_ty l' 8 page' = Ret (map utf8_encode [lit "{""size"":7,""name"":""A""}"; lit "{""size"":258,""name"":""BC""}"]).
Proof.
  eexists _, _, _, _, _, _. split; [exact mg_widens|]. split; [repeat (constructor; cbn; try lia)|]. split; [vm_compute; reflexivity|].
  split; [vm_compute; reflexivity|]. split; [vm_compute; reflexivity|]. split.
  { eapply (marshallable_type _ mg_ty []); [vm_compute; reflexivity|repeat constructor|vm_compute; reflexivity]. }
  repeat (split; [vm_compute; reflexivity|]). vm_compute. reflexivity.
Qed.

Example carried_value_typed_ex : no_repeats px_ty /\ widens px_ty mg_ty /\ typed px_ty (px_val (lit "BC") 258) /\
  carried px_ty (px_val (lit "BC") 258) mg_ty (VStruct [VPrim 258; VStr (utf8_encode (lit "BC"))]).
Proof.
  split; [constructor; [|repeat constructor]; cbn; constructor; [intros [H|[]]; discriminate|constructor; [intros []|constructor]]|].
  split; [exact mg_widens|]. split; [|apply mg_carried].
  destruct px_values as [T _]. rewrite Forall_forall in T. apply T. cbn. tauto.
Qed.

Example migrated_records_exist_ex : Forall (typed px_ty) [px_val (lit "A") 7; px_val (lit "BC") 258] /\
  Forall2 (fun v v' => carried px_ty v mg_ty v') [px_val (lit "A") 7; px_val (lit "BC") 258]
    [VStruct [VPrim 7; VStr (utf8_encode (lit "A"))]; VStruct [VPrim 258; VStr (utf8_encode (lit "BC"))]] /\
  Forall (fun v' => (Z.of_nat (val_size v') < 2 ^ 57)%Z) [VStruct [VPrim 7; VStr (utf8_encode (lit "A"))]; VStruct [VPrim 258; VStr (utf8_encode (lit "BC"))]].
Proof.
  split; [apply px_values|]. split; [constructor; [apply mg_carried|constructor; [apply mg_carried|constructor]]|].
  repeat (constructor; [vm_compute; reflexivity|]). constructor.
Qed.

(** Back to the narrower type the same way is not always possible: a number that does not fit stops the load. *)
Theorem page_narrows_refuted : exists t t' l l' pg0 page out text e, widens t' t /\ layout_new t = Ret l /\ layout_new t' = Ret l' /\
  initialize_page 4 (repeat x00 32) = Ret pg0 /\ load jx_alnum jx_fl Debug t l 4 [lit "[300]"] pg0 = Ret (Ok page) /\
  dump jx_fl Debug t l 4 page = Ret [out] /\ utf8_decode out = Some text /\ load jx_alnum jx_fl Debug t' l' 4 [text] pg0 = Ret (Err e).
Proof.
  exists (TTuple [TPrim PU16]), (TTuple [TPrim PU8]). eexists _, _, _, _, _, _, _. split.
  { apply wd_tuple. constructor; [|constructor]. apply wd_integer; [unfold integer_prim; cbn; intuition discriminate..|]. intros z. unfold in_range. cbn. lia. }
  repeat (split; [vm_compute; reflexivity|]). vm_compute. reflexivity.
Qed.
Print Assumptions page_narrows_refuted.
