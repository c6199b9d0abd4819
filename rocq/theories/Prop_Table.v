(** * C89: Tables found in bytes *)

From Coq Require Import Strings.String.
From Verif Require Import Base PowerFacts UtilModel UtilSpec StrModel Utf8Model TypesModel MarshalModel MarshalSpec LayoutProofs MarshalLimits ValSource.
From Verif Require Import JsonModel JsonSpec JsonExamples JsonDocSpec SqlWords SqlParseModel TypeParseModel TypeGrammar TypeParsed TypeUseSpec.
From Verif Require Import NsmModel NsmSpec RecordSpec PipelineSpec PipelineProofs RecordCanonSpec PageCheckSpec SchemaSpec TableSpec TableProofs Prop_Schema Prop_RecordCanon.
Local Open Scope list_scope.
Local Open Scope nat_scope.

(** Bytes that look like a table are a table: they could have been produced by initialising a page and storing encoded records
    of these values. *)
Theorem found_table_exact : forall pf t l a pg vs, small t -> layout_new t = Ret l -> marshallable pf l -> page_shape a (List.length pg) ->
  (table_page pf t l a pg vs <-> exists rows, holds a pg rows /\ Forall2 (record_of pf t l) vs rows).
Proof. intros pf t l a pg vs Hs Hl Hm. exact (found_table pf t l Hs Hl Hm a pg vs). Qed.
Print Assumptions found_table_exact.

(** The bytes determine the values. *)
Theorem found_table_values : forall pf t l a pg vs vs', table_page pf t l a pg vs -> table_page pf t l a pg vs' -> vs' = vs.
Proof. exact table_values. Qed.
Print Assumptions found_table_values.

(** For types without [bool] and [char] looking at the sizes is enough. *)
Theorem sizes_check_table : forall pf t l a pg, small t -> layout_new t = Ret l -> marshallable pf l -> ~ uses PBool t -> ~ uses PChar t ->
  (sizes_check pf l a pg <-> exists vs, table_page pf t l a pg vs).
Proof. intros pf t l a pg Hs Hl Hm Hb Hc. symmetry. exact (plain_table pf t l Hs Hl Hm a pg Hb Hc). Qed.
Print Assumptions sizes_check_table.

(** A found table can be used like one of the program's own: a value is appended just if its predicted size is not above the
    reported capacity, and any row can be removed; the other values stay. *)
Theorem found_table_append : forall pf t l a pg vs src v n m, small t -> layout_new t = Ret l -> marshallable pf l ->
  page_shape a (List.length pg) -> table_page pf t l a pg vs -> presents src t [] v -> typed t v ->
  encoding_size_with_source src l = Ret n -> 0 < n -> max_insert_row_size a pg = Ret m ->
  (n <= m -> exists row pg', encode_with_source pf src l (repeat x00 n) = Ret (row, n) /\ append_row a pg row = Ret pg' /\
     List.length pg' = List.length pg /\ table_page pf t l a pg' (vs ++ [v])) /\
  (m < n -> exists row, encode_with_source pf src l (repeat x00 n) = Ret (row, n) /\ forall pg', append_row a pg row <> Ret pg').
Proof. intros pf t l a pg vs src v n m Hs Hl Hm. exact (table_append pf t l Hs Hl Hm a pg vs src v n m). Qed.
Print Assumptions found_table_append.

Theorem found_table_remove : forall pf t l a pg vs i, small t -> layout_new t = Ret l -> marshallable pf l ->
  page_shape a (List.length pg) -> table_page pf t l a pg vs -> i < List.length vs ->
  exists pg', remove_row a pg i = Ret pg' /\ List.length pg' = List.length pg /\ table_page pf t l a pg' (firstn i vs ++ skipn (S i) vs).
Proof. intros pf t l a pg vs i Hs Hl Hm. exact (table_remove pf t l Hs Hl Hm a pg vs i). Qed.
Print Assumptions found_table_remove.

(** A table of a type is a table of every extension of the type, with the same values. *)
Theorem found_table_extended : forall pf t t' l l' a pg vs, extended t t' -> layout_new t = Ret l -> layout_new t' = Ret l' -> small t -> small t' ->
  marshallable pf l -> marshallable pf l' -> page_shape a (List.length pg) -> table_page pf t l a pg vs -> table_page pf t' l' a pg vs.
Proof. exact table_extended. Qed.
Print Assumptions found_table_extended.

(** Whoever wrote the bytes, the JSON texts made from them fill a fresh page with the same values. *)
Theorem found_table_dumps : forall alnum fl pf s t l a, parse_type s = Ret (Ok t) -> no_repeats t ->
  all_structs (fun n => n < 64) t -> small t -> layout_new t = Ret l -> marshallable pf l ->
  forall page vs pg pg0, page_shape a (List.length page) -> table_page pf t l a page vs -> Forall (json_value fl t) vs ->
  List.length pg = List.length page -> initialize_page a pg = Ret pg0 ->
  exists outs texts page', dump fl pf t l a page = Ret outs /\ Forall2 (fun bs text => utf8_decode bs = Some text) outs texts /\
    load alnum fl pf t l a texts pg0 = Ret (Ok page') /\ dump fl pf t l a page' = Ret outs.
Proof.
  intros alnum fl pf s t l a H1 H2 H3 Hs Hl Hm page vs pg pg0 Hsh HT. apply (found_table pf t l Hs Hl Hm a page vs Hsh) in HT.
  destruct HT as (rows & Hh & F). intros. eapply copy_lemma; eassumption.
Qed.
Print Assumptions found_table_dumps.

(** A page nobody wrote: two records of [struct { i: u16, e: enum { ... } }] of C87, with odd bytes in every gap. *)
Definition tb_page : list byte :=
  NsmBytesSpec.words [2; 36; 24] ++ repeat xdd 12 ++ [x09; x00; xcd; xcc; x02; x00; x00; x00; x41; x42; xaa; xbb] ++ sc_data.
Definition tb_vals : list val := [sc_val; VStruct [VPrim 9; VCase 1 (VStr [x41; x42])]].

Lemma tb_shape : page_shape 4 (List.length tb_page).
Proof. split; [apply pow2_true; reflexivity|]. split; [exists 12; reflexivity|]. split; vm_compute; [repeat constructor|reflexivity]. Qed.

Lemma tb_table : forall l, layout_new sc_old = Ret l -> table_page Debug sc_old l 4 tb_page tb_vals.
Proof.
  intros l E. vm_compute in E. injection E as <-. split; [reflexivity|]. split; [vm_compute; repeat constructor|].
  intros [|[|[|i]]] v H; try discriminate; injection H as <-; (eexists; split; [vm_compute; reflexivity|]; split; [vm_compute; reflexivity|]);
    unfold sc_old, sc_val; presented.
Qed.

Lemma tb_marshallable l pf : layout_new sc_old = Ret l -> marshallable pf l.
Proof.
  intros H. eapply (marshallable_type _ sc_old []); [vm_compute; reflexivity| |exact H].
  unfold sc_old; repeat constructor; cbn; unfold bad_case_count; lia.
Qed.

Example found_table_exact_ex : exists l, small sc_old /\ layout_new sc_old = Ret l /\ marshallable Debug l /\
  page_shape 4 (List.length tb_page) /\ table_page Debug sc_old l 4 tb_page tb_vals.
Proof.
  eexists. split; [vm_compute; reflexivity|]. split; [vm_compute; reflexivity|]. split; [apply tb_marshallable; vm_compute; reflexivity|].
  split; [exact tb_shape|]. apply tb_table. vm_compute. reflexivity.
Qed.

Example sizes_check_table_ex : exists l, layout_new sc_old = Ret l /\ ~ uses PBool sc_old /\ ~ uses PChar sc_old /\ sizes_check Debug l 4 tb_page.
Proof.
  assert (U : forall p, uses p sc_old -> p = PU16 \/ p = PU32 \/ p = PI8).
  { intros p H. inversion H as [| |f fs Hin Hu|]; subst. destruct Hin as [<-|[<-|[]]]; cbn [snd] in Hu; [inversion Hu; auto|].
    inversion Hu as [| | |d cs Hin Hu2]; subst. destruct Hin as [<-|[<-|[<-|[]]]]; cbn [snd] in Hu2; [inversion Hu2|inversion Hu2|].
    inversion Hu2 as [|u ts Hin Hu3| |]; subst. destruct Hin as [<-|[<-|[]]]; [inversion Hu3; auto|].
    inversion Hu3 as [| | |d cs Hin Hu4]; subst. destruct Hin as [<-|[<-|[<-|[]]]]; cbn [snd] in Hu4; inversion Hu4; auto. }
  eexists. split; [vm_compute; reflexivity|]. split; [intros H; apply U in H; intuition discriminate|]. split; [intros H; apply U in H; intuition discriminate|].
  exists 2. split; [reflexivity|]. split; [vm_compute; repeat constructor|].
  intros [|[|i]] Hi; [eexists; split; [vm_compute; reflexivity|vm_compute; reflexivity]|eexists; split; [vm_compute; reflexivity|vm_compute; reflexivity]|].
  exfalso. clear -Hi. lia.
Qed.

Example found_table_append_ex : exists l n m pg', layout_new sc_old = Ret l /\ typed sc_old (VStruct [VPrim 1; VCase 0 VUnit]) /\
  encoding_size_with_source (val_source (VStruct [VPrim 1; VCase 0 VUnit])) l = Ret n /\ 0 < n /\ n <= m /\ max_insert_row_size 4 tb_page = Ret m /\
  append_row 4 tb_page [x01; x00; x00; x00] = Ret pg' /\
  encoding_size_with_source (val_source sc_val) l = Ret 12 /\ m < 12.
Proof.
  eexists _, _, _, _. split; [vm_compute; reflexivity|]. split.
  { constructor. constructor; [constructor; cbn; lia|]. constructor; [|constructor]. eapply ty_enum; [reflexivity|constructor]. }
  split; [vm_compute; reflexivity|]. split; [lia|]. split; [|split; [vm_compute; reflexivity|split; [vm_compute; reflexivity|split; [vm_compute; reflexivity|]]]]; lia.
Qed.

Example found_table_extended_ex : exists l l', extended sc_old sc_new /\ layout_new sc_old = Ret l /\ layout_new sc_new = Ret l' /\ small sc_new /\
  marshallable Debug l' /\ table_page Debug sc_new l' 4 tb_page tb_vals.
Proof.
  eexists _, _. split; [exact sc_extended|]. split; [vm_compute; reflexivity|]. split; [vm_compute; reflexivity|]. split; [vm_compute; reflexivity|].
  split; [apply sc_marshallable; vm_compute; reflexivity|].
  eapply found_table_extended; [exact sc_extended| | | | | | |exact tb_shape|apply tb_table];
    try (vm_compute; reflexivity); [apply tb_marshallable|apply sc_marshallable]; vm_compute; reflexivity.
Qed.

(** The JSON of the same page. *)
Definition tb_type : str := lit "struct {i: u16, e: enum {a: (), b: string, c: (u32, enum {x: (), y: i8, z: ()})}}".

Example found_table_dumps_ex : exists l, parse_type tb_type = Ret (Ok sc_old) /\ layout_new sc_old = Ret l /\
  dump jx_fl Debug sc_old l 4 tb_page = Ret (map utf8_encode
    [lit "{""i"":513,""e"":{""kind"":""c"",""value"":[7,{""kind"":""y"",""value"":-3}]}}"; lit "{""i"":9,""e"":{""kind"":""b"",""value"":""AB""}}"]).
Proof. eexists. split; [vm_compute; reflexivity|]. split; [vm_compute; reflexivity|]. vm_compute. reflexivity. Qed.

(** With [bool] or [char] the sizes are not enough. *)
Theorem sizes_check_table_refuted : exists t l pg, small t /\ layout_new t = Ret l /\ marshallable Debug l /\ page_shape 4 (List.length pg) /\
  sizes_check Debug l 4 pg /\ forall vs, ~ table_page Debug t l 4 pg vs.
Proof.
  exists (TPrim PBool). eexists. exists (NsmBytesSpec.words [1; 15] ++ [x00; x00; x00; x00; x02; x00; x00; x00]).
  split; [vm_compute; reflexivity|]. split; [vm_compute; reflexivity|].
  split. { eapply (marshallable_type _ (TPrim PBool) []); [vm_compute; reflexivity|repeat constructor|vm_compute; reflexivity]. }
  split. { split; [apply pow2_true; reflexivity|]. split; [exists 4; reflexivity|]. split; vm_compute; [repeat constructor|reflexivity]. }
  split.
  { exists 1. split; [reflexivity|]. split; [vm_compute; repeat constructor|]. intros [|i] Hi; [|clear -Hi; lia]. eexists. split; [vm_compute; reflexivity|vm_compute; reflexivity]. }
  intros vs (Hn & _ & H). vm_compute in Hn. injection Hn as Hn. destruct vs as [|v [|]]; try discriminate.
  destruct (H 0 v eq_refl) as (row & R & _ & P). vm_compute in R. injection R as <-. inversion P as [|? ? z Hz| | | |]; subst. vm_compute in Hz. discriminate.
Qed.
Print Assumptions sizes_check_table_refuted.
