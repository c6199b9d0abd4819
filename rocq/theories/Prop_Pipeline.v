(** * C77: JSON texts loaded into a page and dumped from it *)

From Coq Require Import Strings.String.
From Verif Require Import Base StrModel Utf8Model UtilSpec TypesModel MarshalModel MarshalSpec LayoutProofs MarshalLimits ValSource.
From Verif Require Import JsonModel JsonSpec JsonExamples JsonDocSpec SqlWords SqlParseModel TypeParseModel TypeGrammar TypeParsed TypeUseSpec NsmModel NsmSpec RecordSpec PipelineSpec PipelineProofs.
Local Open Scope list_scope.
Local Open Scope nat_scope.

(** C77: what is loaded depends only on the values: the order of members, white space, escapes, spelling of numbers and
    text after the documents make no difference to any byte of the page. *)
Theorem load_depends_on_values : forall alnum fl pf t l a texts texts' vs pg,
  all_structs (fun n => n < 64) t -> layout_new t = Ret l -> Forall (typed t) vs ->
  Forall2 (fun text v => exists r x r', document alnum fl t text v r /\ reads alnum r x r') texts vs ->
  Forall2 (fun text v => exists r x r', document alnum fl t text v r /\ reads alnum r x r') texts' vs ->
  load alnum fl pf t l a texts' pg = load alnum fl pf t l a texts pg.
Proof. intros. eapply load_by_value; eassumption. Qed.
Print Assumptions load_depends_on_values.

(** C77: a page filled from texts is dumped as texts that fill the same fresh page in the same way, byte by byte. *)
Theorem dump_reloads_page : forall alnum fl pf s t l a, parse_type s = Ret (Ok t) -> no_repeats t ->
  all_structs (fun n => n < 64) t -> small t -> layout_new t = Ret l -> marshallable pf l -> l_fixed l <> [] ->
  forall texts vs pg pg0 page, Forall (typed t) vs -> Forall (json_value fl t) vs ->
  Forall2 (fun text v => exists r x r', document alnum fl t text v r /\ reads alnum r x r') texts vs ->
  initialize_page a pg = Ret pg0 -> load alnum fl pf t l a texts pg0 = Ret (Ok page) ->
  exists outs texts', dump fl pf t l a page = Ret outs /\ Forall2 (fun bs text => utf8_decode bs = Some text) outs texts' /\
    load alnum fl pf t l a texts' pg0 = Ret (Ok page).
Proof. intros. eapply reload_lemma; eassumption. Qed.
Print Assumptions dump_reloads_page.

(** C77: the dump of any page of records, whatever its history and the padding of its records, can be loaded into every
    fresh page of the same size, and the dump of that page is the same. *)
Theorem dump_loads_into_fresh_page : forall alnum fl pf s t l a, parse_type s = Ret (Ok t) -> no_repeats t ->
  all_structs (fun n => n < 64) t -> small t -> layout_new t = Ret l -> marshallable pf l ->
  forall page rows vs pg pg0, holds a page rows -> Forall2 (record_of pf t l) vs rows -> Forall (json_value fl t) vs ->
  List.length pg = List.length page -> initialize_page a pg = Ret pg0 ->
  exists outs texts page', dump fl pf t l a page = Ret outs /\ Forall2 (fun bs text => utf8_decode bs = Some text) outs texts /\
    load alnum fl pf t l a texts pg0 = Ret (Ok page') /\ dump fl pf t l a page' = Ret outs.
Proof. intros. eapply copy_lemma; eassumption. Qed.
Print Assumptions dump_loads_into_fresh_page.

Definition px_type : str := lit "struct {name: string, size: u16}".
Definition px_ty : ty := TStruct [(lit "name", TString); (lit "size", TPrim PU16)].
Definition px_val (x : str) (n : Z) : val := VStruct [VStr (utf8_encode x); VPrim n].
Definition px_texts : list str := [lit "{""size"":7, ""name"":""A""}  ]"; lit "{""name"":""BC"",""size"":""258""}"].
Definition px_texts' : list str := [lit "{""name"":""A"",""size"":7}"; lit "{""name"":""BC"",""size"":258}"].

Definition px_documents (texts : list str) : Prop :=
  Forall2 (fun text v => exists r x r', document jx_alnum jx_fl px_ty text v r /\ reads jx_alnum r x r')
    texts [px_val (lit "A") 7; px_val (lit "BC") 258].

Example px_texts_documents : px_documents px_texts /\ px_documents px_texts'.
Proof.
  assert (A : all_structs (fun n => (n < 64)%nat) px_ty) by (repeat (constructor; cbn; try lia)).
  split; (repeat constructor); (apply (JsonDocProofs.decode_exact jx_alnum jx_fl Debug px_ty _ [] _ A); eexists; split; [vm_compute; reflexivity|];
    repeat first [reflexivity | econstructor]).
Qed.

Example px_values : Forall (typed px_ty) [px_val (lit "A") 7; px_val (lit "BC") 258] /\
  Forall (json_value jx_fl px_ty) [px_val (lit "A") 7; px_val (lit "BC") 258].
Proof.
  assert (T : forall x n, Forall json_char x -> (Z.of_nat (List.length (utf8_encode x)) < 100)%Z -> (0 <= n < 300)%Z ->
    typed px_ty (px_val x n) /\ json_value jx_fl px_ty (px_val x n)).
  { intros x n H1 H2 H3. split.
    - constructor. constructor; [constructor; lia|]. constructor; [constructor; cbn; lia|constructor].
    - constructor; [cbn; lia|]. constructor; [apply jv_string; exact H1|]. constructor; [|constructor].
      apply jv_prim; [cbn; lia|discriminate|intros [H|H]; discriminate]. }
  assert (J : forall c, (65 <= c <= 67)%Z -> json_char c) by (intros c H; unfold json_char, bad_control, is_char; repeat split; lia).
  assert (A : Forall json_char (lit "A")) by (constructor; [apply J; cbn; lia|constructor]).
  assert (B : Forall json_char (lit "BC")) by (constructor; [apply J; cbn; lia|constructor; [apply J; cbn; lia|constructor]]).
  split; (constructor; [apply T; (assumption || (vm_compute; intuition (reflexivity || discriminate)))|];
    constructor; [apply T; (assumption || (vm_compute; intuition (reflexivity || discriminate)))|constructor]).
Qed.

Example load_depends_on_values_ex : all_structs (fun n => n < 64) px_ty /\ (exists l, layout_new px_ty = Ret l) /\
  Forall (typed px_ty) [px_val (lit "A") 7; px_val (lit "BC") 258] /\ px_documents px_texts /\ px_documents px_texts'.
Proof.
  split; [repeat (constructor; cbn; try lia)|]. split; [eexists; vm_compute; reflexivity|].
  split; [apply px_values|apply px_texts_documents].
Qed.

Example dump_reloads_page_ex : exists l pg0 page,
  parse_type px_type = Ret (Ok px_ty) /\ no_repeats px_ty /\ all_structs (fun n => n < 64) px_ty /\ small px_ty /\
  layout_new px_ty = Ret l /\ marshallable Debug l /\ l_fixed l <> [] /\ initialize_page 4 (repeat xff 48) = Ret pg0 /\
  load jx_alnum jx_fl Debug px_ty l 4 px_texts pg0 = Ret (Ok page) /\
  dump jx_fl Debug px_ty l 4 page = Ret (map utf8_encode px_texts') /\
  load jx_alnum jx_fl Debug px_ty l 4 px_texts' pg0 = Ret (Ok page).
Proof.
  eexists _, _, _. split; [vm_compute; reflexivity|]. split.
  { constructor; [|repeat constructor]. cbn. constructor; [intros [H|[]]; discriminate|constructor; [intros []|constructor]]. }
  split; [repeat (constructor; cbn; try lia)|]. split; [vm_compute; reflexivity|]. split; [vm_compute; reflexivity|]. split.
  { eapply (marshallable_type _ px_ty []); [vm_compute; reflexivity|repeat constructor|vm_compute; reflexivity]. }
  split; [discriminate|]. repeat (split; [vm_compute; reflexivity|]). vm_compute. reflexivity.
Qed.

Example dump_loads_into_fresh_page_ex : exists l page pg0 row,
  layout_new px_ty = Ret l /\ holds 4 page [row] /\ record_of Debug px_ty l (px_val (lit "A") 7) row /\
  initialize_page 4 (repeat xff 48) = Ret pg0 /\ List.length page = 48 /\
  dump jx_fl Debug px_ty l 4 page = Ret [utf8_encode (lit "{""name"":""A"",""size"":7}")].
Proof.
  destruct px_values as [T _]. inversion T as [|? ? T1 _]; subst.
  eexists _, _, _, _. split; [vm_compute; reflexivity|].
  assert (R : forall l, layout_new px_ty = Ret l -> record_of Debug px_ty l (px_val (lit "A") 7) [x01; x00; x00; x00; x07; x00; x41; x2a]).
  { intros l E. vm_compute in E. injection E as <-. exists (val_source (px_val (lit "A") 7)), 8, (repeat x2a 9). eexists.
    split; [apply every_value_presented, T1|]. split; [exact T1|]. split; [vm_compute; reflexivity|]. split; [cbn; lia|].
    split; vm_compute; reflexivity. }
  split.
  { exists (repeat x00 48). eexists. exists [OpAppend [x01; x00; x00; x00; x07; x00; x41; x2a]]. split; [vm_compute; reflexivity|].
    split; [|vm_compute; reflexivity]. econstructor; [split; [vm_compute; repeat constructor|left; discriminate]|constructor]. }
  split; [apply R; vm_compute; reflexivity|]. split; [vm_compute; reflexivity|]. split; [vm_compute; reflexivity|]. vm_compute. reflexivity.
Qed.

(** C77: without the restriction to values that JSON keeps it is false: a control character is dumped as a text that
    loads as another string. *)
Theorem dump_reloads_page_refuted : exists s t l texts pg0 page out text page',
  parse_type s = Ret (Ok t) /\ layout_new t = Ret l /\ initialize_page 4 (repeat x00 32) = Ret pg0 /\
  load jx_alnum jx_fl Debug t l 4 texts pg0 = Ret (Ok page) /\ dump jx_fl Debug t l 4 page = Ret [out] /\
  utf8_decode out = Some text /\ load jx_alnum jx_fl Debug t l 4 [text] pg0 = Ret (Ok page') /\ page' <> page.
Proof.
  exists (lit "string"), TString. eexists. exists [lit """\u001a"""]. eexists _, _, _, _, _.
  repeat (split; [vm_compute; reflexivity|]). vm_compute. discriminate.
Qed.
Print Assumptions dump_reloads_page_refuted.
