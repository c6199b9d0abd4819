(** * Property C108: JSON texts read with a narrower type, and pages moved back *)

From Coq Require Import Strings.String.
From Verif Require Import Base StrModel Utf8Model UtilSpec TypesModel MarshalModel MarshalSpec LayoutProofs MarshalLimits ValSource.
From Verif Require Import JsonModel JsonSpec JsonExamples JsonRewriteSpec SqlWords SqlParseModel TypeParseModel TypeGrammar TypeParsed TypeUseSpec NsmModel NsmSpec RecordSpec PipelineSpec PipelineProofs Prop_Pipeline.
From Verif Require Import JsonWidenSpec JsonNarrowSpec JsonNarrowProofs JsonNarrowTop.
Local Open Scope list_scope.
Local Open Scope nat_scope.

(** A text stands for a value of the narrower type exactly if, read with the wider type, it stands for the value with the
    same numbers, strings and labels. *)
Theorem same_texts_both_types : forall alnum fl pf t t' text v v', all_structs (fun n => n < 64) t -> all_structs (fun n => n < 64) t' ->
  no_repeats t -> stretches t t' -> typed t v -> decoded t v -> carried t v t' v' ->
  (stands_for alnum fl pf t text v <-> stands_for alnum fl pf t' text v').
Proof. exact stretched_reads. Qed.
Print Assumptions same_texts_both_types.

(** A page of records of the wider type whose values all come from values of the narrower one is dumped as texts that load,
    with the narrower type, into every fresh page with enough space. *)
Theorem page_moves_back : forall alnum fl pf s' t' l' a' t l a, parse_type s' = Ret (Ok t') -> no_repeats t' -> no_repeats t ->
  all_structs (fun n => n < 64) t' -> small t' -> layout_new t' = Ret l' -> marshallable pf l' ->
  stretches t t' -> all_structs (fun n => n < 64) t -> small t -> layout_new t = Ret l -> marshallable pf l ->
  forall page' rows' vs' vs rows pg pg0, holds a' page' rows' -> Forall2 (record_of pf t' l') vs' rows' -> Forall (json_value fl t') vs' ->
  Forall2 (fun v v' => carried t v t' v') vs vs' -> Forall2 (record_of pf t l) vs rows -> initialize_page a pg = Ret pg0 ->
  4 * (List.length rows + 1) + stored a rows <= List.length pg ->
  exists outs texts page rows2, dump fl pf t' l' a' page' = Ret outs /\ Forall2 (fun bs text => utf8_decode bs = Some text) outs texts /\
    load alnum fl pf t l a texts pg0 = Ret (Ok page) /\ holds a page rows2 /\ Forall2 (record_of pf t l) vs rows2.
Proof. exact back_lemma. Qed.
Print Assumptions page_moves_back.

(** The narrower type: the fields in the other order, and a byte instead of two. *)
Definition nr_ty : ty := TStruct [(lit "size", TPrim PU8); (lit "name", TString)].
Definition nr_val (x : str) (n : Z) : val := VStruct [VPrim n; VStr (utf8_encode x)].

Lemma nr_stretches : stretches nr_ty px_ty.
Proof.
  apply sx_struct; [reflexivity|cbn; repeat constructor; cbn; intuition discriminate|].
  intros l t [E|[E|[]]]; injection E as <- <-.
  - exists (TPrim PU16). split; [cbn; tauto|]. apply sx_integer; [unfold integer_prim; cbn; intuition discriminate..| |reflexivity].
    intros z. unfold in_range. cbn. lia.
  - exists TString. split; [cbn; tauto|constructor].
Qed.

Lemma nr_carried x n : carried nr_ty (nr_val x n) px_ty (px_val x n).
Proof.
  apply ca_struct; [reflexivity|reflexivity|]. intros [|[|[|i]]] l t v E V; try discriminate E; injection E as <- <-; injection V as <-.
  - exists 1, (TPrim PU16). eexists. split; [reflexivity|]. split; [reflexivity|].
    apply ca_integer; unfold integer_prim; cbn; intuition discriminate.
  - exists 0, TString. eexists. split; [reflexivity|]. split; [reflexivity|constructor].
Qed.

Example same_texts_both_types_ex : stretches nr_ty px_ty /\ carried nr_ty (nr_val (lit "A") 7) px_ty (px_val (lit "A") 7) /\
  typed nr_ty (nr_val (lit "A") 7) /\ decoded nr_ty (nr_val (lit "A") 7) /\ no_repeats nr_ty /\ all_structs (fun n => n < 64) nr_ty /\
  stands_for jx_alnum jx_fl Debug nr_ty (lit "{""size"":7, ""name"":""A""}") (nr_val (lit "A") 7).
Proof.
  split; [exact nr_stretches|]. split; [apply nr_carried|]. split.
  { constructor. constructor; [constructor; cbn; lia|]. constructor; [constructor; vm_compute; reflexivity|constructor]. }
  split. { constructor. constructor; [constructor; cbn; lia|]. constructor; [apply de_string; repeat constructor|constructor]. }
  split. { constructor; [|repeat constructor]. cbn. constructor; [intros [H|[]]; discriminate|constructor; [intros []|constructor]]. }
  split; [repeat (constructor; cbn; try lia)|]. eexists. split; [vm_compute; reflexivity|]. repeat first [reflexivity | econstructor].
Qed.

Example page_moves_back_ex : exists l' l page' row' row pg0 page,
  layout_new px_ty = Ret l' /\ layout_new nr_ty = Ret l /\ small nr_ty /\ marshallable Debug l /\
  holds 4 page' [row'] /\ record_of Debug px_ty l' (px_val (lit "A") 7) row' /\ record_of Debug nr_ty l (nr_val (lit "A") 7) row /\
  initialize_page 2 (repeat xff 40) = Ret pg0 /\ 4 * (1 + 1) + stored 2 [row] <= 40 /\
  dump jx_fl Debug px_ty l' 4 page' = Ret [utf8_encode (lit "{""name"":""A"",""size"":7}")] /\
  load jx_alnum jx_fl Debug nr_ty l 2 [lit "{""name"":""A"",""size"":7}"] pg0 = Ret (Ok page).
Proof.
  destruct dump_loads_into_fresh_page_ex as (l' & page' & pg1 & row' & L & H & R & _ & _ & D).
  destruct same_texts_both_types_ex as (_ & _ & T & _).
  eexists l', _, page', row', _, _, _. split; [exact L|]. split; [vm_compute; reflexivity|]. split; [vm_compute; reflexivity|]. split.
  { eapply (marshallable_type _ nr_ty []); [vm_compute; reflexivity|repeat constructor|vm_compute; reflexivity]. }
  split; [exact H|]. split; [exact R|]. split.
  { exists (val_source (nr_val (lit "A") 7)). eexists _, (repeat x00 16), _. split; [apply every_value_presented, T|]. split; [exact T|].
    split; [vm_compute; reflexivity|]. split; [cbn; lia|]. split; vm_compute; reflexivity. }
  split; [vm_compute; reflexivity|]. split; [vm_compute; lia|]. split; [exact D|]. vm_compute. reflexivity.
Qed.

(** Where the sign is not kept the texts differ: [-0] is a number of the wider type only. *)
Theorem sign_change_refuted : exists t t' text v v', widens t t' /\ typed t v /\ carried t v t' v' /\
  stands_for jx_alnum jx_fl Debug t' text v' /\ ~ stands_for jx_alnum jx_fl Debug t text v.
Proof.
  exists (TPrim PU8), (TPrim PI16), (lit "-0"), (VPrim 0), (VPrim 0). split.
  { apply wd_integer; [unfold integer_prim; cbn; intuition discriminate..|]. intros z. unfold in_range. cbn. lia. }
  split; [constructor; cbn; lia|]. split; [apply ca_integer; unfold integer_prim; cbn; intuition discriminate|]. split.
  - eexists. split; [vm_compute; reflexivity|]. constructor. reflexivity.
  - intros (d & E & _). vm_compute in E. discriminate E.
Qed.
Print Assumptions sign_change_refuted.
