(** * Texts and pages moved between a type and a stretched one (C108) *)

From Verif Require Import Base StrModel Utf8Model TypesModel MarshalModel MarshalSpec LayoutProofs JsonModel JsonSpec JsonRewriteSpec TypeGrammar JsonWidenSpec JsonWidenProofs JsonWidenMore.
From Verif Require Import TypeParseModel TypeUseSpec NsmModel NsmSpec RecordSpec PipelineSpec PipelineProofs JsonMigrate JsonNarrowSpec JsonNarrowProofs.
Local Open Scope list_scope.
Local Open Scope nat_scope.

Lemma stretched_reads alnum fl pf t t' text v v' : all_structs (fun n => n < 64) t -> all_structs (fun n => n < 64) t' -> no_repeats t -> stretches t t' ->
  typed t v -> decoded t v -> carried t v t' v' -> (stands_for alnum fl pf t text v <-> stands_for alnum fl pf t' text v').
Proof.
  intros A A' N S T D C. pose proof (stretches_widens _ _ S) as W. split; [|exact (narrow_stands alnum fl pf t t' text v v' A A' N S T C)].
  intros X. destruct (wide_stands alnum fl pf t t' text v A A' W X) as (w & Cw & Sw). now rewrite (carried_once t t' v v' w N W D C Cw).
Qed.

Lemma narrow_texts alnum fl pf t t' texts vs vs' : all_structs (fun n => n < 64) t -> all_structs (fun n => n < 64) t' -> no_repeats t -> stretches t t' ->
  Forall (typed t) vs -> Forall2 (fun v v' => carried t v t' v') vs vs' -> Forall2 (decodes alnum fl pf t') texts vs' -> Forall2 (decodes alnum fl pf t) texts vs.
Proof.
  intros A A' N S T C. revert texts. induction C as [|v v' vs vs' Cv C IH]; intros texts D; inversion D; subst; constructor; inversion T; subst; auto.
  eapply (narrow_stands alnum fl pf t t'); eassumption.
Qed.

Lemma back_lemma alnum fl pf s' t' l' a' t l a : parse_type s' = Ret (Ok t') -> no_repeats t' -> no_repeats t ->
  all_structs (fun n => n < 64) t' -> small t' -> layout_new t' = Ret l' -> marshallable pf l' ->
  stretches t t' -> all_structs (fun n => n < 64) t -> small t -> layout_new t = Ret l -> marshallable pf l ->
  forall page' rows' vs' vs rows pg pg0, holds a' page' rows' -> Forall2 (record_of pf t' l') vs' rows' -> Forall (json_value fl t') vs' ->
  Forall2 (fun v v' => carried t v t' v') vs vs' -> Forall2 (record_of pf t l) vs rows -> initialize_page a pg = Ret pg0 ->
  4 * (List.length rows + 1) + stored a rows <= List.length pg ->
  exists outs texts page rows2, dump fl pf t' l' a' page' = Ret outs /\ Forall2 (fun bs text => utf8_decode bs = Some text) outs texts /\
    load alnum fl pf t l a texts pg0 = Ret (Ok page) /\ holds a page rows2 /\ Forall2 (record_of pf t l) vs rows2.
Proof.
  intros P N' N A' Sm' L' M' S A Sm L M page' rows' vs' vs rows pg pg0 H R' J C R I B.
  assert (Ty : forall t l vs rows, Forall2 (record_of pf t l) vs rows -> Forall (typed t) vs) by (intros t0 l0 us rs X; induction X as [|v row us rs Rv X IH]; constructor; auto; eapply record_typed; eassumption).
  pose proof (Ty _ _ _ _ R') as T'. pose proof (Ty _ _ _ _ R) as T.
  destruct (shown_texts alnum fl pf s' t' P N' vs' T' J) as (outs & texts & X & Y & Z).
  pose proof (narrow_texts alnum fl pf t t' texts vs vs' A A' N S T C Z) as Z'.
  destruct (fresh_holds _ _ _ I) as (H0 & L0).
  destruct (puts_fit alnum pf t l a Sm L M vs rows R pg0 [] [] H0 ltac:(constructor)) as (page & rows2 & E & Hp & R2).
  { change (stored a []) with 0. cbn [List.length]. rewrite L0. lia. }
  exists outs, texts, page, rows2. split; [exact (dump_shown fl pf t' l' a' Sm' L' M' page' rows' vs' outs H R' X)|]. split; [exact Y|].
  split; [|auto]. rewrite (load_puts alnum fl pf t l a L texts vs Z' T). exact E.
Qed.
