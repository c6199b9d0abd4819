(** * Pages moved to a wider type through JSON texts (C106) *)

From Coq Require Import Strings.String ZifyBool ZifyNat ZifyN.
From Verif Require Import Base StrModel Utf8Model TypesModel MarshalModel MarshalSpec LayoutProofs JsonModel JsonSpec JsonRewriteSpec TypeGrammar JsonWidenSpec JsonWidenProofs JsonWidenMore.
From Verif Require Import TypeParseModel TypeUseSpec NsmModel NsmSpec RecordSpec PipelineSpec PipelineProofs ValSource SizeTotal.
Local Open Scope list_scope.
Local Open Scope nat_scope.

Lemma typed_list_nth ts vs : typed_list ts vs -> List.length vs = List.length ts /\ forall i t, nth_error ts i = Some t -> exists v, nth_error vs i = Some v /\ typed t v.
Proof.
  intros H. induction H as [|t ts v vs D H (L & IH)]; [split; [reflexivity|intros [|i] t E; discriminate E]|]. split; [cbn; congruence|].
  intros [|i] u E; cbn in *; [injection E as <-; eauto|auto].
Qed.

Lemma typed_list_build ts : forall vs, List.length vs = List.length ts -> (forall i t, nth_error ts i = Some t -> exists v, nth_error vs i = Some v /\ typed t v) -> typed_list ts vs.
Proof.
  induction ts as [|t ts IH]; intros [|v vs] L H; try discriminate L; constructor.
  - destruct (H 0 t eq_refl) as (v' & E & T). cbn in E. injection E as <-. exact T.
  - apply IH; [now injection L|]. intros i u E. exact (H (S i) u E).
Qed.

Lemma utf8_char_length c : List.length (utf8_encode [c]) <= 4.
Proof. unfold utf8_encode. cbn [flat_map]. rewrite app_nil_r. unfold utf8_char. repeat match goal with |- context [if ?b then _ else _] => destruct b end; cbn; lia. Qed.

Lemma carried_typed t : forall t' v v', no_repeats t -> widens t t' -> typed t v -> carried t v t' v' -> typed t' v'.
Proof.
  induction t using ty_ind'; intros t' v v' N W D C.
  - inversion C; subst. constructor.
  - inversion C; subst.
    + exact D.
    + inversion D; subst. constructor. inversion W; subst; auto.
    + constructor. match goal with |- context [utf8_encode ?x] => pose proof (utf8_char_length c) end. lia.
  - inversion C; subst. exact D.
  - inversion N as [| | |ts0 Fn| |]; subst. inversion W as [| | | | |a b F| |]; subst. inversion D as [| | |ts1 vs Dl| |]; subst.
    destruct (typed_list_nth _ _ Dl) as (Lv & Dn). inversion C as [| | | | |ts1 vs1 ts2 w1 L1 M1 G1| |]; subst.
    constructor. apply typed_list_build; [congruence|]. intros i t' Et'. destruct (nth_error ts i) as [t|] eqn:E.
    + destruct (Dn _ _ E) as (v & Ev & Dv). destruct (G1 _ _ _ E Ev) as (u1 & x1 & U1 & X1 & Y1). rewrite Et' in U1. injection U1 as <-.
      exists x1. split; [exact X1|]. destruct (Forall2_nth _ _ _ _ _ F E) as (u & U & V). rewrite Et' in U. injection U as <-.
      rewrite Forall_forall in H, Fn. pose proof (nth_error_In _ _ E) as I. exact (H _ I _ _ _ (Fn _ I) V Dv Y1).
    + apply nth_error_None in E. assert (i < List.length b) by (apply nth_error_Some; congruence). lia.
  - inversion N as [| | | |fs0 Nd Fn|]; subst. inversion W as [| | | | | |a b L Nd' G|]; subst. inversion D as [| | | |fs1 vs Dl|]; subst.
    destruct (typed_list_nth _ _ Dl) as (Lv & Dn). rewrite map_length in Lv. inversion C as [| | | | | |fs1 vs1 fs2 w1 L1 M1 G1|]; subst.
    constructor. apply typed_list_build; [rewrite map_length; congruence|]. intros j t' Et'.
    destruct (nth_error b j) as [(l, t0)|] eqn:E; [|rewrite nth_error_map, E in Et'; discriminate].
    rewrite nth_error_map, E in Et'. cbn in Et'. injection Et' as ->.
    assert (I : In l (map fst fs)).
    { assert (In2 : incl (map fst b) (map fst fs)).
      { apply NoDup_length_incl; [exact Nd|rewrite !map_length; lia|]. intros x Hx. apply in_map_iff in Hx. destruct Hx as ((x0, y) & <- & Hx). destruct (G _ _ Hx) as (t1 & I1 & _).
        apply in_map_iff. exists (x0, t1). auto. }
      apply In2. apply in_map_iff. exists (l, t'). split; [reflexivity|exact (nth_error_In _ _ E)]. }
    apply in_map_iff in I. destruct I as ((l0, t) & El & I). cbn in El. subst l0. destruct (In_nth_error _ _ I) as (i & Ei).
    destruct (Dn i t) as (v & Ev & Dv); [exact (map_nth_error snd _ _ Ei)|].
    destruct (G1 _ _ _ _ Ei Ev) as (j1 & t1 & x1 & U1 & X1 & Y1). destruct (labels_once _ _ _ _ _ _ Nd' U1 E) as (-> & ->).
    exists x1. split; [exact X1|]. destruct (G _ _ I) as (t3 & I3 & V). destruct (In_nth_error _ _ I3) as (j3 & U3). destruct (labels_once _ _ _ _ _ _ Nd' U3 E) as (_ & ->).
    rewrite Forall_forall in H, Fn. exact (H _ I _ _ _ (Fn _ I) V Dv Y1).
  - inversion N as [| | | | |cs0 Nd Fn]; subst. inversion W as [| | | | | | |a b G]; subst.
    inversion C as [| | | | | | |a1 k1 x1 b1 j1 y1 l1 t1 u1 A1 B1 Y1]; subst. inversion D as [| | | | |cs1 k l t v Ek Dv]; subst.
    destruct A1 as (A1 & A1'). rewrite A1 in Ek. injection Ek as <- <-. destruct B1 as (B1 & B1'). eapply ty_enum; [exact B1|].
    destruct (G _ _ _ (conj A1 A1')) as (k3 & t3 & (C3 & C3') & V). assert (k3 = j1) by (pose proof (C3' _ _ B1); pose proof (B1' _ _ C3); lia). subst k3.
    rewrite B1 in C3. injection C3 as <-. rewrite Forall_forall in H, Fn. pose proof (nth_error_In _ _ A1) as I. exact (H _ I _ _ _ (Fn _ I) V Dv Y1).
Qed.

(** ** Pages *)

Lemma wide_texts alnum fl pf t t' texts vs : all_structs (fun n => n < 64) t -> all_structs (fun n => n < 64) t' -> widens t t' ->
  Forall2 (decodes alnum fl pf t) texts vs -> exists vs', Forall2 (fun v v' => carried t v t' v') vs vs' /\ Forall2 (decodes alnum fl pf t') texts vs'.
Proof.
  intros A A' W. induction 1 as [|text v texts vs D _ (vs' & C & E)]; [exists []; auto|].
  destruct (wide_stands alnum fl pf t t' text v A A' W D) as (v' & Cv & Dv). exists (v' :: vs'). auto.
Qed.

Lemma carried_all_typed t t' vs vs' : no_repeats t -> widens t t' -> Forall (typed t) vs -> Forall2 (fun v v' => carried t v t' v') vs vs' -> Forall (typed t') vs'.
Proof.
  intros N W T C. induction C as [|v v' vs vs' Cv C IH]; [constructor|]. inversion T; subst. constructor; [|auto]. eapply carried_typed; eassumption.
Qed.

Lemma migrate_lemma alnum fl pf s t l a t' l' a' : parse_type s = Ret (Ok t) -> no_repeats t ->
  all_structs (fun n => n < 64) t -> small t -> layout_new t = Ret l -> marshallable pf l ->
  widens t t' -> all_structs (fun n => n < 64) t' -> small t' -> layout_new t' = Ret l' -> marshallable pf l' ->
  forall page rows vs, holds a page rows -> Forall2 (record_of pf t l) vs rows -> Forall (json_value fl t) vs ->
  exists outs texts vs', dump fl pf t l a page = Ret outs /\ Forall2 (fun bs text => utf8_decode bs = Some text) outs texts /\
    Forall2 (fun v v' => carried t v t' v') vs vs' /\
    forall rows' pg pg0, Forall2 (record_of pf t' l') vs' rows' -> initialize_page a' pg = Ret pg0 ->
      4 * (List.length rows' + 1) + stored a' rows' <= List.length pg ->
      exists page' rows'', load alnum fl pf t' l' a' texts pg0 = Ret (Ok page') /\ holds a' page' rows'' /\ Forall2 (record_of pf t' l') vs' rows''.
Proof.
  intros P N A Sm L M W A' Sm' L' M' page rows vs H R J.
  assert (T : Forall (typed t) vs) by (clear - R; induction R as [|v row vs rows Rv R IH]; constructor; auto; eapply record_typed; eassumption).
  destruct (shown_texts alnum fl pf s t P N vs T J) as (outs & texts & X & Y & Z).
  destruct (wide_texts _ _ _ _ _ _ _ A A' W Z) as (vs' & C & Z'). exists outs, texts, vs'.
  split; [exact (dump_shown fl pf t l a Sm L M page rows vs outs H R X)|]. split; [exact Y|]. split; [exact C|].
  intros rows' pg pg0 R' I B. destruct (fresh_holds _ _ _ I) as (H0 & L0).
  destruct (puts_fit alnum pf t' l' a' Sm' L' M' vs' rows' R' pg0 [] [] H0 ltac:(constructor)) as (page' & rows'' & E & H' & R'').
  { change (stored a' []) with 0. cbn [List.length]. rewrite L0. lia. }
  exists page', rows''. split; [|auto]. rewrite (load_puts alnum fl pf t' l' a' L' texts vs' Z' (carried_all_typed _ _ _ _ N W T C)). exact E.
Qed.

(** The records of the new type exist, and their sizes are bounded. *)
Lemma carried_records pf t t' l' vs vs' : no_repeats t -> widens t t' -> small t' -> layout_new t' = Ret l' -> marshallable pf l' ->
  Forall (typed t) vs -> Forall2 (fun v v' => carried t v t' v') vs vs' -> Forall (fun v' => (Z.of_nat (val_size v') < 2 ^ 57)%Z) vs' ->
  exists rows', Forall2 (fun v' row => record_of pf t' l' v' row /\ List.length row <= 64 * val_size v') vs' rows'.
Proof.
  intros N W Sm L M T C B. pose proof (carried_all_typed _ _ _ _ N W T C) as T'. clear T C.
  induction T' as [|v vs0 Tv T' IH]; [exists []; constructor|]. inversion B as [|? ? Bv B']; subst. destruct (IH B') as (rows & R).
  destruct (size_total (val_source v) t' [] l' v L (every_value_presented _ _ Tv) Bv) as (n & E & Le).
  destruct (put_record pf t' l' Sm L M v n Tv E) as (row & _ & Rr & Lr). exists (row :: rows). constructor; [|exact R]. split; [exact Rr|lia].
Qed.
