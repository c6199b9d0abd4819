(** * Tables found in bytes *)

From Coq Require Import Strings.String.
From Verif Require Import Base UtilModel UtilSpec StrModel Utf8Model TypesModel MarshalModel MarshalSpec MarshalLimits MarshalTop ValSource LayoutProofs.
From Verif Require Import JsonModel JsonSpec JsonDocSpec SqlWords SqlParseModel TypeParseModel TypeGrammar TypeParsed TypeUseSpec.
From Verif Require Import NsmModel NsmSpec NsmProofs RecordSpec RecordProofs PipelineSpec PipelineProofs RecordCanonSpec RecordCanon PageCheckSpec PageCheck SchemaSpec SchemaTop TableSpec.
Local Open Scope list_scope.
Local Open Scope nat_scope.

Lemma Forall2_len {A B} (R : A -> B -> Prop) l l' : Forall2 R l l' -> List.length l = List.length l'.
Proof. induction 1; cbn; auto. Qed.

Lemma Forall2_nth_intro {A B} (R : A -> B -> Prop) : forall l l', List.length l = List.length l' ->
  (forall i x y, nth_error l i = Some x -> nth_error l' i = Some y -> R x y) -> Forall2 R l l'.
Proof.
  induction l as [|x l IH]; intros [|y l'] L H; try discriminate; constructor; [exact (H 0 x y eq_refl eq_refl)|].
  apply IH; [cbn in L; lia|]. intros i u w Hu Hw. exact (H (S i) u w Hu Hw).
Qed.

Lemma holds_num a pg rows : holds a pg rows -> num_rows pg = Ret (List.length rows).
Proof. intros H. apply (rep_num_rows (holds_rep _ _ _ H)). Qed.

Lemma holds_row a pg rows i row : holds a pg rows -> nth_error rows i = Some row -> get_row a pg i = Ret row.
Proof. intros H. apply (rep_get_row (holds_rep _ _ _ H)). Qed.

(** [found_page_exact] of C85. *)
Lemma found a pg n : page_shape a (List.length pg) -> num_rows pg = Ret n ->
  ((exists rows, holds a pg rows) <->
   (forall i, i < n -> exists row, get_row a pg i = Ret row) /\ 4 * (n + 1) <= row_top a pg n).
Proof.
  intros Hs Hn. pose proof Hs as (_ & _ & Hmin & _). rewrite num_rows_word in Hn by exact Hmin. injection Hn as <-.
  rewrite (found_page a pg Hs). split; intros [H1 H2]; (split; [|exact H2]); intros i Hi; apply (there_row a pg i Hs); apply H1; exact Hi.
Qed.

Section Tables.
Context (pf : profile) (t : ty) (l : layout) (Hs : small t) (Hl : layout_new t = Ret l) (Hm : marshallable pf l).

Lemma row_record row v : encoding_size pf l row = Ret (List.length row) -> presents (marshaller_source pf l row) t [] v -> record_of pf t l v row.
Proof.
  intros He Hp. assert (W : whole_record pf l row (List.length row) /\ presents (marshaller_source pf l row) t [] v) by (split; [split; [exact He|lia]|exact Hp]).
  apply (readable_encoded pf t l row _ v Hs Hl Hm) in W. destruct W as (Ht & src & buf & H1 & H2 & H3 & H4).
  exists src, (List.length row), buf, row. rewrite firstn_all. auto 10.
Qed.

Lemma found_table a pg vs : page_shape a (List.length pg) ->
  (table_page pf t l a pg vs <-> exists rows, holds a pg rows /\ Forall2 (record_of pf t l) vs rows).
Proof.
  intros Hsh. split.
  - intros (Hn & Ht & Hr).
    assert (G : exists rows, holds a pg rows).
    { apply (found a pg _ Hsh Hn). split; [|exact Ht]. intros i Hi. destruct (nth_error vs i) as [v|] eqn:E; [|apply nth_error_None in E; lia].
      destruct (Hr i v E) as (row & H1 & _). eauto. }
    destruct G as [rows Hh]. exists rows. split; [exact Hh|]. pose proof (holds_num _ _ _ Hh) as Hn'. rewrite Hn in Hn'. injection Hn' as L.
    apply Forall2_nth_intro; [exact L|]. intros i v row Hv Hrow. destruct (Hr i v Hv) as (row' & H1 & H2 & H3).
    rewrite (holds_row _ _ _ _ _ Hh Hrow) in H1. injection H1 as <-. apply row_record; assumption.
  - intros (rows & Hh & F). pose proof (Forall2_len _ _ _ F) as L. unfold table_page. rewrite L.
    assert (Hn := holds_num _ _ _ Hh). destruct (proj1 (found a pg _ Hsh Hn)) as [_ Hc]; [eauto|].
    split; [exact Hn|]. split; [exact Hc|]. intros i v Hv. pose proof (Forall2_nth_error _ _ _ F i) as R. rewrite Hv in R.
    destruct (nth_error rows i) as [row|] eqn:E; [|destruct R]. exists row. split; [exact (holds_row _ _ _ _ _ Hh E)|].
    destruct (record_reads pf t l Hs Hl Hm v row R) as [P S]. auto.
Qed.

Lemma table_values a pg vs vs' : table_page pf t l a pg vs -> table_page pf t l a pg vs' -> vs' = vs.
Proof.
  intros (Hn & _ & H) (Hn' & _ & H'). rewrite Hn in Hn'. injection Hn' as L.
  assert (G : forall i, nth_error vs' i = nth_error vs i).
  { intros i. destruct (nth_error vs i) as [v|] eqn:E, (nth_error vs' i) as [v'|] eqn:E'; try reflexivity.
    - destruct (H i v E) as (row & R1 & _ & P). destruct (H' i v' E') as (row' & R1' & _ & P'). rewrite R1 in R1'. injection R1' as <-.
      f_equal. eapply presents_fun; eassumption.
    - apply nth_error_None in E'. assert (i < List.length vs) by (apply nth_error_Some; congruence). lia.
    - apply nth_error_None in E. assert (i < List.length vs') by (apply nth_error_Some; congruence). lia. }
  clear -G L. revert vs' L G. induction vs as [|v vs IH]; intros [|v' vs'] L G; try discriminate; [reflexivity|].
  pose proof (G 0) as G0. injection G0 as ->. f_equal. apply IH; [cbn in L; lia|]. intros i. exact (G (S i)).
Qed.

Lemma plain_table a pg : ~ uses PBool t -> ~ uses PChar t -> ((exists vs, table_page pf t l a pg vs) <-> sizes_check pf l a pg).
Proof.
  intros Hb Hc. split.
  - intros (vs & Hn & Ht & H). exists (List.length vs). split; [exact Hn|]. split; [exact Ht|]. intros i Hi.
    destruct (nth_error vs i) as [v|] eqn:E; [|apply nth_error_None in E; lia]. destruct (H i v E) as (row & H1 & H2 & _). eauto.
  - intros (n & Hn & Ht & H).
    assert (G : forall m, m <= n -> exists vs, List.length vs = m /\ forall i v, nth_error vs i = Some v ->
      exists row, get_row a pg i = Ret row /\ encoding_size pf l row = Ret (List.length row) /\ presents (marshaller_source pf l row) t [] v).
    { induction m as [|m IH]; intros Hm'; [exists []; split; [reflexivity|intros [|i] v X; discriminate]|].
      destruct IH as (vs & L & IH); [lia|]. destruct (H m) as (row & R1 & R2); [lia|].
      destruct (size_checks_plain pf t l row _ Hs Hl Hm Hb Hc (conj R2 (le_n _))) as (v & P & _).
      exists (vs ++ [v]). split; [rewrite app_length; cbn; lia|]. intros i w Hw. destruct (Nat.lt_ge_cases i (List.length vs)) as [Li|Li].
      - rewrite nth_error_app1 in Hw by exact Li. exact (IH i w Hw).
      - rewrite nth_error_app2 in Hw by exact Li. assert (i = m) as -> by (assert (i - List.length vs < 1) by (apply (nth_error_Some [v]); congruence); lia).
        rewrite L, Nat.sub_diag in Hw. injection Hw as <-. eauto. }
    destruct (G n (le_n _)) as (vs & <- & G'). exists vs. split; [exact Hn|]. split; [exact Ht|exact G'].
Qed.

Lemma table_append a pg vs src v n m : page_shape a (List.length pg) -> table_page pf t l a pg vs -> presents src t [] v -> typed t v ->
  encoding_size_with_source src l = Ret n -> 0 < n -> max_insert_row_size a pg = Ret m ->
  (n <= m -> exists row pg', encode_with_source pf src l (repeat x00 n) = Ret (row, n) /\ append_row a pg row = Ret pg' /\
     List.length pg' = List.length pg /\ table_page pf t l a pg' (vs ++ [v])) /\
  (m < n -> exists row, encode_with_source pf src l (repeat x00 n) = Ret (row, n) /\ forall pg', append_row a pg row <> Ret pg').
Proof.
  intros Hsh HT Hp Hty Hn Hpos Hmx. apply (found_table a pg vs Hsh) in HT. destruct HT as (rows & Hh & F).
  destruct (record_fits pf t l Hs Hl Hm a pg rows src v n m Hh Hp Hty Hn Hpos Hmx) as (row & He & Hr & Lr & Hfit). split.
  - intros Hle. exists row. destruct (proj2 Hfit Hle) as [pg' Ha]. exists pg'. split; [exact He|]. split; [exact Ha|].
    assert (Hrow : row <> []) by (intros ->; cbn in Lr; lia).
    pose proof (holds_rep _ _ _ Hh) as R. rewrite (rep_max_insert R) in Hmx. injection Hmx as <-.
    destruct (holds_step a pg rows (OpAppend row) Hh) as (pg1 & E1 & L1 & H1); [split; [lia|left; exact Hrow]|].
    cbn [apply_op] in E1. rewrite Ha in E1. injection E1 as <-. split; [exact L1|].
    apply found_table; [rewrite L1; exact Hsh|]. exists (rows ++ [row]). split; [exact H1|]. apply Forall2_app; [exact F|repeat constructor; exact Hr].
  - intros Hlt. exists row. split; [exact He|]. intros pg' E. assert (n <= m) by (apply Hfit; eauto). lia.
Qed.

Lemma table_remove a pg vs i : page_shape a (List.length pg) -> table_page pf t l a pg vs -> i < List.length vs ->
  exists pg', remove_row a pg i = Ret pg' /\ List.length pg' = List.length pg /\ table_page pf t l a pg' (firstn i vs ++ skipn (S i) vs).
Proof.
  intros Hsh HT Hi. apply (found_table a pg vs Hsh) in HT. destruct HT as (rows & Hh & F). pose proof (Forall2_len _ _ _ F) as L.
  destruct (holds_step a pg rows (OpRemove i) Hh) as (pg1 & E1 & L1 & H1); [cbn [op_ok]; lia|]. cbn [apply_op] in E1.
  exists pg1. split; [exact E1|]. split; [exact L1|]. apply found_table; [rewrite L1; exact Hsh|].
  eexists. split; [exact H1|]. cbn [spec_op]. apply Forall2_app; [apply Forall2_firstn; exact F|apply Forall2_skipn; exact F].
Qed.
End Tables.

Lemma table_extended pf t t' l l' a pg vs : extended t t' -> layout_new t = Ret l -> layout_new t' = Ret l' -> small t -> small t' ->
  marshallable pf l -> marshallable pf l' -> page_shape a (List.length pg) -> table_page pf t l a pg vs -> table_page pf t' l' a pg vs.
Proof.
  intros Hx Hl Hl' Hs Hs' Hm Hm' Hsh HT. apply (found_table pf t l Hs Hl Hm a pg vs Hsh) in HT. destruct HT as (rows & Hh & F).
  apply (found_table pf t' l' Hs' Hl' Hm' a pg vs Hsh). exists rows. split; [exact Hh|].
  assert (G : forall v row, record_of pf t l v row -> record_of pf t' l' v row).
  { intros v row R. assert (Ty : typed t v) by (destruct R as (? & ? & ? & ? & _ & Ty & _); exact Ty).
    eapply (proj1 (change_record pf t t' l l' Hx Hl Hl' v row Hs' Hm' Ty)). exact R. }
  clear -F G. induction F; constructor; auto.
Qed.
