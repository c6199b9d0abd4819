(** * Dumps of pages determine the values of their records (C107) *)

From Verif Require Import Base StrModel Utf8Model TypesModel MarshalModel MarshalSpec LayoutProofs ValSource JsonModel JsonSpec JsonPartWrite.
From Verif Require Import NsmModel NsmSpec NsmProofs RecordSpec RecordProofs PipelineSpec PipelineProofs JsonTellSpec JsonTellProofs.
Local Open Scope list_scope.
Local Open Scope nat_scope.

Section Dumped.
Context (fl : floats) (pf : profile) (t : ty) (l : layout) (a : nat).
Hypotheses (Hs : small t) (Hl : layout_new t = Ret l) (Hm : marshallable pf l).

Lemma dumped_from pg vs : forall rows outs i, Forall2 (record_of pf t l) vs rows ->
  (forall k row, nth_error rows k = Some row -> get_row a pg (i + k) = Ret row) ->
  dump_rows fl pf t l a pg i (List.length rows) = Ret outs -> Forall2 (shown fl t) vs outs.
Proof.
  induction vs as [|v vs IH]; intros rows outs i R G E; inversion R as [|? row ? rows0 Rv Rs]; subst; cbn [List.length dump_rows] in E; [apply ret_eq in E; subst; constructor|].
  rewrite <- (Nat.add_0_r i) in E at 1. rewrite (G 0 row) in E by reflexivity. cbn [bind] in E.
  rewrite (record_json pf t l Hs Hl Hm fl v row (val_source v)) in E; [|assumption|apply every_value_presented; eapply record_typed; eassumption].
  destruct (json_encode fl t (val_source v)) as [b| |] eqn:B; cbn [bind] in E; try discriminate E.
  destruct (dump_rows fl pf t l a pg (S i) (List.length rows0)) as [x| |] eqn:X; cbn [bind] in E; try discriminate E.
  apply ret_eq in E. subst outs. constructor; [exact B|]. apply (IH rows0 x (S i) Rs); [|exact X].
  intros k r K. rewrite Nat.add_succ_comm. apply G. exact K.
Qed.

Lemma dumped_shown pg rows vs outs : holds a pg rows -> Forall2 (record_of pf t l) vs rows -> dump fl pf t l a pg = Ret outs -> Forall2 (shown fl t) vs outs.
Proof.
  intros H R D. apply holds_rep in H. unfold dump in D. rewrite (rep_num_rows H) in D. cbn [bind] in D.
  apply (dumped_from pg vs rows outs 0 R); [|exact D]. intros k row E. apply (rep_get_row H). exact E.
Qed.
End Dumped.

Lemma shown_alike fl t : plain_floats fl -> cases_told t -> forall vs vs' outs outs', Forall (typed t) vs -> Forall (typed t) vs' ->
  Forall2 (shown fl t) vs outs -> Forall2 (shown fl t) vs' outs' -> (outs = outs' <-> Forall2 (alike fl t) vs vs').
Proof.
  intros F C vs vs' outs outs' T T' O. revert vs' outs' T'. induction O as [|v b vs outs Ov O IH]; intros vs' outs' T' O'.
  - split; [intros <-; inversion O'; constructor|]. intros A. inversion A; subst. inversion O'. reflexivity.
  - inversion T as [|? ? Tv Ts]; subst. split.
    + intros <-. inversion O' as [|v' ? vs1' ? Ov' O1']; subst. inversion T' as [|? ? Tv' Ts']; subst. constructor.
      * exact (text_tells fl F t _ _ v v' b C (every_value_presented _ _ Tv) (every_value_presented _ _ Tv') Tv Tv' Ov Ov').
      * apply (proj1 (IH Ts vs1' outs Ts' O1')). reflexivity.
    + intros A. inversion A as [|? v' ? vs1' Av As]; subst. inversion O' as [|? b' ? outs1' Ov' O1']; subst. inversion T' as [|? ? Tv' Ts']; subst. f_equal.
      * unfold shown, json_encode in Ov, Ov'. pose proof (alike_emitted fl t v v' _ _ [] [] Av (every_value_presented _ _ Tv) (every_value_presented _ _ Tv')) as X. congruence.
      * apply (IH Ts vs1' outs1' Ts' O1'). exact As.
Qed.

Lemma all_typed pf t l vs rows : Forall2 (record_of pf t l) vs rows -> Forall (typed t) vs.
Proof. induction 1 as [|v row vs rows Rv R IH]; constructor; auto. eapply record_typed. eassumption. Qed.

Lemma dump_tells fl pf pf' t l a a' pg pg' rows rows' vs vs' outs outs' : plain_floats fl -> cases_told t ->
  small t -> layout_new t = Ret l -> marshallable pf l -> marshallable pf' l ->
  holds a pg rows -> Forall2 (record_of pf t l) vs rows -> holds a' pg' rows' -> Forall2 (record_of pf' t l) vs' rows' ->
  dump fl pf t l a pg = Ret outs -> dump fl pf' t l a' pg' = Ret outs' -> (outs = outs' <-> Forall2 (alike fl t) vs vs').
Proof.
  intros F C Hs Hl M M' H R H' R' D D'.
  exact (shown_alike fl t F C vs vs' outs outs' (all_typed _ _ _ _ _ R) (all_typed _ _ _ _ _ R')
    (dumped_shown fl pf t l a Hs Hl M pg rows vs outs H R D) (dumped_shown fl pf' t l a' Hs Hl M' pg' rows' vs' outs' H' R' D')).
Qed.
