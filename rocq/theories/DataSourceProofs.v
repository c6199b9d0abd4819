(** * The data source *)

From Coq Require Import Sorted.
From Verif Require Import Base StrModel Utf8Model TypesModel TypesSpec TypesProofs MarshalModel JsonModel JsonData DataSourceModel DataSourceSpec.

Definition ordered (m : tmap) : Prop := StronglySorted (fun a b => path_cmp (fst a) (fst b) = Lt) m.

Lemma insert_in m q v e : In e (tm_insert m q v) -> e = (q, v) \/ In e m \/ fst e = q.
Proof.
  induction m as [|[k w] m IH]; cbn [tm_insert]; [intros [<-|[]]; auto|].
  destruct (path_cmp q k) eqn:E.
  - apply path_cmp_eq in E. subst k. intros [<-|H]; [auto|right; left; right; exact H].
  - intros [<-|H]; auto.
  - intros [<-|H]; [right; left; left; reflexivity|]. destruct (IH H) as [G|[G|G]]; auto. right. left. right. exact G.
Qed.

Lemma insert_ordered m q v : ordered m -> ordered (tm_insert m q v).
Proof.
  unfold ordered. induction 1 as [|[k w] m Hm IH Hk]; cbn [tm_insert]; [repeat constructor|].
  destruct (path_cmp q k) eqn:E.
  - constructor; assumption.
  - constructor; [constructor; assumption|]. constructor; [exact E|]. eapply Forall_impl; [|exact Hk]. cbv beta. intros e He.
    cbn [fst] in *. eapply path_cmp_trans; eassumption.
  - constructor; [exact IH|]. rewrite Forall_forall in *. intros e He. cbn [fst] in *.
    assert (L : path_cmp k q = Lt) by (rewrite path_cmp_opp, E; reflexivity).
    destruct (insert_in _ _ _ _ He) as [->|[G|G]]; [exact L|apply Hk; exact G|rewrite G; exact L].
Qed.

Lemma get_none m q : Forall (fun e => path_cmp q (fst e) = Lt) m -> tm_get m q = None.
Proof. intros [|[k w] m' H _]; [reflexivity|]. cbn [tm_get fst] in *. rewrite H. reflexivity. Qed.

Lemma get_insert m q v p : ordered m -> tm_get (tm_insert m q v) p = if path_eqb q p then Some v else tm_get m p.
Proof.
  intros Ho. destruct (path_eqb q p) eqn:E.
  - apply path_eqb_eq in E. subst p. clear Ho.
    assert (R : path_cmp q q = Eq) by (apply path_cmp_eq; reflexivity).
    induction m as [|[k w] m IH]; cbn [tm_insert tm_get]; [rewrite R; reflexivity|].
    destruct (path_cmp q k) eqn:E; cbn [tm_get]; [|rewrite R; reflexivity|rewrite E; exact IH].
    rewrite E. reflexivity.
  - assert (N : q <> p) by (intros ->; assert (path_eqb p p = true) by (apply path_eqb_eq; reflexivity); congruence).
    induction Ho as [|[k w] m Hm IH Hk]; cbn [tm_insert tm_get].
    + destruct (path_cmp p q) eqn:C; [|reflexivity|reflexivity]. apply path_cmp_eq in C. congruence.
    + destruct (path_cmp q k) eqn:C; cbn [tm_get].
      * apply path_cmp_eq in C. subst k. destruct (path_cmp p q) eqn:C; [|reflexivity|reflexivity]. apply path_cmp_eq in C. congruence.
      * destruct (path_cmp p q) eqn:C2; [apply path_cmp_eq in C2; congruence| |reflexivity].
        rewrite (path_cmp_trans _ _ _ _ C2 C). reflexivity.
      * rewrite IH. reflexivity.
Qed.

Lemma run_ordered h m : ordered m -> ordered (fold_left td_op h m).
Proof.
  revert m. induction h as [|op h IH]; intros m Hm; cbn [fold_left]; [exact Hm|]. apply IH.
  destruct op; cbn [td_op]; try apply insert_ordered; try exact Hm. constructor.
Qed.

Lemma apply_agree m d op : ordered m -> (forall q, tm_get m q = ds_get d q) -> forall q, tm_get (td_op m op) q = ds_get (ds_op_list d op) q.
Proof.
  intros Hm H q. destruct op; cbn [td_op ds_op_list]; unfold td_add_primitive, td_add_string, td_add_case_tag, ds_add;
    try (rewrite get_insert by exact Hm; cbn [ds_get]; rewrite H; reflexivity). reflexivity.
Qed.

Lemma run_agree h : forall m d, ordered m -> (forall q, tm_get m q = ds_get d q) ->
  forall q, tm_get (fold_left td_op h m) q = ds_get (fold_left ds_op_list h d) q.
Proof.
  induction h as [|op h IH]; intros m d Hm H q; cbn [fold_left]; [apply H|]. apply IH.
  - apply (run_ordered [op]). exact Hm.
  - apply apply_agree; assumption.
Qed.

Lemma new_agree h q : tm_get (td_run h) q = ds_get (ds_run h) q.
Proof. apply (run_agree h td_new []); [constructor|reflexivity]. Qed.

(** What an operation leaves at a path that it is about. *)
Definition left_at (op : ds_op) : option jvalue :=
  match op with
  | DPrimitive _ p z => Some (JPrim p z)
  | DString _ s => Some (JString s)
  | DCaseTag _ n => Some (JTag n)
  | DClear => None
  end.

Lemma path_eqb_refl q : path_eqb q q = true.
Proof. apply path_eqb_eq. reflexivity. Qed.

Lemma skip_op d op q : ~ about q op -> ds_get (ds_op_list d op) q = ds_get d q.
Proof.
  intros H. destruct op; cbn [ds_op_list about] in *; unfold ds_add; cbn [ds_get];
    try (destruct (path_eqb q0 q) eqn:E; [apply path_eqb_eq in E; contradiction|reflexivity]). exfalso. exact (H I).
Qed.

Lemma do_op d op q : about q op -> ds_get (ds_op_list d op) q = left_at op.
Proof.
  intros H. destruct op; cbn [ds_op_list about left_at] in *; unfold ds_add; cbn [ds_get]; subst; rewrite ?path_eqb_refl; reflexivity.
Qed.

Lemma skip_all h q : Forall (fun o => ~ about q o) h -> forall d, ds_get (fold_left ds_op_list h d) q = ds_get d q.
Proof. induction 1 as [|op h Hop _ IH]; intros d; cbn [fold_left]; [reflexivity|]. rewrite IH. apply skip_op. exact Hop. Qed.

Lemma get_last h q op : last_word h q op -> tm_get (td_run h) q = left_at op.
Proof.
  intros (b & a & -> & Ha & Hs). rewrite new_agree. unfold ds_run. rewrite fold_left_app. cbn [fold_left]. rewrite skip_all by exact Hs. apply do_op. exact Ha.
Qed.

Lemma get_never h q : Forall (fun o => ~ about q o) h -> tm_get (td_run h) q = None.
Proof. intros H. rewrite new_agree. unfold ds_run. rewrite skip_all by exact H. reflexivity. Qed.

Lemma about_dec q op : {about q op} + {~ about q op}.
Proof.
  destruct op; cbn [about]; try (destruct (path_eqb q0 q) eqn:E; [left; apply path_eqb_eq; exact E|right; intros H; apply path_eqb_eq in H; congruence]).
  left. exact I.
Qed.

Lemma word_cases h q : (exists op, last_word h q op) \/ Forall (fun o => ~ about q o) h.
Proof.
  induction h as [|op h IH]; [right; constructor|]. destruct IH as [(o & b & a & -> & H1 & H2)|H].
  - left. exists o, (op :: b), a. auto.
  - destruct (about_dec q op) as [A|A]; [left; exists op, [], h; auto|right; constructor; assumption].
Qed.

Lemma last_unique h q op op' : last_word h q op -> last_word h q op' -> op' = op.
Proof.
  revert op op'. induction h as [|o h IH]; intros op op' (b & a & E & H1 & H2) (b' & a' & E' & H1' & H2').
  - destruct b; discriminate.
  - destruct b as [|x b], b' as [|x' b']; cbn [app] in *.
    + congruence.
    + injection E as -> ->. injection E' as -> ->. exfalso. rewrite Forall_forall in H2. apply (H2 op'); [apply in_or_app; right; left; reflexivity|exact H1'].
    + injection E as -> ->. injection E' as -> <-. exfalso. rewrite Forall_forall in H2'. apply (H2' op); [apply in_or_app; right; left; reflexivity|exact H1].
    + injection E as -> E. injection E' as -> E'. apply IH; [exists b, a; auto|exists b', a'; auto].
Qed.

Section Answers.
Context (h : list ds_op) (q : path).
Let m := td_run h.

Lemma answer_prim p : (exists z, last_word h q (DPrimitive q p z) /\ src_prim (td_source m) p q = Ret z) \/
  (~ (exists z, last_word h q (DPrimitive q p z)) /\ src_prim (td_source m) p q = Panic).
Proof.
  cbn [td_source src_prim]. destruct (word_cases h q) as [[op L]|N].
  - unfold m. rewrite (get_last _ _ _ L). destruct op; cbn [left_at];
      try (right; split; [intros [z' L']; pose proof (last_unique _ _ _ _ L L'); discriminate|reflexivity]).
    assert (q0 = q) as -> by (destruct L as (b & a & _ & A & _); exact A).
    destruct (JsonModel.prim_eqb p0 p) eqn:E.
    + apply prim_eqb_eq in E. subst p0. left. exists z. auto.
    + right. split; [|reflexivity]. intros [z' L']. pose proof (last_unique _ _ _ _ L L') as X. injection X as -> ->. rewrite prim_eqb_refl in E. discriminate.
  - unfold m. rewrite (get_never _ _ N). right. split; [|reflexivity]. intros (z & b & a & -> & A & _).
    rewrite Forall_forall in N. apply (N (DPrimitive q p z)); [apply in_or_app; right; left; reflexivity|exact A].
Qed.

Lemma answer_tag : (exists n, last_word h q (DCaseTag q n) /\ src_tag (td_source m) q = Ret n) \/
  (~ (exists n, last_word h q (DCaseTag q n)) /\ src_tag (td_source m) q = Panic).
Proof.
  cbn [td_source src_tag]. destruct (word_cases h q) as [[op L]|N].
  - unfold m. rewrite (get_last _ _ _ L). destruct op; cbn [left_at];
      try (right; split; [intros [z' L']; pose proof (last_unique _ _ _ _ L L'); discriminate|reflexivity]).
    assert (q0 = q) as -> by (destruct L as (b & a & _ & A & _); exact A). left. exists n. auto.
  - unfold m. rewrite (get_never _ _ N). right. split; [|reflexivity]. intros (z & b & a & -> & A & _).
    rewrite Forall_forall in N. apply (N (DCaseTag q z)); [apply in_or_app; right; left; reflexivity|exact A].
Qed.

Lemma answer_text : (exists s, last_word h q (DString q s) /\ src_bytes (td_source m) q = Ret (utf8_encode s) /\
                               src_len (td_source m) q = Ret (List.length (utf8_encode s))) \/
  (~ (exists s, last_word h q (DString q s)) /\ src_bytes (td_source m) q = Panic /\ src_len (td_source m) q = Panic).
Proof.
  cbn [td_source src_bytes src_len]. destruct (word_cases h q) as [[op L]|N].
  - unfold m. rewrite (get_last _ _ _ L). destruct op; cbn [left_at];
      try (right; split; [intros [z' L']; pose proof (last_unique _ _ _ _ L L'); discriminate|split; reflexivity]).
    assert (q0 = q) as -> by (destruct L as (b & a & _ & A & _); exact A). left. exists s. auto.
  - unfold m. rewrite (get_never _ _ N). right. split; [|split; reflexivity]. intros (z & b & a & -> & A & _).
    rewrite Forall_forall in N. apply (N (DString q z)); [apply in_or_app; right; left; reflexivity|exact A].
Qed.
End Answers.

Lemma sources_agree h : (forall p q, src_prim (td_source (td_run h)) p q = src_prim (ds_source (ds_run h)) p q) /\
  (forall q, src_tag (td_source (td_run h)) q = src_tag (ds_source (ds_run h)) q) /\
  (forall q, src_len (td_source (td_run h)) q = src_len (ds_source (ds_run h)) q) /\
  (forall q, src_bytes (td_source (td_run h)) q = src_bytes (ds_source (ds_run h)) q).
Proof.
  repeat split; intros; cbn [td_source ds_source src_prim src_tag src_len src_bytes]; rewrite new_agree; reflexivity.
Qed.
