(** * Validation does not look at strings and numerals *)

From Coq Require Import Strings.String.
From Verif Require Import Base SqlNameModel SqlModel SqlInd SqlFillSpec.
Local Open Scope list_scope.

Section Type_.
Variables (up : Z -> list Z) (g h : list Z -> list Z).
Notation infer := (infer up).
Notation infer_spec := (infer_spec up).
Notation infer_select := (infer_select up).
Notation infer_cte := (infer_cte up).
Notation infer_set := (infer_set up).
Notation infer_table := (infer_table up).
Notation infer_columns := (infer_columns up).
Notation infer_column := (infer_column up).
Notation pe := (put_expr g h).

Lemma collect_map {A B} (f : A -> res B) k l : Forall (fun a => f (k a) = f a) l -> collect f (map k l) = collect f l.
Proof. induction 1 as [|a l E _ IH]; [reflexivity|]. cbn [map collect]. rewrite E, IH. reflexivity. Qed.

Lemma fold_map {St A} (f f' : St -> A -> res St) k l : Forall (fun a => forall s, f s (k a) = f' s a) l ->
  forall s, fold_err f s (map k l) = fold_err f' s l.
Proof.
  induction 1 as [|a l E _ IH]; intros s; [reflexivity|]. cbn [map fold_err]. rewrite E. destruct (f' s a) as [[s'|e]| |]; cbn; try reflexivity. apply IH.
Qed.

Lemma guards_map f j l : Forall (fun p => f (pe (fst p)) = f (fst p) /\ f (pe (snd p)) = f (snd p)) l ->
  guards f j (map (fun p => (pe (fst p), pe (snd p))) l) = guards f j l.
Proof.
  induction 1 as [|[a b] l [E _] _ IH]; [reflexivity|]. cbn [map guards fst snd] in *. rewrite E. destruct (f a) as [[t|e]| |]; cbn; try reflexivity.
  destruct (j t); [exact IH|reflexivity].
Qed.

Lemma bodies_rest_map f l : Forall (fun p => f (pe (fst p)) = f (fst p) /\ f (pe (snd p)) = f (snd p)) l ->
  forall t, bodies_rest f t (map (fun p => (pe (fst p), pe (snd p))) l) = bodies_rest f t l.
Proof.
  induction 1 as [|[a b] l [_ E] _ IH]; intros t; [reflexivity|]. cbn [map bodies_rest fst snd] in *. rewrite E. destruct (f b) as [[u|e]| |]; cbn; try reflexivity.
  destruct (case_step t u); cbn; [apply IH|reflexivity].
Qed.

Lemma bodies_map f l : Forall (fun p => f (pe (fst p)) = f (fst p) /\ f (pe (snd p)) = f (snd p)) l ->
  bodies f (map (fun p => (pe (fst p), pe (snd p))) l) = bodies f l.
Proof.
  intros H. destruct H as [|[a b] l [_ E] F]; [reflexivity|]. cbn [map bodies fst snd] in *. rewrite E. destruct (f b) as [[u|e]| |]; cbn; try reflexivity.
  apply bodies_rest_map, F.
Qed.

Lemma members_rest_map f l : Forall (fun e => f (pe e) = f e) l -> forall acc, members_rest f acc (map pe l) = members_rest f acc l.
Proof. induction 1 as [|a l E _ IH]; intros acc; [reflexivity|]. cbn [map members_rest]. rewrite E. destruct (f a) as [r| |]; cbn; try reflexivity. apply IH. Qed.

Lemma members_map f l : Forall (fun e => f (pe e) = f e) l -> members f (map pe l) = members f l.
Proof. intros H. destruct H as [|a l E F]; [reflexivity|]. cbn [map members]. rewrite E. destruct (f a) as [r| |]; cbn; try reflexivity. apply members_rest_map, F. Qed.

Lemma first_row_map f l : Forall (fun e => f (pe e) = f e) l -> forall n, first_row f n (map pe l) = first_row f n l.
Proof. induction 1 as [|a l E _ IH]; intros n; [reflexivity|]. cbn [map first_row]. rewrite E, IH. reflexivity. Qed.

Lemma next_row_map f l : Forall (fun e => f (pe e) = f e) l -> forall ts, next_row f ts (map pe l) = next_row f ts l.
Proof.
  induction 1 as [|a l E _ IH]; intros ts; [reflexivity|]. destruct ts as [|t ts]; [reflexivity|]. cbn [map next_row]. rewrite E, IH. reflexivity.
Qed.

Lemma values_map f rows : Forall (Forall (fun e => f (pe e) = f e)) rows -> values_type f (map (map pe) rows) = values_type f rows.
Proof.
  intros H. destruct H as [|r rows E F]; [reflexivity|]. cbn [map values_type]. rewrite (first_row_map _ _ E).
  destruct (first_row f 0 r) as [[ts|e]| |]; cbn; try reflexivity. rewrite (fold_map (next_row f) (next_row f)); [reflexivity|].
  eapply Forall_impl; [|exact F]. intros l A s. apply next_row_map, A.
Qed.

Lemma spread {A} (P : A -> set_context -> Prop) l : Forall (fun a => forall x, P a x) l -> forall x, Forall (fun a => P a x) l.
Proof. intros H x. eapply Forall_impl; [|exact H]. auto. Qed.

Lemma literal_same l : literal_type (put_literal g h l) = literal_type l.
Proof. destruct l; reflexivity. Qed.

Lemma select_eq x common e order lim : infer_select x (Select common e order lim) =
  (y <-? fold_err (fun y c => t <-? infer_cte x c ;; pure (add_relation up y (cte_id c) (r_attrs t))) [] common ;;
   t <-? infer_set x e ;;
   _ <-? fold_err (fun _ o => t <-? infer x y (fst (fst o)) ;; _ <-? pure (scalar t) ;; ok tt) tt order ;;
   match lim with
   | None => ok t
   | Some (rows, offset) =>
       n <-? infer x [] rows ;;
       _ <-? pure (limit_number n) ;;
       match offset with
       | None => ok t
       | Some o => n <-? infer x [] o ;; _ <-? pure (limit_number n) ;; ok t
       end
   end).
Proof. reflexivity. Qed.

Lemma query_eq x mode columns from wh group : infer_set x (SQuery mode columns from wh group) =
  ('(y, attrs) <-? fold_err (fun '(y, attrs) t => '(y', attrs') <-? infer_table x y t ;; ok (y', attrs ++ attrs')) ([], []) from ;;
   _ <-? match wh with None => ok tt | Some e => t <-? infer x y e ;; pure (logical t) end ;;
   _ <-? match group with
         | None => ok tt
         | Some (gs, having) =>
             _ <-? fold_err (fun _ e => _ <-? infer x y e ;; ok tt) tt gs ;;
             match having with None => ok tt | Some e => t <-? infer x y e ;; pure (logical t) end
         end ;;
   infer_columns x y attrs columns).
Proof. reflexivity. Qed.

Lemma join_eq x y l r op c : infer_table x y (TJoin l r op c) =
  ('(y1, attrs1) <-? infer_table x y l ;; '(y2, attrs2) <-? infer_table x y1 r ;; ok (y2, attrs1 ++ attrs2)).
Proof. reflexivity. Qed.

Lemma list_eq_ x y attrs l : infer_columns x y attrs (RList l) =
  ('(cols, _) <-? fold_err (fun st c => infer_column x y st c) ([], []) l ;; ok (plain_row cols)).
Proof. reflexivity. Qed.

Lemma column_eq x y st e rename : infer_column x y st (RExpr e rename) =
  (t <-? infer x y e ;; '(d, n) <-? pure (scalar t) ;; ok (push_column up st (match rename with None => lit "col"%string | Some n => n end) d n)).
Proof. reflexivity. Qed.

Lemma cte_eq x id columns q : infer_cte x (Cte id columns q) =
  (t <-? infer_select x q ;;
   match columns with
   | None => ok t
   | Some names => attrs <-? pure (pick_columns up (r_attrs t) names) ;; ok {| r_attrs := attrs; r_primary := r_primary t; r_order := r_order t |}
   end).
Proof. reflexivity. Qed.

Lemma put_typed :
  (forall e, forall x y, infer x y (pe e) = infer x y e) /\
  (forall s, forall x y, infer_spec x y (put_spec g h s) = infer_spec x y s) /\
  (forall s, forall x, infer_select x (put_select g h s) = infer_select x s) /\
  (forall c, forall x, infer_cte x (put_cte g h c) = infer_cte x c) /\
  (forall e, forall x, infer_set x (put_set g h e) = infer_set x e) /\
  (forall t, forall x y, infer_table x y (put_table g h t) = infer_table x y t) /\
  (forall c, forall x y attrs, infer_columns x y attrs (put_columns g h c) = infer_columns x y attrs c) /\
  (forall c, forall x y st, infer_column x y st (put_column g h c) = infer_column x y st c).
Proof.
  assert (EE : forall es x y, Forall (fun e => forall x y, infer x y (pe e) = infer x y e) es -> Forall (fun e => infer x y (pe e) = infer x y e) es).
  { intros es x y H. eapply Forall_impl; [|exact H]. auto. }
  apply sql_induction.
  - intros l x y. change (ok (literal_type (put_literal g h l)) = ok (literal_type l)). rewrite literal_same. reflexivity.
  - intros q x y. reflexivity.
  - intros es H x y. exact (f_equal (fun z => ts <-? z ;; ok (TyTuple ts)) (collect_map (infer x y) pe es (EE es x y H))).
  - intros s H x y. exact (f_equal (fun z => r <-? z ;; pure (select_scalar r)) (H x)).
  - intros op e H x y. exact (f_equal (fun z => t <-? z ;; pure (unary_type op t)) (H x y)).
  - intros op l r H H0 x y. exact (f_equal2 (fun z z' => t1 <-? z ;; t2 <-? z' ;; pure (binary_type op t1 t2)) (H x y) (H0 x y)).
  - intros op l r H H0 x y. exact (f_equal2 (fun z z' => t1 <-? z ;; t2 <-? z' ;; pure (compare_type op t1 t2)) (H x y) (H0 x y)).
  - intros e s H H0 x y. exact (f_equal2 (fun z z' => t <-? z ;; r <-? z' ;; pure (in_type t r)) (H x y) (H0 x y)).
  - intros e lo hi H H0 H1 x y. exact (f_equal3 (fun z z1 z2 => t <-? z ;; t1 <-? z1 ;; t2 <-? z2 ;; pure (between_type t t1 t2)) (H x y) (H0 x y) (H1 x y)).
  - intros o whens els H H0 H1 x y.
    assert (W : Forall (fun p => infer x y (pe (fst p)) = infer x y (fst p) /\ infer x y (pe (snd p)) = infer x y (snd p)) whens).
    { eapply Forall_impl; [|exact H0]. intros p [A B]. auto. }
    assert (E : match option_map pe els with None => None | Some e => Some (infer x y e) end = match els with None => None | Some e => Some (infer x y e) end).
    { destruct els; [exact (f_equal Some (H1 x y))|reflexivity]. }
    destruct o as [e|].
    + change (te <-? infer x y (pe e) ;;
        _ <- guards (infer x y) (fun t => match is_compatible t te with Ok true => Ok tt | _ => Err tt end) (map (fun p => (pe (fst p), pe (snd p))) whens) ;;
        t <-? bodies (infer x y) (map (fun p => (pe (fst p), pe (snd p))) whens) ;;
        else_type (match option_map pe els with None => None | Some e => Some (infer x y e) end) t = infer x y (ECase (Some e) whens els)).
      rewrite (H x y), (bodies_map _ _ W), E. cbn [SqlModel.infer]. destruct (infer x y e) as [[te|]| |]; try reflexivity. cbn [rbind bind].
      rewrite (guards_map _ _ _ W). reflexivity.
    + change (_ <- guards (infer x y) logical (map (fun p => (pe (fst p), pe (snd p))) whens) ;;
        t <-? bodies (infer x y) (map (fun p => (pe (fst p), pe (snd p))) whens) ;;
        else_type (match option_map pe els with None => None | Some e => Some (infer x y e) end) t = infer x y (ECase None whens els)).
      rewrite (guards_map _ _ _ W), (bodies_map _ _ W), E. reflexivity.
  - intros s H x y. exact (H x).
  - intros es H x y. exact (f_equal (fun z => t <-? z ;; '(d, n) <-? pure (scalar t) ;; ok (plain_row [{| a_name := lit "_col0"%string; a_type := d; a_null := n |}]))
      (members_map (infer x y) es (EE es x y H))).
  - intros q x y. reflexivity.
  - intros common e order lim H H0 H1 H2 x.
    change (infer_select x (Select (map (put_cte g h) common) (put_set g h e) (map (fun o => (pe (fst (fst o)), snd (fst o), snd o)) order)
        (option_map (fun l => (pe (fst l), option_map pe (snd l))) lim)) = infer_select x (Select common e order lim)).
    rewrite !select_eq.
    rewrite (fold_map _ (fun y c => t <-? infer_cte x c ;; pure (add_relation up y (cte_id c) (r_attrs t))));
      [|eapply Forall_impl; [|exact H]; intros [id cs q] A s; cbv beta; rewrite (A x); reflexivity].
    match goal with |- rbind ?a _ = rbind ?b _ => change b with a; destruct a as [[y|]| |]; try reflexivity end. cbn [rbind bind].
    rewrite (H0 x). destruct (infer_set x e) as [[t|]| |]; try reflexivity. cbn [rbind bind].
    rewrite (fold_map _ (fun _ o => t <-? infer x y (fst (fst o)) ;; _ <-? pure (scalar t) ;; ok tt));
      [|eapply Forall_impl; [|exact H1]; intros [[a b] d] A s; cbn [fst snd] in *; rewrite (A x y); reflexivity].
    destruct lim as [[rows offset]|]; cbn [option_map fst snd]; [|reflexivity]. destruct H2 as [A B]. cbn [fst snd] in A, B.
    rewrite (A x []). destruct offset as [o|]; cbn [option_map]; [|reflexivity]. cbn [if_some] in B. rewrite (B x []). reflexivity.
  - intros id columns q H x. change (infer_cte x (Cte id columns (put_select g h q)) = infer_cte x (Cte id columns q)). rewrite !cte_eq, (H x). reflexivity.
  - intros rows H x. refine (values_map (infer x []) rows _). eapply Forall_impl; [|exact H]. intros l A. exact (EE l x [] A).
  - intros mode columns from wh group H H0 H1 H2 x.
    change (infer_set x (SQuery mode (put_columns g h columns) (map (put_table g h) from) (option_map pe wh)
        (option_map (fun g => (map pe (fst g), option_map pe (snd g))) group)) = infer_set x (SQuery mode columns from wh group)).
    rewrite !query_eq.
    rewrite (fold_map _ (fun '(y, attrs) t => '(y', attrs') <-? infer_table x y t ;; ok (y', attrs ++ attrs')));
      [|eapply Forall_impl; [|exact H0]; intros t A [y attrs]; cbv beta iota; rewrite (A x y); reflexivity].
    match goal with |- rbind ?a _ = rbind ?b _ => change b with a; destruct a as [[[y attrs]|]| |]; try reflexivity end. cbn [rbind bind].
    assert (Wh : match option_map pe wh with None => ok tt | Some e => t <-? infer x y e ;; pure (logical t) end =
                 match wh with None => ok tt | Some e => t <-? infer x y e ;; pure (logical t) end).
    { destruct wh; [cbn [option_map if_some] in *; rewrite (H1 x y)|]; reflexivity. }
    rewrite Wh. destruct group as [[gs having]|]; cbn [option_map fst snd]; [destruct H2 as [A B]; cbn [fst snd] in A, B|].
    + rewrite (fold_map _ (fun _ e => _ <-? infer x y e ;; ok tt)); [|eapply Forall_impl; [|exact A]; intros e A' s; cbv beta; rewrite (A' x y); reflexivity].
      destruct having as [e|]; cbn [option_map if_some] in *; [rewrite (B x y)|]; rewrite (H x y attrs); reflexivity.
    + rewrite (H x y attrs). reflexivity.
  - intros op l r H H0 x. exact (f_equal2 (fun z z' => t1 <-? z ;; t2 <-? z' ;; attrs <-? pure (unify_columns (r_attrs t1) (r_attrs t2)) ;; ok (plain_row attrs)) (H x) (H0 x)).
  - intros q alias x y. reflexivity.
  - intros s alias H x y. exact (f_equal (fun z => r <-? z ;; ok (y, r_attrs r)) (H x)).
  - intros l r op c H H0 H1 x y. change (infer_table x y (TJoin (put_table g h l) (put_table g h r) op (put_constraint g h c)) = infer_table x y (TJoin l r op c)).
    rewrite !join_eq, (H x y). destruct (infer_table x y l) as [[[y1 a1]|]| |]; try reflexivity. cbn [rbind bind]. rewrite (H0 x y1). reflexivity.
  - intros x y attrs. reflexivity.
  - intros l H x y attrs. change (infer_columns x y attrs (RList (map (put_column g h) l)) = infer_columns x y attrs (RList l)). rewrite !list_eq_.
    rewrite (fold_map _ (fun st c => infer_column x y st c)); [reflexivity|]. eapply Forall_impl; [|exact H]. auto.
  - intros n x y st. reflexivity.
  - intros e rename H x y st. change (infer_column x y st (RExpr (pe e) rename) = infer_column x y st (RExpr e rename)). rewrite !column_eq, (H x y). reflexivity.
Qed.

Lemma put_valid_statement x s : validate_statement up x (put_statement g h s) = validate_statement up x s.
Proof.
  destruct put_typed as (E & _ & Sl & _ & X & _). destruct s as [s|[t c e]|[t w]|[t l w]];
    cbn [put_statement validate_statement]; unfold validate_insert, validate_update, validate_delete;
    cbn [i_source i_table i_columns d_table d_where u_table u_assignments u_where].
  - rewrite Sl. reflexivity.
  - rewrite X. reflexivity.
  - destruct w as [e|]; cbn [option_map]; [|reflexivity].
    destruct (resolve_table up x t) as [[r|]| |]; try reflexivity. cbn [rbind bind]. destruct (last_name t) as [id| |]; try reflexivity. cbn [rbind bind].
    destruct (add_relation up [] id (r_attrs r)); cbn; [rewrite E|]; reflexivity.
  - destruct (resolve_table up x t) as [[r|]| |]; try reflexivity. cbn [rbind bind]. destruct (last_name t) as [id| |]; try reflexivity. cbn [rbind bind].
    destruct (add_relation up [] id (r_attrs r)) as [y|]; cbn; [|reflexivity].
    rewrite (fold_map _ (fun assigned a =>
                    st <-? infer x y (snd a) ;;
                    '(d, n) <-? pure (scalar st) ;;
                    fold_err (fun assigned c => pure (assign_column up (row_type_map up r) d n assigned c)) assigned (fst a)));
      [|apply Forall_forall; intros [a b] _ s; cbn [fst snd]; rewrite E; reflexivity].
    destruct w as [e|]; cbn [option_map]; [rewrite E|]; reflexivity.
Qed.

Lemma put_valid x s : validate up x (put g h s) = validate up x s.
Proof. destruct s as [s|s|q path|q]; cbn [put validate]; [apply put_valid_statement|apply put_valid_statement|reflexivity..]. Qed.
End Type_.
