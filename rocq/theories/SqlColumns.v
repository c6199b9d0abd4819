(** * Result columns, set operations, IN, WITH and schemas *)

From Coq Require Import Strings.String.
From Coq Require Import ZifyBool ZifyNat ZifyN.
From Verif Require Import Base StrModel StrFacts SqlNameModel SqlModel SqlNameProofs SqlTypeProofs SqlSpec SqlScope SqlEval
  SqlInd SqlColumnsSpec.
Local Open Scope list_scope.

Local Arguments rbind : simpl never.

Section Columns.
Context (up : Z -> list Z).
Notation same := (name_eqb up).
Notation nget := (nget up).

(** ** Labels *)

Lemma show_decimal k : (0 < k)%nat -> decimal k (show_nat k).
Proof.
  intros Hk. unfold show_nat. destruct (show_int_digits (Z.of_nat k) ltac:(lia)) as (H1 & H2 & c & r & E & H3 & H4).
  split; [|split].
  - apply Forall_forall. intros d Hd. rewrite forallb_forall in H1. specialize (H1 d Hd). unfold is_digit in H1. lia.
  - rewrite E. cbn. intros [= ->]. destruct (Z.lt_ge_cases (Z.of_nat k) 10) as [L|G].
    + destruct (H3 L). lia.
    + apply (H4 G). reflexivity.
  - exact H2.
Qed.

(** The map of the generator after a history. *)
Definition counts (h : list (name * name)) (g : nmap nat) : Prop :=
  sorted up g /\
  forall n, nget g n = if forallb (fun p => negb (same n (snd p))) h then None else Some (since up n h).

Lemma counts_nil : counts [] [].
Proof. split; [apply sorted_nil|]. intros n. reflexivity. Qed.

Lemma forallb_fresh n h : forallb (fun p : name * name => negb (same n (snd p))) h = true <-> Forall (fun p => same n (snd p) = false) h.
Proof.
  rewrite forallb_forall, Forall_forall. split; intros H p Hp; specialize (H p Hp); destruct (same n (snd p)); cbn in *; congruence.
Qed.

Lemma since_congr n n' h : same n n' = true -> since up n h = since up n' h.
Proof.
  intros E. induction h as [|[q r] h IH]; [reflexivity|]. cbn [since].
  rewrite (name_eqb_congr_l up _ _ r E), (name_eqb_congr_l up _ _ q E), IH. reflexivity.
Qed.

Lemma fresh_congr n n' (h : list (name * name)) : same n n' = true ->
  forallb (fun p => negb (same n (snd p))) h = forallb (fun p => negb (same n' (snd p))) h.
Proof.
  intros E. induction h as [|[q r] h IH]; [reflexivity|]. cbn [forallb snd].
  rewrite (name_eqb_congr_l up _ _ r E), IH. reflexivity.
Qed.

Lemma generate_spec h g n : counts h g ->
  (Forall (fun p => same n (snd p) = false) h /\ fst (generate_column_name up n g) = n /\
   counts ((n, n) :: h) (snd (generate_column_name up n g))) \/
  (~ Forall (fun p => same n (snd p) = false) h /\
   exists s, decimal (S (since up n h)) s /\ fst (generate_column_name up n g) = n ++ s /\
   counts ((n, n ++ s) :: h) (snd (generate_column_name up n g))).
Proof.
  intros [Hs Hg]. unfold generate_column_name. rewrite Hg.
  destruct (forallb (fun p => negb (same n (snd p))) h) eqn:F.
  - left. split; [apply forallb_fresh; exact F|]. split; [reflexivity|]. cbn [snd]. split; [apply nput_sorted; exact Hs|].
    intros m. rewrite nget_nput by exact Hs. cbn [forallb snd since]. destruct (same m n) eqn:E.
    + cbn [negb andb]. rewrite ?E. reflexivity.
    + cbn [negb andb]. rewrite Hg. destruct (forallb _ h); reflexivity.
  - right. split; [intros H; apply forallb_fresh in H; congruence|].
    exists (show_nat (S (since up n h))). split; [apply show_decimal; lia|]. split; [reflexivity|]. cbn [snd].
    split; [apply nput_sorted, nput_sorted; exact Hs|].
    intros m. rewrite nget_nput by (apply nput_sorted; exact Hs). cbn [forallb snd since].
    destruct (same m (n ++ show_nat (S (since up n h)))) eqn:E; [reflexivity|]. cbn [negb andb].
    rewrite nget_nput by exact Hs. destruct (same m n) eqn:E'.
    + rewrite (fresh_congr m n h E'), F, (since_congr m n h E'). reflexivity.
    + rewrite Hg. reflexivity.
Qed.

(** A request: name, type, nullability. *)
Definition push_all (st : list attribute * nmap nat) (l : list attribute) :=
  fold_left (fun st a => push_column up st (a_name a) (a_type a) (a_null a)) l st.

Lemma push_all_spec l : forall h st, counts h (snd st) ->
  exists h' new, fst (push_all st l) = fst st ++ new /\ counts h' (snd (push_all st l)) /\
    labels up h (map a_name l) (map a_name new) /\
    map (fun a => (a_type a, a_null a)) new = map (fun a => (a_type a, a_null a)) l /\
    h' = rev (combine (map a_name l) (map a_name new)) ++ h.
Proof.
  induction l as [|a l IH]; intros h [cols g] Hc.
  - exists h, []. cbn. rewrite app_nil_r. repeat split; try apply Hc. constructor.
  - unfold push_all. cbn [fold_left]. cbn [snd] in Hc.
    assert (Step : push_column up (cols, g) (a_name a) (a_type a) (a_null a) =
      (cols ++ [{| a_name := fst (generate_column_name up (a_name a) g); a_type := a_type a; a_null := a_null a |}],
       snd (generate_column_name up (a_name a) g))).
    { unfold push_column. cbn [fst snd]. destruct (generate_column_name up (a_name a) g). reflexivity. }
    rewrite Step. destruct (generate_spec h g (a_name a) Hc) as [(F & E & C)|(F & s & D & E & C)]; rewrite E.
    + destruct (IH _ (cols ++ [{| a_name := a_name a; a_type := a_type a; a_null := a_null a |}], _) C) as (h' & new & H1 & H2 & H3 & H4 & H5).
      exists h', ({| a_name := a_name a; a_type := a_type a; a_null := a_null a |} :: new). cbn [fst snd] in H1. rewrite <- app_assoc in H1.
      split; [exact H1|]. split; [exact H2|]. split; [cbn; apply lb_keep; assumption|].
      split; [cbn; f_equal; exact H4|]. cbn. rewrite H5, <- app_assoc. reflexivity.
    + destruct (IH _ (cols ++ [{| a_name := a_name a ++ s; a_type := a_type a; a_null := a_null a |}], _) C) as (h' & new & H1 & H2 & H3 & H4 & H5).
      exists h', ({| a_name := a_name a ++ s; a_type := a_type a; a_null := a_null a |} :: new). cbn [fst snd] in H1. rewrite <- app_assoc in H1.
      split; [exact H1|]. split; [exact H2|]. split; [cbn; apply lb_number; assumption|].
      split; [cbn; f_equal; exact H4|]. cbn. rewrite H5, <- app_assoc. reflexivity.
Qed.

(** What one member of a select list asks for. *)
Definition requested (x : set_context) (y : symbols) (c : result_column) (l : list attribute) : Prop :=
  match c with
  | RExpr e rename =>
      exists d n, infer up x y e = ok (TyScalar d n) /\
        l = [{| a_name := match rename with Some m => m | None => lit "col" end; a_type := d; a_null := n |}]
  | RAllFrom n => exists m, nget y n = Some (SyRelation m) /\ map (fun e => (fst e, snd e)) m = map (fun a => (a_name a, attr_type a)) l
  end.

Lemma relation_columns_ok m : forall st st', relation_columns up st m = Ret st' <->
  exists l, map (fun e => (fst e, snd e)) m = map (fun a => (a_name a, attr_type a)) l /\ st' = push_all st l.
Proof.
  unfold relation_columns. induction m as [|[n t] m IH]; intros st st'; cbn [fold_left map fst snd].
  - split.
    + intros [= <-]. exists []. auto.
    + intros ([|a l] & E & ->); [reflexivity|discriminate].
  - destruct t as [ts|d b].
    + split.
      * intros H. exfalso. cbn [bind] in H. clear -H.
        assert (forall m, fold_left (fun o e => st <- o ;; match snd e with TyScalar t n => Ret (push_column up st (fst e) t n) | TyTuple _ => Panic end) m Panic = @Panic (list attribute * nmap nat)) as E
          by (clear; induction m; cbn; auto).
        rewrite E in H. discriminate.
      * intros ([|a l] & E & _); discriminate.
    + cbn [bind]. rewrite IH. split.
      * intros (l & E & ->). exists ({| a_name := n; a_type := d; a_null := b |} :: l). cbn. rewrite E. auto.
      * intros ([|a l] & E & ->); [discriminate|]. cbn in E. injection E as En Ed Eb E. subst. exists l. auto.
Qed.

Lemma infer_column_ok x y st c st' :
  infer_column up x y st c = ok st' <-> exists l, requested x y c l /\ st' = push_all st l.
Proof.
  destruct c as [n|e rename]; cbn [infer_column requested].
  - destruct (nget y n) as [[t| |m]|]; try (split; [discriminate|intros (l & (m' & [=] & _) & _)]).
    split.
    + intros H. destruct (relation_columns up st m) as [st1| |] eqn:E; cbn in H; try discriminate. injection H as <-.
      apply relation_columns_ok in E as (l & E & ->). eauto.
    + intros (l & (m' & [= <-] & E) & ->).
      rewrite (proj2 (relation_columns_ok m st (push_all st l)) (ex_intro _ l (conj E eq_refl))). reflexivity.
  - rewrite rbind_ok. split.
    + intros (t & Et & H). destruct t as [ts|d n]; [discriminate|]. cbn in H. injection H as <-.
      eexists. split; [exists d, n; split; [exact Et|reflexivity]|]. reflexivity.
    + intros (l & (d & n & Et & ->) & ->). exists (TyScalar d n). split; [exact Et|reflexivity].
Qed.

Lemma push_all_app st l1 l2 : push_all st (l1 ++ l2) = push_all (push_all st l1) l2.
Proof. unfold push_all. apply fold_left_app. Qed.

Lemma columns_ok x y l : forall st st',
  fold_err (infer_column up x y) st l = ok st' <->
  exists reqs, Forall2 (requested x y) l reqs /\ st' = push_all st (List.concat reqs).
Proof.
  induction l as [|c l IH]; intros st st'; cbn [fold_err].
  - split.
    + intros [= <-]. exists []. split; [constructor|reflexivity].
    + intros (reqs & H & ->). inversion H; subst. reflexivity.
  - rewrite rbind_ok. split.
    + intros (st1 & H1 & H2). apply infer_column_ok in H1 as (r & Hr & ->). apply IH in H2 as (reqs & Hreqs & ->).
      exists (r :: reqs). split; [constructor; assumption|]. cbn [List.concat]. rewrite push_all_app. reflexivity.
    + intros (reqs & H & ->). inversion H as [|? r ? reqs' Hr Hreqs]; subst.
      exists (push_all st r). split; [apply infer_column_ok; eauto|]. apply IH. exists reqs'. split; [exact Hreqs|].
      cbn [List.concat]. rewrite push_all_app. reflexivity.
Qed.

Lemma select_list x y attrs l rt :
  infer_columns up x y attrs (RList l) = ok rt ->
  exists reqs, Forall2 (requested x y) l reqs /\
    labels up [] (map a_name (List.concat reqs)) (map a_name (r_attrs rt)) /\
    map (fun a => (a_type a, a_null a)) (r_attrs rt) = map (fun a => (a_type a, a_null a)) (List.concat reqs).
Proof.
  cbn [infer_columns]. rewrite rbind_ok. intros ([cols g] & H & E). apply ok_inj in E as <-. cbn [plain_row r_attrs].
  change (fun st c => infer_column up x y st c) with (infer_column up x y) in H.
  apply columns_ok in H as (reqs & Hr & E). exists reqs. split; [exact Hr|].
  destruct (push_all_spec (List.concat reqs) [] ([], []) counts_nil) as (h' & new & H1 & _ & H3 & H4 & _).
  rewrite <- E in H1. cbn in H1. subst new. auto.
Qed.

Lemma select_list_total x y attrs l :
  (exists rt, infer_columns up x y attrs (RList l) = ok rt) <-> exists reqs, Forall2 (requested x y) l reqs.
Proof.
  split.
  - intros (rt & H). apply select_list in H as (reqs & H & _). eauto.
  - intros (reqs & H). cbn [infer_columns].
    assert (E : fold_err (infer_column up x y) ([], []) l = ok (push_all ([], []) (List.concat reqs))) by (apply columns_ok; eauto).
    destruct (push_all ([], []) (List.concat reqs)) as [cols g]. exists (plain_row cols). apply rbind_ok.
    exists (cols, g). split; [exact E|reflexivity].
Qed.

Lemma select_all x y attrs :
  exists rt, infer_columns up x y attrs RAll = ok rt /\
    labels up [] (map a_name attrs) (map a_name (r_attrs rt)) /\
    map (fun a => (a_type a, a_null a)) (r_attrs rt) = map (fun a => (a_type a, a_null a)) attrs.
Proof.
  eexists. split; [reflexivity|]. cbn [plain_row r_attrs]. unfold all_columns.
  destruct (push_all_spec attrs [] ([], []) counts_nil) as (h' & new & H1 & _ & H3 & H4 & _).
  unfold push_all in H1. cbn in H1. rewrite H1. auto.
Qed.

(** Pairwise different names are kept. *)
Lemma labels_distinct ns : forall h gs, labels up h ns gs -> distinct up ns ->
  Forall (fun n => Forall (fun p => same n (snd p) = false) h) ns -> gs = ns.
Proof.
  induction ns as [|n ns IH]; intros h gs Hl Hd Hh; inversion Hl; subst; [reflexivity| |].
  - f_equal. inversion Hd; subst. inversion Hh; subst. eapply IH; [eassumption|assumption|].
    rewrite Forall_forall in *. intros m Hm. constructor; [|auto]. cbn. rewrite name_eqb_sym. auto.
  - inversion Hh; subst. contradiction.
Qed.

(** Every label is the requested name, or the requested name and a number. *)
Lemma labels_suffix h ns gs : labels up h ns gs ->
  Forall2 (fun n g => g = n \/ exists k s, decimal (S k) s /\ g = n ++ s) ns gs.
Proof. induction 1; constructor; eauto. Qed.

(** ** Set operations *)

Lemma unify_columns_ok l : forall r res, unify_columns l r = Ok res <-> merged l r res.
Proof.
  unfold merged. induction l as [|a l IH]; intros r res; cbn [unify_columns].
  - split.
    + intros [= <-]. split; [reflexivity|]. intros [|i] ? ? [=].
    + intros [H _]. destruct res; [reflexivity|discriminate].
  - destruct r as [|b r].
    + split.
      * intros [= <-]. split; [reflexivity|]. intros [|i] ? ? ? [=].
      * intros [H _]. destruct res; [reflexivity|discriminate].
    + unfold attr_type. cbn [unify]. destruct (dt_eqb (a_type a) (a_type b)) eqn:E.
      * apply dt_eqb_eq in E. destruct (unify_columns l r) as [rest|[]] eqn:U.
        -- apply IH in U as [U1 U2]. split.
           ++ intros [= <-]. split; [cbn; lia|]. intros [|i] a' b'; cbn; [intros [= <-] [= <-]; auto|apply U2].
           ++ intros [H1 H2]. f_equal. destruct res as [|c res]; [discriminate|].
              pose proof (proj2 (H2 0 a b eq_refl eq_refl)) as H0. cbn in H0. injection H0 as ->. f_equal.
              cbn in H1. injection H1 as H1. assert (Hr : Ok rest = Ok res (E := unit)).
              { symmetry. rewrite <- (proj2 (IH r rest) (conj U1 U2)). symmetry. apply IH. split; [lia|].
                intros i a' b' Ha Hb. exact (H2 (S i) a' b' Ha Hb). }
              congruence.
        -- split; [discriminate|]. intros [H1 H2]. destruct res as [|c res]; [discriminate|].
           cbn in H1. injection H1 as H1. assert (Hr : Err tt = Ok res (A := list attribute)); [|discriminate].
           rewrite <- U. apply IH. split; [exact H1|]. intros i a' b' Ha Hb. exact (H2 (S i) a' b' Ha Hb).
      * split; [discriminate|]. intros [_ H2]. destruct (H2 0 a b eq_refl eq_refl) as [H2' _].
        rewrite H2', dt_eqb_refl in E. discriminate.
Qed.

Lemma set_operation x op l r rt :
  infer_set up x (SOp op l r) = ok rt <->
  exists rl rr res, infer_set up x l = ok rl /\ infer_set up x r = ok rr /\
    merged (r_attrs rl) (r_attrs rr) res /\ rt = plain_row res.
Proof.
  cbn [infer_set]. rewrite rbind_ok. split.
  - intros (t1 & E1 & H). apply rbind_ok in H as (t2 & E2 & H). apply rbind_ok in H as (attrs & E3 & H).
    apply pure_ok, unify_columns_ok in E3. apply ok_inj in H as <-. exists t1, t2, attrs. auto.
  - intros (t1 & t2 & attrs & E1 & E2 & M & ->). exists t1. split; [exact E1|]. rewrite rbind_ok. exists t2. split; [exact E2|].
    rewrite rbind_ok. exists attrs. split; [apply pure_ok, unify_columns_ok; exact M|reflexivity].
Qed.

(** ** VALUES *)

Section Values.
Context (f : expr -> res stype).

Lemma first_row_ok l : forall k ts, first_row f k l = ok ts ->
  List.length ts = List.length l /\
  forall i e, nth_error l i = Some e ->
    exists d n, f e = ok (TyScalar d n) /\
      nth_error ts i = Some {| a_name := lit "_col" ++ show_nat (k + i); a_type := d; a_null := n |}.
Proof.
  induction l as [|e l IH]; intros k ts; cbn [first_row].
  - intros [= <-]. split; [reflexivity|]. intros [|i] ? [=].
  - intros H. apply rbind_ok in H as (t & Et & H). apply rbind_ok in H as ([d n] & Es & H). apply pure_ok in Es.
    apply rbind_ok in H as (rest & Er & H). apply ok_inj in H as <-. destruct t as [|d' n']; [discriminate|]. injection Es as <- <-.
    apply IH in Er as [E1 E2]. split; [cbn; congruence|]. intros [|i] e'; cbn.
    + intros [= <-]. exists d', n'. rewrite Nat.add_0_r. auto.
    + intros He. replace (k + S i) with (S k + i) by lia. apply E2. exact He.
Qed.

Lemma next_row_ok l : forall ts ts', next_row f ts l = ok ts' ->
  List.length ts' = Nat.min (List.length ts) (List.length l) /\
  forall i e a, nth_error l i = Some e -> nth_error ts i = Some a ->
    exists n, f e = ok (TyScalar (a_type a) n) /\
      nth_error ts' i = Some {| a_name := a_name a; a_type := a_type a; a_null := a_null a || n |}.
Proof.
  induction l as [|e l IH]; intros ts ts'; cbn [next_row].
  - intros H. apply ok_inj in H as <-. split; [cbn; lia|]. intros [|i] ? ? [=].
  - destruct ts as [|a ts]; [intros H; apply ok_inj in H as <-; split; [reflexivity|]; intros [|i] ? ? _ [=]|].
    intros H. apply rbind_ok in H as (t & Et & H). apply rbind_ok in H as (u & Eu & H). apply pure_ok in Eu.
    unfold attr_type in Eu. destruct t as [|d n]; [discriminate|]. cbn [unify] in Eu.
    destruct (dt_eqb (a_type a) d) eqn:E; [|discriminate]. apply dt_eqb_eq in E as <-. injection Eu as <-.
    apply rbind_ok in H as (rest & Er & H). apply ok_inj in H as <-. apply IH in Er as [E1 E2].
    split; [cbn; congruence|]. intros [|i] e' a'; cbn.
    + intros [= <-] [= <-]. exists n. auto.
    + apply E2.
Qed.

Lemma next_rows_ok rows : forall ts ts', fold_err (next_row f) ts rows = ok ts' ->
  List.length ts' = fold_left Nat.min (map (@List.length expr) rows) (List.length ts) /\
  forall i b, nth_error ts' i = Some b ->
    exists a, nth_error ts i = Some a /\ a_name b = a_name a /\ a_type b = a_type a /\
      Forall (fun row => exists e n, nth_error row i = Some e /\ f e = ok (TyScalar (a_type b) n) /\ (n = true -> a_null b = true)) rows /\
      (a_null a = true -> a_null b = true) /\
      (a_null b = true -> a_null a = true \/
         Exists (fun row => exists e, nth_error row i = Some e /\ f e = ok (TyScalar (a_type b) true)) rows).
Proof.
  induction rows as [|row rows IH]; intros ts ts'; cbn [fold_err map fold_left].
  - intros H. apply ok_inj in H as <-. split; [reflexivity|]. intros i b Hb. exists b. auto 10.
  - intros H. apply rbind_ok in H as (ts1 & E1 & H). apply IH in H as [H1 H2]. apply next_row_ok in E1 as [N1 N2].
    split; [rewrite H1, N1; reflexivity|]. intros i b Hb. destruct (H2 i b Hb) as (a1 & A1 & A2 & A3 & A4 & A5 & A6).
    assert (L : i < List.length ts1) by (apply nth_error_Some; congruence).
    destruct (nth_error ts i) as [a|] eqn:Ea; [|apply nth_error_None in Ea; lia].
    destruct (nth_error row i) as [e|] eqn:Ee; [|apply nth_error_None in Ee; lia].
    destruct (N2 i e a Ee Ea) as (n & Fe & Fa). rewrite Fa in A1. injection A1 as <-. cbn in A2, A3, A5, A6.
    exists a. rewrite A3 in *. split; [reflexivity|]. split; [exact A2|]. split; [reflexivity|].
    split; [constructor; [|exact A4]|split].
    + exists e, n. split; [exact Ee|]. split; [exact Fe|]. intros ->. apply A5, orb_true_r.
    + intros Ha. apply A5. rewrite Ha. reflexivity.
    + intros Hb'. destruct (A6 Hb') as [H|H]; [|right; apply Exists_cons_tl; exact H].
      destruct (a_null a); [left; reflexivity|]. cbn in H. subst n. right. apply Exists_cons_hd. eauto.
Qed.

Lemma values_ok rows rt : values_type f rows = ok rt ->
  (exists r rest, rows = r :: rest /\ List.length (r_attrs rt) = fold_left Nat.min (map (@List.length expr) rest) (List.length r)) /\
  forall i b, nth_error (r_attrs rt) i = Some b ->
    a_name b = lit "_col" ++ show_nat i /\
    Forall (fun row => exists e n, nth_error row i = Some e /\ f e = ok (TyScalar (a_type b) n) /\ (n = true -> a_null b = true)) rows /\
    (a_null b = true -> Exists (fun row => exists e, nth_error row i = Some e /\ f e = ok (TyScalar (a_type b) true)) rows).
Proof.
  destruct rows as [|r rest]; [discriminate|]. cbn [values_type]. intros H.
  apply rbind_ok in H as (ts & E1 & H). apply rbind_ok in H as (ts' & E2 & H). apply ok_inj in H as <-. cbn [plain_row r_attrs].
  apply first_row_ok in E1 as [F1 F2]. apply next_rows_ok in E2 as [N1 N2]. split.
  - exists r, rest. split; [reflexivity|]. rewrite N1, F1. reflexivity.
  - intros i b Hb. destruct (N2 i b Hb) as (a & A1 & A2 & A3 & A4 & A5 & A6).
    assert (L : i < List.length ts) by (apply nth_error_Some; congruence).
    destruct (nth_error r i) as [e|] eqn:Ee; [|apply nth_error_None in Ee; lia].
    destruct (F2 i e Ee) as (d & n & Fe & Fa). rewrite Fa in A1. injection A1 as <-. cbn in A2, A3, A5, A6. subst d.
    split; [exact A2|]. split.
    + constructor; [|exact A4]. exists e, n. auto.
    + intros Hb'. destruct (A6 Hb') as [->|H]; [apply Exists_cons_hd; eauto|apply Exists_cons_tl; exact H].
Qed.

Lemma next_row_excess l extra : forall ts, (List.length ts <= List.length l)%nat -> next_row f ts (l ++ extra) = next_row f ts l.
Proof.
  induction l as [|e l IH]; intros [|a ts] H; cbn in H; try lia.
  - destruct extra; reflexivity.
  - reflexivity.
  - cbn [app next_row]. rewrite IH by lia. reflexivity.
Qed.

Lemma fold_err_app {S A} (g : S -> A -> res S) l1 l2 s :
  fold_err g s (l1 ++ l2) = (s' <-? fold_err g s l1 ;; fold_err g s' l2).
Proof.
  revert s; induction l1 as [|a l1 IH]; intros s; cbn [app fold_err]; [reflexivity|].
  destruct (g s a) as [[s'|e]| |]; cbn; [apply IH|reflexivity..].
Qed.

Lemma fold_min_le l : forall n, fold_left Nat.min l n <= n.
Proof. induction l as [|a l IH]; intros n; cbn; [lia|]. specialize (IH (Nat.min n a)). lia. Qed.

Lemma fold_min_in l a : In a l -> forall n, fold_left Nat.min l n <= a.
Proof.
  induction l as [|b l IH]; intros H n; [destruct H|]. cbn. destruct H as [->|H]; [|apply IH; exact H].
  pose proof (fold_min_le l (Nat.min n a)). lia.
Qed.

Lemma values_excess rows1 row extra rows2 :
  (exists r0, In r0 rows1 /\ List.length r0 <= List.length row) ->
  values_type f (rows1 ++ (row ++ extra) :: rows2) = values_type f (rows1 ++ row :: rows2).
Proof.
  intros (r0 & Hin & Hl). destruct rows1 as [|r rows1]; [destruct Hin|]. cbn [app values_type].
  destruct (first_row f 0 r) as [[ts|e]| |] eqn:E1; [|reflexivity..].
  assert (E : fold_err (next_row f) ts (rows1 ++ (row ++ extra) :: rows2) = fold_err (next_row f) ts (rows1 ++ row :: rows2)).
  { rewrite !fold_err_app. cbn [fold_err].
    destruct (fold_err (next_row f) ts rows1) as [[ts1|e]| |] eqn:E2; [|reflexivity..].
    unfold rbind, bind. rewrite next_row_excess; [reflexivity|].
    apply first_row_ok in E1 as [F1 _]. apply next_rows_ok in E2 as [N1 _]. rewrite N1, F1.
    destruct Hin as [->|Hin]; [pose proof (fold_min_le (map (@List.length expr) rows1) (List.length r0)); lia|].
    pose proof (fold_min_in (map (@List.length expr) rows1) (List.length r0) (in_map _ _ _ Hin) (List.length r)). lia. }
  unfold rbind, bind. rewrite E. reflexivity.
Qed.
End Values.

(** ** IN and IS NULL *)

Lemma in_iff x y e s ty :
  infer up x y (EIn e s) = ok ty <->
  exists t n r a, infer up x y e = ok (TyScalar t n) /\ infer_spec up x y s = ok r /\ r_attrs r = [a] /\
    a_type a = t /\ (n = true \/ a_null a = true) /\ ty = TyScalar DLogical false.
Proof.
  cbn [infer]. rewrite rbind_ok. split.
  - intros (te & Et & H). apply rbind_ok in H as (r & Er & H). apply pure_ok in H. unfold in_type in H.
    destruct (r_attrs r) as [|a [|]] eqn:Ea; try discriminate. unfold attr_type in H. destruct te as [|t n]; [discriminate|].
    cbn [is_compatible] in H. destruct (dt_eqb t (a_type a)) eqn:E; [|discriminate]. apply dt_eqb_eq in E as ->.
    destruct (n || a_null a) eqn:N; [|discriminate]. injection H as <-. apply orb_true_iff in N.
    exists (a_type a), n, r, a. auto 10.
  - intros (t & n & r & a & Et & Er & Ea & <- & N & ->). exists (TyScalar (a_type a) n). split; [exact Et|]. rewrite rbind_ok.
    exists r. split; [exact Er|]. apply pure_ok. unfold in_type, attr_type. rewrite Ea. cbn. rewrite dt_eqb_refl.
    apply orb_true_iff in N. rewrite N. reflexivity.
Qed.

Lemma is_null_iff x y e ty :
  infer up x y (EUnary UIsNull e) = ok ty <-> exists d n, infer up x y e = ok (TyScalar d n) /\ ty = TyScalar d n.
Proof.
  cbn [infer]. rewrite rbind_ok. split.
  - intros (te & Et & H). apply pure_ok in H. destruct te as [|d n]; [discriminate|]. injection H as <-. eauto.
  - intros (d & n & Et & ->). exists (TyScalar d n). split; [exact Et|reflexivity].
Qed.

(** ** WITH *)

Lemma with_ignored x ctes e order lim rt :
  infer_select up x (Select ctes e order lim) = ok rt -> infer_set up x e = ok rt.
Proof.
  cbn [infer_select]. intros H. apply rbind_ok in H as (y & _ & H). apply rbind_ok in H as (t & Et & H).
  apply rbind_ok in H as (u & _ & H). destruct lim as [[rows offset]|]; [|apply ok_inj in H; subst; exact Et].
  apply rbind_ok in H as (n & _ & H). apply rbind_ok in H as (v & _ & H). destruct offset as [o|]; [|apply ok_inj in H; subst; exact Et].
  apply rbind_ok in H as (n' & _ & H). apply rbind_ok in H as (v' & _ & H). apply ok_inj in H; subst; exact Et.
Qed.

Lemma table_resolved x t : forall y r, infer_table up x y t = ok r ->
  Forall (fun q => exists rt, resolve_table up x q = ok rt) (from_names t).
Proof.
  induction t as [q alias|s alias|l IHl r IHr op c]; intros y res; cbn [infer_table from_names]; intros H.
  - apply rbind_ok in H as (rt & E & _). constructor; [eauto|constructor].
  - constructor.
  - apply rbind_ok in H as ([y1 a1] & E1 & H). apply rbind_ok in H as ([y2 a2] & E2 & _).
    apply Forall_app. split; [eapply IHl; exact E1|eapply IHr; exact E2].
Qed.

Lemma from_resolved x from : forall st st',
  fold_err (fun '(y, attrs) t => '(y', attrs') <-? infer_table up x y t ;; ok (y', attrs ++ attrs')) st from = ok st' ->
  Forall (fun q => exists rt, resolve_table up x q = ok rt) (flat_map from_names from).
Proof.
  induction from as [|t from IH]; intros [y attrs] st' H; cbn [fold_err flat_map] in *; [constructor|].
  apply rbind_ok in H as (st1 & E & H). apply rbind_ok in E as ([y1 a1] & E & _).
  apply Forall_app. split; [eapply table_resolved; exact E|eapply IH; exact H].
Qed.

Lemma with_invisible x ctes mode cols from wh group order lim rt :
  infer_select up x (Select ctes (SQuery mode cols from wh group) order lim) = ok rt ->
  Forall (fun q => exists t, resolve_table up x q = ok t) (flat_map from_names from).
Proof.
  intros H. apply with_ignored in H. cbn [infer_set] in H. apply rbind_ok in H as (st & E & _). eapply from_resolved. exact E.
Qed.

(** ** Schemas *)

Definition first_spelling (l : list name) (k : name) : Prop :=
  exists l1 l2, l = l1 ++ k :: l2 /\ Forall (fun m => same k m = false) l1.

Definition catalog_of (l : list name) (db : database) : Prop :=
  sorted up db /\ forall k sc, In (k, sc) db <-> first_spelling l k /\ sc = schema_new k.

Lemma first_spelling_snoc l n k :
  first_spelling (l ++ [n]) k <-> first_spelling l k \/ (k = n /\ Forall (fun m => same k m = false) l).
Proof.
  split.
  - intros (l1 & l2 & E & H). destruct l2 as [|m l2 _] using rev_ind.
    + apply app_inj_tail in E as [-> ->]. right. auto.
    + left. exists l1, l2. split; [|exact H]. rewrite app_comm_cons, app_assoc in E. apply app_inj_tail in E as [-> _]. reflexivity.
  - intros [(l1 & l2 & -> & H)|[-> H]].
    + exists l1, (l2 ++ [n]). split; [rewrite <- app_assoc; reflexivity|exact H].
    + exists l, []. auto.
Qed.

Lemma first_of l n : Exists (fun m => same n m = true) l -> exists k, same n k = true /\ first_spelling l k.
Proof.
  induction l as [|m l IH]; intros H; [inversion H|]. destruct (same n m) eqn:E.
  - exists m. split; [exact E|]. exists [], l. auto.
  - inversion H as [? ? Hm|? ? Hm]; subst; [congruence|]. destruct (IH Hm) as (k & Hk & l1 & l2 & -> & H1).
    exists k. split; [exact Hk|]. exists (m :: l1), l2. split; [reflexivity|]. constructor; [|exact H1].
    rewrite <- (name_eqb_congr_l up _ _ m Hk). exact E.
Qed.

Lemma catalog_get l db n : catalog_of l db ->
  (nget db n = None <-> Forall (fun m => same n m = false) l).
Proof.
  intros [Hs Hc]. split.
  - intros Hg. apply Forall_forall. intros m Hm. destruct (same n m) eqn:E; [|reflexivity]. exfalso.
    destruct (first_of l n) as (k & Hk & Hf); [apply Exists_exists; eauto|].
    assert (Hin : In (k, schema_new k) db) by (apply Hc; auto).
    pose proof (proj1 (nget_none up db n Hs) Hg k _ Hin). congruence.
  - intros Hf. apply nget_none; [exact Hs|]. intros k sc Hin. apply Hc in Hin as [(l1 & l2 & -> & _) _].
    apply Forall_app in Hf as [_ Hf]. inversion Hf; assumption.
Qed.

Lemma create_schema_spec l db n : catalog_of l db ->
  exists db' r, create_schema up db n = Ret (db', r) /\ catalog_of (l ++ [n]) db' /\
    (r = Ok tt <-> Forall (fun m => same n m = false) l) /\
    (forall m, same n m = false -> nget db' m = nget db m) /\ (r <> Ok tt -> db' = db).
Proof.
  intros Hc. pose proof (catalog_get l db n Hc) as Hg. unfold create_schema. destruct (nget db n) as [sc|] eqn:E.
  - exists db, (Err tt). split; [reflexivity|].
    assert (Hf : ~ Forall (fun m => same n m = false) l) by (intros Hf; apply Hg in Hf; discriminate).
    split; [|split; [split; [discriminate|intros; contradiction]|auto]].
    destruct Hc as [Hs Hc]. split; [exact Hs|]. intros k sc'. rewrite Hc, first_spelling_snoc. split; [tauto|].
    intros [[H|[-> H]] ->]; [auto|contradiction].
  - eexists _, (Ok tt). split; [reflexivity|].
    assert (Hf : Forall (fun m => same n m = false) l) by (apply Hg; reflexivity).
    destruct Hc as [Hs Hc]. split; [split; [apply nput_sorted; exact Hs|]|split; [tauto|split; [|congruence]]].
    + intros k sc. rewrite first_spelling_snoc.
      assert (Hin : In (k, sc) (nput up db n (schema_new n)) <-> In (k, sc) db \/ (k, sc) = (n, schema_new n)).
      { clear -Hs E. revert E. induction Hs as [|k0 v0 m Hb Hs IH]; intros E.
        - cbn. intuition congruence.
        - cbn [nput SqlNameModel.nget] in *. destruct (name_cmp up n k0) eqn:C; cbn [In].
          + discriminate.
          + intuition congruence.
          + rewrite IH by exact E. intuition congruence. }
      rewrite Hin, Hc. split.
      * intros [[H ->]|[= -> ->]]; auto.
      * intros [[H|[-> H]] ->]; auto.
    + intros m Hm. rewrite nget_nput by exact Hs. rewrite name_eqb_sym, Hm. reflexivity.
Qed.

Lemma creates_spec l : forall l0 db, catalog_of l0 db ->
  exists db' rs, creates up db l = Ret (db', rs) /\ catalog_of (l0 ++ l) db' /\ List.length rs = List.length l /\
    forall l1 n l2, l = l1 ++ n :: l2 ->
      (nth_error rs (List.length l1) = Some (Ok tt) <-> Forall (fun m => same n m = false) (l0 ++ l1)).
Proof.
  induction l as [|n l IH]; intros l0 db Hc; cbn [creates].
  - exists db, []. rewrite app_nil_r. split; [reflexivity|]. split; [exact Hc|]. split; [reflexivity|].
    intros [|] ? ? [=].
  - destruct (create_schema_spec l0 db n Hc) as (db1 & r & E & Hc1 & Hr & _). rewrite E. cbn [bind].
    destruct (IH _ _ Hc1) as (db2 & rs & E2 & Hc2 & Hl & Hrs). rewrite E2. cbn [bind].
    exists db2, (r :: rs). split; [reflexivity|]. rewrite <- app_assoc in Hc2. split; [exact Hc2|].
    split; [cbn; congruence|]. intros [|m l1] n' l2 El; cbn in El; injection El as <- ->.
    + cbn. rewrite app_nil_r, <- Hr. split; [intros [= ->]; reflexivity|intros ->; reflexivity].
    + cbn [List.length nth_error]. rewrite (Hrs l1 n' l2 eq_refl), <- app_assoc. reflexivity.
Qed.

Lemma sorted_distinct {V} (m : nmap V) : sorted up m -> distinct up (map fst m).
Proof.
  unfold distinct. induction 1 as [|k v m Hb Hs IH]; cbn; constructor; [|exact IH].
  apply Forall_map, Forall_forall. intros [k' v'] Hin. cbn.
  destruct (same k k') eqn:E; [|reflexivity]. apply name_cmp_eqb in E.
  unfold below in Hb. rewrite Forall_forall in Hb. specialize (Hb _ Hin). cbn in Hb. congruence.
Qed.

Lemma describe_fails l db s o : catalog_of l db -> describe up db s o = Err tt.
Proof.
  intros [Hs Hc]. unfold describe. destruct (nget db s) as [sc|] eqn:E; [|reflexivity].
  apply nget_in in E as (k & Hin & _); [|exact Hs]. apply Hc in Hin as [_ ->]. reflexivity.
Qed.

Lemma catalog_nil : catalog_of [] database_new.
Proof. split; [apply sorted_nil|]. intros k sc. cbn. split; [tauto|]. intros [([|] & l2 & [=] & _) _]. Qed.

End Columns.
