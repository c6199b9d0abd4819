(** * The decoder reads the texts of values *)

From Coq Require Import Strings.String ZifyBool ZifyNat ZifyN.
From Verif Require Import Base BaseFacts StrModel StrFacts Utf8Model Utf8Facts TypesModel MarshalModel MarshalSpec LayoutProofs JsonModel JsonSpec JsonData JsonBits JsonLex JsonNum JsonTok JsonRead JsonEmit.
Local Open Scope list_scope.
Local Open Scope Z_scope.

Section Parse.
Context (alnum : Z -> bool) (fl : floats) (pf : profile).

Notation step := (JsonModel.step alnum).
Notation must_be := (JsonModel.must_be alnum).
Notation parse := (JsonModel.parse alnum fl pf).
Notation reads := (JsonRead.reads alnum).
Notation separator := (JsonSpec.separator alnum).

Lemma step_reads st k v r d : reads st k v r ->
  exists st', step st d = Ret (d, Ok st') /\ t_token st' = k /\ t_rest st' = r /\ (k = KString \/ k = KNumber -> tok_value st' = v).
Proof. intros (st' & E & H). exists st'. split; [|exact H]. unfold JsonModel.step. rewrite E. reflexivity. Qed.

Lemma token_eqb_refl k : token_eqb k k = true.
Proof. destruct k; reflexivity. Qed.

Lemma token_eqb_eq a b : token_eqb a b = true -> a = b.
Proof. destruct a, b; intros H; reflexivity || discriminate H. Qed.

Lemma must_reads st k w v r d : reads st k v r -> exists st', andthen (step st d) (must_be k w) = step st' d /\ t_rest st' = r.
Proof.
  intros H. destruct (step_reads _ _ _ _ d H) as (st' & E & Hk & Hr & _). exists st'. rewrite E, andthen_ret. split; [|exact Hr].
  unfold JsonModel.must_be. rewrite Hk, token_eqb_refl. reflexivity.
Qed.

Lemma must_not st k k' w v r d : reads st k v r -> k <> k' -> andthen (step st d) (must_be k' w) = Ret (d, Err (EExpected w)).
Proof.
  intros H N. destruct (step_reads _ _ _ _ d H) as (st' & E & Hk & _). rewrite E, andthen_ret.
  unfold JsonModel.must_be. rewrite Hk. destruct (token_eqb k k') eqn:X; [apply token_eqb_eq in X; congruence|reflexivity].
Qed.

Lemma must_single st c k w r d : t_rest st = c :: r ->
  In (c, k) [(91, KBeginArray); (93, KEndArray); (123, KBeginObject); (125, KEndObject); (44, KComma); (58, KColon)] ->
  exists st', andthen (step st d) (must_be k w) = step st' d /\ t_rest st' = r.
Proof. intros E H. eapply must_reads. eapply reads_single; eassumption. Qed.

Lemma named_reads st name w r d : Forall json_char name -> t_rest st = string_text name ++ r ->
  exists st', andthen (step st d) (named_field alnum name w) = step st' d /\ t_rest st' = r.
Proof.
  intros F E. pose proof (reads_string alnum st name r (json_char_nonzero _ F) E) as R. rewrite reread_json in R by exact F.
  destruct (step_reads _ _ _ _ d R) as (st' & Es & Hk & Hr & Hv). exists st'. rewrite Es, andthen_ret. split; [|exact Hr].
  unfold named_field. rewrite Hk, Hv by auto. rewrite str_eqb_refl. reflexivity.
Qed.

Lemma separator_punct c r : In c [44; 93; 125] -> separator (c :: r).
Proof. intros H. cbn. cbn in H. repeat (destruct H as [<-|H]; [split; [reflexivity|discriminate]|]). destruct H. Qed.

Lemma separator_boundary t k : separator k -> boundary alnum t k.
Proof. intros S. destruct t as [|p| | | |]; try exact I; try exact S. destruct p; try exact I; exact S. Qed.

(** Parsing a text of type [t] at path [q] writes exactly the entries of [v] and stops after the text. *)
Definition reads_value (t : ty) (v : val) (x : str) : Prop :=
  forall q k st d, t_rest st = x ++ k -> boundary alnum t k ->
  exists st1 d', andthen (step st d) (parse t q) = step st1 d' /\ t_rest st1 = k /\
    forall p, ds_get d' p = over q (fun r => entry r t v) (ds_get d) p.

Lemma over_add t v j d q : entry [] t v = Some j -> (forall i r, entry (i :: r) t v = None) ->
  forall p, ds_get (ds_add d q j) p = over q (fun r => entry r t v) (ds_get d) p.
Proof.
  intros E0 E1 p. unfold ds_add, over. cbn [ds_get]. destruct (path_eqb q p) eqn:E.
  - apply path_eqb_eq in E. subst p. rewrite <- (app_nil_r q) at 2. rewrite strip_app, E0. reflexivity.
  - destruct (strip q p) as [[|i r]|] eqn:S; [|rewrite E1; reflexivity|reflexivity].
    apply strip_some in S. rewrite app_nil_r in S. subst p. assert (X : path_eqb q q = true) by (apply path_eqb_eq; reflexivity). congruence.
Qed.

Lemma over_none d q (e : path -> option jvalue) : (forall r, e r = None) -> forall p, ds_get d p = over q e (ds_get d) p.
Proof. intros H p. unfold over. destruct (strip q p); [rewrite H|]; reflexivity. Qed.

Lemma parse_number_show p z : in_range p z -> p <> PBool -> p <> PChar -> (p = PF32 \/ p = PF64 -> float_ok fl p z) ->
  parse_number fl p (prim_text fl p z) = Some z.
Proof.
  intros Hr N1 N2 Hf.
  destruct p; try congruence; cbn [parse_number prim_text];
    try (apply parse_show; cbn in Hr |- *; unfold umax in *; lia);
    destruct Hf as [_ Hf]; auto.
Qed.

Lemma reads_prim p z : jsonable fl (TPrim p) (VPrim z) -> reads_value (TPrim p) (VPrim z) (prim_text fl p z).
Proof.
  intros Hj q k st d E S. inversion Hj as [|? ? Hr Hc Hf| | | |]; subst.
  assert (A : forall j, entry [] (TPrim p) (VPrim z) = Some j -> forall p', ds_get (ds_add d q j) p' = over q (fun r => entry r (TPrim p) (VPrim z)) (ds_get d) p').
  { intros j Ej. apply over_add; [exact Ej|]. reflexivity. }
  destruct (prim_eqb p PBool) eqn:B; [apply prim_eqb_eq in B; subst p|destruct (prim_eqb p PChar) eqn:C; [apply prim_eqb_eq in C; subst p|]].
  - cbn [prim_text] in E. change (parse (TPrim PBool) q) with (parse_prim alnum fl PBool q).
    destruct Hr as [->| ->]; cbn [Z.eqb] in E.
    + destruct (step_reads st KFalse [] k d) as (st' & Es & Hk & Hrest & _).
      { eapply reads_keyword; [exact E|exact S|]. cbn. auto. }
      exists st', (ds_add d q (JPrim PBool 0)). rewrite Es, andthen_ret. unfold parse_prim. rewrite Hk. split; [reflexivity|]. split; [exact Hrest|]. apply A. reflexivity.
    + destruct (step_reads st KTrue [] k d) as (st' & Es & Hk & Hrest & _).
      { eapply reads_keyword; [exact E|exact S|]. cbn. auto. }
      exists st', (ds_add d q (JPrim PBool 1)). rewrite Es, andthen_ret. unfold parse_prim. rewrite Hk. split; [reflexivity|]. split; [exact Hrest|]. apply A. reflexivity.
  - change (parse (TPrim PChar) q) with (parse_prim alnum fl PChar q). cbn [prim_text] in E.
    assert (J : Forall json_char [z]) by (constructor; [apply Hc; reflexivity|constructor]).
    pose proof (reads_string alnum st [z] k (json_char_nonzero _ J) E) as R. rewrite reread_json in R by exact J.
    destruct (step_reads _ _ _ _ d R) as (st' & Es & Hk & Hrest & Hv). exists st', (ds_add d q (JPrim PChar z)). rewrite Es, andthen_ret.
    unfold parse_prim. rewrite Hv by auto. rewrite Hk. split; [reflexivity|]. split; [exact Hrest|]. apply A. reflexivity.
  - assert (N1 : p <> PBool) by (intros ->; discriminate). assert (N2 : p <> PChar) by (intros ->; discriminate).
    assert (L : number_lexeme (prim_text fl p z)).
    { destruct p; try congruence; cbn [prim_text]; try apply show_int_lexeme; destruct Hf as [Hf _]; auto. }
    assert (S' : separator k) by (destruct p; try congruence; exact S).
    destruct (step_reads _ _ _ _ d (reads_number alnum st _ k E L S')) as (st' & Es & Hk & Hrest & Hv).
    exists st', (ds_add d q (JPrim p z)). rewrite Es, andthen_ret. split; [|split; [exact Hrest|apply A; reflexivity]].
    pose proof (parse_number_show p z Hr N1 N2 Hf) as Hp.
    change (parse_prim alnum fl p q st' d = step st' (ds_add d q (JPrim p z))).
    unfold parse_prim. rewrite Hv by auto. rewrite Hk, Hp. destruct p; try congruence; reflexivity.
Qed.

(** ** Tuples *)

Lemma tuple_rest (ts : list ty) vs xs : values_text fl ts vs xs ->
  forall n, (forall t v x, In (t, v, x) (combine (combine ts vs) xs) -> reads_value t v x) ->
  forall q k st d (E : nat -> path -> option jvalue), t_rest st = flat_map (fun x => 44 :: x) xs ++ 93 :: k ->
  (forall i t v, nth_error ts i = Some t -> nth_error vs i = Some v -> forall r, E (S n + i)%nat r = entry r t v) ->
  exists st1 d', andthen (step st d) (tuple_loop alnum parse ts q (S n)) = step st1 d' /\ t_rest st1 = 93 :: k /\
    forall p, ds_get d' p = over_some q E (seq (S n) (length ts)) (ds_get d) p.
Proof.
  revert vs xs. induction ts as [|t ts IH]; intros vs xs HT n HR q k st d E Er HE; inversion HT as [|? ? v vs' x xs' Hx Hxs]; subst.
  - exists st, d. split; [|split; [exact Er|]].
    + cbn [tuple_loop]. destruct (step st d) as [[d0 [s|e]]| |]; reflexivity.
    + intros p. cbn [length seq]. rewrite over_some_nil. reflexivity.
  - cbn [flat_map app] in Er. rewrite <- app_assoc in Er.
    destruct (must_single st 44 KComma WTupleComma _ d Er) as (st1 & E1 & R1); [cbn; auto 10|].
    destruct (HR t v x (or_introl eq_refl) (q ++ [S n]) (flat_map (fun x => 44 :: x) xs' ++ 93 :: k) st1 d R1) as (st2 & d2 & E2 & R2 & O2).
    { destruct xs' as [|y ys]; cbn [flat_map app]; apply separator_boundary, separator_punct; cbn; auto. }
    destruct (IH vs' xs' Hxs (S n)) with (q := q) (k := k) (st := st2) (d := d2) (E := E) as (st3 & d3 & E3 & R3 & O3).
    { intros t' v' x' Hin. apply HR. right. exact Hin. } { exact R2. }
    { intros i t' v' Ht Hv r. rewrite <- (HE (S i) t' v' Ht Hv r). f_equal. lia. }
    exists st3, d3. split; [|split; [exact R3|]].
    + cbn [tuple_loop Nat.eqb]. rewrite <- andthen_assoc, E1. unfold with_component. rewrite <- andthen_assoc, E2. exact E3.
    + cbn [length seq]. eapply over_step; [rewrite in_seq; lia| |exact O3].
      intros p. rewrite O2. unfold over. destruct (strip (q ++ [S n]) p) as [r|]; [|reflexivity].
      specialize (HE 0%nat t v eq_refl eq_refl r). rewrite Nat.add_0_r in HE. rewrite HE. reflexivity.
Qed.

(** Entries of a tuple or struct. *)
Lemma over_members q (e : path -> option jvalue) (E : nat -> path -> option jvalue) n g p :
  e [] = None -> (forall i r, e (i :: r) = if (i <? n)%nat then E i r else None) ->
  over_some q E (seq 0 n) g p = over q e g p.
Proof.
  intros H0 H1. unfold over_some, over. destruct (strip q p) as [[|i r]|]; [rewrite H0; reflexivity| |reflexivity].
  rewrite H1. destruct (Nat.ltb_spec i n) as [L|L].
  - replace (existsb (Nat.eqb i) (seq 0 n)) with true; [reflexivity|]. symmetry. apply existsb_in. apply in_seq. lia.
  - replace (existsb (Nat.eqb i) (seq 0 n)) with false; [reflexivity|]. symmetry. apply existsb_not_in. rewrite in_seq. lia.
Qed.

Lemma values_text_length ts vs xs : values_text fl ts vs xs -> length vs = length ts /\ length xs = length ts.
Proof. intros H. induction H using values_text_mind with (P := fun _ _ _ => True); cbn; auto. destruct IHvalues_text; split; lia. Qed.

Lemma values_text_in ts vs xs : values_text fl ts vs xs -> forall t v x, In (t, v, x) (combine (combine ts vs) xs) -> value_text fl t v x.
Proof.
  revert vs xs; induction ts as [|t ts IH]; intros vs xs H t' v' x' Hin; inversion H; subst; cbn in Hin; [destruct Hin|].
  destruct Hin as [X|X]; [injection X as <- <- <-; assumption|]. eapply IH; eassumption.
Qed.

Lemma jsonables_in ts vs (xs : list str) : jsonables fl ts vs -> forall t v x, In (t, v, x) (combine (combine ts vs) xs) -> jsonable fl t v.
Proof.
  revert vs xs; induction ts as [|t ts IH]; intros vs xs H t' v' x' Hin; inversion H; subst; cbn in Hin; [destruct Hin|].
  destruct xs as [|x xs]; [destruct Hin|].
  destruct Hin as [X|X]; [injection X as <- <- <-; assumption|]. eapply IH; eassumption.
Qed.

Lemma combine3_in {A B C} (l1 : list A) (l2 : list B) (l3 : list C) a b c : In (a, b, c) (combine (combine l1 l2) l3) -> In a l1.
Proof. intros H. apply in_combine_l in H. apply in_combine_l in H. exact H. Qed.

Lemma reads_tuple ts vs xs : values_text fl ts vs xs ->
  (forall t v x, In (t, v, x) (combine (combine ts vs) xs) -> reads_value t v x) ->
  reads_value (TTuple ts) (VTuple vs) (91 :: comma_sep xs ++ [93]).
Proof.
  intros HT HR q k st d Er S. cbn [app] in Er. rewrite <- app_assoc in Er. cbn [app] in Er.
  set (E := fun i r => match nth_error ts i, nth_error vs i with Some t, Some v => entry r t v | _, _ => None end).
  destruct (must_single st 91 KBeginArray WTuple _ d Er) as (st1 & E1 & R1); [cbn; auto 10|].
  assert (L : exists st2 d2, andthen (step st1 d) (tuple_loop alnum parse ts q 0) = step st2 d2 /\ t_rest st2 = 93 :: k /\
              forall p, ds_get d2 p = over_some q E (seq 0 (length ts)) (ds_get d) p).
  { destruct HT as [|t ts v vs x xs Hx Hxs].
    - exists st1, d. split; [cbn [tuple_loop]; destruct (step st1 d) as [[d0 [s|e]]| |]; reflexivity|]. split; [exact R1|].
      intros p. cbn [length seq]. rewrite over_some_nil. reflexivity.
    - rewrite comma_sep_flat, <- app_assoc in R1.
      destruct (HR t v x (or_introl eq_refl) (q ++ [0%nat]) (flat_map (fun y => 44 :: y) xs ++ 93 :: k) st1 d R1) as (st2 & d2 & E2 & R2 & O2).
      { destruct xs as [|y ys]; cbn [flat_map app]; apply separator_boundary, separator_punct; cbn; auto. }
      destruct (tuple_rest ts vs xs Hxs 0) with (q := q) (k := k) (st := st2) (d := d2) (E := E) as (st3 & d3 & E3 & R3 & O3).
      { intros t' v' x' Hin. apply HR. right. exact Hin. } { exact R2. }
      { intros i t' v' Ht Hv r. unfold E. cbn [Nat.add nth_error]. rewrite Ht, Hv. reflexivity. }
      exists st3, d3. split; [|split; [exact R3|]].
      + cbn [tuple_loop Nat.eqb]. erewrite andthen_ext; [|intros; rewrite andthen_ret; reflexivity].
        unfold with_component. rewrite <- andthen_assoc, E2. exact E3.
      + cbn [length seq]. eapply over_step; [rewrite in_seq; lia| |exact O3]. exact O2. }
  destruct L as (st2 & d2 & E2 & R2 & O2).
  destruct (must_single st2 93 KEndArray WTupleEnd _ d2 R2) as (st3 & E3 & R3); [cbn; auto 10|].
  exists st3, d2. split; [|split; [exact R3|]].
  - change (parse (TTuple ts) q) with (fun st d => andthen (must_be KBeginArray WTuple st d) (fun st d => andthen (tuple_loop alnum parse ts q 0 st d) (fun st d => must_be KEndArray WTupleEnd st d))).
    cbv beta. rewrite <- andthen_assoc. rewrite E1. rewrite <- andthen_assoc, E2. exact E3.
  - intros p. rewrite O2. apply over_members; [reflexivity|]. intros i r. cbn [entry].
    destruct (Nat.ltb_spec i (length ts)) as [Li|Li]; [reflexivity|].
    replace (nth_error ts i) with (@None ty); [reflexivity|]. symmetry. apply nth_error_None. exact Li.
Qed.

(** ** Structs *)

Section Struct.
Context (fs : list (str * ty)) (q : path).
Hypothesis few : (List.length fs < 64)%nat.
Hypothesis distinct : NoDup (map fst fs).

Notation field := (fun i st d => select (fun f : str * ty => parse (snd f) (with_component q i) st d) fs i).
Notation sloop := (struct_loop alnum pf (last_index fs 0) field).

(** One iteration, after the comma. *)
Definition sbody (f : nat) (visited : Z) (st : tstate) (d : ds) : outcome parsed :=
  if token_eqb (t_token st) KString then
    match last_index fs 0 (tok_value st) with
    | None => Ret (d, Err (EField (tok_value st)))
    | Some i =>
        has <- bits_has pf visited i ;;
        if has : bool then
          andthen (step st d) (fun st d =>
          visited' <- bits_clear pf visited i ;;
          andthen (must_be KColon WColon st d) (fun st d =>
          andthen (field i st d) (fun st d =>
          sloop f visited' false st d)))
        else Ret (d, Err (EDuplicate (tok_value st)))
    end
  else Ret (d, Err (EExpected WLabel)).

Lemma sloop_0 f v b st d s : is_set v s -> s = [] -> sloop f v b st d = Ret (d, Ok st).
Proof. intros H ->. pose proof (is_set_empty _ _ H) as Z0. destruct f; cbn [struct_loop]; rewrite Z0; reflexivity. Qed.

Lemma sloop_S f v (b : bool) st d s : is_set v s -> s <> [] ->
  sloop (S f) v b st d = andthen (if b then Ret (d, Ok st) else must_be KComma WFieldComma st d) (sbody f v).
Proof. intros H N. pose proof (is_set_empty _ _ H) as Z0. destruct s; [congruence|]. cbn [struct_loop]. rewrite Z0. reflexivity. Qed.

Lemma sbody_reads f v s1 s2 i l t w x r st d :
  is_set v (s1 ++ i :: s2) -> ~ In i (s1 ++ s2) -> nth_error fs i = Some (l, t) -> Forall json_char l -> reads_value t w x ->
  t_rest st = string_text l ++ 58 :: x ++ r -> separator r ->
  exists st2 d2 v', is_set v' (s1 ++ s2) /\ andthen (step st d) (sbody f v) = andthen (step st2 d2) (sloop f v' false) /\
    t_rest st2 = r /\ forall p, ds_get d2 p = over (q ++ [i]) (fun r => entry r t w) (ds_get d) p.
Proof.
  intros Hs Hi Hn Hl Hx Er S.
  pose proof (reads_string alnum st l _ (json_char_nonzero _ Hl) Er) as R. rewrite reread_json in R by exact Hl.
  destruct (step_reads _ _ _ _ d R) as (st1 & E1 & Hk & R1 & Hv).
  assert (Li : (i < 64)%nat). { apply Nat.lt_trans with (List.length fs); [|exact few]. apply nth_error_Some. rewrite Hn. discriminate. }
  destruct (is_set_clear pf v i s1 s2 Hs Hi) as (v' & Ec & Hv').
  destruct (must_single st1 58 KColon WColon _ d R1) as (st2 & E2 & R2); [cbn; auto 10|].
  destruct (Hx (q ++ [i]) r st2 d R2 (separator_boundary _ _ S)) as (st3 & d3 & E3 & R3 & O3).
  exists st3, d3, v'. split; [exact Hv'|]. split; [|split; [exact R3|exact O3]].
  rewrite E1, andthen_ret. unfold sbody. rewrite Hv by auto. rewrite Hk. cbn [token_eqb].
  rewrite (last_index_nth fs l t distinct i 0%nat Hn). cbn [Nat.add]. rewrite bits_has_small by exact Li. cbn [bind].
  destruct Hs as (_ & _ & Hs). replace (Z.testbit v (Z.of_nat i)) with true by (symmetry; apply Hs; [exact Li|apply in_or_app; right; left; reflexivity]).
  rewrite Ec. cbn [bind]. rewrite <- andthen_assoc, E2. rewrite <- andthen_assoc.
  erewrite (andthen_ext _ (field i)); [rewrite E3; reflexivity|]. intros st' d'. rewrite (select_nth _ _ _ _ Hn). reflexivity.
Qed.

Context (vs : list val) (xs : list str).
Definition member_text (i : nat) : str :=
  match nth_error fs i, nth_error xs i with Some (l, _), Some x => string_text l ++ 58 :: x | _, _ => [] end.

Definition field_entry (i : nat) (r : path) : option jvalue :=
  match nth_error fs i, nth_error vs i with Some (_, t), Some v => entry r t v | _, _ => None end.

Hypothesis good : forall i l t, nth_error fs i = Some (l, t) -> exists v x, nth_error vs i = Some v /\ nth_error xs i = Some x /\
  Forall json_char l /\ reads_value t v x.

Lemma struct_rest order : NoDup order -> Forall (fun i => (i < List.length fs)%nat) order -> forall f v k st d,
  is_set v order -> (List.length order <= f)%nat -> t_rest st = flat_map (fun i => 44 :: member_text i) order ++ 125 :: k ->
  exists st1 d', andthen (step st d) (sloop f v false) = step st1 d' /\ t_rest st1 = 125 :: k /\
    forall p, ds_get d' p = over_some q field_entry order (ds_get d) p.
Proof.
  induction order as [|i order IH]; intros ND F f v k st d Hs Hf Er.
  - exists st, d. split; [|split; [exact Er|intros p; rewrite over_some_nil; reflexivity]].
    erewrite andthen_ext; [|intros; eapply sloop_0; [exact Hs|reflexivity]]. destruct (step st d) as [[d0 [s|e]]| |]; reflexivity.
  - destruct f as [|f]; [cbn in Hf; lia|]. inversion ND as [|? ? Ni ND']; subst. inversion F as [|? ? Li F']; subst.
    destruct (nth_error fs i) as [[l t]|] eqn:Hn; [|apply nth_error_None in Hn; lia].
    destruct (good i l t Hn) as (w & x & Hw & Hx & Hl & Hr).
    cbn [flat_map app] in Er. unfold member_text at 1 in Er. rewrite Hn, Hx in Er. rewrite <- !app_assoc in Er. cbn [app] in Er.
    destruct (must_single st 44 KComma WFieldComma _ d Er) as (st1 & E1 & R1); [cbn; auto 10|].
    destruct (sbody_reads f v [] order i l t w x (flat_map (fun i => 44 :: member_text i) order ++ 125 :: k) st1 d Hs Ni Hn Hl Hr)
      as (st2 & d2 & v' & Hv' & E2 & R2 & O2).
    { exact R1. }
    { destruct order; cbn [flat_map app]; apply separator_punct; cbn; auto. }
    destruct (IH ND' F' f v' k st2 d2 Hv') as (st3 & d3 & E3 & R3 & O3); [cbn in Hf; lia|exact R2|].
    exists st3, d3. split; [|split; [exact R3|]].
    + erewrite andthen_ext; [|intros; eapply sloop_S; [exact Hs|discriminate]]. cbv iota. rewrite <- andthen_assoc, E1, E2. exact E3.
    + eapply over_step; [exact Ni| |exact O3]. intros p. rewrite O2. unfold over, field_entry. rewrite Hn, Hw. reflexivity.
Qed.

Lemma struct_all order : NoDup order -> Forall (fun i => (i < List.length fs)%nat) order -> forall f v k st d,
  is_set v order -> (List.length order <= f)%nat -> t_rest st = comma_sep (map member_text order) ++ 125 :: k ->
  exists st1 d', andthen (step st d) (sloop f v true) = step st1 d' /\ t_rest st1 = 125 :: k /\
    forall p, ds_get d' p = over_some q field_entry order (ds_get d) p.
Proof.
  intros ND F f v k st d Hs Hf Er. destruct order as [|i order].
  - exists st, d. split; [|split; [exact Er|intros p; rewrite over_some_nil; reflexivity]].
    erewrite andthen_ext; [|intros; eapply sloop_0; [exact Hs|reflexivity]]. destruct (step st d) as [[d0 [s|e]]| |]; reflexivity.
  - destruct f as [|f]; [cbn in Hf; lia|]. inversion ND as [|? ? Ni ND']; subst. inversion F as [|? ? Li F']; subst.
    destruct (nth_error fs i) as [[l t]|] eqn:Hn; [|apply nth_error_None in Hn; lia].
    destruct (good i l t Hn) as (w & x & Hw & Hx & Hl & Hr).
    cbn [map] in Er. rewrite comma_sep_flat in Er. unfold member_text at 1 in Er. rewrite Hn, Hx in Er. rewrite <- !app_assoc in Er. cbn [app] in Er.
    rewrite flat_map_concat_map, map_map, <- flat_map_concat_map in Er. 
    destruct (sbody_reads f v [] order i l t w x (flat_map (fun i => 44 :: member_text i) order ++ 125 :: k) st d Hs Ni Hn Hl Hr)
      as (st2 & d2 & v' & Hv' & E2 & R2 & O2).
    { exact Er. }
    { destruct order; cbn [flat_map app]; apply separator_punct; cbn; auto. }
    destruct (struct_rest order ND' F' f v' k st2 d2 Hv') as (st3 & d3 & E3 & R3 & O3); [cbn in Hf; lia|exact R2|].
    exists st3, d3. split; [|split; [exact R3|]].
    + erewrite andthen_ext; [|intros; eapply sloop_S; [exact Hs|discriminate]]. cbv iota.
      erewrite andthen_ext; [|intros; apply andthen_ret]. rewrite E2. exact E3.
    + eapply over_step; [exact Ni| |exact O3]. intros p. rewrite O2. unfold over, field_entry. rewrite Hn, Hw. reflexivity.
Qed.

(** The members in any order. *)
Lemma reads_struct_perm order k st d : NoDup order -> (forall i, In i order <-> (i < List.length fs)%nat) ->
  t_rest st = 123 :: comma_sep (map member_text order) ++ 125 :: k ->
  exists st1 d', andthen (step st d) (parse (TStruct fs) q) = step st1 d' /\ t_rest st1 = k /\
    forall p, ds_get d' p = over q (fun r => entry r (TStruct fs) (VStruct vs)) (ds_get d) p.
Proof.
  intros ND HO Er.
  destruct (must_single st 123 KBeginObject WStruct _ d Er) as (st1 & E1 & R1); [cbn; auto 10|].
  assert (Hs : is_set (2 ^ Z.of_nat (List.length fs) - 1) order).
  { destruct (is_set_new (List.length fs) few) as (B & _ & H). split; [exact B|]. split.
    - apply Forall_forall. intros i Hi. apply HO in Hi. lia.
    - intros i Hi. rewrite H by exact Hi. rewrite HO, in_seq. lia. }
  assert (F : Forall (fun i => (i < List.length fs)%nat) order) by (apply Forall_forall; intros i Hi; apply HO; exact Hi).
  assert (Len : (List.length order <= 65)%nat).
  { apply Nat.le_trans with (List.length (seq 0 (List.length fs))); [apply NoDup_incl_length; [exact ND|]|rewrite seq_length; lia].
    intros i Hi. apply in_seq. apply HO in Hi. lia. }
  destruct (struct_all order ND F 65 _ k st1 d Hs Len R1) as (st2 & d2 & E2 & R2 & O2).
  destruct (must_single st2 125 KEndObject WStructEnd _ d2 R2) as (st3 & E3 & R3); [cbn; auto 10|].
  exists st3, d2. split; [|split; [exact R3|]].
  - change (parse (TStruct fs) q) with (fun st d => andthen (must_be KBeginObject WStruct st d) (fun st d =>
      visited <- bits_new pf (List.length fs) ;; andthen (sloop 65 visited true st d) (fun st d => must_be KEndObject WStructEnd st d))).
    cbv beta. rewrite bits_new_small by exact few. cbn [bind]. rewrite <- andthen_assoc, E1. rewrite <- andthen_assoc, E2. exact E3.
  - intros p. rewrite O2. rewrite <- (over_members q (fun r => entry r (TStruct fs) (VStruct vs)) field_entry (List.length fs)); [|reflexivity|].
    + unfold over_some. destruct (strip q p) as [[|i r]|]; try reflexivity.
      replace (existsb (Nat.eqb i) (seq 0 (List.length fs))) with (existsb (Nat.eqb i) order); [reflexivity|].
      apply eq_true_iff_eq. rewrite !existsb_in, HO, in_seq. lia.
    + intros i r. cbn [entry]. destruct (Nat.ltb_spec i (List.length fs)) as [Li|Li]; [reflexivity|].
      replace (nth_error fs i) with (@None (str * ty)); [reflexivity|]. symmetry. apply nth_error_None. exact Li.
Qed.

End Struct.

Lemma member_text_seq fs : forall xs, List.length xs = List.length fs ->
  map (member_text fs xs) (seq 0 (List.length fs)) = map (fun m => string_text (fst m) ++ 58 :: snd m) (combine (map fst fs) xs).
Proof.
  induction fs as [|[l t] fs IH]; intros [|x xs] L; try discriminate; [reflexivity|].
  cbn [List.length seq map combine fst snd]. f_equal. rewrite <- seq_shift, map_map. rewrite <- IH by (cbn in L; lia). reflexivity.
Qed.

(** ** Enums *)

Lemma reads_enum cs i l t v x : NoDup (map fst cs) -> nth_error cs i = Some (l, t) -> Forall json_char l -> reads_value t v x ->
  reads_value (TEnum cs) (VCase i v) (lit "{""kind"":" ++ string_text l ++ lit ",""value"":" ++ x ++ [125]).
Proof.
  intros ND Hn Hl Hx q k st d Er S.
  assert (Er' : t_rest st = 123 :: string_text (lit "kind") ++ 58 :: string_text l ++ 44 :: string_text (lit "value") ++ 58 :: x ++ 125 :: k).
  { rewrite Er. rewrite <- !app_assoc. cbn. reflexivity. }
  clear Er. rename Er' into Er.
  destruct (must_single st 123 KBeginObject WEnum _ d Er) as (st1 & E1 & R1); [cbn; auto 10|].
  assert (K : Forall json_char (lit "kind") /\ Forall json_char (lit "value")).
  { split; apply Forall_forall; intros c Hc; cbn in Hc; unfold json_char, bad_control, is_char; lia. }
  destruct K as [K1 K2].
  destruct (named_reads st1 _ WKind _ d K1 R1) as (st2 & E2 & R2).
  destruct (must_single st2 58 KColon WColon _ d R2) as (st3 & E3 & R3); [cbn; auto 10|].
  pose proof (reads_string alnum st3 l _ (json_char_nonzero _ Hl) R3) as R. rewrite reread_json in R by exact Hl.
  destruct (step_reads _ _ _ _ d R) as (st4 & E4 & Hk & R4 & Hv).
  set (d1 := ds_add d q (JTag i)).
  destruct (must_single st4 44 KComma WCaseComma _ d1 R4) as (st5 & E5 & R5); [cbn; auto 10|].
  destruct (named_reads st5 _ WValue _ d1 K2 R5) as (st6 & E6 & R6).
  destruct (must_single st6 58 KColon WColon _ d1 R6) as (st7 & E7 & R7); [cbn; auto 10|].
  destruct (Hx (q ++ [i]) (125 :: k) st7 d1 R7) as (st8 & d2 & E8 & R8 & O8); [apply separator_boundary, separator_punct; cbn; auto|].
  destruct (must_single st8 125 KEndObject WEnumEnd _ d2 R8) as (st9 & E9 & R9); [cbn; auto 10|].
  exists st9, d2. split; [|split; [exact R9|]].
  - change (parse (TEnum cs) q) with (fun st d =>
      andthen (must_be KBeginObject WEnum st d) (fun st d =>
      andthen (named_field alnum (lit "kind") WKind st d) (fun st d =>
      andthen (must_be KColon WColon st d) (fun st d =>
      if negb (token_eqb (t_token st) KString) then Ret (d, Err (EExpected WCaseString)) else
      match last_index cs 0 (tok_value st) with
      | None => Ret (d, Err (ECase (tok_value st)))
      | Some i =>
          andthen (step st (ds_add d q (JTag i))) (fun st d =>
          andthen (must_be KComma WCaseComma st d) (fun st d =>
          andthen (named_field alnum (lit "value") WValue st d) (fun st d =>
          andthen (must_be KColon WColon st d) (fun st d =>
          andthen (select (fun c => parse (snd c) (with_component q i) st d) cs i) (fun st d =>
          must_be KEndObject WEnumEnd st d)))))
      end)))).
    cbv beta. rewrite <- andthen_assoc, E1. rewrite <- andthen_assoc, E2. rewrite <- andthen_assoc, E3. rewrite E4, andthen_ret, Hk.
    cbn [token_eqb negb]. rewrite Hv by auto. rewrite (last_index_nth cs l t ND i 0%nat Hn). cbn [Nat.add]. fold d1.
    rewrite <- andthen_assoc, E5. rewrite <- andthen_assoc, E6. rewrite <- andthen_assoc, E7. rewrite <- andthen_assoc.
    erewrite (andthen_ext (step st7 d1) _ (parse t (q ++ [i]))); [rewrite E8; exact E9|].
    intros st' d'. rewrite (select_nth _ _ _ _ Hn). reflexivity.
  - intros p. rewrite O8. unfold over. rewrite strip_snoc. unfold d1, ds_add. cbn [ds_get].
    destruct (path_eqb q p) eqn:Eq.
    + apply path_eqb_eq in Eq. subst p. replace (strip q q) with (Some (@nil nat)) by (rewrite <- (app_nil_r q) at 2; rewrite strip_app; reflexivity). reflexivity.
    + destruct (strip q p) as [[|j r]|] eqn:Sp.
      * apply strip_some in Sp. rewrite app_nil_r in Sp. subst p. assert (X : path_eqb q q = true) by (apply path_eqb_eq; reflexivity). congruence.
      * cbn [entry]. rewrite (Nat.eqb_sym j i). destruct (Nat.eqb_spec i j) as [->|N]; [rewrite Hn; reflexivity|reflexivity].
      * reflexivity.
Qed.

(** ** Every value *)

Lemma values_nth fs : forall vs xs, values_text fl (map snd fs) vs xs -> jsonables fl (map snd fs) vs ->
  forall i (l : str) (t : ty), nth_error fs i = Some (l, t) -> exists v x, nth_error vs i = Some v /\ nth_error xs i = Some x /\ value_text fl t v x /\ jsonable fl t v.
Proof.
  induction fs as [|[l t] fs IH]; intros vs xs HT HJ i l' t' Hn; [destruct i; discriminate|].
  cbn [map snd] in *. inversion HT; subst. inversion HJ; subst. destruct i as [|i]; cbn [nth_error] in *.
  - injection Hn as -> ->. eauto 10.
  - eapply IH; eassumption.
Qed.

Lemma parse_text t : forall v x, jsonable fl t v -> value_text fl t v x -> reads_value t v x.
Proof.
  induction t using ty_ind'; intros v x Hj Hx.
  - inversion Hx; subst. intros q k st d E S.
    destruct (step_reads st KNull [] k d) as (st' & Es & Hk & Hrest & _).
    { eapply reads_keyword; [exact E|exact S|]. cbn. auto. }
    exists st', d. rewrite Es, andthen_ret. cbn [JsonModel.parse]. rewrite Hk. split; [reflexivity|]. split; [exact Hrest|].
    apply over_none. intros [|i r]; reflexivity.
  - inversion Hx; subst. apply reads_prim. exact Hj.
  - inversion Hx as [| |s Vs| | |]; subst. inversion Hj as [| |s' Hs E0 Es| | |]. clear E0. intros q k st d E S.
    assert (X : s' = s).
    { apply (f_equal utf8_decode) in Es. rewrite !utf8_decode_encode in Es by (exact Vs || apply json_char_valid; exact Hs). congruence. }
    subst s'. pose proof (reads_string alnum st s k (json_char_nonzero _ Hs) E) as R. rewrite reread_json in R by exact Hs.
    destruct (step_reads _ _ _ _ d R) as (st' & Es' & Hk & Hrest & Hv). exists st', (ds_add d q (JString s)). rewrite Es', andthen_ret.
    cbn [JsonModel.parse]. rewrite Hv by auto. rewrite Hk. split; [reflexivity|]. split; [exact Hrest|].
    apply over_add; [cbn [entry]; rewrite utf8_decode_encode by exact Vs; reflexivity|reflexivity].
  - inversion Hx as [| | |? vs xs Hxs| |]; subst. inversion Hj as [| | |? ? Hjs| |]; subst. apply reads_tuple; [exact Hxs|].
    intros t v x Hin. rewrite Forall_forall in H. apply H; [eapply combine3_in; exact Hin|eapply jsonables_in; eassumption|eapply values_text_in; eassumption].
  - inversion Hx as [| | | |? vs xs Hxs|]; subst. inversion Hj as [| | | |? ? Hlen Hnd Hch Hjs|]; subst.
    intros q k st d Er S. rewrite <- member_text_seq in Er by (destruct (values_text_length _ _ _ Hxs) as [_ L]; rewrite L, map_length; reflexivity).
    apply (reads_struct_perm fs q Hlen Hnd vs xs) with (order := seq 0 (List.length fs)).
    + intros i l t Hn. destruct (values_nth fs vs xs Hxs Hjs i l t Hn) as (v & x & Hv & Hx' & Ht & Hjv). exists v, x.
      split; [exact Hv|]. split; [exact Hx'|]. split.
      * rewrite Forall_forall in Hch. apply Hch. apply in_map_iff. exists (l, t). split; [reflexivity|]. eapply nth_error_In; exact Hn.
      * rewrite Forall_forall in H. apply (H (l, t)); [eapply nth_error_In; exact Hn|exact Hjv|exact Ht].
    + apply seq_NoDup.
    + intros i. rewrite in_seq. lia.
    + rewrite Er. cbn [app]. rewrite <- app_assoc. reflexivity.
  - inversion Hx as [| | | | |? k l t v' x' Hn Hx']; subst. inversion Hj as [| | | | |? k' l' t' v'' Hnd Hn' Hl Hj']; subst.
    rewrite Hn in Hn'. injection Hn' as <- <-. apply (reads_enum cs k l t); [exact Hnd|exact Hn|exact Hl|].
    rewrite Forall_forall in H. apply (H (l, t)); [eapply nth_error_In; exact Hn|exact Hj'|exact Hx'].
Qed.

End Parse.
