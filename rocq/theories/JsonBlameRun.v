(** * Running the decoder over a document, whatever follows, and up to the first fault *)

From Coq Require Import Strings.String Sorting.Permutation ZifyBool ZifyNat ZifyN.
From Verif Require Import Base BaseFacts StrModel StrFacts Utf8Model Utf8Facts TypesModel TypesSpec MarshalModel MarshalSpec LayoutProofs PresentsFacts JsonModel JsonSpec JsonData JsonBits JsonLex JsonNum JsonTok JsonRead JsonEmit JsonParse JsonSound JsonMore WhiteSpec WhiteProofs JsonDocSpec JsonDocProofs JsonBlame JsonBlameLex.
Local Open Scope list_scope.
Local Open Scope Z_scope.

Section Run.
Context (alnum : Z -> bool) (fl : floats) (pf : profile).

Notation next := (JsonModel.next alnum).
Notation step := (JsonModel.step alnum).
Notation must_be := (JsonModel.must_be alnum).
Notation named := (JsonModel.named_field alnum).
Notation parse := (JsonModel.parse alnum fl pf).
Notation reads := (JsonDocSpec.reads alnum).
Notation separated := (JsonDocSpec.separated alnum).
Notation document := (JsonDocSpec.document alnum fl).
Notation elements := (JsonDocSpec.elements alnum fl).
Notation members := (JsonDocSpec.members alnum fl).
Notation unreadable := (JsonBlame.unreadable alnum).
Notation lacks := (JsonBlame.lacks alnum).
Notation lacks_punct := (JsonBlame.lacks_punct alnum).
Notation lacks_text := (JsonBlame.lacks_text alnum).
Notation lacks_any_text := (JsonBlame.lacks_any_text alnum).
Notation faulty := (JsonBlame.faulty alnum fl).
Notation faulty_elements := (JsonBlame.faulty_elements alnum fl).
Notation faulty_members := (JsonBlame.faulty_members alnum fl).
Notation faulty_case := (JsonBlame.faulty_case alnum fl).
Notation faulty_content := (JsonBlame.faulty_content alnum fl).
Notation field fs q := (fun i st d => select (fun f : str * ty => parse (snd f) (with_component q i) st d) fs i).
Notation loop fs q := (struct_loop alnum pf (last_index fs 0) (field fs q)).
Notation body := (JsonParse.sbody alnum fl pf).

(** ** Single symbols *)

Lemma go s x r st d : reads s x r -> t_rest st = s -> exists st', step st d = Ret (d, Ok st') /\ sym_of st' = x /\ t_rest st' = r.
Proof. intros R E. destruct (reads_next alnum _ _ _ R st E) as (st' & N & Hx & Hr). exists st'. unfold JsonModel.step. rewrite N. auto. Qed.

Lemma stop s e st d : unreadable s e -> t_rest st = s -> step st d = Ret (d, Err e).
Proof. intros U E. destruct (unreadable_next alnum _ _ U st E) as (st' & N). unfold JsonModel.step. rewrite N. reflexivity. Qed.

Definition punct_of : list (token * Z) := [(KBeginArray, 91); (KEndArray, 93); (KBeginObject, 123); (KEndObject, 125); (KComma, 44); (KColon, 58)].

Lemma punct_sym k c st : In (k, c) punct_of -> sym_of st = SPunct c <-> t_token st = k.
Proof.
  intros H. unfold sym_of. cbn [punct_of In] in H.
  repeat (destruct H as [H|H]; [injection H as <- <-; destruct (t_token st); split; intros X; try discriminate X; reflexivity|]). destruct H.
Qed.

Lemma token_same k st : token_eqb (t_token st) k = true <-> t_token st = k.
Proof. split; [apply token_is|intros ->; apply token_eqb_refl]. Qed.

Lemma text_sym st : (exists l, sym_of st = SText l) <-> t_token st = KString.
Proof. unfold sym_of. destruct (t_token st); split; try (intros [l X]; discriminate X); try discriminate; eauto. Qed.

Lemma text_value st l : sym_of st = SText l -> t_token st = KString /\ tok_value st = l.
Proof. exact (text_token st l). Qed.

Lemma run_must k c w s r st d : In (k, c) punct_of -> reads s (SPunct c) r -> t_rest st = s ->
  exists st1, t_rest st1 = r /\ andthen (step st d) (must_be k w) = step st1 d.
Proof.
  intros Hk R E. destruct (go _ _ _ st d R E) as (st1 & E1 & Hx & Hr). exists st1. split; [exact Hr|]. rewrite E1, andthen_ret.
  unfold JsonModel.must_be. apply (punct_sym k c _ Hk), token_same in Hx. rewrite Hx. reflexivity.
Qed.

Lemma fail_must k c w s e st d : In (k, c) punct_of -> lacks_punct c w s e -> t_rest st = s -> andthen (step st d) (must_be k w) = Ret (d, Err e).
Proof.
  intros Hk [U|[(x & r & R & N) ->]] E; [rewrite (stop _ _ _ d U E); reflexivity|].
  destruct (go _ _ _ st d R E) as (st1 & E1 & Hx & Hr). rewrite E1, andthen_ret. unfold JsonModel.must_be.
  destruct (token_eqb (t_token st1) k) eqn:K; [|reflexivity]. apply token_same, (punct_sym k c _ Hk) in K. congruence.
Qed.

Lemma run_named l w s r st d : reads s (SText l) r -> t_rest st = s -> exists st1, t_rest st1 = r /\ andthen (step st d) (named l w) = step st1 d.
Proof.
  intros R E. destruct (go _ _ _ st d R E) as (st1 & E1 & Hx & Hr). exists st1. split; [exact Hr|]. rewrite E1, andthen_ret.
  unfold JsonModel.named_field. destruct (text_value _ _ Hx) as [K V]. rewrite K, V, str_eqb_refl. reflexivity.
Qed.

Lemma fail_named l w s e st d : lacks_text l w s e -> t_rest st = s -> andthen (step st d) (named l w) = Ret (d, Err e).
Proof.
  intros [U|[(x & r & R & N) ->]] E; [rewrite (stop _ _ _ d U E); reflexivity|].
  destruct (go _ _ _ st d R E) as (st1 & E1 & Hx & Hr). rewrite E1, andthen_ret. unfold JsonModel.named_field.
  destruct (token_eqb (t_token st1) KString) eqn:K; [|reflexivity]. cbn [negb orb]. destruct (str_eqb (tok_value st1) l) eqn:V; [|reflexivity].
  apply token_same, text_sym in K. destruct K as (l' & K). destruct (text_value _ _ K) as [_ V']. apply str_eqb_eq in V. congruence.
Qed.

Lemma fail_text (k : tstate -> ds -> outcome parsed) w s e st d : lacks_any_text w s e -> t_rest st = s ->
  (forall st d, token_eqb (t_token st) KString = false -> k st d = Ret (d, Err (EExpected w))) -> andthen (step st d) k = Ret (d, Err e).
Proof.
  intros [U|[(x & r & R & N) ->]] E H; [rewrite (stop _ _ _ d U E); reflexivity|].
  destruct (go _ _ _ st d R E) as (st1 & E1 & Hx & Hr). rewrite E1, andthen_ret. apply H.
  destruct (token_eqb (t_token st1) KString) eqn:K; [|reflexivity]. apply token_same, text_sym in K. destruct K as (l' & K). exfalso. apply N. exists l'. congruence.
Qed.

(** [exists d', x = Ret (d', Err e)] *)
Definition fails (x : outcome parsed) (e : jerr) : Prop := exists d, x = Ret (d, Err e).

Lemma fails_then x k e : fails x e -> fails (andthen x k) e.
Proof. intros (d & ->). exists d. reflexivity. Qed.

Lemma andthen_id x : andthen x (fun st d => Ret (d, Ok st)) = x.
Proof. destruct x as [[d [st|e]]| |]; reflexivity. Qed.

Lemma run_separated (b : bool) w s s0 st d : separated b s s0 -> t_rest st = s ->
  exists st1, t_rest st1 = s0 /\ andthen (step st d) (fun st d => if b then Ret (d, Ok st) else must_be KComma w st d) = step st1 d.
Proof.
  destruct b; cbn [JsonDocSpec.separated]; intros H E.
  - exists st. split; [congruence|]. apply andthen_id.
  - exact (run_must KComma 44 w s s0 st d ltac:(cbn [punct_of In]; tauto) H E).
Qed.

(** ** Labels *)

Lemma last_named_iff fs l t : last_named l t fs <-> exists i, nth_error fs i = Some (l, t) /\ last_index fs 0 l = Some i.
Proof.
  split.
  - intros (a & b & -> & N). exists (List.length a).
    assert (E : nth_error (a ++ (l, t) :: b) (List.length a) = Some (l, t)) by (rewrite nth_error_app2, Nat.sub_diag by lia; reflexivity).
    split; [exact E|]. apply (last_index_is _ _ t); [exact E|]. intros j t' Hj. destruct (Nat.le_gt_cases j (List.length a)) as [L|L]; [exact L|exfalso].
    rewrite nth_error_app2 in Hj by lia. replace (j - List.length a)%nat with (S (j - S (List.length a))) in Hj by lia. cbn [nth_error] in Hj.
    apply N. apply nth_error_In in Hj. apply (in_map fst) in Hj. exact Hj.
  - intros (i & E & L). destruct (nth_error_split _ _ E) as (a & b & -> & <-). exists a, b. split; [reflexivity|]. intros N.
    apply in_map_iff in N. destruct N as ([l' t'] & El & N). cbn [fst] in El. subst l'. apply In_nth_error in N. destruct N as (j & Hj).
    assert (X : nth_error (a ++ (l, t) :: b) (List.length a + S j) = Some (l, t')).
    { rewrite nth_error_app2 by lia. replace (List.length a + S j - List.length a)%nat with (S j) by lia. exact Hj. }
    pose proof (last_index_max _ _ _ _ _ _ L X). lia.
Qed.

Lemma last_index_in (fs : list (str * ty)) l i : last_index fs 0 l = Some i -> In l (map fst fs).
Proof.
  intros H. destruct (last_index_some fs l 0%nat i H) as (_ & t & N). apply nth_error_In in N. apply (in_map fst) in N. exact N.
Qed.

Lemma in_last_index (fs : list (str * ty)) l : In l (map fst fs) -> exists i t, last_index fs 0 l = Some i /\ nth_error fs i = Some (l, t).
Proof.
  intros H. destruct (last_index fs 0 l) as [i|] eqn:E.
  - destruct (last_index_some fs l 0%nat i E) as (_ & t & N). rewrite Nat.sub_0_r in N. eauto.
  - exfalso. clear -H E. revert E. generalize 0%nat as k. induction fs as [|[y c] fs IH]; intros k E; [destruct H|]. cbn [last_index] in E. cbn [map fst In] in H.
    destruct (last_index fs (S k) l) eqn:E2; [discriminate|]. destruct H as [->|H]; [rewrite str_eqb_refl in E; discriminate|]. exact (IH H _ E2).
Qed.

(** ** One member of a struct *)

Lemma run_label (fs : list (str * ty)) q f v s1 s2 i (b : bool) s s0 l r st d : (List.length fs < 64)%nat ->
  is_set v (s1 ++ i :: s2) -> ~ In i (s1 ++ s2) -> last_index fs 0 l = Some i -> separated b s s0 -> reads s0 (SText l) r -> t_rest st = s ->
  exists st1 v', t_rest st1 = r /\ is_set v' (s1 ++ s2) /\
    andthen (step st d) (loop fs q (S f) v b) =
    andthen (step st1 d) (fun st d => andthen (must_be KColon WColon st d) (fun st d => andthen (field fs q i st d) (fun st d => loop fs q f v' false st d))).
Proof.
  intros few Hs Hi Hl Sep R E.
  destruct (run_separated b WFieldComma s s0 st d Sep E) as (st1 & E1 & H1).
  destruct (go _ _ _ st1 d R E1) as (st2 & E2 & Hx & Hr). destruct (text_value _ _ Hx) as [K V].
  assert (Li : (i < 64)%nat).
  { apply Nat.lt_trans with (List.length fs); [|exact few]. destruct (last_index_some fs l 0%nat i Hl) as (_ & t & N). rewrite Nat.sub_0_r in N. apply nth_error_Some. rewrite N. discriminate. }
  destruct (is_set_clear pf v i s1 s2 Hs Hi) as (v' & Ec & Hv'). exists st2, v'. split; [exact Hr|]. split; [exact Hv'|].
  erewrite andthen_ext; [|intros; eapply sloop_S; [exact Hs|destruct s1; discriminate]]. rewrite <- andthen_assoc, H1, E2, andthen_ret.
  unfold sbody. rewrite K, V. cbn [token_eqb]. rewrite Hl, bits_has_small by exact Li. cbn [bind].
  destruct Hs as (_ & _ & Hs). replace (Z.testbit v (Z.of_nat i)) with true by (symmetry; apply Hs; [exact Li|apply in_or_app; right; left; reflexivity]).
  rewrite Ec. cbn [bind]. reflexivity.
Qed.

Lemma run_member (fs : list (str * ty)) q f v s1 s2 i (b : bool) s s0 l t r1 r st d : (List.length fs < 64)%nat ->
  is_set v (s1 ++ i :: s2) -> ~ In i (s1 ++ s2) -> last_index fs 0 l = Some i -> nth_error fs i = Some (l, t) ->
  separated b s s0 -> reads s0 (SText l) r1 -> reads r1 (SPunct 58) r -> t_rest st = s ->
  exists st1 v', t_rest st1 = r /\ is_set v' (s1 ++ s2) /\
    andthen (step st d) (loop fs q (S f) v b) = andthen (andthen (step st1 d) (parse t (q ++ [i]))) (loop fs q f v' false).
Proof.
  intros few Hs Hi Hl Hn Sep R1 R2 E. destruct (run_label fs q f v s1 s2 i b s s0 l r1 st d few Hs Hi Hl Sep R1 E) as (st1 & v' & E1 & Hv' & H1).
  destruct (run_must KColon 58 WColon r1 r st1 d ltac:(cbn [punct_of In]; tauto) R2 E1) as (st2 & E2 & H2).
  exists st2, v'. split; [exact E2|]. split; [exact Hv'|]. rewrite H1, <- andthen_assoc, H2, andthen_assoc. apply andthen_ext. intros st' d'.
  rewrite (select_nth _ _ _ _ Hn). reflexivity.
Qed.

(** ** Documents *)

Lemma run_number p q s st d x z r : p <> PBool -> p <> PChar -> reads s (SNumber x) r \/ reads s (SText x) r -> parse_number fl p x = Some z ->
  t_rest st = s -> exists st1 d1, t_rest st1 = r /\ andthen (step st d) (parse (TPrim p) q) = step st1 d1.
Proof.
  intros N1 N2 R Z0 E.
  assert (G : exists st1, step st d = Ret (d, Ok st1) /\ (t_token st1 = KString \/ t_token st1 = KNumber) /\ tok_value st1 = x /\ t_rest st1 = r).
  { destruct R as [R|R]; destruct (go _ _ _ st d R E) as (st1 & E1 & Hx & Hr); exists st1; [apply number_token in Hx|apply text_token in Hx]; tauto. }
  destruct G as (st1 & E1 & K & V & Hr). exists st1, (ds_add d q (JPrim p z)). split; [exact Hr|]. rewrite E1, andthen_ret. cbn [JsonModel.parse].
  destruct p; try congruence; unfold parse_prim; rewrite V, Z0; (destruct K as [-> | ->]; reflexivity).
Qed.

Lemma run_document t s v r : document t s v r -> fine t -> forall q st d, t_rest st = s ->
  exists st1 d1, t_rest st1 = r /\ andthen (step st d) (parse t q) = step st1 d1.
Proof.
  revert t s v r.
  apply (document_mind alnum fl
    (fun t s v r => fine t -> forall q st d, t_rest st = s -> exists st1 d1, t_rest st1 = r /\ andthen (step st d) (parse t q) = step st1 d1)
    (fun b ts s vs r => Forall fine ts -> forall q k st d, (k =? 0)%nat = b -> t_rest st = s ->
       exists st1 d1, t_rest st1 = r /\ andthen (step st d) (tuple_loop alnum parse ts q k) = step st1 d1)
    (fun b ms s r => forall fs q, NoDup (map fst fs) -> (List.length fs < 64)%nat -> Forall (fun f => fine (snd f)) fs ->
       forall set f v st d, Forall2 (fun m i => nth_error fs i = Some (fst m)) ms set -> is_set v set -> NoDup set -> (List.length set <= f)%nat -> t_rest st = s ->
       exists st1 d1, t_rest st1 = r /\ andthen (step st d) (loop fs q f v b) = step st1 d1)).
  - intros s r R _ q st d E. destruct (go _ _ _ st d R E) as (st1 & E1 & Hx & Hr). exists st1, d. split; [exact Hr|]. rewrite E1, andthen_ret. cbn [JsonModel.parse].
    assert (K : t_token st1 = KNull) by (unfold sym_of in Hx; destruct (t_token st1); try discriminate; reflexivity). rewrite K. reflexivity.
  - intros s r R _ q st d E. destruct (go _ _ _ st d R E) as (st1 & E1 & Hx & Hr). exists st1, (ds_add d q (JPrim PBool 1)). split; [exact Hr|]. rewrite E1, andthen_ret.
    cbn [JsonModel.parse]. unfold parse_prim. assert (K : t_token st1 = KTrue) by (unfold sym_of in Hx; destruct (t_token st1); try discriminate; reflexivity). rewrite K. reflexivity.
  - intros s r R _ q st d E. destruct (go _ _ _ st d R E) as (st1 & E1 & Hx & Hr). exists st1, (ds_add d q (JPrim PBool 0)). split; [exact Hr|]. rewrite E1, andthen_ret.
    cbn [JsonModel.parse]. unfold parse_prim. assert (K : t_token st1 = KFalse) by (unfold sym_of in Hx; destruct (t_token st1); try discriminate; reflexivity). rewrite K. reflexivity.
  - intros s c r R _ q st d E. destruct (go _ _ _ st d R E) as (st1 & E1 & Hx & Hr). exists st1, (ds_add d q (JPrim PChar c)). split; [exact Hr|]. rewrite E1, andthen_ret.
    cbn [JsonModel.parse]. unfold parse_prim. destruct (text_value _ _ Hx) as [K V]. rewrite K, V. reflexivity.
  - intros p s x z r Hp R Hn Hz _ q st d E. unfold integer_prim in Hp. apply (run_number p q s st d x z r); auto; try (intros ->; apply Hp; cbn [In]; tauto).
    apply parse_number_iff; auto.
  - intros p s x z r Hp R Hz _ q st d E. apply (run_number p q s st d x z r); auto; try (intros ->; destruct Hp; discriminate).
    destruct Hp as [->| ->]; exact Hz.
  - intros s x r R _ q st d E. destruct (go _ _ _ st d R E) as (st1 & E1 & Hx & Hr). exists st1, (ds_add d q (JString x)). split; [exact Hr|]. rewrite E1, andthen_ret.
    cbn [JsonModel.parse]. destruct (text_value _ _ Hx) as [K V]. rewrite K, V. reflexivity.
  - intros ts vs s s1 s2 r R1 _ IH R2 HA q st d E. inversion HA as [| | |? HA'| |]; subst.
    destruct (run_must KBeginArray 91 WTuple _ s1 st d ltac:(cbn [punct_of In]; tauto) R1 eq_refl) as (st1 & E1 & H1).
    destruct (IH HA' q 0%nat st1 d eq_refl E1) as (st2 & d2 & E2 & H2).
    destruct (run_must KEndArray 93 WTupleEnd _ r st2 d2 ltac:(cbn [punct_of In]; tauto) R2 E2) as (st3 & E3 & H3).
    exists st3, d2. split; [exact E3|].
    change (parse (TTuple ts) q) with (fun st d => andthen (must_be KBeginArray WTuple st d) (fun st d => andthen (tuple_loop alnum parse ts q 0 st d) (fun st d => must_be KEndArray WTupleEnd st d))).
    rewrite <- andthen_assoc, H1, <- andthen_assoc, H2. exact H3.
  - intros fs vs ms s s1 s2 r ND L P R1 _ IH R2 HA q st d E. inversion HA as [| | | |? few HA'|]; subst.
    destruct (run_must KBeginObject 123 WStruct _ s1 st d ltac:(cbn [punct_of In]; tauto) R1 eq_refl) as (st1 & E1 & H1).
    pose proof (indices fs vs L []) as F2. cbn [app List.length] in F2.
    destruct (Permutation_Forall2 (Permutation_sym P) F2) as (set & Pset & F3).
    destruct (IH fs q ND few HA' set 65%nat (2 ^ Z.of_nat (List.length fs) - 1) st1 d F3) as (st2 & d2 & E2 & H2); auto.
    { eapply is_set_perm; [exact Pset|apply is_set_new; exact few]. }
    { eapply Permutation_NoDup; [exact Pset|apply seq_NoDup]. }
    { rewrite <- (Permutation_length Pset), seq_length. lia. }
    destruct (run_must KEndObject 125 WStructEnd _ r st2 d2 ltac:(cbn [punct_of In]; tauto) R2 E2) as (st3 & E3 & H3).
    exists st3, d2. split; [exact E3|].
    change (parse (TStruct fs) q) with (fun st d => andthen (must_be KBeginObject WStruct st d) (fun st d =>
      visited <- bits_new pf (List.length fs) ;; andthen (loop fs q 65%nat visited true st d) (fun st d => must_be KEndObject WStructEnd st d))).
    rewrite <- andthen_assoc, H1, bits_new_small by exact few. cbn [bind]. rewrite <- andthen_assoc, H2. exact H3.
  - intros cs k l t v s s1 s2 s3 s4 s5 s6 s7 s8 r N M R1 R2 R3 R4 R5 R6 R7 _ IH R8 HA q st d E. inversion HA as [| | | | |? HA']; subst.
    destruct (run_must KBeginObject 123 WEnum _ s1 st d ltac:(cbn [punct_of In]; tauto) R1 eq_refl) as (st1 & E1 & H1).
    destruct (run_named (lit "kind") WKind _ s2 st1 d R2 E1) as (st2 & E2 & H2).
    destruct (run_must KColon 58 WColon _ s3 st2 d ltac:(cbn [punct_of In]; tauto) R3 E2) as (st3 & E3 & H3).
    destruct (go _ _ _ st3 d R4 E3) as (st4 & H4 & Hx & E4). destruct (text_value _ _ Hx) as [K V].
    destruct (run_must KComma 44 WCaseComma _ s5 st4 (ds_add d q (JTag k)) ltac:(cbn [punct_of In]; tauto) R5 E4) as (st5 & E5 & H5).
    destruct (run_named (lit "value") WValue _ s6 st5 (ds_add d q (JTag k)) R6 E5) as (st6 & E6 & H6).
    destruct (run_must KColon 58 WColon _ s7 st6 (ds_add d q (JTag k)) ltac:(cbn [punct_of In]; tauto) R7 E6) as (st7 & E7 & H7).
    rewrite Forall_forall in HA'. destruct (IH (HA' _ (nth_error_In _ _ N)) (q ++ [k]) st7 (ds_add d q (JTag k)) E7) as (st8 & d8 & E8 & H8).
    destruct (run_must KEndObject 125 WEnumEnd _ r st8 d8 ltac:(cbn [punct_of In]; tauto) R8 E8) as (st9 & E9 & H9).
    exists st9, d8. split; [exact E9|]. cbn [JsonModel.parse].
    rewrite <- andthen_assoc, H1, <- andthen_assoc, H2, <- andthen_assoc, H3, H4, andthen_ret, K, V. cbn [token_eqb negb].
    rewrite (last_index_is cs l t k N M). rewrite <- andthen_assoc, H5, <- andthen_assoc, H6, <- andthen_assoc, H7.
    erewrite andthen_ext; [|intros; rewrite (select_nth _ _ _ _ N); reflexivity]. cbn [snd]. rewrite <- andthen_assoc. unfold with_component. rewrite H8. exact H9.
  - intros b s _ q k st d _ E. exists st, d. split; [exact E|]. apply andthen_id.
  - intros b t ts v vs s s0 s1 r Sep _ IHd _ IHe HA q k st d Hk E. inversion HA as [|? ? HA1 HA2]; subst.
    destruct (run_separated _ WTupleComma _ s0 st d Sep eq_refl) as (st1 & E1 & H1).
    destruct (IHd HA1 (q ++ [k]) st1 d E1) as (st2 & d2 & E2 & H2).
    destruct (IHe HA2 q (S k) st2 d2 eq_refl E2) as (st3 & d3 & E3 & H3).
    exists st3, d3. split; [exact E3|]. cbn [tuple_loop]. rewrite <- andthen_assoc, H1, <- andthen_assoc. unfold with_component. rewrite H2. exact H3.
  - intros b s fs q ND few HA set f v st d F2 Hset NDs Lf E. inversion F2; subst. exists st, d. split; [reflexivity|].
    erewrite andthen_ext; [|intros; eapply sloop_0; [exact Hset|reflexivity]]. apply andthen_id.
  - intros b l t v ms s s0 s1 s2 s3 r Sep R1 R2 _ IHd _ IHm fs q ND few HA set f bits st d F2 Hset NDs Lf E.
    inversion F2 as [|? i ? set' Hn F2']; subst. cbn [fst] in Hn. destruct f as [|f]; [cbn in Lf; lia|].
    apply NoDup_cons_iff in NDs. destruct NDs as [N1 N2].
    destruct (run_member fs q f bits [] set' i b _ s0 l t s1 s2 st d few Hset N1 (last_index_nth fs l t ND i 0 Hn) Hn Sep R1 R2 eq_refl) as (st1 & v' & E1 & Hv' & H1).
    assert (Ft : fine t) by (rewrite Forall_forall in HA; exact (HA _ (nth_error_In _ _ Hn))).
    destruct (IHd Ft (q ++ [i]) st1 d E1) as (st2 & d2 & E2 & H2).
    destruct (IHm fs q ND few HA set' f v' st2 d2 F2' Hv' N2 ltac:(cbn in Lf; lia) E2) as (st3 & d3 & E3 & H3).
    exists st3, d3. split; [exact E3|]. rewrite H1, H2. exact H3.
Qed.
End Run.
