(** * The decoder reports the first fault *)

From Coq Require Import Strings.String Sorting.Permutation ZifyBool ZifyNat ZifyN.
From Verif Require Import Base BaseFacts StrModel StrFacts Utf8Model Utf8Facts TypesModel TypesSpec MarshalModel MarshalSpec LayoutProofs PresentsFacts JsonModel JsonSpec JsonData JsonBits JsonLex JsonNum JsonTok JsonRead JsonEmit JsonParse JsonSound JsonMore WhiteSpec WhiteProofs JsonDocSpec JsonDocProofs JsonTop JsonBlame JsonBlameLex JsonBlameRun.
Local Open Scope list_scope.
Local Open Scope Z_scope.

Section Proofs.
Context (alnum : Z -> bool) (fl : floats) (pf : profile).

Notation next := (JsonModel.next alnum).
Notation step := (JsonModel.step alnum).
Notation must_be := (JsonModel.must_be alnum).
Notation named := (JsonModel.named_field alnum).
Notation parse := (JsonModel.parse alnum fl pf).
Notation reads := (JsonDocSpec.reads alnum).
Notation separated := (JsonDocSpec.separated alnum).
Notation document := (JsonDocSpec.document alnum fl).
Notation elements := (JsonDocSpec.elements alnum fl).
Notation members := (JsonDocSpec.members alnum fl).
Notation unreadable := (JsonBlame.unreadable alnum).
Notation lacks := (JsonBlame.lacks alnum).
Notation lacks_punct := (JsonBlame.lacks_punct alnum).
Notation lacks_text := (JsonBlame.lacks_text alnum).
Notation lacks_any_text := (JsonBlame.lacks_any_text alnum).
Notation faulty := (JsonBlame.faulty alnum fl).
Notation faulty_elements := (JsonBlame.faulty_elements alnum fl).
Notation faulty_members := (JsonBlame.faulty_members alnum fl).
Notation faulty_case := (JsonBlame.faulty_case alnum fl).
Notation faulty_content := (JsonBlame.faulty_content alnum fl).
Notation field fs q := (fun i st d => select (fun f : str * ty => parse (snd f) (with_component q i) st d) fs i).
Notation loop fs q := (struct_loop alnum pf (last_index fs 0) (field fs q)).
Notation body := (JsonParse.sbody alnum fl pf).
Notation fails := JsonBlameRun.fails.

Local Ltac pu := cbn [punct_of In]; tauto.

(** The labels met so far and the indices of the fields still missing. *)
Definition tracks (fs : list (str * ty)) (given : list str) (set : list nat) : Prop :=
  NoDup set /\ (List.length given + List.length set = List.length fs)%nat /\ incl given (map fst fs) /\
  forall l i, last_index fs 0 l = Some i -> (In i set <-> ~ In l given).

Lemma tracks_new fs : tracks fs [] (seq 0 (List.length fs)).
Proof.
  split; [apply seq_NoDup|]. split; [rewrite seq_length; reflexivity|]. split; [intros x []|]. intros l i H. split; [intros _ []|]. intros _.
  destruct (last_index_some fs l 0%nat i H) as (_ & t & N). rewrite Nat.sub_0_r in N. apply in_seq. split; [lia|]. apply nth_error_Some. cbn. congruence.
Qed.

Lemma tracks_add fs given s1 s2 l i : tracks fs given (s1 ++ i :: s2) -> last_index fs 0 l = Some i -> tracks fs (l :: given) (s1 ++ s2).
Proof.
  intros (ND & L & I & T) H. pose proof (NoDup_remove _ _ _ ND) as [ND' Ni]. split; [exact ND'|]. split; [rewrite app_length in *; cbn [List.length] in *; lia|].
  split; [intros x [<-|Hx]; [exact (last_index_in _ _ _ H)|exact (I x Hx)]|]. intros l' i' H'. cbn [In]. rewrite in_app_iff. specialize (T l' i' H'). rewrite in_app_iff in T, Ni. cbn [In] in T.
  split.
  - intros X [<-|Y]; [|tauto]. rewrite H in H'. injection H' as <-. tauto.
  - intros X. destruct T as [_ T]. specialize (T ltac:(tauto)). destruct T as [T|[T|T]]; auto. subst i'. exfalso. apply X. left.
    destruct (last_index_some fs l 0%nat i H) as (_ & t & N). destruct (last_index_some fs l' 0%nat i H') as (_ & t' & N'). congruence.
Qed.

(** ** Faults are reported *)

Definition tuple_rest (ts : list ty) (q : path) (k : nat) (st : tstate) (d : ds) : outcome parsed :=
  andthen (tuple_loop alnum parse ts q k st d) (fun st d => must_be KEndArray WTupleEnd st d).

Definition struct_rest (fs : list (str * ty)) (q : path) (f : nat) (v : Z) (b : bool) (st : tstate) (d : ds) : outcome parsed :=
  andthen (loop fs q f v b st d) (fun st d => must_be KEndObject WStructEnd st d).

Definition content_rest (k : tstate -> ds -> outcome parsed) (st : tstate) (d : ds) : outcome parsed :=
  andthen (must_be KComma WCaseComma st d) (fun st d =>
  andthen (named (lit "value") WValue st d) (fun st d =>
  andthen (must_be KColon WColon st d) (fun st d =>
  andthen (k st d) (fun st d => must_be KEndObject WEnumEnd st d)))).

Definition case_rest (cs : list (str * ty)) (q : path) (st : tstate) (d : ds) : outcome parsed :=
  andthen (named (lit "kind") WKind st d) (fun st d =>
  andthen (must_be KColon WColon st d) (fun st d =>
  if negb (token_eqb (t_token st) KString) then Ret (d, Err (EExpected WCaseString)) else
  match last_index cs 0 (tok_value st) with
  | None => Ret (d, Err (ECase (tok_value st)))
  | Some i => andthen (step st (ds_add d q (JTag i))) (content_rest (fun st d => field cs q i st d))
  end)).

Lemma parse_tuple ts q st d : parse (TTuple ts) q st d = andthen (must_be KBeginArray WTuple st d) (tuple_rest ts q 0).
Proof. reflexivity. Qed.

Lemma parse_struct fs q st d : (List.length fs < 64)%nat ->
  parse (TStruct fs) q st d = andthen (must_be KBeginObject WStruct st d) (struct_rest fs q 65 (2 ^ Z.of_nat (List.length fs) - 1) true).
Proof. intros few. cbn [JsonModel.parse]. apply andthen_ext. intros st' d'. rewrite bits_new_small by exact few. reflexivity. Qed.

Lemma parse_enum cs q st d : parse (TEnum cs) q st d = andthen (must_be KBeginObject WEnum st d) (case_rest cs q).
Proof. reflexivity. Qed.

Lemma fail_must_then k c w s e st d h : In (k, c) punct_of -> lacks_punct c w s e -> t_rest st = s ->
  fails (andthen (step st d) (fun st d => andthen (must_be k w st d) h)) e.
Proof. intros Hk L E. exists d. rewrite <- andthen_assoc, (fail_must alnum k c w s e st d Hk L E). reflexivity. Qed.

Lemma fail_named_then l w s e st d h : lacks_text l w s e -> t_rest st = s -> fails (andthen (step st d) (fun st d => andthen (named l w st d) h)) e.
Proof. intros L E. exists d. rewrite <- andthen_assoc, (fail_named alnum l w s e st d L E). reflexivity. Qed.

Lemma faulty_fails t s e : faulty t s e -> fine t -> forall q st d, t_rest st = s -> fails (andthen (step st d) (parse t q)) e.
Proof.
  revert t s e.
  apply (faulty_mind alnum fl
    (fun t s e => fine t -> forall q st d, t_rest st = s -> fails (andthen (step st d) (parse t q)) e)
    (fun b ts s e => Forall fine ts -> forall q k st d, (k =? 0)%nat = b -> t_rest st = s -> fails (andthen (step st d) (tuple_rest ts q k)) e)
    (fun fs given b s e => (List.length fs < 64)%nat -> Forall (fun f => fine (snd f)) fs -> forall q set f v st d,
       is_set v set -> tracks fs given set -> (List.length set <= f)%nat -> t_rest st = s -> fails (andthen (step st d) (struct_rest fs q f v b)) e)
    (fun cs s e => Forall (fun c => fine (snd c)) cs -> forall q st d, t_rest st = s -> fails (andthen (step st d) (case_rest cs q)) e)
    (fun t s e => fine t -> forall q st d, t_rest st = s -> fails (andthen (step st d) (content_rest (parse t q))) e)).
  - intros s e [U|[(x & r & R & N) ->]] _ q st d E; [exists d; rewrite (stop alnum _ _ _ d U E); reflexivity|].
    destruct (go alnum _ _ _ st d R E) as (st1 & E1 & Hx & Hr). exists d. rewrite E1, andthen_ret. cbn [JsonModel.parse].
    destruct (token_eqb (t_token st1) KNull) eqn:K; [|reflexivity]. exfalso. apply token_is in K. apply N. rewrite <- Hx. unfold sym_of. rewrite K. reflexivity.
  - intros s e [U|[(x & r & R & N) ->]] _ q st d E; [exists d; rewrite (stop alnum _ _ _ d U E); reflexivity|].
    destruct (go alnum _ _ _ st d R E) as (st1 & E1 & Hx & Hr). exists d. rewrite E1, andthen_ret. cbn [JsonModel.parse]. unfold parse_prim.
    destruct (t_token st1) eqn:K; try reflexivity; exfalso; apply N; rewrite <- Hx; unfold sym_of; rewrite K; auto.
  - intros s e L _ q st d E. exists d. apply (fail_text alnum _ WChar s); [exact L|exact E|]. intros st' d' K. cbn [JsonModel.parse]. unfold parse_prim. rewrite K. reflexivity.
  - intros s x r e R Lx Lk _ q st d E. destruct (go alnum _ _ _ st d R E) as (st1 & E1 & Hx & Hr). rewrite E1, andthen_ret. cbn [JsonModel.parse]. unfold parse_prim.
    destruct (text_token _ _ Hx) as [K V]. rewrite K, V. cbn [token_eqb].
    assert (G : fails (andthen (step st1 d) (fun _ d => Ret (d, Err (EExpected WChar)))) e).
    { exists d. destruct Lk as [U|[(y & r' & R' & _) ->]]; [rewrite (stop alnum _ _ _ d U Hr); reflexivity|].
      destruct (go alnum _ _ _ st1 d R' Hr) as (st2 & E2 & _). rewrite E2. reflexivity. }
    destruct x as [|c [|c' x]]; [exact G|cbn in Lx; lia|exact G].
  - intros p s e N1 N2 [U|[(x & r & R & N) ->]] _ q st d E; [exists d; rewrite (stop alnum _ _ _ d U E); reflexivity|].
    destruct (go alnum _ _ _ st d R E) as (st1 & E1 & Hx & Hr). exists d. rewrite E1, andthen_ret. cbn [JsonModel.parse].
    assert (K : negb (token_eqb (t_token st1) KString) && negb (token_eqb (t_token st1) KNumber) = true).
    { unfold sym_of in Hx. destruct (t_token st1); try reflexivity; exfalso; apply N; rewrite <- Hx; eauto. }
    destruct p; try congruence; unfold parse_prim; rewrite K; reflexivity.
  - intros p s x r N1 N2 R ND _ q st d E.
    assert (G : exists st1, step st d = Ret (d, Ok st1) /\ (t_token st1 = KString \/ t_token st1 = KNumber) /\ tok_value st1 = x).
    { destruct R as [R|R]; destruct (go alnum _ _ _ st d R E) as (st1 & E1 & Hx & Hr); exists st1; [apply number_token in Hx|apply text_token in Hx]; tauto. }
    destruct G as (st1 & E1 & K & V). exists d. rewrite E1, andthen_ret. cbn [JsonModel.parse].
    assert (P : parse_number fl p x = None).
    { destruct (parse_number fl p x) as [z|] eqn:Z0; [|reflexivity]. exfalso. destruct (match p with PF32 | PF64 => true | _ => false end) eqn:F.
      - apply (ND (VPrim z) r). apply (dc_float alnum fl p s x); [destruct p; try discriminate; auto|exact R|]. destruct p; try discriminate; exact Z0.
      - assert (Hp : integer_prim p) by (unfold integer_prim; cbn [In]; destruct p; try discriminate; intuition discriminate).
        apply parse_number_iff in Z0; [|exact Hp]. apply (ND (VPrim z) r). apply (dc_integer alnum fl p s x); tauto. }
    destruct p; try congruence; unfold parse_prim; rewrite V, P; (destruct K as [-> | ->]; reflexivity).
  - intros s e L _ q st d E. exists d. apply (fail_text alnum _ WString s); [exact L|exact E|]. intros st' d' K. cbn [JsonModel.parse]. rewrite K. reflexivity.
  - intros ts s e L _ q st d E. erewrite andthen_ext by (intros; apply parse_tuple). apply (fail_must_then KBeginArray 91 WTuple s); [pu|exact L|exact E].
  - intros ts s s1 e R _ IH HA q st d E. inversion HA as [| | |? HA'| |]; subst. erewrite andthen_ext by (intros; apply parse_tuple).
    destruct (run_must alnum KBeginArray 91 WTuple _ s1 st d ltac:(pu) R eq_refl) as (st1 & E1 & H1). rewrite <- andthen_assoc, H1. apply (IH HA' q 0%nat); auto.
  - intros fs s e L HA q st d E. inversion HA as [| | | |? few HA'|]; subst. erewrite andthen_ext by (intros; apply parse_struct; exact few).
    apply (fail_must_then KBeginObject 123 WStruct (t_rest st)); [pu|exact L|reflexivity].
  - intros fs s s1 e R _ IH HA q st d E. inversion HA as [| | | |? few HA'|]; subst. erewrite andthen_ext by (intros; apply parse_struct; exact few).
    destruct (run_must alnum KBeginObject 123 WStruct _ s1 st d ltac:(pu) R eq_refl) as (st1 & E1 & H1). rewrite <- andthen_assoc, H1.
    apply (IH few HA' q (seq 0 (List.length fs))); [apply is_set_new; exact few|apply tracks_new|rewrite seq_length; lia|exact E1].
  - intros cs s e L _ q st d E. erewrite andthen_ext by (intros; apply parse_enum). apply (fail_must_then KBeginObject 123 WEnum s); [pu|exact L|exact E].
  - intros cs s s1 e R _ IH HA q st d E. inversion HA as [| | | | |? HA']; subst. erewrite andthen_ext by (intros; apply parse_enum).
    destruct (run_must alnum KBeginObject 123 WEnum _ s1 st d ltac:(pu) R eq_refl) as (st1 & E1 & H1). rewrite <- andthen_assoc, H1. apply (IH HA' q); auto.
  (* components *)
  - intros b s e L _ q k st d _ E. exists d. unfold tuple_rest. cbn [tuple_loop]. exact (fail_must alnum KEndArray 93 WTupleEnd s e st d ltac:(pu) L E).
  - intros t ts s e L _ q k st d Hk E. unfold tuple_rest. cbn [tuple_loop]. rewrite Hk. rewrite <- andthen_assoc. apply fails_then.
    apply (fail_must_then KComma 44 WTupleComma s); [pu|exact L|exact E].
  - intros b t ts s s0 e Sep _ IH HA q k st d Hk E. inversion HA as [|? ? HA1 HA2]; subst. unfold tuple_rest. cbn [tuple_loop]. rewrite <- andthen_assoc. apply fails_then.
    destruct (run_separated alnum _ WTupleComma _ s0 st d Sep eq_refl) as (st1 & E1 & H1). rewrite <- andthen_assoc, H1, <- andthen_assoc. apply fails_then.
    exact (IH HA1 (q ++ [k]) st1 d E1).
  - intros b t ts s s0 v s1 e Sep D _ IH HA q k st d Hk E. inversion HA as [|? ? HA1 HA2]; subst. unfold tuple_rest. cbn [tuple_loop]. rewrite <- andthen_assoc.
    destruct (run_separated alnum _ WTupleComma _ s0 st d Sep eq_refl) as (st1 & E1 & H1). rewrite <- (andthen_assoc (step st d)), H1, <- (andthen_assoc (step st1 d)).
    destruct (run_document alnum fl pf _ _ _ _ D HA1 (q ++ [k]) st1 d E1) as (st2 & d2 & E2 & H2). unfold with_component. rewrite H2, andthen_assoc.
    exact (IH HA2 q (S k) st2 d2 eq_refl E2).
  (* members *)
  - intros fs given b s e Lg L few HA q set f v st d Hs (ND & Ln & I & T) Lf E. exists d. destruct set; [|cbn [List.length] in *; lia]. unfold struct_rest.
    erewrite andthen_ext; [|intros; rewrite (sloop_0 alnum fl pf fs q f v b _ _ [] Hs eq_refl); apply andthen_ret].
    exact (fail_must alnum KEndObject 125 WStructEnd s e st d ltac:(pu) L E).
  - intros fs given s e Lg L few HA q set f v st d Hs (ND & Ln & I & T) Lf E. destruct set as [|i set]; [cbn [List.length] in *; lia|]. destruct f as [|f]; [cbn in Lf; lia|]. unfold struct_rest.
    rewrite <- andthen_assoc. apply fails_then. erewrite andthen_ext; [|intros; eapply sloop_S; [exact Hs|discriminate]].
    apply (fail_must_then KComma 44 WFieldComma s); [pu|exact L|exact E].
  - intros fs given b s s0 e Lg Sep L few HA q set f v st d Hs (ND & Ln & I & T) Lf E. destruct set as [|i set]; [cbn [List.length] in *; lia|]. destruct f as [|f]; [cbn in Lf; lia|]. unfold struct_rest.
    rewrite <- andthen_assoc. apply fails_then. erewrite andthen_ext; [|intros; eapply sloop_S; [exact Hs|discriminate]].
    destruct (run_separated alnum b WFieldComma s s0 st d Sep E) as (st1 & E1 & H1). rewrite <- andthen_assoc, H1. exists d.
    apply (fail_text alnum _ WLabel s0); [exact L|exact E1|]. intros st' d' K. unfold sbody. rewrite K. reflexivity.
  - intros fs given b s s0 l s1 Lg Sep R U few HA q set f v st d Hs (ND & Ln & I & T) Lf E. destruct set as [|i set]; [cbn [List.length] in *; lia|]. destruct f as [|f]; [cbn in Lf; lia|]. unfold struct_rest.
    rewrite <- andthen_assoc. apply fails_then. erewrite andthen_ext; [|intros; eapply sloop_S; [exact Hs|discriminate]].
    destruct (run_separated alnum b WFieldComma s s0 st d Sep E) as (st1 & E1 & H1). rewrite <- andthen_assoc, H1. exists d.
    destruct (go alnum _ _ _ st1 d R E1) as (st2 & E2 & Hx & _). rewrite E2, andthen_ret. destruct (text_token _ _ Hx) as [K V]. unfold sbody. rewrite K, V. cbn [token_eqb].
    rewrite (last_index_notin fs l 0 U). reflexivity.
  - intros fs given b s s0 l s1 Lg Sep R U few HA q set f v st d Hs (ND & Ln & I & T) Lf E. destruct set as [|i0 set0] eqn:Es; [cbn [List.length] in *; lia|]. destruct f as [|f]; [cbn in Lf; lia|]. unfold struct_rest.
    rewrite <- andthen_assoc. apply fails_then. erewrite andthen_ext; [|intros; eapply sloop_S; [exact Hs|discriminate]].
    destruct (run_separated alnum b WFieldComma s s0 st d Sep E) as (st1 & E1 & H1). rewrite <- andthen_assoc, H1. exists d.
    destruct (go alnum _ _ _ st1 d R E1) as (st2 & E2 & Hx & _). rewrite E2, andthen_ret. destruct (text_token _ _ Hx) as [K V]. unfold sbody. rewrite K, V. cbn [token_eqb].
    destruct (in_last_index fs l (I l U)) as (i & t & Hi & Hn). rewrite Hi.
    assert (Li : (i < 64)%nat) by (apply Nat.lt_trans with (List.length fs); [apply nth_error_Some; congruence|exact few]). rewrite bits_has_small by exact Li. cbn [bind].
    destruct Hs as (_ & _ & Hs). destruct (Z.testbit v (Z.of_nat i)) eqn:B; [|reflexivity]. exfalso. apply (Hs i Li) in B. apply (T l i Hi) in B. contradiction.
  - intros fs given b s s0 l s1 e Lg Sep R Kn Ng L few HA q set f v st d Hs Tr Lf E. pose proof Tr as (ND & Ln & I & T).
    destruct (in_last_index fs l Kn) as (i & t & Hi & Hn). destruct (in_split _ _ (proj2 (T l i Hi) Ng)) as (p1 & p2 & ->). destruct f as [|f]; [rewrite app_length in Lf; cbn in Lf; lia|].
    apply NoDup_remove in ND. destruct (run_label alnum fl pf fs q f v p1 p2 i b s s0 l s1 st d few Hs (proj2 ND) Hi Sep R E) as (st1 & v' & E1 & Hv' & H1).
    unfold struct_rest. rewrite <- andthen_assoc. apply fails_then. rewrite H1. apply (fail_must_then KColon 58 WColon s1); [pu|exact L|exact E1].
  - intros fs given b s s0 l s1 s2 t e Lg Sep R LN Ng R2 _ IH few HA q set f v st d Hs Tr Lf E. pose proof Tr as (ND & Ln & I & T).
    apply (last_named_iff alnum) in LN. destruct LN as (i & Hn & Hi). destruct (in_split _ _ (proj2 (T l i Hi) Ng)) as (p1 & p2 & ->). destruct f as [|f]; [rewrite app_length in Lf; cbn in Lf; lia|].
    apply NoDup_remove in ND. destruct (run_member alnum fl pf fs q f v p1 p2 i b s s0 l t s1 s2 st d few Hs (proj2 ND) Hi Hn Sep R R2 E) as (st1 & v' & E1 & Hv' & H1).
    unfold struct_rest. rewrite <- andthen_assoc. apply fails_then. rewrite H1. apply fails_then.
    rewrite Forall_forall in HA. exact (IH (HA _ (nth_error_In _ _ Hn)) (q ++ [i]) st1 d E1).
  - intros fs given b s s0 l s1 s2 t w s3 e Lg Sep R LN Ng R2 D _ IH few HA q set f v st d Hs Tr Lf E. pose proof Tr as (ND & Ln & I & T).
    apply (last_named_iff alnum) in LN. destruct LN as (i & Hn & Hi). destruct (in_split _ _ (proj2 (T l i Hi) Ng)) as (p1 & p2 & ->). destruct f as [|f]; [rewrite app_length in Lf; cbn in Lf; lia|].
    apply NoDup_remove in ND. destruct (run_member alnum fl pf fs q f v p1 p2 i b s s0 l t s1 s2 st d few Hs (proj2 ND) Hi Hn Sep R R2 E) as (st1 & v' & E1 & Hv' & H1).
    assert (Ft : fine t) by (rewrite Forall_forall in HA; exact (HA _ (nth_error_In _ _ Hn))).
    destruct (run_document alnum fl pf _ _ _ _ D Ft (q ++ [i]) st1 d E1) as (st2 & d2 & E2 & H2).
    unfold struct_rest. rewrite <- andthen_assoc, H1, H2, andthen_assoc.
    apply (IH few HA q (p1 ++ p2) f v' st2 d2 Hv' (tracks_add _ _ _ _ _ _ Tr Hi)); [rewrite app_length in *; cbn [List.length] in Lf; lia|exact E2].
  (* cases *)
  - intros cs s e L _ q st d E. apply (fail_named_then (lit "kind") WKind s); assumption.
  - intros cs s s1 e R L _ q st d E. destruct (run_named alnum (lit "kind") WKind _ s1 st d R E) as (st1 & E1 & H1). unfold case_rest. rewrite <- andthen_assoc, H1.
    apply (fail_must_then KColon 58 WColon s1); [pu|exact L|exact E1].
  - intros cs s s1 s2 e R R2 L _ q st d E. destruct (run_named alnum (lit "kind") WKind _ s1 st d R E) as (st1 & E1 & H1). unfold case_rest. rewrite <- andthen_assoc, H1.
    destruct (run_must alnum KColon 58 WColon _ s2 st1 d ltac:(pu) R2 E1) as (st2 & E2 & H2). rewrite <- andthen_assoc, H2. exists d.
    apply (fail_text alnum _ WCaseString s2); [exact L|exact E2|]. intros st' d' K. rewrite K. reflexivity.
  - intros cs s s1 s2 l s3 R R2 R3 U _ q st d E. destruct (run_named alnum (lit "kind") WKind _ s1 st d R E) as (st1 & E1 & H1). unfold case_rest. rewrite <- andthen_assoc, H1.
    destruct (run_must alnum KColon 58 WColon _ s2 st1 d ltac:(pu) R2 E1) as (st2 & E2 & H2). rewrite <- andthen_assoc, H2. exists d.
    destruct (go alnum _ _ _ st2 d R3 E2) as (st3 & E3 & Hx & _). rewrite E3, andthen_ret. destruct (text_token _ _ Hx) as [K V]. rewrite K, V. cbn [token_eqb negb].
    rewrite (last_index_notin cs l 0 U). reflexivity.
  - intros cs s s1 s2 l t s3 e R R2 R3 LN _ IH HA q st d E. destruct (run_named alnum (lit "kind") WKind _ s1 st d R E) as (st1 & E1 & H1). unfold case_rest. rewrite <- andthen_assoc, H1.
    destruct (run_must alnum KColon 58 WColon _ s2 st1 d ltac:(pu) R2 E1) as (st2 & E2 & H2). rewrite <- andthen_assoc, H2.
    destruct (go alnum _ _ _ st2 d R3 E2) as (st3 & E3 & Hx & Hr). rewrite E3, andthen_ret. destruct (text_token _ _ Hx) as [K V]. rewrite K, V. cbn [token_eqb negb].
    apply (last_named_iff alnum) in LN. destruct LN as (i & Hn & Hi). rewrite Hi. rewrite Forall_forall in HA.
    destruct (IH (HA _ (nth_error_In _ _ Hn)) (q ++ [i]) st3 (ds_add d q (JTag i)) Hr) as (d' & X). exists d'. rewrite <- X. apply andthen_ext. intros st4 d4. unfold content_rest.
    apply andthen_ext. intros st5 d5. apply andthen_ext. intros st6 d6. apply andthen_ext. intros st7 d7. rewrite (select_nth _ _ _ _ Hn). reflexivity.
  - intros t s e L _ q st d E. apply (fail_must_then KComma 44 WCaseComma s); [pu|exact L|exact E].
  - intros t s s1 e R L _ q st d E. unfold content_rest. destruct (run_must alnum KComma 44 WCaseComma _ s1 st d ltac:(pu) R E) as (st1 & E1 & H1). rewrite <- andthen_assoc, H1.
    apply (fail_named_then (lit "value") WValue s1); assumption.
  - intros t s s1 s2 e R R2 L _ q st d E. unfold content_rest. destruct (run_must alnum KComma 44 WCaseComma _ s1 st d ltac:(pu) R E) as (st1 & E1 & H1). rewrite <- andthen_assoc, H1.
    destruct (run_named alnum (lit "value") WValue _ s2 st1 d R2 E1) as (st2 & E2 & H2). rewrite <- andthen_assoc, H2.
    apply (fail_must_then KColon 58 WColon s2); [pu|exact L|exact E2].
  - intros t s s1 s2 s3 e R R2 R3 _ IH HA q st d E. unfold content_rest. destruct (run_must alnum KComma 44 WCaseComma _ s1 st d ltac:(pu) R E) as (st1 & E1 & H1). rewrite <- andthen_assoc, H1.
    destruct (run_named alnum (lit "value") WValue _ s2 st1 d R2 E1) as (st2 & E2 & H2). rewrite <- andthen_assoc, H2.
    destruct (run_must alnum KColon 58 WColon _ s3 st2 d ltac:(pu) R3 E2) as (st3 & E3 & H3). rewrite <- andthen_assoc, H3, <- andthen_assoc. apply fails_then. exact (IH HA q st3 d E3).
  - intros t s s1 s2 s3 v s4 e R R2 R3 D L HA q st d E. unfold content_rest. destruct (run_must alnum KComma 44 WCaseComma _ s1 st d ltac:(pu) R E) as (st1 & E1 & H1). rewrite <- andthen_assoc, H1.
    destruct (run_named alnum (lit "value") WValue _ s2 st1 d R2 E1) as (st2 & E2 & H2). rewrite <- andthen_assoc, H2.
    destruct (run_must alnum KColon 58 WColon _ s3 st2 d ltac:(pu) R3 E2) as (st3 & E3 & H3). rewrite <- andthen_assoc, H3, <- andthen_assoc.
    destruct (run_document alnum fl pf _ _ _ _ D HA q st3 d E3) as (st4 & d4 & E4 & H4). rewrite H4. exists d4. exact (fail_must alnum KEndObject 125 WEnumEnd s4 e st4 d4 ltac:(pu) L E4).
Qed.

(** ** What is reported is a fault *)

Lemma unreadable_faulty t s e : unreadable s e -> faulty t s e.
Proof.
  intros U. assert (L : forall g x, lacks g x s e) by (intros; left; exact U).
  destruct t as [|p| |ts|fs|cs].
  - apply ft_unit, L.
  - destruct p; try (apply ft_number; [discriminate|discriminate|apply L]); [apply ft_bool|apply ft_char]; apply L.
  - apply ft_string, L.
  - apply ft_tuple_begin, L.
  - apply ft_struct_begin, L.
  - apply ft_enum_begin, L.
Qed.

Lemma unreadable_elements b ts s e : unreadable s e -> faulty_elements b ts s e.
Proof.
  intros U. destruct ts as [|t ts]; [apply fe_end; left; exact U|]. destruct b; [|apply fe_comma; left; exact U].
  eapply fe_here; [reflexivity|]. apply unreadable_faulty. exact U.
Qed.

Lemma unreadable_members fs given b s e : (List.length given <= List.length fs)%nat -> unreadable s e -> faulty_members fs given b s e.
Proof.
  intros L U. destruct (Nat.eq_dec (List.length given) (List.length fs)) as [E|E]; [apply fm_end; [exact E|left; exact U]|].
  destruct b; [|apply fm_comma; [lia|left; exact U]]. eapply fm_label; [lia|reflexivity|left; exact U].
Qed.

Lemma andthen_bad x k d' e : andthen x k = Ret (d', Err e) -> x = Ret (d', Err e) \/ exists d1 st1, x = Ret (d1, Ok st1) /\ k st1 d1 = Ret (d', Err e).
Proof. destruct x as [[d1 [st1|e1]]| |]; cbn; intros H; try discriminate; [right; eauto|left; exact H]. Qed.

Lemma step_err st d d' e : step st d = Ret (d', Err e) -> unreadable (t_rest st) e.
Proof.
  unfold JsonModel.step. destruct (next st) as [[st1 [[]|e1]]| |] eqn:N; cbn; intros H; try discriminate. injection H as <- <-. exact (next_bad alnum _ _ _ N).
Qed.

Lemma must_err k c w s st d d' e : In (k, c) punct_of -> stands alnum s st -> must_be k w st d = Ret (d', Err e) ->
  lacks_punct c w s e \/ (reads s (SPunct c) (t_rest st) /\ unreadable (t_rest st) e).
Proof.
  intros Hk Hs H. unfold JsonModel.must_be in H. destruct (token_eqb (t_token st) k) eqn:K; cbn [negb] in H.
  - apply step_err in H. right. split; [|exact H]. apply (stands_as alnum s st _ Hs). apply (punct_sym k c _ Hk), token_is. exact K.
  - injection H as <- <-. left. right. split; [|reflexivity]. exists (sym_of st), (t_rest st). split; [exact Hs|]. intros X. symmetry in X.
    apply (punct_sym k c _ Hk), token_same in X. congruence.
Qed.

Lemma must_good k c w s st d d' st' : In (k, c) punct_of -> stands alnum s st -> must_be k w st d = Ret (d', Ok st') ->
  reads s (SPunct c) (t_rest st) /\ d' = d /\ stands alnum (t_rest st) st'.
Proof.
  intros Hk Hs H. apply must_ok in H. destruct H as (K & -> & R). split; [|auto]. apply (stands_as alnum s st _ Hs). apply (punct_sym k c _ Hk). exact K.
Qed.

Lemma named_err l w s st d d' e : stands alnum s st -> named l w st d = Ret (d', Err e) ->
  lacks_text l w s e \/ (reads s (SText l) (t_rest st) /\ unreadable (t_rest st) e).
Proof.
  intros Hs H. unfold JsonModel.named_field in H. destruct (negb (token_eqb (t_token st) KString) || negb (str_eqb (tok_value st) l)) eqn:K.
  - injection H as <- <-. left. right. split; [|reflexivity]. exists (sym_of st), (t_rest st). split; [exact Hs|]. intros X. symmetry in X.
    apply text_token in X. destruct X as [X1 X2]. rewrite X1, X2, str_eqb_refl in K. discriminate.
  - apply step_err in H. right. split; [|exact H]. apply (stands_as alnum s st _ Hs). apply orb_false_elim in K. destruct K as [K1 K2].
    apply negb_false_iff in K1, K2. apply token_is in K1. apply str_eqb_eq in K2. unfold tok_value in K2. rewrite K1 in K2. unfold sym_of. rewrite K1, K2. reflexivity.
Qed.

Lemma named_good l w s st d d' st' : stands alnum s st -> named l w st d = Ret (d', Ok st') ->
  reads s (SText l) (t_rest st) /\ d' = d /\ stands alnum (t_rest st) st'.
Proof. intros Hs H. apply named_ok in H. destruct H as (K & -> & R). split; [|auto]. exact (stands_as alnum s st _ Hs K). Qed.

Lemma text_or_not s st : stands alnum s st ->
  (token_eqb (t_token st) KString = true /\ reads s (SText (tok_value st)) (t_rest st)) \/
  (token_eqb (t_token st) KString = false /\ forall w, lacks_any_text w s (EExpected w)).
Proof.
  intros Hs. destruct (token_eqb (t_token st) KString) eqn:K; [left|right]; (split; [reflexivity|]).
  - apply token_is in K. apply (stands_as alnum s st _ Hs). unfold sym_of, tok_value. rewrite K. reflexivity.
  - intros w. right. split; [|reflexivity]. exists (sym_of st), (t_rest st). split; [exact Hs|]. intros X. apply text_sym, token_same in X. congruence.
Qed.

Notation misread := (JsonBlame.misread alnum fl).
Definition blames (t : ty) : Prop := forall q s st d d' e, stands alnum s st -> parse t q st d = Ret (d', Err e) -> misread t s e.

Lemma prim_blames p : blames (TPrim p).
Proof.
  intros q s st d d' e Hs H. cbn [JsonModel.parse] in H.
  assert (N : p <> PBool -> p <> PChar ->
    (if negb (token_eqb (t_token st) KString) && negb (token_eqb (t_token st) KNumber)
      then Ret (d, Err (EExpected WNumber))
      else match parse_number fl p (tok_value st) with
           | Some z => step st (ds_add d q (JPrim p z))
           | None => Ret (d, Err (ERefused p (tok_value st)))
           end) = Ret (d', Err e) -> misread (TPrim p) s e).
  { clear H. intros N1 N2 H. destruct (negb (token_eqb (t_token st) KString) && negb (token_eqb (t_token st) KNumber)) eqn:K.
    { injection H as <- <-. left. apply ft_number; auto. right. split; [|reflexivity]. exists (sym_of st), (t_rest st). split; [exact Hs|].
      intros (w & [X|X]); unfold sym_of in X; destruct (t_token st); discriminate. }
    assert (R : reads s (SNumber (tok_value st)) (t_rest st) \/ reads s (SText (tok_value st)) (t_rest st)).
    { unfold stands, sym_of in Hs. unfold tok_value. destruct (t_token st); try discriminate; auto. }
    destruct (parse_number fl p (tok_value st)) as [z|] eqn:Ez.
    - apply step_err in H. right. exists (VPrim z), (t_rest st). split; [|exact H].
      destruct (match p with PF32 | PF64 => true | _ => false end) eqn:F.
      + apply (dc_float alnum fl p s (tok_value st)); [destruct p; try discriminate; auto|exact R|]. destruct p; try discriminate; exact Ez.
      + assert (Hp : integer_prim p) by (unfold integer_prim; cbn [In]; destruct p; try discriminate; intuition discriminate).
        apply parse_number_iff in Ez; [|exact Hp]. apply (dc_integer alnum fl p s (tok_value st)); tauto.
    - injection H as <- <-. left. apply (ft_refused alnum fl p s (tok_value st) (t_rest st)); auto. intros v r' D.
      inversion D as [| | | |? ? x z ? Hp R' Hn Hz|? ? x z ? Hp R' Hf| | | |]; subst; try congruence.
      + destruct (either_det alnum _ _ _ _ _ R R') as [<- _]. assert (parse_number fl p (tok_value st) = Some z) by (apply parse_number_iff; auto). congruence.
      + destruct (either_det alnum _ _ _ _ _ R R') as [<- _]. destruct Hp; subst p; cbn [parse_number] in Ez; congruence. }
  destruct p; try (apply N; [discriminate|discriminate|exact H]); clear N; unfold parse_prim in H.
  - destruct (t_token st) eqn:K;
      try (injection H as <- <-; left; apply ft_bool; right; (split; [|reflexivity]); exists (sym_of st), (t_rest st); (split; [exact Hs|]); unfold sym_of; rewrite K; intros [X|X]; discriminate X).
    + apply step_err in H. right. exists (VPrim 1), (t_rest st). split; [|exact H]. apply dc_true. apply (stands_as alnum s st); [exact Hs|]. unfold sym_of. rewrite K. reflexivity.
    + apply step_err in H. right. exists (VPrim 0), (t_rest st). split; [|exact H]. apply dc_false. apply (stands_as alnum s st); [exact Hs|]. unfold sym_of. rewrite K. reflexivity.
  - destruct (text_or_not s st Hs) as [[K R]|[K L]]; rewrite K in H; [|injection H as <- <-; left; apply ft_char, L].
    assert (Bad : List.length (tok_value st) <> 1%nat -> andthen (step st d) (fun _ d => Ret (d, Err (EExpected WChar))) = Ret (d', Err e) -> misread (TPrim PChar) s e).
    { intros Lx X. left. apply (ft_char_length alnum fl s _ _ _ R Lx). apply andthen_bad in X. destruct X as [X|(d1 & st1 & X & Y)]; [left; exact (step_err _ _ _ _ X)|].
      injection Y as <- <-. right. split; [|reflexivity]. apply step_ok in X. destruct X as [_ X]. exists (sym_of st1), (t_rest st1). split; [exact X|tauto]. }
    destruct (tok_value st) as [|c [|c' x]]; [apply Bad; [cbn; lia|exact H]| |apply Bad; [cbn; lia|exact H]].
    apply step_err in H. right. exists (VPrim c), (t_rest st). split; [|exact H]. apply dc_char. exact R.
Qed.

Lemma tuple_blames ts : Forall (fun t => fine t /\ blames t) ts -> forall q k s st d d' (res : result tstate jerr), stands alnum s st ->
  tuple_loop alnum parse ts q k st d = Ret (d', res) ->
  match res with
  | Err e => faulty_elements (k =? 0)%nat ts s e
  | Ok st1 => exists r, stands alnum r st1 /\ forall e, lacks_punct 93 WTupleEnd r e -> faulty_elements (k =? 0)%nat ts s e
  end.
Proof.
  induction 1 as [|t ts [Hf Ht] F IH]; intros q k s st d d' res Hs H; cbn [tuple_loop] in H.
  - injection H as <- <-. exists s. split; [exact Hs|]. intros e L. apply fe_end. exact L.
  - destruct (if (k =? 0)%nat return outcome parsed then Ret (d, Ok st) else must_be KComma WTupleComma st d) as [[d0 [st0|e0]]| |] eqn:E0; try discriminate.
    2: { cbn in H. injection H as <- <-. destruct (k =? 0)%nat; [discriminate|]. apply (must_err KComma 44 WTupleComma s) in E0; [|pu|exact Hs].
         destruct E0 as [L|[R U]]; [apply fe_comma; exact L|]. eapply fe_here; [exact R|]. apply unreadable_faulty. exact U. }
    cbn [andthen bind] in H. assert (G : d0 = d /\ exists s0, separated (k =? 0)%nat s s0 /\ stands alnum s0 st0).
    { destruct (k =? 0)%nat; [injection E0 as <- <-; split; [reflexivity|]; exists s; split; [reflexivity|exact Hs]|].
      apply (must_good KComma 44 WTupleComma s) in E0; [|pu|exact Hs]. destruct E0 as (R & -> & R'). split; [reflexivity|]. exists (t_rest st). auto. }
    destruct G as (-> & s0 & Sep & Hs0). unfold with_component in H. destruct (parse t (q ++ [k]) st0 d) as [[d1 [st1|e1]]| |] eqn:E1; try discriminate.
    2: { cbn in H. injection H as <- <-. destruct (Ht _ _ _ _ _ _ Hs0 E1) as [Ft|(v & s1 & D & U)]; [eapply fe_here; eassumption|].
         eapply fe_later; [exact Sep|exact D|]. apply unreadable_elements. exact U. }
    cbn [andthen bind] in H. destruct (parse_sound alnum fl pf t Hf _ _ _ _ _ _ Hs0 E1) as (v & s1 & Dv & Hs1 & _).
    specialize (IH _ _ _ _ _ _ _ Hs1 H). cbn [Nat.eqb] in IH. destruct res as [st2|e].
    + destruct IH as (r & Hr & IH). exists r. split; [exact Hr|]. intros e L. eapply fe_later; [exact Sep|exact Dv|exact (IH e L)].
    + eapply fe_later; [exact Sep|exact Dv|exact IH].
Qed.

Lemma struct_blames fs q : (List.length fs < 64)%nat -> Forall (fun f => fine (snd f) /\ blames (snd f)) fs ->
  forall f set v (b : bool) given s st d d' (res : result tstate jerr), is_set v set -> tracks fs given set -> stands alnum s st ->
  loop fs q f v b st d = Ret (d', res) ->
  match res with
  | Err e => faulty_members fs given b s e
  | Ok st1 => exists r, stands alnum r st1 /\ forall e, lacks_punct 125 WStructEnd r e -> faulty_members fs given b s e
  end.
Proof.
  intros few HF f. induction f as [|f IH]; intros set v b given s st d d' res Hset Tr Hs H; pose proof Tr as (ND & Ln & I & T);
    (destruct set as [|i0 set0] eqn:Es;
      [rewrite (sloop_0 alnum fl pf fs q _ v b st d [] Hset eq_refl) in H; injection H as <- <-; exists s; (split; [exact Hs|]); intros e L; apply fm_end; [cbn [List.length] in Ln; lia|exact L]|]).
  { cbn [struct_loop] in H. pose proof (is_set_empty _ _ Hset) as Z0. rewrite Z0 in H. discriminate. }
  rewrite <- Es in *. assert (Lg : (List.length given < List.length fs)%nat) by (rewrite Es in Ln; cbn [List.length] in Ln; lia).
  rewrite (sloop_S alnum fl pf fs q f v b st d set Hset ltac:(congruence)) in H. clear Es.
  destruct (if b return outcome parsed then Ret (d, Ok st) else must_be KComma WFieldComma st d) as [[d0 [st0|e0]]| |] eqn:E0; try discriminate.
  2: { cbn in H. injection H as <- <-. destruct b; [discriminate|]. apply (must_err KComma 44 WFieldComma s) in E0; [|pu|exact Hs].
       destruct E0 as [L|[R U]]; [apply fm_comma; assumption|]. eapply fm_label; [exact Lg|exact R|left; exact U]. }
  cbn [andthen bind] in H. assert (G : d0 = d /\ exists s0, separated b s s0 /\ stands alnum s0 st0).
  { destruct b; [injection E0 as <- <-; split; [reflexivity|]; exists s; split; [reflexivity|exact Hs]|].
    apply (must_good KComma 44 WFieldComma s) in E0; [|pu|exact Hs]. destruct E0 as (R & -> & R'). split; [reflexivity|]. exists (t_rest st). auto. }
  destruct G as (-> & s0 & Sep & Hs0). clear E0. unfold sbody in H.
  destruct (text_or_not s0 st0 Hs0) as [[K R]|[K L]]; rewrite K in H; [|injection H as <- <-; eapply fm_label; [exact Lg|exact Sep|apply L]].
  set (l := tok_value st0) in *. destruct (last_index fs 0 l) as [i|] eqn:Ei.
  2: { injection H as <- <-. eapply fm_unknown; [exact Lg|exact Sep|exact R|]. intros X. destruct (in_last_index fs l X) as (i & t & Y & _). congruence. }
  destruct (last_index_some fs _ _ _ Ei) as (_ & t & Hn). rewrite Nat.sub_0_r in Hn.
  assert (Li : (i < 64)%nat) by (apply Nat.lt_trans with (List.length fs); [apply nth_error_Some; congruence|exact few]).
  rewrite bits_has_small in H by exact Li. cbn [bind] in H. destruct (Z.testbit v (Z.of_nat i)) eqn:B.
  2: { injection H as <- <-. eapply fm_again; [exact Lg|exact Sep|exact R|]. destruct (in_dec (list_eq_dec Z.eq_dec) l given) as [X|X]; [exact X|exfalso].
       apply (T l i Ei) in X. destruct Hset as (_ & _ & Hset). apply (Hset i Li) in X. congruence. }
  assert (Hi : In i set). { destruct Hset as (_ & _ & Hset). apply Hset; [exact Li|exact B]. }
  assert (Ng : ~ In l given) by (apply (T l i Ei); exact Hi).
  assert (LN : last_named l t fs) by (apply (last_named_iff alnum); eauto).
  destruct (in_split _ _ Hi) as (set1 & set2 & ->). pose proof (NoDup_remove _ _ _ ND) as [_ Ni].
  destruct (is_set_clear pf v i set1 set2 Hset Ni) as (v' & Ec & Hv').
  destruct (step st0 d) as [[d1 [st1|e1]]| |] eqn:E1; try discriminate.
  2: { cbn in H. injection H as <- <-. apply step_err in E1. eapply fm_colon; [exact Lg|exact Sep|exact R|exact (last_index_in _ _ _ Ei)|exact Ng|left; exact E1]. }
  apply step_ok in E1. destruct E1 as [-> Hs1]. cbn [andthen bind] in H. rewrite Ec in H. cbn [bind] in H.
  destruct (must_be KColon WColon st1 d) as [[d2 [st2|e2]]| |] eqn:E2; try discriminate.
  2: { cbn in H. injection H as <- <-. apply (must_err KColon 58 WColon (t_rest st0)) in E2; [|pu|exact Hs1]. destruct E2 as [L|[R2 U]].
       - eapply fm_colon; [exact Lg|exact Sep|exact R|exact (last_index_in _ _ _ Ei)|exact Ng|exact L].
       - eapply fm_here; [exact Lg|exact Sep|exact R|exact LN|exact Ng|exact R2|]. apply unreadable_faulty. exact U. }
  apply (must_good KColon 58 WColon (t_rest st0)) in E2; [|pu|exact Hs1]. destruct E2 as (R2 & -> & Hs2). cbn [andthen bind] in H.
  rewrite (select_nth _ _ _ _ Hn) in H. unfold with_component in H. cbn [snd] in H. rewrite Forall_forall in HF. destruct (HF _ (nth_error_In _ _ Hn)) as [Ft Bt]. cbn [snd] in Ft, Bt.
  assert (L' : (List.length (l :: given) <= List.length fs)%nat) by (cbn [List.length]; lia).
  destruct (parse t (q ++ [i]) st2 d) as [[d3 [st3|e3]]| |] eqn:E3; try discriminate.
  2: { cbn in H. injection H as <- <-. destruct (Bt _ _ _ _ _ _ Hs2 E3) as [X|(w & s3 & D & U)].
       - eapply fm_here; eassumption.
       - eapply fm_later; [exact Lg|exact Sep|exact R|exact LN|exact Ng|exact R2|exact D|]. apply unreadable_members; assumption. }
  cbn [andthen bind] in H. destruct (parse_sound alnum fl pf t Ft _ _ _ _ _ _ Hs2 E3) as (w & s3 & Dw & Hs3 & _).
  specialize (IH _ _ _ _ _ _ _ _ _ Hv' (tracks_add _ _ _ _ _ _ Tr Ei) Hs3 H). destruct res as [st4|e].
  - destruct IH as (r & Hr & IH). exists r. split; [exact Hr|]. intros e L. eapply fm_later; [exact Lg|exact Sep|exact R|exact LN|exact Ng|exact R2|exact Dw|exact (IH e L)].
  - eapply fm_later; [exact Lg|exact Sep|exact R|exact LN|exact Ng|exact R2|exact Dw|exact IH].
Qed.

Lemma content_blames t s st d d' e (k : tstate -> ds -> outcome parsed) q : fine t -> blames t -> (forall st d, k st d = parse t q st d) -> stands alnum s st ->
  content_rest k st d = Ret (d', Err e) ->
  faulty_content t s e \/ exists s1 s2 s3 v s4 r, reads s (SPunct 44) s1 /\ reads s1 (SText (lit "value")) s2 /\ reads s2 (SPunct 58) s3 /\ document t s3 v s4 /\
    reads s4 (SPunct 125) r /\ unreadable r e.
Proof.
  intros Ft Bt Hk Hs H. unfold content_rest in H.
  apply andthen_bad in H. destruct H as [H|(d1 & st1 & E1 & H)].
  { left. apply (must_err KComma 44 WCaseComma s) in H; [|pu|exact Hs]. destruct H as [L|[R U]]; [apply fv_comma; exact L|]. eapply fv_value; [exact R|left; exact U]. }
  apply (must_good KComma 44 WCaseComma s) in E1; [|pu|exact Hs]. destruct E1 as (R1 & -> & Hs1).
  apply andthen_bad in H. destruct H as [H|(d2 & st2 & E2 & H)].
  { left. apply (named_err (lit "value") WValue _ _ _ _ _ Hs1) in H. destruct H as [L|[R U]]; [eapply fv_value; eassumption|]. eapply fv_colon; [exact R1|exact R|left; exact U]. }
  apply (named_good (lit "value") WValue _ _ _ _ _ Hs1) in E2. destruct E2 as (R2 & -> & Hs2).
  apply andthen_bad in H. destruct H as [H|(d3 & st3 & E3 & H)].
  { left. apply (must_err KColon 58 WColon (t_rest st1)) in H; [|pu|exact Hs2]. destruct H as [L|[R U]]; [eapply fv_colon; eassumption|].
    eapply fv_here; [exact R1|exact R2|exact R|apply unreadable_faulty; exact U]. }
  apply (must_good KColon 58 WColon (t_rest st1)) in E3; [|pu|exact Hs2]. destruct E3 as (R3 & -> & Hs3).
  rewrite Hk in H. apply andthen_bad in H. destruct H as [H|(d4 & st4 & E4 & H)].
  { left. destruct (Bt _ _ _ _ _ _ Hs3 H) as [X|(v & s4 & D & U)]; [eapply fv_here; eassumption|]. eapply fv_end; [exact R1|exact R2|exact R3|exact D|left; exact U]. }
  destruct (parse_sound alnum fl pf t Ft _ _ _ _ _ _ Hs3 E4) as (v & s4 & Dv & Hs4 & _).
  apply (must_err KEndObject 125 WEnumEnd s4) in H; [|pu|exact Hs4]. destruct H as [L|[R U]]; [left; eapply fv_end; eassumption|].
  right. exists (t_rest st), (t_rest st1), (t_rest st2), v, s4, (t_rest st4). auto 10.
Qed.

Lemma parse_blames t : fine t -> blames t.
Proof.
  induction t using ty_ind'; intros HA q s st d d' e Hs H0.
  - cbn [JsonModel.parse] in H0. destruct (token_eqb (t_token st) KNull) eqn:K.
    + apply step_err in H0. right. exists VUnit, (t_rest st). split; [|exact H0]. constructor. apply (stands_as alnum s st _ Hs). apply token_is in K. unfold sym_of. rewrite K. reflexivity.
    + injection H0 as <- <-. left. apply ft_unit. right. split; [|reflexivity]. exists (sym_of st), (t_rest st). split; [exact Hs|].
      intros X. unfold sym_of in X. destruct (t_token st); try discriminate X. discriminate K.
  - exact (prim_blames p q s st d d' e Hs H0).
  - cbn [JsonModel.parse] in H0. destruct (text_or_not s st Hs) as [[K R]|[K L]]; rewrite K in H0; [|injection H0 as <- <-; left; apply ft_string, L].
    apply step_err in H0. right. eexists. exists (t_rest st). split; [constructor; exact R|exact H0].
  - inversion HA as [| | |? HA'| |]; subst.
    assert (F : Forall (fun t => fine t /\ blames t) ts). { rewrite Forall_forall in *. intros t Ht. split; [exact (HA' _ Ht)|exact (H _ Ht (HA' _ Ht))]. }
    rewrite parse_tuple in H0. apply andthen_bad in H0. destruct H0 as [H0|(d1 & st1 & E1 & H0)].
    { left. apply (must_err KBeginArray 91 WTuple s) in H0; [|pu|exact Hs]. destruct H0 as [L|[R U]]; [apply ft_tuple_begin; exact L|]. eapply ft_tuple; [exact R|]. apply unreadable_elements. exact U. }
    apply (must_good KBeginArray 91 WTuple s) in E1; [|pu|exact Hs]. destruct E1 as (R1 & -> & Hs1).
    unfold tuple_rest in H0. apply andthen_bad in H0. destruct H0 as [H0|(d2 & st2 & E2 & H0)].
    { left. eapply ft_tuple; [exact R1|]. exact (tuple_blames ts F q 0%nat _ _ _ _ _ Hs1 H0). }
    destruct (tuple_blames ts F q 0%nat _ _ _ _ _ Hs1 E2) as (r & Hr & B).
    assert (S : Forall (sound alnum fl pf) ts). { rewrite Forall_forall in *. intros t Ht. exact (parse_sound alnum fl pf t (HA' _ Ht)). }
    destruct (tuple_sound alnum fl pf ts S q 0%nat _ _ _ _ _ Hs1 E2) as (vs & r' & El & Hr' & _).
    apply (must_err KEndArray 93 WTupleEnd r') in H0 as H1; [|pu|exact Hr']. destruct H1 as [_|[R U]].
    + apply (must_err KEndArray 93 WTupleEnd r) in H0; [|pu|exact Hr]. destruct H0 as [L|[R U]]; [left; eapply ft_tuple; [exact R1|exact (B e L)]|].
      right. exists (VTuple vs), (t_rest st2). split; [|exact U]. apply (dc_tuple alnum fl ts vs s (t_rest st) r'); auto.
      apply (stands_as alnum r' st2 _ Hr'). destruct (stands_is alnum _ _ _ _ Hr R) as [X _]. exact X.
    + right. exists (VTuple vs), (t_rest st2). split; [|exact U]. apply (dc_tuple alnum fl ts vs s (t_rest st) r'); auto.
  - inversion HA as [| | | |? few HA'|]; subst.
    assert (F : Forall (fun f => fine (snd f) /\ blames (snd f)) fs). { rewrite Forall_forall in *. intros f Hf. split; [exact (HA' _ Hf)|exact (H _ Hf (HA' _ Hf))]. }
    rewrite parse_struct in H0 by exact few. apply andthen_bad in H0. destruct H0 as [H0|(d1 & st1 & E1 & H0)].
    { left. apply (must_err KBeginObject 123 WStruct s) in H0; [|pu|exact Hs]. destruct H0 as [L|[R U]]; [apply ft_struct_begin; exact L|].
      eapply ft_struct; [exact R|]. apply unreadable_members; [cbn [List.length]; lia|exact U]. }
    apply (must_good KBeginObject 123 WStruct s) in E1; [|pu|exact Hs]. destruct E1 as (R1 & -> & Hs1).
    unfold struct_rest in H0. apply andthen_bad in H0. destruct H0 as [H0|(d2 & st2 & E2 & H0)].
    { left. eapply ft_struct; [exact R1|]. exact (struct_blames fs q few F 65%nat _ _ true [] _ _ _ _ _ (is_set_new _ few) (tracks_new fs) Hs1 H0). }
    destruct (struct_blames fs q few F 65%nat _ _ true [] _ _ _ _ _ (is_set_new _ few) (tracks_new fs) Hs1 E2) as (r & Hr & B).
    assert (S : Forall (fun f => sound alnum fl pf (snd f)) fs). { rewrite Forall_forall in *. intros f Hf. exact (parse_sound alnum fl pf _ (HA' _ Hf)). }
    destruct (struct_sound alnum fl pf fs q few S _ _ _ _ _ _ _ _ _ (is_set_new _ few) (seq_NoDup _ _) ltac:(apply Forall_forall; intros i Hi; apply in_seq in Hi; lia) Hs1 E2)
      as (items & r' & Hm & Hr' & _ & P & FI).
    assert (Doc : forall x, sym_of st2 = SPunct 125 -> unreadable (t_rest st2) x -> misread (TStruct fs) s x).
    { intros x X U. right. destruct (struct_close alnum fl fs q d2 items (t_rest st) r' s (t_rest st2) P FI Hm R1 (stands_as alnum r' st2 _ Hr' X)) as (v & Dv & _). eauto. }
    apply (must_err KEndObject 125 WStructEnd r) in H0; [|pu|exact Hr]. destruct H0 as [L|[R U]].
    + left. eapply ft_struct; [exact R1|exact (B e L)].
    + apply Doc; [|exact U]. destruct (stands_is alnum _ _ _ _ Hr R) as [X _]. exact X.
  - inversion HA as [| | | | |? HA']; subst.
    rewrite parse_enum in H0. apply andthen_bad in H0. destruct H0 as [H0|(d1 & st1 & E1 & H0)].
    { left. apply (must_err KBeginObject 123 WEnum s) in H0; [|pu|exact Hs]. destruct H0 as [L|[R U]]; [apply ft_enum_begin; exact L|].
      eapply ft_enum; [exact R|]. apply fc_kind. left. exact U. }
    apply (must_good KBeginObject 123 WEnum s) in E1; [|pu|exact Hs]. destruct E1 as (R1 & -> & Hs1).
    unfold case_rest in H0. apply andthen_bad in H0. destruct H0 as [H0|(d2 & st2 & E2 & H0)].
    { left. eapply ft_enum; [exact R1|]. apply (named_err (lit "kind") WKind _ _ _ _ _ Hs1) in H0. destruct H0 as [L|[R U]]; [apply fc_kind; exact L|].
      eapply fc_colon; [exact R|left; exact U]. }
    apply (named_good (lit "kind") WKind _ _ _ _ _ Hs1) in E2. destruct E2 as (R2 & -> & Hs2).
    apply andthen_bad in H0. destruct H0 as [H0|(d3 & st3 & E3 & H0)].
    { left. eapply ft_enum; [exact R1|]. apply (must_err KColon 58 WColon (t_rest st1)) in H0; [|pu|exact Hs2]. destruct H0 as [L|[R U]]; [eapply fc_colon; eassumption|].
      eapply fc_label; [exact R2|exact R|left; exact U]. }
    apply (must_good KColon 58 WColon (t_rest st1)) in E3; [|pu|exact Hs2]. destruct E3 as (R3 & -> & Hs3).
    destruct (text_or_not _ _ Hs3) as [[K R4]|[K L]]; rewrite K in H0; cbn [negb] in H0;
      [|injection H0 as <- <-; left; eapply ft_enum; [exact R1|]; eapply fc_label; [exact R2|exact R3|apply L]].
    set (l := tok_value st3) in *. destruct (last_index cs 0 l) as [i|] eqn:Ei.
    2: { injection H0 as <- <-. left. eapply ft_enum; [exact R1|]. eapply fc_unknown; [exact R2|exact R3|exact R4|]. intros X. destruct (in_last_index cs l X) as (i & t & Y & _). congruence. }
    destruct (last_index_some cs _ _ _ Ei) as (_ & t & Hn). rewrite Nat.sub_0_r in Hn.
    assert (LN : last_named l t cs) by (apply (last_named_iff alnum); eauto).
    apply andthen_bad in H0. destruct H0 as [H0|(d4 & st4 & E4 & H0)].
    { left. apply step_err in H0. eapply ft_enum; [exact R1|]. eapply fc_content; [exact R2|exact R3|exact R4|exact LN|]. apply fv_comma. left. exact H0. }
    apply step_ok in E4. destruct E4 as [-> Hs4]. rewrite Forall_forall in *.
    pose proof (HA' _ (nth_error_In _ _ Hn)) as Ft. pose proof (H _ (nth_error_In _ _ Hn) Ft) as Bt. cbn [snd] in Ft, Bt.
    apply (content_blames t (t_rest st3) st4 _ _ _ _ (with_component q i) Ft Bt) in H0; [| |exact Hs4].
    2: { intros. rewrite (select_nth _ _ _ _ Hn). reflexivity. }
    destruct H0 as [X|(s5 & s6 & s7 & v & s8 & r & R5 & R6 & R7 & D & R8 & U)].
    + left. eapply ft_enum; [exact R1|]. eapply fc_content; eassumption.
    + right. exists (VCase i v), r. split; [|exact U]. eapply (dc_enum alnum fl cs i l t v); [exact Hn| |exact R1|exact R2|exact R3|exact R4|exact R5|exact R6|exact R7|exact D|exact R8].
      intros k' t' Hk. apply (last_index_max _ _ _ _ _ _ Ei Hk).
Qed.

(** ** The whole decoder *)

Lemma decode_fails t input old e : fails (andthen (step (tok_init input) []) (parse t [])) e <-> exists d, json_decode alnum fl pf t input old = Ret (d, Err e).
Proof.
  unfold JsonBlameRun.fails, json_decode, tok_new, JsonModel.step. destruct (next (tok_init input)) as [[st [[]|e1]]| |]; cbn [bind andthen].
  - destruct (parse t [] st []) as [[d [st1|e1]]| |]; cbn [bind]; split; intros (d1 & H); try discriminate; exists d; injection H as _ <-; reflexivity.
  - split; intros (d1 & H); injection H as _ <-; eauto.
  - split; intros (d1 & H); discriminate.
  - split; intros (d1 & H); discriminate.
Qed.

Theorem decode_blame t input old e : fine t -> (exists d, json_decode alnum fl pf t input old = Ret (d, Err e)) <-> misread t input e.
Proof.
  intros Ft. rewrite <- (decode_fails t input old e). split.
  - intros (d & H). apply andthen_bad in H. destruct H as [H|(d1 & st1 & E & H)].
    + left. apply unreadable_faulty. exact (step_err _ _ _ _ H).
    + apply step_ok in E. destruct E as [-> Hs]. exact (parse_blames t Ft [] _ _ _ _ _ Hs H).
  - intros [F|(v & r & D & U)]; [exact (faulty_fails t input e F Ft [] (tok_init input) [] eq_refl)|].
    destruct (run_document alnum fl pf _ _ _ _ D Ft [] (tok_init input) [] eq_refl) as (st1 & d1 & E1 & H1). exists d1. rewrite H1. exact (stop alnum _ _ _ d1 U E1).
Qed.

End Proofs.

(** ** One fault, one text *)

Theorem misread_one alnum fl t s e e' : all_structs (fun n => (n < 64)%nat) t ->
  misread alnum fl t s e -> misread alnum fl t s e' -> e = e'.
Proof.
  intros Ft H H'. apply (decode_blame alnum fl Debug t s [] e Ft) in H. apply (decode_blame alnum fl Debug t s [] e' Ft) in H'.
  destruct H as [d H]. destruct H' as [d' H']. rewrite H in H'. injection H' as _ X. exact X.
Qed.

Theorem read_or_misread alnum fl t s : all_structs (fun n => (n < 64)%nat) t ->
  Forall (fun c => is_char c = true) s -> floats_in_range fl -> ~ has_surrogate_escape s ->
  ((exists v r x r', document alnum fl t s v r /\ reads alnum r x r') \/ exists e, misread alnum fl t s e) /\
  ~ ((exists v r x r', document alnum fl t s v r /\ reads alnum r x r') /\ exists e, misread alnum fl t s e).
Proof.
  intros Ft Hc Hf Hn. split.
  - destruct (decode_total alnum fl Debug t s [] Hc Hf Ft) as [[[d [[]|e]] H]|[_ H]]; [left|right|contradiction].
    + destruct (decode_document alnum fl Debug t s [] d Ft H) as (v & r & D & P). exists v.
      destruct (proj1 (decode_exact alnum fl Debug t s [] v Ft)) as (r1 & x & r' & X); [eauto|]. exists r1, x, r'. exact X.
    + exists e. apply (decode_blame alnum fl Debug t s [] e Ft). eauto.
  - intros [(v & r & x & r' & D & R) [e H]]. apply (decode_blame alnum fl Debug t s [] e Ft) in H. destruct H as [d H].
    destruct (proj2 (decode_exact alnum fl Debug t s [] v Ft)) as (d' & H' & _); [eauto|]. congruence.
Qed.

Theorem jerr_text_inj refusal e e' : (forall p x, e <> ERefused p x) -> (forall p x, e' <> ERefused p x) ->
  jerr_text refusal e = jerr_text refusal e' -> e = e'.
Proof.
  intros N N' H.
  destruct e as [| | | | | | |w|l|l|l|p x]; [..|destruct (N p x eq_refl)];
  (destruct e' as [| | | | | | |w'|l'|l'|l'|p' x']; [..|destruct (N' p' x' eq_refl)]);
  try (destruct w); try (destruct w'); try reflexivity; try discriminate H;
  cbn [jerr_text] in H; apply app_inv_head, app_inv_tail in H; congruence.
Qed.

(** ** Examples *)

Definition jm_fl : floats := {| show_float := fun _ _ => []; parse_float := fun _ _ => None |}.
Definition jm_alnum : Z -> bool := fun _ => false.

Theorem late_character_fault : exists t s x r e,
  reads jm_alnum s (SText x) r /\ (forall v r', ~ document jm_alnum jm_fl t s v r') /\
  misread jm_alnum jm_fl t s e /\ unreadable jm_alnum r e /\ e <> EExpected WChar.
Proof.
  exists (TPrim PChar), (lit """ab"" x"), (lit "ab"), (lit " x"), EJson.
  assert (R : reads jm_alnum (lit """ab"" x") (SText (lit "ab")) (lit " x")).
  { apply token_symbol_iff. eexists. split; [vm_compute; reflexivity|]. split; [reflexivity|]. split; reflexivity. }
  split; [exact R|]. split.
  { intros v r' D. inversion D as [| | |? c ? R'|? ? ? ? ? H|? ? ? ? ? H| | | |]; subst.
    - destruct (reads_det _ _ _ _ _ _ R R') as [X _]. discriminate X.
    - unfold integer_prim in H. cbn in H. intuition discriminate.
    - destruct H; discriminate. }
  split.
  { apply (decode_blame _ _ Debug _ _ []); [constructor|]. eexists. vm_compute. reflexivity. }
  split; [|discriminate]. apply (unreadable_iff jm_alnum (tok_init (lit " x"))). eexists. vm_compute. reflexivity.
Qed.
