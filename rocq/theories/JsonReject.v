(** * Objects with wrong members are rejected *)

From Coq Require Import Strings.String Permutation ZifyBool ZifyNat ZifyN.
From Verif Require Import Base BaseFacts StrModel StrFacts TypesModel MarshalModel MarshalSpec JsonModel JsonSpec JsonData JsonBits JsonLex JsonNum JsonTok JsonRead JsonEmit JsonParse.
Local Open Scope list_scope.
Local Open Scope Z_scope.

Section Reject.
Context (alnum : Z -> bool) (fl : floats) (pf : profile) (fs : list (str * ty)) (q : path).
Hypothesis few : (List.length fs < 64)%nat.
Hypothesis distinct : NoDup (map fst fs).

Notation step := (JsonModel.step alnum).
Notation must_be := (JsonModel.must_be alnum).
Notation parse := (JsonModel.parse alnum fl pf).
Notation sloop := (struct_loop alnum pf (last_index fs 0) (fun i st d => select (fun f : str * ty => parse (snd f) (with_component q i) st d) fs i)).
Notation sbody := (sbody alnum fl pf fs q).
Notation mtext := (fun m : str * str => string_text (fst m) ++ 58 :: snd m).

Definition label (i : nat) : str := nth i (map fst fs) [].

(** The labels are readable, and a known label comes with a value of its field. *)
Definition usable (m : str * str) : Prop :=
  Forall json_char (fst m) /\ forall t, In (fst m, t) fs -> exists v, reads_value alnum fl pf t v (snd m).

Lemma nth_label i l t : nth_error fs i = Some (l, t) -> label i = l.
Proof. intros H. unfold label. apply nth_error_nth. rewrite nth_error_map, H. reflexivity. Qed.

(** The part of an iteration after the comma. *)
Lemma sbody_reject f v rem (m : str * str) (ms : list (str * str)) r st d :
  is_set v rem -> NoDup rem -> Forall (fun i => (i < List.length fs)%nat) rem -> usable m ->
  ~ Permutation (fst m :: map fst ms) (map label rem) ->
  t_rest st = mtext m ++ r -> separator alnum r ->
  (forall rem' v' st' d', is_set v' rem' -> NoDup rem' -> Forall (fun i => (i < List.length fs)%nat) rem' -> S (List.length rem') = List.length rem ->
     ~ Permutation (map fst ms) (map label rem') -> t_rest st' = r ->
     exists d2 e, andthen (andthen (step st' d') (sloop f v' false)) (must_be KEndObject WStructEnd) = Ret (d2, Err e)) ->
  exists d2 e, andthen (andthen (step st d) (sbody f v)) (must_be KEndObject WStructEnd) = Ret (d2, Err e).
Proof.
  intros Hs ND HL [Hl Hu] HP Er S IH. cbn [fst snd] in Er. destruct m as [l x]; cbn [fst snd] in *. rewrite <- app_assoc in Er. cbn [app] in Er.
  pose proof (reads_string alnum st l _ (json_char_nonzero _ Hl) Er) as R. rewrite reread_json in R by exact Hl.
  destruct (step_reads alnum _ _ _ _ d R) as (st1 & E1 & Hk & R1 & Hv).
  destruct (last_index fs 0 l) as [i|] eqn:Ei.
  - destruct (last_index_some fs l 0 i Ei) as (_ & t & Hn). rewrite Nat.sub_0_r in Hn.
    assert (Li : (i < List.length fs)%nat) by (apply nth_error_Some; rewrite Hn; discriminate).
    destruct (in_dec Nat.eq_dec i rem) as [Hi|Hi].
    + destruct (in_split _ _ Hi) as (s1 & s2 & ->). pose proof ND as ND0. apply NoDup_remove in ND. destruct ND as [ND Ni].
      destruct (Hu t (nth_error_In _ _ Hn)) as (w & Hx).
      destruct (sbody_reads alnum fl pf fs q few distinct f v s1 s2 i l t w x r st d Hs Ni Hn Hl Hx Er S) as (st2 & d2 & v' & Hv' & E2 & R2 & _).
      rewrite E2. apply (IH (s1 ++ s2)); [exact Hv'|exact ND| | | |exact R2].
      * apply Forall_app in HL. destruct HL as [HL1 HL2]. inversion HL2; subst. apply Forall_app. split; assumption.
      * rewrite !app_length. cbn. lia.
      * intros P. apply HP. rewrite !map_app in *. cbn [map]. rewrite (nth_label _ _ _ Hn). apply Permutation_cons_app. exact P.
    + eexists d, _. rewrite E1, andthen_ret. unfold JsonParse.sbody. rewrite Hv by auto. rewrite Hk. cbn [token_eqb].
      rewrite Ei, bits_has_small by lia. cbn [bind]. destruct (Z.testbit v (Z.of_nat i)) eqn:B; [|reflexivity].
      exfalso. apply Hi. destruct Hs as (_ & _ & Hs). apply Hs; [lia|exact B].
  - eexists d, _. rewrite E1, andthen_ret. unfold JsonParse.sbody. rewrite Hv by auto. rewrite Hk. cbn [token_eqb]. rewrite Ei. reflexivity.
Qed.

Lemma rest_separator (ms : list (str * str)) k : separator alnum (flat_map (fun m => 44 :: mtext m) ms ++ 125 :: k).
Proof. destruct ms; cbn [flat_map app]; apply separator_punct; cbn; auto. Qed.

Lemma loop_reject ms : Forall usable ms -> forall f rem v k st d,
  is_set v rem -> NoDup rem -> Forall (fun i => (i < List.length fs)%nat) rem -> (List.length rem <= f)%nat ->
  ~ Permutation (map fst ms) (map label rem) ->
  t_rest st = flat_map (fun m => 44 :: mtext m) ms ++ 125 :: k ->
  exists d2 e, andthen (andthen (step st d) (sloop f v false)) (must_be KEndObject WStructEnd) = Ret (d2, Err e).
Proof.
  induction 1 as [|m ms Hm F IH]; intros f rem v k st d Hs ND HL Hf HP Er.
  - destruct rem as [|i rem]; [exfalso; apply HP; constructor|].
    destruct f as [|f]; [cbn in Hf; lia|].
    eexists d, _. erewrite (andthen_ext (step st d)); [|intros; eapply sloop_S; [exact Hs|discriminate]]. cbv iota.
    rewrite <- andthen_assoc. erewrite must_not; [reflexivity|eapply reads_single; [exact Er|cbn; auto 10]|discriminate].
  - cbn [flat_map app] in Er. rewrite <- app_assoc in Er. destruct rem as [|i rem].
    + eexists d, _. erewrite (andthen_ext (step st d)); [|intros; eapply sloop_0; [exact Hs|reflexivity]].
      rewrite andthen_assoc. erewrite (andthen_ext (step st d)); [|intros; apply andthen_ret].
      eapply must_not; [eapply reads_single; [exact Er|cbn; auto 10]|discriminate].
    + destruct f as [|f]; [cbn in Hf; lia|].
      destruct (must_single alnum st 44 KComma WFieldComma _ d Er) as (st1 & E1 & R1); [cbn; auto 10|].
      erewrite (andthen_ext (step st d)); [|intros; eapply sloop_S; [exact Hs|discriminate]]. cbv iota. rewrite <- andthen_assoc, E1.
      eapply sbody_reject; [exact Hs|exact ND|exact HL|exact Hm|exact HP|exact R1|apply rest_separator|].
      intros rem' v' st' d' Hv' ND' HL' Len HP' R'. apply (IH f rem' v' k st' d' Hv' ND' HL'); [cbn in Hf, Len; lia|exact HP'|exact R'].
Qed.

Lemma parse_reject ms k st d : Forall usable ms -> ~ Permutation (map fst ms) (map fst fs) ->
  t_rest st = object_text ms ++ k ->
  exists d2 e, andthen (step st d) (parse (TStruct fs) q) = Ret (d2, Err e).
Proof.
  intros F HP Er. unfold object_text in Er. cbn [app] in Er. rewrite <- app_assoc in Er. cbn [app] in Er.
  destruct (must_single alnum st 123 KBeginObject WStruct _ d Er) as (st1 & E1 & R1); [cbn; auto 10|].
  change (parse (TStruct fs) q) with (fun st d => andthen (must_be KBeginObject WStruct st d) (fun st d =>
      visited <- bits_new pf (List.length fs) ;; andthen (sloop 65 visited true st d) (fun st d => must_be KEndObject WStructEnd st d))).
  cbv beta. rewrite bits_new_small by exact few. cbn [bind]. rewrite <- andthen_assoc, E1.
  pose proof (is_set_new (List.length fs) few) as Hs. set (v := 2 ^ Z.of_nat (List.length fs) - 1) in *.
  assert (HL : Forall (fun i => (i < List.length fs)%nat) (seq 0 (List.length fs))) by (apply Forall_forall; intros i Hi; apply in_seq in Hi; lia).
  assert (LE : map fst fs = map label (seq 0 (List.length fs))).
  { unfold label. rewrite <- (map_length fst fs). generalize (map fst fs) as l. clear.
    induction l as [|a l IH]; [reflexivity|]. cbn [List.length seq map nth]. f_equal. rewrite <- seq_shift, map_map. exact IH. }
  rewrite LE in HP. rewrite <- andthen_assoc.
  destruct F as [|m ms Hm F].
  - destruct (seq 0 (List.length fs)) as [|i rem]; [exfalso; apply HP; constructor|].
    eexists d, _. erewrite (andthen_ext (step st1 d)); [|intros; eapply sloop_S; [exact Hs|discriminate]]. cbv iota.
    erewrite (andthen_ext (step st1 d)); [|intros; apply andthen_ret].
    destruct (step_reads alnum st1 KEndObject [] k d) as (st2 & E2 & Hk & _); [eapply reads_single; [exact R1|cbn; auto 10]|].
    rewrite E2, andthen_ret. unfold JsonParse.sbody. rewrite Hk. reflexivity.
  - cbn [map] in R1. rewrite comma_sep_flat, <- app_assoc in R1. rewrite flat_map_concat_map, map_map, <- flat_map_concat_map in R1.
    pose proof (seq_NoDup (List.length fs) 0) as ND. pose proof (seq_length (List.length fs) 0) as Len.
    destruct (seq 0 (List.length fs)) as [|i rem].
    + eexists d, _. erewrite (andthen_ext (step st1 d)); [|intros; eapply sloop_0; [exact Hs|reflexivity]].
      rewrite andthen_assoc. erewrite (andthen_ext (step st1 d)); [|intros; apply andthen_ret].
      destruct Hm as [Hl _]. rewrite <- app_assoc in R1.
      eapply must_not; [eapply reads_string; [apply json_char_nonzero; exact Hl|exact R1]|discriminate].
    + erewrite (andthen_ext (step st1 d)); [|intros; eapply sloop_S; [exact Hs|discriminate]]. cbv iota.
      erewrite (andthen_ext (step st1 d)); [|intros; apply andthen_ret].
      eapply sbody_reject; [exact Hs|exact ND|exact HL|exact Hm|exact HP|exact R1|apply rest_separator|].
      intros rem' v' st' d' Hv' ND' HL' Len' HP' R'. apply (loop_reject ms F 64 rem' v' k st' d' Hv' ND' HL'); [cbn in Len, Len'; lia|exact HP'|exact R'].
Qed.

End Reject.
