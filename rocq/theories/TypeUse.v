(** * Types from text with names and JSON *)

From Coq Require Import Strings.String.
From Verif Require Import Base StrModel Utf8Model TypesModel TypesSpec TypesProofs MarshalModel MarshalSpec ValSource JsonModel JsonSpec JsonTop JsonExamples StrFacts SqlWords SqlParseModel
  TypeParseModel TypeGrammar TypeParsed TypeUseSpec.
Local Open Scope list_scope.

Lemma identifier_dot a : identifier a -> ~ In 46%Z a.
Proof.
  intros (c & cs & -> & A & B) [E|I]; [unfold name_start in A; lia|]. rewrite Forall_forall in B. specialize (B _ I). unfold name_char, name_start, digit in B. lia.
Qed.

Lemma identifier_json a : identifier a -> Forall json_char a.
Proof.
  assert (K : forall c, name_char c -> json_char c).
  { unfold name_char, name_start, digit, json_char, is_char, bad_control. intros c H. repeat split; lia. }
  intros (c & cs & -> & A & B). constructor; [apply K; left; exact A|]. eapply Forall_impl; [exact K|exact B].
Qed.

Fixpoint nameable_labels (t : ty) (N : nameable t) {struct N} : no_repeats t -> good_labels t.
Proof.
  intros R. destruct N as [|p| |ts _ F|fs _ F|cs _ F]; inversion R as [| | |? FR|? ND FR|? ND FR]; subst; constructor; try assumption.
  - clear R. induction F as [|t ts H F IH]; constructor; [exact (nameable_labels t H (Forall_inv FR))|exact (IH (Forall_inv_tail FR))].
  - eapply Forall_impl; [|exact F]. intros f [[I _] _]. exact (identifier_dot _ I).
  - clear R ND. induction F as [|f fs H F IH]; constructor; [destruct H as [_ H]; exact (nameable_labels _ H (Forall_inv FR))|exact (IH (Forall_inv_tail FR))].
  - eapply Forall_impl; [|exact F]. intros f [[I _] _]. exact (identifier_dot _ I).
  - clear R ND. induction F as [|f fs H F IH]; constructor; [destruct H as [_ H]; exact (nameable_labels _ H (Forall_inv FR))|exact (IH (Forall_inv_tail FR))].
Qed.

Theorem parsed_path_named s t p u : parse_type s = Ret (Ok t) -> no_repeats t -> p <> [] -> at_path t p u ->
  Forall (fun i => (Z.of_nat i < 2 ^ 64)%Z) p -> resolve_qualified_name t (join_dot (name_components t p)) = Ok p.
Proof. intros P R. apply name_resolves. exact (nameable_labels t (parsed_nameable s t P) R). Qed.

(** A label that repeats an earlier one has no name. *)
Lemma spells_app t : forall cs q r, spells t cs (q ++ r) -> forall u, at_path t q u -> exists cs', spells u cs' r.
Proof.
  intros cs q r H u A. revert cs H. induction A as [t|ts i t' p u N _ IH|fs i l t' p u N _ IH|fs i l t' p u N _ IH]; intros cs H; [eauto|..].
  - inversion H as [|? ? ? t2 ? ? _ N2 H2| |]; subst. rewrite N in N2. injection N2 as <-. eauto.
  - inversion H as [| |? ? ? t2 ? ? [N2 _] H2|]; subst. rewrite N in N2. injection N2 as _ <-. eauto.
  - inversion H as [| | |? ? ? t2 ? ? [N2 _] H2]; subst. rewrite N in N2. injection N2 as _ <-. eauto.
Qed.

Theorem repeated_label_unnamed t q ms i j a ti tj : at_path t q (TStruct ms) \/ at_path t q (TEnum ms) -> (i < j)%nat ->
  nth_error ms i = Some (a, ti) -> nth_error ms j = Some (a, tj) -> forall name, resolve_qualified_name t name <> Ok (q ++ [j]).
Proof.
  intros A L Hi Hj name E. apply resolve_name_spells in E. destruct A as [A|A]; apply (spells_app _ _ _ _ E) in A as (cs & H).
  - inversion H as [| |? ? ? ? ? ? [N F] _|]; subst. rewrite Hj in N. injection N as <- <-. exact (F i ti L Hi).
  - inversion H as [| | |? ? ? ? ? ? [N F] _]; subst. rewrite Hj in N. injection N as <- <-. exact (F i ti L Hi).
Qed.

Fixpoint json_value_jsonable fl (t : ty) (v : val) (H : json_value fl t v) {struct H} : nameable t -> no_repeats t -> jsonable fl t v.
Proof.
  intros N R. destruct H as [|p z A B C|s A|ts vs F|fs vs L F|cs k l t v E H].
  - constructor.
  - constructor; assumption.
  - constructor. assumption.
  - inversion N as [| | |? _ FN| |]; subst. inversion R as [| | |? FR| |]; subst. constructor. clear N R.
    induction F as [|t v ts vs H F IH]; constructor; [exact (json_value_jsonable fl t v H (Forall_inv FN) (Forall_inv FR))|exact (IH (Forall_inv_tail FN) (Forall_inv_tail FR))].
  - inversion N as [| | | |? _ FN|]; subst. inversion R as [| | | |? ND FR|]; subst. constructor; [exact L|exact ND| |].
    + clear - FN. induction FN as [|f fs [[I _] _] _ IH]; constructor; [exact (identifier_json _ I)|exact IH].
    + clear N R L ND. induction F as [|f v fs vs H F IH]; constructor;
        [exact (json_value_jsonable fl _ v H (proj2 (Forall_inv FN)) (Forall_inv FR))|exact (IH (Forall_inv_tail FN) (Forall_inv_tail FR))].
  - inversion N as [| | | | |? _ FN]; subst. inversion R as [| | | | |? ND FR]; subst. rewrite Forall_forall in FN, FR.
    pose proof (nth_error_In _ _ E) as I. econstructor; [exact ND|exact E|exact (identifier_json _ (proj1 (proj1 (FN _ I))))|].
    exact (json_value_jsonable fl t v H (proj2 (FN _ I)) (FR _ I)).
Qed.

Theorem parsed_json_round_trip alnum fl pf s t v src old : parse_type s = Ret (Ok t) -> no_repeats t -> presents src t [] v -> json_value fl t v ->
  exists bs text d, json_encode fl t src = Ret bs /\ utf8_decode bs = Some text /\
    json_decode alnum fl pf t text old = Ret (d, Ok tt) /\ presents (ds_source d) t [] v.
Proof.
  intros P R S V. apply json_round_trip_lemma; [exact S|]. exact (json_value_jsonable fl t v V (parsed_nameable s t P) R).
Qed.

Lemma repeated_json : exists s t v bs text d, parse_type s = Ret (Ok t) /\ typed t v /\ json_encode jx_fl t (val_source v) = Ret bs /\
  utf8_decode bs = Some text /\ json_decode jx_alnum jx_fl Debug t text [] = Ret (d, Err (EDuplicate (JsonModel.lit "a"))).
Proof.
  exists (JsonModel.lit "struct { a: u8, a: u8 }"), (TStruct [(JsonModel.lit "a", TPrim PU8); (JsonModel.lit "a", TPrim PU8)]), (VStruct [VPrim 1; VPrim 2]%Z).
  do 3 eexists. split; [vm_compute; reflexivity|]. split; [|split; [vm_compute; reflexivity|split; [vm_compute; reflexivity|vm_compute; reflexivity]]].
  repeat (constructor; try (unfold in_range; cbn; lia)).
Qed.
