(** * RFC 8259 texts and the documents of a type *)

From Coq Require Import Strings.String Sorting.Permutation Lia ZifyBool.
From Verif Require Import Base StrModel Utf8Model TypesModel MarshalModel MarshalSpec JsonModel JsonSpec JsonNum JsonRead WhiteSpec JsonDocSpec JsonDocProofs JsonRfcSpec.
Local Open Scope list_scope.
Local Open Scope Z_scope.

(** What follows a value: the end, white space, a comma or a closing bracket. *)
Definition follow (r : str) : Prop := match r with [] => True | c :: _ => In c [9; 10; 13; 32; 44; 93; 125] end.

Lemma ws_follow w r : ws w -> follow r -> follow (w ++ r).
Proof. intros Hw H. destruct Hw as [|c w Hc F]; [exact H|]. cbn in Hc |- *. tauto. Qed.

Section Rfc.
Context (alnum : Z -> bool) (fl : floats).

Let reads := JsonDocSpec.reads alnum.
Let document := document alnum fl.
Let elements := elements alnum fl.
Let members := members alnum fl.
Let value := rfc_value false.
Let items := rfc_items false.
Let fields := rfc_fields false.

(** ** Symbols *)

Lemma ws_white w s x r : ws w -> reads s x r -> reads (w ++ s) x r.
Proof.
  induction 1 as [|c w Hc F IH]; intros H; [exact H|]. cbn [app]. apply rd_white; [|exact (IH H)]. cbn in Hc.
  destruct Hc as [<-|[<-|[<-|[<-|[]]]]]; cbn; tauto.
Qed.

Lemma follow_separator r : follow r -> separator alnum r.
Proof.
  destruct r as [|c r]; [exact (fun H => H)|]. cbn [follow In]. intros H.
  repeat (destruct H as [<-|H]; [split; [reflexivity|discriminate]|]). destruct H.
Qed.

Lemma punct c w r : In c (lit "[]{},:") -> ws w -> reads (w ++ c :: r) (SPunct c) r.
Proof. intros H Hw. apply ws_white; [exact Hw|]. apply rd_punct, H. Qed.

Lemma word x w r : In x [lit "null"; lit "true"; lit "false"] -> ws w -> follow r -> reads (w ++ x ++ r) (SWord x) r.
Proof.
  intros H Hw F. apply ws_white; [exact Hw|]. apply rd_word; [exact H|]. intros c r' -> W. apply word_character_iff in W.
  apply follow_separator in F as [F _]. congruence.
Qed.

Lemma number x w r : rfc_number x -> ws w -> follow r -> reads (w ++ x ++ r) (SNumber x) r.
Proof.
  intros (sg & i & f & e & -> & Hs & Hi & Hf & He) Hw F. apply ws_white; [exact Hw|].
  assert (N : number_lexeme (sg ++ i ++ f ++ e)).
  { exists sg, i, f, e. repeat split; auto. destruct Hf as [->|(ds & -> & _ & D)]; [left; reflexivity|]. right. exists ds. auto. }
  pose proof (number_body_lexeme alnum _ r N (follow_separator r F)) as B. apply number_iff in B as (p & E & L & I).
  apply app_inv_tail in E. subst p. apply rd_number; assumption.
Qed.

Lemma chars_contents s x r : rfc_chars false s x -> contents (s ++ r) r x.
Proof.
  induction 1 as [|c s x H1 H2 H3 _ IH|c e s x H _ IH|ds s x [H4 L] Sr _ IH|ds ds' s x E]; [| | | |discriminate E].
  - apply ct_nil.
  - cbn [app]. apply ct_plain; try assumption. lia.
  - cbn [app]. apply ct_escape; [|exact IH]. cbn [In] in *. tauto.
  - cbn [app]. rewrite <- app_assoc. apply ct_unicode; [|exact Sr|exact IH]. split; [exact H4|]. split; [rewrite L; constructor|]. rewrite L. lia.
Qed.

Lemma text w s x r : rfc_chars false s x -> ws w -> reads (w ++ 34 :: s ++ 34 :: r) (SText x) r.
Proof. intros H Hw. apply ws_white; [exact Hw|]. apply rd_text. apply chars_contents, H. Qed.

(** ** Values are documents *)

Definition good (j : json) (s : str) : Prop :=
  forall t v w r, means fl t j v -> ws w -> follow r -> document t (w ++ s ++ r) v r.

Lemma comma ts s vs r w : ts <> [] -> elements true ts s vs r -> ws w -> elements false ts (w ++ 44 :: s) vs r.
Proof.
  intros N H Hw. inversion H as [|? ? ? ? ? ? ? ? ? Hs Hd He]; subst; [congruence|]. cbn in Hs. subst.
  eapply el_cons; [|exact Hd|exact He]. apply punct; [cbn; tauto|exact Hw].
Qed.

Lemma comma_members ms s r w : ms <> [] -> members true ms s r -> ws w -> members false ms (w ++ 44 :: s) r.
Proof.
  intros N H Hw. inversion H as [|? ? ? ? ? ? ? ? ? ? ? Hs Hk Hc Hd He]; subst; [congruence|]. cbn in Hs. subst.
  eapply mb_cons; [|exact Hk|exact Hc|exact Hd|exact He]. apply punct; [cbn; tauto|exact Hw].
Qed.

Definition good_items (l : list json) (s : str) : Prop :=
  l <> [] /\ forall ts vs r, means_items fl ts l vs -> exists w, ws w /\ elements true ts (s ++ 93 :: r) vs (w ++ 93 :: r).

(** The members as those of a struct, the last one as [value] of an enum, and all of them as an enum. *)
Definition good_fields (ms : list (str * json)) (s : str) : Prop :=
  ms <> [] /\
  (forall l r, means_fields fl l ms -> exists w, ws w /\ members true l (s ++ 125 :: r) (w ++ 125 :: r)) /\
  (forall t j v r, ms = [(lit "value", j)] -> means fl t j v -> exists s6 s7 s8,
     reads (s ++ 125 :: r) (SText (lit "value")) s6 /\ reads s6 (SPunct 58) s7 /\ document t s7 v s8 /\ reads s8 (SPunct 125) r) /\
  (forall l t j v r, ms = [(lit "kind", RText l); (lit "value", j)] -> means fl t j v -> exists s2 s3 s4 s5 s6 s7 s8,
     reads (s ++ 125 :: r) (SText (lit "kind")) s2 /\ reads s2 (SPunct 58) s3 /\ reads s3 (SText l) s4 /\ reads s4 (SPunct 44) s5 /\
     reads s5 (SText (lit "value")) s6 /\ reads s6 (SPunct 58) s7 /\ document t s7 v s8 /\ reads s8 (SPunct 125) r).

Lemma good_number x s : (forall w r, ws w -> follow r -> reads (w ++ s ++ r) (SNumber x) r) -> good (RNumber x) s.
Proof.
  intros H t v w r M Hw F. inversion M as [| | |? ? ? ? I [E|E] N R|? ? ? ? I [E|E] N| | | |]; subst; try discriminate E.
  - injection E as <-. eapply dc_integer; [exact I|left; apply H; assumption|exact N|exact R].
  - injection E as <-. eapply dc_float; [exact I|left; apply H; assumption|exact N].
Qed.

Lemma good_text x s : (forall w r, ws w -> reads (w ++ s ++ r) (SText x) r) -> good (RText x) s.
Proof.
  intros H t v w r M Hw F. inversion M as [| | |? ? ? ? I [E|E] N R|? ? ? ? I [E|E] N| | | |]; subst; try discriminate E.
  - apply dc_char, H, Hw.
  - injection E as <-. eapply dc_integer; [exact I|right; apply H; assumption|exact N|exact R].
  - injection E as <-. eapply dc_float; [exact I|right; apply H; assumption|exact N].
  - apply dc_string, H, Hw.
Qed.

Lemma text_value s w r x : rfc_chars false s x -> ws w -> reads (w ++ (34 :: s ++ [34]) ++ r) (SText x) r.
Proof. intros H Hw. cbn [app]. rewrite <- app_assoc. apply text; assumption. Qed.

Lemma value_text_is l s w r : value (RText l) s -> ws w -> reads (w ++ s ++ r) (SText l) r.
Proof. intros H Hw. inversion H; subst. apply text_value; assumption. Qed.

Ltac push := rewrite <- ?app_assoc; cbn [app]; rewrite <- ?app_assoc; cbn [app]; rewrite <- ?app_assoc; cbn [app]; rewrite <- ?app_assoc; cbn [app].
Ltac fol := cbn; repeat (first [left; reflexivity|right]).

Lemma number_means t x v : means fl t (RNumber x) v -> exists p, t = TPrim p.
Proof. inversion 1; subst; eauto. Qed.

Lemma values_good : forall j s, value j s -> good j s.
Proof.
  apply (rfc_value_mind false good good_items (fun ms s => fields ms s /\ good_fields ms s)).
  - intros t v w r M Hw F. inversion M as [| | |? ? ? ? I [E|E]|? ? ? ? I [E|E]| | | |]; subst; try discriminate E. apply dc_unit, word; [cbn; tauto|exact Hw|exact F].
  - intros t v w r M Hw F. inversion M as [| | |? ? ? ? I [E|E]|? ? ? ? I [E|E]| | | |]; subst; try discriminate E. apply dc_true, word; [cbn; tauto|exact Hw|exact F].
  - intros t v w r M Hw F. inversion M as [| | |? ? ? ? I [E|E]|? ? ? ? I [E|E]| | | |]; subst; try discriminate E. apply dc_false, word; [cbn; tauto|exact Hw|exact F].
  - intros x H. apply good_number. intros w r Hw F. apply number; assumption.
  - intros s x H. apply good_text. intros w r Hw. apply text_value; assumption.
  - intros w0 H t v w r M Hw F. inversion M as [| | |? ? ? ? I [E|E]|? ? ? ? I [E|E]| |ts l vs Mi| |]; subst; try discriminate E. inversion Mi; subst. push.
    eapply dc_tuple; [apply punct; [cbn; tauto|exact Hw]|apply el_nil|apply punct; [cbn; tauto|exact H]].
  - intros l s _ (_ & H) t v w r M Hw F. inversion M as [| | |? ? ? ? I [E|E]|? ? ? ? I [E|E]| |ts l' vs Mi| |]; subst; try discriminate E. push.
    destruct (H ts vs r Mi) as (w' & Hw' & El).
    eapply dc_tuple; [apply punct; [cbn; tauto|exact Hw]|exact El|apply punct; [cbn; tauto|exact Hw']].
  - intros w0 H t v w r M Hw F. inversion M as [| | |? ? ? ? I [E|E]|? ? ? ? I [E|E]| | |fs ms l vs Nd Ln Pm Mf|]; subst; try discriminate E. inversion Mf; subst. push.
    eapply dc_struct; [exact Nd|exact Ln|exact Pm|apply punct; [cbn; tauto|exact Hw]|apply mb_nil|apply punct; [cbn; tauto|exact H]].
  - intros ms s _ (_ & _ & H & _ & K) t v w r M Hw F.
    inversion M as [| | |? ? ? ? I [E|E]|? ? ? ? I [E|E]| | |fs ms' l vs Nd Ln Pm Mf|cs k l t' j v' Nt La Mv]; subst; try discriminate E; push.
    + destruct (H _ r Mf) as (w' & Hw' & El).
      eapply dc_struct; [exact Nd|exact Ln|exact Pm|apply punct; [cbn; tauto|exact Hw]|exact El|apply punct; [cbn; tauto|exact Hw']].
    + destruct (K _ _ _ _ r eq_refl Mv) as (s2 & s3 & s4 & s5 & s6 & s7 & s8 & H2 & H3 & H4 & H5 & H6 & H7 & H8 & H9).
      eapply dc_enum; [exact Nt|exact La|apply punct; [cbn; tauto|exact Hw]|exact H2|exact H3|exact H4|exact H5|exact H6|exact H7|exact H8|exact H9].
  - intros j w s w' Hw Hv G Hw'. split; [discriminate|]. intros ts vs r M. inversion M as [|t ts' ? ? v vs' Mv Mi]; subst. inversion Mi; subst.
    exists w'. split; [exact Hw'|]. push. eapply el_cons; [reflexivity| |apply el_nil]. apply G; [exact Mv|exact Hw|]. apply ws_follow; [exact Hw'|fol].
  - intros j l w s w' s' Hw Hv G Hw' _ (Nl & H). split; [discriminate|]. intros ts vs r M. inversion M as [|t ts' ? ? v vs' Mv Mi]; subst.
    destruct (H _ _ r Mi) as (w1 & Hw1 & El). exists w1. split; [exact Hw1|]. push.
    eapply el_cons; [reflexivity|apply G; [exact Mv|exact Hw|apply ws_follow; [exact Hw'|fol]]|].
    apply comma; [|exact El|exact Hw']. intros ->. inversion Mi; subst. congruence.
  - intros k j w ks w1 w2 s w3 Hw Hk Hw1 Hw2 Hv G Hw3. split; [constructor; assumption|]. split; [discriminate|]. split; [|split].
    + intros l r M. inversion M as [|? t v ? ? ? Mv Mf]; subst. inversion Mf; subst. exists w3. split; [exact Hw3|]. push.
      eapply mb_cons; [reflexivity|apply text; eassumption|apply punct; [cbn; tauto|exact Hw1]|apply G; [exact Mv|exact Hw2|apply ws_follow; [exact Hw3|fol]]|apply mb_nil].
    + intros t j' v r E Mv. injection E as -> ->. push. eexists _, _, _. split; [apply text; eassumption|]. split; [apply punct; [cbn; tauto|exact Hw1]|].
      split; [apply G; [exact Mv|exact Hw2|]|apply punct; [cbn; tauto|exact Hw3]]. apply ws_follow; [exact Hw3|fol].
    + intros l t j' v r E. discriminate E.
  - intros k j ms w ks w1 w2 s w3 s' Hw Hk Hw1 Hw2 Hv G Hw3 Hf (_ & Nm & H & K & _). split; [constructor; assumption|]. split; [discriminate|]. split; [|split].
    + intros l r M. inversion M as [|? t v ? ? ? Mv Mf]; subst. destruct (H _ r Mf) as (w4 & Hw4 & El). exists w4. split; [exact Hw4|]. push.
      eapply mb_cons; [reflexivity|apply text; eassumption|apply punct; [cbn; tauto|exact Hw1]|apply G; [exact Mv|exact Hw2|apply ws_follow; [exact Hw3|fol]]|].
      apply comma_members; [|exact El|exact Hw3]. intros ->. inversion Mf; subst. congruence.
    + intros t j' v r E. injection E as -> -> ->. congruence.
    + intros l t j' v r E Mv. injection E as -> -> ->. destruct (K t j' v r eq_refl Mv) as (s6 & s7 & s8 & H6 & H7 & H8 & H9). push.
      eexists _, _, _, _, _, _, _. split; [apply text; eassumption|]. split; [apply punct; [cbn; tauto|exact Hw1]|].
      split; [apply value_text_is; [exact Hv|exact Hw2]|]. split; [apply punct; [cbn; tauto|exact Hw3]|]. split; [exact H6|]. split; [exact H7|]. split; [exact H8|exact H9].
Qed.

(** ** Documents that are RFC texts mean what they say *)

Definition exact_value (j : json) (s : str) : Prop :=
  forall t v w r r', ws w -> follow r -> document t (w ++ s ++ r) v r' -> means fl t j v /\ r' = r.

Definition exact_items (l : list json) (s : str) : Prop :=
  forall ts vs r s2 r', elements true ts (s ++ 93 :: r) vs s2 -> reads s2 (SPunct 93) r' -> means_items fl ts l vs /\ r' = r.

Definition exact_fields (ms : list (str * json)) (s : str) : Prop :=
  (forall l r s2 r', members true l (s ++ 125 :: r) s2 -> reads s2 (SPunct 125) r' -> means_fields fl l ms /\ r' = r) /\
  (forall k t v r s6 s7 s8 r', reads (s ++ 125 :: r) (SText k) s6 -> reads s6 (SPunct 58) s7 -> document t s7 v s8 -> reads s8 (SPunct 125) r' ->
     exists j, ms = [(k, j)] /\ means fl t j v /\ r' = r) /\
  (forall k k' l t v r s2 s3 s4 s5 s6 s7 s8 r', reads (s ++ 125 :: r) (SText k) s2 -> reads s2 (SPunct 58) s3 -> reads s3 (SText l) s4 ->
     reads s4 (SPunct 44) s5 -> reads s5 (SText k') s6 -> reads s6 (SPunct 58) s7 -> document t s7 v s8 -> reads s8 (SPunct 125) r' ->
     exists j, ms = [(k, RText l); (k', j)] /\ means fl t j v /\ r' = r).

(** The first symbol of a value. *)
Definition symbol_of (j : json) : symbol :=
  match j with
  | RNull => SWord (lit "null")
  | RBool b => SWord (if b then lit "true" else lit "false")
  | RNumber x => SNumber x
  | RText x => SText x
  | RArray _ => SPunct 91
  | RObject _ => SPunct 123
  end.

Lemma first_symbol j s w r : value j s -> ws w -> follow r -> exists r', reads (w ++ s ++ r) (symbol_of j) r'.
Proof.
  intros H Hw F. destruct H; cbn [symbol_of].
  - exists r. apply word; [cbn; tauto|exact Hw|exact F].
  - exists r. apply word; [cbn; tauto|exact Hw|exact F].
  - exists r. apply word; [cbn; tauto|exact Hw|exact F].
  - exists r. apply number; assumption.
  - exists r. apply text_value; assumption.
  - eexists. push. apply punct; [cbn; tauto|exact Hw].
  - eexists. push. apply punct; [cbn; tauto|exact Hw].
  - eexists. push. apply punct; [cbn; tauto|exact Hw].
  - eexists. push. apply punct; [cbn; tauto|exact Hw].
Qed.

Lemma text_symbol j s w r x r' : value j s -> ws w -> follow r -> reads (w ++ s ++ r) (SText x) r' -> j = RText x /\ r' = r.
Proof.
  intros H Hw F R. destruct (first_symbol j s w r H Hw F) as (r1 & R1). destruct (reads_det alnum _ _ _ _ _ R R1) as [E ->].
  destruct j; cbn in E; try discriminate E. injection E as <-. split; [reflexivity|].
  exact (proj2 (reads_det alnum _ _ _ _ _ R1 (value_text_is x s w r H Hw))).
Qed.

Ltac det R1 R2 := let E := fresh "E" in destruct (reads_det alnum _ _ _ _ _ R1 R2) as [E ?]; try discriminate E; subst.

Lemma exact_simple j s : value j s ->
  (forall w r, ws w -> follow r -> reads (w ++ s ++ r) (symbol_of j) r) ->
  (forall x, symbol_of j <> SPunct x) -> exact_value j s.
Proof.
  intros Hv Hr Hp t v w r r' Hw F D. specialize (Hr w r Hw F). inversion D; subst;
    repeat match goal with H : _ \/ _ |- _ => destruct H end;
    match goal with H : JsonDocSpec.reads alnum (w ++ s ++ r) ?x ?y |- _ => destruct (reads_det alnum _ _ _ _ _ H Hr) as [E ->] end;
    try (symmetry in E; exfalso; eapply Hp; exact E);
    destruct j; cbn [symbol_of] in E; try discriminate E; try (destruct b; discriminate E); try (split; [|reflexivity]).
  - constructor.
  - destruct b; [apply (me_bool fl true)|discriminate E].
  - destruct b; [discriminate E|apply (me_bool fl false)].
  - injection E as <-. constructor.
  - injection E as <-. eapply me_integer; [eassumption|first [left; reflexivity|right; reflexivity]|eassumption..].
  - injection E as <-. eapply me_integer; [eassumption|first [left; reflexivity|right; reflexivity]|eassumption..].
  - injection E as <-. eapply me_float; [eauto|first [left; reflexivity|right; reflexivity]|eassumption..].
  - injection E as <-. eapply me_float; [eauto|first [left; reflexivity|right; reflexivity]|eassumption..].
  - injection E as <-. eapply me_float; [eauto|first [left; reflexivity|right; reflexivity]|eassumption..].
  - injection E as <-. eapply me_float; [eauto|first [left; reflexivity|right; reflexivity]|eassumption..].
  - injection E as <-. constructor.
Qed.

(** Only arrays are read as tuples, only objects as structs and enums. *)
Lemma array_inv t s v r' s1 : document t s v r' -> reads s (SPunct 91) s1 ->
  exists ts vs s2, t = TTuple ts /\ v = VTuple vs /\ elements true ts s1 vs s2 /\ reads s2 (SPunct 93) r'.
Proof.
  intros D R. inversion D; subst; repeat match goal with H : _ \/ _ |- _ => destruct H end;
    match goal with H : JsonDocSpec.reads alnum s ?x ?y |- _ => destruct (reads_det alnum _ _ _ _ _ R H) as [E ->]; try discriminate E end.
  eauto 10.
Qed.

Lemma object_inv t s v r' s1 : document t s v r' -> reads s (SPunct 123) s1 ->
  (exists fs vs l s2, t = TStruct fs /\ v = VStruct vs /\ NoDup (map fst fs) /\ List.length vs = List.length fs /\ Permutation l (combine fs vs) /\
     members true l s1 s2 /\ reads s2 (SPunct 125) r') \/
  (exists cs k l t' v' s2 s3 s4 s5 s6 s7 s8, t = TEnum cs /\ v = VCase k v' /\ nth_error cs k = Some (l, t') /\
     (forall k' t', nth_error cs k' = Some (l, t') -> (k' <= k)%nat) /\
     reads s1 (SText (lit "kind")) s2 /\ reads s2 (SPunct 58) s3 /\ reads s3 (SText l) s4 /\ reads s4 (SPunct 44) s5 /\
     reads s5 (SText (lit "value")) s6 /\ reads s6 (SPunct 58) s7 /\ document t' s7 v' s8 /\ reads s8 (SPunct 125) r').
Proof.
  intros D R. inversion D; subst; repeat match goal with H : _ \/ _ |- _ => destruct H end;
    match goal with H : JsonDocSpec.reads alnum s ?x ?y |- _ => destruct (reads_det alnum _ _ _ _ _ R H) as [E ->]; try discriminate E end.
  - left. eexists _, _, _, _. split; [reflexivity|]. split; [reflexivity|]. repeat (split; [eassumption|]). eassumption.
  - right. eexists _, _, _, _, _, _, _, _, _, _, _, _. split; [reflexivity|]. split; [reflexivity|]. repeat (split; [eassumption|]). eassumption.
Qed.

Lemma document_no_end t s v r r' : document t s v r -> ~ reads s (SPunct 93) r'.
Proof.
  intros D R. inversion D; subst; repeat match goal with H : _ \/ _ |- _ => destruct H end;
    match goal with H : JsonDocSpec.reads alnum s ?x ?y |- _ => destruct (reads_det alnum _ _ _ _ _ R H) as [E _]; discriminate E end.
Qed.

Lemma no_punct j s w r x r' : value j s -> ws w -> follow r -> In x [44; 58; 93; 125] -> ~ reads (w ++ s ++ r) (SPunct x) r'.
Proof.
  intros H Hw F I R. destruct (first_symbol j s w r H Hw F) as (r1 & R1). destruct (reads_det alnum _ _ _ _ _ R R1) as [E _].
  destruct j; cbn in E; try discriminate E; injection E as ->; cbn in I; intuition discriminate.
Qed.

Lemma comma_inv ts w s vs r : ws w -> elements false ts (w ++ 44 :: s) vs r -> (ts = [] /\ vs = [] /\ r = w ++ 44 :: s) \/ elements true ts s vs r.
Proof.
  intros Hw H. inversion H as [|? ? ? ? ? ? ? ? ? Hs Hd He]; subst; [left; auto|]. right. cbn [separated] in Hs.
  pose proof (punct 44 w s ltac:(cbn; tauto) Hw) as P. destruct (reads_det alnum _ _ _ _ _ Hs P) as [_ ->]. eapply el_cons; [reflexivity|exact Hd|exact He].
Qed.

Lemma comma_members_inv ms w s r : ws w -> members false ms (w ++ 44 :: s) r -> (ms = [] /\ r = w ++ 44 :: s) \/ members true ms s r.
Proof.
  intros Hw H. inversion H as [|? ? ? ? ? ? ? ? ? ? ? Hs Hk Hc Hd He]; subst; [left; auto|]. right. cbn [separated] in Hs.
  pose proof (punct 44 w s ltac:(cbn; tauto) Hw) as P. destruct (reads_det alnum _ _ _ _ _ Hs P) as [_ ->].
  eapply mb_cons; [reflexivity|exact Hk|exact Hc|exact Hd|exact He].
Qed.

Lemma end_of_items w x r ts vs s2 : ws w -> elements false ts (w ++ x :: r) vs s2 -> In x [93; 125] -> ts = [] /\ vs = [] /\ s2 = w ++ x :: r.
Proof.
  intros Hw H I. inversion H as [|? ? ? ? ? ? ? ? ? Hs Hd He]; subst; [auto|]. exfalso. cbn [separated] in Hs.
  assert (P : reads (w ++ x :: r) (SPunct x) r) by (apply punct; [cbn in *; tauto|exact Hw]).
  destruct (reads_det alnum _ _ _ _ _ Hs P) as [E _]. injection E as <-. cbn in I. intuition discriminate.
Qed.

Lemma end_of_members w x r l s2 : ws w -> members false l (w ++ x :: r) s2 -> In x [93; 125] -> l = [] /\ s2 = w ++ x :: r.
Proof.
  intros Hw H I. inversion H as [|? ? ? ? ? ? ? ? ? ? ? Hs Hk Hc Hd He]; subst; [auto|]. exfalso. cbn [separated] in Hs.
  assert (P : reads (w ++ x :: r) (SPunct x) r) by (apply punct; [cbn in *; tauto|exact Hw]).
  destruct (reads_det alnum _ _ _ _ _ Hs P) as [E _]. injection E as <-. cbn in I. intuition discriminate.
Qed.

Lemma one_punct w x y r r' : ws w -> reads (w ++ x :: r) (SPunct y) r' -> In x (lit "[]{},:") -> y = x /\ r' = r.
Proof.
  intros Hw R I. destruct (reads_det alnum _ _ _ _ _ R (punct x w r I Hw)) as [E ->]. injection E as ->. auto.
Qed.

Lemma one_text w ks k x r r' : ws w -> rfc_chars false ks k -> reads (w ++ 34 :: ks ++ 34 :: r) (SText x) r' -> x = k /\ r' = r.
Proof. intros Hw Hk R. destruct (reads_det alnum _ _ _ _ _ R (text w ks k r Hk Hw)) as [E ->]. injection E as ->. auto. Qed.

Lemma text_no_punct w ks k x r r' : ws w -> rfc_chars false ks k -> ~ reads (w ++ 34 :: ks ++ 34 :: r) (SPunct x) r'.
Proof. intros Hw Hk R. destruct (reads_det alnum _ _ _ _ _ R (text w ks k r Hk Hw)) as [E _]. discriminate E. Qed.

Ltac mem := cbn; tauto.

Lemma values_exact : forall j s, value j s -> exact_value j s.
Proof.
  apply (rfc_value_mind false exact_value exact_items exact_fields).
  - apply exact_simple; [constructor|intros w r Hw F; apply word; [mem|exact Hw|exact F]|discriminate].
  - apply exact_simple; [constructor|intros w r Hw F; apply word; [mem|exact Hw|exact F]|discriminate].
  - apply exact_simple; [constructor|intros w r Hw F; apply word; [mem|exact Hw|exact F]|discriminate].
  - intros x H. apply exact_simple; [constructor; exact H|intros w r Hw F; apply number; assumption|discriminate].
  - intros s x H. apply exact_simple; [constructor; exact H|intros w r Hw F; apply text_value; assumption|discriminate].
  - intros w0 H t v w r r' Hw F D. revert D. push. intros D.
    destruct (array_inv _ _ _ _ _ D (punct 91 w _ ltac:(mem) Hw)) as (ts & vs & s2 & -> & -> & El & R).
    inversion El as [|? ? ? ? ? ? ? ? ? Hs Hd He]; subst.
    + destruct (one_punct _ _ _ _ _ H R ltac:(mem)) as [_ ->]. split; [repeat constructor|reflexivity].
    + cbn [separated] in Hs. subst. exfalso. eapply document_no_end; [exact Hd|apply punct; [mem|exact H]].
  - intros l s _ H t v w r r' Hw F D. revert D. push. intros D.
    destruct (array_inv _ _ _ _ _ D (punct 91 w _ ltac:(mem) Hw)) as (ts & vs & s2 & -> & -> & El & R).
    destruct (H _ _ _ _ _ El R) as [M ->]. split; [constructor; exact M|reflexivity].
  - intros w0 H t v w r r' Hw F D. revert D. push. intros D.
    destruct (object_inv _ _ _ _ _ D (punct 123 w _ ltac:(mem) Hw)) as [(fs & vs & l & s2 & -> & -> & Nd & Ln & Pm & El & R)|(cs & k & l & t' & v' & s2 & s3 & s4 & s5 & s6 & s7 & s8 & _ & _ & _ & _ & R & _)].
    + inversion El as [|? ? ? ? ? ? ? ? ? ? ? Hs Hk Hc Hd He]; subst.
      * destruct (one_punct _ _ _ _ _ H R ltac:(mem)) as [_ ->]. split; [|reflexivity]. eapply me_struct; [exact Nd|exact Ln|exact Pm|constructor].
      * cbn [separated] in Hs. subst. destruct (reads_det alnum _ _ _ _ _ Hk (punct 125 w0 r ltac:(mem) H)) as [E _]. discriminate E.
    + destruct (reads_det alnum _ _ _ _ _ R (punct 125 w0 r ltac:(mem) H)) as [E _]. discriminate E.
  - intros ms s _ (H & _ & K) t v w r r' Hw F D. revert D. push. intros D.
    destruct (object_inv _ _ _ _ _ D (punct 123 w _ ltac:(mem) Hw)) as [(fs & vs & l & s2 & -> & -> & Nd & Ln & Pm & El & R)|(cs & k & l & t' & v' & s2 & s3 & s4 & s5 & s6 & s7 & s8 & -> & -> & Nt & La & R2 & R3 & R4 & R5 & R6 & R7 & R8 & R9)].
    + destruct (H _ _ _ _ El R) as [M ->]. split; [|reflexivity]. eapply me_struct; [exact Nd|exact Ln|exact Pm|exact M].
    + destruct (K _ _ _ _ _ _ _ _ _ _ _ _ _ _ R2 R3 R4 R5 R6 R7 R8 R9) as (j & -> & M & ->). split; [|reflexivity]. eapply me_enum; [exact Nt|exact La|exact M].
  - intros j w s w' Hw Hv G Hw' ts vs r s2 r' El R. revert El. push. intros El.
    inversion El as [|? ? ? ? ? ? ? ? ? Hs Hd He]; subst.
    + exfalso. eapply (no_punct j s w (w' ++ 93 :: r)); [exact Hv|exact Hw|apply ws_follow; [exact Hw'|fol]| |exact R]. mem.
    + cbn [separated] in Hs. subst. destruct (G _ _ w (w' ++ 93 :: r) _ Hw ltac:(apply ws_follow; [exact Hw'|fol]) Hd) as [M ->].
      destruct (end_of_items _ _ _ _ _ _ Hw' He ltac:(mem)) as (-> & -> & ->). destruct (one_punct _ _ _ _ _ Hw' R ltac:(mem)) as [_ ->].
      split; [repeat constructor; exact M|reflexivity].
  - intros j l w s w' s' Hw Hv G Hw' Hl H ts vs r s2 r' El R. revert El. push. intros El.
    inversion El as [|? ? ? ? ? ? ? ? ? Hs Hd He]; subst.
    + exfalso. eapply (no_punct j s w (w' ++ 44 :: s' ++ 93 :: r)); [exact Hv|exact Hw|apply ws_follow; [exact Hw'|fol]| |exact R]. mem.
    + cbn [separated] in Hs. subst. destruct (G _ _ w (w' ++ 44 :: s' ++ 93 :: r) _ Hw ltac:(apply ws_follow; [exact Hw'|fol]) Hd) as [M ->].
      destruct (comma_inv _ _ _ _ _ Hw' He) as [(-> & -> & ->)|He'].
      * destruct (one_punct _ _ _ _ _ Hw' R ltac:(mem)) as [E _]. discriminate E.
      * destruct (H _ _ _ _ _ He' R) as [Mi ->]. split; [constructor; assumption|reflexivity].
  - intros k j w ks w1 w2 s w3 Hw Hk Hw1 Hw2 Hv G Hw3. split; [|split].
    + intros l r s2 r' El R. revert El. push. intros El. inversion El as [|? ? ? ? ? ? ? ? ? ? ? Hs Hk' Hc Hd He]; subst.
      * exfalso. eapply text_no_punct; [exact Hw|exact Hk|exact R].
      * cbn [separated] in Hs. subst. destruct (one_text _ _ _ _ _ _ Hw Hk Hk') as [-> ->]. destruct (one_punct _ _ _ _ _ Hw1 Hc ltac:(mem)) as [_ ->].
        destruct (G _ _ w2 (w3 ++ 125 :: r) _ Hw2 ltac:(apply ws_follow; [exact Hw3|fol]) Hd) as [M ->].
        destruct (end_of_members _ _ _ _ _ Hw3 He ltac:(mem)) as (-> & ->). destruct (one_punct _ _ _ _ _ Hw3 R ltac:(mem)) as [_ ->].
        split; [repeat constructor; exact M|reflexivity].
    + intros k' t v r s6 s7 s8 r' R6 R7 R8 R9. revert R6. push. intros R6. destruct (one_text _ _ _ _ _ _ Hw Hk R6) as [-> ->].
      destruct (one_punct _ _ _ _ _ Hw1 R7 ltac:(mem)) as [_ ->].
      destruct (G _ _ w2 (w3 ++ 125 :: r) _ Hw2 ltac:(apply ws_follow; [exact Hw3|fol]) R8) as [M ->].
      destruct (one_punct _ _ _ _ _ Hw3 R9 ltac:(mem)) as [_ ->]. eauto.
    + intros k0 k' l t v r s2 s3 s4 s5 s6 s7 s8 r' R2 R3 R4 R5 _ _ _ _. exfalso. revert R2. push. intros R2. destruct (one_text _ _ _ _ _ _ Hw Hk R2) as [-> ->].
      destruct (one_punct _ _ _ _ _ Hw1 R3 ltac:(mem)) as [_ ->].
      destruct (text_symbol j s w2 (w3 ++ 125 :: r) _ _ Hv Hw2 ltac:(apply ws_follow; [exact Hw3|fol]) R4) as [_ ->].
      destruct (one_punct _ _ _ _ _ Hw3 R5 ltac:(mem)) as [E _]. discriminate E.
  - intros k j ms w ks w1 w2 s w3 s' Hw Hk Hw1 Hw2 Hv G Hw3 Hf (H & K & _). split; [|split].
    + intros l r s2 r' El R. revert El. push. intros El. inversion El as [|? ? ? ? ? ? ? ? ? ? ? Hs Hk' Hc Hd He]; subst.
      * exfalso. eapply text_no_punct; [exact Hw|exact Hk|exact R].
      * cbn [separated] in Hs. subst. destruct (one_text _ _ _ _ _ _ Hw Hk Hk') as [-> ->]. destruct (one_punct _ _ _ _ _ Hw1 Hc ltac:(mem)) as [_ ->].
        destruct (G _ _ w2 (w3 ++ 44 :: s' ++ 125 :: r) _ Hw2 ltac:(apply ws_follow; [exact Hw3|fol]) Hd) as [M ->].
        destruct (comma_members_inv _ _ _ _ Hw3 He) as [(-> & ->)|He'].
        -- destruct (one_punct _ _ _ _ _ Hw3 R ltac:(mem)) as [E _]. discriminate E.
        -- destruct (H _ _ _ _ He' R) as [Mi ->]. split; [constructor; assumption|reflexivity].
    + intros k' t v r s6 s7 s8 r' R6 R7 R8 R9. exfalso. revert R6. push. intros R6. destruct (one_text _ _ _ _ _ _ Hw Hk R6) as [-> ->].
      destruct (one_punct _ _ _ _ _ Hw1 R7 ltac:(mem)) as [_ ->].
      destruct (G _ _ w2 (w3 ++ 44 :: s' ++ 125 :: r) _ Hw2 ltac:(apply ws_follow; [exact Hw3|fol]) R8) as [M ->].
      destruct (one_punct _ _ _ _ _ Hw3 R9 ltac:(mem)) as [E _]. discriminate E.
    + intros k0 k' l t v r s2 s3 s4 s5 s6 s7 s8 r' R2 R3 R4 R5 R6 R7 R8 R9. revert R2. push. intros R2. destruct (one_text _ _ _ _ _ _ Hw Hk R2) as [-> ->].
      destruct (one_punct _ _ _ _ _ Hw1 R3 ltac:(mem)) as [_ ->].
      destruct (text_symbol j s w2 (w3 ++ 44 :: s' ++ 125 :: r) _ _ Hv Hw2 ltac:(apply ws_follow; [exact Hw3|fol]) R4) as [-> ->].
      destruct (one_punct _ _ _ _ _ Hw3 R5 ltac:(mem)) as [_ ->].
      destruct (K _ _ _ _ _ _ _ _ R6 R7 R8 R9) as (j' & -> & M & ->). eauto.
Qed.
End Rfc.
