(** * Property C105: JSON texts read with another type *)

From Coq Require Import Strings.String.
From Verif Require Import Base StrModel Utf8Model TypesModel MarshalModel MarshalSpec JsonModel JsonSpec WhiteSpec JsonDocSpec Prop_JsonDoc JsonRewriteSpec TypeGrammar JsonWidenSpec JsonWidenProofs JsonWidenMore.
Local Open Scope list_scope.
Local Open Scope Z_scope.

(** What is accepted for a type is accepted for a wider one, and stands for the same numbers, strings and labels. *)
Theorem wider_type_accepts : forall alnum fl pf t t' text v, all_structs (fun n => (n < 64)%nat) t -> all_structs (fun n => (n < 64)%nat) t' ->
  widens t t' -> stands_for alnum fl pf t text v -> exists v', carried t v t' v' /\ stands_for alnum fl pf t' text v'.
Proof. intros alnum fl pf t t' text v. exact (wide_stands alnum fl pf t t' text v). Qed.
Print Assumptions wider_type_accepts.

(** Changing nothing is widening, and so is widening twice. *)
Theorem widening_preorder : (forall t, no_repeats t -> widens t t) /\ (forall t t' t'', widens t t' -> widens t' t'' -> widens t t'').
Proof. split; [exact widens_same|exact widens_compose]. Qed.
Print Assumptions widening_preorder.

(** There is only one value with the same numbers, strings and labels. *)
Theorem carried_unique : forall t t' v v1 v2, no_repeats t -> widens t t' -> decoded t v -> carried t v t' v1 -> carried t v t' v2 -> v1 = v2.
Proof. exact carried_once. Qed.
Print Assumptions carried_unique.

(** A byte becomes a signed number of 16 bits, the fields change places, a character becomes a string, an enum gets a case
    in front. *)
Definition wn_old : ty := TStruct [(lit "n", TPrim PU8); (lit "c", TTuple [TPrim PChar; TEnum [(lit "x", TUnit)]])].
Definition wn_new : ty := TStruct [(lit "c", TTuple [TString; TEnum [(lit "w", TPrim PBool); (lit "x", TUnit)]]); (lit "n", TPrim PI16)].
Definition wn_text : str := lit "{""n"":200,""c"":[""q"",{""kind"":""x"",""value"":null}]}".

Lemma wn_widens : widens wn_old wn_new.
Proof.
  apply wd_struct; [reflexivity|cbn; repeat constructor; cbn; intuition discriminate|].
  intros l t [E|[E|[]]]; injection E as <- <-.
  - exists (TPrim PI16). split; [cbn; tauto|]. apply wd_integer; [unfold integer_prim; cbn; intuition discriminate..|].
    intros z. unfold in_range. cbn. lia.
  - exists (TTuple [TString; TEnum [(lit "w", TPrim PBool); (lit "x", TUnit)]]). split; [cbn; tauto|].
    apply wd_tuple. constructor; [apply wd_char|]. constructor; [|constructor]. apply wd_enum. intros k l t (N & _).
    destruct k as [|[|k]]; try discriminate N. injection N as <- <-. exists 1%nat, TUnit. split; [|constructor]. split; [reflexivity|].
    intros [|[|[|k]]] t' E; try discriminate E; lia.
Qed.

Example wider_type_accepts_ex :
  all_structs (fun n => (n < 64)%nat) wn_old /\ all_structs (fun n => (n < 64)%nat) wn_new /\ widens wn_old wn_new /\
  stands_for (fun _ => false) doc_fl Debug wn_old wn_text (VStruct [VPrim 200; VTuple [VPrim 113; VCase 0 VUnit]]) /\
  stands_for (fun _ => false) doc_fl Debug wn_new wn_text (VStruct [VTuple [VStr (utf8_encode [113]); VCase 1 VUnit]; VPrim 200]).
Proof.
  split; [repeat (constructor; cbn; try lia)|]. split; [repeat (constructor; cbn; try lia)|]. split; [exact wn_widens|].
  split; (eexists; split; [vm_compute; reflexivity|]; repeat first [reflexivity|econstructor]).
Qed.

Example widening_preorder_ex : no_repeats wn_old /\ widens wn_old wn_old /\ widens wn_old wn_new /\ widens wn_new wn_new /\ ~ widens wn_new wn_old.
Proof.
  assert (N : no_repeats wn_old) by (repeat (constructor; cbn; try (intuition discriminate))).
  assert (N' : no_repeats wn_new) by (repeat (constructor; cbn; try (intuition discriminate))).
  split; [exact N|]. split; [apply widening_preorder, N|]. split; [exact wn_widens|]. split; [apply widening_preorder, N'|].
  intros W. inversion W as [| | | | | |a b L Nd G|]; subst. destruct (G (lit "n") (TPrim PI16)) as (t & [E|[E|[]]] & V); [cbn; tauto|injection E as <-|discriminate E].
  inversion V as [| |p p' I I' H| | | | |]; subst. assert (A : in_range PI16 300) by (unfold in_range; cbn; lia). specialize (H _ A). unfold in_range in H. cbn in H. lia.
Qed.

Example carried_unique_ex :
  let v := VStruct [VPrim 200; VTuple [VPrim 113; VCase 0 VUnit]] in let v' := VStruct [VTuple [VStr (utf8_encode [113]); VCase 1 VUnit]; VPrim 200] in
  decoded wn_old v /\ carried wn_old v wn_new v' /\ forall v2, carried wn_old v wn_new v2 -> v2 = v'.
Proof.
  intros v v'. assert (D : decoded wn_old v).
  { apply de_struct. cbn [map snd]. repeat first [apply del_nil|apply del_cons]; [apply de_prim; unfold in_range; cbn; lia|].
    apply de_tuple. repeat first [apply del_nil|apply del_cons]; [apply de_prim; vm_compute; reflexivity|]. eapply de_enum; [reflexivity|constructor]. }
  assert (C : carried wn_old v wn_new v').
  { destruct (wider_type_accepts (fun _ => false) doc_fl Debug wn_old wn_new wn_text v) as (v2 & C & S).
    - repeat (constructor; cbn; try lia).
    - repeat (constructor; cbn; try lia).
    - exact wn_widens.
    - eexists. split; [vm_compute; reflexivity|]. repeat first [reflexivity|econstructor].
    - assert (E : v2 = v'); [|now rewrite <- E]. destruct S as (d & Ed & P). vm_compute in Ed. injection Ed as <-.
      eapply JsonDocProofs.presents_det; [exact P|]. repeat first [reflexivity|econstructor]. }
  split; [exact D|]. split; [exact C|]. intros v2 C2. apply (carried_unique wn_old wn_new v); auto.
  - repeat (constructor; cbn; try (intuition discriminate)).
  - exact wn_widens.
Qed.

(** A struct cannot get another field. *)
Theorem field_added_refuted : exists alnum fl pf fs f text v, all_structs (fun n => (n < 64)%nat) (TStruct (fs ++ [f])) /\
  stands_for alnum fl pf (TStruct fs) text v /\ forall v', ~ stands_for alnum fl pf (TStruct (fs ++ [f])) text v'.
Proof.
  exists (fun _ => false), doc_fl, Debug, [(lit "a", TPrim PU8)], (lit "b", TUnit), (lit "{""a"":1}"), (VStruct [VPrim 1]).
  split; [repeat (constructor; cbn; try lia)|]. split; [eexists; split; [vm_compute; reflexivity|]; repeat first [reflexivity|econstructor]|].
  intros v' (d & H & _). vm_compute in H. discriminate H.
Qed.
Print Assumptions field_added_refuted.

(** A text for a number that both types have may be accepted for one of them only: -0. *)
Theorem number_of_both_refuted : exists alnum fl pf p p' text z, integer_prim p /\ integer_prim p' /\ in_range p' z /\
  stands_for alnum fl pf (TPrim p) text (VPrim z) /\ forall v', ~ stands_for alnum fl pf (TPrim p') text v'.
Proof.
  exists (fun _ => false), doc_fl, Debug, PI8, PU8, (lit "-0"), 0. split; [unfold integer_prim; cbn; intuition discriminate|].
  split; [unfold integer_prim; cbn; intuition discriminate|]. split; [unfold in_range; cbn; lia|].
  split; [eexists; split; [vm_compute; reflexivity|]; repeat first [reflexivity|econstructor]|].
  intros v' (d & H & _). vm_compute in H. discriminate H.
Qed.
Print Assumptions number_of_both_refuted.
